(** Setup3dProofs.v : facts about FFT3d::setup. *)

From Coq Require Import String.
From Verif Require Import Base Spec Pack3d Sched Remap Remap3d RemapInst RemapThms RemapTop Layout LayoutProofs Count Setup3d.

(** ** specification vocabulary *)

(** a dimension the library supports *)
Definition dim_ok (d : Z) : Prop := 2 <= d /\ smooth d.
Definition dims_ok3 (N : Z * Z * Z) : Prop := let '(x, y, z) := N in dim_ok x /\ dim_ok y /\ dim_ok z.
Definition ints3 (N : Z * Z * Z) : Prop := let '(x, y, z) := N in x <= INT_MAX /\ y <= INT_MAX /\ z <= INT_MAX.

(** bounds as documented, inside the grid *)
Definition inside3 (N : Z * Z * Z) (b : box3) : Prop :=
  let '(x, y, z) := N in
  legal3 b /\ 0 <= ilo b /\ ihi b < x /\ 0 <= jlo b /\ jhi b < y /\ 0 <= klo b /\ khi b < z.

Lemma tiling3_ext n N t u : (forall r, (r < n)%nat -> t r = u r) -> tiling3 n N t -> tiling3 n N u.
Proof.
  intros E (H1 & H2 & H3). split; [|split].
  - intros p r Hr. rewrite <- E by auto. apply H1; auto.
  - intros p r r' Hr Hr'. rewrite <- !E by auto. apply H2; auto.
  - intros p Hp. destruct (H3 p Hp) as (r & Hr & H). exists r. rewrite <- E by auto. auto.
Qed.

Lemma tiling3_covered n N t u : tiling3 n N t -> (forall p r, (r < n)%nat -> inb3 p (u r) -> inb3 p (grid3 N)) -> covered3 n t u.
Proof. intros (_ & _ & Hc) Hu p r Hr Hp. apply Hc. eauto. Qed.
Lemma tiling3_covered2 n N t u : tiling3 n N t -> tiling3 n N u -> covered3 n t u.
Proof. intros Ht Hu. eapply tiling3_covered; eauto. apply Hu. Qed.

Lemma box3_eqb_eq a b : box3_eqb a b = true <-> a = b.
Proof.
  unfold box3_eqb. rewrite !andb_true_iff, !Z.eqb_eq. destruct a, b; cbn. split.
  - intros (((((-> & ->) & ->) & ->) & ->) & ->). reflexivity.
  - intros [= -> -> -> -> -> ->]. tauto.
Qed.

Lemma anyrank_false n f : anyrank n f = false <-> forall r, (r < n)%nat -> f r = false.
Proof.
  unfold anyrank. rewrite <- not_true_iff_false, existsb_exists. split.
  - intros H r Hr. apply not_true_iff_false. intros E. apply H. exists r. split; auto. apply in_seq. lia.
  - intros H (r & Hr & E). apply in_seq in Hr. rewrite H in E by lia. discriminate.
Qed.

Lemma bad_index_false N b : bad_index N b = false <-> inside3 N b.
Proof.
  destruct N as [[x y] z]. unfold bad_index, inside3, legal3, ni, nj, nk.
  rewrite !orb_false_iff. rewrite !Z.gtb_ltb, !Z.geb_leb, !Z.ltb_ge, !Z.leb_gt. lia.
Qed.

Lemma psize3_vol b : legal3 b -> psize3 b = vol3 b.
Proof. intros (H1 & H2 & H3). unfold psize3, vol3. rewrite !Z.max_r by lia. reflexivity. Qed.
Lemma vol3_le_psize b : vol3 b <= Z.max 0 (psize3 b).
Proof.
  unfold vol3, psize3. destruct (Z.le_gt_cases (ni b) 0); [rewrite Z.max_l by lia; lia|].
  destruct (Z.le_gt_cases (nj b) 0); [rewrite (Z.max_l 0 (nj b)) by lia; lia|].
  destruct (Z.le_gt_cases (nk b) 0); [rewrite (Z.max_l 0 (nk b)) by lia; lia|].
  rewrite !(Z.max_r 0 (ni b)), !(Z.max_r 0 (nj b)), !(Z.max_r 0 (nk b)) by lia. lia.
Qed.
Lemma rot_psize3 rot b : perm_ok3 rot -> psize3 (rotb3 rot b) = psize3 b.
Proof. intros [-> | [-> | ->]]; unfold psize3, ni, nj, nk; cbn; lia. Qed.

Lemma sumranks_zsum n f : sumranks n f = zsum n f.
Proof. reflexivity. Qed.

Lemma zsum_ext n f g : (forall r, (r < n)%nat -> f r = g r) -> zsum n f = zsum n g.
Proof.
  intros H. unfold zsum. assert (H' : forall r, In r (seq 0 n) -> f r = g r) by (intros r Hr; apply in_seq in Hr; apply H; lia).
  induction (seq 0 n) as [|r l IH]; cbn [fold_right]; [reflexivity|]. rewrite (H' r) by (now left). rewrite IH; auto. intros; apply H'; now right.
Qed.

Lemma grid3_vol N : ints3 N -> dims_ok3 N -> vol3 (grid3 N) = let '(x, y, z) := N in x * y * z.
Proof.
  destruct N as [[x y] z]. intros _ ((H1 & _) & (H2 & _) & (H3 & _)). unfold vol3, ni, nj, nk. cbn. rewrite !Z.max_r by lia. 
  replace (x - 1 - 0 + 1) with x by lia. replace (y - 1 - 0 + 1) with y by lia. replace (z - 1 - 0 + 1) with z by lia. reflexivity.
Qed.

Lemma maxsizes_ge f l r m : In m l -> f m r <= maxsizes f l r.
Proof.
  unfold maxsizes. assert (Hmono : forall l s, s <= fold_left (fun s m => Z.max s (f m r)) l s).
  { induction l0 as [|x l0 IH]; intros s; cbn [fold_left]; [lia|]. specialize (IH (Z.max s (f x r))). lia. }
  generalize 0. induction l as [|x l IH]; intros s; [contradiction|]. cbn [fold_left]. intros [-> | Hin].
  - specialize (Hmono l (Z.max s (f m r))). lia.
  - apply IH; auto.
Qed.
Lemma maxsizes_nonneg f l r : 0 <= maxsizes f l r.
Proof.
  unfold maxsizes. assert (Hmono : forall l s, s <= fold_left (fun s m => Z.max s (f m r)) l s).
  { induction l0 as [|x l0 IH]; intros s; cbn [fold_left]; [lia|]. specialize (IH (Z.max s (f x r))). lia. }
  apply Hmono.
Qed.

(** the Remap3d objects of a forward and of a backward transform *)
Definition fwd_objs (f : fft3) : list rm3 := oobjs (f_prefast f) ++ objs (f_fastmid f) ++ objs (f_midslow f) ++ oobjs (f_postslow f).
Definition bwd_objs (f : fft3) : list rm3 := oobjs (f_preslow f) ++ oobjs (f_slowmid f) ++ oobjs (f_midfast f) ++ oobjs (f_postfast f).
Definition all_objs (f : fft3) : list rm3 := fwd_objs f ++ bwd_objs f.
Definition counted_objs (f : fft3) : list rm3 :=
  oobjs (f_prefast f) ++ objs (f_fastmid f) ++ objs (f_midslow f) ++ oobjs (f_postslow f) ++
  oobjs (f_preslow f) ++ oobjs (f_slowmid f) ++ counted_midfast (f_midfast f) ++ oobjs (f_postfast f).

Section S.
Variables (ar : areas) (n : nat) (st : settings) (N : Z * Z * Z) (permute : Z) (ins outs : nat -> box3).
Hypothesis L : area_laws ar.
Hypothesis Hn : (1 <= n)%nat.
Hypothesis HI : ints3 N.

Local Notation S := (setup3d ar n st N permute ins outs).

(** the processor grids of the stages *)
Definition grids (gf gm gs gb : Z * Z * Z) : Prop :=
  let '(x, y, z) := N in
  good_grid3 (Z.of_nat n) 1 y z gf /\ good_grid3 (Z.of_nat n) x 1 z gm /\ good_grid3 (Z.of_nat n) x y 1 gs /\
  (if st_exch st =? 0 then gb = (0, 0, 0) else good_grid3 (Z.of_nat n) x y z gb).

(** exact result of setup *)
Lemma setup3d_cases :
  (exists msg, S = SErr msg /\
     ~ (dims_ok3 N /\ (forall r, (r < n)%nat -> inside3 N (ins r)) /\
        zsum n (fun r => vol3 (ins r)) = (let '(x, y, z) := N in x * y * z))) \/
  (dims_ok3 N /\ (forall r, (r < n)%nat -> inside3 N (ins r)) /\
   zsum n (fun r => vol3 (ins r)) = (let '(x, y, z) := N in x * y * z) /\
   ((~ perm_ok3 permute /\ S = SUB) \/
    (perm_ok3 permute /\ exists f gf gm gs gb, S = SOk f /\ grids gf gm gs gb /\
       let pre := preflag n N ins in
       let same := layout_same n permute ins outs in
       let fast := fun r => if pre then fast_box3 N gf (Z.of_nat r) else ins r in
       let mid := fun r => mid_box3 N gm (Z.of_nat r) in
       let slow := fun r => if slow_internal n N permute outs then slow_box3 N gs (Z.of_nat r) else outs r in
       let brick := fun r => gbox3 N gb (Z.of_nat r) in
       let post := postflag n permute outs slow in
       f_n f = n /\ f_N f = N /\ f_perm f = permute /\ f_pack f = st_pack st /\ f_exch f = negb (st_exch st =? 0) /\
       f_in f = ins /\ f_out f = outs /\ f_fast f = fast /\ f_mid f = mid /\ f_slow f = slow /\ f_brick f = brick /\
       f_pre f = pre /\ f_post f = post /\ f_same f = same /\
       f_prefast f = (if pre then Some (plain_pair st 0 0 ins fast) else None) /\
       f_fastmid f = pencil_pair st 0 1 fast brick mid /\
       f_midslow f = pencil_pair st 1 1 mid brick slow /\
       f_postslow f = (if post then Some (plain_pair st 2 ((permute + 1) mod 3) slow outs) else None) /\
       f_preslow f = (if same then None else if post then Some (plain_pair st permute ((5 - permute) mod 3) outs slow) else None) /\
       f_slowmid f = (if same then None else Some (pencil_pair st 2 2 slow brick mid)) /\
       f_midfast f = (if same then None else Some (pencil_pair st 1 2 mid brick fast)) /\
       f_postfast f = (if same then None else if pre then Some (plain_pair st 0 0 fast ins) else None) /\
       f_sendsize f = maxsizes (rm_ssize n st) (counted_objs f) /\
       f_recvsize f = maxsizes (rm_rsize n st) (counted_objs f) /\
       (forall r, f_fftsize f r = let s := Z.max (Z.max (Z.max (Z.max (psize3 (ins r)) (psize3 (outs r))) (psize3 (fast r))) (psize3 (mid r))) (psize3 (slow r)) in
                      if negb (st_exch st =? 0) then Z.max s (psize3 (brick r)) else s)))).
Proof.
  unfold grids. destruct N as [[x y] z] eqn:EN. unfold setup3d. cbn [dims_ok3 ints3] in *.
  assert (HP : 1 <= Z.of_nat n) by lia.
  destruct ((x <? 2) || (y <? 2) || (z <? 2)) eqn:Ed.
  { left. eexists. split; [reflexivity|]. rewrite !orb_true_iff, !Z.ltb_lt in Ed. unfold dim_ok. lia. }
  rewrite !orb_false_iff, !Z.ltb_ge in Ed. destruct Ed as ((Dx & Dy) & Dz).
  destruct (prime_factorable_spec x ltac:(lia)) as (bx & -> & Bx).
  destruct (prime_factorable_spec y ltac:(lia)) as (by_ & -> & By).
  destruct (prime_factorable_spec z ltac:(lia)) as (bz & -> & Bz).
  unfold dim_ok.
  destruct bx; [|left; eexists; split; [reflexivity|]; intros (((_ & H) & _) & _); apply Bx in H; discriminate].
  destruct by_; [|left; eexists; split; [reflexivity|]; intros ((_ & (_ & H) & _) & _); apply By in H; discriminate].
  destruct bz; [|left; eexists; split; [reflexivity|]; intros ((_ & _ & (_ & H)) & _); apply Bz in H; discriminate].
  cbn [negb].
  assert (D : (2 <= x /\ smooth x) /\ (2 <= y /\ smooth y) /\ (2 <= z /\ smooth z)) by (rewrite <- Bx, <- By, <- Bz; auto).
  destruct (anyrank n (fun r => bad_index (x, y, z) (ins r))) eqn:Ei.
  { left. eexists. split; [reflexivity|]. intros (_ & H & _). apply not_false_iff_true in Ei. apply Ei. apply anyrank_false.
    intros r Hr. apply bad_index_false. auto. }
  assert (Hin : forall r, (r < n)%nat -> inside3 (x, y, z) (ins r)).
  { intros r Hr. apply bad_index_false. revert r Hr. apply anyrank_false. exact Ei. }
  assert (Hvol : sumranks n (fun r => psize3 (ins r)) = zsum n (fun r => vol3 (ins r))).
  { rewrite sumranks_zsum. apply zsum_ext. intros r Hr. apply psize3_vol. apply (Hin r Hr). }
  rewrite Hvol. destruct (Z.eqb_spec (zsum n (fun r => vol3 (ins r))) (x * y * z)) as [Es|Es]; cbn [negb].
  2:{ left. eexists. split; [reflexivity|]. tauto. }
  destruct (Nat.ltb_spec NFACTOR (List.length (factor (Z.of_nat n)))) as [Hl|_].
  { pose proof (factor_length (Z.of_nat n)). lia. }
  right. split; [exact D|]. split; [exact Hin|]. split; [exact Es|].
  assert (I1 : in_int 1) by (unfold in_int, INT_MAX; lia).
  assert (Ix : in_int x) by (unfold in_int; lia). assert (Iy : in_int y) by (unfold in_int; lia). assert (Iz : in_int z) by (unfold in_int; lia).
  destruct (procfactors_good ar L (Z.of_nat n) 1 y z HP I1 Iy Iz ltac:(lia)) as (gf & -> & Gf).
  destruct (procfactors_good ar L (Z.of_nat n) x 1 z HP Ix I1 Iz ltac:(lia)) as (gm & -> & Gm).
  destruct (procfactors_good ar L (Z.of_nat n) x y 1 HP Ix Iy I1 ltac:(lia)) as (gs & -> & Gs).
  destruct (procfactors_good ar L (Z.of_nat n) x y z HP Ix Iy Iz ltac:(lia)) as (gb & Eb & Gb).
  assert (exists gb', (if negb (st_exch st =? 0) then procfactors ar (Z.of_nat n) x y z else Some (0, 0, 0)) = Some gb' /\
     (if st_exch st =? 0 then gb' = (0, 0, 0) else good_grid3 (Z.of_nat n) x y z gb')) as (gb' & -> & Gb').
  { destruct (st_exch st =? 0); cbn [negb]; [exists (0, 0, 0); auto|exists gb; auto]. }
  clear Eb Gb gb.
  set (slow := fun r => if slow_internal n (x, y, z) permute outs then slow_box3 (x, y, z) gs (Z.of_nat r) else outs r).
  assert (Hpm : perm_ok3 permute \/ ~ perm_ok3 permute) by (unfold perm_ok3; lia).
  destruct Hpm as [Hpm|Hpm].
  - right. split; [exact Hpm|].
    assert (Enp : newpermute permute = Some ((permute + 1) mod 3)) by (destruct Hpm as [-> | [-> | ->]]; reflexivity).
    assert (Eps : preslow_pair st permute outs slow = Some (plain_pair st permute ((5 - permute) mod 3) outs slow)) by (destruct Hpm as [-> | [-> | ->]]; reflexivity).
    cbv zeta. fold slow. rewrite Enp, Eps.
    destruct (postflag n permute outs slow) eqn:Epost; destruct (layout_same n permute ins outs) eqn:Esame;
      eexists; exists gf, gm, gs, gb'; (split; [reflexivity|]); (split; [auto|]); fold slow; rewrite Epost;
      repeat (split; [reflexivity|]); intros r; reflexivity.
  - left. split; [exact Hpm|].
    assert (Enp : newpermute permute = None).
    { unfold newpermute. destruct (Z.eqb_spec permute 0), (Z.eqb_spec permute 1), (Z.eqb_spec permute 2); auto; exfalso; apply Hpm; unfold perm_ok3; lia. }
    assert (Epost : postflag n permute outs slow = true).
    { unfold postflag. apply not_false_iff_true. intros E. apply (proj1 (anyrank_false _ _)) with (r := 0%nat) in E; [|lia].
      destruct (Z.eqb_spec permute 2); [exfalso; apply Hpm; unfold perm_ok3; lia|]. cbn in E. discriminate. }
    cbv zeta. fold slow. rewrite Epost, Enp. reflexivity.
Qed.

(** ** acceptance *)
Lemma setup3d_accepts : (exists f, S = SOk f) <->
  dims_ok3 N /\ (forall r, (r < n)%nat -> inside3 N (ins r)) /\
  zsum n (fun r => vol3 (ins r)) = (let '(x, y, z) := N in x * y * z) /\ perm_ok3 permute.
Proof.
  destruct setup3d_cases as [(msg & E & H)|(H1 & H2 & H3 & [(Hp & E)|(Hp & f & gf & gm & gs & gb & E & _)])]; rewrite E.
  - split; [intros (f & [=])|tauto].
  - split; [intros (f & [=])|tauto].
  - split; [tauto|intros _; eauto].
Qed.
Lemma setup3d_rejects : (exists msg, S = SErr msg) <->
  ~ (dims_ok3 N /\ (forall r, (r < n)%nat -> inside3 N (ins r)) /\
     zsum n (fun r => vol3 (ins r)) = (let '(x, y, z) := N in x * y * z)).
Proof.
  destruct setup3d_cases as [(msg & E & H)|(H1 & H2 & H3 & [(Hp & E)|(Hp & f & gf & gm & gs & gb & E & _)])]; rewrite E.
  - split; eauto.
  - split; [intros (m & [=])|tauto].
  - split; [intros (m & [=])|tauto].
Qed.
End S.

(** ** what a successful setup establishes *)
Record facts3 (n : nat) (st : settings) (N : Z * Z * Z) (permute : Z) (ins outs : nat -> box3) (f : fft3) : Prop := {
  F_dims : dims_ok3 N;
  F_perm : perm_ok3 permute;
  F_in : forall r, (r < n)%nat -> inside3 N (ins r);
  F_sum : zsum n (fun r => vol3 (ins r)) = vol3 (grid3 N);
  F_n : f_n f = n; F_N : f_N f = N; F_fperm : f_perm f = permute; F_pack : f_pack f = st_pack st;
  F_exch : f_exch f = negb (st_exch st =? 0);
  F_fin : f_in f = ins; F_fout : f_out f = outs;
  F_fast : tiling3 n N ins -> tiling3 n N (f_fast f);
  F_mid : tiling3 n N (f_mid f);
  F_slow : tiling3 n N outs -> tiling3 n N (f_slow f);
  F_brick : f_exch f = true -> tiling3 n N (f_brick f);
  F_fast_legal : forall r, (r < n)%nat -> legal3 (f_fast f r);
  F_mid_legal : forall r, (r < n)%nat -> legal3 (f_mid f r);
  F_slow_legal : (forall r, (r < n)%nat -> legal3 (outs r)) -> forall r, (r < n)%nat -> legal3 (f_slow f r);
  F_brick_legal : f_exch f = true -> forall r, (r < n)%nat -> legal3 (f_brick f r);
  F_fast_span : forall r, (r < n)%nat -> ilo (f_fast f r) = 0 /\ ihi (f_fast f r) = fst (fst N) - 1;
  F_mid_span : forall r, (r < n)%nat -> jlo (f_mid f r) = 0 /\ jhi (f_mid f r) = snd (fst N) - 1;
  F_slow_span : forall r, (r < n)%nat -> klo (f_slow f r) = 0 /\ khi (f_slow f r) = snd N - 1;
  F_pre : f_pre f = false <-> forall r, (r < n)%nat -> ilo (ins r) = 0 /\ ihi (ins r) = fst (fst N) - 1;
  F_pre_fast : f_pre f = false -> f_fast f = ins;
  F_post : f_post f = false <-> permute = 2 /\ forall r, (r < n)%nat -> klo (outs r) = 0 /\ khi (outs r) = snd N - 1;
  F_post_slow : f_post f = false -> f_slow f = outs;
  F_same : f_same f = true <-> permute = 0 /\ forall r, (r < n)%nat -> ins r = outs r;
  F_prefast : f_prefast f = (if f_pre f then Some (plain_pair st 0 0 ins (f_fast f)) else None);
  F_fastmid : f_fastmid f = pencil_pair st 0 1 (f_fast f) (f_brick f) (f_mid f);
  F_midslow : f_midslow f = pencil_pair st 1 1 (f_mid f) (f_brick f) (f_slow f);
  F_postslow : f_postslow f = (if f_post f then Some (plain_pair st 2 ((permute + 1) mod 3) (f_slow f) outs) else None);
  F_preslow : f_preslow f = (if f_same f then None else if f_post f then Some (plain_pair st permute ((5 - permute) mod 3) outs (f_slow f)) else None);
  F_slowmid : f_slowmid f = (if f_same f then None else Some (pencil_pair st 2 2 (f_slow f) (f_brick f) (f_mid f)));
  F_midfast : f_midfast f = (if f_same f then None else Some (pencil_pair st 1 2 (f_mid f) (f_brick f) (f_fast f)));
  F_postfast : f_postfast f = (if f_same f then None else if f_pre f then Some (plain_pair st 0 0 (f_fast f) ins) else None);
  F_sendsize : f_sendsize f = maxsizes (rm_ssize n st) (counted_objs f);
  F_recvsize : f_recvsize f = maxsizes (rm_rsize n st) (counted_objs f);
  F_fftsize : forall r, psize3 (ins r) <= f_fftsize f r /\ psize3 (outs r) <= f_fftsize f r /\ psize3 (f_fast f r) <= f_fftsize f r /\
     psize3 (f_mid f r) <= f_fftsize f r /\ psize3 (f_slow f r) <= f_fftsize f r /\ (f_exch f = true -> psize3 (f_brick f r) <= f_fftsize f r)
}.

Lemma good_unit1 P y z g : good_grid3 P 1 y z g -> exists b c, g = (1, b, c) /\ 1 <= b /\ 1 <= c /\ 1 * b * c = P.
Proof. destruct g as [[a b] c]. intros (A & B & C & E & U & _). exists b, c. rewrite <- (U eq_refl). split; [rewrite (U eq_refl); reflexivity|lia]. Qed.
Lemma good_unit2 P x z g : good_grid3 P x 1 z g -> exists a c, g = (a, 1, c) /\ 1 <= a /\ 1 <= c /\ a * 1 * c = P.
Proof. destruct g as [[a b] c]. intros (A & B & C & E & _ & U & _). exists a, c. rewrite <- (U eq_refl). split; [rewrite (U eq_refl); reflexivity|lia]. Qed.
Lemma good_unit3 P x y g : good_grid3 P x y 1 g -> exists a b, g = (a, b, 1) /\ 1 <= a /\ 1 <= b /\ a * b * 1 = P.
Proof. destruct g as [[a b] c]. intros (A & B & C & E & _ & _ & U). exists a, b. rewrite <- (U eq_refl). split; [rewrite (U eq_refl); reflexivity|lia]. Qed.

Lemma fast_layout n x y z g : 2 <= x -> 2 <= y -> 2 <= z -> good_grid3 (Z.of_nat n) 1 y z g ->
  tiling3 n (x, y, z) (fun r => fast_box3 (x, y, z) g (Z.of_nat r)) /\
  (forall r, legal3 (fast_box3 (x, y, z) g (Z.of_nat r))) /\
  (forall r, ilo (fast_box3 (x, y, z) g (Z.of_nat r)) = 0 /\ ihi (fast_box3 (x, y, z) g (Z.of_nat r)) = x - 1).
Proof.
  intros X Y Z' G. destruct (good_unit1 _ _ _ _ G) as (b & c & -> & Hb & Hc & E). split; [|split].
  - eapply tiling3_ext; [|apply (gbox3_tiling n x y z (1, b, c)); lia]. intros r Hr. cbv beta. rewrite fast_box3_eq. reflexivity.
  - intros r. rewrite fast_box3_eq. apply gbox3_legal; lia.
  - intros r. unfold fast_box3. destruct (ploc (1, b, c) (Z.of_nat r)) as [[a' b'] c']. split; reflexivity.
Qed.
Lemma mid_layout n x y z g : 2 <= x -> 2 <= y -> 2 <= z -> good_grid3 (Z.of_nat n) x 1 z g ->
  tiling3 n (x, y, z) (fun r => mid_box3 (x, y, z) g (Z.of_nat r)) /\
  (forall r, legal3 (mid_box3 (x, y, z) g (Z.of_nat r))) /\
  (forall r, jlo (mid_box3 (x, y, z) g (Z.of_nat r)) = 0 /\ jhi (mid_box3 (x, y, z) g (Z.of_nat r)) = y - 1).
Proof.
  intros X Y Z' G. destruct (good_unit2 _ _ _ _ G) as (a & c & -> & Hb & Hc & E). split; [|split].
  - eapply tiling3_ext; [|apply (gbox3_tiling n x y z (a, 1, c)); lia]. intros r Hr. cbv beta. rewrite mid_box3_eq. reflexivity.
  - intros r. rewrite mid_box3_eq. apply gbox3_legal; lia.
  - intros r. unfold mid_box3. destruct (ploc (a, 1, c) (Z.of_nat r)) as [[a' b'] c']. split; reflexivity.
Qed.
Lemma slow_layout n x y z g : 2 <= x -> 2 <= y -> 2 <= z -> good_grid3 (Z.of_nat n) x y 1 g ->
  tiling3 n (x, y, z) (fun r => slow_box3 (x, y, z) g (Z.of_nat r)) /\
  (forall r, (r < n)%nat -> legal3 (slow_box3 (x, y, z) g (Z.of_nat r))) /\
  (forall r, klo (slow_box3 (x, y, z) g (Z.of_nat r)) = 0 /\ khi (slow_box3 (x, y, z) g (Z.of_nat r)) = z - 1).
Proof.
  intros X Y Z' G. destruct (good_unit3 _ _ _ _ G) as (a & b & -> & Hb & Hc & E). split; [|split].
  - eapply tiling3_ext; [|apply (gbox3_tiling n x y z (a, b, 1)); lia]. intros r Hr. cbv beta. rewrite slow_box3_eq by lia. reflexivity.
  - intros r Hr. rewrite slow_box3_eq by lia. apply gbox3_legal; lia.
  - intros r. unfold slow_box3. destruct (ploc (a, b, 1) (Z.of_nat r)) as [[a' b'] c']. split; reflexivity.
Qed.
Lemma brick_layout n x y z g : 2 <= x -> 2 <= y -> 2 <= z -> good_grid3 (Z.of_nat n) x y z g ->
  tiling3 n (x, y, z) (fun r => gbox3 (x, y, z) g (Z.of_nat r)) /\
  (forall r, legal3 (gbox3 (x, y, z) g (Z.of_nat r))).
Proof.
  intros X Y Z' G. destruct g as [[a b] c]. destruct G as (A & B & C & E & _). split.
  - apply gbox3_tiling; lia.
  - intros r. apply gbox3_legal; lia.
Qed.

Lemma preflag_spec n x y z ins :
  preflag n (x, y, z) ins = false <-> forall r, (r < n)%nat -> ilo (ins r) = 0 /\ ihi (ins r) = x - 1.
Proof.
  unfold preflag. rewrite anyrank_false. split; intros Hq r Hr; specialize (Hq r Hr).
  - apply negb_false_iff in Hq. apply andb_true_iff in Hq. rewrite !Z.eqb_eq in Hq. exact Hq.
  - apply negb_false_iff, andb_true_iff. rewrite !Z.eqb_eq. exact Hq.
Qed.
Lemma slow_internal_spec n x y z permute outs : (1 <= n)%nat ->
  slow_internal n (x, y, z) permute outs = false <-> permute = 2 /\ forall r, (r < n)%nat -> klo (outs r) = 0 /\ khi (outs r) = z - 1.
Proof.
  intros Hn. unfold slow_internal. rewrite anyrank_false. split.
  - intros Hq. assert (Hq' : forall r, (r < n)%nat -> permute = 2 /\ klo (outs r) = 0 /\ khi (outs r) = z - 1).
    { intros r Hr. specialize (Hq r Hr). apply negb_false_iff in Hq. rewrite !andb_true_iff, !Z.eqb_eq in Hq. tauto. }
    split; [apply (Hq' 0%nat); lia|]. intros r Hr. apply Hq'; auto.
  - intros (Hq1 & Hq2) r Hr. apply negb_false_iff. rewrite !andb_true_iff, !Z.eqb_eq. destruct (Hq2 r Hr). auto.
Qed.
Lemma postflag_spec n x y z permute outs internal : (1 <= n)%nat ->
  (forall r, klo (internal r) = 0 /\ khi (internal r) = z - 1) ->
  postflag n permute outs (fun r => if slow_internal n (x, y, z) permute outs then internal r else outs r) = false <->
  slow_internal n (x, y, z) permute outs = false.
Proof.
  intros Hn Hi. unfold postflag. rewrite anyrank_false. split.
  - intros Hq. destruct (slow_internal n (x, y, z) permute outs) eqn:Esi; [|reflexivity].
    rewrite <- Esi. apply slow_internal_spec; [exact Hn|].
    assert (Hq' : forall r, (r < n)%nat -> permute = 2 /\ outs r = internal r).
    { intros r Hr. specialize (Hq r Hr). apply negb_false_iff in Hq. rewrite andb_true_iff, Z.eqb_eq, box3_eqb_eq in Hq. exact Hq. }
    split; [apply (Hq' 0%nat); lia|]. intros r Hr. destruct (Hq' r Hr) as (_ & ->). apply Hi.
  - intros Hs r Hr. rewrite Hs. apply slow_internal_spec in Hs; [|exact Hn]. destruct Hs as (Hp & _).
    apply negb_false_iff. rewrite andb_true_iff, Z.eqb_eq, box3_eqb_eq. auto.
Qed.
Lemma layout_same_spec n permute ins outs : (1 <= n)%nat ->
  layout_same n permute ins outs = true <-> permute = 0 /\ forall r, (r < n)%nat -> ins r = outs r.
Proof.
  intros Hn. unfold layout_same. rewrite negb_true_iff, anyrank_false. split.
  - intros Hq. assert (Hq' : forall r, (r < n)%nat -> permute = 0 /\ ins r = outs r).
    { intros r Hr. specialize (Hq r Hr). rewrite orb_false_iff, !negb_false_iff, Z.eqb_eq, box3_eqb_eq in Hq. tauto. }
    split; [apply (Hq' 0%nat); lia|]. intros r Hr. apply Hq'; auto.
  - intros (Hq1 & Hq2) r Hr. rewrite orb_false_iff, !negb_false_iff, Z.eqb_eq, box3_eqb_eq. auto.
Qed.
Lemma fftsize_max (b : bool) i o f m s k :
  let t := (let s := Z.max (Z.max (Z.max (Z.max i o) f) m) s in if b then Z.max s k else s) in
  i <= t /\ o <= t /\ f <= t /\ m <= t /\ s <= t /\ (b = true -> k <= t).
Proof. cbv zeta. destruct b; repeat split; try lia; intros; try lia; discriminate. Qed.

Lemma setup3d_facts ar n st N permute ins outs f : area_laws ar -> (1 <= n)%nat -> ints3 N ->
  setup3d ar n st N permute ins outs = SOk f -> facts3 n st N permute ins outs f.
Proof.
  intros L Hn HI HS.
  destruct (setup3d_cases ar n st N permute ins outs L Hn HI) as [(msg & E & H)|(H1 & H2 & H3 & [(Hp & E)|(Hp & f' & gf & gm & gs & gb & E & Hg & H)])]; rewrite E in HS; try discriminate.
  injection HS as <-. cbv zeta in H.
  destruct H as (E1 & E2 & E3 & E4 & E5 & E6 & E7 & E8 & E9 & E10 & E11 & E12 & E13 & E14 & E15 & E16 & E17 & E18 & E19 & E20 & E21 & E22 & E23 & E24 & E25).
  rewrite <- (grid3_vol N HI H1) in H3.
  destruct N as [[x y] z]. pose proof H1 as ((X & SX) & (Y & SY) & (Z' & SZ)). destruct Hg as (Gf & Gm & Gs & Gb).
  destruct (fast_layout n x y z gf X Y Z' Gf) as (Tf & Lf & Sf).
  destruct (mid_layout n x y z gm X Y Z' Gm) as (Tm & Lm & Sm).
  destruct (slow_layout n x y z gs X Y Z' Gs) as (Ts & Ls & Ss).
  pose proof (preflag_spec n x y z ins) as Hpre.
  pose proof (slow_internal_spec n x y z permute outs Hn) as Hsi.
  pose proof (postflag_spec n x y z permute outs (fun r => slow_box3 (x, y, z) gs (Z.of_nat r)) Hn Ss) as Hpost. cbv beta in Hpost.
  pose proof (layout_same_spec n permute ins outs Hn) as Hsame.
  constructor; try assumption.
  - rewrite E8. intros Ht. destruct (preflag n (x, y, z) ins); assumption.
  - rewrite E9. exact Tm.
  - rewrite E10. intros Ht. destruct (slow_internal n (x, y, z) permute outs); assumption.
  - rewrite E5, E11. intros Hx. destruct (st_exch st =? 0); [discriminate|]. apply (brick_layout n x y z gb X Y Z' Gb).
  - rewrite E8. intros r Hr. destruct (preflag n (x, y, z) ins); [apply Lf|apply (H2 r Hr)].
  - rewrite E9. intros r Hr. apply Lm.
  - rewrite E10. intros Ho r Hr. destruct (slow_internal n (x, y, z) permute outs); [apply Ls, Hr|apply Ho, Hr].
  - rewrite E5, E11. intros Hx r Hr. destruct (st_exch st =? 0); [discriminate|]. apply (brick_layout n x y z gb X Y Z' Gb).
  - rewrite E8. intros r Hr. destruct (preflag n (x, y, z) ins) eqn:Ep; [apply Sf|apply (proj1 Hpre eq_refl r Hr)].
  - rewrite E9. intros r Hr. apply Sm.
  - rewrite E10. intros r Hr. destruct (slow_internal n (x, y, z) permute outs) eqn:Es'; [apply Ss|apply (proj1 Hsi eq_refl), Hr].
  - rewrite E12. exact Hpre.
  - rewrite E12, E8. intros ->. reflexivity.
  - rewrite E13. rewrite Hpost. exact Hsi.
  - rewrite E13, Hpost, E10. intros ->. reflexivity.
  - rewrite E14. exact Hsame.
  - rewrite E15, E12, E8. reflexivity.
  - rewrite E16, E8, E9, E11. reflexivity.
  - rewrite E17, E9, E10, E11. reflexivity.
  - rewrite E18, E13, E10. reflexivity.
  - rewrite E19, E14, E13, E10. reflexivity.
  - rewrite E20, E14, E10, E11, E9. reflexivity.
  - rewrite E21, E14, E11, E9, E8. reflexivity.
  - rewrite E22, E14, E12, E8. reflexivity.
  - intros r. rewrite E25, E8, E9, E10, E11, E5. apply fftsize_max.
Qed.

(** every Remap3d object moves data between two of the layouts *)
Definition layout3 (f : fft3) (t : nat -> box3) : Prop :=
  t = f_in f \/ t = f_out f \/ t = f_fast f \/ t = f_mid f \/ t = f_slow f \/ (f_exch f = true /\ t = f_brick f).

Definition obj_shape (f : fft3) (m : rm3) : Prop :=
  exists rot a b, perm_ok3 rot /\ perm_ok3 (rm_perm m) /\ layout3 f a /\ layout3 f b /\
    rm_in m = (fun r => rotb3 rot (a r)) /\ rm_out m = (fun r => rotb3 rot (b r)).

Section Objs.
Variables (n : nat) (st : settings) (N : Z * Z * Z) (permute : Z) (ins outs : nat -> box3) (f : fft3).
Hypothesis F : facts3 n st N permute ins outs f.

Lemma plain_shape rot perm a b m : perm_ok3 rot -> perm_ok3 perm -> layout3 f a -> layout3 f b ->
  In m (objs (plain_pair st rot perm a b)) -> obj_shape f m.
Proof. intros Hr Hp Ha Hb [<- | []]. exists rot, a, b. auto 7. Qed.
Lemma pencil_shape rot perm a b m : perm_ok3 rot -> perm_ok3 perm -> layout3 f a -> layout3 f b ->
  In m (objs (pencil_pair st rot perm a (f_brick f) b)) -> obj_shape f m.
Proof.
  intros Hr Hp Ha Hb. unfold pencil_pair. pose proof (F_exch _ _ _ _ _ _ _ F) as He.
  destruct (st_exch st =? 0).
  - intros [<- | []]. exists rot, a, b. auto 7.
  - assert (Hk : layout3 f (f_brick f)) by (unfold layout3; auto 7).
    intros [<- | [<- | []]].
    + exists rot, a, (f_brick f). repeat split; auto. left; reflexivity.
    + exists rot, (f_brick f), b. auto 7.
Qed.
Lemma all_shape m : In m (all_objs f) -> obj_shape f m.
Proof.
  assert (P0 : perm_ok3 0) by (left; reflexivity). assert (P1 : perm_ok3 1) by (right; left; reflexivity). assert (P2 : perm_ok3 2) by (right; right; reflexivity).
  pose proof (F_perm _ _ _ _ _ _ _ F) as Hp.
  assert (Lin : layout3 f ins) by (left; symmetry; apply (F_fin _ _ _ _ _ _ _ F)).
  assert (Lout : layout3 f outs) by (right; left; symmetry; apply (F_fout _ _ _ _ _ _ _ F)).
  assert (Lf : layout3 f (f_fast f)) by (unfold layout3; auto 7).
  assert (Lm : layout3 f (f_mid f)) by (unfold layout3; auto 7).
  assert (Ls : layout3 f (f_slow f)) by (unfold layout3; auto 7).
  unfold all_objs, fwd_objs, bwd_objs.
  rewrite (F_prefast _ _ _ _ _ _ _ F), (F_fastmid _ _ _ _ _ _ _ F), (F_midslow _ _ _ _ _ _ _ F), (F_postslow _ _ _ _ _ _ _ F),
    (F_preslow _ _ _ _ _ _ _ F), (F_slowmid _ _ _ _ _ _ _ F), (F_midfast _ _ _ _ _ _ _ F), (F_postfast _ _ _ _ _ _ _ F).
  assert (Pn : perm_ok3 ((permute + 1) mod 3)) by (destruct Hp as [-> | [-> | ->]]; cbv; auto).
  assert (Pm : perm_ok3 ((5 - permute) mod 3)) by (destruct Hp as [-> | [-> | ->]]; cbv; auto).
  rewrite !in_app_iff. intros [[H|[H|[H|H]]]|[H|[H|[H|H]]]].
  - destruct (f_pre f); [|destruct H]. revert H. apply plain_shape; auto.
  - revert H. apply pencil_shape; auto.
  - revert H. apply pencil_shape; auto.
  - destruct (f_post f); [|destruct H]. revert H. apply plain_shape; auto.
  - destruct (f_same f); [destruct H|]. destruct (f_post f); [|destruct H]. revert H. apply plain_shape; auto.
  - destruct (f_same f); [destruct H|]. revert H. apply pencil_shape; auto.
  - destruct (f_same f); [destruct H|]. revert H. apply pencil_shape; auto.
  - destruct (f_same f); [destruct H|]. destruct (f_pre f); [|destruct H]. revert H. apply plain_shape; auto.
Qed.

Lemma layout_tiling t : tiling3 n N ins -> tiling3 n N outs -> layout3 f t -> tiling3 n N t.
Proof.
  intros Hi Ho [-> | [-> | [-> | [-> | [-> | (He & ->)]]]]].
  - rewrite (F_fin _ _ _ _ _ _ _ F). exact Hi.
  - rewrite (F_fout _ _ _ _ _ _ _ F). exact Ho.
  - apply (F_fast _ _ _ _ _ _ _ F Hi).
  - apply (F_mid _ _ _ _ _ _ _ F).
  - apply (F_slow _ _ _ _ _ _ _ F Ho).
  - apply (F_brick _ _ _ _ _ _ _ F He).
Qed.

Lemma layout_fftsize t r : layout3 f t -> (r < n)%nat -> vol3 (t r) <= f_fftsize f r.
Proof.
  intros Ht Hr. pose proof (vol3_le_psize (t r)).
  destruct (F_fftsize _ _ _ _ _ _ _ F r) as (H1 & H2 & H3 & H4 & H5 & H6).
  assert (H0 : 0 <= psize3 (ins r)).
  { pose proof (F_in _ _ _ _ _ _ _ F r Hr) as Hi. unfold inside3 in Hi. destruct N as [[x y] z]. rewrite psize3_vol by tauto. unfold vol3. lia. }
  destruct Ht as [-> | [-> | [-> | [-> | [-> | (He & ->)]]]]].
  - rewrite (F_fin _ _ _ _ _ _ _ F) in *. lia.
  - rewrite (F_fout _ _ _ _ _ _ _ F) in *. lia.
  - lia.
  - lia.
  - lia.
  - specialize (H6 He). lia.
Qed.

Lemma obj_fftsize m r : In m (all_objs f) -> (r < n)%nat -> vol3 (rm_in m r) <= f_fftsize f r /\ vol3 (rm_out m r) <= f_fftsize f r.
Proof.
  intros Hm Hr. destruct (all_shape m Hm) as (rot & a & b & Hrot & _ & La & Lb & -> & ->).
  rewrite !rot_vol3 by auto. split; apply layout_fftsize; auto.
Qed.

(** sizes of the objects *)
Lemma counted_sizes m r pl : In m (counted_objs f) ->
  setup3 n (rm_coll m) (st_pack st) 2 (rm_perm m) (rm_in m) (rm_out m) r = Some pl ->
  rp_sendsize pl <= f_sendsize f r /\ rp_recvsize pl <= f_recvsize f r.
Proof.
  intros Hm Hs. rewrite (F_sendsize _ _ _ _ _ _ _ F), (F_recvsize _ _ _ _ _ _ _ F).
  pose proof (maxsizes_ge (rm_ssize n st) _ r m Hm) as H1. pose proof (maxsizes_ge (rm_rsize n st) _ r m Hm) as H2.
  unfold rm_ssize, rm_rsize in H1, H2. rewrite Hs in H1, H2. auto.
Qed.
(** the only object whose sizes are not counted: the second stage of mid -> fast through bricks *)
Lemma uncounted m : In m (all_objs f) -> In m (counted_objs f) \/
  (f_same f = false /\ f_exch f = true /\ exists q, f_midfast f = Some q /\ snd q = Some m).
Proof.
  unfold all_objs, fwd_objs, bwd_objs, counted_objs. rewrite !in_app_iff. intros H.
  assert (Hx : In m (oobjs (f_midfast f)) -> In m (counted_midfast (f_midfast f)) \/ (f_same f = false /\ f_exch f = true /\ exists q, f_midfast f = Some q /\ snd q = Some m)).
  { rewrite (F_midfast _ _ _ _ _ _ _ F), (F_exch _ _ _ _ _ _ _ F). destruct (f_same f); cbn [oobjs]; [intros []|].
    unfold pencil_pair. destruct (st_exch st =? 0); cbn [objs fst snd counted_midfast negb In].
    - intros [<- | []]. left. left. reflexivity.
    - intros [<- | [<- | []]].
      + left. left. reflexivity.
      + right. repeat split; auto. eexists. split; reflexivity. }
  tauto.
Qed.
End Objs.
