(** Setup2dProofs.v : facts about FFT2d::setup. *)

From Coq Require Import String.
From Verif Require Import Base Spec Pack2d Sched Remap Remap2d RemapInst RemapThms RemapTop Layout LayoutProofs Count Setup3d Setup3dProofs Setup2d.

Definition dims_ok2 (N : Z * Z) : Prop := let '(x, y) := N in dim_ok x /\ dim_ok y.
Definition ints2 (N : Z * Z) : Prop := let '(x, y) := N in x <= INT_MAX /\ y <= INT_MAX.
Definition inside2 (N : Z * Z) (b : box2) : Prop :=
  let '(x, y) := N in legal2 b /\ 0 <= ilo2 b /\ ihi2 b < x /\ 0 <= jlo2 b /\ jhi2 b < y.

Lemma tiling2_ext n N t u : (forall r, (r < n)%nat -> t r = u r) -> tiling2 n N t -> tiling2 n N u.
Proof.
  intros E (H1 & H2 & H3). split; [|split].
  - intros p r Hr. rewrite <- E by auto. apply H1; auto.
  - intros p r r' Hr Hr'. rewrite <- !E by auto. apply H2; auto.
  - intros p Hp. destruct (H3 p Hp) as (r & Hr & H). exists r. rewrite <- E by auto. auto.
Qed.
Lemma tiling2_covered n N t u : tiling2 n N t -> (forall p r, (r < n)%nat -> inb2 p (u r) -> inb2 p (grid2 N)) -> covered2 n t u.
Proof. intros (_ & _ & Hc) Hu p r Hr Hp. apply Hc. eauto. Qed.
Lemma tiling2_covered2 n N t u : tiling2 n N t -> tiling2 n N u -> covered2 n t u.
Proof. intros Ht Hu. eapply tiling2_covered; eauto. apply Hu. Qed.

Lemma box2_eqb_eq a b : box2_eqb a b = true <-> a = b.
Proof.
  unfold box2_eqb. rewrite !andb_true_iff, !Z.eqb_eq. destruct a, b; cbn. split.
  - intros (((-> & ->) & ->) & ->). reflexivity.
  - intros [= -> -> -> ->]. tauto.
Qed.
Lemma bad_index2_false N b : bad_index2 N b = false <-> inside2 N b.
Proof.
  destruct N as [x y]. unfold bad_index2, inside2, legal2, ni2, nj2.
  rewrite !orb_false_iff. rewrite !Z.gtb_ltb, !Z.geb_leb, !Z.ltb_ge, !Z.leb_gt. lia.
Qed.
Lemma psize2_vol b : legal2 b -> psize2 b = vol2 b.
Proof. intros (H1 & H2). unfold psize2, vol2. rewrite !Z.max_r by lia. reflexivity. Qed.
Lemma vol2_le_psize b : vol2 b <= Z.max 0 (psize2 b).
Proof.
  unfold vol2, psize2. destruct (Z.le_gt_cases (ni2 b) 0); [rewrite Z.max_l by lia; lia|].
  destruct (Z.le_gt_cases (nj2 b) 0); [rewrite (Z.max_l 0 (nj2 b)) by lia; lia|].
  rewrite !(Z.max_r 0 (ni2 b)), !(Z.max_r 0 (nj2 b)) by lia. lia.
Qed.
Lemma grid2_vol N : dims_ok2 N -> vol2 (grid2 N) = let '(x, y) := N in x * y.
Proof.
  destruct N as [x y]. intros ((H1 & _) & (H2 & _)). unfold vol2, ni2, nj2. cbn. rewrite !Z.max_r by lia.
  replace (x - 1 - 0 + 1) with x by lia. replace (y - 1 - 0 + 1) with y by lia. reflexivity.
Qed.
Lemma maxsizes2_ge f l r m : In m l -> f m r <= maxsizes2 f l r.
Proof.
  unfold maxsizes2. assert (Hmono : forall l s, s <= fold_left (fun s m => Z.max s (f m r)) l s).
  { induction l0 as [|x l0 IH]; intros s; cbn [fold_left]; [lia|]. specialize (IH (Z.max s (f x r))). lia. }
  generalize 0. induction l as [|x l IH]; intros s; [contradiction|]. cbn [fold_left]. intros [-> | Hin].
  - specialize (Hmono l (Z.max s (f m r))). lia.
  - apply IH; auto.
Qed.

Definition fwd_objs2 (f : fft2) : list rm2 := oobjs2 (t_prefast f) ++ objs2 (t_fastslow f) ++ oobjs2 (t_postslow f).
Definition bwd_objs2 (f : fft2) : list rm2 := oobjs2 (t_preslow f) ++ oobjs2 (t_slowfast f) ++ oobjs2 (t_postfast f).
Definition all_objs2 (f : fft2) : list rm2 := fwd_objs2 f ++ bwd_objs2 f.

(** ** layouts *)
Lemma fast_layout2 n x y : (1 <= n)%nat -> 2 <= x -> 2 <= y ->
  tiling2 n (x, y) (fun r => fast_box2 (x, y) (Z.of_nat n) (Z.of_nat r)) /\
  (forall r, legal2 (fast_box2 (x, y) (Z.of_nat n) (Z.of_nat r))).
Proof.
  intros Hn X Y. split.
  - eapply tiling2_ext; [|apply (gbox2_tiling n x y (1, Z.of_nat n)); lia]. intros r Hr. cbv beta. rewrite fast_box2_eq. reflexivity.
  - intros r. rewrite fast_box2_eq. apply gbox2_legal; lia.
Qed.
Lemma slow_layout2 n x y : (1 <= n)%nat -> 2 <= x -> 2 <= y ->
  tiling2 n (x, y) (fun r => slow_box2 (x, y) (Z.of_nat n) (Z.of_nat r)) /\
  (forall r, (r < n)%nat -> legal2 (slow_box2 (x, y) (Z.of_nat n) (Z.of_nat r))).
Proof.
  intros Hn X Y. split.
  - eapply tiling2_ext; [|apply (gbox2_tiling n x y (Z.of_nat n, 1)); lia]. intros r Hr. cbv beta. rewrite slow_box2_eq by lia. reflexivity.
  - intros r Hr. rewrite slow_box2_eq by lia. apply gbox2_legal; lia.
Qed.
Lemma brick_layout2 n x y g : 2 <= x -> 2 <= y -> good_grid2 (Z.of_nat n) x y g ->
  tiling2 n (x, y) (fun r => gbox2 (x, y) g (Z.of_nat r)) /\ (forall r, legal2 (gbox2 (x, y) g (Z.of_nat r))).
Proof.
  intros X Y G. destruct g as [a b]. destruct G as (A & B & E & _). split.
  - apply gbox2_tiling; lia.
  - intros r. apply gbox2_legal; lia.
Qed.

Lemma preflag2_spec n x y ins :
  preflag2 n (x, y) ins = false <-> forall r, (r < n)%nat -> ilo2 (ins r) = 0 /\ ihi2 (ins r) = x - 1.
Proof.
  unfold preflag2. rewrite anyrank_false. split; intros Hq r Hr; specialize (Hq r Hr).
  - apply negb_false_iff in Hq. apply andb_true_iff in Hq. rewrite !Z.eqb_eq in Hq. exact Hq.
  - apply negb_false_iff, andb_true_iff. rewrite !Z.eqb_eq. exact Hq.
Qed.
Lemma slow_internal2_spec n x y permute outs : (1 <= n)%nat ->
  slow_internal2 n (x, y) permute outs = false <-> permute = 1 /\ forall r, (r < n)%nat -> jlo2 (outs r) = 0 /\ jhi2 (outs r) = y - 1.
Proof.
  intros Hn. unfold slow_internal2. rewrite anyrank_false. split.
  - intros Hq. assert (Hq' : forall r, (r < n)%nat -> permute = 1 /\ jlo2 (outs r) = 0 /\ jhi2 (outs r) = y - 1).
    { intros r Hr. specialize (Hq r Hr). apply negb_false_iff in Hq. rewrite !andb_true_iff, !Z.eqb_eq in Hq. tauto. }
    split; [apply (Hq' 0%nat); lia|]. intros r Hr. apply Hq'; auto.
  - intros (Hq1 & Hq2) r Hr. apply negb_false_iff. rewrite !andb_true_iff, !Z.eqb_eq. destruct (Hq2 r Hr). auto.
Qed.
Lemma postflag2_spec n x y permute outs internal : (1 <= n)%nat ->
  (forall r, jlo2 (internal r) = 0 /\ jhi2 (internal r) = y - 1) ->
  postflag2 n permute outs (fun r => if slow_internal2 n (x, y) permute outs then internal r else outs r) = false <->
  slow_internal2 n (x, y) permute outs = false.
Proof.
  intros Hn Hi. unfold postflag2. rewrite anyrank_false. split.
  - intros Hq. destruct (slow_internal2 n (x, y) permute outs) eqn:Esi; [|reflexivity].
    rewrite <- Esi. apply slow_internal2_spec; [exact Hn|].
    assert (Hq' : forall r, (r < n)%nat -> permute = 1 /\ outs r = internal r).
    { intros r Hr. specialize (Hq r Hr). apply negb_false_iff in Hq. rewrite andb_true_iff, Z.eqb_eq, box2_eqb_eq in Hq. exact Hq. }
    split; [apply (Hq' 0%nat); lia|]. intros r Hr. destruct (Hq' r Hr) as (_ & ->). apply Hi.
  - intros Hs r Hr. rewrite Hs. apply slow_internal2_spec in Hs; [|exact Hn]. destruct Hs as (Hp & _).
    apply negb_false_iff. rewrite andb_true_iff, Z.eqb_eq, box2_eqb_eq. auto.
Qed.
Lemma layout_same2_spec n permute ins outs : (1 <= n)%nat ->
  layout_same2 n permute ins outs = true <-> permute = 0 /\ forall r, (r < n)%nat -> ins r = outs r.
Proof.
  intros Hn. unfold layout_same2. rewrite negb_true_iff, anyrank_false. split.
  - intros Hq. assert (Hq' : forall r, (r < n)%nat -> permute = 0 /\ ins r = outs r).
    { intros r Hr. specialize (Hq r Hr). rewrite orb_false_iff, !negb_false_iff, Z.eqb_eq, box2_eqb_eq in Hq. tauto. }
    split; [apply (Hq' 0%nat); lia|]. intros r Hr. apply Hq'; auto.
  - intros (Hq1 & Hq2) r Hr. rewrite orb_false_iff, !negb_false_iff, Z.eqb_eq, box2_eqb_eq. auto.
Qed.
Lemma fftsize_max2 (b : bool) i o f s k :
  let t := (let s := Z.max (Z.max (Z.max i o) f) s in if b then Z.max s k else s) in
  i <= t /\ o <= t /\ f <= t /\ s <= t /\ (b = true -> k <= t).
Proof. cbv zeta. destruct b; repeat split; try lia; intros; try lia; discriminate. Qed.

(** ** what a successful setup establishes *)
Record facts2 (n : nat) (st : settings) (N : Z * Z) (permute : Z) (ins outs : nat -> box2) (f : fft2) : Prop := {
  T_dims : dims_ok2 N;
  T_perm : perm_ok2 permute;
  T_ins : forall r, (r < n)%nat -> inside2 N (ins r);
  T_sum : zsum n (fun r => vol2 (ins r)) = vol2 (grid2 N);
  T_n : t_n f = n; T_N : t_N f = N; T_fperm : t_perm f = permute; T_pack : t_pack f = st_pack st;
  T_exch : t_exch f = negb (st_exch st =? 0);
  T_fin : t_in f = ins; T_fout : t_out f = outs;
  T_fast : tiling2 n N ins -> tiling2 n N (t_fast f);
  T_slow : tiling2 n N outs -> tiling2 n N (t_slow f);
  T_brick : t_exch f = true -> tiling2 n N (t_brick f);
  T_fast_legal : forall r, (r < n)%nat -> legal2 (t_fast f r);
  T_slow_legal : (forall r, (r < n)%nat -> legal2 (outs r)) -> forall r, (r < n)%nat -> legal2 (t_slow f r);
  T_brick_legal : t_exch f = true -> forall r, (r < n)%nat -> legal2 (t_brick f r);
  T_fast_span : forall r, (r < n)%nat -> ilo2 (t_fast f r) = 0 /\ ihi2 (t_fast f r) = fst N - 1;
  T_slow_span : forall r, (r < n)%nat -> jlo2 (t_slow f r) = 0 /\ jhi2 (t_slow f r) = snd N - 1;
  T_pre : t_pre f = false <-> forall r, (r < n)%nat -> ilo2 (ins r) = 0 /\ ihi2 (ins r) = fst N - 1;
  T_pre_fast : t_pre f = false -> t_fast f = ins;
  T_post : t_post f = false <-> permute = 1 /\ forall r, (r < n)%nat -> jlo2 (outs r) = 0 /\ jhi2 (outs r) = snd N - 1;
  T_post_slow : t_post f = false -> t_slow f = outs;
  T_same : t_same f = true <-> permute = 0 /\ forall r, (r < n)%nat -> ins r = outs r;
  T_prefast : t_prefast f = (if t_pre f then Some (plain_pair2 st 0 0 ins (t_fast f)) else None);
  T_fastslow : t_fastslow f = pencil_pair2 st 0 1 (t_fast f) (t_brick f) (t_slow f);
  T_postslow : t_postslow f = (if t_post f then Some (plain_pair2 st 1 ((permute + 1) mod 2) (t_slow f) outs) else None);
  T_preslow : t_preslow f = (if t_same f then None else if t_post f then Some (plain_pair2 st permute ((permute + 1) mod 2) outs (t_slow f)) else None);
  T_slowfast : t_slowfast f = (if t_same f then None else Some (pencil_pair2 st 1 1 (t_slow f) (t_brick f) (t_fast f)));
  T_postfast : t_postfast f = (if t_same f then None else if t_pre f then Some (plain_pair2 st 0 0 (t_fast f) ins) else None);
  T_sendsize : t_sendsize f = maxsizes2 (rm2_ssize n st) (all_objs2 f);
  T_recvsize : t_recvsize f = maxsizes2 (rm2_rsize n st) (all_objs2 f);
  T_fftsize : forall r, psize2 (ins r) <= t_fftsize f r /\ psize2 (outs r) <= t_fftsize f r /\ psize2 (t_fast f r) <= t_fftsize f r /\
     psize2 (t_slow f r) <= t_fftsize f r /\ (t_exch f = true -> psize2 (t_brick f r) <= t_fftsize f r)
}.

Section S.
Variables (ar : areas) (n : nat) (st : settings) (N : Z * Z) (permute : Z) (ins outs : nat -> box2).
Hypothesis L : area_laws ar.
Hypothesis Hn : (1 <= n)%nat.
Hypothesis HI : ints2 N.

Local Notation S := (setup2d ar n st N permute ins outs).

(** exact result of setup *)
Lemma setup2d_cases :
  (exists msg, S = SErr msg /\
     ~ (dims_ok2 N /\ (forall r, (r < n)%nat -> inside2 N (ins r)) /\
        zsum n (fun r => vol2 (ins r)) = (let '(x, y) := N in x * y))) \/
  (dims_ok2 N /\ (forall r, (r < n)%nat -> inside2 N (ins r)) /\
   zsum n (fun r => vol2 (ins r)) = (let '(x, y) := N in x * y) /\
   ((~ perm_ok2 permute /\ S = SUB) \/
    (perm_ok2 permute /\ exists f gb, S = SOk f /\
       (if st_exch st =? 0 then gb = (0, 0) else good_grid2 (Z.of_nat n) (fst N) (snd N) gb) /\
       let pre := preflag2 n N ins in
       let same := layout_same2 n permute ins outs in
       let fast := fun r => if pre then fast_box2 N (Z.of_nat n) (Z.of_nat r) else ins r in
       let slow := fun r => if slow_internal2 n N permute outs then slow_box2 N (Z.of_nat n) (Z.of_nat r) else outs r in
       let brick := fun r => gbox2 N gb (Z.of_nat r) in
       let post := postflag2 n permute outs slow in
       t_n f = n /\ t_N f = N /\ t_perm f = permute /\ t_pack f = st_pack st /\ t_exch f = negb (st_exch st =? 0) /\
       t_in f = ins /\ t_out f = outs /\ t_fast f = fast /\ t_slow f = slow /\ t_brick f = brick /\
       t_pre f = pre /\ t_post f = post /\ t_same f = same /\
       t_prefast f = (if pre then Some (plain_pair2 st 0 0 ins fast) else None) /\
       t_fastslow f = pencil_pair2 st 0 1 fast brick slow /\
       t_postslow f = (if post then Some (plain_pair2 st 1 ((permute + 1) mod 2) slow outs) else None) /\
       t_preslow f = (if same then None else if post then Some (plain_pair2 st permute ((permute + 1) mod 2) outs slow) else None) /\
       t_slowfast f = (if same then None else Some (pencil_pair2 st 1 1 slow brick fast)) /\
       t_postfast f = (if same then None else if pre then Some (plain_pair2 st 0 0 fast ins) else None) /\
       t_sendsize f = maxsizes2 (rm2_ssize n st) (oobjs2 (t_prefast f) ++ objs2 (t_fastslow f) ++ oobjs2 (t_postslow f) ++ oobjs2 (t_preslow f) ++ oobjs2 (t_slowfast f) ++ oobjs2 (t_postfast f)) /\
       t_recvsize f = maxsizes2 (rm2_rsize n st) (oobjs2 (t_prefast f) ++ objs2 (t_fastslow f) ++ oobjs2 (t_postslow f) ++ oobjs2 (t_preslow f) ++ oobjs2 (t_slowfast f) ++ oobjs2 (t_postfast f)) /\
       (forall r, t_fftsize f r = let s := Z.max (Z.max (Z.max (psize2 (ins r)) (psize2 (outs r))) (psize2 (fast r))) (psize2 (slow r)) in
                      if negb (st_exch st =? 0) then Z.max s (psize2 (brick r)) else s)))).
Proof.
  destruct N as [x y] eqn:EN. unfold setup2d. cbn [dims_ok2 ints2 fst snd] in *.
  assert (HP : 1 <= Z.of_nat n) by lia.
  destruct ((x <? 2) || (y <? 2)) eqn:Ed.
  { left. eexists. split; [reflexivity|]. rewrite !orb_true_iff, !Z.ltb_lt in Ed. unfold dim_ok. lia. }
  rewrite !orb_false_iff, !Z.ltb_ge in Ed. destruct Ed as (Dx & Dy).
  destruct (prime_factorable_spec x ltac:(lia)) as (bx & -> & Bx).
  destruct (prime_factorable_spec y ltac:(lia)) as (by_ & -> & By).
  unfold dim_ok.
  destruct bx; [|left; eexists; split; [reflexivity|]; intros (((_ & H) & _) & _); apply Bx in H; discriminate].
  destruct by_; [|left; eexists; split; [reflexivity|]; intros ((_ & (_ & H)) & _); apply By in H; discriminate].
  cbn [negb].
  assert (D : (2 <= x /\ smooth x) /\ (2 <= y /\ smooth y)) by (rewrite <- Bx, <- By; auto).
  destruct (anyrank n (fun r => bad_index2 (x, y) (ins r))) eqn:Ei.
  { left. eexists. split; [reflexivity|]. intros (_ & H & _). apply not_false_iff_true in Ei. apply Ei. apply anyrank_false.
    intros r Hr. apply bad_index2_false. auto. }
  assert (Hin : forall r, (r < n)%nat -> inside2 (x, y) (ins r)).
  { intros r Hr. apply bad_index2_false. revert r Hr. apply anyrank_false. exact Ei. }
  assert (Hvol : sumranks n (fun r => psize2 (ins r)) = zsum n (fun r => vol2 (ins r))).
  { rewrite sumranks_zsum. apply zsum_ext. intros r Hr. apply psize2_vol. apply (Hin r Hr). }
  rewrite Hvol. destruct (Z.eqb_spec (zsum n (fun r => vol2 (ins r))) (x * y)) as [Es|Es]; cbn [negb].
  2:{ left. eexists. split; [reflexivity|]. tauto. }
  destruct (Nat.ltb_spec NFACTOR (List.length (factor (Z.of_nat n)))) as [Hl|_].
  { pose proof (factor_length (Z.of_nat n)). lia. }
  right. split; [exact D|]. split; [exact Hin|]. split; [exact Es|].
  assert (Ix : in_int x) by (unfold in_int; lia). assert (Iy : in_int y) by (unfold in_int; lia).
  destruct (procfactors2_good ar L (Z.of_nat n) x y HP Ix Iy ltac:(lia)) as (gb & Eb & Gb).
  assert (exists gb', (if negb (st_exch st =? 0) then procfactors2 ar (Z.of_nat n) x y else Some (0, 0)) = Some gb' /\
     (if st_exch st =? 0 then gb' = (0, 0) else good_grid2 (Z.of_nat n) x y gb')) as (gb' & -> & Gb').
  { destruct (st_exch st =? 0); cbn [negb]; [exists (0, 0); auto|exists gb; auto]. }
  clear Eb Gb gb.
  set (slow := fun r => if slow_internal2 n (x, y) permute outs then slow_box2 (x, y) (Z.of_nat n) (Z.of_nat r) else outs r).
  assert (Hpm : perm_ok2 permute \/ ~ perm_ok2 permute) by (unfold perm_ok2; lia).
  destruct Hpm as [Hpm|Hpm].
  - right. split; [exact Hpm|].
    assert (Enp : newpermute2 permute = Some ((permute + 1) mod 2)) by (destruct Hpm as [-> | ->]; reflexivity).
    assert (Eps : preslow_pair2 st permute outs slow = Some (plain_pair2 st permute ((permute + 1) mod 2) outs slow)) by (destruct Hpm as [-> | ->]; reflexivity).
    cbv zeta. fold slow. rewrite Enp, Eps.
    destruct (postflag2 n permute outs slow) eqn:Epost; destruct (layout_same2 n permute ins outs) eqn:Esame;
      eexists; exists gb'; (split; [reflexivity|]); (split; [auto|]); fold slow; try rewrite Epost;
      repeat (split; [reflexivity|]); intros r; reflexivity.
  - left. split; [exact Hpm|].
    assert (Enp : newpermute2 permute = None).
    { unfold newpermute2. destruct (Z.eqb_spec permute 0), (Z.eqb_spec permute 1); auto; exfalso; apply Hpm; unfold perm_ok2; lia. }
    assert (Epost : postflag2 n permute outs slow = true).
    { unfold postflag2. apply not_false_iff_true. intros E. apply (proj1 (anyrank_false _ _)) with (r := 0%nat) in E; [|lia].
      destruct (Z.eqb_spec permute 1); [exfalso; apply Hpm; unfold perm_ok2; lia|]. cbn in E. discriminate. }
    cbv zeta. fold slow. rewrite Epost, Enp. reflexivity.
Qed.

(** ** acceptance *)
Lemma setup2d_accepts : (exists f, S = SOk f) <->
  dims_ok2 N /\ (forall r, (r < n)%nat -> inside2 N (ins r)) /\
  zsum n (fun r => vol2 (ins r)) = (let '(x, y) := N in x * y) /\ perm_ok2 permute.
Proof.
  destruct setup2d_cases as [(msg & E & H)|(H1 & H2 & H3 & [(Hp & E)|(Hp & f & gb & E & _)])]; rewrite E.
  - split; [intros (f & [=])|tauto].
  - split; [intros (f & [=])|tauto].
  - split; [tauto|intros _; eauto].
Qed.
Lemma setup2d_rejects : (exists msg, S = SErr msg) <->
  ~ (dims_ok2 N /\ (forall r, (r < n)%nat -> inside2 N (ins r)) /\
     zsum n (fun r => vol2 (ins r)) = (let '(x, y) := N in x * y)).
Proof.
  destruct setup2d_cases as [(msg & E & H)|(H1 & H2 & H3 & [(Hp & E)|(Hp & f & gb & E & _)])]; rewrite E.
  - split; eauto.
  - split; [intros (m & [=])|tauto].
  - split; [intros (m & [=])|tauto].
Qed.
End S.

Lemma setup2d_facts ar n st N permute ins outs f : area_laws ar -> (1 <= n)%nat -> ints2 N ->
  setup2d ar n st N permute ins outs = SOk f -> facts2 n st N permute ins outs f.
Proof.
  intros L Hn HI HS.
  destruct (setup2d_cases ar n st N permute ins outs L Hn HI) as [(msg & E & _)|(H1 & H2 & H3 & [(_ & E)|(Hp & f' & gb & E & Gb & H)])];
    rewrite E in HS; try discriminate. injection HS as ->. cbv zeta in H.
  destruct H as (E1 & E2 & E3 & E4 & E5 & E6 & E7 & E8 & E10 & E11 & E12 & E13 & E14 & E15 & E16 & E18 & E19 & E20 & E22 & E23 & E24 & E25).
  destruct N as [x y]. pose proof H1 as ((X & SX) & (Y & SY)). cbn [fst snd] in *.
  destruct (fast_layout2 n x y Hn X Y) as (Tf & Lf).
  destruct (slow_layout2 n x y Hn X Y) as (Ts & Ls).
  pose proof (preflag2_spec n x y ins) as Hpre.
  pose proof (slow_internal2_spec n x y permute outs Hn) as Hsi.
  pose proof (postflag2_spec n x y permute outs (fun r => slow_box2 (x, y) (Z.of_nat n) (Z.of_nat r)) Hn (fun r => conj eq_refl eq_refl)) as Hpost. cbv beta in Hpost.
  pose proof (layout_same2_spec n permute ins outs Hn) as Hsame.
  constructor; try assumption.
  - rewrite H3. symmetry. apply (grid2_vol (x, y) H1).
  - rewrite E8. intros Ht. destruct (preflag2 n (x, y) ins); assumption.
  - rewrite E10. intros Ht. destruct (slow_internal2 n (x, y) permute outs); assumption.
  - rewrite E5, E11. intros Hx. destruct (st_exch st =? 0); [discriminate|]. apply (brick_layout2 n x y gb X Y Gb).
  - rewrite E8. intros r Hr. destruct (preflag2 n (x, y) ins); [apply Lf|apply (H2 r Hr)].
  - rewrite E10. intros Ho r Hr. destruct (slow_internal2 n (x, y) permute outs); [apply Ls, Hr|apply Ho, Hr].
  - rewrite E5, E11. intros Hx r Hr. destruct (st_exch st =? 0); [discriminate|]. apply (brick_layout2 n x y gb X Y Gb).
  - rewrite E8. intros r Hr. destruct (preflag2 n (x, y) ins) eqn:Ep; [split; reflexivity|apply (proj1 Hpre eq_refl r Hr)].
  - rewrite E10. intros r Hr. destruct (slow_internal2 n (x, y) permute outs) eqn:Es'; [split; reflexivity|apply (proj1 Hsi eq_refl), Hr].
  - rewrite E12. exact Hpre.
  - rewrite E12, E8. intros ->. reflexivity.
  - rewrite E13. rewrite Hpost. exact Hsi.
  - rewrite E13, Hpost, E10. intros ->. reflexivity.
  - rewrite E14. exact Hsame.
  - rewrite E15, E12, E8. reflexivity.
  - rewrite E16, E8, E10, E11. reflexivity.
  - rewrite E18, E13, E10. reflexivity.
  - rewrite E19, E14, E13, E10. reflexivity.
  - rewrite E20, E14, E10, E11, E8. reflexivity.
  - rewrite E22, E14, E12, E8. reflexivity.
  - rewrite E23. unfold all_objs2, fwd_objs2, bwd_objs2. rewrite <- !app_assoc. reflexivity.
  - rewrite E24. unfold all_objs2, fwd_objs2, bwd_objs2. rewrite <- !app_assoc. reflexivity.
  - intros r. rewrite E25, E8, E10, E11, E5. apply fftsize_max2.
Qed.

Definition layout2 (f : fft2) (t : nat -> box2) : Prop :=
  t = t_in f \/ t = t_out f \/ t = t_fast f \/ t = t_slow f \/ (t_exch f = true /\ t = t_brick f).
Definition obj_shape2 (f : fft2) (m : rm2) : Prop :=
  exists rot a b, perm_ok2 rot /\ perm_ok2 (rm2_perm m) /\ layout2 f a /\ layout2 f b /\
    rm2_in m = (fun r => rotb2 rot (a r)) /\ rm2_out m = (fun r => rotb2 rot (b r)).

Section Objs.
Variables (n : nat) (st : settings) (N : Z * Z) (permute : Z) (ins outs : nat -> box2) (f : fft2).
Hypothesis F : facts2 n st N permute ins outs f.

Lemma plain_shape2 rot perm a b m : perm_ok2 rot -> perm_ok2 perm -> layout2 f a -> layout2 f b ->
  In m (objs2 (plain_pair2 st rot perm a b)) -> obj_shape2 f m.
Proof. intros Hr Hp Ha Hb [<- | []]. exists rot, a, b. auto 7. Qed.
Lemma pencil_shape2 rot perm a b m : perm_ok2 rot -> perm_ok2 perm -> layout2 f a -> layout2 f b ->
  In m (objs2 (pencil_pair2 st rot perm a (t_brick f) b)) -> obj_shape2 f m.
Proof.
  intros Hr Hp Ha Hb. unfold pencil_pair2. pose proof (T_exch _ _ _ _ _ _ _ F) as He.
  destruct (st_exch st =? 0).
  - intros [<- | []]. exists rot, a, b. auto 7.
  - assert (Hk : layout2 f (t_brick f)) by (unfold layout2; auto 7).
    intros [<- | [<- | []]].
    + exists rot, a, (t_brick f). repeat split; auto. left; reflexivity.
    + exists rot, (t_brick f), b. auto 7.
Qed.
Lemma all_shape2 m : In m (all_objs2 f) -> obj_shape2 f m.
Proof.
  assert (P0 : perm_ok2 0) by (left; reflexivity). assert (P1 : perm_ok2 1) by (right; reflexivity).
  pose proof (T_perm _ _ _ _ _ _ _ F) as Hp.
  assert (Lin : layout2 f ins) by (left; symmetry; apply (T_fin _ _ _ _ _ _ _ F)).
  assert (Lout : layout2 f outs) by (right; left; symmetry; apply (T_fout _ _ _ _ _ _ _ F)).
  assert (Lf : layout2 f (t_fast f)) by (unfold layout2; auto 7).
  assert (Ls : layout2 f (t_slow f)) by (unfold layout2; auto 7).
  unfold all_objs2, fwd_objs2, bwd_objs2.
  rewrite (T_prefast _ _ _ _ _ _ _ F), (T_fastslow _ _ _ _ _ _ _ F), (T_postslow _ _ _ _ _ _ _ F),
    (T_preslow _ _ _ _ _ _ _ F), (T_slowfast _ _ _ _ _ _ _ F), (T_postfast _ _ _ _ _ _ _ F).
  assert (Pn : perm_ok2 ((permute + 1) mod 2)) by (destruct Hp as [-> | ->]; cbv; auto).
  rewrite !in_app_iff. intros [[H|[H|H]]|[H|[H|H]]].
  - destruct (t_pre f); [|destruct H]. revert H. apply plain_shape2; auto.
  - revert H. apply pencil_shape2; auto.
  - destruct (t_post f); [|destruct H]. revert H. apply plain_shape2; auto.
  - destruct (t_same f); [destruct H|]. destruct (t_post f); [|destruct H]. revert H. apply plain_shape2; auto.
  - destruct (t_same f); [destruct H|]. revert H. apply pencil_shape2; auto.
  - destruct (t_same f); [destruct H|]. destruct (t_pre f); [|destruct H]. revert H. apply plain_shape2; auto.
Qed.
Lemma layout_tiling2 t : tiling2 n N ins -> tiling2 n N outs -> layout2 f t -> tiling2 n N t.
Proof.
  intros Hi Ho [-> | [-> | [-> | [-> | (He & ->)]]]].
  - rewrite (T_fin _ _ _ _ _ _ _ F). exact Hi.
  - rewrite (T_fout _ _ _ _ _ _ _ F). exact Ho.
  - apply (T_fast _ _ _ _ _ _ _ F Hi).
  - apply (T_slow _ _ _ _ _ _ _ F Ho).
  - apply (T_brick _ _ _ _ _ _ _ F He).
Qed.
Lemma layout_fftsize2 t r : layout2 f t -> (r < n)%nat -> vol2 (t r) <= t_fftsize f r.
Proof.
  intros Ht Hr. pose proof (vol2_le_psize (t r)).
  destruct (T_fftsize _ _ _ _ _ _ _ F r) as (H1 & H2 & H3 & H5 & H6).
  assert (H0 : 0 <= psize2 (ins r)).
  { pose proof (T_ins _ _ _ _ _ _ _ F r Hr) as Hi. unfold inside2 in Hi. destruct N as [x y]. rewrite psize2_vol by tauto. unfold vol2. lia. }
  destruct Ht as [-> | [-> | [-> | [-> | (He & ->)]]]].
  - rewrite (T_fin _ _ _ _ _ _ _ F) in *. lia.
  - rewrite (T_fout _ _ _ _ _ _ _ F) in *. lia.
  - lia.
  - lia.
  - specialize (H6 He). lia.
Qed.
Lemma obj_fftsize2 m r : In m (all_objs2 f) -> (r < n)%nat -> vol2 (rm2_in m r) <= t_fftsize f r /\ vol2 (rm2_out m r) <= t_fftsize f r.
Proof.
  intros Hm Hr. destruct (all_shape2 m Hm) as (rot & a & b & Hrot & _ & La & Lb & -> & ->).
  rewrite !rot_vol2 by auto. split; apply layout_fftsize2; auto.
Qed.
Lemma obj_sizes2 m r pl : In m (all_objs2 f) ->
  setup2 n (rm2_coll m) (st_pack st) 2 (rm2_perm m) (rm2_in m) (rm2_out m) r = Some pl ->
  rp_sendsize pl <= t_sendsize f r /\ rp_recvsize pl <= t_recvsize f r.
Proof.
  intros Hm Hs. rewrite (T_sendsize _ _ _ _ _ _ _ F), (T_recvsize _ _ _ _ _ _ _ F).
  pose proof (maxsizes2_ge (rm2_ssize n st) _ r m Hm) as H1. pose proof (maxsizes2_ge (rm2_rsize n st) _ r m Hm) as H2.
  unfold rm2_ssize, rm2_rsize in H1, H2. rewrite Hs in H1, H2. auto.
Qed.
End Objs.
