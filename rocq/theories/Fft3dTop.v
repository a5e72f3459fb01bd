(** Fft3dTop.v : proofs behind PropertiesFft3d.v. *)

From Coq Require Import Reals Lra.
From Verif Require Import Base Spec Pack3d Sched SchedProofs Phases Exec Remap RemapMain RemapInst
  Remap3d RemapThms RemapTop Layout LayoutProofs Setup3d Setup3dProofs Kiss KissPure KissAlg KissReal Fft1d KissFinal
  Fft3d Frame Fft3dProofs Fft3dMain DftMulti.
Local Open Scope Z_scope.

(** a plan whose setup() succeeded on layouts that tile the grid *)
Definition ready3 (ar : areas) (n : nat) (st : settings) (N : Z * Z * Z) (permute : Z) (ins outs : nat -> box3) (f : fft3) : Prop :=
  area_laws ar /\ (1 <= n)%nat /\ ints3 N /\ flag_ok (st_pack st) /\ tiling3 n N ins /\ tiling3 n N outs /\
  (forall r, (r < n)%nat -> legal3 (outs r)) /\ setup3d ar n st N permute ins outs = SOk f.

(** buffers as large as setup computed them; for a backward transform the buffers
    must also suffice for the one remap that setup forgets *)
Definition room3 {F} (f : fft3) (flag : Z) (bo : bsel) (M0 : nat -> @rmem F) : Prop :=
  arrays_ok f bo M0 /\ (fwdpath f flag = false -> midfast_ok f M0).

(** in place, or out of place with the first remap (and without the last, backward) *)
Definition place3 (f : fft3) (flag : Z) (bi bo : bsel) : Prop :=
  bi = bo \/ (if fwdpath f flag then f_pre f = true else f_post f = true /\ f_pre f = false).

Definition grid_points (N : Z * Z * Z) : Z := fst (fst N) * snd (fst N) * snd N.

Lemma ready_facts ar n st N permute ins outs f : ready3 ar n st N permute ins outs f -> facts3 n st N permute ins outs f.
Proof. intros (A & B & C & _ & _ & _ & _ & E). eapply setup3d_facts; eassumption. Qed.

Lemma ready_plans {F} (O : sops F) (cexp : bool -> Z -> Z -> F * F) ar n st N permute ins outs f : ready3 ar n st N permute ins outs f ->
  exists P, setup_ffts3 cexp N = Some P.
Proof.
  intros Hr. pose proof (F_dims _ _ _ _ _ _ _ (ready_facts _ _ _ _ _ _ _ _ Hr)) as HD. destruct Hr as (_ & _ & HI & _).
  pose proof (setup_ffts3_ok O cexp N) as H. destruct N as [[x y] z]. cbn in HI, HD. unfold dim_ok, INT_MAX in *.
  destruct H as (P & E & _); [lia|lia|lia|]. exists P. exact E.
Qed.

(** without exchange the forgotten remap does not exist *)
Lemma midfast_auto {F} ar n st N permute ins outs f (M0 : nat -> @rmem F) : ready3 ar n st N permute ins outs f -> st_exch st = 0 -> midfast_ok f M0.
Proof.
  intros Hr He q m Hq Hm. rewrite (F_midfast _ _ _ _ _ _ _ (ready_facts _ _ _ _ _ _ _ _ Hr)) in Hq.
  destruct (f_same f); [discriminate|]. injection Hq as <-. unfold pencil_pair in Hm. rewrite He in Hm. discriminate.
Qed.

(** ** any arithmetic *)
Section Any.
Context {F : Type} (O : sops F).
Variables (cexp : bool -> Z -> Z -> F * F) (rnorm : Z -> F).

Lemma call_good ar n st N permute ins outs f P bi bo (M0 : nat -> @rmem F) scaled ro flag G :
  ready3 ar n st N permute ins outs f -> setup_ffts3 cexp N = Some P -> isdata bi -> isdata bo ->
  place3 f flag bi bo -> room3 f flag bo M0 ->
  good n (st3 f bo M0 bi (src_perm permute f flag) (src_lay ins outs f flag) (fld G))
    (pieces_compute3 O rnorm f P scaled ro flag bi bo)
    (fun r m => holds3 2 (dst_perm permute f flag) (dst_lay ins outs f flag r)
                  (fld (call_val O rnorm N permute ins outs f P scaled ro flag G r)) (getb bo m) /\
                framed M0 bo (fun r => 2 * f_fftsize f r) r m).
Proof.
  intros Hr HP Hbi Hbo Hpl (Ha & Hm). pose proof (ready_facts _ _ _ _ _ _ _ _ Hr) as FA.
  destruct Hr as (_ & _ & HI & Hpk & Ti & To & Lo & _).
  apply (compute_good O cexp rnorm n st N permute ins outs f P FA HI HP Ti To Lo Hpk bi bo M0 Hbi Hbo Ha scaled ro flag G Hpl Hm).
Qed.

Lemma call_runs ar n st N permute ins outs f P bi bo (M0 : nat -> @rmem F) scaled ro flag G :
  ready3 ar n st N permute ins outs f -> setup_ffts3 cexp N = Some P -> isdata bi -> isdata bo ->
  place3 f flag bi bo -> room3 f flag bo M0 ->
  (forall r, (r < n)%nat -> holds3 2 (src_perm permute f flag) (src_lay ins outs f flag r) (fld G) (getb bi (M0 r))) ->
  exec_all n (compute3 O rnorm f P scaled ro flag bi bo) M0
    (fun r m => holds3 2 (dst_perm permute f flag) (dst_lay ins outs f flag r)
                  (fld (call_val O rnorm N permute ins outs f P scaled ro flag G r)) (getb bo m) /\
                framed M0 bo (fun r => 2 * f_fftsize f r) r m).
Proof.
  intros Hr HP Hbi Hbo Hpl Hro Hin. unfold compute3. eapply good_exec; [apply (call_good ar n st N permute ins outs f P bi bo M0 scaled ro flag G); assumption|].
  intros r Hrn. split; [apply Hin, Hrn|apply framed_refl].
Qed.

(** plans made with different performance settings for the same problem *)
Lemma same_paths n st st' N permute ins outs f f' : facts3 n st N permute ins outs f -> facts3 n st' N permute ins outs f' ->
  f_same f = f_same f' /\ f_pre f = f_pre f' /\ f_post f = f_post f'.
Proof.
  intros A B.
  assert (E : forall a b : bool, (a = true <-> b = true) -> a = b) by (intros [] []; intuition congruence).
  assert (E' : forall a b : bool, (a = false <-> b = false) -> a = b) by (intros [] []; intuition congruence).
  split; [|split].
  - apply E. rewrite (F_same _ _ _ _ _ _ _ A), (F_same _ _ _ _ _ _ _ B). reflexivity.
  - apply E'. rewrite (F_pre _ _ _ _ _ _ _ A), (F_pre _ _ _ _ _ _ _ B). reflexivity.
  - apply E'. rewrite (F_post _ _ _ _ _ _ _ A), (F_post _ _ _ _ _ _ _ B). reflexivity.
Qed.

Lemma call_agree ar ar' n st st' N permute ins outs f f' P bi bo bi' bo' (M0 M0' : nat -> @rmem F) scaled ro flag G :
  ready3 ar n st N permute ins outs f -> ready3 ar' n st' N permute ins outs f' -> setup_ffts3 cexp N = Some P ->
  isdata bi -> isdata bo -> isdata bi' -> isdata bo' ->
  place3 f flag bi bo -> place3 f' flag bi' bo' -> room3 f flag bo M0 -> room3 f' flag bo' M0' ->
  (forall r, (r < n)%nat -> holds3 2 (src_perm permute f flag) (src_lay ins outs f flag r) (fld G) (getb bi (M0 r))) ->
  (forall r, (r < n)%nat -> holds3 2 (src_perm permute f flag) (src_lay ins outs f flag r) (fld G) (getb bi' (M0' r))) ->
  exists M M', exec_to n (compute3 O rnorm f P scaled ro flag bi bo) M0 M /\
    exec_to n (compute3 O rnorm f' P scaled ro flag bi' bo') M0' M' /\
    forall r p q, (r < n)%nat -> inb3 p (dst_lay ins outs f flag r) -> 0 <= q < 2 ->
      exists v, zget (getb bo (M r)) (cell3 2 (dst_perm permute f flag) (dst_lay ins outs f flag r) p q) = Some v /\
        zget (getb bo' (M' r)) (cell3 2 (dst_perm permute f flag) (dst_lay ins outs f flag r) p q) = Some v.
Proof.
  intros Hr Hr' HP Hbi Hbo Hbi' Hbo' Hpl Hpl' Hro Hro' H1 H2.
  destruct (same_paths _ _ _ _ _ _ _ _ _ (ready_facts _ _ _ _ _ _ _ _ Hr) (ready_facts _ _ _ _ _ _ _ _ Hr')) as (Es & Ep & Eq).
  assert (Ew : fwdpath f flag = fwdpath f' flag) by (unfold fwdpath; rewrite Es; reflexivity).
  destruct (call_runs ar n st N permute ins outs f P bi bo M0 scaled ro flag G) as (M & HM & EM); auto.
  destruct (call_runs ar' n st' N permute ins outs f' P bi' bo' M0' scaled ro flag G) as (M' & HM' & EM'); auto.
  { unfold src_perm, src_lay in *. rewrite <- Ew. exact H2. }
  exists M, M'. split; [exact EM|]. split; [exact EM'|]. intros r p q Hrn Hp Hq.
  destruct (HM r Hrn) as (A & _). destruct (HM' r Hrn) as (B & _).
  exists (fld (call_val O rnorm N permute ins outs f P scaled ro flag G r) p q).
  split; [apply A; assumption|].
  assert (Ec : call_val O rnorm N permute ins outs f' P scaled ro flag G r = call_val O rnorm N permute ins outs f P scaled ro flag G r).
  { unfold call_val, dst_perm, dst_lay. rewrite <- Ew. reflexivity. }
  rewrite Ec in B. unfold dst_perm, dst_lay in *. rewrite <- Ew in B. apply B; assumption.
Qed.
End Any.

(** ** real numbers *)
Section Reals.
Definition rnormR (k : Z) : R := (/ IZR k)%R.

Lemma lineT_real L inv st x j : plan_for cexpR L inv st -> 0 <= j < L -> lineT Rops st x j = DFT inv L x j.
Proof.
  intros (HL & E) Hj. destruct (alloc_ok Rops cexpR L inv HL) as (st' & E' & H1 & H2 & H3 & H4 & H5).
  assert (st' = st) by congruence. subst st'. unfold lineT. rewrite (wk_real L inv st x j) by (auto; lia). apply DFT_dft. lia.
Qed.

Definition in_grid (N : Z * Z * Z) (p : pt3) : Prop := inb3 p (grid3 N).

Lemma fwd_real n st N permute ins outs f P flag x p : facts3 n st N permute ins outs f -> ints3 N -> setup_ffts3 cexpR N = Some P ->
  in_grid N p -> fwd_val Rops P false flag x p = DFT3 (negb (flag =? FORWARD)) N x p.
Proof.
  intros FA HI HP Hp. destruct (plans_ok Rops cexpR n st N permute ins outs f P FA HI HP flag) as (H1 & H2 & H3).
  destruct N as [[n1 n2] n3]. destruct p as [[i j] k]. cbn in Hp. cbn [fst snd] in *.
  unfold fwd_val, may, along. cbn [Z.eqb].
  rewrite (lineT_real n3 _ _ _ k H3) by lia. rewrite <- DFT3_fwd by lia.
  apply DFT_ext; [lia|]. intros c Hc. rewrite (lineT_real n2 _ _ _ j H2) by lia.
  apply DFT_ext; [lia|]. intros b Hb. apply (lineT_real n1 _ _ _ i H1); lia.
Qed.
Lemma bwd_real n st N permute ins outs f P flag x p : facts3 n st N permute ins outs f -> ints3 N -> setup_ffts3 cexpR N = Some P ->
  in_grid N p -> bwd_val Rops P false flag x p = DFT3 (negb (flag =? FORWARD)) N x p.
Proof.
  intros FA HI HP Hp. destruct (plans_ok Rops cexpR n st N permute ins outs f P FA HI HP flag) as (H1 & H2 & H3).
  destruct N as [[n1 n2] n3]. destruct p as [[i j] k]. cbn in Hp. cbn [fst snd] in *.
  unfold bwd_val, may, along. cbn [Z.eqb].
  rewrite (lineT_real n1 _ _ _ i H1) by lia. rewrite <- DFT3_bwd by lia.
  apply DFT_ext; [lia|]. intros c Hc. rewrite (lineT_real n2 _ _ _ j H2) by lia.
  apply DFT_ext; [lia|]. intros b Hb. apply (lineT_real n3 _ _ _ k H3); lia.
Qed.

(** the factor applied to point p on rank r by a transform with flag *)
Definition factor3 (N : Z * Z * Z) (outs : nat -> box3) (scaled : bool) (flag perm : Z) (lay : nat -> box3) (r : nat) (p : pt3) : R :=
  if (flag =? BACKWARD) && scaled && (pos3 perm (lay r) p <? psize3 (outs r)) then (/ IZR (grid_points N))%R else 1%R.

Lemma call_real n st N permute ins outs f P scaled flag x r p : facts3 n st N permute ins outs f -> ints3 N -> setup_ffts3 cexpR N = Some P ->
  in_grid N p ->
  call_val Rops rnormR N permute ins outs f P scaled false flag x r p =
  rmulc (factor3 N outs scaled flag (dst_perm permute f flag) (dst_lay ins outs f flag) r p) (DFT3 (negb (flag =? FORWARD)) N x p).
Proof.
  intros FA HI HP Hp. unfold call_val, finish, factor3. cbn [negb]. rewrite andb_true_r.
  rewrite (fwd_real n st N permute ins outs f P flag x p FA HI HP Hp) || idtac.
  assert (E : (if fwdpath f flag then fwd_val Rops P false flag x else bwd_val Rops P false flag x) p = DFT3 (negb (flag =? FORWARD)) N x p).
  { destruct (fwdpath f flag); [eapply fwd_real|eapply bwd_real]; eassumption. }
  rewrite E. destruct ((flag =? BACKWARD) && scaled && (pos3 _ _ p <? psize3 (outs r))).
  - unfold scl, rmulc, gridsize, rnormR, grid_points. cbn. f_equal; ring.
  - unfold rmulc. rewrite !Rmult_1_l. destruct (DFT3 _ _ _ _); reflexivity.
Qed.

Lemma tile_grid n N t r p : tiling3 n N t -> (r < n)%nat -> inb3 p (t r) -> in_grid N p.
Proof. intros T Hr Hp. apply (proj1 T p r Hr Hp). Qed.

Lemma holds3_ext {A} nq perm b (g h : pt3 -> Z -> A) arr : (forall p q, inb3 p b -> 0 <= q < nq -> g p q = h p q) ->
  holds3 nq perm b g arr -> holds3 nq perm b h arr.
Proof. intros E H p q Hp Hq. rewrite <- E by assumption. apply H; assumption. Qed.
Lemma fld_ext {F} (G H : pt3 -> F * F) p q : G p = H p -> fld G p q = fld H p q.
Proof. intros E. unfold fld. rewrite E. reflexivity. Qed.

Lemma dst_tiling ar n st N permute ins outs f flag : ready3 ar n st N permute ins outs f -> tiling3 n N (dst_lay ins outs f flag).
Proof. intros (_ & _ & _ & _ & Ti & To & _). unfold dst_lay. destruct (fwdpath f flag); assumption. Qed.

Lemma real_good ar n st N permute ins outs f P bi bo (M0 : nat -> @rmem R) scaled flag x :
  ready3 ar n st N permute ins outs f -> setup_ffts3 cexpR N = Some P -> isdata bi -> isdata bo ->
  place3 f flag bi bo -> room3 f flag bo M0 ->
  good n (st3 f bo M0 bi (src_perm permute f flag) (src_lay ins outs f flag) (fld x))
    (pieces_compute3 Rops rnormR f P scaled false flag bi bo)
    (fun r m => holds3 2 (dst_perm permute f flag) (dst_lay ins outs f flag r)
       (fld (fun p => rmulc (factor3 N outs scaled flag (dst_perm permute f flag) (dst_lay ins outs f flag) r p) (DFT3 (negb (flag =? FORWARD)) N x p)))
       (getb bo m) /\
                framed M0 bo (fun r => 2 * f_fftsize f r) r m).
Proof.
  intros Hr HP Hbi Hbo Hpl Hro. pose proof (ready_facts _ _ _ _ _ _ _ _ Hr) as FA. pose proof (dst_tiling _ _ _ _ _ _ _ _ flag Hr) as Td.
  destruct Hr as (A1 & A2 & HI & A3). assert (Hr : ready3 ar n st N permute ins outs f) by (split; auto).
  eapply good_conseq; [| |apply (call_good Rops cexpR rnormR ar n st N permute ins outs f P bi bo M0 scaled false flag x); assumption].
  - intros r m _ H. exact H.
  - intros r m Hrn (H1 & H2). split; [|exact H2]. eapply holds3_ext; [|exact H1]. intros p q Hp Hq. apply fld_ext.
    eapply call_real; try eassumption. eapply tile_grid; eassumption.
Qed.

(** where the two layouts are the same, the backward transform's source is written like the output layout *)
Lemma src_out ar n st N permute ins outs f flag r : ready3 ar n st N permute ins outs f -> flag <> FORWARD -> (r < n)%nat ->
  src_perm permute f flag = permute /\ src_lay ins outs f flag r = outs r /\
  dst_perm permute f flag = 0 /\ dst_lay ins outs f flag r = ins r.
Proof.
  intros Hr Hfl Hrn. unfold src_perm, src_lay, dst_perm, dst_lay, fwdpath. destruct (Z.eqb_spec flag FORWARD); [contradiction|]. cbn [orb].
  destruct (f_same f) eqn:Es; [|auto].
  destruct (proj1 (F_same _ _ _ _ _ _ _ (ready_facts _ _ _ _ _ _ _ _ Hr)) Es) as (-> & E). rewrite (E r Hrn). auto.
Qed.

Lemma forward_dirs permute ins outs f : src_perm permute f FORWARD = 0 /\ src_lay ins outs f FORWARD = ins /\
  dst_perm permute f FORWARD = permute /\ dst_lay ins outs f FORWARD = outs.
Proof. unfold src_perm, src_lay, dst_perm, dst_lay, fwdpath. cbn. auto. Qed.

Lemma fwd_good3 ar n st N permute ins outs f P bi bo (M0 : nat -> @rmem R) scaled x :
  ready3 ar n st N permute ins outs f -> setup_ffts3 cexpR N = Some P -> isdata bi -> isdata bo ->
  place3 f FORWARD bi bo -> arrays_ok f bo M0 ->
  good n (st3 f bo M0 bi 0 ins (fld x)) (pieces_compute3 Rops rnormR f P scaled false FORWARD bi bo)
    (st3 f bo M0 bo permute outs (fld (DFT3 false N x))).
Proof.
  intros Hr HP Hbi Hbo Hpl Ha. pose proof (real_good ar n st N permute ins outs f P bi bo M0 scaled FORWARD x Hr HP Hbi Hbo Hpl) as H.
  destruct (forward_dirs permute ins outs f) as (E1 & E2 & E3 & E4). rewrite E1, E2, E3, E4 in H.
  eapply good_conseq; [| |apply H].
  - intros r m _ K. exact K.
  - intros r m Hrn (K1 & K2). split; [|exact K2]. eapply holds3_ext; [|exact K1]. intros p q _ _. apply fld_ext.
    unfold factor3. cbn. unfold rmulc. rewrite !Rmult_1_l. destruct (DFT3 _ _ _ _); reflexivity.
  - split; [exact Ha|]. cbn. discriminate.
Qed.

Lemma bwd_good3 ar n st N permute ins outs f P bi bo (M0 : nat -> @rmem R) scaled x :
  ready3 ar n st N permute ins outs f -> setup_ffts3 cexpR N = Some P -> isdata bi -> isdata bo ->
  place3 f BACKWARD bi bo -> room3 f BACKWARD bo M0 ->
  good n (st3 f bo M0 bi permute outs (fld x)) (pieces_compute3 Rops rnormR f P scaled false BACKWARD bi bo)
    (fun r m => holds3 2 0 (ins r)
       (fld (fun p => rmulc (if scaled && (pos3 0 (ins r) p <? psize3 (outs r)) then / IZR (grid_points N) else 1)%R (DFT3 true N x p)))
       (getb bo m) /\ framed M0 bo (fun r => 2 * f_fftsize f r) r m).
Proof.
  intros Hr HP Hbi Hbo Hpl Ha. pose proof (real_good ar n st N permute ins outs f P bi bo M0 scaled BACKWARD x Hr HP Hbi Hbo Hpl Ha) as H.
  eapply good_conseq; [| |apply H].
  - intros r m Hrn (K1 & K2). split; [|exact K2].
    destruct (src_out ar n st N permute ins outs f BACKWARD r Hr ltac:(discriminate) Hrn) as (E1 & E2 & E3 & E4). rewrite E1, E2. exact K1.
  - intros r m Hrn (K1 & K2). split; [|exact K2].
    destruct (src_out ar n st N permute ins outs f BACKWARD r Hr ltac:(discriminate) Hrn) as (E1 & E2 & E3 & E4). rewrite E3, E4 in K1.
    eapply holds3_ext; [|exact K1]. intros p q _ _. apply fld_ext. unfold factor3. rewrite E4. reflexivity.
Qed.

Lemma in_grid_pts N p : in_grid N p -> let '(n1, n2, n3) := N in let '(i, j, k) := p in 0 <= i < n1 /\ 0 <= j < n2 /\ 0 <= k < n3.
Proof. destruct N as [[n1 n2] n3]. destruct p as [[i j] k]. cbn. lia. Qed.

Lemma inverse3 inv N x p : in_grid N p -> DFT3 (negb inv) N (DFT3 inv N x) p = rmulc (IZR (grid_points N)) (x p).
Proof.
  intros Hp. apply in_grid_pts in Hp. destruct N as [[n1 n2] n3]. destruct p as [[i j] k]. apply DFT3_inverse; lia.
Qed.

Lemma grid_points_pos N p : in_grid N p -> 0 < grid_points N.
Proof.
  intros Hp. apply in_grid_pts in Hp. destruct N as [[n1 n2] n3]. destruct p as [[i j] k]. unfold grid_points. cbn [fst snd].
  assert (0 < n1 * n2) by nia. nia.
Qed.

Lemma round_good3 ar n st N permute ins outs f P b (M0 : nat -> @rmem R) s1 scaled x :
  ready3 ar n st N permute ins outs f -> setup_ffts3 cexpR N = Some P -> isdata b -> room3 f BACKWARD b M0 ->
  good n (st3 f b M0 b 0 ins (fld x))
    (pieces_compute3 Rops rnormR f P s1 false FORWARD b b ++ pieces_compute3 Rops rnormR f P scaled false BACKWARD b b)
    (fun r m => holds3 2 0 (ins r)
       (fld (fun p => rmulc (if scaled && (pos3 0 (ins r) p <? psize3 (outs r)) then 1 else IZR (grid_points N))%R (x p)))
       (getb b m) /\ framed M0 b (fun r => 2 * f_fftsize f r) r m).
Proof.
  intros Hr HP Hb Hro. pose proof Hr as (_ & _ & _ & _ & Ti & _).
  eapply good_app; [apply (fwd_good3 ar n st N permute ins outs f P b b M0 s1 x); auto; [left; reflexivity|apply Hro]|].
  eapply good_conseq; [| |apply (bwd_good3 ar n st N permute ins outs f P b b M0 scaled (DFT3 false N x)); auto; left; reflexivity].
  - intros r m _ K. exact K.
  - intros r m Hrn (K1 & K2). split; [|exact K2]. eapply holds3_ext; [|exact K1]. intros p q Hp _. apply fld_ext. cbv beta.
    pose proof (tile_grid n N ins r p Ti Hrn Hp) as Hg. pose proof (inverse3 false N x p Hg) as Ei. cbn [negb] in Ei. rewrite Ei, rmulc_mul.
    assert (IZR (grid_points N) <> 0%R) by (apply not_0_IZR; pose proof (grid_points_pos N p Hg); lia).
    destruct (scaled && _); f_equal; field; assumption.
Qed.
End Reals.
