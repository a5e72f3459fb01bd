(** Fft2dTop.v : proofs behind PropertiesFft2d.v. *)

From Coq Require Import Reals Lra.
From Verif Require Import Base Spec Pack2d Sched SchedProofs Phases Exec Remap RemapMain RemapInst
  Remap2d RemapThms RemapTop Layout LayoutProofs Setup3d Setup3dProofs Setup2d Setup2dProofs Kiss KissPure KissAlg KissReal Fft1d KissFinal
  Fft3d Frame Fft3dProofs Fft3dMain DftMulti Fft3dTop Fft2d Fft2dMain.
Local Open Scope Z_scope.

(** a plan whose setup() succeeded on layouts that tile the grid; [esize] is
    sizeof(FFT_SCALAR), and packflag 2 is sound for 8-byte scalars only (C14) *)
Definition ready2 (esize : Z) (ar : areas) (n : nat) (st : settings) (N : Z * Z) (permute : Z) (ins outs : nat -> box2) (f : fft2) : Prop :=
  area_laws ar /\ (1 <= n)%nat /\ ints2 N /\ flag_ok (st_pack st) /\ (esize = 8 \/ st_pack st <> 2) /\ tiling2 n N ins /\ tiling2 n N outs /\
  (forall r, (r < n)%nat -> legal2 (outs r)) /\ setup2d ar n st N permute ins outs = SOk f.

(** in place, or out of place with the first remap (and without the last, backward) *)
Definition place2 (f : fft2) (flag : Z) (bi bo : bsel) : Prop :=
  bi = bo \/ (if fwdpath2 f flag then t_pre f = true else t_post f = true /\ t_pre f = false).

Definition grid_points2 (N : Z * Z) : Z := fst N * snd N.

Lemma ready_facts2 esize ar n st N permute ins outs f : ready2 esize ar n st N permute ins outs f -> facts2 n st N permute ins outs f.
Proof. intros (A & B & C & _ & _ & _ & _ & _ & E). eapply setup2d_facts; eassumption. Qed.

Lemma ready_plans2 {F} (O : sops F) (cexp : bool -> Z -> Z -> F * F) esize ar n st N permute ins outs f : ready2 esize ar n st N permute ins outs f ->
  exists P, setup_ffts2 cexp N = Some P.
Proof.
  intros Hr. pose proof (T_dims _ _ _ _ _ _ _ (ready_facts2 _ _ _ _ _ _ _ _ _ Hr)) as HD. destruct Hr as (_ & _ & HI & _).
  pose proof (setup_ffts2_ok O cexp N) as H. destruct N as [x z]. cbn in HI, HD. unfold dim_ok, INT_MAX in *.
  destruct H as (P & E & _); [lia|lia|]. exists P. exact E.
Qed.


(** ** any arithmetic *)
Section Any.
Context {F : Type} (O : sops F).
Variables (cexp : bool -> Z -> Z -> F * F) (rnorm : Z -> F).

Lemma call_good2 esize ar n st N permute ins outs f P bi bo (M0 : nat -> @rmem F) scaled ro flag G :
  ready2 esize ar n st N permute ins outs f -> setup_ffts2 cexp N = Some P -> isdata bi -> isdata bo ->
  place2 f flag bi bo -> arrays_ok2 f bo M0 ->
  good n (st2 f bo M0 bi (src_perm2 permute f flag) (src_lay2 ins outs f flag) (fld G))
    (pieces_compute2 O rnorm esize f P scaled ro flag bi bo)
    (fun r m => holds2 2 (dst_perm2 permute f flag) (dst_lay2 ins outs f flag r)
                  (fld (call_val2 O rnorm N permute ins outs f P scaled ro flag G r)) (getb bo m) /\
                framed M0 bo (fun r => 2 * t_fftsize f r) r m).
Proof.
  intros Hr HP Hbi Hbo Hpl Ha. pose proof (ready_facts2 _ _ _ _ _ _ _ _ _ Hr) as FA.
  destruct Hr as (_ & _ & HI & Hpk & He & Ti & To & Lo & _).
  apply (compute_good2 O cexp rnorm esize n st N permute ins outs f P FA HI HP Ti To Lo Hpk He bi bo M0 Hbi Hbo Ha scaled ro flag G Hpl).
Qed.

Lemma call_runs2 esize ar n st N permute ins outs f P bi bo (M0 : nat -> @rmem F) scaled ro flag G :
  ready2 esize ar n st N permute ins outs f -> setup_ffts2 cexp N = Some P -> isdata bi -> isdata bo ->
  place2 f flag bi bo -> arrays_ok2 f bo M0 ->
  (forall r, (r < n)%nat -> holds2 2 (src_perm2 permute f flag) (src_lay2 ins outs f flag r) (fld G) (getb bi (M0 r))) ->
  exec_all n (compute2 O rnorm esize f P scaled ro flag bi bo) M0
    (fun r m => holds2 2 (dst_perm2 permute f flag) (dst_lay2 ins outs f flag r)
                  (fld (call_val2 O rnorm N permute ins outs f P scaled ro flag G r)) (getb bo m) /\
                framed M0 bo (fun r => 2 * t_fftsize f r) r m).
Proof.
  intros Hr HP Hbi Hbo Hpl Hro Hin. unfold compute2. eapply good_exec; [apply (call_good2 esize ar n st N permute ins outs f P bi bo M0 scaled ro flag G); assumption|].
  intros r Hrn. split; [apply Hin, Hrn|apply framed_refl].
Qed.

(** plans made with different performance settings for the same problem *)
Lemma same_paths2 n st st' N permute ins outs f f' : facts2 n st N permute ins outs f -> facts2 n st' N permute ins outs f' ->
  t_same f = t_same f' /\ t_pre f = t_pre f' /\ t_post f = t_post f'.
Proof.
  intros A B.
  assert (E : forall a b : bool, (a = true <-> b = true) -> a = b) by (intros [] []; intuition congruence).
  assert (E' : forall a b : bool, (a = false <-> b = false) -> a = b) by (intros [] []; intuition congruence).
  split; [|split].
  - apply E. rewrite (T_same _ _ _ _ _ _ _ A), (T_same _ _ _ _ _ _ _ B). reflexivity.
  - apply E'. rewrite (T_pre _ _ _ _ _ _ _ A), (T_pre _ _ _ _ _ _ _ B). reflexivity.
  - apply E'. rewrite (T_post _ _ _ _ _ _ _ A), (T_post _ _ _ _ _ _ _ B). reflexivity.
Qed.

Lemma call_agree2 esize ar ar' n st st' N permute ins outs f f' P bi bo bi' bo' (M0 M0' : nat -> @rmem F) scaled ro flag G :
  ready2 esize ar n st N permute ins outs f -> ready2 esize ar' n st' N permute ins outs f' -> setup_ffts2 cexp N = Some P ->
  isdata bi -> isdata bo -> isdata bi' -> isdata bo' ->
  place2 f flag bi bo -> place2 f' flag bi' bo' -> arrays_ok2 f bo M0 -> arrays_ok2 f' bo' M0' ->
  (forall r, (r < n)%nat -> holds2 2 (src_perm2 permute f flag) (src_lay2 ins outs f flag r) (fld G) (getb bi (M0 r))) ->
  (forall r, (r < n)%nat -> holds2 2 (src_perm2 permute f flag) (src_lay2 ins outs f flag r) (fld G) (getb bi' (M0' r))) ->
  exists M M', exec_to n (compute2 O rnorm esize f P scaled ro flag bi bo) M0 M /\
    exec_to n (compute2 O rnorm esize f' P scaled ro flag bi' bo') M0' M' /\
    forall r p q, (r < n)%nat -> inb2 p (dst_lay2 ins outs f flag r) -> 0 <= q < 2 ->
      exists v, zget (getb bo (M r)) (cell2 2 (dst_perm2 permute f flag) (dst_lay2 ins outs f flag r) p q) = Some v /\
        zget (getb bo' (M' r)) (cell2 2 (dst_perm2 permute f flag) (dst_lay2 ins outs f flag r) p q) = Some v.
Proof.
  intros Hr Hr' HP Hbi Hbo Hbi' Hbo' Hpl Hpl' Hro Hro' H1 H2.
  destruct (same_paths2 _ _ _ _ _ _ _ _ _ (ready_facts2 _ _ _ _ _ _ _ _ _ Hr) (ready_facts2 _ _ _ _ _ _ _ _ _ Hr')) as (Es & Ep & Eq).
  assert (Ew : fwdpath2 f flag = fwdpath2 f' flag) by (unfold fwdpath2; rewrite Es; reflexivity).
  destruct (call_runs2 esize ar n st N permute ins outs f P bi bo M0 scaled ro flag G) as (M & HM & EM); auto.
  destruct (call_runs2 esize ar' n st' N permute ins outs f' P bi' bo' M0' scaled ro flag G) as (M' & HM' & EM'); auto.
  { unfold src_perm2, src_lay2 in *. rewrite <- Ew. exact H2. }
  exists M, M'. split; [exact EM|]. split; [exact EM'|]. intros r p q Hrn Hp Hq.
  destruct (HM r Hrn) as (A & _). destruct (HM' r Hrn) as (B & _).
  exists (fld (call_val2 O rnorm N permute ins outs f P scaled ro flag G r) p q).
  split; [apply A; assumption|].
  assert (Ec : call_val2 O rnorm N permute ins outs f' P scaled ro flag G r = call_val2 O rnorm N permute ins outs f P scaled ro flag G r).
  { unfold call_val2, dst_perm2, dst_lay2. rewrite <- Ew. reflexivity. }
  rewrite Ec in B. unfold dst_perm2, dst_lay2 in *. rewrite <- Ew in B. apply B; assumption.
Qed.
End Any.

(** ** real numbers *)
Section Reals.

Definition in_grid2 (N : Z * Z) (p : pt2) : Prop := inb2 p (grid2 N).

Lemma fwd_real2 n st N permute ins outs f P flag x p : facts2 n st N permute ins outs f -> ints2 N -> setup_ffts2 cexpR N = Some P ->
  in_grid2 N p -> fwd_val2 Rops P false flag x p = DFT2 (negb (flag =? FORWARD)) N x p.
Proof.
  intros FA HI HP Hp. destruct (plans_ok2 Rops cexpR n st N permute ins outs f P FA HI HP flag) as (H1 & H2).
  destruct N as [n1 n2]. destruct p as [i j]. cbn in Hp. cbn [fst snd] in *.
  unfold fwd_val2, may2, along2. cbn [Z.eqb].
  rewrite (lineT_real n2 _ _ _ j H2) by lia. rewrite <- DFT2_fwd by lia.
  apply DFT_ext; [lia|]. intros b Hb. apply (lineT_real n1 _ _ _ i H1); lia.
Qed.
Lemma bwd_real2 n st N permute ins outs f P flag x p : facts2 n st N permute ins outs f -> ints2 N -> setup_ffts2 cexpR N = Some P ->
  in_grid2 N p -> bwd_val2 Rops P false flag x p = DFT2 (negb (flag =? FORWARD)) N x p.
Proof.
  intros FA HI HP Hp. destruct (plans_ok2 Rops cexpR n st N permute ins outs f P FA HI HP flag) as (H1 & H2).
  destruct N as [n1 n2]. destruct p as [i j]. cbn in Hp. cbn [fst snd] in *.
  unfold bwd_val2, may2, along2. cbn [Z.eqb].
  rewrite (lineT_real n1 _ _ _ i H1) by lia. rewrite <- DFT2_bwd by lia.
  apply DFT_ext; [lia|]. intros b Hb. apply (lineT_real n2 _ _ _ j H2); lia.
Qed.

(** the factor2 applied to point p on rank r by a transform with flag *)
Definition factor2 (N : Z * Z) (outs : nat -> box2) (scaled : bool) (flag perm : Z) (lay : nat -> box2) (r : nat) (p : pt2) : R :=
  if (flag =? BACKWARD) && scaled && (pos2 perm (lay r) p <? psize2 (outs r)) then (/ IZR (grid_points2 N))%R else 1%R.

Lemma call_real2 n st N permute ins outs f P scaled flag x r p : facts2 n st N permute ins outs f -> ints2 N -> setup_ffts2 cexpR N = Some P ->
  in_grid2 N p ->
  call_val2 Rops rnormR N permute ins outs f P scaled false flag x r p =
  rmulc (factor2 N outs scaled flag (dst_perm2 permute f flag) (dst_lay2 ins outs f flag) r p) (DFT2 (negb (flag =? FORWARD)) N x p).
Proof.
  intros FA HI HP Hp. unfold call_val2, finish2, factor2. cbn [negb]. rewrite andb_true_r.
  assert (E : (if fwdpath2 f flag then fwd_val2 Rops P false flag x else bwd_val2 Rops P false flag x) p = DFT2 (negb (flag =? FORWARD)) N x p).
  { destruct (fwdpath2 f flag); [eapply fwd_real2|eapply bwd_real2]; eassumption. }
  rewrite E. destruct ((flag =? BACKWARD) && scaled && (pos2 _ _ p <? psize2 (outs r))).
  - unfold scl, rmulc, gridsize2, rnormR, grid_points2. cbn. f_equal; ring.
  - unfold rmulc. rewrite !Rmult_1_l. destruct (DFT2 _ _ _ _); reflexivity.
Qed.

Lemma tile_grid2 n N t r p : tiling2 n N t -> (r < n)%nat -> inb2 p (t r) -> in_grid2 N p.
Proof. intros T Hr Hp. apply (proj1 T p r Hr Hp). Qed.

Lemma holds2_ext {A} nq perm b (g h : pt2 -> Z -> A) arr : (forall p q, inb2 p b -> 0 <= q < nq -> g p q = h p q) ->
  holds2 nq perm b g arr -> holds2 nq perm b h arr.
Proof. intros E H p q Hp Hq. rewrite <- E by assumption. apply H; assumption. Qed.
Lemma fld_ext2 {F} (G H : pt2 -> F * F) p q : G p = H p -> fld G p q = fld H p q.
Proof. intros E. unfold fld. rewrite E. reflexivity. Qed.

Lemma dst_tiling2 esize ar n st N permute ins outs f flag : ready2 esize ar n st N permute ins outs f -> tiling2 n N (dst_lay2 ins outs f flag).
Proof. intros (_ & _ & _ & _ & _ & Ti & To & _). unfold dst_lay2. destruct (fwdpath2 f flag); assumption. Qed.

Lemma real_good2 esize ar n st N permute ins outs f P bi bo (M0 : nat -> @rmem R) scaled flag x :
  ready2 esize ar n st N permute ins outs f -> setup_ffts2 cexpR N = Some P -> isdata bi -> isdata bo ->
  place2 f flag bi bo -> arrays_ok2 f bo M0 ->
  good n (st2 f bo M0 bi (src_perm2 permute f flag) (src_lay2 ins outs f flag) (fld x))
    (pieces_compute2 Rops rnormR esize f P scaled false flag bi bo)
    (fun r m => holds2 2 (dst_perm2 permute f flag) (dst_lay2 ins outs f flag r)
       (fld (fun p => rmulc (factor2 N outs scaled flag (dst_perm2 permute f flag) (dst_lay2 ins outs f flag) r p) (DFT2 (negb (flag =? FORWARD)) N x p)))
       (getb bo m) /\
                framed M0 bo (fun r => 2 * t_fftsize f r) r m).
Proof.
  intros Hr HP Hbi Hbo Hpl Hro. pose proof (ready_facts2 _ _ _ _ _ _ _ _ _ Hr) as FA. pose proof (dst_tiling2 _ _ _ _ _ _ _ _ _ flag Hr) as Td.
  destruct Hr as (A1 & A2 & HI & A3). assert (Hr : ready2 esize ar n st N permute ins outs f) by (split; auto).
  eapply good_conseq; [| |apply (call_good2 Rops cexpR rnormR esize ar n st N permute ins outs f P bi bo M0 scaled false flag x); assumption].
  - intros r m _ H. exact H.
  - intros r m Hrn (H1 & H2). split; [|exact H2]. eapply holds2_ext; [|exact H1]. intros p q Hp Hq. apply fld_ext2.
    eapply call_real2; try eassumption. eapply tile_grid2; eassumption.
Qed.

(** where the two layouts are the same, the backward transform's source is written like the output layout *)
Lemma src_out2 esize ar n st N permute ins outs f flag r : ready2 esize ar n st N permute ins outs f -> flag <> FORWARD -> (r < n)%nat ->
  src_perm2 permute f flag = permute /\ src_lay2 ins outs f flag r = outs r /\
  dst_perm2 permute f flag = 0 /\ dst_lay2 ins outs f flag r = ins r.
Proof.
  intros Hr Hfl Hrn. unfold src_perm2, src_lay2, dst_perm2, dst_lay2, fwdpath2. destruct (Z.eqb_spec flag FORWARD); [contradiction|]. cbn [orb].
  destruct (t_same f) eqn:Es; [|auto].
  destruct (proj1 (T_same _ _ _ _ _ _ _ (ready_facts2 _ _ _ _ _ _ _ _ _ Hr)) Es) as (-> & E). rewrite (E r Hrn). auto.
Qed.

Lemma forward_dirs2 permute ins outs f : src_perm2 permute f FORWARD = 0 /\ src_lay2 ins outs f FORWARD = ins /\
  dst_perm2 permute f FORWARD = permute /\ dst_lay2 ins outs f FORWARD = outs.
Proof. unfold src_perm2, src_lay2, dst_perm2, dst_lay2, fwdpath2. cbn. auto. Qed.

Lemma fwd_good2 esize ar n st N permute ins outs f P bi bo (M0 : nat -> @rmem R) scaled x :
  ready2 esize ar n st N permute ins outs f -> setup_ffts2 cexpR N = Some P -> isdata bi -> isdata bo ->
  place2 f FORWARD bi bo -> arrays_ok2 f bo M0 ->
  good n (st2 f bo M0 bi 0 ins (fld x)) (pieces_compute2 Rops rnormR esize f P scaled false FORWARD bi bo)
    (st2 f bo M0 bo permute outs (fld (DFT2 false N x))).
Proof.
  intros Hr HP Hbi Hbo Hpl Ha. pose proof (real_good2 esize ar n st N permute ins outs f P bi bo M0 scaled FORWARD x Hr HP Hbi Hbo Hpl) as H.
  destruct (forward_dirs2 permute ins outs f) as (E1 & E2 & E3 & E4). rewrite E1, E2, E3, E4 in H.
  eapply good_conseq; [| |apply H].
  - intros r m _ K. exact K.
  - intros r m Hrn (K1 & K2). split; [|exact K2]. eapply holds2_ext; [|exact K1]. intros p q _ _. apply fld_ext2.
    unfold factor2. cbn. unfold rmulc. rewrite !Rmult_1_l. destruct (DFT2 _ _ _ _); reflexivity.
  - exact Ha.
Qed.

Lemma bwd_good2 esize ar n st N permute ins outs f P bi bo (M0 : nat -> @rmem R) scaled x :
  ready2 esize ar n st N permute ins outs f -> setup_ffts2 cexpR N = Some P -> isdata bi -> isdata bo ->
  place2 f BACKWARD bi bo -> arrays_ok2 f bo M0 ->
  good n (st2 f bo M0 bi permute outs (fld x)) (pieces_compute2 Rops rnormR esize f P scaled false BACKWARD bi bo)
    (fun r m => holds2 2 0 (ins r)
       (fld (fun p => rmulc (if scaled && (pos2 0 (ins r) p <? psize2 (outs r)) then / IZR (grid_points2 N) else 1)%R (DFT2 true N x p)))
       (getb bo m) /\ framed M0 bo (fun r => 2 * t_fftsize f r) r m).
Proof.
  intros Hr HP Hbi Hbo Hpl Ha. pose proof (real_good2 esize ar n st N permute ins outs f P bi bo M0 scaled BACKWARD x Hr HP Hbi Hbo Hpl Ha) as H.
  eapply good_conseq; [| |apply H].
  - intros r m Hrn (K1 & K2). split; [|exact K2].
    destruct (src_out2 esize ar n st N permute ins outs f BACKWARD r Hr ltac:(discriminate) Hrn) as (E1 & E2 & E3 & E4). rewrite E1, E2. exact K1.
  - intros r m Hrn (K1 & K2). split; [|exact K2].
    destruct (src_out2 esize ar n st N permute ins outs f BACKWARD r Hr ltac:(discriminate) Hrn) as (E1 & E2 & E3 & E4). rewrite E3, E4 in K1.
    eapply holds2_ext; [|exact K1]. intros p q _ _. apply fld_ext2. unfold factor2. rewrite E4. reflexivity.
Qed.

Lemma in_grid_pts2 N p : in_grid2 N p -> let '(n1, n2) := N in let '(i, j) := p in 0 <= i < n1 /\ 0 <= j < n2.
Proof. destruct N as [n1 n2]. destruct p as [i j]. cbn. lia. Qed.

Lemma inverse2 inv N x p : in_grid2 N p -> DFT2 (negb inv) N (DFT2 inv N x) p = rmulc (IZR (grid_points2 N)) (x p).
Proof.
  intros Hp. apply in_grid_pts2 in Hp. destruct N as [n1 n2]. destruct p as [i j]. apply DFT2_inverse; lia.
Qed.

Lemma grid_points_pos2 N p : in_grid2 N p -> 0 < grid_points2 N.
Proof.
  intros Hp. apply in_grid_pts2 in Hp. destruct N as [n1 n2]. destruct p as [i j]. unfold grid_points2. cbn [fst snd].
  nia.
Qed.

Lemma round_good2 esize ar n st N permute ins outs f P b (M0 : nat -> @rmem R) s1 scaled x :
  ready2 esize ar n st N permute ins outs f -> setup_ffts2 cexpR N = Some P -> isdata b -> arrays_ok2 f b M0 ->
  good n (st2 f b M0 b 0 ins (fld x))
    (pieces_compute2 Rops rnormR esize f P s1 false FORWARD b b ++ pieces_compute2 Rops rnormR esize f P scaled false BACKWARD b b)
    (fun r m => holds2 2 0 (ins r)
       (fld (fun p => rmulc (if scaled && (pos2 0 (ins r) p <? psize2 (outs r)) then 1 else IZR (grid_points2 N))%R (x p)))
       (getb b m) /\ framed M0 b (fun r => 2 * t_fftsize f r) r m).
Proof.
  intros Hr HP Hb Hro. pose proof Hr as (_ & _ & _ & _ & _ & Ti & _).
  eapply good_app; [apply (fwd_good2 esize ar n st N permute ins outs f P b b M0 s1 x); auto; left; reflexivity|].
  eapply good_conseq; [| |apply (bwd_good2 esize ar n st N permute ins outs f P b b M0 scaled (DFT2 false N x)); auto; left; reflexivity].
  - intros r m _ K. exact K.
  - intros r m Hrn (K1 & K2). split; [|exact K2]. eapply holds2_ext; [|exact K1]. intros p q Hp _. apply fld_ext2. cbv beta.
    pose proof (tile_grid2 n N ins r p Ti Hrn Hp) as Hg. pose proof (inverse2 false N x p Hg) as Ei. cbn [negb] in Ei. rewrite Ei, rmulc_mul.
    assert (IZR (grid_points2 N) <> 0%R) by (apply not_0_IZR; pose proof (grid_points_pos2 N p Hg); lia).
    destruct (scaled && _); f_equal; field; assumption.
Qed.
End Reals.
