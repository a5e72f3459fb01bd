(** RoundL2Final.v : the theorems of PropertiesL2.v in the shape used there. *)

From Coq Require Import Reals Lra Psatz Floats.SpecFloat.
From Verif Require Import Base Spec Pack3d Sched SchedProofs Phases Exec Remap RemapMain RemapInst
  Remap3d RemapThms RemapTop ExRemap Layout Setup3d Setup2d Setup3dProofs Setup2dProofs LayoutFinal Kiss KissPure KissReal KissFactor Fft1d KissFinal DftMulti
  Fft3d Frame Fft3dProofs Fft3dMain Fft3dTop Fft3dFinal Fft3dStmt Fft3dEx Fft2d Fft2dMain Fft2dTop Fft2dFinal Fft2dStmt Fft2dEx
  Round RoundKiss RoundFft RoundThms Binary RoundDouble RoundTable RoundFinal RoundL2 RoundL2Fft RoundL2Thms.
Local Open Scope R_scope.

(** ** Parseval *)
Section Axis.
Context {I J : Type}.
Variables (dom : I -> Prop) (sm : (I -> R) -> R) (domJ : J -> Prop) (smJ : (J -> R) -> R).
Hypothesis SM : summing dom sm.
Hypothesis SJ : summing domJ smJ.
Variables (L : Z) (pt : J -> Z -> I) (inv : bool) (TR : (I -> R * R) -> I -> R * R).
Hypothesis HL : (1 <= L)%Z.
Hypothesis fiber : forall f, sm f = smJ (fun l => rsum L (fun j => f (pt l j))).
Hypothesis HTR : forall z l j, TR z (pt l j) = DFT inv L (fun i => z (pt l i)) j.
Lemma axis_parseval z : sm (fun i => csq (TR z i)) = IZR L * sm (fun i => csq (z i)).
Proof.
  rewrite !fiber. rewrite <- (sm_mul _ _ SJ). apply (sm_ext _ _ SJ). intros l Hl.
  rewrite <- (parseval inv L (fun i => z (pt l i)) ltac:(lia)).
  apply rsum_ext. intros j Hj. f_equal. rewrite HTR. rewrite <- DFT_dft by exact HL. reflexivity.
Qed.
End Axis.

Lemma l2_csq {I} (sm : (I -> R) -> R) dom z : summing dom sm -> l2 sm (fun p => cmod (z p)) = sqrt (sm (fun p => csq (z p))).
Proof. intros SM. unfold l2. f_equal. apply (sm_ext _ _ SM). intros i _. apply csq_cmod. Qed.

Lemma C70_parseval_1d_proof : forall inv n x, (1 <= n)%Z -> norm1 n (DFT inv n x) = sqrt (IZR n) * norm1 n x.
Proof.
  intros inv n x Hn. rewrite !norm1_l2 by exact Hn. rewrite !(l2_csq _ _ _ (summing_rsum n)).
  rewrite <- sqrt_mult; [|apply IZR_le; lia|apply (sm_pos _ _ (summing_rsum n)); intros; unfold csq; nra]. f_equal.
  rewrite <- (parseval inv n x ltac:(lia)). apply rsum_ext. intros j Hj. f_equal. rewrite <- DFT_dft by exact Hn. reflexivity.
Qed.
Lemma C70_parseval_3d_proof : forall inv N x, (1 <= fst (fst N))%Z -> (1 <= snd (fst N))%Z -> (1 <= snd N)%Z ->
  norm3 N (DFT3 inv N x) = sqrt (IZR (grid_points N)) * norm3 N x.
Proof.
  intros inv N x H1 H2 H3. rewrite !norm3_l2 by assumption. rewrite !(l2_csq _ _ _ (summing_3 N)).
  rewrite <- sqrt_mult; [|apply IZR_le; unfold grid_points; destruct N as [[a b] c]; cbn [fst snd] in *; nia|apply (sm_pos _ _ (summing_3 N)); intros; unfold csq; nra]. f_equal.
  destruct N as [[n1 n2] n3]. cbn [fst snd] in *.
  rewrite (sm_ext _ _ (summing_3 (n1, n2, n3)) _ (fun p => csq (along 2 (DFT inv n3) (along 1 (DFT inv n2) (along 0 (DFT inv n1) x)) p))).
  2:{ intros [[a b] c] Hp. f_equal. rewrite <- DFT3_fwd by assumption. reflexivity. }
  rewrite (axis_parseval _ _ _ (summing_2 (n1, n2)) n3 _ inv _ H3 (fiber3_2 n1 n2 n3)) by reflexivity.
  rewrite (axis_parseval _ _ _ (summing_2 (n1, n3)) n2 _ inv _ H2 (fiber3_1 n1 n2 n3)) by reflexivity.
  rewrite (axis_parseval _ _ _ (summing_2 (n2, n3)) n1 _ inv _ H1 (fiber3_0 n1 n2 n3)) by reflexivity.
  unfold grid_points. cbn [fst snd]. rewrite !mult_IZR.
  transitivity (IZR n1 * IZR n2 * IZR n3 * ssum3 (n1, n2, n3) (fun i : pt3 => csq (x i))); [ring|reflexivity].
Qed.
Lemma C70_parseval_2d_proof : forall inv N x, (1 <= fst N)%Z -> (1 <= snd N)%Z ->
  norm2 N (DFT2 inv N x) = sqrt (IZR (grid_points2 N)) * norm2 N x.
Proof.
  intros inv N x H1 H2. rewrite !norm2_l2 by assumption. rewrite !(l2_csq _ _ _ (summing_2 N)).
  rewrite <- sqrt_mult; [|apply IZR_le; unfold grid_points2; destruct N as [a b]; cbn [fst snd] in *; nia|apply (sm_pos _ _ (summing_2 N)); intros; unfold csq; nra]. f_equal.
  destruct N as [n1 n2]. cbn [fst snd] in *.
  rewrite (sm_ext _ _ (summing_2 (n1, n2)) _ (fun p => csq (along2 1 (DFT inv n2) (along2 0 (DFT inv n1) x) p))).
  2:{ intros [a b] Hp. f_equal. rewrite <- DFT2_fwd by assumption. reflexivity. }
  rewrite (axis_parseval _ _ _ (summing_rsum n1) n2 _ inv _ H2 (fiber2_1 n1 n2)) by reflexivity.
  rewrite (axis_parseval _ _ _ (summing_rsum n2) n1 _ inv _ H1 (fiber2_0 n1 n2)) by reflexivity.
  unfold grid_points2. cbn [fst snd]. rewrite !mult_IZR.
  transitivity (IZR n1 * IZR n2 * ssum2 (n1, n2) (fun i : pt2 => csq (x i))); [ring|reflexivity].
Qed.

(** ** every element is below the norm *)
Lemma rsum_le_elem n f j : (forall i, (0 <= i < n)%Z -> 0 <= f i) -> (0 <= j < n)%Z -> f j <= rsum n f.
Proof. intros. apply rsum_elem; assumption. Qed.
Lemma C70_element_3d_proof : forall N v p, in_grid N p -> cmod (v p) <= norm3 N v.
Proof.
  intros N v p Hp. destruct N as [[n1 n2] n3], p as [[a b] c]. cbn in Hp. rewrite norm3_l2 by (cbn; lia). unfold l2.
  rewrite <- (sqrt_square (cmod (v (a, b, c)))) by apply cmod_nonneg. apply sqrt_le_1_alt. unfold ssum3. cbn [fst snd].
  assert (Q : forall q, 0 <= cmod (v q) * cmod (v q)) by (intros; apply Rle_0_sqr).
  eapply Rle_trans; [|apply (rsum_le_elem n3 (fun c => rsum n2 (fun b => rsum n1 (fun a => cmod (v (a, b, c)) * cmod (v (a, b, c))))) c); [|lia]].
  2:{ intros. apply rsum_pos. intros. apply rsum_pos. intros. apply Q. }
  eapply Rle_trans; [|apply (rsum_le_elem n2 (fun b => rsum n1 (fun a => cmod (v (a, b, c)) * cmod (v (a, b, c)))) b); [|lia]].
  2:{ intros. apply rsum_pos. intros. apply Q. }
  apply (rsum_le_elem n1 (fun a => cmod (v (a, b, c)) * cmod (v (a, b, c)))); [intros; apply Q|lia].
Qed.
Lemma C70_element_2d_proof : forall N v p, in_grid2 N p -> cmod (v p) <= norm2 N v.
Proof.
  intros N v p Hp. destruct N as [n1 n2], p as [a b]. cbn in Hp. rewrite norm2_l2 by (cbn; lia). unfold l2.
  rewrite <- (sqrt_square (cmod (v (a, b)))) by apply cmod_nonneg. apply sqrt_le_1_alt. unfold ssum2. cbn [fst snd].
  assert (Q : forall q, 0 <= cmod (v q) * cmod (v q)) by (intros; apply Rle_0_sqr).
  eapply Rle_trans; [|apply (rsum_le_elem n2 (fun b => rsum n1 (fun a => cmod (v (a, b)) * cmod (v (a, b)))) b); [|lia]].
  2:{ intros. apply rsum_pos. intros. apply Q. }
  apply (rsum_le_elem n1 (fun a => cmod (v (a, b)) * cmod (v (a, b)))); [intros; apply Q|lia].
Qed.

(** ** growth *)
Lemma norm_cost_3 t facs : Forall (fun pm => (2 <= fst pm <= 5)%Z) facs -> (norm_cost t facs <= 3 * facs_cost t facs)%nat.
Proof.
  induction facs as [|[p m] rest IH]; intros HF; [cbn; lia|]. inversion HF as [|? ? Hp HF' E]; subst. cbn [fst] in Hp. specialize (IH HF').
  cbn [norm_cost facs_cost]. assert (root_up p <= 3)%nat.
  { assert (C : (p = 2 \/ p = 3 \/ p = 4 \/ p = 5)%Z) by lia. destruct C as [-> |[-> |[-> | ->]]]; vm_compute; lia. }
  nia.
Qed.
Lemma C70_growth_proof : forall t n a b c, (0 <= a)%Z -> (0 <= b)%Z -> (0 <= c)%Z -> n = (2 ^ a * 3 ^ b * 5 ^ c)%Z -> (2 <= n < 2 ^ 31)%Z ->
  (2 ^ Z.of_nat (nroundings t n) <= n ^ (6 * Z.of_nat t + 24))%Z.
Proof.
  intros t n a b c Ha Hb Hc En Hn. destruct (kf_factor_ok n) as (facs & E & HS & HF); [change (2 ^ 31)%Z with 2147483648%Z in Hn; change (2 ^ 32)%Z with 4294967296%Z; lia|].
  unfold nroundings. rewrite E. pose proof (smooth_radices n facs a b c Ha Hb Hc En HS) as HR.
  pose proof (norm_cost_3 t facs ltac:(apply HR; assumption)) as H3. pose proof (facs_growth t facs n HS ltac:(apply HR; assumption)) as G.
  apply Z.le_trans with (2 ^ (Z.of_nat (facs_cost t facs) * 3))%Z; [apply Z.pow_le_mono_r; lia|].
  replace (6 * Z.of_nat t + 24)%Z with ((2 * Z.of_nat t + 8) * 3)%Z by lia. rewrite !Z.pow_mul_r by lia.
  apply Z.pow_le_mono_l. split; [apply Z.pow_nonneg; lia|exact G].
Qed.

(** ** the transforms *)
Lemma C70_forward_3d_proof : forall {F : Type} u mu om (O : sops F) val fin, rounding u mu om O val fin ->
  forall t cexp rnorm ar n sts N permute ins outs f, ready3 ar n sts N permute ins outs f ->
  forall bi bo (M0 : nat -> @rmem F) scaled x,
  isdata bi -> isdata bo -> bi = bo \/ f_pre f = true -> arrays_ok f bo M0 ->
  tables3 u val fin t cexp N false ->
  (forall p, in_grid N p -> cfin fin (x p)) ->
  (forall r, (r < n)%nat -> holds3 2 0 (ins r) (fld x) (getb bi (M0 r))) ->
  (1 + u) ^ cost3 t N * (4 * size3 mu N (vals val x)) <= om ->
  exists P y, setup_ffts3 cexp N = Some P /\
  exec_all n (compute3 O rnorm f P scaled false FORWARD bi bo) M0
    (fun r m => holds3 2 permute (outs r) (fld y) (getb bo m) /\ framed M0 bo (fun r => (2 * f_fftsize f r)%Z) r m) /\
  (forall p, in_grid N p -> cfin fin (y p)) /\
  norm3 N (minus val y (DFT3 false N (vals val x))) <= ((1 + u) ^ ncost3 t N - 1) * (sqrt (IZR (grid_points N)) * nsize3 mu N (vals val x)).
Proof.
  intros F u mu om O val fin RO t cexp rnorm ar n sts N permute ins outs f Hr bi bo M0 scaled x A1 A2 A3 A4 A5 A6 A7 A8.
  destruct (ready_plans O cexp _ _ _ _ _ _ _ _ Hr) as (P & HP). exists P.
  destruct (c_forward u mu om O val fin RO t cexp rnorm ar n sts N permute ins outs f Hr P HP bi bo M0 scaled x A1 A2 A3 A4 A5 A6 A7 A8) as (y & H). exists y. split; [exact HP|exact H].
Qed.
Lemma C70_backward_3d_proof : forall {F : Type} u mu om (O : sops F) val fin, rounding u mu om O val fin ->
  forall t cexp rnorm s ar n sts N permute ins outs f, ready3 ar n sts N permute ins outs f ->
  forall b (M0 : nat -> @rmem F) scaled x,
  isdata b -> room3 f BACKWARD b M0 ->
  (scaled = true -> forall r, (r < n)%nat -> (psize3 (ins r) <= psize3 (outs r))%Z) ->
  tables3 u val fin t cexp N true -> (scaled = true -> norm_ok u val fin s rnorm (grid_points N)) ->
  (forall p, in_grid N p -> cfin fin (x p)) ->
  (forall r, (r < n)%nat -> holds3 2 permute (outs r) (fld x) (getb b (M0 r))) ->
  (1 + u) ^ (cost3 t N + scale_cost s scaled) * (4 * size3 mu N (vals val x)) <= om ->
  exists P y, setup_ffts3 cexp N = Some P /\
  exec_all n (compute3 O rnorm f P scaled false BACKWARD b b) M0
    (fun r m => holds3 2 0 (ins r) (fld y) (getb b m) /\ framed M0 b (fun r => (2 * f_fftsize f r)%Z) r m) /\
  (forall p, in_grid N p -> cfin fin (y p)) /\
  norm3 N (minus val y (fun p => rmulc (scale_by (grid_points N) scaled) (DFT3 true N (vals val x) p))) <=
  ((1 + u) ^ (ncost3 t N + scale_cost s scaled) - 1) * (sqrt (IZR (grid_points N)) * nsize3 mu N (vals val x) * scale_by (grid_points N) scaled).
Proof.
  intros F u mu om O val fin RO t cexp rnorm s ar n sts N permute ins outs f Hr b M0 scaled x A1 A2 A3 A4 A5 A6 A7 A8.
  destruct (ready_plans O cexp _ _ _ _ _ _ _ _ Hr) as (P & HP). exists P.
  destruct (c_backward u mu om O val fin RO t cexp rnorm s ar n sts N permute ins outs f Hr P HP b M0 scaled x A1 A2 A3 A4 A5 A6 A7 A8) as (y & H). exists y. split; [exact HP|exact H].
Qed.
Lemma C70_round_trip_3d_proof : forall {F : Type} u mu om (O : sops F) val fin, rounding u mu om O val fin ->
  forall t cexp rnorm s ar n sts N permute ins outs f, ready3 ar n sts N permute ins outs f ->
  forall b (M0 : nat -> @rmem F) s1 scaled x,
  isdata b -> room3 f BACKWARD b M0 ->
  (scaled = true -> forall r, (r < n)%nat -> (psize3 (ins r) <= psize3 (outs r))%Z) ->
  tables3 u val fin t cexp N false -> tables3 u val fin t cexp N true ->
  (scaled = true -> norm_ok u val fin s rnorm (grid_points N)) ->
  (forall p, in_grid N p -> cfin fin (x p)) ->
  (forall r, (r < n)%nat -> holds3 2 0 (ins r) (fld x) (getb b (M0 r))) ->
  (1 + u) ^ (2 * cost3 t N + scale_cost s scaled) * (4 * (size3 mu N (vals val x) * IZR (grid_points N))) <= om ->
  exists P y, setup_ffts3 cexp N = Some P /\
  exec_all n (fun r => compute3 O rnorm f P s1 false FORWARD b b r ++ compute3 O rnorm f P scaled false BACKWARD b b r) M0
    (fun r m => holds3 2 0 (ins r) (fld y) (getb b m) /\ framed M0 b (fun r => (2 * f_fftsize f r)%Z) r m) /\
  (forall p, in_grid N p -> cfin fin (y p)) /\
  norm3 N (minus val y (fun p => rmulc (if scaled then 1 else IZR (grid_points N)) (vals val x p))) <=
  ((1 + u) ^ (2 * ncost3 t N + scale_cost s scaled) - 1) * (nsize3 mu N (vals val x) * (if scaled then 1 else IZR (grid_points N))).
Proof.
  intros F u mu om O val fin RO t cexp rnorm s ar n sts N permute ins outs f Hr b M0 s1 scaled x A1 A2 A3 A4 A5 A6 A7 A8 A9.
  destruct (ready_plans O cexp _ _ _ _ _ _ _ _ Hr) as (P & HP). exists P.
  destruct (c_trip u mu om O val fin RO t cexp rnorm s ar n sts N permute ins outs f Hr P HP b M0 s1 scaled x A1 A2 A3 A4 A5 A6 A7 A8 A9) as (y & H). exists y. split; [exact HP|exact H].
Qed.
Lemma C70_forward_2d_proof : forall {F : Type} u mu om (O : sops F) val fin, rounding u mu om O val fin ->
  forall t cexp rnorm esize ar n sts N permute ins outs f, ready2 esize ar n sts N permute ins outs f ->
  forall bi bo (M0 : nat -> @rmem F) scaled x,
  isdata bi -> isdata bo -> bi = bo \/ t_pre f = true -> arrays_ok2 f bo M0 ->
  tables2 u val fin t cexp N false ->
  (forall p, in_grid2 N p -> cfin fin (x p)) ->
  (forall r, (r < n)%nat -> holds2 2 0 (ins r) (fld x) (getb bi (M0 r))) ->
  (1 + u) ^ cost2 t N * (4 * size2 mu N (vals val x)) <= om ->
  exists P y, setup_ffts2 cexp N = Some P /\
  exec_all n (compute2 O rnorm esize f P scaled false FORWARD bi bo) M0
    (fun r m => holds2 2 permute (outs r) (fld y) (getb bo m) /\ framed M0 bo (fun r => (2 * t_fftsize f r)%Z) r m) /\
  (forall p, in_grid2 N p -> cfin fin (y p)) /\
  norm2 N (minus val y (DFT2 false N (vals val x))) <= ((1 + u) ^ ncost2 t N - 1) * (sqrt (IZR (grid_points2 N)) * nsize2 mu N (vals val x)).
Proof.
  intros F u mu om O val fin RO t cexp rnorm esize ar n sts N permute ins outs f Hr bi bo M0 scaled x A1 A2 A3 A4 A5 A6 A7 A8.
  destruct (ready_plans2 O cexp _ _ _ _ _ _ _ _ _ Hr) as (P & HP). exists P.
  destruct (c_forward2 u mu om O val fin RO t cexp rnorm esize ar n sts N permute ins outs f Hr P HP bi bo M0 scaled x A1 A2 A3 A4 A5 A6 A7 A8) as (y & H). exists y. split; [exact HP|exact H].
Qed.
Lemma C70_backward_2d_proof : forall {F : Type} u mu om (O : sops F) val fin, rounding u mu om O val fin ->
  forall t cexp rnorm s esize ar n sts N permute ins outs f, ready2 esize ar n sts N permute ins outs f ->
  forall b (M0 : nat -> @rmem F) scaled x,
  isdata b -> arrays_ok2 f b M0 ->
  (scaled = true -> forall r, (r < n)%nat -> (psize2 (ins r) <= psize2 (outs r))%Z) ->
  tables2 u val fin t cexp N true -> (scaled = true -> norm_ok u val fin s rnorm (grid_points2 N)) ->
  (forall p, in_grid2 N p -> cfin fin (x p)) ->
  (forall r, (r < n)%nat -> holds2 2 permute (outs r) (fld x) (getb b (M0 r))) ->
  (1 + u) ^ (cost2 t N + scale_cost s scaled) * (4 * size2 mu N (vals val x)) <= om ->
  exists P y, setup_ffts2 cexp N = Some P /\
  exec_all n (compute2 O rnorm esize f P scaled false BACKWARD b b) M0
    (fun r m => holds2 2 0 (ins r) (fld y) (getb b m) /\ framed M0 b (fun r => (2 * t_fftsize f r)%Z) r m) /\
  (forall p, in_grid2 N p -> cfin fin (y p)) /\
  norm2 N (minus val y (fun p => rmulc (scale_by (grid_points2 N) scaled) (DFT2 true N (vals val x) p))) <=
  ((1 + u) ^ (ncost2 t N + scale_cost s scaled) - 1) * (sqrt (IZR (grid_points2 N)) * nsize2 mu N (vals val x) * scale_by (grid_points2 N) scaled).
Proof.
  intros F u mu om O val fin RO t cexp rnorm s esize ar n sts N permute ins outs f Hr b M0 scaled x A1 A2 A3 A4 A5 A6 A7 A8.
  destruct (ready_plans2 O cexp _ _ _ _ _ _ _ _ _ Hr) as (P & HP). exists P.
  destruct (c_backward2 u mu om O val fin RO t cexp rnorm s esize ar n sts N permute ins outs f Hr P HP b M0 scaled x A1 A2 A3 A4 A5 A6 A7 A8) as (y & H). exists y. split; [exact HP|exact H].
Qed.
Lemma C70_round_trip_2d_proof : forall {F : Type} u mu om (O : sops F) val fin, rounding u mu om O val fin ->
  forall t cexp rnorm s esize ar n sts N permute ins outs f, ready2 esize ar n sts N permute ins outs f ->
  forall b (M0 : nat -> @rmem F) s1 scaled x,
  isdata b -> arrays_ok2 f b M0 ->
  (scaled = true -> forall r, (r < n)%nat -> (psize2 (ins r) <= psize2 (outs r))%Z) ->
  tables2 u val fin t cexp N false -> tables2 u val fin t cexp N true ->
  (scaled = true -> norm_ok u val fin s rnorm (grid_points2 N)) ->
  (forall p, in_grid2 N p -> cfin fin (x p)) ->
  (forall r, (r < n)%nat -> holds2 2 0 (ins r) (fld x) (getb b (M0 r))) ->
  (1 + u) ^ (2 * cost2 t N + scale_cost s scaled) * (4 * (size2 mu N (vals val x) * IZR (grid_points2 N))) <= om ->
  exists P y, setup_ffts2 cexp N = Some P /\
  exec_all n (fun r => compute2 O rnorm esize f P s1 false FORWARD b b r ++ compute2 O rnorm esize f P scaled false BACKWARD b b r) M0
    (fun r m => holds2 2 0 (ins r) (fld y) (getb b m) /\ framed M0 b (fun r => (2 * t_fftsize f r)%Z) r m) /\
  (forall p, in_grid2 N p -> cfin fin (y p)) /\
  norm2 N (minus val y (fun p => rmulc (if scaled then 1 else IZR (grid_points2 N)) (vals val x p))) <=
  ((1 + u) ^ (2 * ncost2 t N + scale_cost s scaled) - 1) * (nsize2 mu N (vals val x) * (if scaled then 1 else IZR (grid_points2 N))).
Proof.
  intros F u mu om O val fin RO t cexp rnorm s esize ar n sts N permute ins outs f Hr b M0 s1 scaled x A1 A2 A3 A4 A5 A6 A7 A8 A9.
  destruct (ready_plans2 O cexp _ _ _ _ _ _ _ _ _ Hr) as (P & HP). exists P.
  destruct (c_trip2 u mu om O val fin RO t cexp rnorm s esize ar n sts N permute ins outs f Hr P HP b M0 s1 scaled x A1 A2 A3 A4 A5 A6 A7 A8 A9) as (y & H). exists y. split; [exact HP|exact H].
Qed.

(** ** the two builds *)
Lemma C70_double_forward_3d_proof : forall c cosd sind t, 0 <= c -> 15 + 2 * c <= INR t -> libm_ok c cosd sind ->
  forall ar n sts N permute ins outs f bi bo (M0 : nat -> @rmem spec_float) scaled x,
  ready3 ar n sts N permute ins outs f -> isdata bi -> isdata bo -> bi = bo \/ f_pre f = true -> arrays_ok f bo M0 ->
  (forall p, in_grid N p -> cfin (SFfin 53 1024) (x p)) ->
  (forall r, (r < n)%nat -> holds3 2 0 (ins r) (fld x) (getb bi (M0 r))) ->
  (1 + SFu 53) ^ cost3 t N * (4 * size3 (SFmu 1024) N (vals SFval x)) <= SFom 53 1024 ->
  exists P y, setup_ffts3 (twiddleD cosd sind) N = Some P /\
  exec_all n (compute3 (SFops 53 1024) normD f P scaled false FORWARD bi bo) M0
    (fun r m => holds3 2 permute (outs r) (fld y) (getb bo m) /\ framed M0 bo (fun r => (2 * f_fftsize f r)%Z) r m) /\
  (forall p, in_grid N p -> cfin (SFfin 53 1024) (y p)) /\
  norm3 N (minus SFval y (DFT3 false N (vals SFval x))) <= ((1 + SFu 53) ^ ncost3 t N - 1) * (sqrt (IZR (grid_points N)) * nsize3 (SFmu 1024) N (vals SFval x)).
Proof.
  intros c cosd sind t Hc Ht Hl ar n sts N permute ins outs f bi bo M0 scaled x Hr B1 B2 B3 B4 B5 B6 B7.
  apply (C70_forward_3d_proof (SFu 53) (SFmu 1024) (SFom 53 1024) (SFops 53 1024) SFval (SFfin 53 1024) (proj1 C53_double_proof) t _ normD ar n sts N permute ins outs f Hr bi bo M0 scaled x); auto.
  apply (tables3_all _ _ _ t _ (fun inv L => proj1 (proj2 C53_double_proof) c cosd sind t inv L Hc Ht Hl)). apply Hr.
Qed.
Lemma C70_double_round_trip_3d_proof : forall c cosd sind t, 0 <= c -> 15 + 2 * c <= INR t -> libm_ok c cosd sind ->
  forall ar n sts N permute ins outs f b (M0 : nat -> @rmem spec_float) s1 scaled x,
  ready3 ar n sts N permute ins outs f -> (grid_points N < 2 ^ 63)%Z -> isdata b -> room3 f BACKWARD b M0 ->
  (scaled = true -> forall r, (r < n)%nat -> (psize3 (ins r) <= psize3 (outs r))%Z) ->
  (forall p, in_grid N p -> cfin (SFfin 53 1024) (x p)) ->
  (forall r, (r < n)%nat -> holds3 2 0 (ins r) (fld x) (getb b (M0 r))) ->
  (1 + SFu 53) ^ (2 * cost3 t N + scale_cost 3 scaled) * (4 * (size3 (SFmu 1024) N (vals SFval x) * IZR (grid_points N))) <= SFom 53 1024 ->
  exists P y, setup_ffts3 (twiddleD cosd sind) N = Some P /\
  exec_all n (fun r => compute3 (SFops 53 1024) normD f P s1 false FORWARD b b r ++
                       compute3 (SFops 53 1024) normD f P scaled false BACKWARD b b r) M0
    (fun r m => holds3 2 0 (ins r) (fld y) (getb b m) /\ framed M0 b (fun r => (2 * f_fftsize f r)%Z) r m) /\
  (forall p, in_grid N p -> cfin (SFfin 53 1024) (y p)) /\
  norm3 N (minus SFval y (fun p => rmulc (if scaled then 1 else IZR (grid_points N)) (vals SFval x p))) <=
  ((1 + SFu 53) ^ (2 * ncost3 t N + scale_cost 3 scaled) - 1) * (nsize3 (SFmu 1024) N (vals SFval x) * (if scaled then 1 else IZR (grid_points N))).
Proof.
  intros c cosd sind t Hc Ht Hl ar n sts N permute ins outs f b M0 s1 scaled x Hr Hg B1 B2 B3 B4 B5 B6.
  pose proof (dims_pos3 ar n sts N permute ins outs f Hr) as (_ & _ & _ & D). assert (HI : ints3 N) by apply Hr.
  apply (C70_round_trip_3d_proof (SFu 53) (SFmu 1024) (SFom 53 1024) (SFops 53 1024) SFval (SFfin 53 1024) (proj1 C53_double_proof) t _ normD 3 ar n sts N permute ins outs f Hr b M0 s1 scaled x); auto.
  - apply (tables3_all _ _ _ t _ (fun inv L => proj1 (proj2 C53_double_proof) c cosd sind t inv L Hc Ht Hl)), HI.
  - apply (tables3_all _ _ _ t _ (fun inv L => proj1 (proj2 C53_double_proof) c cosd sind t inv L Hc Ht Hl)), HI.
  - intros _. apply (proj2 (proj2 C53_double_proof)). split; assumption.
Qed.
Lemma C70_single_round_trip_3d_proof : forall c cosd sind, 0 <= c <= 1000000 -> libm_ok c cosd sind ->
  forall ar n sts N permute ins outs f b (M0 : nat -> @rmem spec_float) s1 scaled x,
  ready3 ar n sts N permute ins outs f -> (grid_points N < 2 ^ 63)%Z -> isdata b -> room3 f BACKWARD b M0 ->
  (scaled = true -> forall r, (r < n)%nat -> (psize3 (ins r) <= psize3 (outs r))%Z) ->
  (forall p, in_grid N p -> cfin (SFfin 24 128) (x p)) ->
  (forall r, (r < n)%nat -> holds3 2 0 (ins r) (fld x) (getb b (M0 r))) ->
  (1 + SFu 24) ^ (2 * cost3 2 N + scale_cost 2 scaled) * (4 * (size3 (SFmu 128) N (vals SFval x) * IZR (grid_points N))) <= SFom 24 128 ->
  exists P y, setup_ffts3 (twiddleF cosd sind) N = Some P /\
  exec_all n (fun r => compute3 (SFops 24 128) normF f P s1 false FORWARD b b r ++
                       compute3 (SFops 24 128) normF f P scaled false BACKWARD b b r) M0
    (fun r m => holds3 2 0 (ins r) (fld y) (getb b m) /\ framed M0 b (fun r => (2 * f_fftsize f r)%Z) r m) /\
  (forall p, in_grid N p -> cfin (SFfin 24 128) (y p)) /\
  norm3 N (minus SFval y (fun p => rmulc (if scaled then 1 else IZR (grid_points N)) (vals SFval x p))) <=
  ((1 + SFu 24) ^ (2 * ncost3 2 N + scale_cost 2 scaled) - 1) * (nsize3 (SFmu 128) N (vals SFval x) * (if scaled then 1 else IZR (grid_points N))).
Proof.
  intros c cosd sind Hc Hl ar n sts N permute ins outs f b M0 s1 scaled x Hr Hg B1 B2 B3 B4 B5 B6.
  pose proof (dims_pos3 ar n sts N permute ins outs f Hr) as (_ & _ & _ & D). assert (HI : ints3 N) by apply Hr.
  apply (C70_round_trip_3d_proof (SFu 24) (SFmu 128) (SFom 24 128) (SFops 24 128) SFval (SFfin 24 128) (proj1 C53_float_proof) 2 _ normF 2 ar n sts N permute ins outs f Hr b M0 s1 scaled x); auto.
  - apply (tables3_all _ _ _ 2 _ (fun inv L => proj1 (proj2 C53_float_proof) c cosd sind inv L Hc Hl)), HI.
  - apply (tables3_all _ _ _ 2 _ (fun inv L => proj1 (proj2 C53_float_proof) c cosd sind inv L Hc Hl)), HI.
  - intros _. apply (proj2 (proj2 C53_float_proof)). split; assumption.
Qed.
Lemma C70_double_round_trip_2d_proof : forall c cosd sind t, 0 <= c -> 15 + 2 * c <= INR t -> libm_ok c cosd sind ->
  forall esize ar n sts N permute ins outs f b (M0 : nat -> @rmem spec_float) s1 scaled x,
  ready2 esize ar n sts N permute ins outs f -> (grid_points2 N < 2 ^ 63)%Z -> isdata b -> arrays_ok2 f b M0 ->
  (scaled = true -> forall r, (r < n)%nat -> (psize2 (ins r) <= psize2 (outs r))%Z) ->
  (forall p, in_grid2 N p -> cfin (SFfin 53 1024) (x p)) ->
  (forall r, (r < n)%nat -> holds2 2 0 (ins r) (fld x) (getb b (M0 r))) ->
  (1 + SFu 53) ^ (2 * cost2 t N + scale_cost 3 scaled) * (4 * (size2 (SFmu 1024) N (vals SFval x) * IZR (grid_points2 N))) <= SFom 53 1024 ->
  exists P y, setup_ffts2 (twiddleD cosd sind) N = Some P /\
  exec_all n (fun r => compute2 (SFops 53 1024) normD esize f P s1 false FORWARD b b r ++
                       compute2 (SFops 53 1024) normD esize f P scaled false BACKWARD b b r) M0
    (fun r m => holds2 2 0 (ins r) (fld y) (getb b m) /\ framed M0 b (fun r => (2 * t_fftsize f r)%Z) r m) /\
  (forall p, in_grid2 N p -> cfin (SFfin 53 1024) (y p)) /\
  norm2 N (minus SFval y (fun p => rmulc (if scaled then 1 else IZR (grid_points2 N)) (vals SFval x p))) <=
  ((1 + SFu 53) ^ (2 * ncost2 t N + scale_cost 3 scaled) - 1) * (nsize2 (SFmu 1024) N (vals SFval x) * (if scaled then 1 else IZR (grid_points2 N))).
Proof.
  intros c cosd sind t Hc Ht Hl esize ar n sts N permute ins outs f b M0 s1 scaled x Hr Hg B1 B2 B3 B4 B5 B6.
  pose proof (dims_pos2 esize ar n sts N permute ins outs f Hr) as (_ & _ & D). assert (HI : ints2 N) by apply Hr.
  apply (C70_round_trip_2d_proof (SFu 53) (SFmu 1024) (SFom 53 1024) (SFops 53 1024) SFval (SFfin 53 1024) (proj1 C53_double_proof) t _ normD 3 esize ar n sts N permute ins outs f Hr b M0 s1 scaled x); auto.
  - apply (tables2_all _ _ _ t _ (fun inv L => proj1 (proj2 C53_double_proof) c cosd sind t inv L Hc Ht Hl)), HI.
  - apply (tables2_all _ _ _ t _ (fun inv L => proj1 (proj2 C53_double_proof) c cosd sind t inv L Hc Ht Hl)), HI.
  - intros _. apply (proj2 (proj2 C53_double_proof)). split; assumption.
Qed.
