(** RoundL2Fft.v : rounding error of 1d, 2d and 3d transforms in the Euclidean norm. *)

From Coq Require Import Reals Lra Psatz.
From Verif Require Import Base Spec Pack3d Pack2d Sched SchedProofs Phases Exec Remap RemapMain RemapInst
  Remap3d Remap2d RemapThms RemapTop Layout LayoutProofs Setup3d Setup3dProofs Setup2d Setup2dProofs LayoutFinal Kiss KissPure KissAlg KissFactor KissReal Fft1d KissFinal
  Fft3d Frame Fft3dProofs Fft3dMain DftMulti Fft3dTop Fft3dFinal Fft2d Fft2dMain Fft2dTop Fft2dFinal Round RoundKiss RoundFft RoundThms RoundL2.
Local Open Scope R_scope.

(** ** specification *)
(** Euclidean norms *)
Definition abs2 (z : R * R) : R := fst z * fst z + snd z * snd z.
Definition norm1 (n : Z) (x : Z -> R * R) : R := sqrt (sum1 n (fun a => abs2 (x a))).
Definition norm2 (N : Z * Z) (x : pt2 -> R * R) : R := sqrt (sum2 (fst N) (snd N) (fun a b => abs2 (x (a, b)))).
Definition norm3 (N : Z * Z * Z) (x : pt3 -> R * R) : R :=
  sqrt (sum3 (fst (fst N)) (snd (fst N)) (snd N) (fun a b c => abs2 (x (a, b, c)))).
(** difference of two fields, the first of [F] numbers *)
Definition minus {F I : Type} (val : F -> R) (y : I -> F * F) (z : I -> R * R) (p : I) : R * R :=
  (val (fst (y p)) - fst (z p), val (snd (y p)) - snd (z p)).

(** Norm of the data; the term in mu allows for results too small for a normalised number *)
Definition nsize1 (mu : R) (n : Z) (x : Z -> R * R) : R := norm1 n x + 32 * mu * (IZR n * IZR n).
Definition nsize2 (mu : R) (N : Z * Z) (x : pt2 -> R * R) : R := norm2 N x + 32 * mu * (IZR (grid_points2 N) * IZR (grid_points2 N)).
Definition nsize3 (mu : R) (N : Z * Z * Z) (x : pt3 -> R * R) : R := norm3 N x + 32 * mu * (IZR (grid_points N) * IZR (grid_points N)).

(** the number of roundings that counts for the norm *)
Definition nroundings (t : nat) (L : Z) : nat :=
  match kf_factor L with Some facs => norm_cost t facs | None => 0 end.
Definition ncost3 (t : nat) (N : Z * Z * Z) : nat := nroundings t (fst (fst N)) + nroundings t (snd (fst N)) + nroundings t (snd N).
Definition ncost2 (t : nat) (N : Z * Z) : nat := nroundings t (fst N) + nroundings t (snd N).

(** ** sums over grids *)
Lemma summing_pair {I J : Type} (di : I -> Prop) (si : (I -> R) -> R) (dj : J -> Prop) (sj : (J -> R) -> R) :
  summing di si -> summing dj sj -> summing (fun p : I * J => di (fst p) /\ dj (snd p)) (fun f => sj (fun j => si (fun i => f (i, j)))).
Proof.
  intros Hi Hj. split.
  - intros f g H. apply (sm_le _ _ Hj). intros j Dj. apply (sm_le _ _ Hi). intros i Di. apply H. split; assumption.
  - intros f g. rewrite <- (sm_plus _ _ Hj). apply (sm_ext _ _ Hj). intros j _. apply (sm_plus _ _ Hi).
  - intros c f. rewrite <- (sm_mul _ _ Hj). apply (sm_ext _ _ Hj). intros j _. apply (sm_mul _ _ Hi).
Qed.

Definition dom2 (N : Z * Z) (p : Z * Z) : Prop := (0 <= fst p < fst N)%Z /\ (0 <= snd p < snd N)%Z.
Definition dom3 (N : Z * Z * Z) (p : Z * Z * Z) : Prop := dom2 (fst N) (fst p) /\ (0 <= snd p < snd N)%Z.
Lemma summing_2 N : summing (dom2 N) (ssum2 N).
Proof. exact (summing_pair _ _ _ _ (summing_rsum (fst N)) (summing_rsum (snd N))). Qed.
Lemma summing_3 N : summing (dom3 N) (ssum3 N).
Proof. exact (summing_pair _ _ _ _ (summing_2 (fst N)) (summing_rsum (snd N))). Qed.
Lemma dom2_grid N p : dom2 N p <-> in_grid2 N p.
Proof. destruct N, p. unfold dom2. cbn. lia. Qed.
Lemma dom3_grid N p : dom3 N p <-> in_grid N p.
Proof. destruct N as [[? ?] ?], p as [[? ?] ?]. unfold dom3, dom2. cbn. lia. Qed.

Lemma norm1_l2 n x : (1 <= n)%Z -> norm1 n x = l2 (rsum n) (fun a => cmod (x a)).
Proof. intros Hn. unfold norm1, l2. f_equal. rewrite <- rsum_sum1 by exact Hn. apply rsum_ext. intros a _. symmetry. apply csq_cmod. Qed.
Lemma norm2_l2 N x : (1 <= fst N)%Z -> (1 <= snd N)%Z -> norm2 N x = l2 (ssum2 N) (fun p => cmod (x p)).
Proof.
  intros H1 H2. unfold norm2, l2, ssum2, sum2. f_equal. rewrite <- rsum_sum1 by exact H2. apply rsum_ext. intros b _.
  rewrite <- rsum_sum1 by exact H1. apply rsum_ext. intros a _. symmetry. apply csq_cmod.
Qed.
Lemma norm3_l2 N x : (1 <= fst (fst N))%Z -> (1 <= snd (fst N))%Z -> (1 <= snd N)%Z -> norm3 N x = l2 (ssum3 N) (fun p => cmod (x p)).
Proof.
  intros H1 H2 H3. unfold norm3, l2, ssum3, sum3, sum2. f_equal. rewrite <- rsum_sum1 by exact H3. apply rsum_ext. intros c _.
  rewrite <- rsum_sum1 by exact H2. apply rsum_ext. intros b _.
  rewrite <- rsum_sum1 by exact H1. apply rsum_ext. intros a _. symmetry. apply csq_cmod.
Qed.

(** norm with weights *)
Lemma l2_wt {I : Type} (dom : I -> Prop) sm c K (x : I -> R * R) : summing dom sm -> 0 <= c -> 1 <= K -> sm (fun _ => c * c) = c * c * K ->
  l2 sm (fun p => wt c (x p)) <= l2 sm (fun p => cmod (x p)) + c * K.
Proof.
  intros SM Hc HK EK.
  apply Rle_trans with (l2 sm (fun p => cmod (x p) + c)).
  - apply (l2_mono _ _ SM). intros i _. split; [apply wt_nonneg|]. pose proof (cmod_nonneg (x i)). unfold wt. apply cmod_le; [lra|]. cbn [fst snd]. nra.
  - eapply Rle_trans; [apply (l2_plus _ _ SM)|]. apply Rplus_le_compat_l. apply l2_le; [nra|]. rewrite EK.
    replace (c * K * (c * K)) with (c * c * (K * K)) by ring. apply Rmult_le_compat_l; [nra|nra].
Qed.

Section Err.
Context {F : Type}.
Variables u mu om : R.
Variable O : sops F.
Variable val : F -> R.
Variable fin : F -> Prop.
Hypothesis RO : rounding u mu om O val fin.
Variable t : nat.
Variable cexp : bool -> Z -> Z -> F * F.
Local Notation pw k := ((1 + u) ^ k).
Local Notation near := (near u val fin).
Local Notation cval := (cval val).
Local Notation cfin := (cfin fin).
Local Notation Hmu := (r_mu _ _ _ _ _ _ RO).
Local Notation pw_1 := (pw_1 u mu om O val fin RO).
Local Notation pw_le := (pw_le u mu om O val fin RO).
Variable c : R.
Hypothesis Hc : 32 * mu <= c.

(** data of a line that cannot overflow *)
Definition safe_line (L : Z) (x : Z -> F * F) : Prop := exists S,
  (forall i, (0 <= i < L)%Z -> cfin (x i) /\ cmod (cval (x i)) <= S i /\ 32 * mu <= S i) /\
  pw (roundings t L) * (4 * rsum L S) <= om.

Lemma line_l2 L inv st x : plan_for cexp L inv st -> table_ok u val fin t cexp inv L -> safe_line L x ->
  l2 (rsum L) (fun j => cdist (cval (lineT O st x j)) (DFT inv L (fun i => cval (x i)) j)) <=
  (pw (nroundings t L) - 1) * (sqrt (IZR L) * l2 (rsum L) (fun i => wt c (cval (x i)))).
Proof.
  intros (HL & E) Ht (S & Hx & Hf).
  destruct (alloc_ok O cexp L inv HL) as (st1 & E1 & A1 & A2 & A3 & A4 & A5). assert (st1 = st) by congruence. subst st1.
  destruct (alloc_ok Rops cexpR L inv HL) as (stR & E2 & B1 & B2 & B3 & B4 & B5).
  assert (EF : k_factors stR = k_factors st /\ roundings t L = facs_cost t (k_factors st) /\ nroundings t L = norm_cost t (k_factors st)).
  { unfold roundings, nroundings. clear - E E2. unfold kiss_fft_alloc in *. destruct (kf_factor L) as [facs|]; [|discriminate]. cbn [bind] in *.
    injection E as <-. injection E2 as <-. cbn [k_factors]. auto. }
  destruct EF as (EF & EC & EN). rewrite EC in Hf. rewrite EN.
  assert (L0 : 0 <= IZR L) by (apply IZR_le; lia).
  rewrite (l2_ext _ _ (summing_rsum L) _ (fun j => cdist (cval (wk O st (k_factors st) 1 x j)) (wk Rops stR (k_factors st) 1 (fun i => cval (x i)) j))).
  - eapply Rle_trans.
    + apply (wk_l2 u mu om O val fin RO t inv L ltac:(lia) st stR A1 B1 A2 B2) with (c := c) (S := S) (L := L); auto; try lia.
      intros i Hi. rewrite A5 by exact Hi. destruct (Ht i Hi) as (F1 & F2). split; [exact F1|]. unfold cexpR. rewrite angle_phase, Z.mul_1_r in F2. rewrite Rmult_1_r. exact F2.
    + apply Req_le. f_equal. unfold l2. apply sqrt_mult; [exact L0|]. exact (sm_sq _ _ (summing_rsum L) (fun i => wt c (cval (x i)))).
  - intros j Hj. f_equal. rewrite <- EF. rewrite (wk_real L inv stR _ j) by (auto; lia). symmetry. apply DFT_dft. lia.
Qed.

(** ** one stage: the same transform along every line of a set of lines *)
Section Stage.
Context {I J : Type}.
Variable dom : I -> Prop.
Variable sm : (I -> R) -> R.
Hypothesis SM : summing dom sm.
Variable domJ : J -> Prop.
Variable smJ : (J -> R) -> R.
Hypothesis SJ : summing domJ smJ.
Variable L : Z.
Variable pt : J -> Z -> I.
Hypothesis fiber : forall f, sm f = smJ (fun l => rsum L (fun j => f (pt l j))).
Variable inv : bool.
Variable st : @cfg F.
Hypothesis Hplan : plan_for cexp L inv st.
Hypothesis Htab : table_ok u val fin t cexp inv L.
Variable T : (I -> F * F) -> I -> F * F.
Variable TR : (I -> R * R) -> I -> R * R.
Hypothesis HT : forall y l j, domJ l -> (0 <= j < L)%Z -> T y (pt l j) = lineT O st (fun i => y (pt l i)) j.
Hypothesis HTR : forall z l j, domJ l -> (0 <= j < L)%Z -> TR z (pt l j) = DFT inv L (fun i => z (pt l i)) j.

(** y is z up to k roundings of a field of norm Q *)
Definition nclose (k : nat) (Q : R) (y : I -> F * F) (z : I -> R * R) : Prop :=
  l2 sm (fun i => cdist (cval (y i)) (z i)) <= (pw k - 1) * Q /\ l2 sm (fun i => wt c (z i)) <= Q.

Lemma nclose_size k Q y z : nclose k Q y z -> l2 sm (fun i => wt c (cval (y i))) <= pw k * Q.
Proof.
  intros (H1 & H2). apply Rle_trans with (l2 sm (fun i => wt c (z i) + cdist (cval (y i)) (z i))).
  - apply (l2_mono _ _ SM). intros i _. split; [apply wt_nonneg|apply wt_dist].
  - eapply Rle_trans; [apply (l2_plus _ _ SM)|]. lra.
Qed.

Lemma L_pos : (1 <= L)%Z.
Proof. destruct Hplan as (H & _). lia. Qed.

Lemma stage_parseval z z' : sm (fun i => csq (csubf (TR z i) (TR z' i))) = IZR L * sm (fun i => csq (csubf (z i) (z' i))).
Proof.
  pose proof L_pos as L1. rewrite !fiber. rewrite <- (sm_mul _ _ SJ). apply (sm_ext _ _ SJ). intros l Hl.
  pose proof (parseval inv L (fun i => csubf (z (pt l i)) (z' (pt l i))) ltac:(lia)) as P. rewrite <- P.
  apply rsum_ext. intros j Hj. f_equal. rewrite !HTR by assumption. rewrite <- !DFT_dft by exact L1. unfold dft.
  apply (dft_sub (fun i j => cexpR inv (i * j) L)).
Qed.
Lemma stage_parseval_1 z : sm (fun i => csq (TR z i)) = IZR L * sm (fun i => csq (z i)).
Proof.
  pose proof L_pos as L1. rewrite !fiber. rewrite <- (sm_mul _ _ SJ). apply (sm_ext _ _ SJ). intros l Hl.
  rewrite <- (parseval inv L (fun i => z (pt l i)) ltac:(lia)).
  apply rsum_ext. intros j Hj. f_equal. rewrite HTR by assumption. rewrite <- DFT_dft by exact L1. reflexivity.
Qed.

Lemma stage_local y : (forall l, domJ l -> safe_line L (fun i => y (pt l i))) ->
  l2 sm (fun i => cdist (cval (T y i)) (TR (fun i => cval (y i)) i)) <=
  (pw (nroundings t L) - 1) * (sqrt (IZR L) * l2 sm (fun i => wt c (cval (y i)))).
Proof.
  intros Hs. pose proof L_pos as L1. assert (L0 : 0 <= IZR L) by (apply IZR_le; lia).
  set (E := pw (nroundings t L) - 1). assert (E0 : 0 <= E) by (unfold E; pose proof (pw_1 (nroundings t L)); lra).
  pose proof (l2_nonneg sm (fun i => wt c (cval (y i)))) as Q0. pose proof (sqrt_pos (IZR L)) as S0.
  apply l2_le; [apply Rmult_le_pos; [exact E0|apply Rmult_le_pos; assumption]|].
  replace (E * (sqrt (IZR L) * l2 sm (fun i => wt c (cval (y i)))) * (E * (sqrt (IZR L) * l2 sm (fun i => wt c (cval (y i)))))) with
    (E * E * IZR L * sm (fun i => wt c (cval (y i)) * wt c (cval (y i)))).
  2:{ rewrite <- (l2_sq _ _ SM (fun i => wt c (cval (y i)))). rewrite <- (sqrt_sqrt (IZR L) L0) at 1. ring. }
  rewrite !fiber. rewrite <- (sm_mul _ _ SJ). apply (sm_le _ _ SJ). intros l Hl.
  pose proof (line_l2 L inv st (fun i => y (pt l i)) Hplan Htab (Hs l Hl)) as H. fold E in H.
  pose proof (l2_nonneg (rsum L) (fun j => cdist (cval (lineT O st (fun i => y (pt l i)) j)) (DFT inv L (fun i => cval (y (pt l i))) j))) as D0.
  apply Rle_trans with (l2 (rsum L) (fun j => cdist (cval (lineT O st (fun i => y (pt l i)) j)) (DFT inv L (fun i => cval (y (pt l i))) j)) *
                        l2 (rsum L) (fun j => cdist (cval (lineT O st (fun i => y (pt l i)) j)) (DFT inv L (fun i => cval (y (pt l i))) j))).
  - rewrite (l2_sq _ _ (summing_rsum L)). apply rsum_le. intros j Hj. rewrite HT, HTR by assumption. apply Rle_refl.
  - eapply Rle_trans; [apply Rmult_le_compat; [exact D0|exact D0|exact H|exact H]|]. apply Req_le.
    rewrite <- (l2_sq _ _ (summing_rsum L) (fun i => wt c (cval (y (pt l i))))).
    transitivity (E * E * (sqrt (IZR L) * sqrt (IZR L)) * (l2 (rsum L) (fun i => wt c (cval (y (pt l i)))) * l2 (rsum L) (fun i => wt c (cval (y (pt l i)))))); [ring|].
    rewrite (sqrt_sqrt _ L0). reflexivity.
Qed.

Lemma stage k Q y z : 0 <= Q -> (forall l, domJ l -> safe_line L (fun i => y (pt l i))) -> nclose k Q y z ->
  nclose (k + nroundings t L) (sqrt (IZR L) * Q) (T y) (TR z).
Proof.
  intros HQ Hs Hn. pose proof (nclose_size _ _ _ _ Hn) as Hy. pose proof (stage_local y Hs) as Hl. destruct Hn as (H1 & H2).
  pose proof L_pos as L1. assert (L2 : 1 <= IZR L) by (apply IZR_le; lia). assert (L0 : 0 <= IZR L) by lra. pose proof (sqrt_pos (IZR L)) as S0.
  assert (SQ : forall f g : I -> R, sm (fun i => f i * f i) = IZR L * sm (fun i => g i * g i) -> l2 sm f = sqrt (IZR L) * l2 sm g).
  { intros f g E. unfold l2. rewrite E. apply sqrt_mult; [exact L0|exact (sm_sq _ _ SM g)]. }
  split.
  - apply Rle_trans with (l2 sm (fun i => cdist (cval (T y i)) (TR (fun i => cval (y i)) i) + cdist (TR (fun i => cval (y i)) i) (TR z i))).
    + apply (l2_mono _ _ SM). intros i _. split; [apply cdist_nonneg|apply cdist_tri].
    + eapply Rle_trans; [apply (l2_plus _ _ SM)|].
      rewrite (SQ (fun i => cdist (TR (fun i => cval (y i)) i) (TR z i)) (fun i => cdist (cval (y i)) (z i))).
      2:{ rewrite (sm_ext _ _ SM _ (fun i => csq (csubf (TR (fun i => cval (y i)) i) (TR z i)))) by (intros; apply cdist_sq).
          rewrite stage_parseval. f_equal. apply (sm_ext _ _ SM). intros i _. symmetry. apply cdist_sq. }
      pose proof (pw_1 (nroundings t L)) as P1. set (E := pw (nroundings t L) - 1) in *. assert (E0 : 0 <= E) by (unfold E; lra).
      rewrite pow_add. replace (pw (nroundings t L)) with (1 + E) by (unfold E; ring).
      apply Rle_trans with (E * (sqrt (IZR L) * (pw k * Q)) + sqrt (IZR L) * ((pw k - 1) * Q)).
      * apply Rplus_le_compat.
        -- eapply Rle_trans; [exact Hl|]. apply Rmult_le_compat_l; [exact E0|]. apply Rmult_le_compat_l; [exact S0|exact Hy].
        -- apply Rmult_le_compat_l; [exact S0|exact H1].
      * apply Req_le. ring.
  - apply l2_le; [apply Rmult_le_pos; assumption|].
    rewrite (sm_ext _ _ SM _ (fun i => csq (TR z i) + c * c)) by (intros; apply wt_sq).
    rewrite (sm_plus _ _ SM), stage_parseval_1.
    pose proof (l2_nonneg sm (fun i => wt c (z i))) as W0.
    assert (W2 : sm (fun i => csq (z i)) + sm (fun _ => c * c) <= Q * Q).
    { rewrite <- (sm_plus _ _ SM). rewrite (sm_ext _ _ SM _ (fun i => wt c (z i) * wt c (z i))) by (intros; symmetry; apply wt_sq).
      rewrite <- (l2_sq _ _ SM). apply Rmult_le_compat; assumption. }
    replace (sqrt (IZR L) * Q * (sqrt (IZR L) * Q)) with (IZR L * (Q * Q)) by (rewrite <- (sqrt_sqrt (IZR L) L0) at 1; ring).
    assert (C0 : 0 <= sm (fun _ => c * c)) by (apply (sm_pos _ _ SM); intros; apply Rle_0_sqr).
    assert (IZR L * (sm (fun i => csq (z i)) + sm (fun _ => c * c)) <= IZR L * (Q * Q)) by (apply Rmult_le_compat_l; assumption). nra.
Qed.

(** scaling *)
Lemma nclose_scale k s Q rn (m : Z) y z : (1 <= m)%Z -> fin rn -> Rabs (val rn - / IZR m) <= (pw s - 1) * / IZR m -> 2 * mu * IZR m <= c ->
  (forall i, dom i -> cfin (y i) /\ pw s * (4 * cmod (cval (y i))) <= om) -> pw s * (4 * (2 * mu * IZR m)) <= om ->
  nclose k Q y z ->
  l2 sm (fun i => cdist (cval (scl O rn (y i))) (rmulc (/ IZR m) (z i))) <= (pw (k + (s + 2)) - 1) * (Q * / IZR m).
Proof.
  intros Hm Fr Hr Hc2 Hy Hov Hn. pose proof (nclose_size _ _ _ _ Hn) as Hs. destruct Hn as (H1 & H2).
  assert (G : 0 < IZR m) by (apply IZR_lt; lia). assert (M0 : 0 < / IZR m) by (apply Rinv_0_lt_compat, G).
  set (v := fun i => rmulc (/ IZR m) (cval (y i))).
  assert (P : forall i, dom i -> cdist (cval (scl O rn (y i))) (v i) <= (pw (s + 2) - 1) * / IZR m * wt c (cval (y i))).
  { intros i Hi. destruct (Hy i Hi) as (Fy & Oy). set (B := Rmax (cmod (cval (y i))) (2 * mu * IZR m)).
    assert (B0 : 2 * mu <= B * / IZR m).
    { apply Rmult_le_reg_r with (IZR m); [exact G|]. replace (B * / IZR m * IZR m) with B by (field; lra). apply Rmax_r. }
    pose proof (scl_near u mu om O val fin RO 0 s B rn m (y i) (cval (y i)) Hm Fr Hr B0) as N.
    destruct N as (_ & N & _).
    - apply near_0; [exact Fy|apply Rmax_l].
    - cbn [Nat.add]. unfold B, Rmax. destruct (Rle_dec _ _); assumption.
    - cbn [Nat.add] in N. eapply Rle_trans; [exact N|].
      replace ((pw (s + 2) - 1) * / IZR m * wt c (cval (y i))) with ((pw (s + 2) - 1) * (wt c (cval (y i)) * / IZR m)) by ring.
      apply Rmult_le_compat_l; [pose proof (pw_1 (s + 2)); lra|]. apply Rmult_le_compat_r; [lra|].
      apply Rmax_lub; [apply wt_mod|]. eapply Rle_trans; [exact Hc2|]. apply wt_c. pose proof Hmu. lra. }
  assert (P2 : forall i, cdist (v i) (rmulc (/ IZR m) (z i)) = / IZR m * cdist (cval (y i)) (z i)).
  { intros i. unfold v, rmulc, cdist. cbn [fst snd].
    replace (/ IZR m * fst (cval (y i)) - / IZR m * fst (z i), / IZR m * snd (cval (y i)) - / IZR m * snd (z i)) with
      (c_scale Rops (fst (cval (y i)) - fst (z i), snd (cval (y i)) - snd (z i)) (/ IZR m)).
    - rewrite cmod_scale, Rabs_right by lra. ring.
    - unfold c_scale. cbn. f_equal; ring. }
  apply Rle_trans with (l2 sm (fun i => (pw (s + 2) - 1) * / IZR m * wt c (cval (y i)) + / IZR m * cdist (cval (y i)) (z i))).
  - apply (l2_mono _ _ SM). intros i Hi. split; [apply cdist_nonneg|]. rewrite <- P2. eapply Rle_trans; [apply (cdist_tri _ (v i))|].
    apply Rplus_le_compat_r. apply P, Hi.
  - pose proof (pw_1 (s + 2)) as P1.
    eapply Rle_trans; [apply (l2_plus _ _ SM (fun i => (pw (s + 2) - 1) * / IZR m * wt c (cval (y i))) (fun i => / IZR m * cdist (cval (y i)) (z i)))|].
    assert (A0 : 0 <= (pw (s + 2) - 1) * / IZR m) by (apply Rmult_le_pos; lra).
    rewrite (l2_scale _ _ SM _ (fun i => wt c (cval (y i))) A0). rewrite (l2_scale _ _ SM) by lra.
    rewrite (pow_add _ k (s + 2)).
    apply Rle_trans with ((pw (s + 2) - 1) * / IZR m * (pw k * Q) + / IZR m * ((pw k - 1) * Q)).
    + apply Rplus_le_compat; apply Rmult_le_compat_l; try assumption; lra.
    + apply Req_le. ring.
Qed.
End Stage.
End Err.
