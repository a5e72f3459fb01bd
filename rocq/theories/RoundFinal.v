(** RoundFinal.v : how the error bounds grow; the bounds for the double and the float build; examples. *)

From Coq Require Import Reals Lra Psatz Floats.SpecFloat Znumtheory.
From Verif Require Import Base Spec Pack3d Sched SchedProofs Phases Exec Remap RemapMain RemapInst
  Remap3d RemapThms RemapTop ExRemap Layout Setup3d Setup2d Setup3dProofs Setup2dProofs LayoutFinal Kiss KissPure KissReal KissFactor Fft1d KissFinal DftMulti
  Fft3d Frame Fft3dProofs Fft3dMain Fft3dTop Fft3dFinal Fft3dStmt Fft3dEx Fft2d Fft2dMain Fft2dTop Fft2dFinal Fft2dStmt Fft2dEx
  Round RoundKiss RoundFft RoundThms Binary RoundDouble RoundTable.
Local Open Scope R_scope.

(** ** growth *)
Lemma radix_growth t p : (2 <= p <= 5)%Z -> (2 ^ Z.of_nat (radix_cost t p) <= p ^ (2 * Z.of_nat t + 8))%Z.
Proof.
  intros Hp. assert (C : (p = 2 \/ p = 3 \/ p = 4 \/ p = 5)%Z) by lia.
  assert (T : (0 <= Z.of_nat t)%Z) by lia. unfold radix_cost.
  destruct C as [-> |[-> |[-> | ->]]]; cbn [Z.eqb Pos.eqb].
  - apply Z.pow_le_mono_r; lia.
  - replace (Z.of_nat (3 * t + 12)) with (3 * (Z.of_nat t + 4))%Z by lia. replace (2 * Z.of_nat t + 8)%Z with (2 * (Z.of_nat t + 4))%Z by lia.
    rewrite !Z.pow_mul_r by lia. apply Z.pow_le_mono_l. lia.
  - change 4%Z with (2 ^ 2)%Z. rewrite <- Z.pow_mul_r by lia. apply Z.pow_le_mono_r; lia.
  - replace (Z.of_nat (4 * t + 18)) with (4 * Z.of_nat t + 18)%Z by lia. rewrite !Z.pow_add_r, !Z.pow_mul_r by lia.
    apply Z.mul_le_mono_nonneg; [apply Z.pow_nonneg; lia|apply Z.pow_le_mono_l; lia|lia|cbn; lia].
Qed.

Lemma facs_growth t : forall facs n, stages n facs -> Forall (fun pm => (2 <= fst pm <= 5)%Z) facs ->
  (2 ^ Z.of_nat (facs_cost t facs) <= n ^ (2 * Z.of_nat t + 8))%Z.
Proof.
  intros facs. induction facs as [|[p m] rest IH]; intros n HS HF; [inversion HS|]. inversion HF as [|? ? Hp HF' E]; subst. cbn [fst] in Hp.
  pose proof (radix_growth t p Hp) as G. cbn [facs_cost]. inversion HS as [n' E1|n' p' m' r' E1 E2 E3 E4]; subst.
  - cbn [facs_cost]. rewrite Nat.add_0_r. exact G.
  - rewrite Nat2Z.inj_add, Z.pow_add_r, Z.pow_mul_l by lia. apply Z.mul_le_mono_nonneg; auto; apply Z.pow_nonneg; lia.
Qed.

(** the number of roundings is logarithmic when the length has no prime factor above 5 *)
Lemma C51_growth_proof : forall t n a b c, (0 <= a)%Z -> (0 <= b)%Z -> (0 <= c)%Z -> n = (2 ^ a * 3 ^ b * 5 ^ c)%Z -> (2 <= n < 2 ^ 31)%Z ->
  (2 ^ Z.of_nat (roundings t n) <= n ^ (2 * Z.of_nat t + 8))%Z.
Proof.
  intros t n a b c Ha Hb Hc En Hn. destruct (kf_factor_ok n) as (facs & E & HS & HF); [change (2 ^ 31)%Z with 2147483648%Z in Hn; change (2 ^ 32)%Z with 4294967296%Z; lia|].
  unfold roundings. rewrite E. apply facs_growth; [exact HS|]. apply (smooth_radices n facs a b c); assumption.
Qed.

(** and the error of k roundings is k u, up to higher order *)
Lemma C51_higham_proof : forall u k, 0 <= u -> INR k * u < 1 -> (1 + u) ^ k - 1 <= INR k * u / (1 - INR k * u).
Proof.
  intros u k Hu Hk.
  assert (H : (1 + u) ^ k * (1 - INR k * u) <= 1).
  { clear Hk. induction k as [|k IH]; [cbn; lra|]. rewrite S_INR. cbn [pow]. pose proof (pos_INR k) as Pk.
    assert (P : 0 <= (1 + u) ^ k) by (apply pow_le; lra).
    replace ((1 + u) * (1 + u) ^ k * (1 - (INR k + 1) * u)) with ((1 + u) ^ k * (1 - INR k * u) - (1 + u) ^ k * ((INR k + 1) * (u * u))) by ring.
    assert (0 <= (1 + u) ^ k * ((INR k + 1) * (u * u))) by (apply Rmult_le_pos; [exact P|nra]). lra. }
  apply Rmult_le_reg_r with (1 - INR k * u); [lra|].
  replace (INR k * u / (1 - INR k * u) * (1 - INR k * u)) with (INR k * u) by (field; lra). lra.
Qed.

(** ** the two builds *)
Lemma roundD : rounding (SFu 53) (SFmu 1024) (SFom 53 1024) (SFops 53 1024) SFval (SFfin 53 1024).
Proof. apply SFrounding; lia. Qed.
Lemma roundF : rounding (SFu 24) (SFmu 128) (SFom 24 128) (SFops 24 128) SFval (SFfin 24 128).
Proof. apply SFrounding; lia. Qed.

Lemma C53_double_proof : rounding (SFu 53) (SFmu 1024) (SFom 53 1024) (SFops 53 1024) SFval (SFfin 53 1024) /\
  (forall c cosd sind t inv L, 0 <= c -> 15 + 2 * c <= INR t -> libm_ok c cosd sind -> (L < 2 ^ 31)%Z ->
     table_ok (SFu 53) SFval (SFfin 53 1024) t (twiddleD cosd sind) inv L) /\
  (forall k, (1 <= k < 2 ^ 63)%Z -> norm_ok (SFu 53) SFval (SFfin 53 1024) 3 normD k).
Proof. split; [exact roundD|]. split; [intros; eapply tableD_ok; eauto|exact normD_ok]. Qed.
Lemma C53_float_proof : rounding (SFu 24) (SFmu 128) (SFom 24 128) (SFops 24 128) SFval (SFfin 24 128) /\
  (forall c cosd sind inv L, 0 <= c <= 1000000 -> libm_ok c cosd sind -> (L < 2 ^ 31)%Z ->
     table_ok (SFu 24) SFval (SFfin 24 128) 2 (twiddleF cosd sind) inv L) /\
  (forall k, (1 <= k < 2 ^ 63)%Z -> norm_ok (SFu 24) SFval (SFfin 24 128) 2 normF k).
Proof. split; [exact roundF|]. split; [intros; eapply tableF_ok; eauto|exact normF_ok]. Qed.

(** one format with a table and a factor as accurate as C53 says, in the shape used below *)
Section Build.
Context {F : Type}.
Variables (u mu om : R) (O : sops F) (val : F -> R) (fin : F -> Prop) (t s : nat) (cexp : bool -> Z -> Z -> F * F) (rnorm : Z -> F).
Hypothesis RO : rounding u mu om O val fin.
Hypothesis HT : forall inv L, (L < 2 ^ 31)%Z -> table_ok u val fin t cexp inv L.
Hypothesis HN : forall k, (1 <= k < 2 ^ 63)%Z -> norm_ok u val fin s rnorm k.

Lemma tables3_all N inv : ints3 N -> tables3 u val fin t cexp N inv.
Proof. destruct N as [[x y] z]. intros (A & B & C). unfold INT_MAX in *. split; [|split]; apply HT; cbn [fst snd]; change (2 ^ 31)%Z with 2147483648%Z in *; lia. Qed.
Lemma tables2_all N inv : ints2 N -> tables2 u val fin t cexp N inv.
Proof. destruct N as [x y]. intros (A & B). unfold INT_MAX in *. split; apply HT; cbn [fst snd]; change (2 ^ 31)%Z with 2147483648%Z in *; lia. Qed.

Lemma build_forward3 : forall ar n sts N permute ins outs f bi bo (M0 : nat -> @rmem F) scaled x,
  ready3 ar n sts N permute ins outs f -> isdata bi -> isdata bo -> bi = bo \/ f_pre f = true -> arrays_ok f bo M0 ->
  (forall p, in_grid N p -> cfin fin (x p)) ->
  (forall r, (r < n)%nat -> holds3 2 0 (ins r) (fld x) (getb bi (M0 r))) ->
  (1 + u) ^ (cost3 t N) * (4 * size3 mu N (vals val x)) <= om ->
  exists P y, setup_ffts3 cexp N = Some P /\
  exec_all n (compute3 O rnorm f P scaled false FORWARD bi bo) M0
    (fun r m => holds3 2 permute (outs r) (fld y) (getb bo m) /\ framed M0 bo (fun r => (2 * f_fftsize f r)%Z) r m) /\
  (forall p, in_grid N p -> within val fin (((1 + u) ^ (cost3 t N) - 1) * size3 mu N (vals val x)) (y p) (DFT3 false N (vals val x) p)).
Proof.
  intros ar n sts N permute ins outs f bi bo M0 scaled x Hr Hbi Hbo Hpl Ha Hfx Hx Hf.
  apply (C52_forward_proof u mu om O val fin RO t cexp rnorm ar n sts N permute ins outs f Hr bi bo M0 scaled x); auto.
  apply tables3_all. apply Hr.
Qed.

Lemma build_trip3 : forall ar n sts N permute ins outs f b (M0 : nat -> @rmem F) s1 scaled x,
  ready3 ar n sts N permute ins outs f -> (grid_points N < 2 ^ 63)%Z -> isdata b -> room3 f BACKWARD b M0 ->
  (scaled = true -> forall r, (r < n)%nat -> (psize3 (ins r) <= psize3 (outs r))%Z) ->
  (forall p, in_grid N p -> cfin fin (x p)) ->
  (forall r, (r < n)%nat -> holds3 2 0 (ins r) (fld x) (getb b (M0 r))) ->
  (1 + u) ^ (2 * cost3 t N + scale_cost s scaled) * (4 * (size3 mu N (vals val x) * IZR (grid_points N))) <= om ->
  exists P y, setup_ffts3 cexp N = Some P /\
  exec_all n (fun r => compute3 O rnorm f P s1 false FORWARD b b r ++ compute3 O rnorm f P scaled false BACKWARD b b r) M0
    (fun r m => holds3 2 0 (ins r) (fld y) (getb b m) /\ framed M0 b (fun r => (2 * f_fftsize f r)%Z) r m) /\
  (forall p, in_grid N p ->
     within val fin (((1 + u) ^ (2 * cost3 t N + scale_cost s scaled) - 1) * (size3 mu N (vals val x) * (if scaled then 1 else IZR (grid_points N)))) (y p)
     (rmulc (if scaled then 1 else IZR (grid_points N)) (vals val x p))).
Proof.
  intros ar n sts N permute ins outs f b M0 s1 scaled x Hr Hg Hb Hro Hsz Hfx Hx Hf.
  assert (HI : ints3 N) by apply Hr.
  pose proof (dims_pos3 ar n sts N permute ins outs f Hr) as (_ & _ & _ & D).
  apply (C52_round_trip_proof u mu om O val fin RO t cexp rnorm s ar n sts N permute ins outs f Hr b M0 s1 scaled x); auto using tables3_all.
Qed.

Lemma build_trip2 : forall esize ar n sts N permute ins outs f b (M0 : nat -> @rmem F) s1 scaled x,
  ready2 esize ar n sts N permute ins outs f -> (grid_points2 N < 2 ^ 63)%Z -> isdata b -> arrays_ok2 f b M0 ->
  (scaled = true -> forall r, (r < n)%nat -> (psize2 (ins r) <= psize2 (outs r))%Z) ->
  (forall p, in_grid2 N p -> cfin fin (x p)) ->
  (forall r, (r < n)%nat -> holds2 2 0 (ins r) (fld x) (getb b (M0 r))) ->
  (1 + u) ^ (2 * cost2 t N + scale_cost s scaled) * (4 * (size2 mu N (vals val x) * IZR (grid_points2 N))) <= om ->
  exists P y, setup_ffts2 cexp N = Some P /\
  exec_all n (fun r => compute2 O rnorm esize f P s1 false FORWARD b b r ++ compute2 O rnorm esize f P scaled false BACKWARD b b r) M0
    (fun r m => holds2 2 0 (ins r) (fld y) (getb b m) /\ framed M0 b (fun r => (2 * t_fftsize f r)%Z) r m) /\
  (forall p, in_grid2 N p ->
     within val fin (((1 + u) ^ (2 * cost2 t N + scale_cost s scaled) - 1) * (size2 mu N (vals val x) * (if scaled then 1 else IZR (grid_points2 N)))) (y p)
     (rmulc (if scaled then 1 else IZR (grid_points2 N)) (vals val x p))).
Proof.
  intros esize ar n sts N permute ins outs f b M0 s1 scaled x Hr Hg Hb Hro Hsz Hfx Hx Hf.
  assert (HI : ints2 N) by apply Hr.
  pose proof (dims_pos2 esize ar n sts N permute ins outs f Hr) as (_ & _ & D).
  apply (C52_round_trip_proof2 u mu om O val fin RO t cexp rnorm s esize ar n sts N permute ins outs f Hr b M0 s1 scaled x); auto using tables2_all.
Qed.
End Build.

(** ** examples *)
(** a cos and a sin that meet [libm_ok 3] : rounding up to a multiple of 2^-53 *)
Definition up53 (r : R) : spec_float := binary_normalize 53 1024 (up (r * 9007199254740992)) (-53) false.
Lemma up53_ok r : Rabs r <= 1 -> SFfin 53 1024 (up53 r) /\ Rabs (SFval (up53 r) - r) <= 3 * SFu 53.
Proof.
  intros Hr. destruct (archimed (r * 9007199254740992)) as [A1 A2]. unfold up53. set (k := up (r * 9007199254740992)) in *.
  assert (B : bpow (-53) = / 9007199254740992) by (rewrite <- u_val; reflexivity).
  assert (Rr : -1 <= r <= 1) by (split; [pose proof (Rle_abs (- r)) as Q; rewrite Rabs_Ropp in Q; lra|pose proof (Rle_abs r); lra]).
  assert (C : - 2 <= IZR k * bpow (-53) <= 2) by (rewrite B; lra).
  assert (Cl : Rabs (IZR k * bpow (-53) - r) <= SFu 53) by (rewrite u_val, B; apply Rabs_le; lra).
  destruct (normalize_spec 53 1024 ltac:(lia) ltac:(lia) k (-53) false) as [H1 H2]; [lia|apply om_ge, Rabs_le; lra|].
  split; [exact H1|]. set (y := SFval _) in *.
  replace (y - r) with ((y - IZR k * bpow (-53)) + (IZR k * bpow (-53) - r)) by ring. eapply Rle_trans; [apply Rabs_triang|].
  assert (Rabs (IZR k * bpow (-53)) <= 2) by (apply Rabs_le; lra).
  assert (SFu 53 * Rabs (IZR k * bpow (-53)) <= SFu 53 * 2) by (apply Rmult_le_compat_l; [rewrite u_val|]; lra). lra.
Qed.
Definition cos53 (x : spec_float) : spec_float := up53 (cos (SFval x)).
Definition sin53 (x : spec_float) : spec_float := up53 (sin (SFval x)).
Lemma libm53 : libm_ok 3 cos53 sin53.
Proof.
  intros x _ _. split; apply up53_ok, Rabs_le; [pose proof (COS_bound (SFval x))|pose proof (SIN_bound (SFval x))]; lra.
Qed.

Lemma pow_le_2 u k : 0 <= u -> INR k * u <= 1 / 2 -> (1 + u) ^ k <= 2.
Proof.
  intros Hu Hk. pose proof (C51_higham_proof u k Hu ltac:(lra)) as H.
  assert (INR k * u / (1 - INR k * u) <= 1); [|lra].
  apply Rmult_le_reg_r with (1 - INR k * u); [lra|]. replace (INR k * u / (1 - INR k * u) * (1 - INR k * u)) with (INR k * u) by (field; lra). lra.
Qed.

(** the field of the other examples, as doubles or floats *)
Section Small.
Variables prec emax : Z.
Hypothesis Hp1 : (2 <= prec)%Z.
Hypothesis Hp2 : (prec < emax)%Z.
Hypothesis Hu : 0 < SFu prec <= 1 / 1000000.
Hypothesis Hmu : 0 < SFmu emax <= 1 / 1000000.
Hypothesis Hom : 1000000000 <= SFom prec emax.
Definition exD (p : pt3) : spec_float * spec_float := (SFofZ prec emax (fst (exG p)), SFofZ prec emax (snd (exG p))).
Definition exD2 (p : pt2) : spec_float * spec_float := (SFofZ prec emax (fst (exG_2 p)), SFofZ prec emax (snd (exG_2 p))).
Lemma small_ofZ k : (-1000 <= k <= 1000)%Z -> SFfin prec emax (SFofZ prec emax k) /\ Rabs (SFval (SFofZ prec emax k)) <= 1001.
Proof.
  intros Hk. assert (B : -1000 <= IZR k <= 1000) by (split; apply IZR_le; lia).
  assert (A : Rabs (IZR k) <= 1000) by (apply Rabs_le; lra).
  destruct (SFofZ_spec prec emax ltac:(lia) ltac:(lia) k) as [H1 H2]; [lra|]. split; [exact H1|].
  replace (SFval (SFofZ prec emax k)) with ((SFval (SFofZ prec emax k) - IZR k) + IZR k) by ring.
  eapply Rle_trans; [apply Rabs_triang|]. assert (SFu prec * Rabs (IZR k) <= 1) by nra. lra.
Qed.
Lemma small_pair a b : (-1000 <= a <= 1000)%Z -> (-1000 <= b <= 1000)%Z ->
  cfin (SFfin prec emax) (SFofZ prec emax a, SFofZ prec emax b) /\ cmod (cval SFval (SFofZ prec emax a, SFofZ prec emax b)) <= 2000.
Proof.
  intros Ha Hb. destruct (small_ofZ a Ha) as [A1 A2]. destruct (small_ofZ b Hb) as [B1 B2].
  split; [split; assumption|]. apply Rle_trans with (17 / 12 * 1001); [|lra]. apply cmod_box; assumption.
Qed.
Lemma exD_ok p : in_grid g2 p -> cfin (SFfin prec emax) (exD p) /\ cmod (cval SFval (exD p)) <= 2000.
Proof.
  destruct p as [[i j] k]. intros Hp. unfold in_grid in Hp. cbn in Hp.
  assert (Hi : i = 0%Z \/ i = 1%Z) by lia. assert (Hj : j = 0%Z \/ j = 1%Z) by lia. assert (Hk : k = 0%Z \/ k = 1%Z) by lia.
  apply small_pair; unfold exG; cbn [fst snd]; destruct Hi as [-> | ->], Hj as [-> | ->], Hk as [-> | ->]; lia.
Qed.
Lemma exD2_ok p : in_grid2 sq2 p -> cfin (SFfin prec emax) (exD2 p) /\ cmod (cval SFval (exD2 p)) <= 2000.
Proof.
  destruct p as [i j]. intros Hp. unfold in_grid2 in Hp. cbn in Hp.
  assert (Hi : i = 0%Z \/ i = 1%Z) by lia. assert (Hj : j = 0%Z \/ j = 1%Z) by lia.
  apply small_pair; unfold exG_2; cbn [fst snd]; destruct Hi as [-> | ->], Hj as [-> | ->]; lia.
Qed.
Lemma exD_size : 0 <= size3 (SFmu emax) g2 (vals SFval exD) <= 20000.
Proof.
  rewrite <- ssum3_size by (cbn; lia). split.
  { unfold ssum3. apply rsum_pos. intros c _. apply rsum_pos. intros b _. apply rsum_pos. intros a _. pose proof (cmod_nonneg (vals SFval exD (a, b, c))). lra. }
  apply Rle_trans with (ssum3 g2 (fun _ => 2001)).
  - unfold ssum3. apply rsum_le. intros c Hc. apply rsum_le. intros b Hb. apply rsum_le. intros a Ha.
    destruct (exD_ok (a, b, c)) as [_ H]; [unfold in_grid; cbn in *; lia|]. unfold vals. lra.
  - rewrite ssum3_const by (cbn; lia). change (grid_points g2) with 8%Z. lra.
Qed.
Lemma exD2_size : 0 <= size2 (SFmu emax) sq2 (vals SFval exD2) <= 20000.
Proof.
  rewrite <- ssum2_size by (cbn; lia). split.
  { unfold ssum2. apply rsum_pos. intros b _. apply rsum_pos. intros a _. pose proof (cmod_nonneg (vals SFval exD2 (a, b))). lra. }
  apply Rle_trans with (ssum2 sq2 (fun _ => 2001)).
  - unfold ssum2. apply rsum_le. intros b Hb. apply rsum_le. intros a Ha.
    destruct (exD2_ok (a, b)) as [_ H]; [unfold in_grid2; cbn in *; lia|]. unfold vals. lra.
  - rewrite ssum2_const by (cbn; lia). change (grid_points2 sq2) with 4%Z. lra.
Qed.
Lemma small_guard k z : INR k <= 1000 -> 0 <= z <= 160000 -> (1 + SFu prec) ^ k * (4 * z) <= SFom prec emax.
Proof.
  intros Hk Hz. assert (P2 : (1 + SFu prec) ^ k <= 2) by (apply pow_le_2; [lra|pose proof (pos_INR k); nra]).
  assert (P0 : 0 <= (1 + SFu prec) ^ k) by (apply pow_le; lra).
  set (w := (1 + SFu prec) ^ k) in *. clearbody w. nra.
Qed.

(** 2x2x2 grid, 2 ranks, permuted output: the data in the layout of the input (flag FORWARD) or of the output *)
Lemma small_start3 (flag : Z) : exists f (M0 : nat -> @rmem spec_float), ready3 exact_areas 2 (mkset 1 0 1) g2 1 split3 isplit3 f /\
  (grid_points g2 < 2 ^ 63)%Z /\ isdata BIn /\ arrays_ok f BIn M0 /\ room3 f BACKWARD BIn M0 /\
  (forall r, (r < 2)%nat -> (psize3 (split3 r) <= psize3 (isplit3 r))%Z) /\
  (forall p, in_grid g2 p -> cfin (SFfin prec emax) (exD p)) /\
  (forall r, (r < 2)%nat ->
     if (flag =? FORWARD)%Z then holds3 2 0 (split3 r) (fld exD) (getb BIn (M0 r)) else holds3 2 1 (isplit3 r) (fld exD) (getb BIn (M0 r))).
Proof.
  destruct (with_plan_inv (mkset 1 0 1) 1 split3 isplit3 (fun f _ => true)) as (f & P & Es & _ & _); [vm_compute; reflexivity|].
  assert (Hr : ready3 exact_areas 2 (mkset 1 0 1) g2 1 split3 isplit3 f) by (apply ex_ready; [right; left; reflexivity|apply tile_split|apply tile_isplit|exact Es]).
  pose proof (L_in _ _ _ _ _ _ _ (ready_facts _ _ _ _ _ _ _ _ Hr)) as Hl.
  pose proof (L_out _ _ _ _ _ _ _ (ready_facts _ _ _ _ _ _ _ _ Hr)) as Hlo.
  exists f, (if (flag =? FORWARD)%Z then exMem (SFofZ prec emax) exD f 0 split3 else exMem (SFofZ prec emax) exD f 1 isplit3).
  split; [exact Hr|]. split; [reflexivity|]. split; [left; reflexivity|].
  split; [destruct (flag =? FORWARD)%Z; eapply ex_room; eauto; left; reflexivity|].
  split; [split; [destruct (flag =? FORWARD)%Z; eapply ex_room; eauto; left; reflexivity|intros _; destruct (flag =? FORWARD)%Z; eapply midfast_auto; eauto]|].
  split; [intros [|[|r]] H; try lia; vm_compute; discriminate|]. split; [intros p Hp; apply exD_ok, Hp|].
  intros r _. destruct (flag =? FORWARD)%Z; apply ex_holds.
Qed.
Lemma small_start2 (flag : Z) : exists f (M0 : nat -> @rmem spec_float), ready2 8 exact_areas 2 (mkset 1 0 1) sq2 1 split2 isplit2 f /\
  (grid_points2 sq2 < 2 ^ 63)%Z /\ isdata BIn /\ arrays_ok2 f BIn M0 /\
  (forall r, (r < 2)%nat -> (psize2 (split2 r) <= psize2 (isplit2 r))%Z) /\
  (forall p, in_grid2 sq2 p -> cfin (SFfin prec emax) (exD2 p)) /\
  (forall r, (r < 2)%nat ->
     if (flag =? FORWARD)%Z then holds2 2 0 (split2 r) (fld exD2) (getb BIn (M0 r)) else holds2 2 1 (isplit2 r) (fld exD2) (getb BIn (M0 r))).
Proof.
  destruct (with_plan_inv_2 (mkset 1 0 1) 1 split2 isplit2 (fun f _ => true)) as (f & P & Es & _ & _); [vm_compute; reflexivity|].
  assert (Hr : ready2 8 exact_areas 2 (mkset 1 0 1) sq2 1 split2 isplit2 f) by (apply ex_ready_2; [right; left; reflexivity|apply tile_split_2|apply tile_isplit_2|exact Es]).
  pose proof (L_in2 _ _ _ _ _ _ _ (ready_facts2 _ _ _ _ _ _ _ _ _ Hr)) as Hl.
  pose proof (L_out2 _ _ _ _ _ _ _ (ready_facts2 _ _ _ _ _ _ _ _ _ Hr)) as Hlo.
  exists f, (if (flag =? FORWARD)%Z then exMem_2 (SFofZ prec emax) exD2 f 0 split2 else exMem_2 (SFofZ prec emax) exD2 f 1 isplit2).
  split; [exact Hr|]. split; [reflexivity|]. split; [left; reflexivity|].
  split; [destruct (flag =? FORWARD)%Z; eapply ex_room_2; eauto; left; reflexivity|].
  split; [intros [|[|r]] H; try lia; vm_compute; discriminate|]. split; [intros p Hp; apply exD2_ok, Hp|].
  intros r _. destruct (flag =? FORWARD)%Z; apply ex_holds_2.
Qed.
End Small.

Lemma smallD : (0 < SFu 53 <= 1 / 1000000) /\ (0 < SFmu 1024 <= 1 / 1000000) /\ 1000000000 <= SFom 53 1024.
Proof.
  pose proof mu_small as K. rewrite u_val in *. split; [lra|]. split; [lra|].
  assert (A : Rabs 1000000000 <= SFom 53 1024) by (apply om_ge; rewrite Rabs_right by lra; lra). rewrite Rabs_right in A by lra. exact A.
Qed.
Lemma smallF : (0 < SFu 24 <= 1 / 1000000) /\ (0 < SFmu 128 <= 1 / 1000000) /\ 1000000000 <= SFom 24 128.
Proof.
  rewrite uF_val. split; [lra|].
  assert (M : SFmu 128 <= bpow (-24)) by (unfold SFmu; fold (bpow (2 - 128)); apply bpow_mono; lia).
  assert (M0 : 0 < SFmu 128) by (unfold SFmu; fold (bpow (2 - 128)); apply bpow_pos).
  assert (E : bpow (-24) = / 16777216) by exact uF_val. rewrite E in M. split; [lra|].
  unfold SFom. fold (bpow (128 - 24)). apply Rle_trans with (1 * bpow (128 - 24)).
  - rewrite Rmult_1_l, bpow_IZR by lia. apply IZR_le. vm_compute. discriminate.
  - apply Rmult_le_compat_r; [left; apply bpow_pos|]. apply IZR_le. lia.
Qed.
