(** TestNormTop.v : C71, the Euclidean norm of the error of a run of test3d or test2d in IEEE arithmetic and what it means for the printed error. *)

From Coq Require Import QArith Reals Psatz Lra Floats.SpecFloat.
From Verif Require Import Base Spec Pack3d Sched SchedProofs Phases Exec Remap RemapMain RemapInst
  Remap3d RemapThms RemapTop Remap2d Layout LayoutProofs Setup3d Setup3dProofs Setup2d Setup2dProofs LayoutFinal ExRemap Kiss KissPure KissAlg KissReal KissFactor Fft1d KissFinal
  Fft3d Frame Fft3dProofs Fft3dMain DftMulti Fft3dTop Fft3dFinal Fft3dStmt Fft3dEx Fft2d Fft2dMain Fft2dTop Fft2dFinal
  Count Double DoubleProofs TestProg TestLayProofs TestDataProofs TestRunProofs TestMainProofs TestFinal TestTop
  Round RoundKiss RoundFft RoundThms Binary RoundDouble RoundTable RoundFinal RoundL2 RoundL2Fft RoundL2Thms RoundL2Final TestRound TestRoundRun TestRoundTop TestNorm.
Local Open Scope R_scope.

(** first order bound for the reported error *)
Definition norm_bound (u uc mu : R) (K nloop : nat) (G top : Z) : R :=
  2 * INR nloop * INR K * u * start_norm uc mu G top + uc * (IZR top + 1).

Lemma cost_ncost t L : (1 <= L < 2 ^ 31)%Z -> (roundings t L <= nroundings t L)%nat.
Proof.
  intros HL. unfold roundings, nroundings. destruct (Z.eq_dec L 1) as [->|HL1].
  { replace (kf_factor 1) with (Some [(1, 1)%Z]) by (vm_compute; reflexivity). cbn [norm_cost facs_cost]. change (root_up 1) with 1%nat. lia. }
  destruct (kf_factor_ok L) as (facs & E & _ & HF); [change (2 ^ 31)%Z with 2147483648%Z in HL; change (2 ^ 32)%Z with 4294967296%Z; lia|].
  rewrite E. clear E. induction HF as [|[p m] rest Hp _ IH]; [cbn; lia|].
  cbn [norm_cost facs_cost]. apply radix_ge2 in Hp. cbn [fst] in Hp.
  assert (1 <= root_up p)%nat.
  { unfold root_up. pose proof (Z.sqrt_up_spec p ltac:(lia)). pose proof (Z.sqrt_up_nonneg p). assert (Z.sqrt_up p <> 0)%Z by nia. lia. }
  nia.
Qed.
Lemma C71_growth_proof u K nloop : 0 <= u -> 2 * INR nloop * INR K * u <= 1 -> ((1 + u) ^ K) ^ nloop - 1 <= 2 * INR nloop * INR K * u.
Proof.
  intros Hu H. rewrite <- pow_mult. pose proof (pow_first u (K * nloop) Hu) as P. rewrite mult_INR in P.
  replace (2 * INR nloop * INR K * u) with (2 * (INR K * INR nloop * u)) in * by ring. apply P. lra.
Qed.
(** a format with the unit roundoff [u], smallest normalised number [mu] and largest number [om] in which grids of up to [Gm] points cannot overflow *)
Definition roomy (u mu om : R) (Gm : Z) : Prop :=
  0 < u <= 1 /\ (Gm < 2 ^ 63)%Z /\ 0 <= mu /\ 32 * mu * (IZR Gm * IZR Gm) <= 1 /\ 16 * (IZR Gm * IZR Gm) * 2 ^ 43 <= om.
Lemma roomy_small u mu om uc K K' nloop G Gm top : roomy u mu om Gm -> 0 <= uc <= 1 -> 0 <= IZR top <= 2 ^ 40 ->
  (1 <= nloop)%nat -> (K <= K')%nat -> (1 <= G <= Gm)%Z -> 2 * INR nloop * INR K' * u <= 1 ->
  (1 + u) ^ K * (4 * (sqrt (IZR G) * (((1 + u) ^ K') ^ nloop * start_norm uc mu G top) * IZR G)) <= om.
Proof.
  intros (Hu & _ & Hmu & Hm & Ho) Huc Ht Hn HK HG H. pose proof (C71_growth_proof u K' nloop ltac:(lra) H) as Q.
  assert (Q2 : ((1 + u) ^ K') ^ nloop <= 2) by lra.
  assert (P1 : 1 <= (1 + u) ^ K') by (apply pow_R1_Rle; lra).
  assert (P2 : (1 + u) ^ K <= 2).
  { apply Rle_trans with ((1 + u) ^ K'); [apply Rle_pow; [lra|exact HK]|]. apply Rle_trans with (((1 + u) ^ K') ^ nloop); [|exact Q2].
    rewrite <- (pow_1 ((1 + u) ^ K')) at 1. apply Rle_pow; assumption. }
  assert (P3 : 1 <= (1 + u) ^ K) by (apply pow_R1_Rle; lra). assert (P4 : 1 <= ((1 + u) ^ K') ^ nloop) by (apply pow_R1_Rle, P1).
  assert (G1 : 1 <= IZR G) by (apply IZR_le; lia). assert (G2 : IZR G <= IZR Gm) by (apply IZR_le; lia).
  assert (Sq : sqrt (IZR G) * sqrt (IZR G) = IZR G) by (apply sqrt_sqrt; lra). pose proof (sqrt_pos (IZR G)) as Sp.
  assert (Sg : sqrt (IZR G) <= IZR G) by nra.
  eapply Rle_trans; [|exact Ho].
  assert (B1 : 0 <= 17 / 12 * (IZR top + uc * (IZR top + 1)) <= 2 ^ 42).
  { assert (0 <= uc * (IZR top + 1) <= 2 ^ 40 + 1) by (split; nra). cbn [pow] in *. lra. }
  assert (GG : IZR G * IZR G <= IZR Gm * IZR Gm) by nra.
  assert (M1 : 0 <= 32 * mu * (IZR G * IZR G) <= 1).
  { split; [apply Rmult_le_pos; [lra|nra]|]. eapply Rle_trans; [|exact Hm]. apply Rmult_le_compat_l; [lra|exact GG]. }
  assert (S1 : 0 <= sqrt (IZR G) * start_norm uc mu G top <= IZR G * 2 ^ 43).
  { unfold start_norm. set (b := 17 / 12 * (IZR top + uc * (IZR top + 1))) in *. set (m := 32 * mu * (IZR G * IZR G)) in *. clearbody b m.
    replace (sqrt (IZR G) * (sqrt (IZR G) * b + m)) with (sqrt (IZR G) * sqrt (IZR G) * b + sqrt (IZR G) * m) by ring. rewrite Sq.
    assert (0 <= sqrt (IZR G) * m <= IZR G) by (split; nra). assert (0 <= IZR G * b <= IZR G * 2 ^ 42) by (split; [nra|apply Rmult_le_compat_l; lra]).
    replace (2 ^ 43) with (2 * 2 ^ 42) by ring. assert (1 <= 2 ^ 42) by (cbn [pow]; lra). assert (IZR G <= IZR G * 2 ^ 42) by nra. lra. }
  set (p := (1 + u) ^ K) in *. set (q := ((1 + u) ^ K') ^ nloop) in *.
  replace (p * (4 * (sqrt (IZR G) * (q * start_norm uc mu G top) * IZR G))) with (4 * (p * q) * IZR G * (sqrt (IZR G) * start_norm uc mu G top)) by ring.
  set (v := sqrt (IZR G) * start_norm uc mu G top) in *. set (g := IZR G) in *. clearbody p q v g.
  assert (0 <= p * q <= 4) by (split; nra).
  apply Rle_trans with (16 * g * (g * 2 ^ 43)).
  - apply Rmult_le_compat; [apply Rmult_le_pos; lra|lra|apply Rmult_le_compat_r; lra|lra].
  - replace (16 * g * (g * 2 ^ 43)) with (16 * (g * g) * 2 ^ 43) by ring. apply Rmult_le_compat_r; [apply pow_le; lra|]. lra.
Qed.
Lemma roomy_D : roomy (SFu 53) (SFmu 1024) (SFom 53 1024) (2 ^ 62).
Proof.
  destruct smallD as (_ & M & _). split; [rewrite u_val; lra|]. split; [reflexivity|]. split; [lra|].
  assert (E : IZR (2 ^ 62) * IZR (2 ^ 62) = IZR (2 ^ 124)) by (rewrite <- mult_IZR; reflexivity). rewrite E. split.
  - unfold SFmu. fold (bpow (2 - 1024)). apply Rle_trans with (bpow (5 + (2 - 1024) + 124)).
    + rewrite !bpow_add, (bpow_IZR 5), (bpow_IZR 124) by lia. right. reflexivity.
    + change 1 with (bpow 0). apply bpow_mono. lia.
  - unfold SFom. fold (bpow (1024 - 53)). apply Rle_trans with (1 * bpow 200).
    + rewrite Rmult_1_l, bpow_IZR by lia. replace (2 ^ 43) with (IZR (2 ^ 43)) by (rewrite pow_IZR; reflexivity). rewrite <- !mult_IZR. apply IZR_le. vm_compute. discriminate.
    + apply Rmult_le_compat; [lra|left; apply bpow_pos|apply IZR_le; lia|apply bpow_mono; lia].
Qed.
Lemma roomy_F : roomy (SFu 24) (SFmu 128) (SFom 24 128) (2 ^ 38).
Proof.
  destruct smallF as (_ & M & _). split; [rewrite uF_val; lra|]. split; [reflexivity|]. split; [lra|].
  assert (E : IZR (2 ^ 38) * IZR (2 ^ 38) = IZR (2 ^ 76)) by (rewrite <- mult_IZR; reflexivity). rewrite E. split.
  - unfold SFmu. fold (bpow (2 - 128)). apply Rle_trans with (bpow (5 + (2 - 128) + 76)).
    + rewrite !bpow_add, (bpow_IZR 5), (bpow_IZR 76) by lia. right. reflexivity.
    + change 1 with (bpow 0). apply bpow_mono. lia.
  - unfold SFom. fold (bpow (128 - 24)). apply Rle_trans with (IZR (2 ^ 23) * bpow (128 - 24)).
    + rewrite bpow_IZR by lia. replace (2 ^ 43) with (IZR (2 ^ 43)) by (rewrite pow_IZR; reflexivity). rewrite <- !mult_IZR. apply IZR_le. vm_compute. discriminate.
    + apply Rmult_le_compat_r; [left; apply bpow_pos|apply IZR_le; vm_compute; discriminate].
Qed.

Section Norm3.
Context {F : Type}.
Variables (u mu om : R) (O : sops F) (val : F -> R) (fin : F -> Prop) (t s : nat) (cexp : bool -> Z -> Z -> F * F) (rnorm : Z -> F).
Variables (Gm : Z) (uc : R) (cv : spec_float -> F) (dist : F -> spec_float -> spec_float).
(** the printed error of a run with equal processor grids *)
Definition prints_norm3 : Prop := forall rd ar (n : nat) st N g k sd nloop (M0 : fft3 -> nat -> @rmem F),
  rd_laws rd -> area_laws ar -> (1 <= n)%nat -> ints3d N -> small3 (Z.of_nat n) N -> dims_ok3 N -> flag_ok (st_pack st) ->
  given3 (Z.of_nat n) g -> (forall r, (r < n)%nat -> seed_ok k (sd r)) -> (forall f, arrays_ok f BWORK (M0 f)) ->
  (1 <= nloop)%nat -> 2 * INR nloop * INR (ntrip3 t s N) * u <= 1 -> (grid_points N <= Gm)%Z ->
  exists e, prints3 O cexp rnorm cv dist rd ar n st 0 N g g k sd nloop M0 e /\ SFfin 53 1024 e /\
    0 <= SFval e <= (1 + SFu 53) * norm_bound u uc mu (ntrip3 t s N) nloop (grid_points N) (top3 k N).
(** the run itself, for any layouts in which the input fits into the output *)
Definition norm_run3 : Prop := forall ar n sts N permute ins outs f,
  ready3 ar n sts N permute ins outs f -> (grid_points N < 2 ^ 63)%Z ->
  (forall r, (r < n)%nat -> (psize3 (ins r) <= psize3 (outs r))%Z) ->
  forall k sd, (forall r, (r < n)%nat -> legal3 (ins r) /\ seed_ok k (sd r)) ->
  forall (M0 : nat -> @rmem F) nloop, room3 f BACKWARD BWORK M0 ->
  (1 + u) ^ trip3 t s N * (4 * (sqrt (IZR (grid_points N)) * (((1 + u) ^ ntrip3 t s N) ^ nloop * start_norm uc mu (grid_points N) (top3 k N)) * IZR (grid_points N))) <= om ->
  exists P M' x y e E, setup_ffts3 cexp N = Some P /\
    exec_to n (test3 O rnorm f P false nloop (fun r => initialize3 dint drand cv k (sd r) N (ins r))) M0 M' /\
    (forall r, (r < n)%nat -> framed M0 BWORK (fun r => (2 * f_fftsize f r)%Z) r (M' r)) /\
    (forall r p c, (r < n)%nat -> inb3 p (ins r) -> (0 <= c < 2)%Z -> fld x p c = cv (want3 dint drand k (sd r) N (ins r) p c)) /\
    (forall r, (r < n)%nat -> holds3 2 0 (ins r) (fld y) (getb BWORK (M' r))) /\
    (forall p, in_grid N p -> cfin fin (x p) /\ cfin fin (y p)) /\
    nsize3 mu N (vals val x) <= start_norm uc mu (grid_points N) (top3 k N) /\
    norm3 N (minus val y (vals val x)) <= (((1 + u) ^ ntrip3 t s N) ^ nloop - 1) * nsize3 mu N (vals val x) /\
    allmax dgt dzero n (fun r => validate3 dint drand dist dgt dzero k (sd r) N (ins r) (getb BWORK (M' r))) = Some e /\ SFfin 53 1024 e /\
    worst (fun d => exists r p c a, (r < n)%nat /\ inb3 p (ins r) /\ (0 <= c < 2)%Z /\ zget (getb BWORK (M' r)) (cell3 2 0 (ins r) p c) = Some a /\
             d = Rabs (val a - SFval (want3 dint drand k (sd r) N (ins r) p c))) E /\
    E <= (((1 + u) ^ ntrip3 t s N) ^ nloop - 1) * nsize3 mu N (vals val x) + uc * (IZR (top3 k N) + 1) /\
    Rabs (SFval e - E) <= SFu 53 * E.
Hypothesis RO : rounding u mu om O val fin.
Hypothesis HT : forall inv L, (L < 2 ^ 31)%Z -> table_ok u val fin t cexp inv L.
Hypothesis HN : forall k, (1 <= k < 2 ^ 63)%Z -> norm_ok u val fin s rnorm k.
Hypothesis Huc : 0 <= uc <= 1.
Hypothesis CV : conv_ok fin val uc cv.
Hypothesis HD : dist_ok fin val dist.
Hypothesis Hom : om <= SFom 53 1024.
Hypothesis Hw : roomy u mu om Gm.

Lemma norm_run3_proof : norm_run3.
Proof.
  intros ar n sts N permute ins outs f Hr Hg Hsz k sd Hs M0 nloop Ha Ho.
  apply (run_norm3 u mu om O val fin t s cexp rnorm uc cv dist RO HT HN (proj1 Huc) CV HD Hom ar n sts N permute ins outs f Hr Hg Hsz k sd Hs M0 nloop Ha Ho).
Qed.
Lemma prints_norm3_proof : prints_norm3.
Proof.
  intros rd ar n st N g k sd nloop M0 L La Hn HNN Hs Hd Hpk Hg Hseed HM Hnl Hb HGm. destruct (ints3d_pos N HNN) as (Hp & HI).
  destruct (C55_3d_proof rd ar n st 0 N g g L La Hn HNN Hs ltac:(lia) Hg Hg) as (gi & go & E1 & Fi & Fo & _ & _ & _ & _ & _ & B & Ti & To & Ok).
  assert (Eg : go = gi).
  { revert E1. unfold proc_setup3. cbn [Z.eqb orb]. destruct Hg as [-> | Hg].
    - cbn [unset3 Z.eqb andb]. destruct (proc3d rd (Z.of_nat n) N) as [a|]; cbn [bind]; [|discriminate]. intros X. injection X. congruence.
    - rewrite (unset3_factors _ _ Hg). cbn [bind]. intros X. injection X. congruence. }
  subst go. destruct (proj2 Ok Hd) as (f & Ef).
  assert (Hr : ready3 ar n st N (permute3 0) (tiles3 N gi) (tiles3 N gi) f).
  { split; [exact La|]. split; [exact Hn|]. split; [exact HI|]. split; [exact Hpk|]. split; [exact Ti|]. split; [exact To|].
    split; [intros r Hr; apply (tiles3_legal (Z.of_nat n)); assumption|exact Ef]. }
  assert (Hsame : f_same f = true) by (apply (F_same _ _ _ _ _ _ _ (ready_facts _ _ _ _ _ _ _ _ Hr)); split; reflexivity).
  assert (HT0 : 0 <= IZR (top3 k N) <= 2 ^ 40) by (apply top3_range; [exact HI|..]; apply (dims_pos3 _ _ _ _ _ _ _ _ Hr)).
  destruct (dims_pos3 _ _ _ _ _ _ _ _ Hr) as (D1 & D2 & D3 & HG). assert (HGr : (1 <= grid_points N <= Gm)%Z) by lia.
  assert (HK : (trip3 t s N <= ntrip3 t s N)%nat).
  { unfold trip3, ntrip3, cost3, ncost3. destruct N as [[nx ny] nz]. unfold ints3, INT_MAX in HI. cbn [fst snd] in *.
    pose proof (cost_ncost t nx ltac:(change (2 ^ 31)%Z with 2147483648%Z; lia)). pose proof (cost_ncost t ny ltac:(change (2 ^ 31)%Z with 2147483648%Z; lia)). pose proof (cost_ncost t nz ltac:(change (2 ^ 31)%Z with 2147483648%Z; lia)). lia. }
  assert (G63 : (grid_points N < 2 ^ 63)%Z) by (destruct Hw as (_ & Hgm & _); lia).
  pose proof (roomy_small u mu om uc (trip3 t s N) (ntrip3 t s N) nloop (grid_points N) Gm (top3 k N) Hw Huc HT0 Hnl HK HGr Hb) as Ho.
  pose proof (C71_growth_proof u (ntrip3 t s N) nloop (Rlt_le _ _ (proj1 (proj1 Hw))) Hb) as Hq.
  destruct (norm_run3_proof ar n st N _ _ _ f Hr G63) with (k := k) (sd := sd) (M0 := M0 f) (nloop := nloop) as (P & M' & x & y & e & E & EP & EX & _ & _ & _ & Fxy & Nx & Ny & EE & Fe & We & Be & Re).
  - intros r Hrn. lia.
  - intros r Hrn. split; [apply (tiles3_legal (Z.of_nat n)); assumption|auto].
  - split; [apply HM|]. unfold fwdpath. rewrite Hsame, orb_true_r. discriminate.
  - exact Ho.
  - exists e. split; [|split; [exact Fe|]].
    + exists gi, gi, (tiles3 N gi), (tiles3 N gi), f, P, M'. split; [exact E1|]. split; [exact B|]. split; [exact Ef|]. split; [exact EP|]. split; assumption.
    + pose proof (proj1 We) as E0. apply Rabs_le_inv' in Re. pose proof u53_small as U.
      assert (Eb : E <= norm_bound u uc mu (ntrip3 t s N) nloop (grid_points N) (top3 k N)).
      { eapply Rle_trans; [exact Be|]. unfold norm_bound. apply Rplus_le_compat_r.
        pose proof (nsize3_pos u mu om O val fin RO ar n st N _ _ _ f Hr (vals val x)) as Px.
        apply Rmult_le_compat; [|exact Px|exact Hq|exact Nx]. assert (1 <= ((1 + u) ^ ntrip3 t s N) ^ nloop); [|lra].
        apply pow_R1_Rle, pow_R1_Rle. pose proof (proj1 (proj1 Hw)). lra. }
      split; [nra|]. apply Rle_trans with ((1 + SFu 53) * E); [lra|]. apply Rmult_le_compat_l; lra.
Qed.
End Norm3.

Section Norm2.
Context {F : Type}.
Variables (u mu om : R) (O : sops F) (val : F -> R) (fin : F -> Prop) (t s : nat) (cexp : bool -> Z -> Z -> F * F) (rnorm : Z -> F).
Variables (Gm : Z) (uc : R) (cv : spec_float -> F) (dist : F -> spec_float -> spec_float).
(** the printed error of a run with equal processor grids *)
Definition prints_norm2 : Prop := forall rd esize ar (n : nat) st N g k sd nloop (M0 : fft2 -> nat -> @rmem F),
  rd_laws rd -> area_laws ar -> (1 <= n)%nat -> ints2d N -> small2 (Z.of_nat n) N -> dims_ok2 N -> flag_ok (st_pack st) -> (esize = 8 \/ st_pack st <> 2)%Z ->
  factors2 (Z.of_nat n) g -> (forall r, (r < n)%nat -> seed_ok k (sd r)) -> (forall f, arrays_ok2 f BWORK (M0 f)) ->
  (1 <= nloop)%nat -> 2 * INR nloop * INR (ntrip2 t s N) * u <= 1 -> (grid_points2 N <= Gm)%Z ->
  exists e, prints2 O cexp rnorm cv dist rd esize ar n st 0 N g g k sd nloop M0 e /\ SFfin 53 1024 e /\
    0 <= SFval e <= (1 + SFu 53) * norm_bound u uc mu (ntrip2 t s N) nloop (grid_points2 N) (top2 k N).
(** the run itself, for any layouts in which the input fits into the output *)
Definition norm_run2 : Prop := forall esize ar n sts N permute ins outs f,
  ready2 esize ar n sts N permute ins outs f -> (grid_points2 N < 2 ^ 63)%Z ->
  (forall r, (r < n)%nat -> (psize2 (ins r) <= psize2 (outs r))%Z) ->
  forall k sd, (forall r, (r < n)%nat -> legal2 (ins r) /\ seed_ok k (sd r)) ->
  forall (M0 : nat -> @rmem F) nloop, arrays_ok2 f BWORK M0 ->
  (1 + u) ^ trip2 t s N * (4 * (sqrt (IZR (grid_points2 N)) * (((1 + u) ^ ntrip2 t s N) ^ nloop * start_norm uc mu (grid_points2 N) (top2 k N)) * IZR (grid_points2 N))) <= om ->
  exists P M' x y e E, setup_ffts2 cexp N = Some P /\
    exec_to n (test2 O rnorm esize f P false nloop (fun r => initialize2 dint drand cv k (sd r) N (ins r))) M0 M' /\
    (forall r, (r < n)%nat -> framed M0 BWORK (fun r => (2 * t_fftsize f r)%Z) r (M' r)) /\
    (forall r p c, (r < n)%nat -> inb2 p (ins r) -> (0 <= c < 2)%Z -> fld x p c = cv (want2 dint drand k (sd r) N (ins r) p c)) /\
    (forall r, (r < n)%nat -> holds2 2 0 (ins r) (fld y) (getb BWORK (M' r))) /\
    (forall p, in_grid2 N p -> cfin fin (x p) /\ cfin fin (y p)) /\
    nsize2 mu N (vals val x) <= start_norm uc mu (grid_points2 N) (top2 k N) /\
    norm2 N (minus val y (vals val x)) <= (((1 + u) ^ ntrip2 t s N) ^ nloop - 1) * nsize2 mu N (vals val x) /\
    allmax dgt dzero n (fun r => validate2 dint drand dist dgt dzero k (sd r) N (ins r) (getb BWORK (M' r))) = Some e /\ SFfin 53 1024 e /\
    worst (fun d => exists r p c a, (r < n)%nat /\ inb2 p (ins r) /\ (0 <= c < 2)%Z /\ zget (getb BWORK (M' r)) (cell2 2 0 (ins r) p c) = Some a /\
             d = Rabs (val a - SFval (want2 dint drand k (sd r) N (ins r) p c))) E /\
    E <= (((1 + u) ^ ntrip2 t s N) ^ nloop - 1) * nsize2 mu N (vals val x) + uc * (IZR (top2 k N) + 1) /\
    Rabs (SFval e - E) <= SFu 53 * E.
Hypothesis RO : rounding u mu om O val fin.
Hypothesis HT : forall inv L, (L < 2 ^ 31)%Z -> table_ok u val fin t cexp inv L.
Hypothesis HN : forall k, (1 <= k < 2 ^ 63)%Z -> norm_ok u val fin s rnorm k.
Hypothesis Huc : 0 <= uc <= 1.
Hypothesis CV : conv_ok fin val uc cv.
Hypothesis HD : dist_ok fin val dist.
Hypothesis Hom : om <= SFom 53 1024.
Hypothesis Hw : roomy u mu om Gm.

Lemma norm_run2_proof : norm_run2.
Proof.
  intros esize ar n sts N permute ins outs f Hr Hg Hsz k sd Hs M0 nloop Ha Ho.
  apply (run_norm2 u mu om O val fin t s cexp rnorm uc cv dist RO HT HN (proj1 Huc) CV HD Hom esize ar n sts N permute ins outs f Hr Hg Hsz k sd Hs M0 nloop Ha Ho).
Qed.
Lemma prints_norm2_proof : prints_norm2.
Proof.
  intros rd esize ar n st N g k sd nloop M0 L La Hn HNN Hs Hd Hpk Hes Hg Hseed HM Hnl Hb HGm. destruct (ints2d_pos N HNN) as (Hp & HI).
  destruct (C55_2d_proof rd ar n st 0 N g g L La Hn HNN Hs (or_intror Hg) (or_intror Hg)) as (gi & go & E1 & Fi & Fo & Ei & _ & Eo & _ & B & Ti & To & Ok & _).
  assert (Hne : g <> (0, 0)%Z) by (intros ->; destruct Hg; lia). specialize (Ei Hne). specialize (Eo Hne). subst gi go.
  destruct (proj2 (Ok (or_introl eq_refl)) Hd) as (f & Ef).
  assert (Hr : ready2 esize ar n st N (permute2 0) (tiles2 N g) (tiles2 N g) f).
  { split; [exact La|]. split; [exact Hn|]. split; [exact HI|]. split; [exact Hpk|]. split; [exact Hes|]. split; [exact Ti|]. split; [exact To|].
    split; [intros r Hr; apply (tiles2_legal (Z.of_nat n)); assumption|exact Ef]. }
  assert (HT0 : 0 <= IZR (top2 k N) <= 2 ^ 40) by (apply top2_range; [exact HI|..]; apply (dims_pos2 _ _ _ _ _ _ _ _ _ Hr)).
  destruct (dims_pos2 _ _ _ _ _ _ _ _ _ Hr) as (D1 & D2 & HG). assert (HGr : (1 <= grid_points2 N <= Gm)%Z) by lia.
  assert (HK : (trip2 t s N <= ntrip2 t s N)%nat).
  { unfold trip2, ntrip2, cost2, ncost2. destruct N as [nx ny]. unfold ints2, INT_MAX in HI. cbn [fst snd] in *.
    pose proof (cost_ncost t nx ltac:(change (2 ^ 31)%Z with 2147483648%Z; lia)). pose proof (cost_ncost t ny ltac:(change (2 ^ 31)%Z with 2147483648%Z; lia)). lia. }
  assert (G63 : (grid_points2 N < 2 ^ 63)%Z) by (destruct Hw as (_ & Hgm & _); lia).
  pose proof (roomy_small u mu om uc (trip2 t s N) (ntrip2 t s N) nloop (grid_points2 N) Gm (top2 k N) Hw Huc HT0 Hnl HK HGr Hb) as Ho.
  pose proof (C71_growth_proof u (ntrip2 t s N) nloop (Rlt_le _ _ (proj1 (proj1 Hw))) Hb) as Hq.
  destruct (norm_run2_proof esize ar n st N _ _ _ f Hr G63) with (k := k) (sd := sd) (M0 := M0 f) (nloop := nloop) as (P & M' & x & y & e & E & EP & EX & _ & _ & _ & Fxy & Nx & Ny & EE & Fe & We & Be & Re).
  - intros r Hrn. lia.
  - intros r Hrn. split; [apply (tiles2_legal (Z.of_nat n)); assumption|auto].
  - apply HM.
  - exact Ho.
  - exists e. split; [|split; [exact Fe|]].
    + exists g, g, (tiles2 N g), (tiles2 N g), f, P, M'. split; [exact E1|]. split; [exact B|]. split; [exact Ef|]. split; [exact EP|]. split; assumption.
    + pose proof (proj1 We) as E0. apply Rabs_le_inv' in Re. pose proof u53_small as U.
      assert (Eb : E <= norm_bound u uc mu (ntrip2 t s N) nloop (grid_points2 N) (top2 k N)).
      { eapply Rle_trans; [exact Be|]. unfold norm_bound. apply Rplus_le_compat_r.
        pose proof (nsize2_pos u mu om O val fin RO esize ar n st N _ _ _ f Hr (vals val x)) as Px.
        apply Rmult_le_compat; [|exact Px|exact Hq|exact Nx]. assert (1 <= ((1 + u) ^ ntrip2 t s N) ^ nloop); [|lra].
        apply pow_R1_Rle, pow_R1_Rle. pose proof (proj1 (proj1 Hw)). lra. }
      split; [nra|]. apply Rle_trans with ((1 + SFu 53) * E); [lra|]. apply Rmult_le_compat_l; lra.
Qed.
End Norm2.

(** ** the two builds *)
Section Double.
Variables (c : R) (cosd sind : spec_float -> spec_float) (t : nat).
Hypothesis Hc : 0 <= c.
Hypothesis Ht : 15 + 2 * c <= INR t.
Hypothesis Hl : libm_ok c cosd sind.
Lemma C71_run_double_3d_proof : norm_run3 (SFu 53) (SFmu 1024) (SFom 53 1024) (SFops 53 1024) SFval (SFfin 53 1024) t 3 (twiddleD cosd sind) normD 0 toD distD.
Proof. exact (norm_run3_proof _ _ _ _ _ _ t 3 _ _ 0 toD distD roundD (tabD c cosd sind t Hc Ht Hl) (proj2 (proj2 C53_double_proof)) zero_1 conv_D dist_D (Rle_refl _)). Qed.
Lemma C71_run_double_2d_proof : norm_run2 (SFu 53) (SFmu 1024) (SFom 53 1024) (SFops 53 1024) SFval (SFfin 53 1024) t 3 (twiddleD cosd sind) normD 0 toD distD.
Proof. exact (norm_run2_proof _ _ _ _ _ _ t 3 _ _ 0 toD distD roundD (tabD c cosd sind t Hc Ht Hl) (proj2 (proj2 C53_double_proof)) zero_1 conv_D dist_D (Rle_refl _)). Qed.
Lemma C71_test3d_double_proof : prints_norm3 (SFu 53) (SFmu 1024) (SFops 53 1024) t 3 (twiddleD cosd sind) normD (2 ^ 62) 0 toD distD.
Proof. exact (prints_norm3_proof _ _ _ _ _ _ t 3 _ _ _ 0 toD distD roundD (tabD c cosd sind t Hc Ht Hl) (proj2 (proj2 C53_double_proof)) zero_1 conv_D dist_D (Rle_refl _) roomy_D). Qed.
Lemma C71_test2d_double_proof : prints_norm2 (SFu 53) (SFmu 1024) (SFops 53 1024) t 3 (twiddleD cosd sind) normD (2 ^ 62) 0 toD distD.
Proof. exact (prints_norm2_proof _ _ _ _ _ _ t 3 _ _ _ 0 toD distD roundD (tabD c cosd sind t Hc Ht Hl) (proj2 (proj2 C53_double_proof)) zero_1 conv_D dist_D (Rle_refl _) roomy_D). Qed.
End Double.
Section Single.
Variables (c : R) (cosd sind : spec_float -> spec_float).
Hypothesis Hc : 0 <= c <= 1000000.
Hypothesis Hl : libm_ok c cosd sind.
Lemma C71_run_single_3d_proof : norm_run3 (SFu 24) (SFmu 128) (SFom 24 128) (SFops 24 128) SFval (SFfin 24 128) 2 2 (twiddleF cosd sind) normF (SFu 24) toF distF.
Proof. exact (norm_run3_proof _ _ _ _ _ _ 2 2 _ _ _ toF distF roundF (tabF c cosd sind Hc Hl) (proj2 (proj2 C53_float_proof)) u24_1 conv_F dist_F omF_D). Qed.
Lemma C71_run_single_2d_proof : norm_run2 (SFu 24) (SFmu 128) (SFom 24 128) (SFops 24 128) SFval (SFfin 24 128) 2 2 (twiddleF cosd sind) normF (SFu 24) toF distF.
Proof. exact (norm_run2_proof _ _ _ _ _ _ 2 2 _ _ _ toF distF roundF (tabF c cosd sind Hc Hl) (proj2 (proj2 C53_float_proof)) u24_1 conv_F dist_F omF_D). Qed.
Lemma C71_test3d_single_proof : prints_norm3 (SFu 24) (SFmu 128) (SFops 24 128) 2 2 (twiddleF cosd sind) normF (2 ^ 38) (SFu 24) toF distF.
Proof. exact (prints_norm3_proof _ _ _ _ _ _ 2 2 _ _ _ _ toF distF roundF (tabF c cosd sind Hc Hl) (proj2 (proj2 C53_float_proof)) u24_1 conv_F dist_F omF_D roomy_F). Qed.
Lemma C71_test2d_single_proof : prints_norm2 (SFu 24) (SFmu 128) (SFops 24 128) 2 2 (twiddleF cosd sind) normF (2 ^ 38) (SFu 24) toF distF.
Proof. exact (prints_norm2_proof _ _ _ _ _ _ 2 2 _ _ _ _ toF distF roundF (tabF c cosd sind Hc Hl) (proj2 (proj2 C53_float_proof)) u24_1 conv_F dist_F omF_D roomy_F). Qed.
End Single.

(** ** examples *)
Lemma sqrt_sq a : (0 <= a)%Z -> sqrt (IZR (a * a)) = IZR a.
Proof. intros H. rewrite mult_IZR. apply sqrt_square. apply IZR_le, H. Qed.
(** 512 ranks, 10 round trips, 1024^3 random numbers: less than 2 10^-7 in double precision; single precision, 1 round trip, 64^3: less than 1/40 *)
Lemma C71_example_proof : exists e1 e2 : spec_float,
  prints3 (SFops 53 1024) (twiddleD cos53 sin53) normD toD distD fl double_areas 512 (mkset 2 0 2) 0 (1024, 1024, 1024)%Z (0, 0, 0)%Z (0, 0, 0)%Z RANDOM (fun r => 82783 + Z.of_nat r)%Z 10 zeroes3 e1 /\
  SFfin 53 1024 e1 /\ 0 <= SFval e1 <= 2 / 10000000 /\
  prints3 (SFops 24 128) (twiddleF cos53 sin53) normF toF distF fl double_areas 512 (mkset 2 0 2) 0 (64, 64, 64)%Z (0, 0, 0)%Z (0, 0, 0)%Z RANDOM (fun r => 82783 + Z.of_nat r)%Z 1 zeroes3 e2 /\
  SFfin 53 1024 e2 /\ 0 <= SFval e2 <= 1 / 40.
Proof.
  assert (T1 : ntrip3 21 3 (1024, 1024, 1024)%Z = 1565%nat) by (vm_compute; reflexivity).
  assert (T2 : ntrip3 2 2 (64, 64, 64)%Z = 256%nat) by (vm_compute; reflexivity).
  assert (I1 : INR 1565 = 1565) by (rewrite INR_IZR_INZ; reflexivity). assert (I2 : INR 256 = 256) by (rewrite INR_IZR_INZ; reflexivity).
  assert (J1 : INR 10 = 10) by (rewrite INR_IZR_INZ; reflexivity). assert (J2 : INR 1 = 1) by reflexivity.
  assert (G1 : grid_points (1024, 1024, 1024)%Z = (32768 * 32768)%Z) by reflexivity.
  assert (G2 : grid_points (64, 64, 64)%Z = (512 * 512)%Z) by reflexivity.
  assert (H03 : 0 <= 3) by lra. assert (H03' : 0 <= 3 <= 1000000) by lra.
  assert (B1 : 15 + 2 * 3 <= INR 21) by (rewrite INR_IZR_INZ; change (Z.of_nat 21) with 21%Z; lra).
  assert (Hsd : forall r, (r < 512)%nat -> seed_ok RANDOM (82783 + Z.of_nat r)).
  { intros r Hr _. unfold IM. lia. }
  destruct (C71_test3d_double_proof 3 cos53 sin53 21 H03 B1 libm53 fl double_areas 512%nat (mkset 2 0 2) (1024, 1024, 1024)%Z (0, 0, 0)%Z RANDOM (fun r => 82783 + Z.of_nat r)%Z 10%nat zeroes3)
    as (e1 & P1 & F1 & L1 & U1); auto using fl_laws, double_laws, zeroes3_ok.
  { lia. } { unfold ints3d. lia. } { unfold small3. change (Z.of_nat 512) with 512%Z. lia. } { repeat split; try lia; exists 10%Z, 0%Z, 0%Z; repeat split; lia. }
  { unfold flag_ok. cbn. lia. } { left. reflexivity. } { lia. } { rewrite T1, I1, J1, u_val; lra. } { rewrite G1. lia. }
  destruct (C71_test3d_single_proof 3 cos53 sin53 H03' libm53 fl double_areas 512%nat (mkset 2 0 2) (64, 64, 64)%Z (0, 0, 0)%Z RANDOM (fun r => 82783 + Z.of_nat r)%Z 1%nat zeroes3)
    as (e2 & P2 & F2 & L2 & U2); auto using fl_laws, double_laws, zeroes3_ok.
  { lia. } { unfold ints3d. lia. } { unfold small3. change (Z.of_nat 512) with 512%Z. lia. } { repeat split; try lia; exists 6%Z, 0%Z, 0%Z; repeat split; lia. }
  { unfold flag_ok. cbn. lia. } { left. reflexivity. } { rewrite T2, I2, J2, uF_val; lra. } { rewrite G2. lia. }
  exists e1, e2. split; [exact P1|]. split; [exact F1|]. split; [split; [exact L1|]|]; [|split; [exact P2|]; split; [exact F2|]; split; [exact L2|]].
  - eapply Rle_trans; [exact U1|]. rewrite T1. unfold norm_bound, start_norm. rewrite I1, J1, G1, sqrt_sq by lia. change (32768 * 32768)%Z with 1073741824%Z. cbn [top3]. destruct roomy_D as (_ & _ & M0 & M & _). change (2 ^ 62)%Z with 4611686018427387904%Z in M. rewrite u_val. lra.
  - eapply Rle_trans; [exact U2|]. rewrite T2. unfold norm_bound, start_norm. rewrite I2, J2, G2, sqrt_sq by lia. change (512 * 512)%Z with 262144%Z. cbn [top3]. destruct roomy_F as (_ & _ & M0 & M & _). change (2 ^ 38)%Z with 274877906944%Z in M. rewrite u_val, uF_val. lra.
Qed.
Lemma C71_example2_proof : exists e : spec_float,
  prints2 (SFops 53 1024) (twiddleD cos53 sin53) normD toD distD fl 8 double_areas 64 (mkset 2 0 2) 0 (1024, 1024)%Z (8, 8)%Z (8, 8)%Z RANDOM (fun r => 82783 + Z.of_nat r)%Z 10 zeroes2 e /\
  SFfin 53 1024 e /\ 0 <= SFval e <= 4 / 1000000000.
Proof.
  assert (T1 : ntrip2 21 3 (1024, 1024)%Z = 1045%nat) by (vm_compute; reflexivity).
  assert (I1 : INR 1045 = 1045) by (rewrite INR_IZR_INZ; reflexivity). assert (J1 : INR 10 = 10) by (rewrite INR_IZR_INZ; reflexivity).
  assert (G1 : grid_points2 (1024, 1024)%Z = (1024 * 1024)%Z) by reflexivity. assert (H03 : 0 <= 3) by lra.
  assert (B1 : 15 + 2 * 3 <= INR 21) by (rewrite INR_IZR_INZ; change (Z.of_nat 21) with 21%Z; lra).
  assert (Hsd : forall r, (r < 64)%nat -> seed_ok RANDOM (82783 + Z.of_nat r)) by (intros r Hr _; unfold IM; lia).
  destruct (C71_test2d_double_proof 3 cos53 sin53 21 H03 B1 libm53 fl 8%Z double_areas 64%nat (mkset 2 0 2) (1024, 1024)%Z (8, 8)%Z RANDOM (fun r => 82783 + Z.of_nat r)%Z 10%nat zeroes2)
    as (e1 & P1 & F1 & L1 & U1); auto using fl_laws, double_laws, zeroes2_ok.
  { lia. } { unfold ints2d. lia. } { unfold small2. change (Z.of_nat 64) with 64%Z. lia. } { repeat split; try lia; exists 10%Z, 0%Z, 0%Z; repeat split; lia. }
  { unfold flag_ok. cbn. lia. } { unfold factors2. change (Z.of_nat 64) with 64%Z. lia. } { lia. } { rewrite T1, I1, J1, u_val; lra. } { rewrite G1. lia. }
  exists e1. split; [exact P1|]. split; [exact F1|]. split; [exact L1|].
  eapply Rle_trans; [exact U1|]. rewrite T1. unfold norm_bound, start_norm. rewrite I1, J1, G1, sqrt_sq by lia. change (1024 * 1024)%Z with 1048576%Z. cbn [top2].
  destruct roomy_D as (_ & _ & M0 & M & _). change (2 ^ 62)%Z with 4611686018427387904%Z in M. rewrite u_val. lra.
Qed.
