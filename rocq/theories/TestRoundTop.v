(** TestRoundTop.v : C61, what a run of test3d or test2d reports in IEEE arithmetic. *)

From Coq Require Import QArith Reals Psatz Lra Floats.SpecFloat.
From Verif Require Import Base Spec Pack3d Sched SchedProofs Phases Exec Remap RemapMain RemapInst
  Remap3d RemapThms RemapTop Remap2d Layout LayoutProofs Setup3d Setup3dProofs Setup2d Setup2dProofs LayoutFinal ExRemap Kiss KissPure KissAlg KissReal Fft1d KissFinal
  Fft3d Frame Fft3dProofs Fft3dMain DftMulti Fft3dTop Fft3dFinal Fft3dStmt Fft3dEx Fft2d Fft2dMain Fft2dTop Fft2dFinal
  Count Double DoubleProofs TestProg TestLayProofs TestDataProofs TestRunProofs TestMainProofs TestFinal TestTop
  Round RoundKiss RoundFft RoundThms Binary RoundDouble RoundTable RoundFinal TestRound TestRoundRun.
Local Open Scope R_scope.

(** the roundings of a round trip, s of them in the scale factor *)
Definition trip3 (t s : nat) (N : Z * Z * Z) : nat := (2 * cost3 t N + scale_cost s true)%nat.
Definition trip2 (t s : nat) (N : Z * Z) : nat := (2 * cost2 t N + scale_cost s true)%nat.
(** first order bound for the reported error *)
Definition error_bound (u uc mu : R) (K nloop : nat) (G top : Z) : R :=
  4 * INR nloop * IZR G * INR K * u * start_size uc mu top + uc * (IZR top + 1).

Lemma pow_first u K : 0 <= u -> INR K * u <= 1 / 2 -> (1 + u) ^ K - 1 <= 2 * (INR K * u).
Proof.
  intros Hu Hk. pose proof (C51_higham_proof u K Hu ltac:(lra)) as H. eapply Rle_trans; [exact H|].
  pose proof (pos_INR K) as P. set (z := INR K * u) in *. assert (0 <= z) by (unfold z; apply Rmult_le_pos; assumption). clearbody z.
  apply Rmult_le_reg_r with (1 - z); [lra|]. unfold Rdiv. rewrite Rmult_assoc, Rinv_l by lra. nra.
Qed.
Lemma C61_growth_proof u K nloop G : 0 <= u -> (1 <= nloop)%nat -> (1 <= G)%Z -> 4 * INR nloop * IZR G * INR K * u <= 1 ->
  (1 + u) ^ K <= 2 /\ growth u K G ^ nloop - 1 <= 4 * INR nloop * IZR G * INR K * u.
Proof.
  intros Hu Hn HG H. assert (N1 : 1 <= INR nloop) by (apply (le_INR 1), Hn). assert (G1 : 1 <= IZR G) by (apply IZR_le, HG).
  pose proof (pos_INR K) as K0. set (z := INR K * u). assert (Z0 : 0 <= z) by (apply Rmult_le_pos; assumption).
  assert (Hz : 4 * INR nloop * IZR G * z <= 1) by (unfold z; lra).
  assert (A1 : IZR G * z <= 1 / 4).
  { assert (0 <= IZR G * z) by nra. nra. }
  assert (A2 : z <= 1 / 4) by nra.
  pose proof (pow_first u K Hu) as P. fold z in P. specialize (P ltac:(lra)). split; [lra|].
  assert (Pge : 1 <= (1 + u) ^ K) by (apply pow_R1_Rle; lra).
  pose proof (pow_first (IZR G * ((1 + u) ^ K - 1)) nloop) as Q. unfold growth.
  assert (B : IZR G * ((1 + u) ^ K - 1) <= IZR G * (2 * z)) by (apply Rmult_le_compat_l; lra).
  assert (B0 : 0 <= IZR G * ((1 + u) ^ K - 1)) by nra.
  assert (C : INR nloop * (IZR G * ((1 + u) ^ K - 1)) <= 2 * (INR nloop * IZR G * z)) by nra.
  specialize (Q B0 ltac:(lra)). fold z in H. replace (4 * INR nloop * IZR G * INR K * u) with (4 * INR nloop * IZR G * z) by (unfold z; ring). lra.
Qed.

(** a format: its unit roundoff [u] and its largest number [om] are such that a grid small enough for [error_bound] to be less
    than 1 is also too small to overflow *)
Definition wide (u om : R) : Prop := 0 < u <= 1 /\ 1 <= u * 2 ^ 63 /\ 16 * (/ (4 * u) * / (4 * u)) * 2 ^ 43 <= om.
Lemma wide_D : wide (SFu 53) (SFom 53 1024).
Proof.
  rewrite u_val. split; [lra|]. split; [lra|]. unfold SFom. fold (bpow (1024 - 53)). apply Rle_trans with (1 * bpow 200).
  2: { apply Rmult_le_compat; [lra|left; apply bpow_pos|apply IZR_le; lia|apply bpow_mono; lia]. }
  rewrite Rmult_1_l.
  replace (16 * (/ (4 * / 9007199254740992) * / (4 * / 9007199254740992)) * 2 ^ 43) with (IZR (2 ^ 4 * (2 ^ 51 * 2 ^ 51) * 2 ^ 43)).
  - rewrite bpow_IZR by lia. apply IZR_le. vm_compute. discriminate.
  - rewrite !mult_IZR. replace (/ (4 * / 9007199254740992)) with (IZR (2 ^ 51)) by (change (2 ^ 51)%Z with 2251799813685248%Z; field).
    change (IZR (2 ^ 4)) with 16. replace (IZR (2 ^ 43)) with (2 ^ 43) by (rewrite pow_IZR; reflexivity). reflexivity.
Qed.
Lemma wide_F : wide (SFu 24) (SFom 24 128).
Proof.
  rewrite uF_val. split; [lra|]. split; [lra|]. unfold SFom. fold (bpow (128 - 24)). apply Rle_trans with (1 * bpow (128 - 24)).
  - rewrite Rmult_1_l, bpow_IZR by lia.
    replace (16 * (/ (4 * / 16777216) * / (4 * / 16777216)) * 2 ^ 43) with (IZR (2 ^ 4 * (2 ^ 22 * 2 ^ 22) * 2 ^ 43)).
    + apply IZR_le. vm_compute. discriminate.
    + rewrite !mult_IZR. replace (/ (4 * / 16777216)) with (IZR (2 ^ 22)) by (change (2 ^ 22)%Z with 4194304%Z; field).
      change (IZR (2 ^ 4)) with 16. replace (IZR (2 ^ 43)) with (2 ^ 43) by (rewrite pow_IZR; reflexivity). reflexivity.
  - apply Rmult_le_compat_r; [left; apply bpow_pos|]. apply IZR_le. lia.
Qed.
Lemma wide_small u mu om uc K nloop G top : wide u om -> 0 <= uc <= 1 -> 0 <= mu <= 1 -> 0 <= IZR top <= 2 ^ 40 ->
  (1 <= nloop)%nat -> (1 <= K)%nat -> (1 <= G)%Z -> 4 * INR nloop * IZR G * INR K * u <= 1 ->
  (G < 2 ^ 63)%Z /\ (1 + u) ^ K * (4 * (growth u K G ^ nloop * (IZR G * start_size uc mu top) * IZR G)) <= om /\
  growth u K G ^ nloop - 1 <= 4 * INR nloop * IZR G * INR K * u.
Proof.
  intros (Hu & H63 & Ho) Huc Hmu Ht Hn HK HG H.
  destruct (C61_growth_proof u K nloop G ltac:(lra) Hn HG H) as (P2 & Q). assert (N1 : 1 <= INR nloop) by (apply (le_INR 1), Hn).
  assert (K1 : 1 <= INR K) by (apply (le_INR 1), HK). assert (G1 : 1 <= IZR G) by (apply IZR_le, HG).
  assert (Gu : 4 * IZR G * u <= 1).
  { eapply Rle_trans; [|exact H]. replace (4 * IZR G * u) with (4 * 1 * IZR G * 1 * u) by ring. repeat apply Rmult_le_compat; nra. }
  assert (P1 : 1 <= (1 + u) ^ K) by (apply pow_R1_Rle; lra).
  assert (Q1 : 1 <= growth u K G ^ nloop) by (apply pow_R1_Rle; unfold growth; nra).
  assert (S0 : 0 <= start_size uc mu top <= 2 ^ 43).
  { unfold start_size. assert (0 <= uc * (IZR top + 1) <= 2 ^ 40 + 1) by (split; nra). cbn [pow] in *. lra. }
  split.
  { apply lt_IZR. replace (IZR (2 ^ 63)) with (2 ^ 63) by (rewrite pow_IZR; reflexivity). cbn [pow] in *. nra. }
  split; [|exact Q]. eapply Rle_trans; [|exact Ho].
  assert (Gi : IZR G <= / (4 * u)).
  { apply Rmult_le_reg_r with (4 * u); [lra|]. rewrite Rinv_l by lra. lra. }
  set (S := start_size uc mu top) in *. set (p := (1 + u) ^ K) in *. set (q := growth u K G ^ nloop) in *. set (g := IZR G) in *. set (i := / (4 * u)) in *.
  assert (q <= 2) by lra. assert (g * g <= i * i) by nra. clearbody S p q g i.
  replace (p * (4 * (q * (g * S) * g))) with (4 * (p * q) * (g * g) * S) by ring.
  assert (0 <= p * q <= 4) by nra. assert (0 <= g * g) by nra.
  apply Rmult_le_compat; [| |apply Rmult_le_compat|]; nra.
Qed.

Section Test3.
Context {F : Type}.
Variables (u mu om : R) (O : sops F) (val : F -> R) (fin : F -> Prop) (t s : nat) (cexp : bool -> Z -> Z -> F * F) (rnorm : Z -> F).
Variables (uc : R) (cv : spec_float -> F) (dist : F -> spec_float -> spec_float).
(** one run of test3d in mode 0 or 1 with -v: [e] is printed *)
Definition prints3 (rd : Q -> Q) (ar : areas) (n : nat) (st : settings) (mode : Z) (N pin pout : Z * Z * Z) (k : init) (sd : nat -> Z)
    (nloop : nat) (M0 : fft3 -> nat -> @rmem F) (e : spec_float) : Prop :=
  exists gi go ins outs f P M', proc_setup3 rd (Z.of_nat n) mode N pin pout = Some (gi, go) /\
    (forall r, (r < n)%nat -> tbox3 rd N gi (Z.of_nat r) = Some (ins r) /\ tbox3 rd N go (Z.of_nat r) = Some (outs r)) /\
    setup3d ar n st N (permute3 mode) ins outs = SOk f /\ setup_ffts3 cexp N = Some P /\
    exec_to n (test3 O rnorm f P false nloop (fun r => initialize3 dint drand cv k (sd r) N (ins r))) (M0 f) M' /\
    allmax dgt dzero n (fun r => validate3 dint drand dist dgt dzero k (sd r) N (ins r) (getb BWORK (M' r))) = Some e.
(** the printed error of a run with equal processor grids *)
Definition prints_small3 : Prop := forall rd ar (n : nat) st N g k sd nloop (M0 : fft3 -> nat -> @rmem F),
  rd_laws rd -> area_laws ar -> (1 <= n)%nat -> ints3d N -> small3 (Z.of_nat n) N -> dims_ok3 N -> flag_ok (st_pack st) ->
  given3 (Z.of_nat n) g -> (forall r, (r < n)%nat -> seed_ok k (sd r)) -> (forall f, arrays_ok f BWORK (M0 f)) ->
  (1 <= nloop)%nat -> 4 * INR nloop * IZR (grid_points N) * INR (trip3 t s N) * u <= 1 ->
  exists e, prints3 rd ar n st 0 N g g k sd nloop M0 e /\ SFfin 53 1024 e /\
    0 <= SFval e <= (1 + SFu 53) * error_bound u uc mu (trip3 t s N) nloop (grid_points N) (top3 k N).
(** the run itself, for any layouts in which the input fits into the output *)
Definition near_run3 : Prop := forall ar n sts N permute ins outs f,
  ready3 ar n sts N permute ins outs f -> (grid_points N < 2 ^ 63)%Z ->
  (forall r, (r < n)%nat -> (psize3 (ins r) <= psize3 (outs r))%Z) ->
  forall k sd, (forall r, (r < n)%nat -> legal3 (ins r) /\ seed_ok k (sd r)) ->
  forall (M0 : nat -> @rmem F) nloop, room3 f BACKWARD BWORK M0 ->
  (1 + u) ^ trip3 t s N * (4 * (growth u (trip3 t s N) (grid_points N) ^ nloop * (IZR (grid_points N) * start_size uc mu (top3 k N)) * IZR (grid_points N))) <= om ->
  exists P M' e E, setup_ffts3 cexp N = Some P /\
    exec_to n (test3 O rnorm f P false nloop (fun r => initialize3 dint drand cv k (sd r) N (ins r))) M0 M' /\
    (forall r, (r < n)%nat -> framed M0 BWORK (fun r => (2 * f_fftsize f r)%Z) r (M' r)) /\
    (forall r p c, (r < n)%nat -> inb3 p (ins r) -> (0 <= c < 2)%Z -> exists a, zget (getb BWORK (M' r)) (cell3 2 0 (ins r) p c) = Some a /\ fin a) /\
    allmax dgt dzero n (fun r => validate3 dint drand dist dgt dzero k (sd r) N (ins r) (getb BWORK (M' r))) = Some e /\ SFfin 53 1024 e /\
    worst (fun d => exists r p c a, (r < n)%nat /\ inb3 p (ins r) /\ (0 <= c < 2)%Z /\ zget (getb BWORK (M' r)) (cell3 2 0 (ins r) p c) = Some a /\
             d = Rabs (val a - SFval (want3 dint drand k (sd r) N (ins r) p c))) E /\
    E <= (growth u (trip3 t s N) (grid_points N) ^ nloop - 1) * start_size uc mu (top3 k N) + uc * (IZR (top3 k N) + 1) /\
    Rabs (SFval e - E) <= SFu 53 * E.
(** validate() on any contents of the work array: [E] is the greatest deviation, [e] what is printed *)
Definition true_report3 : Prop := forall k sd N n (ins : nat -> box3) (w : nat -> list F), ints3 N ->
  (forall r, (r < n)%nat -> legal3 (ins r) /\ (forall p, inb3 p (ins r) -> inb3 p (grid3 N)) /\ seed_ok k (sd r)) ->
  (forall r p q, (r < n)%nat -> inb3 p (ins r) -> (0 <= q < 2)%Z -> exists a, zget (w r) (cell3 2 0 (ins r) p q) = Some a /\ fin a /\
     Rabs (val a - SFval (want3 dint drand k (sd r) N (ins r) p q)) <= SFom 53 1024) ->
  exists e E, allmax dgt dzero n (fun r => validate3 dint drand dist dgt dzero k (sd r) N (ins r) (w r)) = Some e /\ SFfin 53 1024 e /\
    worst (fun d => exists r p q a, (r < n)%nat /\ inb3 p (ins r) /\ (0 <= q < 2)%Z /\ zget (w r) (cell3 2 0 (ins r) p q) = Some a /\
             d = Rabs (val a - SFval (want3 dint drand k (sd r) N (ins r) p q))) E /\
    Rabs (SFval e - E) <= SFu 53 * E.

Hypothesis RO : rounding u mu om O val fin.
Hypothesis HT : forall inv L, (L < 2 ^ 31)%Z -> table_ok u val fin t cexp inv L.
Hypothesis HN : forall k, (1 <= k < 2 ^ 63)%Z -> norm_ok u val fin s rnorm k.
Hypothesis Huc : 0 <= uc <= 1.
Hypothesis CV : conv_ok fin val uc cv.
Hypothesis HD : dist_ok fin val dist.
Hypothesis Hom : om <= SFom 53 1024.
Hypothesis Hw : wide u om.
Hypothesis Hmu : 0 <= mu <= 1.

Lemma true_report3_proof : true_report3.
Proof. intros k sd N n ins w. exact (validateD3_all fin val dist HD (s0 O) k sd N n ins w). Qed.
Lemma near_run3_proof : near_run3.
Proof.
  intros ar n sts N permute ins outs f Hr Hg Hsz k sd Hs M0 nloop Ha Ho.
  apply (run_near3 u mu om O val fin t s cexp rnorm uc cv dist RO HT HN (proj1 Huc) CV HD Hom ar n sts N permute ins outs f Hr Hg Hsz k sd Hs M0 nloop Ha Ho).
Qed.
Lemma prints_small3_proof : prints_small3.
Proof.
  intros rd ar n st N g k sd nloop M0 L La Hn HNN Hs Hd Hpk Hg Hseed HM Hnl Hb. destruct (ints3d_pos N HNN) as (Hp & HI).
  destruct (C55_3d_proof rd ar n st 0 N g g L La Hn HNN Hs ltac:(lia) Hg Hg) as (gi & go & E1 & Fi & Fo & _ & _ & _ & _ & _ & B & Ti & To & Ok).
  assert (Eg : go = gi).
  { revert E1. unfold proc_setup3. cbn [Z.eqb orb]. destruct Hg as [-> | Hg].
    - cbn [unset3 Z.eqb andb]. destruct (proc3d rd (Z.of_nat n) N) as [a|]; cbn [bind]; [|discriminate]. intros X. injection X. congruence.
    - rewrite (unset3_factors _ _ Hg). cbn [bind]. intros X. injection X. congruence. }
  subst go. destruct (proj2 Ok Hd) as (f & Ef).
  assert (Hr : ready3 ar n st N (permute3 0) (tiles3 N gi) (tiles3 N gi) f).
  { split; [exact La|]. split; [exact Hn|]. split; [exact HI|]. split; [exact Hpk|]. split; [exact Ti|]. split; [exact To|].
    split; [intros r Hr; apply (tiles3_legal (Z.of_nat n)); assumption|exact Ef]. }
  assert (Hsame : f_same f = true) by (apply (F_same _ _ _ _ _ _ _ (ready_facts _ _ _ _ _ _ _ _ Hr)); split; reflexivity).
  assert (HT0 : 0 <= IZR (top3 k N) <= 2 ^ 40) by (apply top3_range; [exact HI|..]; apply (dims_pos3 _ _ _ _ _ _ _ _ Hr)).
  assert (HK : (1 <= trip3 t s N)%nat) by (unfold trip3, scale_cost; lia).
  assert (HG : (1 <= grid_points N)%Z) by apply (dims_pos3 _ _ _ _ _ _ _ _ Hr).
  destruct (wide_small u mu om uc (trip3 t s N) nloop (grid_points N) (top3 k N) Hw Huc Hmu HT0 Hnl HK HG Hb) as (G63 & Ho & Hq).
  destruct (near_run3_proof ar n st N _ _ _ f Hr G63) with (k := k) (sd := sd) (M0 := M0 f) (nloop := nloop) as (P & M' & e & E & EP & EX & _ & _ & EE & Fe & We & Be & Re).
  - intros r Hrn. lia.
  - intros r Hrn. split; [apply (tiles3_legal (Z.of_nat n)); assumption|auto].
  - split; [apply HM|]. unfold fwdpath. rewrite Hsame, orb_true_r. discriminate.
  - exact Ho.
  - exists e. split; [|split; [exact Fe|]].
    + exists gi, gi, (tiles3 N gi), (tiles3 N gi), f, P, M'. split; [exact E1|]. split; [exact B|]. split; [exact Ef|]. split; [exact EP|]. split; assumption.
    + pose proof (proj1 We) as E0. apply Rabs_le_inv' in Re. pose proof u53_small as U.
      assert (S0 : 0 <= start_size uc mu (top3 k N)).
      { unfold start_size. assert (0 <= uc * (IZR (top3 k N) + 1)) by nra. lra. }
      assert (Eb : E <= error_bound u uc mu (trip3 t s N) nloop (grid_points N) (top3 k N)).
      { eapply Rle_trans; [exact Be|]. unfold error_bound. apply Rplus_le_compat_r, Rmult_le_compat_r; assumption. }
      split; [nra|]. apply Rle_trans with ((1 + SFu 53) * E); [lra|]. apply Rmult_le_compat_l; lra.
Qed.
End Test3.

Section Test2.
Context {F : Type}.
Variables (u mu om : R) (O : sops F) (val : F -> R) (fin : F -> Prop) (t s : nat) (cexp : bool -> Z -> Z -> F * F) (rnorm : Z -> F).
Variables (uc : R) (cv : spec_float -> F) (dist : F -> spec_float -> spec_float).
(** one run of test2d in mode 0 or 1 with -v: [e] is printed *)
Definition prints2 (rd : Q -> Q) (esize : Z) (ar : areas) (n : nat) (st : settings) (mode : Z) (N pin pout : Z * Z) (k : init) (sd : nat -> Z)
    (nloop : nat) (M0 : fft2 -> nat -> @rmem F) (e : spec_float) : Prop :=
  exists gi go ins outs f P M', proc_setup2 rd (Z.of_nat n) N pin pout = Some (gi, go) /\
    (forall r, (r < n)%nat -> tbox2 rd N gi (Z.of_nat r) = Some (ins r) /\ tbox2 rd N go (Z.of_nat r) = Some (outs r)) /\
    setup2d ar n st N (permute2 mode) ins outs = SOk f /\ setup_ffts2 cexp N = Some P /\
    exec_to n (test2 O rnorm esize f P false nloop (fun r => initialize2 dint drand cv k (sd r) N (ins r))) (M0 f) M' /\
    allmax dgt dzero n (fun r => validate2 dint drand dist dgt dzero k (sd r) N (ins r) (getb BWORK (M' r))) = Some e.
(** the printed error of a run with equal processor grids *)
Definition prints_small2 : Prop := forall rd esize ar (n : nat) st N g k sd nloop (M0 : fft2 -> nat -> @rmem F),
  rd_laws rd -> area_laws ar -> (1 <= n)%nat -> ints2d N -> small2 (Z.of_nat n) N -> dims_ok2 N -> flag_ok (st_pack st) -> (esize = 8 \/ st_pack st <> 2)%Z ->
  factors2 (Z.of_nat n) g -> (forall r, (r < n)%nat -> seed_ok k (sd r)) -> (forall f, arrays_ok2 f BWORK (M0 f)) ->
  (1 <= nloop)%nat -> 4 * INR nloop * IZR (grid_points2 N) * INR (trip2 t s N) * u <= 1 ->
  exists e, prints2 rd esize ar n st 0 N g g k sd nloop M0 e /\ SFfin 53 1024 e /\
    0 <= SFval e <= (1 + SFu 53) * error_bound u uc mu (trip2 t s N) nloop (grid_points2 N) (top2 k N).
(** the run itself, for any layouts in which the input fits into the output *)
Definition near_run2 : Prop := forall esize ar n sts N permute ins outs f,
  ready2 esize ar n sts N permute ins outs f -> (grid_points2 N < 2 ^ 63)%Z ->
  (forall r, (r < n)%nat -> (psize2 (ins r) <= psize2 (outs r))%Z) ->
  forall k sd, (forall r, (r < n)%nat -> legal2 (ins r) /\ seed_ok k (sd r)) ->
  forall (M0 : nat -> @rmem F) nloop, arrays_ok2 f BWORK M0 ->
  (1 + u) ^ trip2 t s N * (4 * (growth u (trip2 t s N) (grid_points2 N) ^ nloop * (IZR (grid_points2 N) * start_size uc mu (top2 k N)) * IZR (grid_points2 N))) <= om ->
  exists P M' e E, setup_ffts2 cexp N = Some P /\
    exec_to n (test2 O rnorm esize f P false nloop (fun r => initialize2 dint drand cv k (sd r) N (ins r))) M0 M' /\
    (forall r, (r < n)%nat -> framed M0 BWORK (fun r => (2 * t_fftsize f r)%Z) r (M' r)) /\
    (forall r p c, (r < n)%nat -> inb2 p (ins r) -> (0 <= c < 2)%Z -> exists a, zget (getb BWORK (M' r)) (cell2 2 0 (ins r) p c) = Some a /\ fin a) /\
    allmax dgt dzero n (fun r => validate2 dint drand dist dgt dzero k (sd r) N (ins r) (getb BWORK (M' r))) = Some e /\ SFfin 53 1024 e /\
    worst (fun d => exists r p c a, (r < n)%nat /\ inb2 p (ins r) /\ (0 <= c < 2)%Z /\ zget (getb BWORK (M' r)) (cell2 2 0 (ins r) p c) = Some a /\
             d = Rabs (val a - SFval (want2 dint drand k (sd r) N (ins r) p c))) E /\
    E <= (growth u (trip2 t s N) (grid_points2 N) ^ nloop - 1) * start_size uc mu (top2 k N) + uc * (IZR (top2 k N) + 1) /\
    Rabs (SFval e - E) <= SFu 53 * E.
(** validate() on any contents of the work array: [E] is the greatest deviation, [e] what is printed *)
Definition true_report2 : Prop := forall k sd N n (ins : nat -> box2) (w : nat -> list F), ints2 N ->
  (forall r, (r < n)%nat -> legal2 (ins r) /\ (forall p, inb2 p (ins r) -> inb2 p (grid2 N)) /\ seed_ok k (sd r)) ->
  (forall r p q, (r < n)%nat -> inb2 p (ins r) -> (0 <= q < 2)%Z -> exists a, zget (w r) (cell2 2 0 (ins r) p q) = Some a /\ fin a /\
     Rabs (val a - SFval (want2 dint drand k (sd r) N (ins r) p q)) <= SFom 53 1024) ->
  exists e E, allmax dgt dzero n (fun r => validate2 dint drand dist dgt dzero k (sd r) N (ins r) (w r)) = Some e /\ SFfin 53 1024 e /\
    worst (fun d => exists r p q a, (r < n)%nat /\ inb2 p (ins r) /\ (0 <= q < 2)%Z /\ zget (w r) (cell2 2 0 (ins r) p q) = Some a /\
             d = Rabs (val a - SFval (want2 dint drand k (sd r) N (ins r) p q))) E /\
    Rabs (SFval e - E) <= SFu 53 * E.

Hypothesis RO : rounding u mu om O val fin.
Hypothesis HT : forall inv L, (L < 2 ^ 31)%Z -> table_ok u val fin t cexp inv L.
Hypothesis HN : forall k, (1 <= k < 2 ^ 63)%Z -> norm_ok u val fin s rnorm k.
Hypothesis Huc : 0 <= uc <= 1.
Hypothesis CV : conv_ok fin val uc cv.
Hypothesis HD : dist_ok fin val dist.
Hypothesis Hom : om <= SFom 53 1024.
Hypothesis Hw : wide u om.
Hypothesis Hmu : 0 <= mu <= 1.

Lemma true_report2_proof : true_report2.
Proof. intros k sd N n ins w. exact (validateD2_all fin val dist HD (s0 O) k sd N n ins w). Qed.
Lemma near_run2_proof : near_run2.
Proof.
  intros esize ar n sts N permute ins outs f Hr Hg Hsz k sd Hs M0 nloop Ha Ho.
  apply (run_near2 u mu om O val fin t s cexp rnorm uc cv dist RO HT HN (proj1 Huc) CV HD Hom esize ar n sts N permute ins outs f Hr Hg Hsz k sd Hs M0 nloop Ha Ho).
Qed.
Lemma prints_small2_proof : prints_small2.
Proof.
  intros rd esize ar n st N g k sd nloop M0 L La Hn HNN Hs Hd Hpk Hes Hg Hseed HM Hnl Hb. destruct (ints2d_pos N HNN) as (Hp & HI).
  destruct (C55_2d_proof rd ar n st 0 N g g L La Hn HNN Hs (or_intror Hg) (or_intror Hg)) as (gi & go & E1 & Fi & Fo & Ei & _ & Eo & _ & B & Ti & To & Ok & _).
  assert (Hne : g <> (0, 0)%Z) by (intros ->; destruct Hg; lia). specialize (Ei Hne). specialize (Eo Hne). subst gi go.
  destruct (proj2 (Ok (or_introl eq_refl)) Hd) as (f & Ef).
  assert (Hr : ready2 esize ar n st N (permute2 0) (tiles2 N g) (tiles2 N g) f).
  { split; [exact La|]. split; [exact Hn|]. split; [exact HI|]. split; [exact Hpk|]. split; [exact Hes|]. split; [exact Ti|]. split; [exact To|].
    split; [intros r Hr; apply (tiles2_legal (Z.of_nat n)); assumption|exact Ef]. }
  assert (HT0 : 0 <= IZR (top2 k N) <= 2 ^ 40) by (apply top2_range; [exact HI|..]; apply (dims_pos2 _ _ _ _ _ _ _ _ _ Hr)).
  assert (HK : (1 <= trip2 t s N)%nat) by (unfold trip2, scale_cost; lia).
  assert (HG : (1 <= grid_points2 N)%Z) by apply (dims_pos2 _ _ _ _ _ _ _ _ _ Hr).
  destruct (wide_small u mu om uc (trip2 t s N) nloop (grid_points2 N) (top2 k N) Hw Huc Hmu HT0 Hnl HK HG Hb) as (G63 & Ho & Hq).
  destruct (near_run2_proof esize ar n st N _ _ _ f Hr G63) with (k := k) (sd := sd) (M0 := M0 f) (nloop := nloop) as (P & M' & e & E & EP & EX & _ & _ & EE & Fe & We & Be & Re).
  - intros r Hrn. lia.
  - intros r Hrn. split; [apply (tiles2_legal (Z.of_nat n)); assumption|auto].
  - apply HM.
  - exact Ho.
  - exists e. split; [|split; [exact Fe|]].
    + exists g, g, (tiles2 N g), (tiles2 N g), f, P, M'. split; [exact E1|]. split; [exact B|]. split; [exact Ef|]. split; [exact EP|]. split; assumption.
    + pose proof (proj1 We) as E0. apply Rabs_le_inv' in Re. pose proof u53_small as U.
      assert (S0 : 0 <= start_size uc mu (top2 k N)).
      { unfold start_size. assert (0 <= uc * (IZR (top2 k N) + 1)) by nra. lra. }
      assert (Eb : E <= error_bound u uc mu (trip2 t s N) nloop (grid_points2 N) (top2 k N)).
      { eapply Rle_trans; [exact Be|]. unfold error_bound. apply Rplus_le_compat_r, Rmult_le_compat_r; assumption. }
      split; [nra|]. apply Rle_trans with ((1 + SFu 53) * E); [lra|]. apply Rmult_le_compat_l; lra.
Qed.
End Test2.

(** ** the two builds *)
Lemma omF_D : SFom 24 128 <= SFom 53 1024.
Proof.
  unfold SFom. fold (bpow (128 - 24)) (bpow (1024 - 53)). apply Rmult_le_compat; [apply IZR_le; lia|left; apply bpow_pos|apply IZR_le; lia|apply bpow_mono; lia].
Qed.
Lemma muD_1 : 0 <= SFmu 1024 <= 1.
Proof. destruct smallD as (_ & H & _). lra. Qed.
Lemma muF_1 : 0 <= SFmu 128 <= 1.
Proof. destruct smallF as (_ & H & _). lra. Qed.
Lemma u24_1 : 0 <= SFu 24 <= 1.
Proof. rewrite uF_val. lra. Qed.
Lemma zero_1 : 0 <= 0 <= 1.
Proof. lra. Qed.

Section Double.
Variables (c : R) (cosd sind : spec_float -> spec_float) (t : nat).
Hypothesis Hc : 0 <= c.
Hypothesis Ht : 15 + 2 * c <= INR t.
Hypothesis Hl : libm_ok c cosd sind.
Definition tabD inv L (H : (L < 2 ^ 31)%Z) : table_ok (SFu 53) SFval (SFfin 53 1024) t (twiddleD cosd sind) inv L :=
  proj1 (proj2 C53_double_proof) c cosd sind t inv L Hc Ht Hl H.
Lemma C61_run_double_3d_proof : near_run3 (SFu 53) (SFmu 1024) (SFom 53 1024) (SFops 53 1024) SFval (SFfin 53 1024) t 3 (twiddleD cosd sind) normD 0 toD distD.
Proof. exact (near_run3_proof _ _ _ _ _ _ t 3 _ _ 0 toD distD roundD tabD (proj2 (proj2 C53_double_proof)) zero_1 conv_D dist_D (Rle_refl _)). Qed.
Lemma C61_run_double_2d_proof : near_run2 (SFu 53) (SFmu 1024) (SFom 53 1024) (SFops 53 1024) SFval (SFfin 53 1024) t 3 (twiddleD cosd sind) normD 0 toD distD.
Proof. exact (near_run2_proof _ _ _ _ _ _ t 3 _ _ 0 toD distD roundD tabD (proj2 (proj2 C53_double_proof)) zero_1 conv_D dist_D (Rle_refl _)). Qed.
Lemma C61_test3d_double_proof : prints_small3 (SFu 53) (SFmu 1024) (SFops 53 1024) t 3 (twiddleD cosd sind) normD 0 toD distD.
Proof. exact (prints_small3_proof _ _ _ _ _ _ t 3 _ _ 0 toD distD roundD tabD (proj2 (proj2 C53_double_proof)) zero_1 conv_D dist_D (Rle_refl _) wide_D muD_1). Qed.
Lemma C61_test2d_double_proof : prints_small2 (SFu 53) (SFmu 1024) (SFops 53 1024) t 3 (twiddleD cosd sind) normD 0 toD distD.
Proof. exact (prints_small2_proof _ _ _ _ _ _ t 3 _ _ 0 toD distD roundD tabD (proj2 (proj2 C53_double_proof)) zero_1 conv_D dist_D (Rle_refl _) wide_D muD_1). Qed.
End Double.
Section Single.
Variables (c : R) (cosd sind : spec_float -> spec_float).
Hypothesis Hc : 0 <= c <= 1000000.
Hypothesis Hl : libm_ok c cosd sind.
Definition tabF inv L (H : (L < 2 ^ 31)%Z) : table_ok (SFu 24) SFval (SFfin 24 128) 2 (twiddleF cosd sind) inv L :=
  proj1 (proj2 C53_float_proof) c cosd sind inv L Hc Hl H.
Lemma C61_run_single_3d_proof : near_run3 (SFu 24) (SFmu 128) (SFom 24 128) (SFops 24 128) SFval (SFfin 24 128) 2 2 (twiddleF cosd sind) normF (SFu 24) toF distF.
Proof. exact (near_run3_proof _ _ _ _ _ _ 2 2 _ _ _ toF distF roundF tabF (proj2 (proj2 C53_float_proof)) u24_1 conv_F dist_F omF_D). Qed.
Lemma C61_run_single_2d_proof : near_run2 (SFu 24) (SFmu 128) (SFom 24 128) (SFops 24 128) SFval (SFfin 24 128) 2 2 (twiddleF cosd sind) normF (SFu 24) toF distF.
Proof. exact (near_run2_proof _ _ _ _ _ _ 2 2 _ _ _ toF distF roundF tabF (proj2 (proj2 C53_float_proof)) u24_1 conv_F dist_F omF_D). Qed.
Lemma C61_test3d_single_proof : prints_small3 (SFu 24) (SFmu 128) (SFops 24 128) 2 2 (twiddleF cosd sind) normF (SFu 24) toF distF.
Proof. exact (prints_small3_proof _ _ _ _ _ _ 2 2 _ _ _ toF distF roundF tabF (proj2 (proj2 C53_float_proof)) u24_1 conv_F dist_F omF_D wide_F muF_1). Qed.
Lemma C61_test2d_single_proof : prints_small2 (SFu 24) (SFmu 128) (SFops 24 128) 2 2 (twiddleF cosd sind) normF (SFu 24) toF distF.
Proof. exact (prints_small2_proof _ _ _ _ _ _ 2 2 _ _ _ toF distF roundF tabF (proj2 (proj2 C53_float_proof)) u24_1 conv_F dist_F omF_D wide_F muF_1). Qed.
End Single.
Lemma C61_validate_double_proof : true_report3 SFval (SFfin 53 1024) distD /\ true_report2 SFval (SFfin 53 1024) distD.
Proof. split; [exact (true_report3_proof (SFops 53 1024) _ _ _ dist_D)|exact (true_report2_proof (SFops 53 1024) _ _ _ dist_D)]. Qed.
Lemma C61_validate_single_proof : true_report3 SFval (SFfin 24 128) distF /\ true_report2 SFval (SFfin 24 128) distF.
Proof. split; [exact (true_report3_proof (SFops 24 128) _ _ _ dist_F)|exact (true_report2_proof (SFops 24 128) _ _ _ dist_F)]. Qed.

(** ** examples *)
Definition zeroes (s a b : Z) : @rmem spec_float :=
  mkmem (List.repeat dzero (Z.to_nat (2 * s))) nil (List.repeat dzero (Z.to_nat a)) (List.repeat dzero (Z.to_nat b)).
Definition zeroes3 (f : fft3) (r : nat) : @rmem spec_float := zeroes (f_fftsize f r) (f_sendsize f r) (f_recvsize f r).
Definition zeroes2 (f : fft2) (r : nat) : @rmem spec_float := zeroes (t_fftsize f r) (t_sendsize f r) (t_recvsize f r).
Lemma zlen_zeroes a : (a <= zlen (List.repeat dzero (Z.to_nat a)))%Z.
Proof. unfold zlen. rewrite repeat_length. lia. Qed.
Lemma zeroes3_ok f : arrays_ok f BWORK (zeroes3 f).
Proof. intros r _. split; [|split]; apply zlen_zeroes. Qed.
Lemma zeroes2_ok f : arrays_ok2 f BWORK (zeroes2 f).
Proof. intros r _. split; [|split]; apply zlen_zeroes. Qed.

(** 12 ranks, 10 round trips, 8x6x5 random numbers: a good libm prints less than 10^-9 in double precision;
    single precision, 1 round trip: less than 1/90 *)
Lemma C61_example_proof : exists e1 e2 : spec_float,
  prints3 (SFops 53 1024) (twiddleD cos53 sin53) normD toD distD fl double_areas 12 (mkset 2 0 2) 0 (8, 6, 5)%Z (0, 0, 0)%Z (0, 0, 0)%Z RANDOM (fun r => 82783 + Z.of_nat r)%Z 10 zeroes3 e1 /\
  SFfin 53 1024 e1 /\ 0 <= SFval e1 <= 1 / 1000000000 /\
  prints3 (SFops 24 128) (twiddleF cos53 sin53) normF toF distF fl double_areas 12 (mkset 2 0 2) 0 (8, 6, 5)%Z (0, 0, 0)%Z (0, 0, 0)%Z RANDOM (fun r => 82783 + Z.of_nat r)%Z 1 zeroes3 e2 /\
  SFfin 53 1024 e2 /\ 0 <= SFval e2 <= 1 / 90.
Proof.
  destruct C56_example_proof as (A1 & A2 & A3 & A4 & A5 & A6 & A7 & _).
  assert (T1 : trip3 21 3 (8, 6, 5)%Z = 511%nat) by (vm_compute; reflexivity).
  assert (T2 : trip3 2 2 (8, 6, 5)%Z = 130%nat) by (vm_compute; reflexivity).
  assert (I1 : INR 511 = 511) by (rewrite INR_IZR_INZ; reflexivity). assert (I2 : INR 130 = 130) by (rewrite INR_IZR_INZ; reflexivity).
  assert (J1 : INR 10 = 10) by (rewrite INR_IZR_INZ; reflexivity). assert (J2 : INR 1 = 1) by reflexivity.
  assert (G : IZR (grid_points (8, 6, 5)%Z) = 240) by reflexivity.
  assert (H03 : 0 <= 3) by lra. assert (H03' : 0 <= 3 <= 1000000) by lra.
  assert (B1 : 15 + 2 * 3 <= INR 21) by (rewrite INR_IZR_INZ; change (Z.of_nat 21) with 21%Z; lra).
  destruct (C61_test3d_double_proof 3 cos53 sin53 21 H03 B1 libm53 fl double_areas 12%nat (mkset 2 0 2) (8, 6, 5)%Z (0, 0, 0)%Z RANDOM (fun r => 82783 + Z.of_nat r)%Z 10%nat zeroes3)
    as (e1 & P1 & F1 & L1 & U1); auto using fl_laws, double_laws, zeroes3_ok; [lia|rewrite T1, I1, J1, G, u_val; lra|].
  destruct (C61_test3d_single_proof 3 cos53 sin53 H03' libm53 fl double_areas 12%nat (mkset 2 0 2) (8, 6, 5)%Z (0, 0, 0)%Z RANDOM (fun r => 82783 + Z.of_nat r)%Z 1%nat zeroes3)
    as (e2 & P2 & F2 & L2 & U2); auto using fl_laws, double_laws, zeroes3_ok; [rewrite T2, I2, J2, G, uF_val; lra|].
  exists e1, e2. split; [exact P1|]. split; [exact F1|]. split; [split; [exact L1|]|]; [|split; [exact P2|]; split; [exact F2|]; split; [exact L2|]].
  - eapply Rle_trans; [exact U1|]. rewrite T1. unfold error_bound, start_size. rewrite I1, J1, G. cbn [top3]. destruct smallD as (_ & M & _). rewrite u_val. lra.
  - eapply Rle_trans; [exact U2|]. rewrite T2. unfold error_bound, start_size. rewrite I2, J2, G. cbn [top3]. destruct smallF as (_ & M & _). rewrite u_val, uF_val. lra.
Qed.

Lemma C61_run_example_proof : exists f (M0 : nat -> @rmem spec_float), ready3 exact_areas 2 (mkset 1 0 1) g2 1 split3 isplit3 f /\ (grid_points g2 < 2 ^ 63)%Z /\
  (forall r, (r < 2)%nat -> (psize3 (split3 r) <= psize3 (isplit3 r))%Z) /\ (forall r, (r < 2)%nat -> legal3 (split3 r) /\ seed_ok INDEX 0) /\ room3 f BACKWARD BWORK M0 /\
  (1 + SFu 53) ^ trip3 21 3 g2 * (4 * (growth (SFu 53) (trip3 21 3 g2) (grid_points g2) ^ 7 * (IZR (grid_points g2) * start_size 0 (SFmu 1024) (top3 INDEX g2)) * IZR (grid_points g2))) <= SFom 53 1024.
Proof.
  destruct smallD as (U & M & W).
  destruct (small_start3 53 1024 ltac:(lia) ltac:(lia) U M W FORWARD) as (f & M0 & Hr & Hg & _ & _ & Ha & Hs & _).
  exists f, M0. split; [exact Hr|]. split; [exact Hg|]. split; [exact Hs|]. split.
  { intros r Hrn. split; [apply (proj2 tile_split r Hrn)|discriminate]. }
  split; [exact Ha|].
  assert (T : trip3 21 3 g2 = 155%nat) by (vm_compute; reflexivity). rewrite T.
  apply (wide_small (SFu 53) (SFmu 1024) (SFom 53 1024) 0 155 7 (grid_points g2) (top3 INDEX g2) wide_D zero_1 muD_1); try lia.
  - cbn [top3 g2]. cbn [pow]. split; [apply IZR_le; lia|]. change (2 + 2 + 2 - 2)%Z with 4%Z. lra.
  - change (grid_points g2) with 8%Z. lia.
  - change (grid_points g2) with 8%Z. rewrite !INR_IZR_INZ. change (Z.of_nat 7) with 7%Z. change (Z.of_nat 155) with 155%Z. rewrite u_val. lra.
Qed.
Lemma C61_example2_proof : exists e : spec_float,
  prints2 (SFops 53 1024) (twiddleD cos53 sin53) normD toD distD fl 8 double_areas 12 (mkset 2 0 2) 0 (8, 6)%Z (4, 3)%Z (4, 3)%Z RANDOM (fun r => 82783 + Z.of_nat r)%Z 10 zeroes2 e /\
  SFfin 53 1024 e /\ 0 <= SFval e <= 1 / 1000000000.
Proof.
  destruct C56_example_proof as (A1 & _ & _ & _ & A5 & _ & A7 & _ & A8 & _).
  assert (T1 : trip2 21 3 (8, 6)%Z = 307%nat) by (vm_compute; reflexivity).
  assert (I1 : INR 307 = 307) by (rewrite INR_IZR_INZ; reflexivity). assert (J1 : INR 10 = 10) by (rewrite INR_IZR_INZ; reflexivity).
  assert (G : IZR (grid_points2 (8, 6)%Z) = 48) by reflexivity. assert (H03 : 0 <= 3) by lra.
  assert (B1 : 15 + 2 * 3 <= INR 21) by (rewrite INR_IZR_INZ; change (Z.of_nat 21) with 21%Z; lra).
  assert (HI : ints2d (8, 6)%Z) by (unfold ints2d; lia). assert (Hsm : small2 (Z.of_nat 12) (8, 6)%Z) by (unfold small2; lia).
  assert (Hd : dims_ok2 (8, 6)%Z) by (destruct dims_865 as (X & Y & _); split; assumption).
  destruct (C61_test2d_double_proof 3 cos53 sin53 21 H03 B1 libm53 fl 8%Z double_areas 12%nat (mkset 2 0 2) (8, 6)%Z (4, 3)%Z RANDOM (fun r => 82783 + Z.of_nat r)%Z 10%nat zeroes2)
    as (e1 & P1 & F1 & L1 & U1); auto using fl_laws, double_laws, zeroes2_ok; [lia|rewrite T1, I1, J1, G, u_val; lra|].
  exists e1. split; [exact P1|]. split; [exact F1|]. split; [exact L1|].
  eapply Rle_trans; [exact U1|]. rewrite T1. unfold error_bound, start_size. rewrite I1, J1, G. cbn [top2]. destruct smallD as (_ & M & _). rewrite u_val. lra.
Qed.
