(** PropertiesTest3.v : property C61 (the test programs in IEEE arithmetic), proofs by reference. *)

From Coq Require Import QArith Reals Psatz Lra Floats.SpecFloat.
From Verif Require Import Base Spec Pack3d Sched Exec ExRemap Layout Setup3d Setup3dProofs Setup2d Setup2dProofs LayoutFinal Fft3d Fft3dMain Fft3dTop Fft3dEx Fft2d Fft2dMain
  Double DoubleProofs TestProg TestLayProofs TestDataProofs TestRunProofs TestFinal TestTop
  Round RoundThms Binary RoundDouble RoundTable RoundFinal TestRound TestRoundRun TestRoundTop.
Local Open Scope R_scope.

(** ** C61 *)
(** validate() computes differences and their maximum in double arithmetic; it prints the greatest deviation up to one rounding *)
Theorem C61_validate_double : true_report3 SFval (SFfin 53 1024) distD /\ true_report2 SFval (SFfin 53 1024) distD.
Proof. exact C61_validate_double_proof. Qed.
Print Assumptions C61_validate_double.
Theorem C61_validate_single : true_report3 SFval (SFfin 24 128) distF /\ true_report2 SFval (SFfin 24 128) distF.
Proof. exact C61_validate_single_proof. Qed.
Print Assumptions C61_validate_single.
(** 2 points with the values 1 and 2; the array holds 1.25+0i and 2-0.5i *)
Definition vbox : nat -> box3 := fun _ => mkbox3 0 1 0 0 0 0.
Definition varr : list spec_float := [S754_finite false 5 (-2); S754_zero false; S754_finite false 1 1; S754_finite true 1 (-1)].
Example C61_validate_example : ints3 (2, 1, 1)%Z /\ legal3 (vbox 0%nat) /\ (forall p, inb3 p (vbox 0%nat) -> inb3 p (grid3 (2, 1, 1)%Z)) /\
  allmax dgt dzero 1 (fun r => validate3 dint drand distD dgt dzero INDEX 0 (2, 1, 1)%Z (vbox r) (map (fun v => SFconv 53 1024 v) varr)) = Some (S754_finite false 4503599627370496 (-53)).
Proof.
  split; [unfold ints3, INT_MAX; lia|]. split; [unfold legal3, ni, nj, nk; cbn; lia|]. split; [intros [[x y] z]; cbn; lia|]. vm_compute. reflexivity.
Qed.

(** [nloop] round trips of the loop of mode 0 and 1 and the validation, in every execution: the error is bounded by
    (growth^nloop - 1) times the size of the data; the growth per round trip is 1 + points * ((1+u)^roundings - 1) *)
Theorem C61_run_double_3d : forall c cosd sind t, 0 <= c -> 15 + 2 * c <= INR t -> libm_ok c cosd sind ->
  near_run3 (SFu 53) (SFmu 1024) (SFom 53 1024) (SFops 53 1024) SFval (SFfin 53 1024) t 3 (twiddleD cosd sind) normD 0 toD distD.
Proof. exact C61_run_double_3d_proof. Qed.
Print Assumptions C61_run_double_3d.
Theorem C61_run_double_2d : forall c cosd sind t, 0 <= c -> 15 + 2 * c <= INR t -> libm_ok c cosd sind ->
  near_run2 (SFu 53) (SFmu 1024) (SFom 53 1024) (SFops 53 1024) SFval (SFfin 53 1024) t 3 (twiddleD cosd sind) normD 0 toD distD.
Proof. exact C61_run_double_2d_proof. Qed.
Print Assumptions C61_run_double_2d.
Theorem C61_run_single_3d : forall c cosd sind, 0 <= c <= 1000000 -> libm_ok c cosd sind ->
  near_run3 (SFu 24) (SFmu 128) (SFom 24 128) (SFops 24 128) SFval (SFfin 24 128) 2 2 (twiddleF cosd sind) normF (SFu 24) toF distF.
Proof. exact C61_run_single_3d_proof. Qed.
Print Assumptions C61_run_single_3d.
Theorem C61_run_single_2d : forall c cosd sind, 0 <= c <= 1000000 -> libm_ok c cosd sind ->
  near_run2 (SFu 24) (SFmu 128) (SFom 24 128) (SFops 24 128) SFval (SFfin 24 128) 2 2 (twiddleF cosd sind) normF (SFu 24) toF distF.
Proof. exact C61_run_single_2d_proof. Qed.
Print Assumptions C61_run_single_2d.
Example C61_run_example : exists f (M0 : nat -> @rmem spec_float), ready3 exact_areas 2 (mkset 1 0 1) g2 1 split3 isplit3 f /\ (grid_points g2 < 2 ^ 63)%Z /\
  (forall r, (r < 2)%nat -> (psize3 (split3 r) <= psize3 (isplit3 r))%Z) /\ (forall r, (r < 2)%nat -> legal3 (split3 r) /\ seed_ok INDEX 0) /\ room3 f BACKWARD BWORK M0 /\
  (1 + SFu 53) ^ trip3 21 3 g2 * (4 * (growth (SFu 53) (trip3 21 3 g2) (grid_points g2) ^ 7 * (IZR (grid_points g2) * start_size 0 (SFmu 1024) (top3 INDEX g2)) * IZR (grid_points g2))) <= SFom 53 1024.
Proof. exact C61_run_example_proof. Qed.

(** a first order form of the bound *)
Theorem C61_growth : forall u K nloop G, 0 <= u -> (1 <= nloop)%nat -> (1 <= G)%Z -> 4 * INR nloop * IZR G * INR K * u <= 1 ->
  (1 + u) ^ K <= 2 /\ growth u K G ^ nloop - 1 <= 4 * INR nloop * IZR G * INR K * u.
Proof. exact C61_growth_proof. Qed.
Print Assumptions C61_growth.
Example C61_growth_example : 4 * INR 10 * IZR 240 * INR 511 * SFu 53 <= 1.
Proof. rewrite !INR_IZR_INZ. change (Z.of_nat 10) with 10%Z. change (Z.of_nat 511) with 511%Z. rewrite u_val. lra. Qed.

(** from the processor grids to the printed error, mode 0, equal grids: finite and at most [error_bound] *)
Theorem C61_test3d_double : forall c cosd sind t, 0 <= c -> 15 + 2 * c <= INR t -> libm_ok c cosd sind ->
  prints_small3 (SFu 53) (SFmu 1024) (SFops 53 1024) t 3 (twiddleD cosd sind) normD 0 toD distD.
Proof. exact C61_test3d_double_proof. Qed.
Print Assumptions C61_test3d_double.
Theorem C61_test2d_double : forall c cosd sind t, 0 <= c -> 15 + 2 * c <= INR t -> libm_ok c cosd sind ->
  prints_small2 (SFu 53) (SFmu 1024) (SFops 53 1024) t 3 (twiddleD cosd sind) normD 0 toD distD.
Proof. exact C61_test2d_double_proof. Qed.
Print Assumptions C61_test2d_double.
Theorem C61_test3d_single : forall c cosd sind, 0 <= c <= 1000000 -> libm_ok c cosd sind ->
  prints_small3 (SFu 24) (SFmu 128) (SFops 24 128) 2 2 (twiddleF cosd sind) normF (SFu 24) toF distF.
Proof. exact C61_test3d_single_proof. Qed.
Print Assumptions C61_test3d_single.
Theorem C61_test2d_single : forall c cosd sind, 0 <= c <= 1000000 -> libm_ok c cosd sind ->
  prints_small2 (SFu 24) (SFmu 128) (SFops 24 128) 2 2 (twiddleF cosd sind) normF (SFu 24) toF distF.
Proof. exact C61_test2d_single_proof. Qed.
Print Assumptions C61_test2d_single.
(** 12 ranks, 8x6x5 random numbers, 10 round trips in double precision, 1 in single precision *)
Example C61_test3d_example : exists e1 e2 : spec_float,
  prints3 (SFops 53 1024) (twiddleD cos53 sin53) normD toD distD fl double_areas 12 (mkset 2 0 2) 0 (8, 6, 5)%Z (0, 0, 0)%Z (0, 0, 0)%Z RANDOM (fun r => 82783 + Z.of_nat r)%Z 10 zeroes3 e1 /\
  SFfin 53 1024 e1 /\ 0 <= SFval e1 <= 1 / 1000000000 /\
  prints3 (SFops 24 128) (twiddleF cos53 sin53) normF toF distF fl double_areas 12 (mkset 2 0 2) 0 (8, 6, 5)%Z (0, 0, 0)%Z (0, 0, 0)%Z RANDOM (fun r => 82783 + Z.of_nat r)%Z 1 zeroes3 e2 /\
  SFfin 53 1024 e2 /\ 0 <= SFval e2 <= 1 / 90.
Proof. exact C61_example_proof. Qed.
Example C61_test2d_example : exists e : spec_float,
  prints2 (SFops 53 1024) (twiddleD cos53 sin53) normD toD distD fl 8 double_areas 12 (mkset 2 0 2) 0 (8, 6)%Z (4, 3)%Z (4, 3)%Z RANDOM (fun r => 82783 + Z.of_nat r)%Z 10 zeroes2 e /\
  SFfin 53 1024 e /\ 0 <= SFval e <= 1 / 1000000000.
Proof. exact C61_example2_proof. Qed.
(** "without transforms (-r) the error is 0": not for random numbers in single precision, each is compared with the double it was rounded from *)
Theorem C61_random_single_refuted : exists seed w e, seed_ok RANDOM seed /\
  initialize3 dint drand toF RANDOM seed (1, 1, 1)%Z (mkbox3 0 0 0 0 0 0) [dzero; dzero] = Some w /\
  validate3 dint drand distF dgt dzero RANDOM seed (1, 1, 1)%Z (mkbox3 0 0 0 0 0 0) w = Some e /\ SFltb dzero e = true.
Proof.
  exists 1%Z. eexists. eexists. split; [intros _; unfold IM; lia|]. split; [vm_compute; reflexivity|]. split; vm_compute; reflexivity.
Qed.
Print Assumptions C61_random_single_refuted.
