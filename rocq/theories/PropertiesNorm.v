(** PropertiesNorm.v : property C71 (the test programs' error in the Euclidean norm), proofs by reference. *)

From Coq Require Import QArith Reals Psatz Lra Floats.SpecFloat.
From Verif Require Import Base Spec Pack3d Sched Exec ExRemap Layout Setup3d Setup3dProofs Setup2d Setup2dProofs LayoutFinal Fft3d Fft3dMain Fft3dTop Fft3dEx Fft2d Fft2dMain
  Double DoubleProofs TestProg TestLayProofs TestDataProofs TestRunProofs TestFinal TestTop
  Round RoundThms Binary RoundDouble RoundTable RoundFinal RoundL2Fft TestRound TestRoundRun TestRoundTop TestNorm TestNormTop.
Local Open Scope R_scope.

(** ** C71 *)
(** [nloop] round trips of the loop of mode 0 and 1 and the validation, in every execution: [x] is what initialize() stores, [y] what
    the work arrays hold at the end; the norm of the difference is ((1+u)^(K nloop) - 1) times that of the data, and no single value,
    hence not the printed error, is further off *)
Theorem C71_run_double_3d : forall c cosd sind t, 0 <= c -> 15 + 2 * c <= INR t -> libm_ok c cosd sind ->
  norm_run3 (SFu 53) (SFmu 1024) (SFom 53 1024) (SFops 53 1024) SFval (SFfin 53 1024) t 3 (twiddleD cosd sind) normD 0 toD distD.
Proof. exact C71_run_double_3d_proof. Qed.
Print Assumptions C71_run_double_3d.
Theorem C71_run_double_2d : forall c cosd sind t, 0 <= c -> 15 + 2 * c <= INR t -> libm_ok c cosd sind ->
  norm_run2 (SFu 53) (SFmu 1024) (SFom 53 1024) (SFops 53 1024) SFval (SFfin 53 1024) t 3 (twiddleD cosd sind) normD 0 toD distD.
Proof. exact C71_run_double_2d_proof. Qed.
Print Assumptions C71_run_double_2d.
Theorem C71_run_single_3d : forall c cosd sind, 0 <= c <= 1000000 -> libm_ok c cosd sind ->
  norm_run3 (SFu 24) (SFmu 128) (SFom 24 128) (SFops 24 128) SFval (SFfin 24 128) 2 2 (twiddleF cosd sind) normF (SFu 24) toF distF.
Proof. exact C71_run_single_3d_proof. Qed.
Print Assumptions C71_run_single_3d.
Theorem C71_run_single_2d : forall c cosd sind, 0 <= c <= 1000000 -> libm_ok c cosd sind ->
  norm_run2 (SFu 24) (SFmu 128) (SFom 24 128) (SFops 24 128) SFval (SFfin 24 128) 2 2 (twiddleF cosd sind) normF (SFu 24) toF distF.
Proof. exact C71_run_single_2d_proof. Qed.
Print Assumptions C71_run_single_2d.
Example C71_run_example : exists f (M0 : nat -> @rmem spec_float), ready3 exact_areas 2 (mkset 1 0 1) g2 1 split3 isplit3 f /\ (grid_points g2 < 2 ^ 63)%Z /\
  (forall r, (r < 2)%nat -> (psize3 (split3 r) <= psize3 (isplit3 r))%Z) /\ (forall r, (r < 2)%nat -> legal3 (split3 r) /\ seed_ok INDEX 0) /\ room3 f BACKWARD BWORK M0 /\
  (1 + SFu 53) ^ trip3 21 3 g2 * (4 * (sqrt (IZR (grid_points g2)) * (((1 + SFu 53) ^ ntrip3 21 3 g2) ^ 7 * start_norm 0 (SFmu 1024) (grid_points g2) (top3 INDEX g2)) * IZR (grid_points g2))) <= SFom 53 1024.
Proof.
  destruct C61_run_example_proof as (f & M0 & A & B & C & D & R & _). exists f, M0. split; [exact A|]. split; [exact B|]. split; [exact C|]. split; [exact D|]. split; [exact R|].
  apply (roomy_small (SFu 53) (SFmu 1024) (SFom 53 1024) 0 (trip3 21 3 g2) (ntrip3 21 3 g2) 7 (grid_points g2) (2 ^ 62) (top3 INDEX g2) roomy_D zero_1).
  - cbn [top3 g2]. cbn [pow]. split; [apply IZR_le; lia|]. change (2 + 2 + 2 - 2)%Z with 4%Z. lra.
  - lia.
  - vm_compute. lia.
  - change (grid_points g2) with 8%Z. lia.
  - replace (ntrip3 21 3 g2) with 305%nat by (vm_compute; reflexivity). rewrite !INR_IZR_INZ. change (Z.of_nat 7) with 7%Z. change (Z.of_nat 305) with 305%Z. rewrite u_val. lra.
Qed.

(** a first order form of the factor *)
Theorem C71_growth : forall u K nloop, 0 <= u -> 2 * INR nloop * INR K * u <= 1 -> ((1 + u) ^ K) ^ nloop - 1 <= 2 * INR nloop * INR K * u.
Proof. exact C71_growth_proof. Qed.
Print Assumptions C71_growth.
Example C71_growth_example : ntrip3 21 3 (1024, 1024, 1024)%Z = 1565%nat /\ 2 * INR 10 * INR 1565 * SFu 53 <= / 10 ^ 11.
Proof. split; [vm_compute; reflexivity|]. rewrite !INR_IZR_INZ. change (Z.of_nat 10) with 10%Z. change (Z.of_nat 1565) with 1565%Z. rewrite u_val. lra. Qed.

(** from the processor grids to the printed error, mode 0, equal grids, up to 2^62 points in double and 2^38 in single precision *)
Theorem C71_test3d_double : forall c cosd sind t, 0 <= c -> 15 + 2 * c <= INR t -> libm_ok c cosd sind ->
  prints_norm3 (SFu 53) (SFmu 1024) (SFops 53 1024) t 3 (twiddleD cosd sind) normD (2 ^ 62) 0 toD distD.
Proof. exact C71_test3d_double_proof. Qed.
Print Assumptions C71_test3d_double.
Theorem C71_test2d_double : forall c cosd sind t, 0 <= c -> 15 + 2 * c <= INR t -> libm_ok c cosd sind ->
  prints_norm2 (SFu 53) (SFmu 1024) (SFops 53 1024) t 3 (twiddleD cosd sind) normD (2 ^ 62) 0 toD distD.
Proof. exact C71_test2d_double_proof. Qed.
Print Assumptions C71_test2d_double.
Theorem C71_test3d_single : forall c cosd sind, 0 <= c <= 1000000 -> libm_ok c cosd sind ->
  prints_norm3 (SFu 24) (SFmu 128) (SFops 24 128) 2 2 (twiddleF cosd sind) normF (2 ^ 38) (SFu 24) toF distF.
Proof. exact C71_test3d_single_proof. Qed.
Print Assumptions C71_test3d_single.
Theorem C71_test2d_single : forall c cosd sind, 0 <= c <= 1000000 -> libm_ok c cosd sind ->
  prints_norm2 (SFu 24) (SFmu 128) (SFops 24 128) 2 2 (twiddleF cosd sind) normF (2 ^ 38) (SFu 24) toF distF.
Proof. exact C71_test2d_single_proof. Qed.
Print Assumptions C71_test2d_single.
(** 512 ranks, 1024^3 random numbers, 10 round trips in double precision; 64^3, 1 round trip in single precision *)
Example C71_test3d_example : exists e1 e2 : spec_float,
  prints3 (SFops 53 1024) (twiddleD cos53 sin53) normD toD distD fl double_areas 512 (mkset 2 0 2) 0 (1024, 1024, 1024)%Z (0, 0, 0)%Z (0, 0, 0)%Z RANDOM (fun r => 82783 + Z.of_nat r)%Z 10 zeroes3 e1 /\
  SFfin 53 1024 e1 /\ 0 <= SFval e1 <= 2 / 10000000 /\
  prints3 (SFops 24 128) (twiddleF cos53 sin53) normF toF distF fl double_areas 512 (mkset 2 0 2) 0 (64, 64, 64)%Z (0, 0, 0)%Z (0, 0, 0)%Z RANDOM (fun r => 82783 + Z.of_nat r)%Z 1 zeroes3 e2 /\
  SFfin 53 1024 e2 /\ 0 <= SFval e2 <= 1 / 40.
Proof. exact C71_example_proof. Qed.
Example C71_test2d_example : exists e : spec_float,
  prints2 (SFops 53 1024) (twiddleD cos53 sin53) normD toD distD fl 8 double_areas 64 (mkset 2 0 2) 0 (1024, 1024)%Z (8, 8)%Z (8, 8)%Z RANDOM (fun r => 82783 + Z.of_nat r)%Z 10 zeroes2 e /\
  SFfin 53 1024 e /\ 0 <= SFval e <= 4 / 1000000000.
Proof. exact C71_example2_proof. Qed.
