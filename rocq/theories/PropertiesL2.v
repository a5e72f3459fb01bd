(** PropertiesL2.v : property C70 (rounding errors in the Euclidean norm), proofs by reference. *)

From Coq Require Import Reals Lra Floats.SpecFloat.
From Verif Require Import Base Spec Pack3d Sched SchedProofs Phases Exec Remap RemapMain RemapInst
  Remap3d RemapThms RemapTop ExRemap Layout Setup3d Setup2d Setup3dProofs Setup2dProofs LayoutFinal Kiss KissPure KissReal Fft1d KissFinal DftMulti
  Fft3d Frame Fft3dProofs Fft3dMain Fft3dTop Fft3dFinal Fft3dStmt Fft3dEx Fft2d Fft2dMain Fft2dTop Fft2dFinal Fft2dStmt Fft2dEx
  Round RoundKiss RoundFft RoundThms Binary RoundDouble RoundTable RoundFinal PropertiesRound RoundL2 RoundL2Fft RoundL2Thms RoundL2Final.
Local Open Scope R_scope.

(** ** C70 *)
(** the DFT multiplies the norm by the square root of the number of points: the bounds below are relative errors *)
Theorem C70_parseval_1d : forall inv n x, (1 <= n)%Z -> norm1 n (DFT inv n x) = sqrt (IZR n) * norm1 n x.
Proof. exact C70_parseval_1d_proof. Qed.
Print Assumptions C70_parseval_1d.
Theorem C70_parseval_2d : forall inv N x, (1 <= fst N)%Z -> (1 <= snd N)%Z ->
  norm2 N (DFT2 inv N x) = sqrt (IZR (grid_points2 N)) * norm2 N x.
Proof. exact C70_parseval_2d_proof. Qed.
Print Assumptions C70_parseval_2d.
Theorem C70_parseval_3d : forall inv N x, (1 <= fst (fst N))%Z -> (1 <= snd (fst N))%Z -> (1 <= snd N)%Z ->
  norm3 N (DFT3 inv N x) = sqrt (IZR (grid_points N)) * norm3 N x.
Proof. exact C70_parseval_3d_proof. Qed.
Print Assumptions C70_parseval_3d.
(** the 1d transform, as in C51: the norm of the error is ((1+u)^nroundings - 1) times the norm of the DFT,
    up to a term for results too small for a normalised number *)
Theorem C70_rounded_1d : forall {F : Type} u mu om (O : sops F) val fin, rounding u mu om O val fin ->
  forall t cexp inv n, (1 <= n < 2 ^ 31)%Z -> table_ok u val fin t cexp inv n ->
  exists st, kiss_fft_alloc cexp n inv = Some st /\
  (forall ist src i out o x,
     (forall j, (0 <= j < n)%Z -> zget src (i + j * ist) = Some (x j) /\ cfin fin (x j)) -> (0 <= o)%Z -> (o + n <= zlen out)%Z ->
     (1 + u) ^ roundings t n * (4 * size1 mu n (vals val x)) <= om ->
     exists out' y, kiss_fft_outplace O st ist src i out o = Some out' /\ zlen out' = zlen out /\
       (forall k, (0 <= k < n)%Z -> zget out' (o + k) = Some (y k) /\ cfin fin (y k)) /\
       norm1 n (minus val y (DFT inv n (vals val x))) <= ((1 + u) ^ nroundings t n - 1) * (sqrt (IZR n) * nsize1 mu n (vals val x)) /\
       (forall a, ~ (o <= a < o + n)%Z -> zget out' a = zget out a)) /\
  (forall tmp arr o x, zlen tmp = n ->
     (forall j, (0 <= j < n)%Z -> zget arr (o + j) = Some (x j) /\ cfin fin (x j)) -> (0 <= o)%Z -> (o + n <= zlen arr)%Z ->
     (1 + u) ^ roundings t n * (4 * size1 mu n (vals val x)) <= om ->
     exists arr' y, kiss_fft_inplace O st tmp 1 arr o = Some arr' /\ zlen arr' = zlen arr /\
       (forall k, (0 <= k < n)%Z -> zget arr' (o + k) = Some (y k) /\ cfin fin (y k)) /\
       norm1 n (minus val y (DFT inv n (vals val x))) <= ((1 + u) ^ nroundings t n - 1) * (sqrt (IZR n) * nsize1 mu n (vals val x)) /\
       (forall a, ~ (o <= a < o + n)%Z -> zget arr' a = zget arr a)).
Proof. exact @C70_line_proof. Qed.
Print Assumptions C70_rounded_1d.
(** lengths 2^a 3^b 5^c: nroundings is at most (6t+24) log2 n *)
Theorem C70_growth : forall t n a b c, (0 <= a)%Z -> (0 <= b)%Z -> (0 <= c)%Z -> n = (2 ^ a * 3 ^ b * 5 ^ c)%Z -> (2 <= n < 2 ^ 31)%Z ->
  (2 ^ Z.of_nat (nroundings t n) <= n ^ (6 * Z.of_nat t + 24))%Z.
Proof. exact C70_growth_proof. Qed.
Print Assumptions C70_growth.
(** a bound on the norm is a bound on every element *)
Theorem C70_element_3d : forall N v p, in_grid N p -> cmod (v p) <= norm3 N v.
Proof. exact C70_element_3d_proof. Qed.
Print Assumptions C70_element_3d.
Theorem C70_element_2d : forall N v p, in_grid2 N p -> cmod (v p) <= norm2 N v.
Proof. exact C70_element_2d_proof. Qed.
Print Assumptions C70_element_2d.
(** the distributed transforms, in all executions, under the conditions of C52 *)
Theorem C70_forward_3d : forall {F : Type} u mu om (O : sops F) val fin, rounding u mu om O val fin ->
  forall t cexp rnorm ar n sts N permute ins outs f, ready3 ar n sts N permute ins outs f ->
  forall bi bo (M0 : nat -> @rmem F) scaled x,
  isdata bi -> isdata bo -> bi = bo \/ f_pre f = true -> arrays_ok f bo M0 ->
  tables3 u val fin t cexp N false ->
  (forall p, in_grid N p -> cfin fin (x p)) ->
  (forall r, (r < n)%nat -> holds3 2 0 (ins r) (fld x) (getb bi (M0 r))) ->
  (1 + u) ^ cost3 t N * (4 * size3 mu N (vals val x)) <= om ->
  exists P y, setup_ffts3 cexp N = Some P /\
  exec_all n (compute3 O rnorm f P scaled false FORWARD bi bo) M0
    (fun r m => holds3 2 permute (outs r) (fld y) (getb bo m) /\ framed M0 bo (fun r => (2 * f_fftsize f r)%Z) r m) /\
  (forall p, in_grid N p -> cfin fin (y p)) /\
  norm3 N (minus val y (DFT3 false N (vals val x))) <= ((1 + u) ^ ncost3 t N - 1) * (sqrt (IZR (grid_points N)) * nsize3 mu N (vals val x)).
Proof. exact @C70_forward_3d_proof. Qed.
Print Assumptions C70_forward_3d.
Theorem C70_backward_3d : forall {F : Type} u mu om (O : sops F) val fin, rounding u mu om O val fin ->
  forall t cexp rnorm s ar n sts N permute ins outs f, ready3 ar n sts N permute ins outs f ->
  forall b (M0 : nat -> @rmem F) scaled x,
  isdata b -> room3 f BACKWARD b M0 ->
  (scaled = true -> forall r, (r < n)%nat -> (psize3 (ins r) <= psize3 (outs r))%Z) ->
  tables3 u val fin t cexp N true -> (scaled = true -> norm_ok u val fin s rnorm (grid_points N)) ->
  (forall p, in_grid N p -> cfin fin (x p)) ->
  (forall r, (r < n)%nat -> holds3 2 permute (outs r) (fld x) (getb b (M0 r))) ->
  (1 + u) ^ (cost3 t N + scale_cost s scaled) * (4 * size3 mu N (vals val x)) <= om ->
  exists P y, setup_ffts3 cexp N = Some P /\
  exec_all n (compute3 O rnorm f P scaled false BACKWARD b b) M0
    (fun r m => holds3 2 0 (ins r) (fld y) (getb b m) /\ framed M0 b (fun r => (2 * f_fftsize f r)%Z) r m) /\
  (forall p, in_grid N p -> cfin fin (y p)) /\
  norm3 N (minus val y (fun p => rmulc (scale_by (grid_points N) scaled) (DFT3 true N (vals val x) p))) <=
  ((1 + u) ^ (ncost3 t N + scale_cost s scaled) - 1) * (sqrt (IZR (grid_points N)) * nsize3 mu N (vals val x) * scale_by (grid_points N) scaled).
Proof. exact @C70_backward_3d_proof. Qed.
Print Assumptions C70_backward_3d.
Theorem C70_round_trip_3d : forall {F : Type} u mu om (O : sops F) val fin, rounding u mu om O val fin ->
  forall t cexp rnorm s ar n sts N permute ins outs f, ready3 ar n sts N permute ins outs f ->
  forall b (M0 : nat -> @rmem F) s1 scaled x,
  isdata b -> room3 f BACKWARD b M0 ->
  (scaled = true -> forall r, (r < n)%nat -> (psize3 (ins r) <= psize3 (outs r))%Z) ->
  tables3 u val fin t cexp N false -> tables3 u val fin t cexp N true ->
  (scaled = true -> norm_ok u val fin s rnorm (grid_points N)) ->
  (forall p, in_grid N p -> cfin fin (x p)) ->
  (forall r, (r < n)%nat -> holds3 2 0 (ins r) (fld x) (getb b (M0 r))) ->
  (1 + u) ^ (2 * cost3 t N + scale_cost s scaled) * (4 * (size3 mu N (vals val x) * IZR (grid_points N))) <= om ->
  exists P y, setup_ffts3 cexp N = Some P /\
  exec_all n (fun r => compute3 O rnorm f P s1 false FORWARD b b r ++ compute3 O rnorm f P scaled false BACKWARD b b r) M0
    (fun r m => holds3 2 0 (ins r) (fld y) (getb b m) /\ framed M0 b (fun r => (2 * f_fftsize f r)%Z) r m) /\
  (forall p, in_grid N p -> cfin fin (y p)) /\
  norm3 N (minus val y (fun p => rmulc (if scaled then 1 else IZR (grid_points N)) (vals val x p))) <=
  ((1 + u) ^ (2 * ncost3 t N + scale_cost s scaled) - 1) * (nsize3 mu N (vals val x) * (if scaled then 1 else IZR (grid_points N))).
Proof. exact @C70_round_trip_3d_proof. Qed.
Print Assumptions C70_round_trip_3d.
(** the same in 2d *)
Theorem C70_forward_2d : forall {F : Type} u mu om (O : sops F) val fin, rounding u mu om O val fin ->
  forall t cexp rnorm esize ar n sts N permute ins outs f, ready2 esize ar n sts N permute ins outs f ->
  forall bi bo (M0 : nat -> @rmem F) scaled x,
  isdata bi -> isdata bo -> bi = bo \/ t_pre f = true -> arrays_ok2 f bo M0 ->
  tables2 u val fin t cexp N false ->
  (forall p, in_grid2 N p -> cfin fin (x p)) ->
  (forall r, (r < n)%nat -> holds2 2 0 (ins r) (fld x) (getb bi (M0 r))) ->
  (1 + u) ^ cost2 t N * (4 * size2 mu N (vals val x)) <= om ->
  exists P y, setup_ffts2 cexp N = Some P /\
  exec_all n (compute2 O rnorm esize f P scaled false FORWARD bi bo) M0
    (fun r m => holds2 2 permute (outs r) (fld y) (getb bo m) /\ framed M0 bo (fun r => (2 * t_fftsize f r)%Z) r m) /\
  (forall p, in_grid2 N p -> cfin fin (y p)) /\
  norm2 N (minus val y (DFT2 false N (vals val x))) <= ((1 + u) ^ ncost2 t N - 1) * (sqrt (IZR (grid_points2 N)) * nsize2 mu N (vals val x)).
Proof. exact @C70_forward_2d_proof. Qed.
Print Assumptions C70_forward_2d.
Theorem C70_backward_2d : forall {F : Type} u mu om (O : sops F) val fin, rounding u mu om O val fin ->
  forall t cexp rnorm s esize ar n sts N permute ins outs f, ready2 esize ar n sts N permute ins outs f ->
  forall b (M0 : nat -> @rmem F) scaled x,
  isdata b -> arrays_ok2 f b M0 ->
  (scaled = true -> forall r, (r < n)%nat -> (psize2 (ins r) <= psize2 (outs r))%Z) ->
  tables2 u val fin t cexp N true -> (scaled = true -> norm_ok u val fin s rnorm (grid_points2 N)) ->
  (forall p, in_grid2 N p -> cfin fin (x p)) ->
  (forall r, (r < n)%nat -> holds2 2 permute (outs r) (fld x) (getb b (M0 r))) ->
  (1 + u) ^ (cost2 t N + scale_cost s scaled) * (4 * size2 mu N (vals val x)) <= om ->
  exists P y, setup_ffts2 cexp N = Some P /\
  exec_all n (compute2 O rnorm esize f P scaled false BACKWARD b b) M0
    (fun r m => holds2 2 0 (ins r) (fld y) (getb b m) /\ framed M0 b (fun r => (2 * t_fftsize f r)%Z) r m) /\
  (forall p, in_grid2 N p -> cfin fin (y p)) /\
  norm2 N (minus val y (fun p => rmulc (scale_by (grid_points2 N) scaled) (DFT2 true N (vals val x) p))) <=
  ((1 + u) ^ (ncost2 t N + scale_cost s scaled) - 1) * (sqrt (IZR (grid_points2 N)) * nsize2 mu N (vals val x) * scale_by (grid_points2 N) scaled).
Proof. exact @C70_backward_2d_proof. Qed.
Print Assumptions C70_backward_2d.
Theorem C70_round_trip_2d : forall {F : Type} u mu om (O : sops F) val fin, rounding u mu om O val fin ->
  forall t cexp rnorm s esize ar n sts N permute ins outs f, ready2 esize ar n sts N permute ins outs f ->
  forall b (M0 : nat -> @rmem F) s1 scaled x,
  isdata b -> arrays_ok2 f b M0 ->
  (scaled = true -> forall r, (r < n)%nat -> (psize2 (ins r) <= psize2 (outs r))%Z) ->
  tables2 u val fin t cexp N false -> tables2 u val fin t cexp N true ->
  (scaled = true -> norm_ok u val fin s rnorm (grid_points2 N)) ->
  (forall p, in_grid2 N p -> cfin fin (x p)) ->
  (forall r, (r < n)%nat -> holds2 2 0 (ins r) (fld x) (getb b (M0 r))) ->
  (1 + u) ^ (2 * cost2 t N + scale_cost s scaled) * (4 * (size2 mu N (vals val x) * IZR (grid_points2 N))) <= om ->
  exists P y, setup_ffts2 cexp N = Some P /\
  exec_all n (fun r => compute2 O rnorm esize f P s1 false FORWARD b b r ++ compute2 O rnorm esize f P scaled false BACKWARD b b r) M0
    (fun r m => holds2 2 0 (ins r) (fld y) (getb b m) /\ framed M0 b (fun r => (2 * t_fftsize f r)%Z) r m) /\
  (forall p, in_grid2 N p -> cfin fin (y p)) /\
  norm2 N (minus val y (fun p => rmulc (if scaled then 1 else IZR (grid_points2 N)) (vals val x p))) <=
  ((1 + u) ^ (2 * ncost2 t N + scale_cost s scaled) - 1) * (nsize2 mu N (vals val x) * (if scaled then 1 else IZR (grid_points2 N))).
Proof. exact @C70_round_trip_2d_proof. Qed.
Print Assumptions C70_round_trip_2d.
(** IEEE double and single precision, tables and factors as the code computes them (C53) *)
Theorem C70_double_forward_3d : forall c cosd sind t, 0 <= c -> 15 + 2 * c <= INR t -> libm_ok c cosd sind ->
  forall ar n sts N permute ins outs f bi bo (M0 : nat -> @rmem spec_float) scaled x,
  ready3 ar n sts N permute ins outs f -> isdata bi -> isdata bo -> bi = bo \/ f_pre f = true -> arrays_ok f bo M0 ->
  (forall p, in_grid N p -> cfin (SFfin 53 1024) (x p)) ->
  (forall r, (r < n)%nat -> holds3 2 0 (ins r) (fld x) (getb bi (M0 r))) ->
  (1 + SFu 53) ^ cost3 t N * (4 * size3 (SFmu 1024) N (vals SFval x)) <= SFom 53 1024 ->
  exists P y, setup_ffts3 (twiddleD cosd sind) N = Some P /\
  exec_all n (compute3 (SFops 53 1024) normD f P scaled false FORWARD bi bo) M0
    (fun r m => holds3 2 permute (outs r) (fld y) (getb bo m) /\ framed M0 bo (fun r => (2 * f_fftsize f r)%Z) r m) /\
  (forall p, in_grid N p -> cfin (SFfin 53 1024) (y p)) /\
  norm3 N (minus SFval y (DFT3 false N (vals SFval x))) <= ((1 + SFu 53) ^ ncost3 t N - 1) * (sqrt (IZR (grid_points N)) * nsize3 (SFmu 1024) N (vals SFval x)).
Proof. exact C70_double_forward_3d_proof. Qed.
Print Assumptions C70_double_forward_3d.
Theorem C70_double_round_trip_3d : forall c cosd sind t, 0 <= c -> 15 + 2 * c <= INR t -> libm_ok c cosd sind ->
  forall ar n sts N permute ins outs f b (M0 : nat -> @rmem spec_float) s1 scaled x,
  ready3 ar n sts N permute ins outs f -> (grid_points N < 2 ^ 63)%Z -> isdata b -> room3 f BACKWARD b M0 ->
  (scaled = true -> forall r, (r < n)%nat -> (psize3 (ins r) <= psize3 (outs r))%Z) ->
  (forall p, in_grid N p -> cfin (SFfin 53 1024) (x p)) ->
  (forall r, (r < n)%nat -> holds3 2 0 (ins r) (fld x) (getb b (M0 r))) ->
  (1 + SFu 53) ^ (2 * cost3 t N + scale_cost 3 scaled) * (4 * (size3 (SFmu 1024) N (vals SFval x) * IZR (grid_points N))) <= SFom 53 1024 ->
  exists P y, setup_ffts3 (twiddleD cosd sind) N = Some P /\
  exec_all n (fun r => compute3 (SFops 53 1024) normD f P s1 false FORWARD b b r ++
                       compute3 (SFops 53 1024) normD f P scaled false BACKWARD b b r) M0
    (fun r m => holds3 2 0 (ins r) (fld y) (getb b m) /\ framed M0 b (fun r => (2 * f_fftsize f r)%Z) r m) /\
  (forall p, in_grid N p -> cfin (SFfin 53 1024) (y p)) /\
  norm3 N (minus SFval y (fun p => rmulc (if scaled then 1 else IZR (grid_points N)) (vals SFval x p))) <=
  ((1 + SFu 53) ^ (2 * ncost3 t N + scale_cost 3 scaled) - 1) * (nsize3 (SFmu 1024) N (vals SFval x) * (if scaled then 1 else IZR (grid_points N))).
Proof. exact C70_double_round_trip_3d_proof. Qed.
Print Assumptions C70_double_round_trip_3d.
Theorem C70_single_round_trip_3d : forall c cosd sind, 0 <= c <= 1000000 -> libm_ok c cosd sind ->
  forall ar n sts N permute ins outs f b (M0 : nat -> @rmem spec_float) s1 scaled x,
  ready3 ar n sts N permute ins outs f -> (grid_points N < 2 ^ 63)%Z -> isdata b -> room3 f BACKWARD b M0 ->
  (scaled = true -> forall r, (r < n)%nat -> (psize3 (ins r) <= psize3 (outs r))%Z) ->
  (forall p, in_grid N p -> cfin (SFfin 24 128) (x p)) ->
  (forall r, (r < n)%nat -> holds3 2 0 (ins r) (fld x) (getb b (M0 r))) ->
  (1 + SFu 24) ^ (2 * cost3 2 N + scale_cost 2 scaled) * (4 * (size3 (SFmu 128) N (vals SFval x) * IZR (grid_points N))) <= SFom 24 128 ->
  exists P y, setup_ffts3 (twiddleF cosd sind) N = Some P /\
  exec_all n (fun r => compute3 (SFops 24 128) normF f P s1 false FORWARD b b r ++
                       compute3 (SFops 24 128) normF f P scaled false BACKWARD b b r) M0
    (fun r m => holds3 2 0 (ins r) (fld y) (getb b m) /\ framed M0 b (fun r => (2 * f_fftsize f r)%Z) r m) /\
  (forall p, in_grid N p -> cfin (SFfin 24 128) (y p)) /\
  norm3 N (minus SFval y (fun p => rmulc (if scaled then 1 else IZR (grid_points N)) (vals SFval x p))) <=
  ((1 + SFu 24) ^ (2 * ncost3 2 N + scale_cost 2 scaled) - 1) * (nsize3 (SFmu 128) N (vals SFval x) * (if scaled then 1 else IZR (grid_points N))).
Proof. exact C70_single_round_trip_3d_proof. Qed.
Print Assumptions C70_single_round_trip_3d.
Theorem C70_double_round_trip_2d : forall c cosd sind t, 0 <= c -> 15 + 2 * c <= INR t -> libm_ok c cosd sind ->
  forall esize ar n sts N permute ins outs f b (M0 : nat -> @rmem spec_float) s1 scaled x,
  ready2 esize ar n sts N permute ins outs f -> (grid_points2 N < 2 ^ 63)%Z -> isdata b -> arrays_ok2 f b M0 ->
  (scaled = true -> forall r, (r < n)%nat -> (psize2 (ins r) <= psize2 (outs r))%Z) ->
  (forall p, in_grid2 N p -> cfin (SFfin 53 1024) (x p)) ->
  (forall r, (r < n)%nat -> holds2 2 0 (ins r) (fld x) (getb b (M0 r))) ->
  (1 + SFu 53) ^ (2 * cost2 t N + scale_cost 3 scaled) * (4 * (size2 (SFmu 1024) N (vals SFval x) * IZR (grid_points2 N))) <= SFom 53 1024 ->
  exists P y, setup_ffts2 (twiddleD cosd sind) N = Some P /\
  exec_all n (fun r => compute2 (SFops 53 1024) normD esize f P s1 false FORWARD b b r ++
                       compute2 (SFops 53 1024) normD esize f P scaled false BACKWARD b b r) M0
    (fun r m => holds2 2 0 (ins r) (fld y) (getb b m) /\ framed M0 b (fun r => (2 * t_fftsize f r)%Z) r m) /\
  (forall p, in_grid2 N p -> cfin (SFfin 53 1024) (y p)) /\
  norm2 N (minus SFval y (fun p => rmulc (if scaled then 1 else IZR (grid_points2 N)) (vals SFval x p))) <=
  ((1 + SFu 53) ^ (2 * ncost2 t N + scale_cost 3 scaled) - 1) * (nsize2 (SFmu 1024) N (vals SFval x) * (if scaled then 1 else IZR (grid_points2 N))).
Proof. exact C70_double_round_trip_2d_proof. Qed.
Print Assumptions C70_double_round_trip_2d.
(** numbers: a 1024^3 grid in double precision comes back with a relative error of at most 2 10^-13 in the norm; and
    the norm of a small field and of its transform *)
Example C70_growth_example : nroundings 21 1024 = 260%nat /\ nroundings 21 1000 = 1020%nat /\ nroundings 2 4096 = 84%nat.
Proof. repeat split; vm_compute; reflexivity. Qed.
Example C70_bound_example :
  (1 + SFu 53) ^ (2 * ncost3 21 (1024, 1024, 1024)%Z + scale_cost 3 true) - 1 <= 2 * / 10 ^ 13.
Proof.
  replace (2 * ncost3 21 (1024, 1024, 1024)%Z + scale_cost 3 true)%nat with (1565)%nat by (vm_compute; reflexivity).
  assert (E : INR 1565 = 1565) by (rewrite INR_IZR_INZ; reflexivity).
  eapply Rle_trans; [apply C51_higham; rewrite u_val; [lra|rewrite E; lra]|]. rewrite u_val, E. lra.
Qed.
Definition exl (a : Z) : R * R := if (a =? 0)%Z then (3, 0) else (0, 4).
Example C70_parseval_1d_example : norm1 2 exl = 5 /\ norm1 2 (DFT false 2 exl) = sqrt 2 * 5.
Proof.
  assert (E : norm1 2 exl = 5).
  { change (sqrt ((3 * 3 + 0 * 0) + (0 * 0 + 4 * 4)) = 5). apply Rsqr_inj; [apply sqrt_pos|lra|]. rewrite Rsqr_sqrt; unfold Rsqr; lra. }
  split; [exact E|]. rewrite C70_parseval_1d by lia. rewrite E. reflexivity.
Qed.
Definition exl2 (p : pt2) : R * R := exl (fst p + 2 * snd p).
Definition exl3 (p : pt3) : R * R := exl (fst (fst p) + 2 * snd (fst p) + 4 * snd p).
Example C70_element_2d_example : in_grid2 sq2 (1, 0)%Z /\ cmod (exl2 (1, 0)%Z) = 4 /\ 4 <= norm2 sq2 exl2.
Proof.
  assert (E : cmod (exl2 (1, 0)%Z) = 4).
  { change (sqrt (0 * 0 + 4 * 4) = 4). apply Rsqr_inj; [apply sqrt_pos|lra|]. rewrite Rsqr_sqrt; unfold Rsqr; lra. }
  split; [cbn; lia|]. split; [exact E|]. rewrite <- E. apply C70_element_2d. cbn. lia.
Qed.
Example C70_element_3d_example : in_grid g2 (1, 0, 0)%Z /\ cmod (exl3 (1, 0, 0)%Z) = 4 /\ 4 <= norm3 g2 exl3.
Proof.
  assert (E : cmod (exl3 (1, 0, 0)%Z) = 4).
  { change (sqrt (0 * 0 + 4 * 4) = 4). apply Rsqr_inj; [apply sqrt_pos|lra|]. rewrite Rsqr_sqrt; unfold Rsqr; lra. }
  split; [cbn; lia|]. split; [exact E|]. rewrite <- E. apply C70_element_3d. cbn. lia.
Qed.
Example C70_parseval_2d_example : norm2 sq2 (DFT2 false sq2 exl2) = sqrt 4 * norm2 sq2 exl2.
Proof. exact (C70_parseval_2d false sq2 exl2 ltac:(cbn; lia) ltac:(cbn; lia)). Qed.
Example C70_parseval_3d_example : norm3 g2 (DFT3 true g2 exl3) = sqrt 8 * norm3 g2 exl3.
Proof. exact (C70_parseval_3d true g2 exl3 ltac:(cbn; lia) ltac:(cbn; lia) ltac:(cbn; lia)). Qed.
(** hypotheses of the others, those of C51 to C53: a length, table and arithmetic; a 2x2x2 and a 2x2 grid on 2 ranks *)
Example C70_rounded_1d_example : rounding (SFu 53) (SFmu 1024) (SFom 53 1024) (SFops 53 1024) SFval (SFfin 53 1024) /\
  table_ok (SFu 53) SFval (SFfin 53 1024) 21 (twiddleD cos53 sin53) false 1024.
Proof. exact (conj (proj1 C51_rounded_1d_example) (proj1 (proj2 C51_rounded_1d_example))). Qed.
Example C70_forward_3d_example : exists f (M0 : nat -> @rmem spec_float), ready3 exact_areas 2 (mkset 1 0 1) g2 1 split3 isplit3 f /\
  isdata BIn /\ arrays_ok f BIn M0 /\ tables3 (SFu 53) SFval (SFfin 53 1024) 21 (twiddleD cos53 sin53) g2 false /\
  (forall p, in_grid g2 p -> cfin (SFfin 53 1024) (exD 53 1024 p)) /\
  (forall r, (r < 2)%nat -> holds3 2 0 (split3 r) (fld (exD 53 1024)) (getb BIn (M0 r))) /\
  (1 + SFu 53) ^ cost3 21 g2 * (4 * size3 (SFmu 1024) g2 (vals SFval (exD 53 1024))) <= SFom 53 1024.
Proof. exact C52_forward_3d_example. Qed.
Example C70_backward_3d_example : exists f (M0 : nat -> @rmem spec_float), ready3 exact_areas 2 (mkset 1 0 1) g2 1 split3 isplit3 f /\
  isdata BIn /\ room3 f BACKWARD BIn M0 /\ (forall r, (r < 2)%nat -> (psize3 (split3 r) <= psize3 (isplit3 r))%Z) /\
  tables3 (SFu 53) SFval (SFfin 53 1024) 21 (twiddleD cos53 sin53) g2 true /\
  norm_ok (SFu 53) SFval (SFfin 53 1024) 3 normD (grid_points g2) /\
  (forall p, in_grid g2 p -> cfin (SFfin 53 1024) (exD 53 1024 p)) /\
  (forall r, (r < 2)%nat -> holds3 2 1 (isplit3 r) (fld (exD 53 1024)) (getb BIn (M0 r))) /\
  (1 + SFu 53) ^ (cost3 21 g2 + scale_cost 3 true) * (4 * size3 (SFmu 1024) g2 (vals SFval (exD 53 1024))) <= SFom 53 1024.
Proof. exact C52_backward_3d_example. Qed.
Example C70_round_trip_3d_example : exists f (M0 : nat -> @rmem spec_float), ready3 exact_areas 2 (mkset 1 0 1) g2 1 split3 isplit3 f /\
  isdata BIn /\ room3 f BACKWARD BIn M0 /\ (forall r, (r < 2)%nat -> (psize3 (split3 r) <= psize3 (isplit3 r))%Z) /\
  tables3 (SFu 53) SFval (SFfin 53 1024) 21 (twiddleD cos53 sin53) g2 false /\
  tables3 (SFu 53) SFval (SFfin 53 1024) 21 (twiddleD cos53 sin53) g2 true /\
  norm_ok (SFu 53) SFval (SFfin 53 1024) 3 normD (grid_points g2) /\
  (forall p, in_grid g2 p -> cfin (SFfin 53 1024) (exD 53 1024 p)) /\
  (forall r, (r < 2)%nat -> holds3 2 0 (split3 r) (fld (exD 53 1024)) (getb BIn (M0 r))) /\
  (1 + SFu 53) ^ (2 * cost3 21 g2 + scale_cost 3 true) * (4 * (size3 (SFmu 1024) g2 (vals SFval (exD 53 1024)) * IZR (grid_points g2))) <= SFom 53 1024.
Proof. exact C52_round_trip_3d_example. Qed.
Example C70_forward_2d_example : exists f (M0 : nat -> @rmem spec_float), ready2 8 exact_areas 2 (mkset 1 0 1) sq2 1 split2 isplit2 f /\
  isdata BIn /\ arrays_ok2 f BIn M0 /\ tables2 (SFu 53) SFval (SFfin 53 1024) 21 (twiddleD cos53 sin53) sq2 false /\
  (forall p, in_grid2 sq2 p -> cfin (SFfin 53 1024) (exD2 53 1024 p)) /\
  (forall r, (r < 2)%nat -> holds2 2 0 (split2 r) (fld (exD2 53 1024)) (getb BIn (M0 r))) /\
  (1 + SFu 53) ^ cost2 21 sq2 * (4 * size2 (SFmu 1024) sq2 (vals SFval (exD2 53 1024))) <= SFom 53 1024.
Proof. exact C52_forward_2d_example. Qed.
Example C70_backward_2d_example : exists f (M0 : nat -> @rmem spec_float), ready2 8 exact_areas 2 (mkset 1 0 1) sq2 1 split2 isplit2 f /\
  isdata BIn /\ arrays_ok2 f BIn M0 /\ (forall r, (r < 2)%nat -> (psize2 (split2 r) <= psize2 (isplit2 r))%Z) /\
  tables2 (SFu 53) SFval (SFfin 53 1024) 21 (twiddleD cos53 sin53) sq2 true /\
  norm_ok (SFu 53) SFval (SFfin 53 1024) 3 normD (grid_points2 sq2) /\
  (forall p, in_grid2 sq2 p -> cfin (SFfin 53 1024) (exD2 53 1024 p)) /\
  (forall r, (r < 2)%nat -> holds2 2 1 (isplit2 r) (fld (exD2 53 1024)) (getb BIn (M0 r))) /\
  (1 + SFu 53) ^ (cost2 21 sq2 + scale_cost 3 true) * (4 * size2 (SFmu 1024) sq2 (vals SFval (exD2 53 1024))) <= SFom 53 1024.
Proof. exact C52_backward_2d_example. Qed.
Example C70_round_trip_2d_example : exists f (M0 : nat -> @rmem spec_float), ready2 8 exact_areas 2 (mkset 1 0 1) sq2 1 split2 isplit2 f /\
  isdata BIn /\ arrays_ok2 f BIn M0 /\ (forall r, (r < 2)%nat -> (psize2 (split2 r) <= psize2 (isplit2 r))%Z) /\
  tables2 (SFu 53) SFval (SFfin 53 1024) 21 (twiddleD cos53 sin53) sq2 false /\
  tables2 (SFu 53) SFval (SFfin 53 1024) 21 (twiddleD cos53 sin53) sq2 true /\
  norm_ok (SFu 53) SFval (SFfin 53 1024) 3 normD (grid_points2 sq2) /\
  (forall p, in_grid2 sq2 p -> cfin (SFfin 53 1024) (exD2 53 1024 p)) /\
  (forall r, (r < 2)%nat -> holds2 2 0 (split2 r) (fld (exD2 53 1024)) (getb BIn (M0 r))) /\
  (1 + SFu 53) ^ (2 * cost2 21 sq2 + scale_cost 3 true) * (4 * (size2 (SFmu 1024) sq2 (vals SFval (exD2 53 1024)) * IZR (grid_points2 sq2))) <= SFom 53 1024.
Proof. exact C52_round_trip_2d_example. Qed.
Example C70_double_forward_3d_example : libm_ok 3 cos53 sin53 /\ 15 + 2 * 3 <= INR 21 /\
  exists f (M0 : nat -> @rmem spec_float), ready3 exact_areas 2 (mkset 1 0 1) g2 1 split3 isplit3 f /\ isdata BIn /\ arrays_ok f BIn M0 /\
  (forall p, in_grid g2 p -> cfin (SFfin 53 1024) (exD 53 1024 p)) /\
  (forall r, (r < 2)%nat -> holds3 2 0 (split3 r) (fld (exD 53 1024)) (getb BIn (M0 r))) /\
  (1 + SFu 53) ^ cost3 21 g2 * (4 * size3 (SFmu 1024) g2 (vals SFval (exD 53 1024))) <= SFom 53 1024.
Proof. exact C53_forward_3d_example. Qed.
Example C70_double_round_trip_3d_example : libm_ok 3 cos53 sin53 /\ 15 + 2 * 3 <= INR 21 /\ (grid_points g2 < 2 ^ 63)%Z /\
  with_plan (mkset 1 0 1) 1 split3 isplit3 (fun f _ => back_home f) = true.
Proof. exact C53_round_trip_3d_example. Qed.
Example C70_single_round_trip_3d_example : exists f (M0 : nat -> @rmem spec_float), ready3 exact_areas 2 (mkset 1 0 1) g2 1 split3 isplit3 f /\
  (grid_points g2 < 2 ^ 63)%Z /\ isdata BIn /\ room3 f BACKWARD BIn M0 /\
  (forall r, (r < 2)%nat -> (psize3 (split3 r) <= psize3 (isplit3 r))%Z) /\
  (forall p, in_grid g2 p -> cfin (SFfin 24 128) (exD 24 128 p)) /\
  (forall r, (r < 2)%nat -> holds3 2 0 (split3 r) (fld (exD 24 128)) (getb BIn (M0 r))) /\
  (1 + SFu 24) ^ (2 * cost3 2 g2 + scale_cost 2 true) * (4 * (size3 (SFmu 128) g2 (vals SFval (exD 24 128)) * IZR (grid_points g2))) <= SFom 24 128.
Proof. exact C53_round_trip_3d_single_example. Qed.
Example C70_double_round_trip_2d_example : libm_ok 3 cos53 sin53 /\ 15 + 2 * 3 <= INR 21 /\ (grid_points2 sq2 < 2 ^ 63)%Z /\
  exists f (M0 : nat -> @rmem spec_float), ready2 8 exact_areas 2 (mkset 1 0 1) sq2 1 split2 isplit2 f /\ isdata BIn /\ arrays_ok2 f BIn M0.
Proof. exact C53_round_trip_2d_example. Qed.
