(** PropertiesFma.v : property C72 (rounding errors where the compiler fuses products with sums), proofs by reference. *)

From Coq Require Import QArith Reals Lra Floats.SpecFloat.
From Verif Require Import Base Spec Pack3d Sched SchedProofs Phases Exec Remap RemapMain RemapInst
  Remap3d RemapThms RemapTop ExRemap Layout Setup3d Setup2d Setup3dProofs Setup2dProofs LayoutFinal Kiss KissPure KissReal Fft1d KissFinal DftMulti
  Fft3d Frame Fft3dProofs Fft3dMain Fft3dTop Fft3dFinal Fft3dStmt Fft3dEx Fft2d Fft2dMain Fft2dTop Fft2dFinal Fft2dStmt Fft2dEx
  Round RoundKiss RoundFft RoundThms Binary RoundDouble RoundTable RoundFinal PropertiesRound RoundL2 RoundL2Fft RoundL2Thms RoundL2Final
  Fma FmaProofs FmaFinal Double DoubleProofs DoubleFma LayoutProofs.
Local Open Scope R_scope.

(** ** C72 *)
(** whichever products are fused, the arithmetic, the table and the scale factor meet the hypotheses of C51, C52 and C70 with
    the constants of C53 *)
Theorem C72_double : forall fuse,
  rounding (SFu 53) (SFmu 1024) (SFom 53 1024) (Fops 53 1024 fuse) f_val f_fin /\
  (forall h c cosd sind t inv L, 0 <= c -> 15 + 2 * c <= INR t -> libm_ok c cosd sind -> (L < 2 ^ 31)%Z ->
     table_ok (SFu 53) f_val f_fin t (tagged2 h (twiddleD cosd sind)) inv L) /\
  (forall h k, (1 <= k < 2 ^ 63)%Z -> norm_ok (SFu 53) f_val f_fin 3 (tagged1 h normD) k).
Proof. exact C72_double_proof. Qed.
Print Assumptions C72_double.
Theorem C72_float : forall fuse,
  rounding (SFu 24) (SFmu 128) (SFom 24 128) (Fops 24 128 fuse) f_val f_fin /\
  (forall h c cosd sind inv L, 0 <= c <= 1000000 -> libm_ok c cosd sind -> (L < 2 ^ 31)%Z ->
     table_ok (SFu 24) f_val f_fin 2 (tagged2 h (twiddleF cosd sind)) inv L) /\
  (forall h k, (1 <= k < 2 ^ 63)%Z -> norm_ok (SFu 24) f_val f_fin 2 (tagged1 h normF) k).
Proof. exact C72_float_proof. Qed.
Print Assumptions C72_float.
(** where a product is not fused, the operations on numbers of the format are the IEEE operations *)
Theorem C72_plain : forall prec emax fuse, (2 <= prec)%Z -> (prec < emax)%Z -> forall a b,
  SFfin prec emax (f_x a) -> SFfin prec emax (f_x b) ->
  f_x (sadd (Fops prec emax fuse) a b) = SFadd prec emax (f_x a) (f_x b) /\
  f_x (ssub (Fops prec emax fuse) a b) = SFsub prec emax (f_x a) (f_x b) /\
  (fuse (f_h a) (f_h b) = false -> f_x (smul (Fops prec emax fuse) a b) = SFmul prec emax (f_x a) (f_x b)) /\
  (fuse (f_h a) (Given (-3)) = false -> f_x (shalf (Fops prec emax fuse) a) = SFmul prec emax (f_x a) (SFhalf prec)) /\
  f_x (sopp (Fops prec emax fuse) a) = SFopp (f_x a).
Proof. exact C72_plain_proof. Qed.
Print Assumptions C72_plain.
(** where it is fused, there is one rounding for the product and the sum or difference together, and what comes out is a number
    of the format *)
Theorem C72_fused : forall prec emax, (2 <= prec)%Z -> (prec < emax)%Z -> forall fuse a b c,
  SFfin prec emax (f_x a) -> SFfin prec emax (f_x b) -> SFfin prec emax (f_x c) -> fuse (f_h a) (f_h b) = true ->
  let O := Fops prec emax fuse in
  let p := f_val a * f_val b in let q := f_val c in
  (Rabs (p + q) <= SFom prec emax -> SFfin prec emax (f_x (sadd O (smul O a b) c)) /\
     Rabs (f_val (sadd O (smul O a b) c) - (p + q)) <= SFu prec * (Rabs (p + q) + SFmu emax)) /\
  (Rabs (p - q) <= SFom prec emax -> SFfin prec emax (f_x (ssub O (smul O a b) c)) /\
     Rabs (f_val (ssub O (smul O a b) c) - (p - q)) <= SFu prec * (Rabs (p - q) + SFmu emax)) /\
  (Rabs (q - p) <= SFom prec emax -> SFfin prec emax (f_x (ssub O c (smul O a b))) /\
     Rabs (f_val (ssub O c (smul O a b)) - (q - p)) <= SFu prec * (Rabs (q - p) + SFmu emax)).
Proof. exact C72_fused_proof. Qed.
Print Assumptions C72_fused.
(** so the transforms have the error bounds of C53, for every choice of the products that are fused *)
Theorem C72_forward_3d : forall fuse h hn c cosd sind t, 0 <= c -> 15 + 2 * c <= INR t -> libm_ok c cosd sind ->
  forall ar n sts N permute ins outs f bi bo (M0 : nat -> @rmem fnum) scaled x,
  ready3 ar n sts N permute ins outs f -> isdata bi -> isdata bo -> bi = bo \/ f_pre f = true -> arrays_ok f bo M0 ->
  (forall p, in_grid N p -> cfin f_fin (x p)) ->
  (forall r, (r < n)%nat -> holds3 2 0 (ins r) (fld x) (getb bi (M0 r))) ->
  (1 + SFu 53) ^ cost3 t N * (4 * size3 (SFmu 1024) N (vals f_val x)) <= SFom 53 1024 ->
  exists P y, setup_ffts3 (tagged2 h (twiddleD cosd sind)) N = Some P /\
  exec_all n (compute3 (Fops 53 1024 fuse) (tagged1 hn normD) f P scaled false FORWARD bi bo) M0
    (fun r m => holds3 2 permute (outs r) (fld y) (getb bo m) /\ framed M0 bo (fun r => (2 * f_fftsize f r)%Z) r m) /\
  (forall p, in_grid N p ->
     within f_val f_fin (((1 + SFu 53) ^ cost3 t N - 1) * size3 (SFmu 1024) N (vals f_val x)) (y p) (DFT3 false N (vals f_val x) p)).
Proof. exact C72_forward_3d_proof. Qed.
Print Assumptions C72_forward_3d.
Theorem C72_round_trip_3d : forall fuse h hn c cosd sind t, 0 <= c -> 15 + 2 * c <= INR t -> libm_ok c cosd sind ->
  forall ar n sts N permute ins outs f b (M0 : nat -> @rmem fnum) s1 scaled x,
  ready3 ar n sts N permute ins outs f -> (grid_points N < 2 ^ 63)%Z -> isdata b -> room3 f BACKWARD b M0 ->
  (scaled = true -> forall r, (r < n)%nat -> (psize3 (ins r) <= psize3 (outs r))%Z) ->
  (forall p, in_grid N p -> cfin f_fin (x p)) ->
  (forall r, (r < n)%nat -> holds3 2 0 (ins r) (fld x) (getb b (M0 r))) ->
  (1 + SFu 53) ^ (2 * cost3 t N + scale_cost 3 scaled) * (4 * (size3 (SFmu 1024) N (vals f_val x) * IZR (grid_points N))) <= SFom 53 1024 ->
  exists P y, setup_ffts3 (tagged2 h (twiddleD cosd sind)) N = Some P /\
  exec_all n (fun r => compute3 (Fops 53 1024 fuse) (tagged1 hn normD) f P s1 false FORWARD b b r ++
                       compute3 (Fops 53 1024 fuse) (tagged1 hn normD) f P scaled false BACKWARD b b r) M0
    (fun r m => holds3 2 0 (ins r) (fld y) (getb b m) /\ framed M0 b (fun r => (2 * f_fftsize f r)%Z) r m) /\
  (forall p, in_grid N p ->
     within f_val f_fin (((1 + SFu 53) ^ (2 * cost3 t N + scale_cost 3 scaled) - 1) *
                                   (size3 (SFmu 1024) N (vals f_val x) * (if scaled then 1 else IZR (grid_points N)))) (y p)
     (rmulc (if scaled then 1 else IZR (grid_points N)) (vals f_val x p))).
Proof. exact C72_round_trip_3d_proof. Qed.
Print Assumptions C72_round_trip_3d.
Theorem C72_round_trip_3d_single : forall fuse h hn c cosd sind, 0 <= c <= 1000000 -> libm_ok c cosd sind ->
  forall ar n sts N permute ins outs f b (M0 : nat -> @rmem fnum) s1 scaled x,
  ready3 ar n sts N permute ins outs f -> (grid_points N < 2 ^ 63)%Z -> isdata b -> room3 f BACKWARD b M0 ->
  (scaled = true -> forall r, (r < n)%nat -> (psize3 (ins r) <= psize3 (outs r))%Z) ->
  (forall p, in_grid N p -> cfin f_fin (x p)) ->
  (forall r, (r < n)%nat -> holds3 2 0 (ins r) (fld x) (getb b (M0 r))) ->
  (1 + SFu 24) ^ (2 * cost3 2 N + scale_cost 2 scaled) * (4 * (size3 (SFmu 128) N (vals f_val x) * IZR (grid_points N))) <= SFom 24 128 ->
  exists P y, setup_ffts3 (tagged2 h (twiddleF cosd sind)) N = Some P /\
  exec_all n (fun r => compute3 (Fops 24 128 fuse) (tagged1 hn normF) f P s1 false FORWARD b b r ++
                       compute3 (Fops 24 128 fuse) (tagged1 hn normF) f P scaled false BACKWARD b b r) M0
    (fun r m => holds3 2 0 (ins r) (fld y) (getb b m) /\ framed M0 b (fun r => (2 * f_fftsize f r)%Z) r m) /\
  (forall p, in_grid N p ->
     within f_val f_fin (((1 + SFu 24) ^ (2 * cost3 2 N + scale_cost 2 scaled) - 1) *
                                   (size3 (SFmu 128) N (vals f_val x) * (if scaled then 1 else IZR (grid_points N)))) (y p)
     (rmulc (if scaled then 1 else IZR (grid_points N)) (vals f_val x p))).
Proof. exact C72_round_trip_3d_single_proof. Qed.
Print Assumptions C72_round_trip_3d_single.
Theorem C72_round_trip_2d : forall fuse h hn c cosd sind t, 0 <= c -> 15 + 2 * c <= INR t -> libm_ok c cosd sind ->
  forall esize ar n sts N permute ins outs f b (M0 : nat -> @rmem fnum) s1 scaled x,
  ready2 esize ar n sts N permute ins outs f -> (grid_points2 N < 2 ^ 63)%Z -> isdata b -> arrays_ok2 f b M0 ->
  (scaled = true -> forall r, (r < n)%nat -> (psize2 (ins r) <= psize2 (outs r))%Z) ->
  (forall p, in_grid2 N p -> cfin f_fin (x p)) ->
  (forall r, (r < n)%nat -> holds2 2 0 (ins r) (fld x) (getb b (M0 r))) ->
  (1 + SFu 53) ^ (2 * cost2 t N + scale_cost 3 scaled) * (4 * (size2 (SFmu 1024) N (vals f_val x) * IZR (grid_points2 N))) <= SFom 53 1024 ->
  exists P y, setup_ffts2 (tagged2 h (twiddleD cosd sind)) N = Some P /\
  exec_all n (fun r => compute2 (Fops 53 1024 fuse) (tagged1 hn normD) esize f P s1 false FORWARD b b r ++
                       compute2 (Fops 53 1024 fuse) (tagged1 hn normD) esize f P scaled false BACKWARD b b r) M0
    (fun r m => holds2 2 0 (ins r) (fld y) (getb b m) /\ framed M0 b (fun r => (2 * t_fftsize f r)%Z) r m) /\
  (forall p, in_grid2 N p ->
     within f_val f_fin (((1 + SFu 53) ^ (2 * cost2 t N + scale_cost 3 scaled) - 1) *
                                   (size2 (SFmu 1024) N (vals f_val x) * (if scaled then 1 else IZR (grid_points2 N)))) (y p)
     (rmulc (if scaled then 1 else IZR (grid_points2 N)) (vals f_val x p))).
Proof. exact C72_round_trip_2d_proof. Qed.
Print Assumptions C72_round_trip_2d.
(** and the bounds of C70 on the Euclidean norm of the error *)
Theorem C72_norm_forward_3d : forall fuse h hn c cosd sind t, 0 <= c -> 15 + 2 * c <= INR t -> libm_ok c cosd sind ->
  forall ar n sts N permute ins outs f bi bo (M0 : nat -> @rmem fnum) scaled x,
  ready3 ar n sts N permute ins outs f -> isdata bi -> isdata bo -> bi = bo \/ f_pre f = true -> arrays_ok f bo M0 ->
  (forall p, in_grid N p -> cfin f_fin (x p)) ->
  (forall r, (r < n)%nat -> holds3 2 0 (ins r) (fld x) (getb bi (M0 r))) ->
  (1 + SFu 53) ^ cost3 t N * (4 * size3 (SFmu 1024) N (vals f_val x)) <= SFom 53 1024 ->
  exists P y, setup_ffts3 (tagged2 h (twiddleD cosd sind)) N = Some P /\
  exec_all n (compute3 (Fops 53 1024 fuse) (tagged1 hn normD) f P scaled false FORWARD bi bo) M0
    (fun r m => holds3 2 permute (outs r) (fld y) (getb bo m) /\ framed M0 bo (fun r => (2 * f_fftsize f r)%Z) r m) /\
  (forall p, in_grid N p -> cfin f_fin (y p)) /\
  norm3 N (minus f_val y (DFT3 false N (vals f_val x))) <= ((1 + SFu 53) ^ ncost3 t N - 1) * (sqrt (IZR (grid_points N)) * nsize3 (SFmu 1024) N (vals f_val x)).
Proof. exact C72_norm_forward_3d_proof. Qed.
Print Assumptions C72_norm_forward_3d.
Theorem C72_norm_round_trip_3d : forall fuse h hn c cosd sind t, 0 <= c -> 15 + 2 * c <= INR t -> libm_ok c cosd sind ->
  forall ar n sts N permute ins outs f b (M0 : nat -> @rmem fnum) s1 scaled x,
  ready3 ar n sts N permute ins outs f -> (grid_points N < 2 ^ 63)%Z -> isdata b -> room3 f BACKWARD b M0 ->
  (scaled = true -> forall r, (r < n)%nat -> (psize3 (ins r) <= psize3 (outs r))%Z) ->
  (forall p, in_grid N p -> cfin f_fin (x p)) ->
  (forall r, (r < n)%nat -> holds3 2 0 (ins r) (fld x) (getb b (M0 r))) ->
  (1 + SFu 53) ^ (2 * cost3 t N + scale_cost 3 scaled) * (4 * (size3 (SFmu 1024) N (vals f_val x) * IZR (grid_points N))) <= SFom 53 1024 ->
  exists P y, setup_ffts3 (tagged2 h (twiddleD cosd sind)) N = Some P /\
  exec_all n (fun r => compute3 (Fops 53 1024 fuse) (tagged1 hn normD) f P s1 false FORWARD b b r ++
                       compute3 (Fops 53 1024 fuse) (tagged1 hn normD) f P scaled false BACKWARD b b r) M0
    (fun r m => holds3 2 0 (ins r) (fld y) (getb b m) /\ framed M0 b (fun r => (2 * f_fftsize f r)%Z) r m) /\
  (forall p, in_grid N p -> cfin f_fin (y p)) /\
  norm3 N (minus f_val y (fun p => rmulc (if scaled then 1 else IZR (grid_points N)) (vals f_val x p))) <=
  ((1 + SFu 53) ^ (2 * ncost3 t N + scale_cost 3 scaled) - 1) * (nsize3 (SFmu 1024) N (vals f_val x) * (if scaled then 1 else IZR (grid_points N))).
Proof. exact C72_norm_round_trip_3d_proof. Qed.
Print Assumptions C72_norm_round_trip_3d.
Theorem C72_norm_round_trip_3d_single : forall fuse h hn c cosd sind, 0 <= c <= 1000000 -> libm_ok c cosd sind ->
  forall ar n sts N permute ins outs f b (M0 : nat -> @rmem fnum) s1 scaled x,
  ready3 ar n sts N permute ins outs f -> (grid_points N < 2 ^ 63)%Z -> isdata b -> room3 f BACKWARD b M0 ->
  (scaled = true -> forall r, (r < n)%nat -> (psize3 (ins r) <= psize3 (outs r))%Z) ->
  (forall p, in_grid N p -> cfin f_fin (x p)) ->
  (forall r, (r < n)%nat -> holds3 2 0 (ins r) (fld x) (getb b (M0 r))) ->
  (1 + SFu 24) ^ (2 * cost3 2 N + scale_cost 2 scaled) * (4 * (size3 (SFmu 128) N (vals f_val x) * IZR (grid_points N))) <= SFom 24 128 ->
  exists P y, setup_ffts3 (tagged2 h (twiddleF cosd sind)) N = Some P /\
  exec_all n (fun r => compute3 (Fops 24 128 fuse) (tagged1 hn normF) f P s1 false FORWARD b b r ++
                       compute3 (Fops 24 128 fuse) (tagged1 hn normF) f P scaled false BACKWARD b b r) M0
    (fun r m => holds3 2 0 (ins r) (fld y) (getb b m) /\ framed M0 b (fun r => (2 * f_fftsize f r)%Z) r m) /\
  (forall p, in_grid N p -> cfin f_fin (y p)) /\
  norm3 N (minus f_val y (fun p => rmulc (if scaled then 1 else IZR (grid_points N)) (vals f_val x p))) <=
  ((1 + SFu 24) ^ (2 * ncost3 2 N + scale_cost 2 scaled) - 1) * (nsize3 (SFmu 128) N (vals f_val x) * (if scaled then 1 else IZR (grid_points N))).
Proof. exact C72_norm_round_trip_3d_single_proof. Qed.
Print Assumptions C72_norm_round_trip_3d_single.
Theorem C72_norm_round_trip_2d : forall fuse h hn c cosd sind t, 0 <= c -> 15 + 2 * c <= INR t -> libm_ok c cosd sind ->
  forall esize ar n sts N permute ins outs f b (M0 : nat -> @rmem fnum) s1 scaled x,
  ready2 esize ar n sts N permute ins outs f -> (grid_points2 N < 2 ^ 63)%Z -> isdata b -> arrays_ok2 f b M0 ->
  (scaled = true -> forall r, (r < n)%nat -> (psize2 (ins r) <= psize2 (outs r))%Z) ->
  (forall p, in_grid2 N p -> cfin f_fin (x p)) ->
  (forall r, (r < n)%nat -> holds2 2 0 (ins r) (fld x) (getb b (M0 r))) ->
  (1 + SFu 53) ^ (2 * cost2 t N + scale_cost 3 scaled) * (4 * (size2 (SFmu 1024) N (vals f_val x) * IZR (grid_points2 N))) <= SFom 53 1024 ->
  exists P y, setup_ffts2 (tagged2 h (twiddleD cosd sind)) N = Some P /\
  exec_all n (fun r => compute2 (Fops 53 1024 fuse) (tagged1 hn normD) esize f P s1 false FORWARD b b r ++
                       compute2 (Fops 53 1024 fuse) (tagged1 hn normD) esize f P scaled false BACKWARD b b r) M0
    (fun r m => holds2 2 0 (ins r) (fld y) (getb b m) /\ framed M0 b (fun r => (2 * t_fftsize f r)%Z) r m) /\
  (forall p, in_grid2 N p -> cfin f_fin (y p)) /\
  norm2 N (minus f_val y (fun p => rmulc (if scaled then 1 else IZR (grid_points2 N)) (vals f_val x p))) <=
  ((1 + SFu 53) ^ (2 * ncost2 t N + scale_cost 3 scaled) - 1) * (nsize2 (SFmu 1024) N (vals f_val x) * (if scaled then 1 else IZR (grid_points2 N))).
Proof. exact C72_norm_round_trip_2d_proof. Qed.
Print Assumptions C72_norm_round_trip_2d.
(** fusing in procfactors and surfarea: the laws hold that C15 to C21 need, and the grids chosen are the best up to rounding *)
Theorem C72_areas : forall k0 ks, area_laws (fused_areas k0 ks).
Proof. exact fused_laws. Qed.
Print Assumptions C72_areas.
Theorem C72_min : forall k0 ks P nx ny nz g t, (1 <= P)%Z -> in_int nx -> in_int ny -> in_int nz -> (length (small_divisors P) <= NFACTOR)%nat ->
  procfactors (fused_areas k0 ks) P nx ny nz = Some g -> good_grid3 P nx ny nz t ->
  (surface3 nx ny nz g <= (1 + (1 # 2 ^ 49)) * surface3 nx ny nz t)%Q.
Proof. exact fused_min. Qed.
Print Assumptions C72_min.
(** but they are not always the same: 18 processes whose programs fuse differently do not agree on the pencils of a 16x16x16
    grid, and two of them claim the same points *)
Theorem C72_same_grid_refuted : exists g g' r r' p, procfactors double_areas 18 1 16 16 = Some g /\ procfactors fused23 18 1 16 16 = Some g' /\
  (0 <= r < 18)%Z /\ (0 <= r' < 18)%Z /\ r <> r' /\ inb3 p (fast_box3 (16, 16, 16)%Z g r) /\ inb3 p (fast_box3 (16, 16, 16)%Z g' r').
Proof. exact fused_grids. Qed.
Print Assumptions C72_same_grid_refuted.
Example C72_min_example : in_int 1 /\ in_int 16 /\ (length (small_divisors 18) <= NFACTOR)%nat /\
  procfactors fused23 18 1 16 16 = Some (1, 6, 3)%Z /\ good_grid3 18 1 16 16 (1, 3, 6)%Z.
Proof.
  split; [vm_compute; split; discriminate|]. split; [vm_compute; split; discriminate|]. split; [apply Nat.leb_le; vm_compute; reflexivity|].
  split; [vm_compute; reflexivity|]. unfold good_grid3. repeat split; try lia; discriminate.
Qed.
(** hypotheses; x y + c with x = y = 1 + 2^-30 and c = - (1 + 2^-29): 2^-60 if the product is fused, 0 if it is not; and a
    transform of length 3 with no product and with all products fused: one number differs in its last figure *)
Example C72_double_example : libm_ok 3 cos53 sin53 /\ 15 + 2 * 3 <= INR 21.
Proof. exact C53_double_example. Qed.
Example C72_float_example : libm_ok 3 cos53 sin53 /\ 0 <= 3 <= 1000000.
Proof. exact C53_float_example. Qed.
Definition ex_a : fnum := given (S754_finite false 4503599631564800 (-52)) 0.
Definition ex_c : fnum := given (S754_finite true 4503599635759104 (-52)) 1.
Example C72_plain_example : SFfin 53 1024 (f_x ex_a) /\ SFfin 53 1024 (f_x ex_c) /\
  (let O := Fops 53 1024 (fun _ _ => false) in f_x (sadd O (smul O ex_a ex_a) ex_c)) = S754_zero false.
Proof. repeat split; vm_compute; reflexivity. Qed.
Example C72_fused_example : SFfin 53 1024 (f_x ex_a) /\ SFfin 53 1024 (f_x ex_c) /\
  (let O := Fops 53 1024 (fun _ _ => true) in f_x (sadd O (smul O ex_a ex_a) ex_c)) = S754_finite false 4503599627370496 (-112).
Proof. repeat split; vm_compute; reflexivity. Qed.
Definition tag3 (inv : bool) (i n : Z) : hist * hist := (Given (2 * i), Given (2 * i + 1)).
Definition run3 (fuse : hist -> hist -> bool) : option (list (spec_float * spec_float)) :=
  st <- kiss_fft_alloc (tagged2 tag3 dbl3) 3 false;
  out <- kiss_fft_outplace (Fops 53 1024 fuse) st 1 (map (fun k => (given (SFdiv 53 1024 (SFofZ 53 1024 k) (SFofZ 53 1024 7)) (10 * k), given (SFdiv 53 1024 (SFofZ 53 1024 (k * k)) (SFofZ 53 1024 11)) (10 * k + 1))) [1; 2; 3]%Z) 0
     (repeat (given S754_nan 0, given S754_nan 0) 3) 0;
  Some (map (fun z => (f_x (fst z), f_x (snd z))) out).
Example C72_run_example :
  run3 (fun _ _ => false) = Some
       [(S754_finite false 7720456504063706 (-53), S754_finite false 5731854071198813 (-52));
        (S754_finite true 5475779294904092 (-53), S754_finite true 6778495434297003 (-54));
        (S754_finite false 6462204171488956 (-55), S754_finite true 5617951537592491 (-53))] /\
  run3 (fun _ _ => true) = Some
       [(S754_finite false 7720456504063706 (-53), S754_finite false 5731854071198813 (-52));
        (S754_finite true 5475779294904092 (-53), S754_finite true 6778495434297003 (-54));
        (S754_finite false 6462204171488955 (-55), S754_finite true 5617951537592491 (-53))].
Proof. split; vm_compute; reflexivity. Qed.
Example C72_forward_3d_example : exists f (M0 : nat -> @rmem fnum), ready3 exact_areas 2 (mkset 1 0 1) g2 1 split3 isplit3 f /\
  isdata BIn /\ arrays_ok f BIn M0 /\
  (forall p, in_grid g2 p -> cfin f_fin (exF 53 1024 p)) /\
  (forall r, (r < 2)%nat -> holds3 2 0 (split3 r) (fld (exF 53 1024)) (getb BIn (M0 r))) /\
  (1 + SFu 53) ^ cost3 21 g2 * (4 * size3 (SFmu 1024) g2 (vals f_val (exF 53 1024))) <= SFom 53 1024.
Proof.
  destruct smallD as (U & M & W). destruct (fma_start3 53 1024 ltac:(lia) ltac:(lia) U M W) as (f & M0 & Hr & Hg & Hb & Ha & Hro & Hs & Hfx & Hx & Z1).
  exists f, M0. split; [exact Hr|]. split; [exact Hb|]. split; [exact Ha|]. split; [exact Hfx|].
  split; [exact Hx|]. apply small_guard; auto; [vm_compute cost3; cbn [INR]; lra|lra].
Qed.
Example C72_round_trip_3d_example : exists f (M0 : nat -> @rmem fnum), ready3 exact_areas 2 (mkset 1 0 1) g2 1 split3 isplit3 f /\
  (grid_points g2 < 2 ^ 63)%Z /\ isdata BIn /\ room3 f BACKWARD BIn M0 /\
  (forall r, (r < 2)%nat -> (psize3 (split3 r) <= psize3 (isplit3 r))%Z) /\
  (forall p, in_grid g2 p -> cfin f_fin (exF 53 1024 p)) /\
  (forall r, (r < 2)%nat -> holds3 2 0 (split3 r) (fld (exF 53 1024)) (getb BIn (M0 r))) /\
  (1 + SFu 53) ^ (2 * cost3 21 g2 + scale_cost 3 true) * (4 * (size3 (SFmu 1024) g2 (vals f_val (exF 53 1024)) * IZR (grid_points g2))) <= SFom 53 1024.
Proof.
  destruct smallD as (U & M & W). destruct (fma_start3 53 1024 ltac:(lia) ltac:(lia) U M W) as (f & M0 & Hr & Hg & Hb & Ha & Hro & Hs & Hfx & Hx & Z1).
  exists f, M0. split; [exact Hr|]. split; [exact Hg|]. split; [exact Hb|]. split; [exact Hro|]. split; [exact Hs|]. split; [exact Hfx|].
  split; [exact Hx|]. apply small_guard; auto; [vm_compute cost3; cbn [INR scale_cost Nat.add Nat.mul]; lra|change (IZR (grid_points g2)) with 8; lra].
Qed.
Example C72_round_trip_3d_single_example : exists f (M0 : nat -> @rmem fnum), ready3 exact_areas 2 (mkset 1 0 1) g2 1 split3 isplit3 f /\
  (grid_points g2 < 2 ^ 63)%Z /\ isdata BIn /\ room3 f BACKWARD BIn M0 /\
  (forall r, (r < 2)%nat -> (psize3 (split3 r) <= psize3 (isplit3 r))%Z) /\
  (forall p, in_grid g2 p -> cfin f_fin (exF 24 128 p)) /\
  (forall r, (r < 2)%nat -> holds3 2 0 (split3 r) (fld (exF 24 128)) (getb BIn (M0 r))) /\
  (1 + SFu 24) ^ (2 * cost3 2 g2 + scale_cost 2 true) * (4 * (size3 (SFmu 128) g2 (vals f_val (exF 24 128)) * IZR (grid_points g2))) <= SFom 24 128.
Proof.
  destruct smallF as (U & M & W). destruct (fma_start3 24 128 ltac:(lia) ltac:(lia) U M W) as (f & M0 & Hr & Hg & Hb & Ha & Hro & Hs & Hfx & Hx & Z1).
  exists f, M0. split; [exact Hr|]. split; [exact Hg|]. split; [exact Hb|]. split; [exact Hro|]. split; [exact Hs|]. split; [exact Hfx|].
  split; [exact Hx|]. apply small_guard; auto; [vm_compute cost3; cbn [INR scale_cost Nat.add Nat.mul]; lra|change (IZR (grid_points g2)) with 8; lra].
Qed.
Example C72_round_trip_2d_example : exists f (M0 : nat -> @rmem fnum), ready2 8 exact_areas 2 (mkset 1 0 1) sq2 1 split2 isplit2 f /\
  (grid_points2 sq2 < 2 ^ 63)%Z /\ isdata BIn /\ arrays_ok2 f BIn M0 /\
  (forall r, (r < 2)%nat -> (psize2 (split2 r) <= psize2 (isplit2 r))%Z) /\
  (forall p, in_grid2 sq2 p -> cfin f_fin (exF2 53 1024 p)) /\
  (forall r, (r < 2)%nat -> holds2 2 0 (split2 r) (fld (exF2 53 1024)) (getb BIn (M0 r))) /\
  (1 + SFu 53) ^ (2 * cost2 21 sq2 + scale_cost 3 true) * (4 * (size2 (SFmu 1024) sq2 (vals f_val (exF2 53 1024)) * IZR (grid_points2 sq2))) <= SFom 53 1024.
Proof.
  destruct smallD as (U & M & W). destruct (fma_start2 53 1024 ltac:(lia) ltac:(lia) U M W) as (f & M0 & Hr & Hg & Hb & Ha & Hs & Hfx & Hx & Z1).
  exists f, M0. split; [exact Hr|]. split; [exact Hg|]. split; [exact Hb|]. split; [exact Ha|]. split; [exact Hs|]. split; [exact Hfx|].
  split; [exact Hx|]. apply small_guard; auto; [vm_compute cost2; cbn [INR scale_cost Nat.add Nat.mul]; lra|change (IZR (grid_points2 sq2)) with 4; lra].
Qed.
