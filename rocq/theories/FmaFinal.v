(** FmaFinal.v : C72, the transforms where the compiler fuses products with sums. *)

From Coq Require Import Reals Lra Floats.SpecFloat.
From Verif Require Import Base Spec Pack3d Sched SchedProofs Phases Exec Remap RemapMain RemapInst
  Remap3d RemapThms RemapTop ExRemap Layout Setup3d Setup2d Setup3dProofs Setup2dProofs LayoutFinal Kiss KissPure KissReal Fft1d KissFinal DftMulti
  Fft3d Frame Fft3dProofs Fft3dMain Fft3dTop Fft3dFinal Fft3dStmt Fft3dEx Fft2d Fft2dMain Fft2dTop Fft2dFinal Fft2dStmt Fft2dEx
  Round RoundKiss RoundFft RoundThms Binary RoundDouble RoundTable RoundFinal PropertiesRound RoundL2 RoundL2Fft RoundL2Thms RoundL2Final
  Fma FmaProofs.
Local Open Scope R_scope.

Lemma C72_double_proof : forall fuse,
  rounding (SFu 53) (SFmu 1024) (SFom 53 1024) (Fops 53 1024 fuse) f_val f_fin /\
  (forall h c cosd sind t inv L, 0 <= c -> 15 + 2 * c <= INR t -> libm_ok c cosd sind -> (L < 2 ^ 31)%Z ->
     table_ok (SFu 53) f_val f_fin t (tagged2 h (twiddleD cosd sind)) inv L) /\
  (forall h k, (1 <= k < 2 ^ 63)%Z -> norm_ok (SFu 53) f_val f_fin 3 (tagged1 h normD) k).
Proof.
  intros fuse. split; [apply Frounding; lia|]. split.
  - intros h c cosd sind t inv L Hc Ht Hl HL. apply (tagged_table 53 1024), (proj1 (proj2 C53_double_proof) c); assumption.
  - intros h k Hk. apply (tagged_norm 53 1024), (proj2 (proj2 C53_double_proof)), Hk.
Qed.
Lemma C72_float_proof : forall fuse,
  rounding (SFu 24) (SFmu 128) (SFom 24 128) (Fops 24 128 fuse) f_val f_fin /\
  (forall h c cosd sind inv L, 0 <= c <= 1000000 -> libm_ok c cosd sind -> (L < 2 ^ 31)%Z ->
     table_ok (SFu 24) f_val f_fin 2 (tagged2 h (twiddleF cosd sind)) inv L) /\
  (forall h k, (1 <= k < 2 ^ 63)%Z -> norm_ok (SFu 24) f_val f_fin 2 (tagged1 h normF) k).
Proof.
  intros fuse. split; [apply Frounding; lia|]. split.
  - intros h c cosd sind inv L Hc Hl HL. apply (tagged_table 24 128), (proj1 (proj2 C53_float_proof) c); assumption.
  - intros h k Hk. apply (tagged_norm 24 128), (proj2 (proj2 C53_float_proof)), Hk.
Qed.
Lemma C72_plain_proof : forall prec emax fuse, (2 <= prec)%Z -> (prec < emax)%Z -> forall a b,
  SFfin prec emax (f_x a) -> SFfin prec emax (f_x b) ->
  f_x (sadd (Fops prec emax fuse) a b) = SFadd prec emax (f_x a) (f_x b) /\
  f_x (ssub (Fops prec emax fuse) a b) = SFsub prec emax (f_x a) (f_x b) /\
  (fuse (f_h a) (f_h b) = false -> f_x (smul (Fops prec emax fuse) a b) = SFmul prec emax (f_x a) (f_x b)) /\
  (fuse (f_h a) (Given (-3)) = false -> f_x (shalf (Fops prec emax fuse) a) = SFmul prec emax (f_x a) (SFhalf prec)) /\
  f_x (sopp (Fops prec emax fuse) a) = SFopp (f_x a).
Proof.
  exact plain_proof.
Qed.
Lemma C72_fused_proof : forall prec emax, (2 <= prec)%Z -> (prec < emax)%Z -> forall fuse a b c,
  SFfin prec emax (f_x a) -> SFfin prec emax (f_x b) -> SFfin prec emax (f_x c) -> fuse (f_h a) (f_h b) = true ->
  let O := Fops prec emax fuse in
  let p := f_val a * f_val b in let q := f_val c in
  (Rabs (p + q) <= SFom prec emax -> SFfin prec emax (f_x (sadd O (smul O a b) c)) /\
     Rabs (f_val (sadd O (smul O a b) c) - (p + q)) <= SFu prec * (Rabs (p + q) + SFmu emax)) /\
  (Rabs (p - q) <= SFom prec emax -> SFfin prec emax (f_x (ssub O (smul O a b) c)) /\
     Rabs (f_val (ssub O (smul O a b) c) - (p - q)) <= SFu prec * (Rabs (p - q) + SFmu emax)) /\
  (Rabs (q - p) <= SFom prec emax -> SFfin prec emax (f_x (ssub O c (smul O a b))) /\
     Rabs (f_val (ssub O c (smul O a b)) - (q - p)) <= SFu prec * (Rabs (q - p) + SFmu emax)).
Proof.
  exact fused_proof.
Qed.
Lemma C72_forward_3d_proof : forall fuse h hn c cosd sind t, 0 <= c -> 15 + 2 * c <= INR t -> libm_ok c cosd sind ->
  forall ar n sts N permute ins outs f bi bo (M0 : nat -> @rmem fnum) scaled x,
  ready3 ar n sts N permute ins outs f -> isdata bi -> isdata bo -> bi = bo \/ f_pre f = true -> arrays_ok f bo M0 ->
  (forall p, in_grid N p -> cfin f_fin (x p)) ->
  (forall r, (r < n)%nat -> holds3 2 0 (ins r) (fld x) (getb bi (M0 r))) ->
  (1 + SFu 53) ^ cost3 t N * (4 * size3 (SFmu 1024) N (vals f_val x)) <= SFom 53 1024 ->
  exists P y, setup_ffts3 (tagged2 h (twiddleD cosd sind)) N = Some P /\
  exec_all n (compute3 (Fops 53 1024 fuse) (tagged1 hn normD) f P scaled false FORWARD bi bo) M0
    (fun r m => holds3 2 permute (outs r) (fld y) (getb bo m) /\ framed M0 bo (fun r => (2 * f_fftsize f r)%Z) r m) /\
  (forall p, in_grid N p ->
     within f_val f_fin (((1 + SFu 53) ^ cost3 t N - 1) * size3 (SFmu 1024) N (vals f_val x)) (y p) (DFT3 false N (vals f_val x) p)).
Proof.
  intros fuse h hn c cosd sind t Hc Ht Hl.
  exact (build_forward3 _ _ _ _ _ _ t _ _ (proj1 (C72_double_proof fuse))
    (fun inv L => proj1 (proj2 (C72_double_proof fuse)) h c cosd sind t inv L Hc Ht Hl)).
Qed.
Lemma C72_round_trip_3d_proof : forall fuse h hn c cosd sind t, 0 <= c -> 15 + 2 * c <= INR t -> libm_ok c cosd sind ->
  forall ar n sts N permute ins outs f b (M0 : nat -> @rmem fnum) s1 scaled x,
  ready3 ar n sts N permute ins outs f -> (grid_points N < 2 ^ 63)%Z -> isdata b -> room3 f BACKWARD b M0 ->
  (scaled = true -> forall r, (r < n)%nat -> (psize3 (ins r) <= psize3 (outs r))%Z) ->
  (forall p, in_grid N p -> cfin f_fin (x p)) ->
  (forall r, (r < n)%nat -> holds3 2 0 (ins r) (fld x) (getb b (M0 r))) ->
  (1 + SFu 53) ^ (2 * cost3 t N + scale_cost 3 scaled) * (4 * (size3 (SFmu 1024) N (vals f_val x) * IZR (grid_points N))) <= SFom 53 1024 ->
  exists P y, setup_ffts3 (tagged2 h (twiddleD cosd sind)) N = Some P /\
  exec_all n (fun r => compute3 (Fops 53 1024 fuse) (tagged1 hn normD) f P s1 false FORWARD b b r ++
                       compute3 (Fops 53 1024 fuse) (tagged1 hn normD) f P scaled false BACKWARD b b r) M0
    (fun r m => holds3 2 0 (ins r) (fld y) (getb b m) /\ framed M0 b (fun r => (2 * f_fftsize f r)%Z) r m) /\
  (forall p, in_grid N p ->
     within f_val f_fin (((1 + SFu 53) ^ (2 * cost3 t N + scale_cost 3 scaled) - 1) *
                                   (size3 (SFmu 1024) N (vals f_val x) * (if scaled then 1 else IZR (grid_points N)))) (y p)
     (rmulc (if scaled then 1 else IZR (grid_points N)) (vals f_val x p))).
Proof.
  intros fuse h hn c cosd sind t Hc Ht Hl.
  exact (build_trip3 _ _ _ _ _ _ t 3 _ _ (proj1 (C72_double_proof fuse))
    (fun inv L => proj1 (proj2 (C72_double_proof fuse)) h c cosd sind t inv L Hc Ht Hl) (proj2 (proj2 (C72_double_proof fuse)) hn)).
Qed.
Lemma C72_round_trip_3d_single_proof : forall fuse h hn c cosd sind, 0 <= c <= 1000000 -> libm_ok c cosd sind ->
  forall ar n sts N permute ins outs f b (M0 : nat -> @rmem fnum) s1 scaled x,
  ready3 ar n sts N permute ins outs f -> (grid_points N < 2 ^ 63)%Z -> isdata b -> room3 f BACKWARD b M0 ->
  (scaled = true -> forall r, (r < n)%nat -> (psize3 (ins r) <= psize3 (outs r))%Z) ->
  (forall p, in_grid N p -> cfin f_fin (x p)) ->
  (forall r, (r < n)%nat -> holds3 2 0 (ins r) (fld x) (getb b (M0 r))) ->
  (1 + SFu 24) ^ (2 * cost3 2 N + scale_cost 2 scaled) * (4 * (size3 (SFmu 128) N (vals f_val x) * IZR (grid_points N))) <= SFom 24 128 ->
  exists P y, setup_ffts3 (tagged2 h (twiddleF cosd sind)) N = Some P /\
  exec_all n (fun r => compute3 (Fops 24 128 fuse) (tagged1 hn normF) f P s1 false FORWARD b b r ++
                       compute3 (Fops 24 128 fuse) (tagged1 hn normF) f P scaled false BACKWARD b b r) M0
    (fun r m => holds3 2 0 (ins r) (fld y) (getb b m) /\ framed M0 b (fun r => (2 * f_fftsize f r)%Z) r m) /\
  (forall p, in_grid N p ->
     within f_val f_fin (((1 + SFu 24) ^ (2 * cost3 2 N + scale_cost 2 scaled) - 1) *
                                   (size3 (SFmu 128) N (vals f_val x) * (if scaled then 1 else IZR (grid_points N)))) (y p)
     (rmulc (if scaled then 1 else IZR (grid_points N)) (vals f_val x p))).
Proof.
  intros fuse h hn c cosd sind Hc Hl.
  exact (build_trip3 _ _ _ _ _ _ 2 2 _ _ (proj1 (C72_float_proof fuse))
    (fun inv L => proj1 (proj2 (C72_float_proof fuse)) h c cosd sind inv L Hc Hl) (proj2 (proj2 (C72_float_proof fuse)) hn)).
Qed.
Lemma C72_round_trip_2d_proof : forall fuse h hn c cosd sind t, 0 <= c -> 15 + 2 * c <= INR t -> libm_ok c cosd sind ->
  forall esize ar n sts N permute ins outs f b (M0 : nat -> @rmem fnum) s1 scaled x,
  ready2 esize ar n sts N permute ins outs f -> (grid_points2 N < 2 ^ 63)%Z -> isdata b -> arrays_ok2 f b M0 ->
  (scaled = true -> forall r, (r < n)%nat -> (psize2 (ins r) <= psize2 (outs r))%Z) ->
  (forall p, in_grid2 N p -> cfin f_fin (x p)) ->
  (forall r, (r < n)%nat -> holds2 2 0 (ins r) (fld x) (getb b (M0 r))) ->
  (1 + SFu 53) ^ (2 * cost2 t N + scale_cost 3 scaled) * (4 * (size2 (SFmu 1024) N (vals f_val x) * IZR (grid_points2 N))) <= SFom 53 1024 ->
  exists P y, setup_ffts2 (tagged2 h (twiddleD cosd sind)) N = Some P /\
  exec_all n (fun r => compute2 (Fops 53 1024 fuse) (tagged1 hn normD) esize f P s1 false FORWARD b b r ++
                       compute2 (Fops 53 1024 fuse) (tagged1 hn normD) esize f P scaled false BACKWARD b b r) M0
    (fun r m => holds2 2 0 (ins r) (fld y) (getb b m) /\ framed M0 b (fun r => (2 * t_fftsize f r)%Z) r m) /\
  (forall p, in_grid2 N p ->
     within f_val f_fin (((1 + SFu 53) ^ (2 * cost2 t N + scale_cost 3 scaled) - 1) *
                                   (size2 (SFmu 1024) N (vals f_val x) * (if scaled then 1 else IZR (grid_points2 N)))) (y p)
     (rmulc (if scaled then 1 else IZR (grid_points2 N)) (vals f_val x p))).
Proof.
  intros fuse h hn c cosd sind t Hc Ht Hl.
  exact (build_trip2 _ _ _ _ _ _ t 3 _ _ (proj1 (C72_double_proof fuse))
    (fun inv L => proj1 (proj2 (C72_double_proof fuse)) h c cosd sind t inv L Hc Ht Hl) (proj2 (proj2 (C72_double_proof fuse)) hn)).
Qed.
Lemma C72_norm_forward_3d_proof : forall fuse h hn c cosd sind t, 0 <= c -> 15 + 2 * c <= INR t -> libm_ok c cosd sind ->
  forall ar n sts N permute ins outs f bi bo (M0 : nat -> @rmem fnum) scaled x,
  ready3 ar n sts N permute ins outs f -> isdata bi -> isdata bo -> bi = bo \/ f_pre f = true -> arrays_ok f bo M0 ->
  (forall p, in_grid N p -> cfin f_fin (x p)) ->
  (forall r, (r < n)%nat -> holds3 2 0 (ins r) (fld x) (getb bi (M0 r))) ->
  (1 + SFu 53) ^ cost3 t N * (4 * size3 (SFmu 1024) N (vals f_val x)) <= SFom 53 1024 ->
  exists P y, setup_ffts3 (tagged2 h (twiddleD cosd sind)) N = Some P /\
  exec_all n (compute3 (Fops 53 1024 fuse) (tagged1 hn normD) f P scaled false FORWARD bi bo) M0
    (fun r m => holds3 2 permute (outs r) (fld y) (getb bo m) /\ framed M0 bo (fun r => (2 * f_fftsize f r)%Z) r m) /\
  (forall p, in_grid N p -> cfin f_fin (y p)) /\
  norm3 N (minus f_val y (DFT3 false N (vals f_val x))) <= ((1 + SFu 53) ^ ncost3 t N - 1) * (sqrt (IZR (grid_points N)) * nsize3 (SFmu 1024) N (vals f_val x)).
Proof.
  intros fuse h hn c cosd sind t Hc Ht Hl ar n sts N permute ins outs f bi bo M0 scaled x Hr B1 B2 B3 B4 B5 B6 B7.
  apply (C70_forward_3d_proof _ _ _ _ _ _ (proj1 (C72_double_proof fuse)) t _ (tagged1 hn normD) ar n sts N permute ins outs f Hr bi bo M0 scaled x); auto.
  apply (tables3_all _ _ _ t _ (fun inv L => proj1 (proj2 (C72_double_proof fuse)) h c cosd sind t inv L Hc Ht Hl)). apply Hr.
Qed.
Lemma C72_norm_round_trip_3d_proof : forall fuse h hn c cosd sind t, 0 <= c -> 15 + 2 * c <= INR t -> libm_ok c cosd sind ->
  forall ar n sts N permute ins outs f b (M0 : nat -> @rmem fnum) s1 scaled x,
  ready3 ar n sts N permute ins outs f -> (grid_points N < 2 ^ 63)%Z -> isdata b -> room3 f BACKWARD b M0 ->
  (scaled = true -> forall r, (r < n)%nat -> (psize3 (ins r) <= psize3 (outs r))%Z) ->
  (forall p, in_grid N p -> cfin f_fin (x p)) ->
  (forall r, (r < n)%nat -> holds3 2 0 (ins r) (fld x) (getb b (M0 r))) ->
  (1 + SFu 53) ^ (2 * cost3 t N + scale_cost 3 scaled) * (4 * (size3 (SFmu 1024) N (vals f_val x) * IZR (grid_points N))) <= SFom 53 1024 ->
  exists P y, setup_ffts3 (tagged2 h (twiddleD cosd sind)) N = Some P /\
  exec_all n (fun r => compute3 (Fops 53 1024 fuse) (tagged1 hn normD) f P s1 false FORWARD b b r ++
                       compute3 (Fops 53 1024 fuse) (tagged1 hn normD) f P scaled false BACKWARD b b r) M0
    (fun r m => holds3 2 0 (ins r) (fld y) (getb b m) /\ framed M0 b (fun r => (2 * f_fftsize f r)%Z) r m) /\
  (forall p, in_grid N p -> cfin f_fin (y p)) /\
  norm3 N (minus f_val y (fun p => rmulc (if scaled then 1 else IZR (grid_points N)) (vals f_val x p))) <=
  ((1 + SFu 53) ^ (2 * ncost3 t N + scale_cost 3 scaled) - 1) * (nsize3 (SFmu 1024) N (vals f_val x) * (if scaled then 1 else IZR (grid_points N))).
Proof.
  intros fuse h hn c cosd sind t Hc Ht Hl ar n sts N permute ins outs f b M0 s1 scaled x Hr Hg B1 B2 B3 B4 B5 B6.
  pose proof (dims_pos3 ar n sts N permute ins outs f Hr) as (_ & _ & _ & Dp). assert (HI : ints3 N) by apply Hr.
  pose proof (fun inv => tables3_all _ _ _ t _ (fun inv L => proj1 (proj2 (C72_double_proof fuse)) h c cosd sind t inv L Hc Ht Hl) N inv HI) as HTb.
  apply (C70_round_trip_3d_proof _ _ _ _ _ _ (proj1 (C72_double_proof fuse)) t _ (tagged1 hn normD) 3 ar n sts N permute ins outs f Hr b M0 s1 scaled x); auto.
  intros _. apply (proj2 (proj2 (C72_double_proof fuse)) hn). split; assumption.
Qed.
Lemma C72_norm_round_trip_3d_single_proof : forall fuse h hn c cosd sind, 0 <= c <= 1000000 -> libm_ok c cosd sind ->
  forall ar n sts N permute ins outs f b (M0 : nat -> @rmem fnum) s1 scaled x,
  ready3 ar n sts N permute ins outs f -> (grid_points N < 2 ^ 63)%Z -> isdata b -> room3 f BACKWARD b M0 ->
  (scaled = true -> forall r, (r < n)%nat -> (psize3 (ins r) <= psize3 (outs r))%Z) ->
  (forall p, in_grid N p -> cfin f_fin (x p)) ->
  (forall r, (r < n)%nat -> holds3 2 0 (ins r) (fld x) (getb b (M0 r))) ->
  (1 + SFu 24) ^ (2 * cost3 2 N + scale_cost 2 scaled) * (4 * (size3 (SFmu 128) N (vals f_val x) * IZR (grid_points N))) <= SFom 24 128 ->
  exists P y, setup_ffts3 (tagged2 h (twiddleF cosd sind)) N = Some P /\
  exec_all n (fun r => compute3 (Fops 24 128 fuse) (tagged1 hn normF) f P s1 false FORWARD b b r ++
                       compute3 (Fops 24 128 fuse) (tagged1 hn normF) f P scaled false BACKWARD b b r) M0
    (fun r m => holds3 2 0 (ins r) (fld y) (getb b m) /\ framed M0 b (fun r => (2 * f_fftsize f r)%Z) r m) /\
  (forall p, in_grid N p -> cfin f_fin (y p)) /\
  norm3 N (minus f_val y (fun p => rmulc (if scaled then 1 else IZR (grid_points N)) (vals f_val x p))) <=
  ((1 + SFu 24) ^ (2 * ncost3 2 N + scale_cost 2 scaled) - 1) * (nsize3 (SFmu 128) N (vals f_val x) * (if scaled then 1 else IZR (grid_points N))).
Proof.
  intros fuse h hn c cosd sind Hc Hl ar n sts N permute ins outs f b M0 s1 scaled x Hr Hg B1 B2 B3 B4 B5 B6.
  pose proof (dims_pos3 ar n sts N permute ins outs f Hr) as (_ & _ & _ & Dp). assert (HI : ints3 N) by apply Hr.
  pose proof (fun inv => tables3_all _ _ _ 2 _ (fun inv L => proj1 (proj2 (C72_float_proof fuse)) h c cosd sind inv L Hc Hl) N inv HI) as HTb.
  apply (C70_round_trip_3d_proof _ _ _ _ _ _ (proj1 (C72_float_proof fuse)) 2 _ (tagged1 hn normF) 2 ar n sts N permute ins outs f Hr b M0 s1 scaled x); auto.
  intros _. apply (proj2 (proj2 (C72_float_proof fuse)) hn). split; assumption.
Qed.
Lemma C72_norm_round_trip_2d_proof : forall fuse h hn c cosd sind t, 0 <= c -> 15 + 2 * c <= INR t -> libm_ok c cosd sind ->
  forall esize ar n sts N permute ins outs f b (M0 : nat -> @rmem fnum) s1 scaled x,
  ready2 esize ar n sts N permute ins outs f -> (grid_points2 N < 2 ^ 63)%Z -> isdata b -> arrays_ok2 f b M0 ->
  (scaled = true -> forall r, (r < n)%nat -> (psize2 (ins r) <= psize2 (outs r))%Z) ->
  (forall p, in_grid2 N p -> cfin f_fin (x p)) ->
  (forall r, (r < n)%nat -> holds2 2 0 (ins r) (fld x) (getb b (M0 r))) ->
  (1 + SFu 53) ^ (2 * cost2 t N + scale_cost 3 scaled) * (4 * (size2 (SFmu 1024) N (vals f_val x) * IZR (grid_points2 N))) <= SFom 53 1024 ->
  exists P y, setup_ffts2 (tagged2 h (twiddleD cosd sind)) N = Some P /\
  exec_all n (fun r => compute2 (Fops 53 1024 fuse) (tagged1 hn normD) esize f P s1 false FORWARD b b r ++
                       compute2 (Fops 53 1024 fuse) (tagged1 hn normD) esize f P scaled false BACKWARD b b r) M0
    (fun r m => holds2 2 0 (ins r) (fld y) (getb b m) /\ framed M0 b (fun r => (2 * t_fftsize f r)%Z) r m) /\
  (forall p, in_grid2 N p -> cfin f_fin (y p)) /\
  norm2 N (minus f_val y (fun p => rmulc (if scaled then 1 else IZR (grid_points2 N)) (vals f_val x p))) <=
  ((1 + SFu 53) ^ (2 * ncost2 t N + scale_cost 3 scaled) - 1) * (nsize2 (SFmu 1024) N (vals f_val x) * (if scaled then 1 else IZR (grid_points2 N))).
Proof.
  intros fuse h hn c cosd sind t Hc Ht Hl esize ar n sts N permute ins outs f b M0 s1 scaled x Hr Hg B1 B2 B3 B4 B5 B6.
  pose proof (dims_pos2 esize ar n sts N permute ins outs f Hr) as (_ & _ & Dp). assert (HI : ints2 N) by apply Hr.
  pose proof (fun inv => tables2_all _ _ _ t _ (fun inv L => proj1 (proj2 (C72_double_proof fuse)) h c cosd sind t inv L Hc Ht Hl) N inv HI) as HTb.
  apply (C70_round_trip_2d_proof _ _ _ _ _ _ (proj1 (C72_double_proof fuse)) t _ (tagged1 hn normD) 3 esize ar n sts N permute ins outs f Hr b M0 s1 scaled x); auto.
  intros _. apply (proj2 (proj2 (C72_double_proof fuse)) hn). split; assumption.
Qed.

(** ** examples *)
(** the numbers of RoundFinal.v, each with a history of its own *)
Definition given (v : spec_float) (i : Z) : fnum := mkf v (Given i).
Definition exF prec emax (p : pt3) : fnum * fnum := (given (fst (exD prec emax p)) 0, given (snd (exD prec emax p)) 1).
Definition exF2 prec emax (p : pt2) : fnum * fnum := (given (fst (exD2 prec emax p)) 0, given (snd (exD2 prec emax p)) 1).
Lemma given_fin prec emax a b i j : cfin (SFfin prec emax) (a, b) -> cfin f_fin (given a i, given b j).
Proof. intros (A & B). cbn [fst snd] in *. split; unfold f_fin, given; cbn [fst snd f_x]; [destruct a|destruct b]; cbn [SFfin] in *; auto. Qed.

Lemma fma_start3 prec emax : (2 <= prec)%Z -> (prec < emax)%Z -> 0 < SFu prec <= 1 / 1000000 -> 0 < SFmu emax <= 1 / 1000000 -> 1000000000 <= SFom prec emax ->
  exists f (M0 : nat -> @rmem fnum), ready3 exact_areas 2 (mkset 1 0 1) g2 1 split3 isplit3 f /\
  (grid_points g2 < 2 ^ 63)%Z /\ isdata BIn /\ arrays_ok f BIn M0 /\ room3 f BACKWARD BIn M0 /\
  (forall r, (r < 2)%nat -> (psize3 (split3 r) <= psize3 (isplit3 r))%Z) /\
  (forall p, in_grid g2 p -> cfin f_fin (exF prec emax p)) /\
  (forall r, (r < 2)%nat -> holds3 2 0 (split3 r) (fld (exF prec emax)) (getb BIn (M0 r))) /\
  0 <= size3 (SFmu emax) g2 (vals f_val (exF prec emax)) <= 20000.
Proof.
  intros Hp He U M W.
  destruct (small_start3 prec emax Hp He U M W FORWARD) as (f & _ & Hr & Hg & Hb & _ & _ & Hs & Hfx & _).
  pose proof (L_in _ _ _ _ _ _ _ (ready_facts _ _ _ _ _ _ _ _ Hr)) as Hl.
  exists f, (exMem (fun k => given (SFofZ prec emax k) k) (exF prec emax) f 0 split3).
  assert (Ha : arrays_ok f BIn (exMem (fun k => given (SFofZ prec emax k) k) (exF prec emax) f 0 split3)) by (eapply ex_room; eauto).
  split; [exact Hr|]. split; [exact Hg|]. split; [exact Hb|]. split; [exact Ha|].
  split; [split; [exact Ha|intros _; eapply midfast_auto; eauto]|]. split; [exact Hs|].
  split; [intros p Hin; eapply given_fin; rewrite <- surjective_pairing; apply Hfx, Hin|].
  split; [intros r _; apply ex_holds|]. exact (exD_size prec emax Hp He U M W).
Qed.
Lemma fma_start2 prec emax : (2 <= prec)%Z -> (prec < emax)%Z -> 0 < SFu prec <= 1 / 1000000 -> 0 < SFmu emax <= 1 / 1000000 -> 1000000000 <= SFom prec emax ->
  exists f (M0 : nat -> @rmem fnum), ready2 8 exact_areas 2 (mkset 1 0 1) sq2 1 split2 isplit2 f /\
  (grid_points2 sq2 < 2 ^ 63)%Z /\ isdata BIn /\ arrays_ok2 f BIn M0 /\
  (forall r, (r < 2)%nat -> (psize2 (split2 r) <= psize2 (isplit2 r))%Z) /\
  (forall p, in_grid2 sq2 p -> cfin f_fin (exF2 prec emax p)) /\
  (forall r, (r < 2)%nat -> holds2 2 0 (split2 r) (fld (exF2 prec emax)) (getb BIn (M0 r))) /\
  0 <= size2 (SFmu emax) sq2 (vals f_val (exF2 prec emax)) <= 20000.
Proof.
  intros Hp He U M W.
  destruct (small_start2 prec emax Hp He U M W FORWARD) as (f & _ & Hr & Hg & Hb & _ & Hs & Hfx & _).
  pose proof (L_in2 _ _ _ _ _ _ _ (ready_facts2 _ _ _ _ _ _ _ _ _ Hr)) as Hl.
  exists f, (exMem_2 (fun k => given (SFofZ prec emax k) k) (exF2 prec emax) f 0 split2).
  split; [exact Hr|]. split; [exact Hg|]. split; [exact Hb|]. split; [eapply ex_room_2; eauto|]. split; [exact Hs|].
  split; [intros p Hin; eapply given_fin; rewrite <- surjective_pairing; apply Hfx, Hin|].
  split; [intros r _; apply ex_holds_2|]. exact (exD2_size prec emax Hp He U M W).
Qed.
