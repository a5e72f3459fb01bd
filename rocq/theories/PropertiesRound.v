(** PropertiesRound.v : properties C51 to C53 (rounding errors), proofs by reference. *)

From Coq Require Import Reals Lra Floats.SpecFloat.
From Verif Require Import Base Spec Pack3d Sched SchedProofs Phases Exec Remap RemapMain RemapInst
  Remap3d RemapThms RemapTop ExRemap Layout Setup3d Setup2d Setup3dProofs Setup2dProofs LayoutFinal Kiss KissPure KissReal Fft1d KissFinal DftMulti
  Fft3d Frame Fft3dProofs Fft3dMain Fft3dTop Fft3dFinal Fft3dStmt Fft3dEx Fft2d Fft2dMain Fft2dTop Fft2dFinal Fft2dStmt Fft2dEx
  Round RoundKiss RoundFft RoundThms Binary RoundDouble RoundTable RoundFinal.
Local Open Scope R_scope.

(** ** C51 *)
(** the 1d transform with rounded arithmetic and a rounded table: every output is finite and within
    ((1+u)^roundings - 1) times the sum of the moduli of the inputs of the DFT of the inputs, in both forms of the call;
    nothing else is touched.  The condition on [om] excludes overflow. *)
Theorem C51_rounded_1d : forall {F : Type} u mu om (O : sops F) val fin, rounding u mu om O val fin ->
  forall t cexp inv n, (1 <= n < 2 ^ 31)%Z -> table_ok u val fin t cexp inv n ->
  exists st, kiss_fft_alloc cexp n inv = Some st /\
  (forall ist src i out o x,
     (forall j, (0 <= j < n)%Z -> zget src (i + j * ist) = Some (x j) /\ cfin fin (x j)) -> (0 <= o)%Z -> (o + n <= zlen out)%Z ->
     (1 + u) ^ roundings t n * (4 * size1 mu n (vals val x)) <= om ->
     exists out', kiss_fft_outplace O st ist src i out o = Some out' /\ zlen out' = zlen out /\
       (forall k, (0 <= k < n)%Z -> exists y, zget out' (o + k) = Some y /\
          within val fin (((1 + u) ^ roundings t n - 1) * size1 mu n (vals val x)) y (DFT inv n (vals val x) k)) /\
       (forall a, ~ (o <= a < o + n)%Z -> zget out' a = zget out a)) /\
  (forall tmp arr o x, zlen tmp = n ->
     (forall j, (0 <= j < n)%Z -> zget arr (o + j) = Some (x j) /\ cfin fin (x j)) -> (0 <= o)%Z -> (o + n <= zlen arr)%Z ->
     (1 + u) ^ roundings t n * (4 * size1 mu n (vals val x)) <= om ->
     exists arr', kiss_fft_inplace O st tmp 1 arr o = Some arr' /\ zlen arr' = zlen arr /\
       (forall k, (0 <= k < n)%Z -> exists y, zget arr' (o + k) = Some y /\
          within val fin (((1 + u) ^ roundings t n - 1) * size1 mu n (vals val x)) y (DFT inv n (vals val x) k)) /\
       (forall a, ~ (o <= a < o + n)%Z -> zget arr' a = zget arr a)).
Proof. exact @C51_proof. Qed.
Print Assumptions C51_rounded_1d.
(** lengths 2^a 3^b 5^c: the number of roundings is at most (2t+8) log2 n *)
Theorem C51_growth : forall t n a b c, (0 <= a)%Z -> (0 <= b)%Z -> (0 <= c)%Z -> n = (2 ^ a * 3 ^ b * 5 ^ c)%Z -> (2 <= n < 2 ^ 31)%Z ->
  (2 ^ Z.of_nat (roundings t n) <= n ^ (2 * Z.of_nat t + 8))%Z.
Proof. exact C51_growth_proof. Qed.
Print Assumptions C51_growth.
(** and (1+u)^k - 1 is at most ku/(1-ku) *)
Theorem C51_higham : forall u k, 0 <= u -> INR k * u < 1 -> (1 + u) ^ k - 1 <= INR k * u / (1 - INR k * u).
Proof. exact C51_higham_proof. Qed.
Print Assumptions C51_higham.
(** hypotheses: doubles, a table from the cos and sin of RoundFinal.v, length 1024; and a transform of length 3 of
    doubles with the table of glibc *)
Definition dbl3 (inv : bool) (i n : Z) : spec_float * spec_float :=
  if (i =? 0)%Z then (SFone 53, S754_zero true)
  else if (i =? 1)%Z then (S754_finite true 9007199254740988 (-54), S754_finite true 7800463371553963 (-53))
  else (S754_finite true 4503599627370500 (-53), S754_finite false 7800463371553960 (-53)).
Example C51_rounded_1d_example : rounding (SFu 53) (SFmu 1024) (SFom 53 1024) (SFops 53 1024) SFval (SFfin 53 1024) /\
  table_ok (SFu 53) SFval (SFfin 53 1024) 21 (twiddleD cos53 sin53) false 1024 /\
  (st <- kiss_fft_alloc dbl3 3 false;
   kiss_fft_outplace (SFops 53 1024) st 1 (map (fun k => (SFofZ 53 1024 k, SFofZ 53 1024 (k * k))) [1; 2; 3]%Z) 0
     (repeat (S754_nan, S754_nan) 3) 0) =
  Some [(S754_finite false 6755399441055744 (-50), S754_finite false 7881299347898368 (-49));
        (S754_finite true 6564139467485163 (-50), S754_finite true 5217391566190187 (-50));
        (S754_finite false 6372879493914582 (-51), S754_finite true 7167507409078677 (-50))].
Proof.
  split; [exact roundD|]. split; [|vm_compute; reflexivity].
  apply (proj1 (proj2 C53_double_proof) 3); [lra|cbn [INR]; lra|exact libm53|reflexivity].
Qed.
Example C51_growth_example : roundings 1 1024 = 30%nat /\ roundings 21 1024 = 130%nat /\ roundings 21 1000 = 357%nat.
Proof. repeat split; vm_compute; reflexivity. Qed.
Example C51_higham_example : INR 130 * SFu 53 < 1.
Proof. rewrite u_val. cbn [INR]. lra. Qed.

(** ** C52 *)
(** the distributed 3d transform, in all executions, when it neither runs out of room nor overflows; the backward transform
    with scaling as the code scales *)
Theorem C52_forward_3d : forall {F : Type} u mu om (O : sops F) val fin, rounding u mu om O val fin ->
  forall t cexp rnorm ar n sts N permute ins outs f, ready3 ar n sts N permute ins outs f ->
  forall bi bo (M0 : nat -> @rmem F) scaled x,
  isdata bi -> isdata bo -> bi = bo \/ f_pre f = true -> arrays_ok f bo M0 ->
  tables3 u val fin t cexp N false ->
  (forall p, in_grid N p -> cfin fin (x p)) ->
  (forall r, (r < n)%nat -> holds3 2 0 (ins r) (fld x) (getb bi (M0 r))) ->
  (1 + u) ^ cost3 t N * (4 * size3 mu N (vals val x)) <= om ->
  exists P y, setup_ffts3 cexp N = Some P /\
  exec_all n (compute3 O rnorm f P scaled false FORWARD bi bo) M0
    (fun r m => holds3 2 permute (outs r) (fld y) (getb bo m) /\ framed M0 bo (fun r => (2 * f_fftsize f r)%Z) r m) /\
  (forall p, in_grid N p -> within val fin (((1 + u) ^ cost3 t N - 1) * size3 mu N (vals val x)) (y p) (DFT3 false N (vals val x) p)).
Proof. exact @C52_forward_proof. Qed.
Print Assumptions C52_forward_3d.
Theorem C52_backward_3d : forall {F : Type} u mu om (O : sops F) val fin, rounding u mu om O val fin ->
  forall t cexp rnorm s ar n sts N permute ins outs f, ready3 ar n sts N permute ins outs f ->
  forall b (M0 : nat -> @rmem F) scaled x,
  isdata b -> room3 f BACKWARD b M0 ->
  (scaled = true -> forall r, (r < n)%nat -> (psize3 (ins r) <= psize3 (outs r))%Z) ->
  tables3 u val fin t cexp N true -> (scaled = true -> norm_ok u val fin s rnorm (grid_points N)) ->
  (forall p, in_grid N p -> cfin fin (x p)) ->
  (forall r, (r < n)%nat -> holds3 2 permute (outs r) (fld x) (getb b (M0 r))) ->
  (1 + u) ^ (cost3 t N + scale_cost s scaled) * (4 * size3 mu N (vals val x)) <= om ->
  exists P y, setup_ffts3 cexp N = Some P /\
  exec_all n (compute3 O rnorm f P scaled false BACKWARD b b) M0
    (fun r m => holds3 2 0 (ins r) (fld y) (getb b m) /\ framed M0 b (fun r => (2 * f_fftsize f r)%Z) r m) /\
  (forall p, in_grid N p ->
     within val fin (((1 + u) ^ (cost3 t N + scale_cost s scaled) - 1) * (size3 mu N (vals val x) * scale_by (grid_points N) scaled)) (y p)
     (rmulc (scale_by (grid_points N) scaled) (DFT3 true N (vals val x) p))).
Proof. exact @C52_backward_proof. Qed.
Print Assumptions C52_backward_3d.
(** forward then backward: every value comes back, up to the number of grid points if scaling is off, within the stated error *)
Theorem C52_round_trip_3d : forall {F : Type} u mu om (O : sops F) val fin, rounding u mu om O val fin ->
  forall t cexp rnorm s ar n sts N permute ins outs f, ready3 ar n sts N permute ins outs f ->
  forall b (M0 : nat -> @rmem F) s1 scaled x,
  isdata b -> room3 f BACKWARD b M0 ->
  (scaled = true -> forall r, (r < n)%nat -> (psize3 (ins r) <= psize3 (outs r))%Z) ->
  tables3 u val fin t cexp N false -> tables3 u val fin t cexp N true ->
  (scaled = true -> norm_ok u val fin s rnorm (grid_points N)) ->
  (forall p, in_grid N p -> cfin fin (x p)) ->
  (forall r, (r < n)%nat -> holds3 2 0 (ins r) (fld x) (getb b (M0 r))) ->
  (1 + u) ^ (2 * cost3 t N + scale_cost s scaled) * (4 * (size3 mu N (vals val x) * IZR (grid_points N))) <= om ->
  exists P y, setup_ffts3 cexp N = Some P /\
  exec_all n (fun r => compute3 O rnorm f P s1 false FORWARD b b r ++ compute3 O rnorm f P scaled false BACKWARD b b r) M0
    (fun r m => holds3 2 0 (ins r) (fld y) (getb b m) /\ framed M0 b (fun r => (2 * f_fftsize f r)%Z) r m) /\
  (forall p, in_grid N p ->
     within val fin (((1 + u) ^ (2 * cost3 t N + scale_cost s scaled) - 1) *
                     (size3 mu N (vals val x) * (if scaled then 1 else IZR (grid_points N)))) (y p)
     (rmulc (if scaled then 1 else IZR (grid_points N)) (vals val x p))).
Proof. exact @C52_round_trip_proof. Qed.
Print Assumptions C52_round_trip_3d.
(** the same in 2d *)
Theorem C52_forward_2d : forall {F : Type} u mu om (O : sops F) val fin, rounding u mu om O val fin ->
  forall t cexp rnorm esize ar n sts N permute ins outs f, ready2 esize ar n sts N permute ins outs f ->
  forall bi bo (M0 : nat -> @rmem F) scaled x,
  isdata bi -> isdata bo -> bi = bo \/ t_pre f = true -> arrays_ok2 f bo M0 ->
  tables2 u val fin t cexp N false ->
  (forall p, in_grid2 N p -> cfin fin (x p)) ->
  (forall r, (r < n)%nat -> holds2 2 0 (ins r) (fld x) (getb bi (M0 r))) ->
  (1 + u) ^ cost2 t N * (4 * size2 mu N (vals val x)) <= om ->
  exists P y, setup_ffts2 cexp N = Some P /\
  exec_all n (compute2 O rnorm esize f P scaled false FORWARD bi bo) M0
    (fun r m => holds2 2 permute (outs r) (fld y) (getb bo m) /\ framed M0 bo (fun r => (2 * t_fftsize f r)%Z) r m) /\
  (forall p, in_grid2 N p -> within val fin (((1 + u) ^ cost2 t N - 1) * size2 mu N (vals val x)) (y p) (DFT2 false N (vals val x) p)).
Proof. exact @C52_forward_proof2. Qed.
Print Assumptions C52_forward_2d.
Theorem C52_backward_2d : forall {F : Type} u mu om (O : sops F) val fin, rounding u mu om O val fin ->
  forall t cexp rnorm s esize ar n sts N permute ins outs f, ready2 esize ar n sts N permute ins outs f ->
  forall b (M0 : nat -> @rmem F) scaled x,
  isdata b -> arrays_ok2 f b M0 ->
  (scaled = true -> forall r, (r < n)%nat -> (psize2 (ins r) <= psize2 (outs r))%Z) ->
  tables2 u val fin t cexp N true -> (scaled = true -> norm_ok u val fin s rnorm (grid_points2 N)) ->
  (forall p, in_grid2 N p -> cfin fin (x p)) ->
  (forall r, (r < n)%nat -> holds2 2 permute (outs r) (fld x) (getb b (M0 r))) ->
  (1 + u) ^ (cost2 t N + scale_cost s scaled) * (4 * size2 mu N (vals val x)) <= om ->
  exists P y, setup_ffts2 cexp N = Some P /\
  exec_all n (compute2 O rnorm esize f P scaled false BACKWARD b b) M0
    (fun r m => holds2 2 0 (ins r) (fld y) (getb b m) /\ framed M0 b (fun r => (2 * t_fftsize f r)%Z) r m) /\
  (forall p, in_grid2 N p ->
     within val fin (((1 + u) ^ (cost2 t N + scale_cost s scaled) - 1) * (size2 mu N (vals val x) * scale_by (grid_points2 N) scaled)) (y p)
     (rmulc (scale_by (grid_points2 N) scaled) (DFT2 true N (vals val x) p))).
Proof. exact @C52_backward_proof2. Qed.
Print Assumptions C52_backward_2d.
(** forward then backward: every value comes back, up to the number of grid points if scaling is off, within the stated error *)
Theorem C52_round_trip_2d : forall {F : Type} u mu om (O : sops F) val fin, rounding u mu om O val fin ->
  forall t cexp rnorm s esize ar n sts N permute ins outs f, ready2 esize ar n sts N permute ins outs f ->
  forall b (M0 : nat -> @rmem F) s1 scaled x,
  isdata b -> arrays_ok2 f b M0 ->
  (scaled = true -> forall r, (r < n)%nat -> (psize2 (ins r) <= psize2 (outs r))%Z) ->
  tables2 u val fin t cexp N false -> tables2 u val fin t cexp N true ->
  (scaled = true -> norm_ok u val fin s rnorm (grid_points2 N)) ->
  (forall p, in_grid2 N p -> cfin fin (x p)) ->
  (forall r, (r < n)%nat -> holds2 2 0 (ins r) (fld x) (getb b (M0 r))) ->
  (1 + u) ^ (2 * cost2 t N + scale_cost s scaled) * (4 * (size2 mu N (vals val x) * IZR (grid_points2 N))) <= om ->
  exists P y, setup_ffts2 cexp N = Some P /\
  exec_all n (fun r => compute2 O rnorm esize f P s1 false FORWARD b b r ++ compute2 O rnorm esize f P scaled false BACKWARD b b r) M0
    (fun r m => holds2 2 0 (ins r) (fld y) (getb b m) /\ framed M0 b (fun r => (2 * t_fftsize f r)%Z) r m) /\
  (forall p, in_grid2 N p ->
     within val fin (((1 + u) ^ (2 * cost2 t N + scale_cost s scaled) - 1) *
                     (size2 mu N (vals val x) * (if scaled then 1 else IZR (grid_points2 N)))) (y p)
     (rmulc (if scaled then 1 else IZR (grid_points2 N)) (vals val x p))).
Proof. exact @C52_round_trip_proof2. Qed.
Print Assumptions C52_round_trip_2d.
(** hypotheses: double arithmetic on a 2x2x2 and a 2x2 grid with 2 ranks and permuted output, cos and sin of RoundFinal.v *)
Lemma tD N inv : ints3 N -> tables3 (SFu 53) SFval (SFfin 53 1024) 21 (twiddleD cos53 sin53) N inv.
Proof. apply tables3_all. intros i L HL. apply (proj1 (proj2 C53_double_proof) 3); [lra|cbn [INR]; lra|exact libm53|exact HL]. Qed.
Lemma tD2 N inv : ints2 N -> tables2 (SFu 53) SFval (SFfin 53 1024) 21 (twiddleD cos53 sin53) N inv.
Proof. apply tables2_all. intros i L HL. apply (proj1 (proj2 C53_double_proof) 3); [lra|cbn [INR]; lra|exact libm53|exact HL]. Qed.
Example C52_forward_3d_example : exists f (M0 : nat -> @rmem spec_float), ready3 exact_areas 2 (mkset 1 0 1) g2 1 split3 isplit3 f /\
  isdata BIn /\ arrays_ok f BIn M0 /\ tables3 (SFu 53) SFval (SFfin 53 1024) 21 (twiddleD cos53 sin53) g2 false /\
  (forall p, in_grid g2 p -> cfin (SFfin 53 1024) (exD 53 1024 p)) /\
  (forall r, (r < 2)%nat -> holds3 2 0 (split3 r) (fld (exD 53 1024)) (getb BIn (M0 r))) /\
  (1 + SFu 53) ^ cost3 21 g2 * (4 * size3 (SFmu 1024) g2 (vals SFval (exD 53 1024))) <= SFom 53 1024.
Proof.
  destruct smallD as (U & M & W). pose proof (exD_size 53 1024 ltac:(lia) ltac:(lia) U M W) as Z1.
  destruct (small_start3 53 1024 ltac:(lia) ltac:(lia) U M W FORWARD) as (f & M0 & Hr & Hg & Hb & Ha & Hro & Hs & Hfx & Hx).
  exists f, M0. split; [exact Hr|]. split; [exact Hb|]. split; [exact Ha|]. split; [apply tD, Hr|]. split; [exact Hfx|].
  split; [exact Hx|]. apply small_guard; auto; [vm_compute cost3; cbn [INR]; lra|lra].
Qed.
Example C52_backward_3d_example : exists f (M0 : nat -> @rmem spec_float), ready3 exact_areas 2 (mkset 1 0 1) g2 1 split3 isplit3 f /\
  isdata BIn /\ room3 f BACKWARD BIn M0 /\ (forall r, (r < 2)%nat -> (psize3 (split3 r) <= psize3 (isplit3 r))%Z) /\
  tables3 (SFu 53) SFval (SFfin 53 1024) 21 (twiddleD cos53 sin53) g2 true /\
  norm_ok (SFu 53) SFval (SFfin 53 1024) 3 normD (grid_points g2) /\
  (forall p, in_grid g2 p -> cfin (SFfin 53 1024) (exD 53 1024 p)) /\
  (forall r, (r < 2)%nat -> holds3 2 1 (isplit3 r) (fld (exD 53 1024)) (getb BIn (M0 r))) /\
  (1 + SFu 53) ^ (cost3 21 g2 + scale_cost 3 true) * (4 * size3 (SFmu 1024) g2 (vals SFval (exD 53 1024))) <= SFom 53 1024.
Proof.
  destruct smallD as (U & M & W). pose proof (exD_size 53 1024 ltac:(lia) ltac:(lia) U M W) as Z1.
  destruct (small_start3 53 1024 ltac:(lia) ltac:(lia) U M W BACKWARD) as (f & M0 & Hr & Hg & Hb & Ha & Hro & Hs & Hfx & Hx).
  exists f, M0. split; [exact Hr|]. split; [exact Hb|]. split; [exact Hro|]. split; [exact Hs|]. split; [apply tD, Hr|].
  split; [apply C53_double_proof; cbn; lia|]. split; [exact Hfx|].
  split; [exact Hx|]. apply small_guard; auto; [vm_compute cost3; cbn [INR scale_cost Nat.add]; lra|lra].
Qed.
Example C52_round_trip_3d_example : exists f (M0 : nat -> @rmem spec_float), ready3 exact_areas 2 (mkset 1 0 1) g2 1 split3 isplit3 f /\
  isdata BIn /\ room3 f BACKWARD BIn M0 /\ (forall r, (r < 2)%nat -> (psize3 (split3 r) <= psize3 (isplit3 r))%Z) /\
  tables3 (SFu 53) SFval (SFfin 53 1024) 21 (twiddleD cos53 sin53) g2 false /\
  tables3 (SFu 53) SFval (SFfin 53 1024) 21 (twiddleD cos53 sin53) g2 true /\
  norm_ok (SFu 53) SFval (SFfin 53 1024) 3 normD (grid_points g2) /\
  (forall p, in_grid g2 p -> cfin (SFfin 53 1024) (exD 53 1024 p)) /\
  (forall r, (r < 2)%nat -> holds3 2 0 (split3 r) (fld (exD 53 1024)) (getb BIn (M0 r))) /\
  (1 + SFu 53) ^ (2 * cost3 21 g2 + scale_cost 3 true) * (4 * (size3 (SFmu 1024) g2 (vals SFval (exD 53 1024)) * IZR (grid_points g2))) <= SFom 53 1024.
Proof.
  destruct smallD as (U & M & W). pose proof (exD_size 53 1024 ltac:(lia) ltac:(lia) U M W) as Z1.
  destruct (small_start3 53 1024 ltac:(lia) ltac:(lia) U M W FORWARD) as (f & M0 & Hr & Hg & Hb & Ha & Hro & Hs & Hfx & Hx).
  exists f, M0. split; [exact Hr|]. split; [exact Hb|]. split; [exact Hro|]. split; [exact Hs|]. split; [apply tD, Hr|]. split; [apply tD, Hr|].
  split; [apply C53_double_proof; cbn; lia|]. split; [exact Hfx|].
  split; [exact Hx|]. apply small_guard; auto; [vm_compute cost3; cbn [INR scale_cost Nat.add Nat.mul]; lra|change (IZR (grid_points g2)) with 8; lra].
Qed.
Example C52_forward_2d_example : exists f (M0 : nat -> @rmem spec_float), ready2 8 exact_areas 2 (mkset 1 0 1) sq2 1 split2 isplit2 f /\
  isdata BIn /\ arrays_ok2 f BIn M0 /\ tables2 (SFu 53) SFval (SFfin 53 1024) 21 (twiddleD cos53 sin53) sq2 false /\
  (forall p, in_grid2 sq2 p -> cfin (SFfin 53 1024) (exD2 53 1024 p)) /\
  (forall r, (r < 2)%nat -> holds2 2 0 (split2 r) (fld (exD2 53 1024)) (getb BIn (M0 r))) /\
  (1 + SFu 53) ^ cost2 21 sq2 * (4 * size2 (SFmu 1024) sq2 (vals SFval (exD2 53 1024))) <= SFom 53 1024.
Proof.
  destruct smallD as (U & M & W). pose proof (exD2_size 53 1024 ltac:(lia) ltac:(lia) U M W) as Z1.
  destruct (small_start2 53 1024 ltac:(lia) ltac:(lia) U M W FORWARD) as (f & M0 & Hr & Hg & Hb & Ha & Hs & Hfx & Hx).
  exists f, M0. split; [exact Hr|]. split; [exact Hb|]. split; [exact Ha|]. split; [apply tD2, Hr|]. split; [exact Hfx|].
  split; [exact Hx|]. apply small_guard; auto; [vm_compute cost2; cbn [INR]; lra|lra].
Qed.
Example C52_backward_2d_example : exists f (M0 : nat -> @rmem spec_float), ready2 8 exact_areas 2 (mkset 1 0 1) sq2 1 split2 isplit2 f /\
  isdata BIn /\ arrays_ok2 f BIn M0 /\ (forall r, (r < 2)%nat -> (psize2 (split2 r) <= psize2 (isplit2 r))%Z) /\
  tables2 (SFu 53) SFval (SFfin 53 1024) 21 (twiddleD cos53 sin53) sq2 true /\
  norm_ok (SFu 53) SFval (SFfin 53 1024) 3 normD (grid_points2 sq2) /\
  (forall p, in_grid2 sq2 p -> cfin (SFfin 53 1024) (exD2 53 1024 p)) /\
  (forall r, (r < 2)%nat -> holds2 2 1 (isplit2 r) (fld (exD2 53 1024)) (getb BIn (M0 r))) /\
  (1 + SFu 53) ^ (cost2 21 sq2 + scale_cost 3 true) * (4 * size2 (SFmu 1024) sq2 (vals SFval (exD2 53 1024))) <= SFom 53 1024.
Proof.
  destruct smallD as (U & M & W). pose proof (exD2_size 53 1024 ltac:(lia) ltac:(lia) U M W) as Z1.
  destruct (small_start2 53 1024 ltac:(lia) ltac:(lia) U M W BACKWARD) as (f & M0 & Hr & Hg & Hb & Ha & Hs & Hfx & Hx).
  exists f, M0. split; [exact Hr|]. split; [exact Hb|]. split; [exact Ha|]. split; [exact Hs|]. split; [apply tD2, Hr|].
  split; [apply C53_double_proof; cbn; lia|]. split; [exact Hfx|].
  split; [exact Hx|]. apply small_guard; auto; [vm_compute cost2; cbn [INR scale_cost Nat.add]; lra|lra].
Qed.
Example C52_round_trip_2d_example : exists f (M0 : nat -> @rmem spec_float), ready2 8 exact_areas 2 (mkset 1 0 1) sq2 1 split2 isplit2 f /\
  isdata BIn /\ arrays_ok2 f BIn M0 /\ (forall r, (r < 2)%nat -> (psize2 (split2 r) <= psize2 (isplit2 r))%Z) /\
  tables2 (SFu 53) SFval (SFfin 53 1024) 21 (twiddleD cos53 sin53) sq2 false /\
  tables2 (SFu 53) SFval (SFfin 53 1024) 21 (twiddleD cos53 sin53) sq2 true /\
  norm_ok (SFu 53) SFval (SFfin 53 1024) 3 normD (grid_points2 sq2) /\
  (forall p, in_grid2 sq2 p -> cfin (SFfin 53 1024) (exD2 53 1024 p)) /\
  (forall r, (r < 2)%nat -> holds2 2 0 (split2 r) (fld (exD2 53 1024)) (getb BIn (M0 r))) /\
  (1 + SFu 53) ^ (2 * cost2 21 sq2 + scale_cost 3 true) * (4 * (size2 (SFmu 1024) sq2 (vals SFval (exD2 53 1024)) * IZR (grid_points2 sq2))) <= SFom 53 1024.
Proof.
  destruct smallD as (U & M & W). pose proof (exD2_size 53 1024 ltac:(lia) ltac:(lia) U M W) as Z1.
  destruct (small_start2 53 1024 ltac:(lia) ltac:(lia) U M W FORWARD) as (f & M0 & Hr & Hg & Hb & Ha & Hs & Hfx & Hx).
  exists f, M0. split; [exact Hr|]. split; [exact Hb|]. split; [exact Ha|]. split; [exact Hs|]. split; [apply tD2, Hr|]. split; [apply tD2, Hr|].
  split; [apply C53_double_proof; cbn; lia|]. split; [exact Hfx|].
  split; [exact Hx|]. apply small_guard; auto; [vm_compute cost2; cbn [INR scale_cost Nat.add Nat.mul]; lra|change (IZR (grid_points2 sq2)) with 4; lra].
Qed.

(** ** C53 *)
(** IEEE arithmetic as the standard library defines it meets the hypotheses of C51 and C52; so do the twiddle table and the
    normalisation factor computed with it, if cos and sin of the C library err by at most c * 2^-53 *)
Theorem C53_double : rounding (SFu 53) (SFmu 1024) (SFom 53 1024) (SFops 53 1024) SFval (SFfin 53 1024) /\
  (forall c cosd sind t inv L, 0 <= c -> 15 + 2 * c <= INR t -> libm_ok c cosd sind -> (L < 2 ^ 31)%Z ->
     table_ok (SFu 53) SFval (SFfin 53 1024) t (twiddleD cosd sind) inv L) /\
  (forall k, (1 <= k < 2 ^ 63)%Z -> norm_ok (SFu 53) SFval (SFfin 53 1024) 3 normD k).
Proof. exact C53_double_proof. Qed.
Print Assumptions C53_double.
Theorem C53_float : rounding (SFu 24) (SFmu 128) (SFom 24 128) (SFops 24 128) SFval (SFfin 24 128) /\
  (forall c cosd sind inv L, 0 <= c <= 1000000 -> libm_ok c cosd sind -> (L < 2 ^ 31)%Z ->
     table_ok (SFu 24) SFval (SFfin 24 128) 2 (twiddleF cosd sind) inv L) /\
  (forall k, (1 <= k < 2 ^ 63)%Z -> norm_ok (SFu 24) SFval (SFfin 24 128) 2 normF k).
Proof. exact C53_float_proof. Qed.
Print Assumptions C53_float.
(** the transform of the default build *)
Theorem C53_forward_3d : forall c cosd sind t, 0 <= c -> 15 + 2 * c <= INR t -> libm_ok c cosd sind ->
  forall ar n sts N permute ins outs f bi bo (M0 : nat -> @rmem spec_float) scaled x,
  ready3 ar n sts N permute ins outs f -> isdata bi -> isdata bo -> bi = bo \/ f_pre f = true -> arrays_ok f bo M0 ->
  (forall p, in_grid N p -> cfin (SFfin 53 1024) (x p)) ->
  (forall r, (r < n)%nat -> holds3 2 0 (ins r) (fld x) (getb bi (M0 r))) ->
  (1 + SFu 53) ^ cost3 t N * (4 * size3 (SFmu 1024) N (vals SFval x)) <= SFom 53 1024 ->
  exists P y, setup_ffts3 (twiddleD cosd sind) N = Some P /\
  exec_all n (compute3 (SFops 53 1024) normD f P scaled false FORWARD bi bo) M0
    (fun r m => holds3 2 permute (outs r) (fld y) (getb bo m) /\ framed M0 bo (fun r => (2 * f_fftsize f r)%Z) r m) /\
  (forall p, in_grid N p ->
     within SFval (SFfin 53 1024) (((1 + SFu 53) ^ cost3 t N - 1) * size3 (SFmu 1024) N (vals SFval x)) (y p) (DFT3 false N (vals SFval x) p)).
Proof.
  exact (fun c cosd sind t Hc Ht Hl => build_forward3 _ _ _ _ _ _ t _ normD (proj1 C53_double_proof)
    (fun inv L => proj1 (proj2 C53_double_proof) c cosd sind t inv L Hc Ht Hl)).
Qed.
Print Assumptions C53_forward_3d.
Theorem C53_round_trip_3d : forall c cosd sind t, 0 <= c -> 15 + 2 * c <= INR t -> libm_ok c cosd sind ->
  forall ar n sts N permute ins outs f b (M0 : nat -> @rmem spec_float) s1 scaled x,
  ready3 ar n sts N permute ins outs f -> (grid_points N < 2 ^ 63)%Z -> isdata b -> room3 f BACKWARD b M0 ->
  (scaled = true -> forall r, (r < n)%nat -> (psize3 (ins r) <= psize3 (outs r))%Z) ->
  (forall p, in_grid N p -> cfin (SFfin 53 1024) (x p)) ->
  (forall r, (r < n)%nat -> holds3 2 0 (ins r) (fld x) (getb b (M0 r))) ->
  (1 + SFu 53) ^ (2 * cost3 t N + scale_cost 3 scaled) * (4 * (size3 (SFmu 1024) N (vals SFval x) * IZR (grid_points N))) <= SFom 53 1024 ->
  exists P y, setup_ffts3 (twiddleD cosd sind) N = Some P /\
  exec_all n (fun r => compute3 (SFops 53 1024) normD f P s1 false FORWARD b b r ++
                       compute3 (SFops 53 1024) normD f P scaled false BACKWARD b b r) M0
    (fun r m => holds3 2 0 (ins r) (fld y) (getb b m) /\ framed M0 b (fun r => (2 * f_fftsize f r)%Z) r m) /\
  (forall p, in_grid N p ->
     within SFval (SFfin 53 1024) (((1 + SFu 53) ^ (2 * cost3 t N + scale_cost 3 scaled) - 1) *
                                   (size3 (SFmu 1024) N (vals SFval x) * (if scaled then 1 else IZR (grid_points N)))) (y p)
     (rmulc (if scaled then 1 else IZR (grid_points N)) (vals SFval x p))).
Proof.
  exact (fun c cosd sind t Hc Ht Hl => build_trip3 _ _ _ _ _ _ t 3 _ normD (proj1 C53_double_proof)
    (fun inv L => proj1 (proj2 C53_double_proof) c cosd sind t inv L Hc Ht Hl) (proj2 (proj2 C53_double_proof))).
Qed.
Print Assumptions C53_round_trip_3d.
(** the single precision build *)
Theorem C53_round_trip_3d_single : forall c cosd sind, 0 <= c <= 1000000 -> libm_ok c cosd sind ->
  forall ar n sts N permute ins outs f b (M0 : nat -> @rmem spec_float) s1 scaled x,
  ready3 ar n sts N permute ins outs f -> (grid_points N < 2 ^ 63)%Z -> isdata b -> room3 f BACKWARD b M0 ->
  (scaled = true -> forall r, (r < n)%nat -> (psize3 (ins r) <= psize3 (outs r))%Z) ->
  (forall p, in_grid N p -> cfin (SFfin 24 128) (x p)) ->
  (forall r, (r < n)%nat -> holds3 2 0 (ins r) (fld x) (getb b (M0 r))) ->
  (1 + SFu 24) ^ (2 * cost3 2 N + scale_cost 2 scaled) * (4 * (size3 (SFmu 128) N (vals SFval x) * IZR (grid_points N))) <= SFom 24 128 ->
  exists P y, setup_ffts3 (twiddleF cosd sind) N = Some P /\
  exec_all n (fun r => compute3 (SFops 24 128) normF f P s1 false FORWARD b b r ++
                       compute3 (SFops 24 128) normF f P scaled false BACKWARD b b r) M0
    (fun r m => holds3 2 0 (ins r) (fld y) (getb b m) /\ framed M0 b (fun r => (2 * f_fftsize f r)%Z) r m) /\
  (forall p, in_grid N p ->
     within SFval (SFfin 24 128) (((1 + SFu 24) ^ (2 * cost3 2 N + scale_cost 2 scaled) - 1) *
                                   (size3 (SFmu 128) N (vals SFval x) * (if scaled then 1 else IZR (grid_points N)))) (y p)
     (rmulc (if scaled then 1 else IZR (grid_points N)) (vals SFval x p))).
Proof.
  exact (fun c cosd sind Hc Hl => build_trip3 _ _ _ _ _ _ 2 2 _ normF (proj1 C53_float_proof)
    (fun inv L => proj1 (proj2 C53_float_proof) c cosd sind inv L Hc Hl) (proj2 (proj2 C53_float_proof))).
Qed.
Print Assumptions C53_round_trip_3d_single.
(** in 2d *)
Theorem C53_round_trip_2d : forall c cosd sind t, 0 <= c -> 15 + 2 * c <= INR t -> libm_ok c cosd sind ->
  forall esize ar n sts N permute ins outs f b (M0 : nat -> @rmem spec_float) s1 scaled x,
  ready2 esize ar n sts N permute ins outs f -> (grid_points2 N < 2 ^ 63)%Z -> isdata b -> arrays_ok2 f b M0 ->
  (scaled = true -> forall r, (r < n)%nat -> (psize2 (ins r) <= psize2 (outs r))%Z) ->
  (forall p, in_grid2 N p -> cfin (SFfin 53 1024) (x p)) ->
  (forall r, (r < n)%nat -> holds2 2 0 (ins r) (fld x) (getb b (M0 r))) ->
  (1 + SFu 53) ^ (2 * cost2 t N + scale_cost 3 scaled) * (4 * (size2 (SFmu 1024) N (vals SFval x) * IZR (grid_points2 N))) <= SFom 53 1024 ->
  exists P y, setup_ffts2 (twiddleD cosd sind) N = Some P /\
  exec_all n (fun r => compute2 (SFops 53 1024) normD esize f P s1 false FORWARD b b r ++
                       compute2 (SFops 53 1024) normD esize f P scaled false BACKWARD b b r) M0
    (fun r m => holds2 2 0 (ins r) (fld y) (getb b m) /\ framed M0 b (fun r => (2 * t_fftsize f r)%Z) r m) /\
  (forall p, in_grid2 N p ->
     within SFval (SFfin 53 1024) (((1 + SFu 53) ^ (2 * cost2 t N + scale_cost 3 scaled) - 1) *
                                   (size2 (SFmu 1024) N (vals SFval x) * (if scaled then 1 else IZR (grid_points2 N)))) (y p)
     (rmulc (if scaled then 1 else IZR (grid_points2 N)) (vals SFval x p))).
Proof.
  exact (fun c cosd sind t Hc Ht Hl => build_trip2 _ _ _ _ _ _ t 3 _ normD (proj1 C53_double_proof)
    (fun inv L => proj1 (proj2 C53_double_proof) c cosd sind t inv L Hc Ht Hl) (proj2 (proj2 C53_double_proof))).
Qed.
Print Assumptions C53_round_trip_2d.
(** hypotheses; and a run of the double model on the 2x2x2 grid, forward and backward with scaling: the values that come
    back are the initial ones (all operations of this run are exact) *)
Example C53_double_example : libm_ok 3 cos53 sin53 /\ 15 + 2 * 3 <= INR 21.
Proof. split; [exact libm53|cbn [INR]; lra]. Qed.
Example C53_float_example : libm_ok 3 cos53 sin53 /\ 0 <= 3 <= 1000000.
Proof. split; [exact libm53|lra]. Qed.
Example C53_forward_3d_example : libm_ok 3 cos53 sin53 /\ 15 + 2 * 3 <= INR 21 /\
  exists f (M0 : nat -> @rmem spec_float), ready3 exact_areas 2 (mkset 1 0 1) g2 1 split3 isplit3 f /\ isdata BIn /\ arrays_ok f BIn M0 /\
  (forall p, in_grid g2 p -> cfin (SFfin 53 1024) (exD 53 1024 p)) /\
  (forall r, (r < 2)%nat -> holds3 2 0 (split3 r) (fld (exD 53 1024)) (getb BIn (M0 r))) /\
  (1 + SFu 53) ^ cost3 21 g2 * (4 * size3 (SFmu 1024) g2 (vals SFval (exD 53 1024))) <= SFom 53 1024.
Proof.
  split; [exact libm53|]. split; [cbn [INR]; lra|].
  destruct C52_forward_3d_example as (f & M0 & A & B & C & _ & D & E & G). exists f, M0. auto 10.
Qed.
Definition same (a b : spec_float) : bool := match SFcompare a b with Some Eq => true | _ => false end.
Definition twZ (inv : bool) (i n : Z) : spec_float * spec_float := (SFofZ 53 1024 (fst (cexpZ inv i n)), SFofZ 53 1024 (snd (cexpZ inv i n))).
Definition back_home (f : fft3) : bool :=
  match setup_ffts3 twZ g2 with
  | None => false
  | Some P =>
    let M := exMem (SFofZ 53 1024) (exD 53 1024) f 0 split3 in
    let s := final 2 (fun r => compute3 (SFops 53 1024) normD f P false false FORWARD BIn BIn r ++
                               compute3 (SFops 53 1024) normD f P true false BACKWARD BIn BIn r) M in
    doneb s && forallb (fun r => match nth_error (mems_of s) r with
      | Some m => forallb (fun e => match zget (m_in m) (cell3 2 0 (split3 r) (fst e) (snd e)) with
                                    | Some v => same v (fld (exD 53 1024) (fst e) (snd e)) | None => false end) (elems3 2 (split3 r))
      | None => false end) [0; 1]%nat
  end.
Example C53_round_trip_3d_example : libm_ok 3 cos53 sin53 /\ 15 + 2 * 3 <= INR 21 /\ (grid_points g2 < 2 ^ 63)%Z /\
  with_plan (mkset 1 0 1) 1 split3 isplit3 (fun f _ => back_home f) = true.
Proof. split; [exact libm53|]. split; [cbn [INR]; lra|]. split; [reflexivity|]. vm_compute. reflexivity. Qed.
Example C53_round_trip_3d_single_example : exists f (M0 : nat -> @rmem spec_float), ready3 exact_areas 2 (mkset 1 0 1) g2 1 split3 isplit3 f /\
  (grid_points g2 < 2 ^ 63)%Z /\ isdata BIn /\ room3 f BACKWARD BIn M0 /\
  (forall r, (r < 2)%nat -> (psize3 (split3 r) <= psize3 (isplit3 r))%Z) /\
  (forall p, in_grid g2 p -> cfin (SFfin 24 128) (exD 24 128 p)) /\
  (forall r, (r < 2)%nat -> holds3 2 0 (split3 r) (fld (exD 24 128)) (getb BIn (M0 r))) /\
  (1 + SFu 24) ^ (2 * cost3 2 g2 + scale_cost 2 true) * (4 * (size3 (SFmu 128) g2 (vals SFval (exD 24 128)) * IZR (grid_points g2))) <= SFom 24 128.
Proof.
  destruct smallF as (U & M & W). pose proof (exD_size 24 128 ltac:(lia) ltac:(lia) U M W) as Z1.
  destruct (small_start3 24 128 ltac:(lia) ltac:(lia) U M W FORWARD) as (f & M0 & Hr & Hg & Hb & Ha & Hro & Hs & Hfx & Hx).
  exists f, M0. split; [exact Hr|]. split; [exact Hg|]. split; [exact Hb|]. split; [exact Hro|]. split; [exact Hs|]. split; [exact Hfx|].
  split; [exact Hx|]. apply small_guard; auto; [vm_compute cost3; cbn [INR scale_cost Nat.add Nat.mul]; lra|change (IZR (grid_points g2)) with 8; lra].
Qed.
Example C53_round_trip_2d_example : libm_ok 3 cos53 sin53 /\ 15 + 2 * 3 <= INR 21 /\ (grid_points2 sq2 < 2 ^ 63)%Z /\
  exists f (M0 : nat -> @rmem spec_float), ready2 8 exact_areas 2 (mkset 1 0 1) sq2 1 split2 isplit2 f /\ isdata BIn /\ arrays_ok2 f BIn M0.
Proof.
  split; [exact libm53|]. split; [cbn [INR]; lra|]. split; [reflexivity|].
  destruct C52_round_trip_2d_example as (f & M0 & A & B & C & _). exists f, M0. auto.
Qed.
