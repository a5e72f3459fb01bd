(** PropertiesConvolve.v : C82, forward transform, multiplication point by point, backward transform.
    Statements only; proofs are in Convolve.v and ConvolveEx.v. *)

From Coq Require Import Reals.
From Verif Require Import Base Spec Pack3d Pack2d Sched SchedProofs Phases Exec Remap RemapMain RemapInst
  Remap3d Remap2d RemapThms RemapTop ExRemap Layout LayoutProofs LayoutFinal Setup3d Setup3dProofs Setup2d Setup2dProofs Kiss KissPure KissAlg KissReal Fft1d KissFinal
  Fft3d Frame Fft3dProofs Fft3dMain DftMulti Fft3dTop Fft3dFinal Fft3dEx Fft2d Fft2dMain Fft2dTop Fft2dFinal Fft2dEx Ops OpsSeq OpsProofs ConvMath Convolve ConvolveEx.
Local Open Scope Z_scope.

(** any multiplier: the result is the convolution with its backward transform *)
Theorem C82_multiplier_3d ar n st N permute ins outs f b (M0 : nat -> @rmem R) s1 scaled x w G :
  ready3 ar n st N permute ins outs f -> isdata b -> Fft3dTop.room3 f BACKWARD b M0 ->
  (scaled = true -> forall r, (r < n)%nat -> psize3 (ins r) <= psize3 (outs r)) -> multiplies3 n permute outs w G ->
  (forall r, (r < n)%nat -> holds3 2 0 (ins r) (fld x) (getb b (M0 r))) ->
  exists P, setup_ffts3 cexpR N = Some P /\
  exec_all n (fun r => compute3 Rops rnormR f P s1 false FORWARD b b r ++ filling b w r ++ compute3 Rops rnormR f P scaled false BACKWARD b b r) M0
    (fun r m => holds3 2 0 (ins r) (fld (fun p => rmulc (if scaled then / IZR (grid_points N) else 1)%R (CONV3 N x (DFT3 true N G) p))) (getb b m) /\
                framed M0 b (fun r => 2 * f_fftsize f r) r m).
Proof. exact (convolve_any_3d ar n st N permute ins outs f b M0 s1 scaled x w G). Qed.
Print Assumptions C82_multiplier_3d.
Theorem C82_multiplier_2d esize ar n st N permute ins outs f b (M0 : nat -> @rmem R) s1 scaled x w G :
  ready2 esize ar n st N permute ins outs f -> isdata b -> arrays_ok2 f b M0 ->
  (scaled = true -> forall r, (r < n)%nat -> psize2 (ins r) <= psize2 (outs r)) -> multiplies2 n permute outs w G ->
  (forall r, (r < n)%nat -> holds2 2 0 (ins r) (fld x) (getb b (M0 r))) ->
  exists P, setup_ffts2 cexpR N = Some P /\
  exec_all n (fun r => compute2 Rops rnormR esize f P s1 false FORWARD b b r ++ filling b w r ++ compute2 Rops rnormR esize f P scaled false BACKWARD b b r) M0
    (fun r m => holds2 2 0 (ins r) (fld (fun p => rmulc (if scaled then / IZR (grid_points2 N) else 1)%R (CONV2 N x (DFT2 true N G) p))) (getb b m) /\
                framed M0 b (fun r => 2 * t_fftsize f r) r m).
Proof. exact (convolve_any_2d esize ar n st N permute ins outs f b M0 s1 scaled x w G). Qed.
Print Assumptions C82_multiplier_2d.
(** a multiplier that is a forward transform: the result is the convolution of the two functions *)
Theorem C82_convolution_3d ar n st N permute ins outs f b (M0 : nat -> @rmem R) s1 scaled x g w :
  ready3 ar n st N permute ins outs f -> isdata b -> Fft3dTop.room3 f BACKWARD b M0 ->
  (scaled = true -> forall r, (r < n)%nat -> psize3 (ins r) <= psize3 (outs r)) -> multiplies3 n permute outs w (DFT3 false N g) ->
  (forall r, (r < n)%nat -> holds3 2 0 (ins r) (fld x) (getb b (M0 r))) ->
  exists P, setup_ffts3 cexpR N = Some P /\
  exec_all n (fun r => compute3 Rops rnormR f P s1 false FORWARD b b r ++ filling b w r ++ compute3 Rops rnormR f P scaled false BACKWARD b b r) M0
    (fun r m => holds3 2 0 (ins r) (fld (fun p => rmulc (if scaled then 1 else IZR (grid_points N))%R (CONV3 N x g p))) (getb b m) /\
                framed M0 b (fun r => 2 * f_fftsize f r) r m).
Proof. exact (convolve_3d ar n st N permute ins outs f b M0 s1 scaled x g w). Qed.
Print Assumptions C82_convolution_3d.
Theorem C82_convolution_2d esize ar n st N permute ins outs f b (M0 : nat -> @rmem R) s1 scaled x g w :
  ready2 esize ar n st N permute ins outs f -> isdata b -> arrays_ok2 f b M0 ->
  (scaled = true -> forall r, (r < n)%nat -> psize2 (ins r) <= psize2 (outs r)) -> multiplies2 n permute outs w (DFT2 false N g) ->
  (forall r, (r < n)%nat -> holds2 2 0 (ins r) (fld x) (getb b (M0 r))) ->
  exists P, setup_ffts2 cexpR N = Some P /\
  exec_all n (fun r => compute2 Rops rnormR esize f P s1 false FORWARD b b r ++ filling b w r ++ compute2 Rops rnormR esize f P scaled false BACKWARD b b r) M0
    (fun r m => holds2 2 0 (ins r) (fld (fun p => rmulc (if scaled then 1 else IZR (grid_points2 N))%R (CONV2 N x g p))) (getb b m) /\
                framed M0 b (fun r => 2 * t_fftsize f r) r m).
Proof. exact (convolve_2d esize ar n st N permute ins outs f b M0 s1 scaled x g w). Qed.
Print Assumptions C82_convolution_2d.

(** the loop over the points of the output box does what the theorems ask of the caller *)
Theorem C82_loop_3d n permute outs G : multiplies3 n permute outs (fun r => pointwise3 Rops permute (outs r) G) G.
Proof. exact (pointwise3_multiplies n permute outs G). Qed.
Print Assumptions C82_loop_3d.
Theorem C82_loop_2d n permute outs G : multiplies2 n permute outs (fun r => pointwise2 Rops permute (outs r) G) G.
Proof. exact (pointwise2_multiplies n permute outs G). Qed.
Print Assumptions C82_loop_2d.

Example C82_example_3d : exists f (M0 : nat -> @rmem R) (x g : pt3 -> R * R) w,
  ready3 exact_areas 2 (mkset 1 0 1) g2 1 split3 isplit3 f /\ Fft3dTop.room3 f BACKWARD BIn M0 /\
  (forall r, (r < 2)%nat -> psize3 (split3 r) <= psize3 (isplit3 r)) /\ multiplies3 2 1 isplit3 w (DFT3 false g2 g) /\
  (forall r, (r < 2)%nat -> holds3 2 0 (split3 r) (fld x) (getb BIn (M0 r))) /\ x (0, 0, 0) <> x (1, 0, 0) /\ g (0, 0, 0) <> g (1, 0, 0).
Proof. exact C82_start_3d. Qed.
Example C82_run_3d : tryall safe_sets (fun perm ins outs f P =>
    ends_as f (fun r => compute3 Zops normZ f P false false FORWARD BIn BIn r ++
                        filling BIn (fun r => pointwise3 Zops perm (outs r) (dftZ exK)) r ++
                        compute3 Zops normZ f P false false BACKWARD BIn BIn r)
      0 ins BIn 0 ins (times 8 (convZ exG exK))) = true /\
  (* the multiplication at the unpermuted places gives something else *)
  with_plan (mkset 2 0 2) 2 split3 isplit3 (fun f P => negb
    (ends_as f (fun r => compute3 Zops normZ f P false false FORWARD BIn BIn r ++
                         filling BIn (fun r => pointwise3 Zops 0 (isplit3 r) (dftZ exK)) r ++
                         compute3 Zops normZ f P false false BACKWARD BIn BIn r)
      0 split3 BIn 0 split3 (times 8 (convZ exG exK)))) = true.
Proof. exact C82_runs_3d. Qed.
Example C82_example_2d : exists f (M0 : nat -> @rmem R) (x g : pt2 -> R * R) w,
  ready2 8 exact_areas 2 (mkset 1 1 1) sq2 1 split2 isplit2 f /\ arrays_ok2 f BIn M0 /\
  (forall r, (r < 2)%nat -> psize2 (split2 r) <= psize2 (isplit2 r)) /\ multiplies2 2 1 isplit2 w (DFT2 false sq2 g) /\
  (forall r, (r < 2)%nat -> holds2 2 0 (split2 r) (fld x) (getb BIn (M0 r))) /\ x (0, 0) <> x (1, 0) /\ g (0, 0) <> g (1, 0).
Proof. exact C82_start_2d. Qed.
Example C82_run_2d : tryall_2 all_sets (fun perm ins outs f P =>
    ends_as_2 f (fun r => compute2 Zops normZ 8 f P false false FORWARD BIn BIn r ++
                        filling BIn (fun r => pointwise2 Zops perm (outs r) (dftZ_2 exK_2)) r ++
                        compute2 Zops normZ 8 f P false false BACKWARD BIn BIn r)
      0 ins BIn 0 ins (times_2 4 (convZ_2 exG_2 exK_2))) = true.
Proof. exact C82_runs_2d. Qed.
