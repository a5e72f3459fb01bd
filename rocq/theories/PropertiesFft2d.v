(** PropertiesFft2d.v : properties C32, C33 and the 2d parts of C28-C31, C37 and C38,
    proofs by reference. DFT2 (DftMulti.v) is the double sum written with the standard
    library's reals; ready2, place2 (Fft2dTop.v), arrays_ok2 (Fft2dMain.v), from_lay2,
    to_lay2 (Fft2dStmt.v) say which calls are covered. [esize] is sizeof(FFT_SCALAR). *)

From Coq Require Import Reals.
From Verif Require Import Base Spec Pack2d Sched SchedProofs Phases Exec Remap RemapMain RemapInst
  Remap2d RemapThms RemapTop ExRemap Layout LayoutProofs Setup3d Setup3dProofs Setup2d Setup2dProofs LayoutFinal Kiss KissPure KissAlg KissReal Fft1d KissFinal
  Fft3d Frame Fft3dProofs Fft3dMain DftMulti Fft3dTop Fft3dFinal Fft3dStmt Fft3dEx Fft2d Fft2dMain Fft2dTop Fft2dFinal Fft2dStmt Fft2dEx.
Local Open Scope Z_scope.

(** C32: a forward compute(), in place or out of place after a first remap, leaves the
    2d DFT of the input array in the permuted output layout, and changes nothing
    else *)
Theorem C32_forward_is_dft_2d : forall esize ar n st N permute ins outs f bi bo (M0 : nat -> @rmem R) scaled x,
  ready2 esize ar n st N permute ins outs f -> isdata bi -> isdata bo -> bi = bo \/ t_pre f = true -> arrays_ok2 f bo M0 ->
  (forall r, (r < n)%nat -> holds2 2 0 (ins r) (fld x) (getb bi (M0 r))) ->
  exists P, setup_ffts2 cexpR N = Some P /\
  exec_all n (compute2 Rops rnormR esize f P scaled false FORWARD bi bo) M0
    (fun r m => holds2 2 permute (outs r) (fld (DFT2 false N x)) (getb bo m) /\
                framed M0 bo (fun r => 2 * t_fftsize f r) r m).
Proof. exact @C25_proof2. Qed.
Print Assumptions C32_forward_is_dft_2d.
Example C32_forward_is_dft_2d_example : tryall_2 all_sets (fun perm ins outs f P =>
    ends_as_2 f (compute2 Zops normZ 8 f P true false FORWARD BIn BIn) 0 ins BIn perm outs (plain_sum_2 exG_2)) = true /\
  start_ok_2 (mkset 2 1 2) 1 split2 isplit2 FORWARD.
Proof. exact C25_runs_2. Qed.

(** C33: a backward compute() in place leaves the conjugate DFT, divided by the number
    of grid points when scaling is on, provided no rank has more points on input than
    on output *)
Theorem C33_backward_is_inverse_dft_2d : forall esize ar n st N permute ins outs f b (M0 : nat -> @rmem R) scaled x,
  ready2 esize ar n st N permute ins outs f -> isdata b -> arrays_ok2 f b M0 ->
  (forall r, (r < n)%nat -> psize2 (ins r) <= psize2 (outs r)) ->
  (forall r, (r < n)%nat -> holds2 2 permute (outs r) (fld x) (getb b (M0 r))) ->
  exists P, setup_ffts2 cexpR N = Some P /\
  exec_all n (compute2 Rops rnormR esize f P scaled false BACKWARD b b) M0
    (fun r m => holds2 2 0 (ins r) (fld (fun p => rmulc (if scaled then / IZR (grid_points2 N) else 1)%R (DFT2 true N x p))) (getb b m) /\
                framed M0 b (fun r => 2 * t_fftsize f r) r m).
Proof. exact @C26_all_proof2. Qed.
Print Assumptions C33_backward_is_inverse_dft_2d.
Example C33_backward_is_inverse_dft_2d_example : tryall_2 all_sets (fun perm ins outs f P =>
    ends_as_2 f (compute2 Zops normZ 8 f P false false BACKWARD BIn BIn) perm outs BIn 0 ins (plain_sum_2 exG_2)) = true /\
  forallb (fun st => with_plan_2 st 1 split2 isplit2 (fun f P =>
    ends_as_2 f (compute2 Zops normZ 8 f P true false BACKWARD BIn BIn) 1 isplit2 BIn 0 split2 (times_2 (normZ 4) (plain_sum_2 exG_2)))) all_sets = true /\
  start_ok_2 (mkset 1 1 1) 1 split2 isplit2 BACKWARD /\ (forall r, (r < 2)%nat -> psize2 (split2 r) <= psize2 (isplit2 r)).
Proof. exact C26_runs_2. Qed.

(** what a backward compute() does without that proviso: only the first outsize
    elements of a rank's result are scaled *)
Theorem C33_backward_exact_2d : forall esize ar n st N permute ins outs f bi bo (M0 : nat -> @rmem R) scaled x,
  ready2 esize ar n st N permute ins outs f -> isdata bi -> isdata bo -> place2 f BACKWARD bi bo -> arrays_ok2 f bo M0 ->
  (forall r, (r < n)%nat -> holds2 2 permute (outs r) (fld x) (getb bi (M0 r))) ->
  exists P, setup_ffts2 cexpR N = Some P /\
  exec_all n (compute2 Rops rnormR esize f P scaled false BACKWARD bi bo) M0
    (fun r m => holds2 2 0 (ins r)
       (fld (fun p => rmulc (if scaled && (pos2 0 (ins r) p <? psize2 (outs r)) then / IZR (grid_points2 N) else 1)%R (DFT2 true N x p)))
       (getb bo m) /\ framed M0 bo (fun r => 2 * t_fftsize f r) r m).
Proof. exact @C26_proof2. Qed.
Print Assumptions C33_backward_exact_2d.

(** without the proviso not all elements are scaled *)
Theorem C33_scaling_refuted_2d : exists st ins outs f x (M0 : nat -> @rmem R) P r p v,
  ready2 8 exact_areas 2 st sq2 0 ins outs f /\ setup_ffts2 cexpR sq2 = Some P /\ arrays_ok2 f BIn M0 /\
  (forall r, (r < 2)%nat -> holds2 2 0 (outs r) (fld x) (getb BIn (M0 r))) /\
  (r < 2)%nat /\ inb2 p (ins r) /\
  exec_all 2 (compute2 Rops rnormR 8 f P true false BACKWARD BIn BIn) M0
      (fun r' m => r' = r -> zget (getb BIn m) (cell2 2 0 (ins r) p 0) = Some v) /\
  v <> (/ IZR (grid_points2 sq2) * fst (DFT2 true sq2 x p))%R.
Proof. exact @C26_scaling_refuted_proof_2. Qed.
Print Assumptions C33_scaling_refuted_2d.

(** forward then backward gives back the data, or the data times the number of grid points *)
Theorem C33_round_trip_2d : forall esize ar n st N permute ins outs f b (M0 : nat -> @rmem R) s1 scaled x,
  ready2 esize ar n st N permute ins outs f -> isdata b -> arrays_ok2 f b M0 ->
  (scaled = true -> forall r, (r < n)%nat -> psize2 (ins r) <= psize2 (outs r)) ->
  (forall r, (r < n)%nat -> holds2 2 0 (ins r) (fld x) (getb b (M0 r))) ->
  exists P, setup_ffts2 cexpR N = Some P /\
  exec_all n (fun r => compute2 Rops rnormR esize f P s1 false FORWARD b b r ++ compute2 Rops rnormR esize f P scaled false BACKWARD b b r) M0
    (fun r m => holds2 2 0 (ins r) (fld (fun p => if scaled then x p else rmulc (IZR (grid_points2 N)) (x p))) (getb b m) /\
                framed M0 b (fun r => 2 * t_fftsize f r) r m).
Proof. exact @C27_all_proof2. Qed.
Print Assumptions C33_round_trip_2d.
Example C33_round_trip_2d_example : tryall_2 all_sets (fun perm ins outs f P =>
    ends_as_2 f (fun r => compute2 Zops normZ 8 f P true false FORWARD BIn BIn r ++ compute2 Zops normZ 8 f P false false BACKWARD BIn BIn r) 0 ins BIn 0 ins (times_2 4 exG_2)) = true.
Proof. exact C27_runs_2. Qed.

(** the same without the proviso on sizes *)
Theorem C33_round_trip_exact_2d : forall esize ar n st N permute ins outs f b (M0 : nat -> @rmem R) s1 scaled x,
  ready2 esize ar n st N permute ins outs f -> isdata b -> arrays_ok2 f b M0 ->
  (forall r, (r < n)%nat -> holds2 2 0 (ins r) (fld x) (getb b (M0 r))) ->
  exists P, setup_ffts2 cexpR N = Some P /\
  exec_all n (fun r => compute2 Rops rnormR esize f P s1 false FORWARD b b r ++ compute2 Rops rnormR esize f P scaled false BACKWARD b b r) M0
    (fun r m => holds2 2 0 (ins r)
       (fld (fun p => rmulc (if scaled && (pos2 0 (ins r) p <? psize2 (outs r)) then 1 else IZR (grid_points2 N))%R (x p)))
       (getb b m) /\ framed M0 b (fun r => 2 * t_fftsize f r) r m).
Proof. exact @C27_proof2. Qed.
Print Assumptions C33_round_trip_exact_2d.

(** C28: an out-of-place call gives the result of the in-place call, and leaves the
    input alone, if its first stage is a remap and (backward) its last stage is not *)
Theorem C28_out_of_place_2d : forall (F : Type) (O : sops F) (cexp : bool -> Z -> Z -> F * F) (rnorm : Z -> F) esize ar n st N permute ins outs f P bi bo (M0 : nat -> @rmem F) scaled ro flag G,
  ready2 esize ar n st N permute ins outs f -> setup_ffts2 cexp N = Some P -> isdata bi -> isdata bo ->
  (if fwdpath2 f flag then t_pre f = true else t_post f = true /\ t_pre f = false) -> arrays_ok2 f bo M0 -> arrays_ok2 f bi M0 ->
  (forall r, (r < n)%nat -> holds2 2 (from_perm permute flag) (from_lay2 ins outs flag r) (fld G) (getb bi (M0 r))) ->
  exists Mo Mi, exec_to n (compute2 O rnorm esize f P scaled ro flag bi bo) M0 Mo /\
    exec_to n (compute2 O rnorm esize f P scaled ro flag bi bi) M0 Mi /\
    (forall r p q, (r < n)%nat -> inb2 p (to_lay2 ins outs flag r) -> 0 <= q < 2 ->
      exists v, zget (getb bo (Mo r)) (cell2 2 (to_perm permute flag) (to_lay2 ins outs flag r) p q) = Some v /\
        zget (getb bi (Mi r)) (cell2 2 (to_perm permute flag) (to_lay2 ins outs flag r) p q) = Some v) /\
    (bi <> bo -> forall r, (r < n)%nat -> getb bi (Mo r) = getb bi (M0 r)).
Proof. exact @C28_stmt2. Qed.
Print Assumptions C28_out_of_place_2d.
Example C28_out_of_place_2d_example : forallb (fun st => with_plan_2 st 1 isplit2 split2 (fun f P => fwdpath2 f FORWARD && t_pre f &&
    ends_as_2 f (compute2 Zops normZ 8 f P true false FORWARD BIn BOut) 0 isplit2 BOut 1 split2 (plain_sum_2 exG_2) &&
    ends_as_2 f (compute2 Zops normZ 8 f P true false FORWARD BIn BOut) 0 isplit2 BIn 0 isplit2 exG_2)) all_sets = true /\
  forallb (fun st => with_plan_2 st 0 split2 isplit2 (fun f P => negb (fwdpath2 f BACKWARD) && t_post f && negb (t_pre f) &&
    ends_as_2 f (compute2 Zops normZ 8 f P false false BACKWARD BIn BOut) 0 isplit2 BOut 0 split2 (plain_sum_2 exG_2) &&
    ends_as_2 f (compute2 Zops normZ 8 f P false false BACKWARD BIn BOut) 0 isplit2 BIn 0 isplit2 exG_2)) all_sets = true /\
  start_ok_2 (mkset 0 1 2) 1 isplit2 split2 FORWARD /\ start_ok_2 (mkset 0 0 2) 0 split2 isplit2 BACKWARD.
Proof. exact C28_runs_2. Qed.

(** without a first remap only half of the input is copied *)
Theorem C28_forward_refuted_2d : exists st permute ins outs f P (M0 : nat -> @rmem Z) G r p q v w,
  ready2 8 exact_areas 2 st sq2 permute ins outs f /\ setup_ffts2 cexpZ sq2 = Some P /\ arrays_ok2 f BIn M0 /\ arrays_ok2 f BOut M0 /\
  (forall r, (r < 2)%nat -> holds2 2 0 (ins r) (fld G) (getb BIn (M0 r))) /\
  (r < 2)%nat /\ inb2 p (outs r) /\ 0 <= q < 2 /\
  may_end_with 2 (compute2 Zops normZ 8 f P false false FORWARD BIn BIn) M0 r BIn (cell2 2 permute (outs r) p q) v /\
  may_end_with 2 (compute2 Zops normZ 8 f P false false FORWARD BIn BOut) M0 r BOut (cell2 2 permute (outs r) p q) w /\ v <> w.
Proof. exact @C28_forward_refuted_proof_2. Qed.
Print Assumptions C28_forward_refuted_2d.

(** with a last remap the backward call remaps the input again instead of the result *)
Theorem C28_backward_refuted_2d : exists st permute ins outs f P (M0 : nat -> @rmem Z) G r p q v w,
  ready2 8 exact_areas 2 st sq2 permute ins outs f /\ t_pre f = true /\ t_post f = true /\
  setup_ffts2 cexpZ sq2 = Some P /\ arrays_ok2 f BIn M0 /\ arrays_ok2 f BOut M0 /\
  (forall r, (r < 2)%nat -> holds2 2 permute (outs r) (fld G) (getb BIn (M0 r))) /\
  (r < 2)%nat /\ inb2 p (ins r) /\ 0 <= q < 2 /\
  may_end_with 2 (compute2 Zops normZ 8 f P false false BACKWARD BIn BIn) M0 r BIn (cell2 2 0 (ins r) p q) v /\
  may_end_with 2 (compute2 Zops normZ 8 f P false false BACKWARD BIn BOut) M0 r BOut (cell2 2 0 (ins r) p q) w /\ v <> w.
Proof. exact @C28_backward_refuted_proof_2. Qed.
Print Assumptions C28_backward_refuted_2d.

(** C29: two plans for one problem that differ in collective, exchange and packflag
    give the same result *)
Theorem C29_settings_independent_2d : forall (F : Type) (O : sops F) (cexp : bool -> Z -> Z -> F * F) (rnorm : Z -> F) esize ar ar' n st st' N permute ins outs f f' P bi bo bi' bo' (M0 M0' : nat -> @rmem F) scaled ro flag G,
  ready2 esize ar n st N permute ins outs f -> ready2 esize ar' n st' N permute ins outs f' -> setup_ffts2 cexp N = Some P ->
  isdata bi -> isdata bo -> isdata bi' -> isdata bo' ->
  place2 f flag bi bo -> place2 f' flag bi' bo' -> arrays_ok2 f bo M0 -> arrays_ok2 f' bo' M0' ->
  (forall r, (r < n)%nat -> holds2 2 (from_perm permute flag) (from_lay2 ins outs flag r) (fld G) (getb bi (M0 r))) ->
  (forall r, (r < n)%nat -> holds2 2 (from_perm permute flag) (from_lay2 ins outs flag r) (fld G) (getb bi' (M0' r))) ->
  exists M M', exec_to n (compute2 O rnorm esize f P scaled ro flag bi bo) M0 M /\
    exec_to n (compute2 O rnorm esize f' P scaled ro flag bi' bo') M0' M' /\
    forall r p q, (r < n)%nat -> inb2 p (to_lay2 ins outs flag r) -> 0 <= q < 2 ->
      exists v, zget (getb bo (M r)) (cell2 2 (to_perm permute flag) (to_lay2 ins outs flag r) p q) = Some v /\
        zget (getb bo' (M' r)) (cell2 2 (to_perm permute flag) (to_lay2 ins outs flag r) p q) = Some v.
Proof. exact @C29_stmt2. Qed.
Print Assumptions C29_settings_independent_2d.
Example C29_settings_independent_2d_example : start_ok_2 (mkset 2 1 2) 1 split2 isplit2 FORWARD /\ start_ok_2 (mkset 0 0 0) 1 split2 isplit2 FORWARD /\
  start_ok_2 (mkset 1 1 1) 1 split2 isplit2 BACKWARD /\ start_ok_2 (mkset 0 0 0) 1 split2 isplit2 BACKWARD.
Proof. exact C29_runs_2. Qed.

(** C30: compute() with remaponly moves the array without changing it *)
Theorem C30_remaponly_2d : forall (F : Type) (O : sops F) (cexp : bool -> Z -> Z -> F * F) (rnorm : Z -> F) esize ar n st N permute ins outs f P bi bo (M0 : nat -> @rmem F) scaled flag G,
  ready2 esize ar n st N permute ins outs f -> setup_ffts2 cexp N = Some P -> isdata bi -> isdata bo ->
  place2 f flag bi bo -> arrays_ok2 f bo M0 ->
  (forall r, (r < n)%nat -> holds2 2 (from_perm permute flag) (from_lay2 ins outs flag r) (fld G) (getb bi (M0 r))) ->
  exec_all n (compute2 O rnorm esize f P scaled true flag bi bo) M0
    (fun r m => holds2 2 (to_perm permute flag) (to_lay2 ins outs flag r) (fld G) (getb bo m) /\
                framed M0 bo (fun r => 2 * t_fftsize f r) r m).
Proof. exact @C30_compute_stmt2. Qed.
Print Assumptions C30_remaponly_2d.
Example C30_remaponly_2d_example : tryall_2 all_sets (fun perm ins outs f P =>
    ends_as_2 f (compute2 Zops normZ 8 f P true true FORWARD BIn BIn) 0 ins BIn perm outs exG_2 &&
    ends_as_2 f (only_remaps2 8 f FORWARD BIn BIn) 0 ins BIn perm outs exG_2) = true /\
  tryall_2 all_sets (fun perm ins outs f P =>
    ends_as_2 f (compute2 Zops normZ 8 f P true true BACKWARD BIn BIn) perm outs BIn 0 ins exG_2 &&
    ends_as_2 f (fun r => only_remaps2 8 f FORWARD BIn BIn r ++ only_remaps2 8 f BACKWARD BIn BIn r) 0 ins BIn 0 ins exG_2) = true.
Proof. exact C30_runs_2. Qed.

(** only_remaps() does the same *)
Theorem C30_only_remaps_2d : forall {A} esize ar n st N permute ins outs f bi bo (M0 : nat -> @rmem A) flag g,
  ready2 esize ar n st N permute ins outs f -> isdata bi -> isdata bo ->
  bi = bo \/ (if fwdpath2 f flag then t_pre f = true else t_post f = true) -> arrays_ok2 f bo M0 ->
  (forall r, (r < n)%nat -> holds2 2 (from_perm permute flag) (from_lay2 ins outs flag r) g (getb bi (M0 r))) ->
  exec_all n (only_remaps2 esize f flag bi bo) M0
    (fun r m => holds2 2 (to_perm permute flag) (to_lay2 ins outs flag r) g (getb bo m) /\
                framed M0 bo (fun r => 2 * t_fftsize f r) r m).
Proof. exact @C30_remaps_stmt2. Qed.
Print Assumptions C30_only_remaps_2d.

(** forward then backward is the identity *)
Theorem C30_there_and_back_2d : forall A esize ar n st N permute ins outs f b (M0 : nat -> @rmem A) g,
  ready2 esize ar n st N permute ins outs f -> isdata b -> arrays_ok2 f b M0 ->
  (forall r, (r < n)%nat -> holds2 2 0 (ins r) g (getb b (M0 r))) ->
  exec_all n (fun r => only_remaps2 esize f FORWARD b b r ++ only_remaps2 esize f BACKWARD b b r) M0
    (fun r m => holds2 2 0 (ins r) g (getb b m) /\ framed M0 b (fun r => 2 * t_fftsize f r) r m).
Proof. exact @C30_identity_proof2. Qed.
Print Assumptions C30_there_and_back_2d.

(** out of place without a first remap only half of the input is moved *)
Theorem C30_out_of_place_refuted_2d : exists st permute ins outs f (M0 : nat -> @rmem Z) g r p q w,
  ready2 8 exact_areas 2 st sq2 permute ins outs f /\ arrays_ok2 f BIn M0 /\ arrays_ok2 f BOut M0 /\
  (forall r, (r < 2)%nat -> holds2 2 0 (ins r) g (getb BIn (M0 r))) /\
  (r < 2)%nat /\ inb2 p (outs r) /\ 0 <= q < 2 /\
  may_end_with 2 (only_remaps2 8 f FORWARD BIn BOut) M0 r BOut (cell2 2 permute (outs r) p q) w /\ w <> g p q.
Proof. exact @C30_refuted_proof_2. Qed.
Print Assumptions C30_out_of_place_refuted_2d.

(** C31: only_one_remap() moves the array from the layout before a stage to the layout
    after it, in place always, out of place if the stage is one plain remap *)
Theorem C31_one_remap_2d : forall A esize ar n st N permute ins outs f bi bo (M0 : nat -> @rmem A) flag which g,
  ready2 esize ar n st N permute ins outs f -> isdata bi -> isdata bo ->
  which = 1 \/ which = 2 \/ which = 3 ->
  bi = bo \/ (if which =? 1 then t_pre f = true else if which =? 3 then t_post f = true else st_exch st = 0) ->
  arrays_ok2 f bo M0 ->
  (forall r, (r < n)%nat -> holds2 2 (fst (stage_src2 permute ins outs f flag which)) (snd (stage_src2 permute ins outs f flag which) r) g (getb bi (M0 r))) ->
  exec_all n (only_one_remap2 esize f flag which bi bo) M0
    (fun r m => holds2 2 (fst (stage_dst2 permute ins outs f flag which)) (snd (stage_dst2 permute ins outs f flag which) r) g (getb bo m) /\
                framed M0 bo (fun r => 2 * t_fftsize f r) r m).
Proof. exact @C31_proof2. Qed.
Print Assumptions C31_one_remap_2d.
Example C31_one_remap_2d_example : forallb (fun w => forallb (fun flag => tryall_2 all_sets (fun perm ins outs f P =>
    let src := stage_src2 perm ins outs f flag w in let dst := stage_dst2 perm ins outs f flag w in
    ends_as_2 f (only_one_remap2 8 f flag w BIn BIn) (fst src) (snd src) BIn (fst dst) (snd dst) exG_2)) [FORWARD; BACKWARD]) [1; 2; 3] = true /\
  with_plan_2 (mkset 2 0 2) 1 isplit2 split2 (fun f P => t_pre f && t_post f && forallb (fun w =>
    let src := stage_src2 1 isplit2 split2 f FORWARD w in let dst := stage_dst2 1 isplit2 split2 f FORWARD w in
    ends_as_2 f (only_one_remap2 8 f FORWARD w BIn BOut) (fst src) (snd src) BOut (fst dst) (snd dst) exG_2) [1; 2; 3]) = true.
Proof. exact C31_runs_2. Qed.

(** out of place it fails when the stage takes two remaps (exchange=1) or none *)
Theorem C31_out_of_place_refuted_2d : one_wrong_2 (mkset 2 1 2) BACKWARD 2 /\
  one_wrong_2 (mkset 2 0 2) FORWARD 1 /\ one_wrong_2 (mkset 2 0 2) FORWARD 3 /\
  one_wrong_2 (mkset 2 0 2) BACKWARD 1 /\ one_wrong_2 (mkset 2 0 2) BACKWARD 3.
Proof. exact @C31_refuted_proof_2. Qed.
Print Assumptions C31_out_of_place_refuted_2d.

(** C37: any sequence of calls completes, and each call gives what the same call gives
    on any other memory Mf with the same input data *)
Theorem C37_plan_reuse_2d : forall (F : Type) (O : sops F) (cexp : bool -> Z -> Z -> F * F) (rnorm : Z -> F) esize ar n st N permute ins outs f P calls (M0 : nat -> @rmem F),
  ready2 esize ar n st N permute ins outs f -> setup_ffts2 cexp N = Some P -> Forall (tcall_ok2 f M0) calls ->
  (exists M', exec_to n (together (map (tcall_code2 O rnorm esize f P) calls)) M0 M') /\
  forall pre c post M1, calls = pre ++ c :: post -> exec_to n (together (map (tcall_code2 O rnorm esize f P) pre)) M0 M1 ->
    exists M2, exec_to n (tcall_code2 O rnorm esize f P c) M1 M2 /\ exec_to n (together (map (tcall_code2 O rnorm esize f P) (pre ++ [c]))) M0 M2 /\
    forall Mf, tcall_ok2 f Mf c ->
      (forall r p q, (r < n)%nat -> inb2 p (from_lay2 ins outs (ca_flag c) r) -> 0 <= q < 2 ->
         zget (getb (ca_in c) (Mf r)) (cell2 2 (from_perm permute (ca_flag c)) (from_lay2 ins outs (ca_flag c) r) p q) =
         zget (getb (ca_in c) (M1 r)) (cell2 2 (from_perm permute (ca_flag c)) (from_lay2 ins outs (ca_flag c) r) p q)) ->
      exists Mf2, exec_to n (tcall_code2 O rnorm esize f P c) Mf Mf2 /\
        forall r p q, (r < n)%nat -> inb2 p (to_lay2 ins outs (ca_flag c) r) -> 0 <= q < 2 ->
          exists v, zget (getb (ca_out c) (M2 r)) (cell2 2 (to_perm permute (ca_flag c)) (to_lay2 ins outs (ca_flag c) r) p q) = Some v /\
            zget (getb (ca_out c) (Mf2 r)) (cell2 2 (to_perm permute (ca_flag c)) (to_lay2 ins outs (ca_flag c) r) p q) = Some v.
Proof. exact @C37_stmt2. Qed.
Print Assumptions C37_plan_reuse_2d.
Example C37_plan_reuse_2d_example : exists f P (M0 : nat -> @rmem Z), ready2 8 exact_areas 2 (mkset 2 0 2) sq2 1 isplit2 split2 f /\ setup_ffts2 cexpZ sq2 = Some P /\
  Forall (tcall_ok2 f M0) exCalls_2 /\
  ends_as_2 f (together (map (tcall_code2 Zops normZ 8 f P) (firstn 3 exCalls_2))) 0 isplit2 BIn 0 isplit2 (times_2 4 exG_2) = true.
Proof. exact C37_runs_2. Qed.

(** C38: whatever the schedule and whatever messages MPI buffers, nothing goes wrong, a
    step is possible until after exactly L steps all ranks are done with no message
    left over, and the memories are those of the lock-step execution *)
Theorem C38_any_schedule_2d : forall (F : Type) (O : sops F) (cexp : bool -> Z -> Z -> F * F) (rnorm : Z -> F) esize ar n st N permute ins outs f P (M0 : nat -> @rmem F) c,
  ready2 esize ar n st N permute ins outs f -> setup_ffts2 cexp N = Some P -> tcall_ok2 f M0 c ->
  exists L M', one_by_one n (pieces_compute2 O rnorm esize f P (ca_scaled c) (ca_ro c) (ca_flag c) (ca_in c) (ca_out c)) M0 M' /\
    forall eager labels s, run n eager (start n (tcall_code2 O rnorm esize f P c) M0) labels s ->
      (forall a, step n eager a s <> Bad) /\
      (((length labels < L)%nat /\ exists a s', step n eager a s = Ok s') \/
       (length labels = L /\ all_done s /\ s_ch s = empty_chans n /\ mems_of s = map M' (seq 0 n))).
Proof. exact @C38_stmt2. Qed.
Print Assumptions C38_any_schedule_2d.
Example C38_any_schedule_2d_example : exists f P (M0 : nat -> @rmem Z), ready2 8 exact_areas 2 (mkset 2 0 2) sq2 1 isplit2 split2 f /\ setup_ffts2 cexpZ sq2 = Some P /\
  Forall (tcall_ok2 f M0) exCalls_2 /\
  ends_as_2 f (together (map (tcall_code2 Zops normZ 8 f P) (firstn 3 exCalls_2))) 0 isplit2 BIn 0 isplit2 (times_2 4 exG_2) = true.
Proof. exact C37_runs_2. Qed.
