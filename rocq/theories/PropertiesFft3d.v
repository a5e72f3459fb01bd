(** PropertiesFft3d.v : properties C25-C31, C37 and C38 (3d transforms), proofs by
    reference. DFT3 (DftMulti.v) is the triple sum written with the standard
    library's reals; ready3, room3, place3 (Fft3dTop.v), from_lay, to_lay
    (Fft3dStmt.v) say which calls are covered; exec_all (Exec.v) quantifies over all
    schedules. *)

From Coq Require Import Reals.
From Verif Require Import Base Spec Pack3d Sched SchedProofs Phases Exec Remap RemapMain RemapInst
  Remap3d RemapThms RemapTop ExRemap Layout LayoutProofs Setup3d Setup3dProofs LayoutFinal Kiss KissPure KissAlg KissReal Fft1d KissFinal
  Fft3d Frame Fft3dProofs Fft3dMain DftMulti Fft3dTop Fft3dFinal Fft3dStmt Fft3dEx.
Local Open Scope Z_scope.

(** C25: a forward compute(), in place or out of place after a first remap, leaves the
    3d DFT of the input array in the permuted output layout, and changes nothing
    else *)
Theorem C25_forward_is_dft : forall ar n st N permute ins outs f bi bo (M0 : nat -> @rmem R) scaled x,
  ready3 ar n st N permute ins outs f -> isdata bi -> isdata bo -> bi = bo \/ f_pre f = true -> arrays_ok f bo M0 ->
  (forall r, (r < n)%nat -> holds3 2 0 (ins r) (fld x) (getb bi (M0 r))) ->
  exists P, setup_ffts3 cexpR N = Some P /\
  exec_all n (compute3 Rops rnormR f P scaled false FORWARD bi bo) M0
    (fun r m => holds3 2 permute (outs r) (fld (DFT3 false N x)) (getb bo m) /\
                framed M0 bo (fun r => 2 * f_fftsize f r) r m).
Proof. exact @C25_proof. Qed.
Print Assumptions C25_forward_is_dft.
Example C25_forward_is_dft_example : tryall all_sets (fun perm ins outs f P =>
    ends_as f (compute3 Zops normZ f P true false FORWARD BIn BIn) 0 ins BIn perm outs (plain_sum exG)) = true /\
  start_ok (mkset 2 1 2) 1 split3 isplit3 FORWARD.
Proof. exact C25_runs. Qed.

(** C26: a backward compute() in place leaves the conjugate DFT, divided by the number
    of grid points when scaling is on, provided no rank has more points on input than
    on output *)
Theorem C26_backward_is_inverse_dft : forall ar n st N permute ins outs f b (M0 : nat -> @rmem R) scaled x,
  ready3 ar n st N permute ins outs f -> isdata b -> room3 f BACKWARD b M0 ->
  (forall r, (r < n)%nat -> psize3 (ins r) <= psize3 (outs r)) ->
  (forall r, (r < n)%nat -> holds3 2 permute (outs r) (fld x) (getb b (M0 r))) ->
  exists P, setup_ffts3 cexpR N = Some P /\
  exec_all n (compute3 Rops rnormR f P scaled false BACKWARD b b) M0
    (fun r m => holds3 2 0 (ins r) (fld (fun p => rmulc (if scaled then / IZR (grid_points N) else 1)%R (DFT3 true N x p))) (getb b m) /\
                framed M0 b (fun r => 2 * f_fftsize f r) r m).
Proof. exact @C26_all_proof. Qed.
Print Assumptions C26_backward_is_inverse_dft.
Example C26_backward_is_inverse_dft_example : tryall safe_sets (fun perm ins outs f P =>
    ends_as f (compute3 Zops normZ f P false false BACKWARD BIn BIn) perm outs BIn 0 ins (plain_sum exG)) = true /\
  forallb (fun st => with_plan st 1 split3 isplit3 (fun f P =>
    ends_as f (compute3 Zops normZ f P true false BACKWARD BIn BIn) 1 isplit3 BIn 0 split3 (times (normZ 8) (plain_sum exG)))) safe_sets = true /\
  start_ok (mkset 1 0 1) 1 split3 isplit3 BACKWARD /\ (forall r, (r < 2)%nat -> psize3 (split3 r) <= psize3 (isplit3 r)).
Proof. exact C26_runs. Qed.

(** what a backward compute() does without that proviso: only the first outsize
    elements of a rank's result are scaled *)
Theorem C26_backward_exact : forall ar n st N permute ins outs f bi bo (M0 : nat -> @rmem R) scaled x,
  ready3 ar n st N permute ins outs f -> isdata bi -> isdata bo -> place3 f BACKWARD bi bo -> room3 f BACKWARD bo M0 ->
  (forall r, (r < n)%nat -> holds3 2 permute (outs r) (fld x) (getb bi (M0 r))) ->
  exists P, setup_ffts3 cexpR N = Some P /\
  exec_all n (compute3 Rops rnormR f P scaled false BACKWARD bi bo) M0
    (fun r m => holds3 2 0 (ins r)
       (fld (fun p => rmulc (if scaled && (pos3 0 (ins r) p <? psize3 (outs r)) then / IZR (grid_points N) else 1)%R (DFT3 true N x p)))
       (getb bo m) /\ framed M0 bo (fun r => 2 * f_fftsize f r) r m).
Proof. exact @C26_proof. Qed.
Print Assumptions C26_backward_exact.

(** C26 without the proviso is false: element 7 of 8 on rank 0 is not scaled *)
Theorem C26_scaling_refuted : exists st ins outs f x (M0 : nat -> @rmem R) P r p v,
  ready3 exact_areas 2 st g2 0 ins outs f /\ setup_ffts3 cexpR g2 = Some P /\ room3 f BACKWARD BIn M0 /\
  (forall r, (r < 2)%nat -> holds3 2 0 (outs r) (fld x) (getb BIn (M0 r))) /\
  (r < 2)%nat /\ inb3 p (ins r) /\
  exec_all 2 (compute3 Rops rnormR f P true false BACKWARD BIn BIn) M0
      (fun r' m => r' = r -> zget (getb BIn m) (cell3 2 0 (ins r) p 0) = Some v) /\
  v <> (/ IZR (grid_points g2) * fst (DFT3 true g2 x p))%R.
Proof. exact @C26_scaling_refuted_proof. Qed.
Print Assumptions C26_scaling_refuted.

(** with exchange=1 the buffers that setup() allocates can be too small for a backward
    compute(): it then runs out of bounds (see C21) *)
Theorem C26_overflow_refuted : forall c, c = 0 \/ c = 1 \/ c = 2 ->
  exists ins outs f P (M0 : nat -> @rmem Z) G,
  ready3 exact_areas 2 (mkset c 1 0) g2 0 ins outs f /\ setup_ffts3 cexpZ g2 = Some P /\ arrays_ok f BIn M0 /\
  (forall r, (r < 2)%nat -> holds3 2 0 (outs r) (fld G) (getb BIn (M0 r))) /\
  may_go_wrong 2 (compute3 Zops normZ f P false false BACKWARD BIn BIn) M0.
Proof. exact @C26_overflow_refuted_proof. Qed.
Print Assumptions C26_overflow_refuted.

(** C27: forward then backward gives back the data, or the data times the number of grid points *)
Theorem C27_round_trip : forall ar n st N permute ins outs f b (M0 : nat -> @rmem R) s1 scaled x,
  ready3 ar n st N permute ins outs f -> isdata b -> room3 f BACKWARD b M0 ->
  (scaled = true -> forall r, (r < n)%nat -> psize3 (ins r) <= psize3 (outs r)) ->
  (forall r, (r < n)%nat -> holds3 2 0 (ins r) (fld x) (getb b (M0 r))) ->
  exists P, setup_ffts3 cexpR N = Some P /\
  exec_all n (fun r => compute3 Rops rnormR f P s1 false FORWARD b b r ++ compute3 Rops rnormR f P scaled false BACKWARD b b r) M0
    (fun r m => holds3 2 0 (ins r) (fld (fun p => if scaled then x p else rmulc (IZR (grid_points N)) (x p))) (getb b m) /\
                framed M0 b (fun r => 2 * f_fftsize f r) r m).
Proof. exact @C27_all_proof. Qed.
Print Assumptions C27_round_trip.
Example C27_round_trip_example : tryall safe_sets (fun perm ins outs f P =>
    ends_as f (fun r => compute3 Zops normZ f P true false FORWARD BIn BIn r ++ compute3 Zops normZ f P false false BACKWARD BIn BIn r) 0 ins BIn 0 ins (times 8 exG)) = true.
Proof. exact C27_runs. Qed.

(** the same without the proviso on sizes *)
Theorem C27_round_trip_exact : forall ar n st N permute ins outs f b (M0 : nat -> @rmem R) s1 scaled x,
  ready3 ar n st N permute ins outs f -> isdata b -> room3 f BACKWARD b M0 ->
  (forall r, (r < n)%nat -> holds3 2 0 (ins r) (fld x) (getb b (M0 r))) ->
  exists P, setup_ffts3 cexpR N = Some P /\
  exec_all n (fun r => compute3 Rops rnormR f P s1 false FORWARD b b r ++ compute3 Rops rnormR f P scaled false BACKWARD b b r) M0
    (fun r m => holds3 2 0 (ins r)
       (fld (fun p => rmulc (if scaled && (pos3 0 (ins r) p <? psize3 (outs r)) then 1 else IZR (grid_points N))%R (x p)))
       (getb b m) /\ framed M0 b (fun r => 2 * f_fftsize f r) r m).
Proof. exact @C27_proof. Qed.
Print Assumptions C27_round_trip_exact.

(** C28: an out-of-place call gives the result of the in-place call, and leaves the
    input alone, if its first stage is a remap and (backward) its last stage is not *)
Theorem C28_out_of_place : forall (F : Type) (O : sops F) (cexp : bool -> Z -> Z -> F * F) (rnorm : Z -> F) ar n st N permute ins outs f P bi bo (M0 : nat -> @rmem F) scaled ro flag G,
  ready3 ar n st N permute ins outs f -> setup_ffts3 cexp N = Some P -> isdata bi -> isdata bo ->
  (if fwdpath f flag then f_pre f = true else f_post f = true /\ f_pre f = false) -> room3 f flag bo M0 -> room3 f flag bi M0 ->
  (forall r, (r < n)%nat -> holds3 2 (from_perm permute flag) (from_lay ins outs flag r) (fld G) (getb bi (M0 r))) ->
  exists Mo Mi, exec_to n (compute3 O rnorm f P scaled ro flag bi bo) M0 Mo /\
    exec_to n (compute3 O rnorm f P scaled ro flag bi bi) M0 Mi /\
    (forall r p q, (r < n)%nat -> inb3 p (to_lay ins outs flag r) -> 0 <= q < 2 ->
      exists v, zget (getb bo (Mo r)) (cell3 2 (to_perm permute flag) (to_lay ins outs flag r) p q) = Some v /\
        zget (getb bi (Mi r)) (cell3 2 (to_perm permute flag) (to_lay ins outs flag r) p q) = Some v) /\
    (bi <> bo -> forall r, (r < n)%nat -> getb bi (Mo r) = getb bi (M0 r)).
Proof. exact @C28_stmt. Qed.
Print Assumptions C28_out_of_place.
Example C28_out_of_place_example : forallb (fun st => with_plan st 1 isplit3 split3 (fun f P => fwdpath f FORWARD && f_pre f &&
    ends_as f (compute3 Zops normZ f P true false FORWARD BIn BOut) 0 isplit3 BOut 1 split3 (plain_sum exG) &&
    ends_as f (compute3 Zops normZ f P true false FORWARD BIn BOut) 0 isplit3 BIn 0 isplit3 exG)) all_sets = true /\
  forallb (fun st => with_plan st 1 split3 isplit3 (fun f P => negb (fwdpath f BACKWARD) && f_post f && negb (f_pre f) &&
    ends_as f (compute3 Zops normZ f P false false BACKWARD BIn BOut) 1 isplit3 BOut 0 split3 (plain_sum exG) &&
    ends_as f (compute3 Zops normZ f P false false BACKWARD BIn BOut) 1 isplit3 BIn 1 isplit3 exG)) safe_sets = true /\
  start_ok (mkset 0 1 2) 1 isplit3 split3 FORWARD /\ start_ok (mkset 0 0 2) 1 split3 isplit3 BACKWARD.
Proof. exact C28_runs. Qed.

(** without a first remap only half of the input is copied *)
Theorem C28_forward_refuted : exists st permute ins outs f P (M0 : nat -> @rmem Z) G r p q v w,
  ready3 exact_areas 2 st g2 permute ins outs f /\ setup_ffts3 cexpZ g2 = Some P /\ arrays_ok f BIn M0 /\ arrays_ok f BOut M0 /\
  (forall r, (r < 2)%nat -> holds3 2 0 (ins r) (fld G) (getb BIn (M0 r))) /\
  (r < 2)%nat /\ inb3 p (outs r) /\ 0 <= q < 2 /\
  may_end_with 2 (compute3 Zops normZ f P false false FORWARD BIn BIn) M0 r BIn (cell3 2 permute (outs r) p q) v /\
  may_end_with 2 (compute3 Zops normZ f P false false FORWARD BIn BOut) M0 r BOut (cell3 2 permute (outs r) p q) w /\ v <> w.
Proof. exact @C28_forward_refuted_proof. Qed.
Print Assumptions C28_forward_refuted.

(** with a last remap the backward call remaps the input again instead of the result *)
Theorem C28_backward_refuted : exists st permute ins outs f P (M0 : nat -> @rmem Z) G r p q v w,
  ready3 exact_areas 2 st g2 permute ins outs f /\ f_pre f = true /\ f_post f = true /\
  setup_ffts3 cexpZ g2 = Some P /\ room3 f BACKWARD BIn M0 /\ room3 f BACKWARD BOut M0 /\
  (forall r, (r < 2)%nat -> holds3 2 permute (outs r) (fld G) (getb BIn (M0 r))) /\
  (r < 2)%nat /\ inb3 p (ins r) /\ 0 <= q < 2 /\
  may_end_with 2 (compute3 Zops normZ f P false false BACKWARD BIn BIn) M0 r BIn (cell3 2 0 (ins r) p q) v /\
  may_end_with 2 (compute3 Zops normZ f P false false BACKWARD BIn BOut) M0 r BOut (cell3 2 0 (ins r) p q) w /\ v <> w.
Proof. exact @C28_backward_refuted_proof. Qed.
Print Assumptions C28_backward_refuted.

(** C29: two plans for one problem that differ in collective, exchange and packflag
    give the same result *)
Theorem C29_settings_independent : forall (F : Type) (O : sops F) (cexp : bool -> Z -> Z -> F * F) (rnorm : Z -> F) ar ar' n st st' N permute ins outs f f' P bi bo bi' bo' (M0 M0' : nat -> @rmem F) scaled ro flag G,
  ready3 ar n st N permute ins outs f -> ready3 ar' n st' N permute ins outs f' -> setup_ffts3 cexp N = Some P ->
  isdata bi -> isdata bo -> isdata bi' -> isdata bo' ->
  place3 f flag bi bo -> place3 f' flag bi' bo' -> room3 f flag bo M0 -> room3 f' flag bo' M0' ->
  (forall r, (r < n)%nat -> holds3 2 (from_perm permute flag) (from_lay ins outs flag r) (fld G) (getb bi (M0 r))) ->
  (forall r, (r < n)%nat -> holds3 2 (from_perm permute flag) (from_lay ins outs flag r) (fld G) (getb bi' (M0' r))) ->
  exists M M', exec_to n (compute3 O rnorm f P scaled ro flag bi bo) M0 M /\
    exec_to n (compute3 O rnorm f' P scaled ro flag bi' bo') M0' M' /\
    forall r p q, (r < n)%nat -> inb3 p (to_lay ins outs flag r) -> 0 <= q < 2 ->
      exists v, zget (getb bo (M r)) (cell3 2 (to_perm permute flag) (to_lay ins outs flag r) p q) = Some v /\
        zget (getb bo' (M' r)) (cell3 2 (to_perm permute flag) (to_lay ins outs flag r) p q) = Some v.
Proof. exact @C29_stmt. Qed.
Print Assumptions C29_settings_independent.
Example C29_settings_independent_example : start_ok (mkset 2 1 2) 1 split3 isplit3 FORWARD /\ start_ok (mkset 0 0 0) 1 split3 isplit3 FORWARD /\
  start_ok (mkset 1 0 1) 1 split3 isplit3 BACKWARD /\ start_ok (mkset 0 0 0) 1 split3 isplit3 BACKWARD.
Proof. exact C29_runs. Qed.

(** C30: compute() with remaponly moves the array without changing it *)
Theorem C30_remaponly : forall (F : Type) (O : sops F) (cexp : bool -> Z -> Z -> F * F) (rnorm : Z -> F) ar n st N permute ins outs f P bi bo (M0 : nat -> @rmem F) scaled flag G,
  ready3 ar n st N permute ins outs f -> setup_ffts3 cexp N = Some P -> isdata bi -> isdata bo ->
  place3 f flag bi bo -> room3 f flag bo M0 ->
  (forall r, (r < n)%nat -> holds3 2 (from_perm permute flag) (from_lay ins outs flag r) (fld G) (getb bi (M0 r))) ->
  exec_all n (compute3 O rnorm f P scaled true flag bi bo) M0
    (fun r m => holds3 2 (to_perm permute flag) (to_lay ins outs flag r) (fld G) (getb bo m) /\
                framed M0 bo (fun r => 2 * f_fftsize f r) r m).
Proof. exact @C30_compute_stmt. Qed.
Print Assumptions C30_remaponly.
Example C30_remaponly_example : tryall all_sets (fun perm ins outs f P =>
    ends_as f (compute3 Zops normZ f P true true FORWARD BIn BIn) 0 ins BIn perm outs exG &&
    ends_as f (only_remaps3 f FORWARD BIn BIn) 0 ins BIn perm outs exG) = true /\
  tryall safe_sets (fun perm ins outs f P =>
    ends_as f (compute3 Zops normZ f P true true BACKWARD BIn BIn) perm outs BIn 0 ins exG &&
    ends_as f (fun r => only_remaps3 f FORWARD BIn BIn r ++ only_remaps3 f BACKWARD BIn BIn r) 0 ins BIn 0 ins exG) = true.
Proof. exact C30_runs. Qed.

(** only_remaps() does the same *)
Theorem C30_only_remaps : forall {A} ar n st N permute ins outs f bi bo (M0 : nat -> @rmem A) flag g,
  ready3 ar n st N permute ins outs f -> isdata bi -> isdata bo ->
  bi = bo \/ (if fwdpath f flag then f_pre f = true else f_post f = true) -> room3 f flag bo M0 ->
  (forall r, (r < n)%nat -> holds3 2 (from_perm permute flag) (from_lay ins outs flag r) g (getb bi (M0 r))) ->
  exec_all n (only_remaps3 f flag bi bo) M0
    (fun r m => holds3 2 (to_perm permute flag) (to_lay ins outs flag r) g (getb bo m) /\
                framed M0 bo (fun r => 2 * f_fftsize f r) r m).
Proof. exact @C30_remaps_stmt. Qed.
Print Assumptions C30_only_remaps.

(** forward then backward is the identity *)
Theorem C30_there_and_back : forall A ar n st N permute ins outs f b (M0 : nat -> @rmem A) g,
  ready3 ar n st N permute ins outs f -> isdata b -> room3 f BACKWARD b M0 ->
  (forall r, (r < n)%nat -> holds3 2 0 (ins r) g (getb b (M0 r))) ->
  exec_all n (fun r => only_remaps3 f FORWARD b b r ++ only_remaps3 f BACKWARD b b r) M0
    (fun r m => holds3 2 0 (ins r) g (getb b m) /\ framed M0 b (fun r => 2 * f_fftsize f r) r m).
Proof. exact @C30_identity_proof. Qed.
Print Assumptions C30_there_and_back.

(** out of place without a first remap only half of the input is moved *)
Theorem C30_out_of_place_refuted : exists st permute ins outs f (M0 : nat -> @rmem Z) g r p q w,
  ready3 exact_areas 2 st g2 permute ins outs f /\ arrays_ok f BIn M0 /\ arrays_ok f BOut M0 /\
  (forall r, (r < 2)%nat -> holds3 2 0 (ins r) g (getb BIn (M0 r))) /\
  (r < 2)%nat /\ inb3 p (outs r) /\ 0 <= q < 2 /\
  may_end_with 2 (only_remaps3 f FORWARD BIn BOut) M0 r BOut (cell3 2 permute (outs r) p q) w /\ w <> g p q.
Proof. exact @C30_refuted_proof. Qed.
Print Assumptions C30_out_of_place_refuted.

(** C31: only_one_remap() moves the array from the layout before a stage to the layout
    after it, in place always, out of place if the stage is one plain remap *)
Theorem C31_one_remap : forall A ar n st N permute ins outs f bi bo (M0 : nat -> @rmem A) flag which g,
  ready3 ar n st N permute ins outs f -> isdata bi -> isdata bo ->
  which = 1 \/ which = 2 \/ which = 3 \/ which = 4 ->
  bi = bo \/ (if which =? 1 then f_pre f = true else if which =? 4 then f_post f = true else st_exch st = 0) ->
  arrays_ok f bo M0 -> (fwdpath f flag = false -> which = 2 -> midfast_ok f M0) ->
  (forall r, (r < n)%nat -> holds3 2 (fst (stage_src permute ins outs f flag which)) (snd (stage_src permute ins outs f flag which) r) g (getb bi (M0 r))) ->
  exec_all n (only_one_remap3 f flag which bi bo) M0
    (fun r m => holds3 2 (fst (stage_dst permute ins outs f flag which)) (snd (stage_dst permute ins outs f flag which) r) g (getb bo m) /\
                framed M0 bo (fun r => 2 * f_fftsize f r) r m).
Proof. exact @C31_proof. Qed.
Print Assumptions C31_one_remap.
Example C31_one_remap_example : forallb (fun w => forallb (fun flag => tryall safe_sets (fun perm ins outs f P =>
    let src := stage_src perm ins outs f flag w in let dst := stage_dst perm ins outs f flag w in
    ends_as f (only_one_remap3 f flag w BIn BIn) (fst src) (snd src) BIn (fst dst) (snd dst) exG)) [FORWARD; BACKWARD]) [1; 2; 3; 4] = true /\
  with_plan (mkset 2 0 2) 1 isplit3 split3 (fun f P => f_pre f && f_post f && forallb (fun w =>
    let src := stage_src 1 isplit3 split3 f FORWARD w in let dst := stage_dst 1 isplit3 split3 f FORWARD w in
    ends_as f (only_one_remap3 f FORWARD w BIn BOut) (fst src) (snd src) BOut (fst dst) (snd dst) exG) [1; 2; 3; 4]) = true.
Proof. exact C31_runs. Qed.

(** out of place it fails when the stage takes two remaps (exchange=1) or none *)
Theorem C31_out_of_place_refuted : one_wrong (mkset 2 1 2) BACKWARD 3 /\
  one_wrong (mkset 2 0 2) FORWARD 1 /\ one_wrong (mkset 2 0 2) FORWARD 4 /\
  one_wrong (mkset 2 0 2) BACKWARD 1 /\ one_wrong (mkset 2 0 2) BACKWARD 4.
Proof. exact @C31_refuted_proof. Qed.
Print Assumptions C31_out_of_place_refuted.

(** C37: any sequence of calls completes, and each call gives what the same call gives
    on any other memory Mf with the same input data *)
Theorem C37_plan_reuse : forall (F : Type) (O : sops F) (cexp : bool -> Z -> Z -> F * F) (rnorm : Z -> F) ar n st N permute ins outs f P calls (M0 : nat -> @rmem F),
  ready3 ar n st N permute ins outs f -> setup_ffts3 cexp N = Some P -> Forall (call_ok f M0) calls ->
  (exists M', exec_to n (together (map (call_code O rnorm f P) calls)) M0 M') /\
  forall pre c post M1, calls = pre ++ c :: post -> exec_to n (together (map (call_code O rnorm f P) pre)) M0 M1 ->
    exists M2, exec_to n (call_code O rnorm f P c) M1 M2 /\ exec_to n (together (map (call_code O rnorm f P) (pre ++ [c]))) M0 M2 /\
    forall Mf, call_ok f Mf c ->
      (forall r p q, (r < n)%nat -> inb3 p (from_lay ins outs (ca_flag c) r) -> 0 <= q < 2 ->
         zget (getb (ca_in c) (Mf r)) (cell3 2 (from_perm permute (ca_flag c)) (from_lay ins outs (ca_flag c) r) p q) =
         zget (getb (ca_in c) (M1 r)) (cell3 2 (from_perm permute (ca_flag c)) (from_lay ins outs (ca_flag c) r) p q)) ->
      exists Mf2, exec_to n (call_code O rnorm f P c) Mf Mf2 /\
        forall r p q, (r < n)%nat -> inb3 p (to_lay ins outs (ca_flag c) r) -> 0 <= q < 2 ->
          exists v, zget (getb (ca_out c) (M2 r)) (cell3 2 (to_perm permute (ca_flag c)) (to_lay ins outs (ca_flag c) r) p q) = Some v /\
            zget (getb (ca_out c) (Mf2 r)) (cell3 2 (to_perm permute (ca_flag c)) (to_lay ins outs (ca_flag c) r) p q) = Some v.
Proof. exact @C37_stmt. Qed.
Print Assumptions C37_plan_reuse.
Example C37_plan_reuse_example : exists f P (M0 : nat -> @rmem Z), ready3 exact_areas 2 (mkset 2 0 2) g2 1 isplit3 split3 f /\ setup_ffts3 cexpZ g2 = Some P /\
  Forall (call_ok f M0) exCalls /\
  ends_as f (together (map (call_code Zops normZ f P) (firstn 3 exCalls))) 0 isplit3 BIn 0 isplit3 (times 8 exG) = true.
Proof. exact C37_runs. Qed.

(** C38: whatever the schedule and whatever messages MPI buffers, nothing goes wrong, a
    step is possible until after exactly L steps all ranks are done with no message
    left over, and the memories are those of the lock-step execution *)
Theorem C38_any_schedule : forall (F : Type) (O : sops F) (cexp : bool -> Z -> Z -> F * F) (rnorm : Z -> F) ar n st N permute ins outs f P (M0 : nat -> @rmem F) c,
  ready3 ar n st N permute ins outs f -> setup_ffts3 cexp N = Some P -> call_ok f M0 c ->
  exists L M', one_by_one n (pieces_compute3 O rnorm f P (ca_scaled c) (ca_ro c) (ca_flag c) (ca_in c) (ca_out c)) M0 M' /\
    forall eager labels s, run n eager (start n (call_code O rnorm f P c) M0) labels s ->
      (forall a, step n eager a s <> Bad) /\
      (((length labels < L)%nat /\ exists a s', step n eager a s = Ok s') \/
       (length labels = L /\ all_done s /\ s_ch s = empty_chans n /\ mems_of s = map M' (seq 0 n))).
Proof. exact @C38_stmt. Qed.
Print Assumptions C38_any_schedule.
Example C38_any_schedule_example : exists f P (M0 : nat -> @rmem Z), ready3 exact_areas 2 (mkset 2 0 2) g2 1 isplit3 split3 f /\ setup_ffts3 cexpZ g2 = Some P /\
  Forall (call_ok f M0) exCalls /\
  ends_as f (together (map (call_code Zops normZ f P) (firstn 3 exCalls))) 0 isplit3 BIn 0 isplit3 (times 8 exG) = true.
Proof. exact C37_runs. Qed.
