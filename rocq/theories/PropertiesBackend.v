(** PropertiesBackend.v : property C54 (the 1d back ends), proofs by reference. *)

From Coq Require Import Reals.
From Verif Require Import Base Spec Pack3d Pack2d Sched SchedProofs Phases Exec Remap RemapMain RemapInst
  Remap3d Remap2d RemapThms RemapTop ExRemap Layout LayoutProofs Setup3d Setup3dProofs Setup2d Setup2dProofs LayoutFinal Kiss KissPure KissReal Fft1d KissFinal
  Fft3d Frame Fft3dProofs Fft3dMain DftMulti Fft3dTop Fft3dFinal Fft3dEx Fft2d Fft2dMain Fft2dTop Fft2dFinal Fft2dEx Only1d Backend BackendProofs BackendFinal.
Local Open Scope Z_scope.

(** ** C54 *)
(** a library built with any of the four back ends has exactly the executions of the one built with KISS, for compute in
    all its variants and for only_1d_ffts; with MKL if every rank has lines to transform in every layout *)
Theorem C54_same_3d : forall ar n st N permute ins outs f B P L,
  ready3 ar n st N permute ins outs f -> setup_ffts3 cexpR N = Some P -> built3 cexpR B n f L -> (B = MKL -> has_lines3 f) ->
  (forall scaled ro flag bi bo M0 M', exec_to n (lib_compute3 Rops DFT rnormR B f L scaled ro flag bi bo) M0 M' <->
     exec_to n (compute3 Rops rnormR f P scaled ro flag bi bo) M0 M') /\
  (forall flag b M0 M', exec_to n (lib_only_1d3 Rops DFT B L flag b) M0 M' <-> exec_to n (only_1d_ffts3 Rops f P flag b) M0 M').
Proof. exact @same3_proof. Qed.
Print Assumptions C54_same_3d.
Theorem C54_same_2d : forall esize ar n st N permute ins outs f B P L,
  ready2 esize ar n st N permute ins outs f -> setup_ffts2 cexpR N = Some P -> built2 cexpR B n f L -> (B = MKL -> has_lines2 f) ->
  (forall scaled ro flag bi bo M0 M', exec_to n (lib_compute2 Rops DFT rnormR B esize f L scaled ro flag bi bo) M0 M' <->
     exec_to n (compute2 Rops rnormR esize f P scaled ro flag bi bo) M0 M') /\
  (forall flag b M0 M', exec_to n (lib_only_1d2 Rops DFT B L flag b) M0 M' <-> exec_to n (only_1d_ffts2 Rops f P flag b) M0 M').
Proof. exact @same2_proof. Qed.
Print Assumptions C54_same_2d.

(** the forward transform is the DFT and the backward one its inverse, whatever the back end *)
Theorem C54_forward_3d : forall ar n st N permute ins outs f B L bi bo (M0 : nat -> @rmem R) scaled x,
  ready3 ar n st N permute ins outs f -> built3 cexpR B n f L -> (B = MKL -> has_lines3 f) ->
  isdata bi -> isdata bo -> bi = bo \/ f_pre f = true -> arrays_ok f bo M0 ->
  (forall r, (r < n)%nat -> holds3 2 0 (ins r) (fld x) (getb bi (M0 r))) ->
  exec_all n (lib_compute3 Rops DFT rnormR B f L scaled false FORWARD bi bo) M0
    (fun r m => holds3 2 permute (outs r) (fld (DFT3 false N x)) (getb bo m) /\ framed M0 bo (fun r => 2 * f_fftsize f r) r m).
Proof. exact @forward3_proof. Qed.
Print Assumptions C54_forward_3d.
Theorem C54_backward_3d : forall ar n st N permute ins outs f B L bi bo (M0 : nat -> @rmem R) scaled x,
  ready3 ar n st N permute ins outs f -> built3 cexpR B n f L -> (B = MKL -> has_lines3 f) ->
  isdata bi -> isdata bo -> place3 f BACKWARD bi bo -> room3 f BACKWARD bo M0 ->
  (forall r, (r < n)%nat -> holds3 2 permute (outs r) (fld x) (getb bi (M0 r))) ->
  exec_all n (lib_compute3 Rops DFT rnormR B f L scaled false BACKWARD bi bo) M0
    (fun r m => holds3 2 0 (ins r)
       (fld (fun p => rmulc (if scaled && (pos3 0 (ins r) p <? psize3 (outs r)) then / IZR (grid_points N) else 1)%R (DFT3 true N x p)))
       (getb bo m) /\ framed M0 bo (fun r => 2 * f_fftsize f r) r m).
Proof. exact @backward3_proof. Qed.
Print Assumptions C54_backward_3d.
Theorem C54_forward_2d : forall esize ar n st N permute ins outs f B L bi bo (M0 : nat -> @rmem R) scaled x,
  ready2 esize ar n st N permute ins outs f -> built2 cexpR B n f L -> (B = MKL -> has_lines2 f) ->
  isdata bi -> isdata bo -> bi = bo \/ t_pre f = true -> arrays_ok2 f bo M0 ->
  (forall r, (r < n)%nat -> holds2 2 0 (ins r) (fld x) (getb bi (M0 r))) ->
  exec_all n (lib_compute2 Rops DFT rnormR B esize f L scaled false FORWARD bi bo) M0
    (fun r m => holds2 2 permute (outs r) (fld (DFT2 false N x)) (getb bo m) /\ framed M0 bo (fun r => 2 * t_fftsize f r) r m).
Proof. exact @forward2_proof. Qed.
Print Assumptions C54_forward_2d.
Theorem C54_backward_2d : forall esize ar n st N permute ins outs f B L bi bo (M0 : nat -> @rmem R) scaled x,
  ready2 esize ar n st N permute ins outs f -> built2 cexpR B n f L -> (B = MKL -> has_lines2 f) ->
  isdata bi -> isdata bo -> place2 f BACKWARD bi bo -> arrays_ok2 f bo M0 ->
  (forall r, (r < n)%nat -> holds2 2 permute (outs r) (fld x) (getb bi (M0 r))) ->
  exec_all n (lib_compute2 Rops DFT rnormR B esize f L scaled false BACKWARD bi bo) M0
    (fun r m => holds2 2 0 (ins r)
       (fld (fun p => rmulc (if scaled && (pos2 0 (ins r) p <? psize2 (outs r)) then / IZR (grid_points2 N) else 1)%R (DFT2 true N x p)))
       (getb bo m) /\ framed M0 bo (fun r => 2 * t_fftsize f r) r m).
Proof. exact @backward2_proof. Qed.
Print Assumptions C54_backward_2d.

(** setup_ffts succeeds with every back end, and deallocate_ffts then destroys every plan it made exactly once *)
Theorem C54_setup_3d : forall ar n st N permute ins outs f B,
  ready3 ar n st N permute ins outs f -> exists L, built3 cexpR B n f L.
Proof. exact @can_build3. Qed.
Print Assumptions C54_setup_3d.
Theorem C54_plans_3d : forall ar n st N permute ins outs f B L,
  ready3 ar n st N permute ins outs f -> built3 cexpR B n f L ->
  forall r, (r < n)%nat -> let '(qf, qm, qs, t) := L r in
    exists t', lib_dealloc3 B N (qf, qm, qs) t = Some (tt, t') /\ length t' = length t /\ forall h, pget h t' = None.
Proof. exact @plans3_proof. Qed.
Print Assumptions C54_plans_3d.
Theorem C54_setup_2d : forall esize ar n st N permute ins outs f B,
  ready2 esize ar n st N permute ins outs f -> exists L, built2 cexpR B n f L.
Proof. exact @can_build2. Qed.
Print Assumptions C54_setup_2d.
Theorem C54_plans_2d : forall esize ar n st N permute ins outs f B L,
  ready2 esize ar n st N permute ins outs f -> built2 cexpR B n f L ->
  forall r, (r < n)%nat -> let '(qf, qs, t) := L r in
    exists t', lib_dealloc2 B N (qf, qs) t = Some (tt, t') /\ length t' = length t /\ forall h, pget h t' = None.
Proof. exact @plans2_proof. Qed.
Print Assumptions C54_plans_2d.

(** with MKL a rank without lines asks for a batch of 0 transforms, outside the promise of the library *)
Theorem C54_mkl_3d_refuted : exists st ins outs f (L : nat -> fft1 * fft1 * fft1 * @table Z) (M0 : nat -> @rmem Z),
  ready3 exact_areas 2 st g2 0 ins outs f /\ built3 cexpZ MKL 2 f L /\ arrays_ok f BIn M0 /\
  may_go_wrong 2 (lib_compute3 Zops pairZ normZ MKL f L false false FORWARD BIn BIn) M0.
Proof. exact mkl3_proof. Qed.
Print Assumptions C54_mkl_3d_refuted.
Theorem C54_mkl_2d_refuted : exists st ins outs f (L : nat -> fft1 * fft1 * @table Z) (M0 : nat -> @rmem Z),
  ready2 8 exact_areas 2 st sq2 0 ins outs f /\ built2 cexpZ MKL 2 f L /\ arrays_ok2 f BIn M0 /\
  may_go_wrong 2 (lib_compute2 Zops pairZ normZ MKL 8 f L false false FORWARD BIn BIn) M0.
Proof. exact mkl2_proof. Qed.
Print Assumptions C54_mkl_2d_refuted.

(** runs of all four back ends in both directions, with scaling, on a 2x2x2 and a 2x2 grid on two ranks, each with lines
    in every layout; with a rank without lines FFTW2, FFTW3 and KISS still agree *)
Definition lines3b (f : fft3) (r : nat) : bool :=
  (1 <=? nj (f_fast f r) * nk (f_fast f r)) && (1 <=? ni (f_mid f r) * nk (f_mid f r)) && (1 <=? ni (f_slow f r) * nj (f_slow f r)).
Definition lines2b (f : fft2) (r : nat) : bool := (1 <=? nj2 (t_fast f r)) && (1 <=? ni2 (t_slow f r)).
Example C54_3d_example :
  with_plan (mkset 2 0 2) 0 isplit3 split3 (fun f P => lines3b f 0 && lines3b f 1 &&
    forallb (fun B => ex_same3 B f P FORWARD 0 isplit3 && ex_same3 B f P BACKWARD 0 split3) all_backends) = true /\
  with_plan (mkset 0 0 0) 0 whole3 whole3 (fun f P => negb (lines3b f 1) &&
    forallb (fun B => ex_same3 B f P FORWARD 0 whole3 && ex_same3 B f P BACKWARD 0 whole3) [FFTW2; FFTW3; KISS]) = true.
Proof. split; vm_compute; reflexivity. Qed.
Example C54_2d_example :
  with_plan_2 (mkset 2 0 2) 0 isplit2 split2 (fun f P => lines2b f 0 && lines2b f 1 &&
    forallb (fun B => ex_same2 B f P FORWARD 0 isplit2 && ex_same2 B f P BACKWARD 0 split2) all_backends) = true /\
  with_plan_2 (mkset 0 0 0) 0 whole2 whole2 (fun f P => negb (lines2b f 1) &&
    forallb (fun B => ex_same2 B f P FORWARD 0 whole2 && ex_same2 B f P BACKWARD 0 whole2) [FFTW2; FFTW3; KISS]) = true.
Proof. split; vm_compute; reflexivity. Qed.
(** lengths 4, 2, 3: the plans of a 4 x 2 x 3 grid, made and destroyed *)
Example C54_plans_example : forallb (fun B =>
  match lib_setup3 cexpZ B (4, 2, 3) 5 6 7 [] with
  | Some (q, t) => match lib_dealloc3 B (4, 2, 3) q t with
      | Some (_, t') => (length t' =? match B with MKL => 3 | _ => 6 end)%nat && forallb (fun p => match p with None => true | _ => false end) t'
      | None => false end
  | None => false end) all_backends = true.
Proof. vm_compute. reflexivity. Qed.
