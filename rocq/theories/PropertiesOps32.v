(** PropertiesOps32.v : C83, all operations of an FFT object, the trials of tune() and the test programs in ints of 32 bits.
    Statements only; proofs are in Remap32Main.v and TestIntProofs.v.  acts3_32, acts2_32 (Remap32Ops.v) are the programs with the packing routines of
    Pack32.v, initialize3_32 .. clear2_32 (TestInt.v) the loops of the test programs, where an int that overflows is undefined. *)

From Verif Require Import Base Spec Pack3d Pack2d Sched SchedProofs Phases Exec Remap RemapProofs RemapMain RemapInst
  Remap3d Remap2d RemapThms RemapTop Layout Wrap Setup3d Setup3dProofs Setup2d Setup2dProofs LayoutFinal Kiss KissPure Fft1d KissFinal
  Fft3d Frame Fft3dProofs Fft3dMain Fft3dTop Fft3dFinal Fft3dStmt Fft3dEx Fft2d Fft2dMain Fft2dTop Fft2dFinal Fft2dStmt Fft2dEx
  Overflow OverflowProofs Pack32 Pack32Proofs Pack32Top Remap32 Remap32Proofs Remap32Top Remap32Fft Tune TestProg TestDataProofs Ops OpsSeq OpsProofs OpsTop Remap32Ops TestInt TestIntProofs Remap32Main.
Local Open Scope Z_scope.

(** any sequence of legal operations, with writes of the caller between them, ends in every execution with the memory of the program in unbounded integers *)
Theorem C83_sequence_3d : forall {F} (O : sops F) cexp rnorm ar n st N permute ins outs f P esize,
  ready3 ar n st N permute ins outs f -> setup_ffts3 cexp N = Some P -> fits32 esize (st_pack st) n N (f_fftsize f) ->
  forall l (M0 : nat -> @rmem F),
  Forall (act_ok3 n st f M0) l -> fills_keep n l -> (forall r, (r < n)%nat -> ints_index (M0 r)) ->
  exists M', exec_to n (acts_code3 O rnorm f P l) M0 M' /\ exec_to n (acts3_32 O rnorm false esize f P l) M0 M' /\ still n (f_fftsize f) (flat_map writes l) M0 M'.
Proof. intros F O cexp rnorm ar n st N permute ins outs f P esize Hr HP Fit. exact (sequence3_32 O cexp rnorm ar n st N permute ins outs f P Hr HP esize Fit). Qed.
Print Assumptions C83_sequence_3d.
Theorem C83_sequence_2d : forall {F} (O : sops F) cexp rnorm ar n st N permute ins outs f P,
  ready2 8 ar n st N permute ins outs f -> setup_ffts2 cexp N = Some P -> fits32_2 (st_pack st) n N (t_fftsize f) ->
  forall l (M0 : nat -> @rmem F),
  Forall (act_ok2 n st f M0) l -> fills_keep n l -> (forall r, (r < n)%nat -> ints_index (M0 r)) ->
  exists M', exec_to n (acts_code2 O rnorm 8 f P l) M0 M' /\ exec_to n (acts2_32 O rnorm false 8 f P l) M0 M' /\ still n (t_fftsize f) (flat_map writes l) M0 M'.
Proof. intros F O cexp rnorm ar n st N permute ins outs f P Hr HP Fit. exact (sequence2_32 O cexp rnorm ar n st N permute ins outs f P Hr HP Fit). Qed.
Print Assumptions C83_sequence_2d.
(** so does a trial of tune(), for all its parameters *)
Theorem C83_trial_3d : forall {F} (O : sops F) cexp rnorm ar n st N permute ins outs f P esize,
  ready3 ar n st N permute ins outs f -> setup_ffts3 cexp N = Some P -> fits32 esize (st_pack st) n N (f_fftsize f) ->
  forall b (M0 : nat -> @rmem F) scaled ro nper flag tflag,
  isdata b -> Fft3dTop.room3 f BACKWARD b M0 -> (forall r, (r < n)%nat -> ints_index (M0 r)) ->
  exists M', exec_to n (acts_code3 O rnorm f P (trial3 scaled ro b nper flag tflag)) M0 M' /\
    exec_to n (acts3_32 O rnorm false esize f P (trial3 scaled ro b nper flag tflag)) M0 M' /\
    forall r, (r < n)%nat -> framed M0 b (fun r => 2 * f_fftsize f r) r (M' r).
Proof. intros F O cexp rnorm ar n st N permute ins outs f P esize Hr HP Fit. exact (trial3_32 O cexp rnorm ar n st N permute ins outs f P Hr HP esize Fit). Qed.
Print Assumptions C83_trial_3d.
Theorem C83_trial_2d : forall {F} (O : sops F) cexp rnorm ar n st N permute ins outs f P,
  ready2 8 ar n st N permute ins outs f -> setup_ffts2 cexp N = Some P -> fits32_2 (st_pack st) n N (t_fftsize f) ->
  forall b (M0 : nat -> @rmem F) scaled ro nper flag tflag,
  isdata b -> arrays_ok2 f b M0 -> (forall r, (r < n)%nat -> ints_index (M0 r)) ->
  exists M', exec_to n (acts_code2 O rnorm 8 f P (trial2 scaled ro b nper flag tflag)) M0 M' /\
    exec_to n (acts2_32 O rnorm false 8 f P (trial2 scaled ro b nper flag tflag)) M0 M' /\
    forall r, (r < n)%nat -> framed M0 b (fun r => 2 * t_fftsize f r) r (M' r).
Proof. intros F O cexp rnorm ar n st N permute ins outs f P Hr HP Fit. exact (trial2_32 O cexp rnorm ar n st N permute ins outs f P Hr HP Fit). Qed.
Print Assumptions C83_trial_2d.
(** so do the test programs, every mode and initialisation, with or without -r and -t; M1 is what validate() sees, in modes 0 and 1 that of C56 and C64 *)
Theorem C83_main_3d : forall {F} (O : sops F) cexp rnorm ar n st N permute ins outs f P esize,
  ready3 ar n st N permute ins outs f -> setup_ffts3 cexp N = Some P -> fits32 esize (st_pack st) n N (f_fftsize f) ->
  forall (M0 : nat -> @rmem F) (vz vr : Z -> F) k sd z mode rflag tflag nloop,
  Fft3dTop.room3 f BACKWARD BWORK M0 -> (forall r, (r < n)%nat -> ints_index (M0 r)) ->
  (forall r, (r < n)%nat -> (psize3 (ins r) = 0 -> ni (ins r) * nj (ins r) <= INT_MAX) /\ seed_ok k (sd r)) -> index_fits3 k N ->
  let w0 := fun r => initialize3 vz vr (fun v => v) k (sd r) N (ins r) in
  let w32 := fun r => initialize3_32 vz vr (fun v => v) k (sd r) N (ins r) in
  exists M1 M2, exec_to n (acts_code3 O rnorm f P (run_part mode rflag nloop w0)) M0 M1 /\
    exec_to n (acts3_32 O rnorm false esize f P (run_part mode rflag nloop w32)) M0 M1 /\
    exec_to n (acts_code3 O rnorm f P (test_main3 mode rflag tflag nloop w0 (clear3 z ins))) M0 M2 /\
    exec_to n (acts3_32 O rnorm false esize f P (test_main3 mode rflag tflag nloop w32 (clear3_32 z ins))) M0 M2 /\
    (mode < 2 -> exec_to n (test3 O rnorm f P rflag nloop w0) M0 M1).
Proof. intros F O cexp rnorm ar n st N permute ins outs f P esize Hr HP Fit. exact (main3_32 O cexp rnorm ar n st N permute ins outs f P Hr HP esize Fit). Qed.
Print Assumptions C83_main_3d.
Theorem C83_main_2d : forall {F} (O : sops F) cexp rnorm ar n st N permute ins outs f P,
  ready2 8 ar n st N permute ins outs f -> setup_ffts2 cexp N = Some P -> fits32_2 (st_pack st) n N (t_fftsize f) ->
  forall (M0 : nat -> @rmem F) (vz vr : Z -> F) k sd z mode rflag tflag nloop,
  arrays_ok2 f BWORK M0 -> (forall r, (r < n)%nat -> ints_index (M0 r)) ->
  (forall r, (r < n)%nat -> seed_ok k (sd r)) -> index_fits2 k N ->
  let w0 := fun r => initialize2 vz vr (fun v => v) k (sd r) N (ins r) in
  let w32 := fun r => initialize2_32 vz vr (fun v => v) k (sd r) N (ins r) in
  exists M1 M2, exec_to n (acts_code2 O rnorm 8 f P (run_part mode rflag nloop w0)) M0 M1 /\
    exec_to n (acts2_32 O rnorm false 8 f P (run_part mode rflag nloop w32)) M0 M1 /\
    exec_to n (acts_code2 O rnorm 8 f P (test_main2 mode rflag tflag nloop w0 (clear2 z ins))) M0 M2 /\
    exec_to n (acts2_32 O rnorm false 8 f P (test_main2 mode rflag tflag nloop w32 (clear2_32 z ins))) M0 M2 /\
    (mode < 2 -> exec_to n (test2 O rnorm 8 f P rflag nloop w0) M0 M1).
Proof. intros F O cexp rnorm ar n st N permute ins outs f P Hr HP Fit. exact (main2_32 O cexp rnorm ar n st N permute ins outs f P Hr HP Fit). Qed.
Print Assumptions C83_main_2d.
(** validate() computes the same error *)
Theorem C83_validate_3d : forall {F V D : Type} (vz vr : Z -> V) (dist : F -> V -> D) gtb zero iflag seed N b (work : list F), box32_3 N b -> index_fits3 iflag N ->
  validate3_32 vz vr dist gtb zero iflag seed N b work = validate3 vz vr dist gtb zero iflag seed N b work.
Proof. exact @validate_same3. Qed.
Print Assumptions C83_validate_3d.
Theorem C83_validate_2d : forall {F V D : Type} (vz vr : Z -> V) (dist : F -> V -> D) gtb zero iflag seed N b (work : list F), box32_2 N b -> index_fits2 iflag N ->
  validate2_32 vz vr dist gtb zero iflag seed N b work = validate2 vz vr dist gtb zero iflag seed N b work.
Proof. exact @validate_same2. Qed.
Print Assumptions C83_validate_2d.

(** the conditions are met by the examples of C25, and the programs in 32-bit ints run to their end *)
Definition small_3 (f : fft3) (ins : nat -> box3) : bool := forallb (fun r => (2 * f_fftsize f r <=? HALF) && forallb (fun b => zlen (getb b (exM f 0 ins r)) <=? INT_MAX) [BIn; BOut; BSend; BRecv]) [0; 1]%nat.
Example C83_example_3d : with_plan (mkset 2 0 2) 0 isplit3 split3 (fun f P => small_3 f isplit3 &&
  doneb (final 2 (acts3_32 Zops normZ false 8 f P (trial3 true false BIn 2 0 1)) (exM f 0 isplit3)) &&
  doneb (final 2 (acts3_32 Zops normZ false 8 f P (test_main3 0 true true 2 (fun r => initialize3_32 (fun v => v) (fun v => v) (fun v => v) RANDOM (7 + Z.of_nat r) g2 (isplit3 r)) (clear3_32 0 isplit3))) (exM f 0 isplit3)) &&
  doneb (final 2 (acts3_32 Zops normZ false 8 f P (test_main3 2 false true 1 (fun r => initialize3_32 (fun v => v) (fun v => v) (fun v => v) INDEX 0 g2 (isplit3 r)) (clear3_32 0 isplit3))) (exM f 0 isplit3))) = true /\
  start_ok (mkset 1 0 1) 1 split3 isplit3 BACKWARD /\ index_fits3 INDEX g2 /\ box32_3 g2 (isplit3 0%nat).
Proof.
  split; [vm_compute; reflexivity|]. split; [exact (proj1 (proj2 (proj2 C26_runs)))|]. split; [intros _; vm_compute; congruence|].
  repeat split; vm_compute; congruence.
Qed.
Definition small_2 (f : fft2) (ins : nat -> box2) : bool := forallb (fun r => (2 * t_fftsize f r <=? HALF) && forallb (fun b => zlen (getb b (exM_2 f 0 ins r)) <=? INT_MAX) [BIn; BOut; BSend; BRecv]) [0; 1]%nat.
Example C83_example_2d : with_plan_2 (mkset 2 0 2) 0 isplit2 split2 (fun f P => small_2 f isplit2 &&
  doneb (final 2 (acts2_32 Zops normZ false 8 f P (trial2 true false BIn 2 0 1)) (exM_2 f 0 isplit2)) &&
  doneb (final 2 (acts2_32 Zops normZ false 8 f P (test_main2 2 false true 2 (fun r => initialize2_32 (fun v => v) (fun v => v) (fun v => v) STEP 0 sq2 (isplit2 r)) (clear2_32 0 isplit2))) (exM_2 f 0 isplit2))) = true /\
  start_ok_2 (mkset 2 1 2) 1 split2 isplit2 FORWARD /\ index_fits2 INDEX sq2 /\ box32_2 sq2 (isplit2 0%nat).
Proof.
  split; [vm_compute; reflexivity|]. split; [exact (proj2 C25_runs_2)|]. split; [intros _; vm_compute; congruence|]. repeat split; vm_compute; congruence.
Qed.

(** without the conditions the test programs overflow: with -i index on a grid of 2147483647 x 2 x 2 points, where the tiles can be small;
    a rank with 2^30 points doubles them; a rank without points multiplies the sides of its box first *)
Theorem C83_index_refuted : exists N b, box32_3 N b /\ (forall c, In c [fst (fst N); snd (fst N); snd N] -> c <= INT_MAX) /\
  initialize3 (fun v => v) (fun v => v) (fun v => v) INDEX 0 N b [0; 0] = Some [2147483649; 0] /\
  (forall work : list Z, initialize3_32 (fun v => v) (fun v => v) (fun v => v) INDEX 0 N b work = None).
Proof.
  exists (2147483647, 2, 2), (mkbox3 2147483646 2147483646 1 1 1 1). split; [repeat split; vm_compute; congruence|].
  split; [intros c [<- |[<- |[<- |[]]]]; vm_compute; congruence|]. split; [vm_compute; reflexivity|]. intros work. reflexivity.
Qed.
Print Assumptions C83_index_refuted.
Theorem C83_double_refuted : exists b, inside3 (1073741824, 2, 2) b /\ psize3 b <= INT_MAX /\ (forall work : list Z, clear3_32 0 (fun _ => b) 0 work = None) /\
  (forall k work, k = ZERO \/ k = RANDOM -> initialize3_32 (fun v => v) (fun v => v) (fun v => v) k 1 (1073741824, 2, 2) b (work : list Z) = None).
Proof.
  exists (mkbox3 0 1073741823 0 0 0 0). split; [repeat split; vm_compute; congruence|]. split; [vm_compute; congruence|]. split; [intros work; reflexivity|].
  intros k work [-> | ->]; reflexivity.
Qed.
Print Assumptions C83_double_refuted.
Theorem C83_empty_refuted : exists b, inside3 (65536, 32768, 2) b /\ psize3 b = 0 /\ nfft32_3 b = None.
Proof. exists (mkbox3 0 65535 0 32767 0 (-1)). split; [repeat split; vm_compute; congruence|]. split; vm_compute; reflexivity. Qed.
Print Assumptions C83_empty_refuted.
