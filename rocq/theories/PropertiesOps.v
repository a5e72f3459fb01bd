(** PropertiesOps.v : property C64 (programs that mix the operations of an FFT object), proofs by reference. *)

From Verif Require Import Base Spec Pack3d Sched SchedProofs Phases Exec Remap RemapMain RemapInst
  Remap3d RemapThms RemapTop Layout Setup3d Setup2d LayoutFinal Kiss KissPure Fft1d KissFinal
  Fft3d Frame Fft3dProofs Fft3dMain Fft3dTop Fft3dFinal Fft3dStmt Fft3dEx Fft2d Fft2dMain Fft2dTop Fft2dFinal Fft2dStmt Fft2dEx
  Tune TuneProofs TestProg TestDataProofs Ops OpsSeq OpsProofs OpsTop.
Local Open Scope Z_scope.

(** ** C64 *)
(** any sequence of legal operations runs to its end in all executions and keeps what no operation writes; whatever came before, every
    operation computes from the cells it reads the same result as it would alone *)
Theorem C64_sequence_3d : forall {F} (O : sops F) cexp rnorm ar n st N permute ins outs f P,
  ready3 ar n st N permute ins outs f -> setup_ffts3 cexp N = Some P ->
  forall l (M0 : nat -> @rmem F), Forall (act_ok3 n st f M0) l ->
  (exists M', exec_to n (acts_code3 O rnorm f P l) M0 M' /\ still n (f_fftsize f) (flat_map writes l) M0 M') /\
  forall pre a post M1, l = pre ++ a :: post -> exec_to n (acts_code3 O rnorm f P pre) M0 M1 ->
    exists M2, exec_to n (act_code3 O rnorm f P a) M1 M2 /\ exec_to n (acts_code3 O rnorm f P (pre ++ [a])) M0 M2 /\
    forall Mf, act_ok3 n st f Mf a -> agree_on n (reads3 permute ins outs f a) M1 Mf ->
      exists Mf2, exec_to n (act_code3 O rnorm f P a) Mf Mf2 /\ same_result n (gives3 permute ins outs f a) M2 Mf2.
Proof. exact @sequence3. Qed.
Print Assumptions C64_sequence_3d.
Theorem C64_sequence_2d : forall {F} (O : sops F) esize cexp rnorm ar n st N permute ins outs f P,
  ready2 esize ar n st N permute ins outs f -> setup_ffts2 cexp N = Some P ->
  forall l (M0 : nat -> @rmem F), Forall (act_ok2 n st f M0) l ->
  (exists M', exec_to n (acts_code2 O rnorm esize f P l) M0 M' /\ still n (t_fftsize f) (flat_map writes l) M0 M') /\
  forall pre a post M1, l = pre ++ a :: post -> exec_to n (acts_code2 O rnorm esize f P pre) M0 M1 ->
    exists M2, exec_to n (act_code2 O rnorm esize f P a) M1 M2 /\ exec_to n (acts_code2 O rnorm esize f P (pre ++ [a])) M0 M2 /\
    forall Mf, act_ok2 n st f Mf a -> agree_on n (reads2 permute ins outs f a) M1 Mf ->
      exists Mf2, exec_to n (act_code2 O rnorm esize f P a) Mf Mf2 /\ same_result n (gives2 permute ins outs f a) M2 Mf2.
Proof. exact @sequence2. Qed.
Print Assumptions C64_sequence_2d.
(** barriers between operations do not change the result *)
Theorem C64_barriers_3d : forall {F} (O : sops F) cexp rnorm ar n st N permute ins outs f P,
  ready3 ar n st N permute ins outs f -> setup_ffts3 cexp N = Some P ->
  forall l (M0 : nat -> @rmem F), Forall (act_ok3 n st f M0) l ->
  exists M', exec_to n (acts_code3 O rnorm f P l) M0 M' /\ exec_to n (acts_code3 O rnorm f P (no_barriers l)) M0 M' /\
    still n (f_fftsize f) (flat_map writes l) M0 M'.
Proof. exact @barriers3. Qed.
Print Assumptions C64_barriers_3d.
Theorem C64_barriers_2d : forall {F} (O : sops F) esize cexp rnorm ar n st N permute ins outs f P,
  ready2 esize ar n st N permute ins outs f -> setup_ffts2 cexp N = Some P ->
  forall l (M0 : nat -> @rmem F), Forall (act_ok2 n st f M0) l ->
  exists M', exec_to n (acts_code2 O rnorm esize f P l) M0 M' /\ exec_to n (acts_code2 O rnorm esize f P (no_barriers l)) M0 M' /\
    still n (t_fftsize f) (flat_map writes l) M0 M'.
Proof. exact @barriers2. Qed.
Print Assumptions C64_barriers_2d.
(** a trial of tune() ends on all ranks, for all its parameters, and writes only the data array within fftsize values *)
Theorem C64_trial_3d : forall {F} (O : sops F) cexp rnorm ar n st N permute ins outs f P,
  ready3 ar n st N permute ins outs f -> setup_ffts3 cexp N = Some P ->
  forall b (M0 : nat -> @rmem F) scaled ro nper flag tflag, isdata b -> room3 f BACKWARD b M0 ->
  exists M', exec_to n (acts_code3 O rnorm f P (trial3 scaled ro b nper flag tflag)) M0 M' /\
    forall r, (r < n)%nat -> framed M0 b (fun r => 2 * f_fftsize f r) r (M' r).
Proof. exact @trial3_run. Qed.
Print Assumptions C64_trial_3d.
Theorem C64_trial_2d : forall {F} (O : sops F) esize cexp rnorm ar n st N permute ins outs f P,
  ready2 esize ar n st N permute ins outs f -> setup_ffts2 cexp N = Some P ->
  forall b (M0 : nat -> @rmem F) scaled ro nper flag tflag, isdata b -> arrays_ok2 f b M0 ->
  exists M', exec_to n (acts_code2 O rnorm esize f P (trial2 scaled ro b nper flag tflag)) M0 M' /\
    forall r, (r < n)%nat -> framed M0 b (fun r => 2 * t_fftsize f r) r (M' r).
Proof. exact @trial2_run. Qed.
Print Assumptions C64_trial_2d.
(** the calls of this trial are those that the per-rank model of tune() logs (C39, C47) *)
Theorem C64_trial_events : forall {F} scaled ro b nper flag tflag,
  flat_map event_of (@trial3 F scaled ro b nper flag tflag) = ev_trial true nper flag tflag /\
  flat_map event_of (@trial2 F scaled ro b nper flag tflag) = ev_trial false nper flag tflag.
Proof. intros F scaled ro b nper flag tflag. exact (conj (@trial_events F true scaled ro b nper flag tflag) (@trial_events F false scaled ro b nper flag tflag)). Qed.
Print Assumptions C64_trial_events.
(** the test programs, every mode, with or without -r and -t, any number of loops: all ranks get to the end; the array that validate() sees
    in modes 0 and 1 is that of C56 *)
Theorem C64_main_3d : forall {F} (O : sops F) cexp rnorm ar n st N permute ins outs f P,
  ready3 ar n st N permute ins outs f -> setup_ffts3 cexp N = Some P ->
  forall (M0 : nat -> @rmem F) (vz vr : Z -> F) k sd z mode rflag tflag nloop,
  room3 f BACKWARD BWORK M0 -> (forall r, (r < n)%nat -> legal3 (ins r) /\ seed_ok k (sd r)) ->
  let w0 := fun r => initialize3 vz vr (fun v => v) k (sd r) N (ins r) in
  exists M1 M2, exec_to n (acts_code3 O rnorm f P (run_part mode rflag nloop w0)) M0 M1 /\
    exec_to n (acts_code3 O rnorm f P (test_main3 mode rflag tflag nloop w0 (clear3 z ins))) M0 M2 /\
    (forall r, (r < n)%nat -> framed M0 BWORK (fun r => 2 * f_fftsize f r) r (M1 r)) /\
    (forall r, (r < n)%nat -> framed M0 BWORK (fun r => 2 * f_fftsize f r) r (M2 r)) /\
    (mode < 2 -> exec_to n (test3 O rnorm f P rflag nloop w0) M0 M1) /\
    (tflag = false -> forall r, (r < n)%nat -> M2 r = M1 r).
Proof. exact @main3_run. Qed.
Print Assumptions C64_main_3d.
Theorem C64_main_2d : forall {F} (O : sops F) esize cexp rnorm ar n st N permute ins outs f P,
  ready2 esize ar n st N permute ins outs f -> setup_ffts2 cexp N = Some P ->
  forall (M0 : nat -> @rmem F) (vz vr : Z -> F) k sd z mode rflag tflag nloop,
  arrays_ok2 f BWORK M0 -> (forall r, (r < n)%nat -> legal2 (ins r) /\ seed_ok k (sd r)) ->
  let w0 := fun r => initialize2 vz vr (fun v => v) k (sd r) N (ins r) in
  exists M1 M2, exec_to n (acts_code2 O rnorm esize f P (run_part mode rflag nloop w0)) M0 M1 /\
    exec_to n (acts_code2 O rnorm esize f P (test_main2 mode rflag tflag nloop w0 (clear2 z ins))) M0 M2 /\
    (forall r, (r < n)%nat -> framed M0 BWORK (fun r => 2 * t_fftsize f r) r (M1 r)) /\
    (forall r, (r < n)%nat -> framed M0 BWORK (fun r => 2 * t_fftsize f r) r (M2 r)) /\
    (mode < 2 -> exec_to n (test2 O rnorm esize f P rflag nloop w0) M0 M1) /\
    (tflag = false -> forall r, (r < n)%nat -> M2 r = M1 r).
Proof. exact @main2_run. Qed.
Print Assumptions C64_main_2d.
(** runs on two ranks with integers: a trial and a test program to the end; a barrier that only rank 0 calls is never left *)
Example C64_example_3d : with_plan (mkset 2 0 2) 0 isplit3 split3 (fun f P =>
  doneb (final 2 (acts_code3 Zops normZ f P (trial3 true false BIn 2 0 1)) (exM f 0 isplit3)) &&
  doneb (final 2 (acts_code3 Zops normZ f P (test_main3 0 true true 2 (fun r => initialize3 (fun v => v) (fun v => v) (fun v => v) RANDOM (7 + Z.of_nat r) g2 (isplit3 r)) (clear3 0 isplit3))) (exM f 0 isplit3)) &&
  negb (doneb (final 2 (fun r => if Nat.eqb r 0 then acts_code3 Zops normZ f P [ABarrier; ARemaps 1 BIn BIn] r else acts_code3 Zops normZ f P [ARemaps 1 BIn BIn] r) (exM f 0 isplit3)))) = true /\
  start_ok (mkset 1 0 1) 1 split3 isplit3 BACKWARD.
Proof. split; [vm_compute; reflexivity|]. exact (proj1 (proj2 (proj2 C26_runs))). Qed.
Example C64_example_2d : with_plan_2 (mkset 2 0 2) 0 isplit2 split2 (fun f P =>
  doneb (final 2 (acts_code2 Zops normZ 8 f P (trial2 true false BIn 2 0 1)) (exM_2 f 0 isplit2)) &&
  doneb (final 2 (acts_code2 Zops normZ 8 f P (test_main2 2 false true 2 (fun r => initialize2 (fun v => v) (fun v => v) (fun v => v) STEP 0 sq2 (isplit2 r)) (clear2 0 isplit2))) (exM_2 f 0 isplit2))) = true /\
  start_ok_2 (mkset 2 1 2) 1 split2 isplit2 FORWARD.
Proof. split; [vm_compute; reflexivity|]. exact (proj2 C25_runs_2). Qed.
