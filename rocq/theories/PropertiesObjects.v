(** PropertiesObjects.v : property C65 (several objects on one communicator), proofs by reference. *)

From Verif Require Import Base Spec Pack3d Pack2d Sched SchedProofs Phases Exec Remap RemapMain RemapInst
  Remap3d Remap2d RemapThms RemapTop Layout Setup3d Setup2d LayoutFinal Kiss KissPure Fft1d KissFinal
  Fft3d Frame Fft3dProofs Fft3dMain Fft3dTop Fft3dFinal Fft3dStmt Fft3dEx Fft2d Fft2dMain Fft2dTop Fft2dFinal Fft2dStmt Fft2dEx
  Ops OpsSeq OpsProofs Objects ObjectsEx.
Local Open Scope Z_scope.

(** ** C65 *)
(** any sequence of legal calls on any number of FFT3d, FFT2d, Remap3d and Remap2d objects that share a communicator, the caller's arrays and
    the buffers runs to its end in all executions; every call computes from the cells it reads what it would compute alone *)
Theorem C65_sequence : forall {F} (O : sops F) cexp rnorm esize n size l (M0 : nat -> @rmem F),
  Forall (job_ok cexp esize n size M0) l ->
  (exists M', exec_to n (jobs_code O rnorm esize n l) M0 M' /\ still n size (flat_map job_writes l) M0 M') /\
  forall pre j post M1, l = pre ++ j :: post -> exec_to n (jobs_code O rnorm esize n pre) M0 M1 ->
    exists M2, exec_to n (job_code O rnorm esize n j) M1 M2 /\ exec_to n (jobs_code O rnorm esize n (pre ++ [j])) M0 M2 /\
    forall Mf, job_ok cexp esize n size Mf j -> agree_on n (job_reads j) M1 Mf ->
      exists Mf2, exec_to n (job_code O rnorm esize n j) Mf Mf2 /\ same_result n (job_gives n size j) M2 Mf2.
Proof. exact @objects_sequence. Qed.
Print Assumptions C65_sequence.
(** two streams of calls on different arrays, in whatever order the caller interleaves them (the same on all ranks): each stream ends with the
    result it has without the other *)
Theorem C65_streams : forall {F} (O : sops F) cexp rnorm esize n size b1 b2 l1 l2 l,
  isdata b1 -> isdata b2 -> b1 <> b2 -> merge l1 l2 l ->
  fed n size (array_of b1) l1 -> fed n size (array_of b2) l2 -> Forall (only_writes b1) l1 -> Forall (only_writes b2) l2 ->
  forall M0 : nat -> @rmem F, Forall (job_ok cexp esize n size M0) l ->
  exists M M1 M2, exec_to n (jobs_code O rnorm esize n l) M0 M /\
    exec_to n (jobs_code O rnorm esize n l1) M0 M1 /\ exec_to n (jobs_code O rnorm esize n l2) M0 M2 /\
    agree_on n (produced n size (array_of b1) l1) M1 M /\ agree_on n (produced n size (array_of b2) l2) M2 M.
Proof. exact @objects_streams. Qed.
Print Assumptions C65_streams.
(** an FFT3d, an FFT2d and a Remap3d object by turns on two ranks: the hypotheses hold, and the run ends with the results of each alone *)
Example C65_example : (exists f3 P3 f2 P2, exSetup jset 1 isplit3 split3 = SOk f3 /\ setup_ffts3 cexpZ g2 = Some P3 /\
  exSetup_2 jset 1 isplit2 split2 = SOk f2 /\ setup_ffts2 cexpZ sq2 = Some P2 /\
  Forall (job_ok cexpZ 8 2 (fun _ => 20) jM) (byturns f3 P3 f2 P2 ++ rest) /\
  merge (work3 f3 P3) (work2 f2 P2) (byturns f3 P3 f2 P2) /\
  fed 2 (fun _ => 20) (array_of BIn) (work3 f3 P3) /\ fed 2 (fun _ => 20) (array_of BOut) (work2 f2 P2) /\
  Forall (only_writes BIn) (work3 f3 P3) /\ Forall (only_writes BOut) (work2 f2 P2)) /\
  with_plan jset 1 isplit3 split3 (fun f3 P3 => with_plan_2 jset 1 isplit2 split2 (fun f2 P2 =>
    doneb (final 2 (jobs_code Zops normZ 8 2 (byturns f3 P3 f2 P2 ++ rest)) jM) &&
    forallb (fun r => zlist_eqb (firstn 8 (arr BIn (byturns f3 P3 f2 P2) r)) (firstn 8 (arr BIn (work3 f3 P3) r)) &&
      negb (zlist_eqb (firstn 8 (arr BIn (byturns f3 P3 f2 P2) r)) (firstn 8 (zrange 40))) &&
      zlist_eqb (firstn 4 (arr BOut (byturns f3 P3 f2 P2) r)) (firstn 4 (arr BOut (work2 f2 P2) r))) [0%nat; 1%nat])) = true.
Proof. exact (conj ex_jobs ex_turns). Qed.
(** the order must be the same on all ranks: two remaps that rank 1 performs in the other order end with wrong values, without any error *)
Theorem C65_order_refuted : exists (a b : @job Z) (M0 : nat -> @rmem Z), Forall (job_ok cexpZ 8 2 (fun _ => 20) M0) [a; b] /\
  exists r c v w, may_end_with 2 (jobs_code Zops normZ 8 2 [a; b]) M0 r BIn c v /\ may_end_with 2 (jobs_code Zops normZ 8 2 [b; a]) M0 r BIn c v /\
    may_end_with 2 (turn a b) M0 r BIn c w /\ v <> w.
Proof. exact ex_order. Qed.
Print Assumptions C65_order_refuted.
