(** PropertiesTraffic.v : C81, messages of the caller on the library's communicator. Vocabulary of Traffic.v: [part], [in_turn] (tag 0), [joint], [jrun],
    [calls], [around], [prompt] (other tags). *)

From Verif Require Import Base Spec Pack3d Pack2d Sched SchedProofs Phases Exec Remap RemapMain RemapInst
  Remap3d Remap2d RemapThms RemapTop Layout Setup3d Setup2d LayoutFinal Kiss KissPure Fft1d KissFinal
  Fft3d Frame Fft3dProofs Fft3dMain Fft3dTop Fft3dFinal Fft3dStmt Fft3dEx Fft2d Fft2dMain Fft2dTop Fft2dFinal Fft2dStmt Fft2dEx
  Ops OpsSeq OpsProofs Objects ObjectsEx Traffic TrafficEx.
Local Open Scope Z_scope.

(** C81: programs of the caller that exchange messages with tag 0 between the calls, and leave none behind, do not disturb the
    calls and are not disturbed, without any barrier: all executions end as if the parts ran one after the other *)
Theorem C81_between : forall {F} (O : sops F) cexp rnorm esize n size (M0 : nat -> @rmem F) l Post,
  in_turn O cexp rnorm esize n size M0 l Post -> exists M', exec_to n (parts_code O rnorm esize n l) M0 M' /\ Post M'.
Proof. exact @traffic_in_turn. Qed.
Print Assumptions C81_between.
Example C81_between_example : in_turn Zops cexpZ normZ 8 2 (fun _ => 20) jM [POwn swap; PCall legA; POwn swap]
  (fun M => M 0%nat = M3 0%nat /\ M 1%nat = M3 1%nat) /\
  zlist_eqb (firstn 8 (m_in (M3 0%nat))) (firstn 8 (m_in (alone 0%nat))) = true /\ zlist_eqb (firstn 8 (m_in (M3 1%nat))) (firstn 8 (m_in (alone 1%nat))) = true /\
  zget (m_recv (M3 0%nat)) 39 = Some 101 /\ zget (m_recv (M3 1%nat)) 39 = Some 100.
Proof. exact traffic_meets_between. Qed.

(** messages of the caller with other tags, pending or not, mixed with the calls in any order: the calls of the library do
    nothing undefined, wait only for ranks that are at calls of the caller, and end with the result they have alone *)
Theorem C81_apart : forall {A B} n (code : nat -> list (@instr A)) M0 M' (own : @gstate B) turns,
  exec_to n code M0 M' -> length turns = n -> (forall r t, nth_error turns r = Some t -> calls Lib t = length (code r)) ->
  exists L, forall elib eown ls j, jrun n elib eown (mkjoint (start n code M0) own turns) ls j ->
    (forall a, step n elib a (j_lib j) <> Bad) /\
    (((length (of_side Lib ls) < L)%nat /\
       ((exists a j', jstep n elib eown (Lib, a) j = Ok j') \/ exists r t, (r < n)%nat /\ nth_error (j_turn j) r = Some (Own :: t))) \/
     (length (of_side Lib ls) = L /\ finished n M' (j_lib j))).
Proof. exact @traffic_apart. Qed.
Print Assumptions C81_apart.
Example C81_apart_example : exec_to 2 (job_code Zops normZ 8 2 legA) jM N1 /\ length mixed = 2%nat /\
  forall r t, nth_error mixed r = Some t -> calls Lib t = length (job_code Zops normZ 8 2 legA r).
Proof. exact traffic_meets_apart. Qed.

(** an exchange with another tag, started before the calls (receives posted, messages handed over) and completed after them: every
    execution of both together ends, the calls with the result they have alone and the exchange with the result it has alone *)
Theorem C81_overlap : forall {A B} n (code : nat -> list (@instr A)) M0 M' (pre post : nat -> list (@instr B)) W0 W',
  exec_to n code M0 M' -> exec_to n (fun r => pre r ++ post r) W0 W' -> (forall r, (r < n)%nat -> Forall prompt (pre r)) ->
  exists L, forall elib ls j,
    let eown := fun _ _ => true in
    jrun n elib eown (mkjoint (start n code M0) (start n (fun r => pre r ++ post r) W0)
      (map (fun r => around (length (pre r)) (length (code r)) (length (post r))) (seq 0 n))) ls j ->
    (forall x, jstep n elib eown x j <> Bad) /\
    (((length ls < L)%nat /\ exists x j', jstep n elib eown x j = Ok j') \/
     (length ls = L /\ finished n M' (j_lib j) /\ finished n W' (j_own j))).
Proof. exact @traffic_overlap. Qed.
Print Assumptions C81_overlap.
Example C81_overlap_example : exec_to 2 (job_code Zops normZ 8 2 legA) jM N1 /\ exec_to 2 (fun r => give r ++ take r) W0 W1 /\
  (forall r, (r < 2)%nat -> Forall prompt (give r)) /\
  zget (m_recv (W1 0%nat)) 39 = Some 101 /\ zget (m_recv (W1 1%nat)) 39 = Some 100 /\
  around (length (give 0)) 2 (length (take 0)) = [Own; Own; Own; Lib; Lib; Own].
Proof. exact traffic_meets_overlap. Qed.

(** false of a message with tag 0 that is pending during a call: the library takes it for its own, without an error, and the
    caller gets a message of the library; a longer one is an MPI error inside the library.  Both exchanges are right without the call. *)
Theorem C81_pending_refuted : exists (j : @job Z) (before after before' after' : nat -> list (@instr Z)) (M0 : nat -> @rmem Z),
  job_ok cexpZ 8 2 (fun _ => 20) M0 j /\ exec_all 2 (fun r => before r ++ after r) M0 (fun r m => r = 1%nat -> zget (m_recv m) 20 = Some 777) /\
  exec_all 2 (fun r => before' r ++ after' r) M0 (fun r m => r = 1%nat -> zget (m_recv m) 20 = Some 777) /\
  (exists c v w x, may_end_with 2 (job_code Zops normZ 8 2 j) M0 1 BIn c v /\ v <> w /\ x <> 777 /\
     may_end_with 2 (parts_code Zops normZ 8 2 [POwn before; PCall j; POwn after]) M0 1 BIn c w /\
     may_end_with 2 (parts_code Zops normZ 8 2 [POwn before; PCall j; POwn after]) M0 1 BRecv 20 x) /\
  may_go_wrong 2 (parts_code Zops normZ 8 2 [POwn before'; PCall j; POwn after']) M0.
Proof. exact traffic_pending. Qed.
Print Assumptions C81_pending_refuted.
