(** TrafficEx.v : two ranks that exchange a number, before, around and across a remap (C81). *)

From Verif Require Import Base Spec Pack3d Pack2d Sched SchedProofs Phases Exec Remap RemapMain RemapInst
  Remap3d Remap2d RemapThms RemapTop ExRemap Layout Setup3d Setup2d LayoutFinal Kiss KissPure Fft1d KissFinal
  Fft3d Frame Fft3dProofs Fft3dMain Fft3dTop Fft3dFinal Fft3dStmt Fft3dEx Fft2d Fft2dMain Fft2dTop Fft2dFinal Fft2dStmt Fft2dEx
  Ops OpsSeq OpsProofs Objects ObjectsEx Traffic.
Local Open Scope Z_scope.

(** rank r puts 100 + r into its send buffer, posts a receive and sends; later it waits for the number of the other rank *)
Definition put (v : Z) (m : @rmem Z) : option rmem := l <- zset (m_send m) 0 v; Some (mkmem (m_in m) (m_out m) l (m_recv m)).
Definition give (r : nat) : list (@instr Z) :=
  [ILocal (put (100 + Z.of_nat r)); IIrecv 0 (1 - r) 39 1; ISend (1 - r) 1].
Definition take (_ : nat) : list (@instr Z) := [IWaitany (fun _ m => Some m)].
Definition swap (r : nat) : list (@instr Z) := give r ++ take r.
(** rank 0 sends [len] numbers and rank 1 receives them later *)
Definition hand (len : Z) (r : nat) : list (@instr Z) := match r with O => [ILocal (put 777); ISend 1 len] | _ => [] end.
Definition fetch (len : Z) (r : nat) : list (@instr Z) := match r with O => [] | _ => [IIrecv 0 0 20 len; IWaitany (fun _ m => Some m)] end.

Lemma wf_wait_one (x : slot) p : wf [] p -> wf [x] (IWaitany (fun _ (m : @rmem Z) => Some m) :: p).
Proof.
  intros H. destruct x as [[id loc] len]. apply wf_wait; [discriminate| |].
  - intros i sl' E. cbn in E. destruct (Nat.eqb id i); [|discriminate]. injection E as <-. exact H.
  - intros i sl' E. cbn in E. destruct (Nat.eqb id i); [|discriminate]. injection E as <-.
    split; [intros y []|]. split; [intros id' sl'' _ K; discriminate K|congruence].
Qed.
Lemma swap_wf : wf_code 2 swap.
Proof. intros r _. unfold swap, give, take. cbn [app]. constructor; [intros x []|]. constructor; [intros x []|]. constructor. apply wf_wait_one. constructor. Qed.
Lemma hand_wf len : wf_code 2 (fun r => hand len r ++ fetch len r).
Proof.
  intros [|r] _; cbn [hand fetch app].
  - constructor; [intros x []|]. constructor. constructor.
  - constructor; [intros x []|]. apply wf_wait_one. constructor.
Qed.

Lemma final_exec {A} n (code : nat -> list (@instr A)) M M' : wf_code n code -> finished n M' (final n code M) -> exec_to n code M M'.
Proof.
  intros W H. destruct (finished_quiet n M' _ H) as (sent & E). destruct (drive_run 3000 n (start n code M)) as (l & Hl).
  change (run n strict (start n code M) l (final n code M)) in Hl. rewrite E, start_quiet in Hl. exact (run_exec n code M M' l sent Hl W).
Qed.
Definition mem_at (n : nat) (code : nat -> list (@instr Z)) (M : nat -> @rmem Z) (r : nat) : @rmem Z := nth r (mems_of (final n code M)) (M r).
Lemma exec_start {A} n (code : nat -> list (@instr A)) M1 M2 M' : (forall r, (r < n)%nat -> M1 r = M2 r) -> exec_to n code M1 M' -> exec_to n code M2 M'.
Proof.
  intros E (L & H). exists L. intros e labels s Hr. apply (H e labels s). unfold start in *.
  replace (map M1 (seq 0 n)) with (map M2 (seq 0 n)); [exact Hr|]. apply map_ext_in. intros r K. apply in_seq in K. rewrite E by lia. reflexivity.
Qed.
Ltac finish := split; [apply doneb_ok; vm_compute; reflexivity|split; vm_compute; reflexivity].

(** ** the exchange completed before and after a remap *)
Definition M1 := mem_at 2 swap jM.
Definition M2 := mem_at 2 (job_code Zops normZ 8 2 legA) M1.
Definition M3 := mem_at 2 swap M2.
Lemma leg_ok (M : nat -> @rmem Z) : (forall r b, (r < 2)%nat -> zlen (getb b (M r)) = 40) -> job_ok cexpZ 8 2 (fun _ => 20) M legA.
Proof.
  intros L. split.
  - split; [left; reflexivity|]. split; [cbn; lia|]. split; [apply tile_isplit|]. split; [left; reflexivity|]. split; [left; reflexivity|]. split; [left; reflexivity|]. split.
    + intros r Hr. cbn [l_din l_dout l_nq l_ins l_outs]. rewrite !L by exact Hr. destruct r as [|[|r]]; [vm_compute; split; discriminate|vm_compute; split; discriminate|lia].
    + intros r pl Hr Hs. pose proof (L r BSend Hr) as LS. pose proof (L r BRecv Hr) as LR. cbn [getb] in LS, LR.
      destruct r as [|[|r]]; [| |lia]; vm_compute in Hs; injection Hs as <-; rewrite LS, LR; vm_compute; split; discriminate.
  - intros r Hr. destruct r as [|[|r]]; [vm_compute; discriminate|vm_compute; discriminate|lia].
Qed.
Lemma lens (M : nat -> @rmem Z) : forallb (fun r => forallb (fun b => zlen (getb b (M r)) =? 40) [BIn; BOut; BSend; BRecv]) [0%nat; 1%nat] = true ->
  forall r b, (r < 2)%nat -> zlen (getb b (M r)) = 40.
Proof.
  intros H r b Hr. cbn [forallb] in H. rewrite !andb_true_iff, !Z.eqb_eq in H.
  destruct r as [|[|r]]; [| |lia]; destruct b; tauto.
Qed.
Lemma ex_exec1 : exec_to 2 swap jM M1.
Proof. apply final_exec; [exact swap_wf|finish]. Qed.
Lemma ok1 : job_ok cexpZ 8 2 (fun _ => 20) M1 legA.
Proof. apply leg_ok, lens. vm_compute. reflexivity. Qed.
Lemma ex_exec2 : exec_to 2 (job_code Zops normZ 8 2 legA) M1 M2.
Proof. apply final_exec; [exact (job_wf Zops cexpZ normZ 8 2 (fun _ => 20) M1 legA ok1)|finish]. Qed.
Lemma ex_exec3 : exec_to 2 swap M2 M3.
Proof. apply final_exec; [exact swap_wf|finish]. Qed.

Definition alone := mem_at 2 (job_code Zops normZ 8 2 legA) jM.
(** the first 8 cells of the input array hold the remapped data, as after a remap alone; the numbers have arrived *)
Lemma traffic_meets_between : in_turn Zops cexpZ normZ 8 2 (fun _ => 20) jM [POwn swap; PCall legA; POwn swap]
  (fun M => M 0%nat = M3 0%nat /\ M 1%nat = M3 1%nat) /\
  zlist_eqb (firstn 8 (m_in (M3 0%nat))) (firstn 8 (m_in (alone 0%nat))) = true /\ zlist_eqb (firstn 8 (m_in (M3 1%nat))) (firstn 8 (m_in (alone 1%nat))) = true /\
  zget (m_recv (M3 0%nat)) 39 = Some 101 /\ zget (m_recv (M3 1%nat)) 39 = Some 100.
Proof.
  split.
  - split; [exact swap_wf|]. exists M1. split; [exact ex_exec1|]. split; [exact ok1|]. intros M H. split; [exact swap_wf|]. exists M3.
    split; [|split; reflexivity]. apply (exec_start 2 swap M2); [|exact ex_exec3]. intros r Hr. exact (exec_to_ext 2 _ _ _ _ ex_exec2 H r Hr).
  - vm_compute. auto.
Qed.

(** ** the exchange around a remap, with another tag: its two halves before and after *)
Definition W0 (r : nat) : @rmem Z := mkmem [] [] [0] (repeat 0 40).
Definition W1 := mem_at 2 (fun r => give r ++ take r) W0.
Definition N1 := mem_at 2 (job_code Zops normZ 8 2 legA) jM.
Lemma traffic_meets_overlap : exec_to 2 (job_code Zops normZ 8 2 legA) jM N1 /\ exec_to 2 (fun r => give r ++ take r) W0 W1 /\
  (forall r, (r < 2)%nat -> Forall prompt (give r)) /\
  zget (m_recv (W1 0%nat)) 39 = Some 101 /\ zget (m_recv (W1 1%nat)) 39 = Some 100 /\
  around (length (give 0)) 2 (length (take 0)) = [Own; Own; Own; Lib; Lib; Own].
Proof.
  split; [apply final_exec; [exact (job_wf Zops cexpZ normZ 8 2 (fun _ => 20) jM legA (leg_ok jM (lens jM eq_refl)))|finish]|].
  split; [apply final_exec; [exact swap_wf|finish]|].
  split; [intros r _; unfold give; repeat constructor|].
  repeat split; vm_compute; reflexivity.
Qed.

(** the caller's calls in the middle of those of the library *)
Definition mixed : list (list side) := [[Own; Lib; Lib; Own; Own; Lib; Lib; Lib; Lib; Own]; [Lib; Lib; Lib; Own; Lib; Own; Lib; Own; Lib; Own]].
Lemma traffic_meets_apart : exec_to 2 (job_code Zops normZ 8 2 legA) jM N1 /\ length mixed = 2%nat /\
  forall r t, nth_error mixed r = Some t -> calls Lib t = length (job_code Zops normZ 8 2 legA r).
Proof.
  split; [exact (proj1 traffic_meets_overlap)|]. split; [reflexivity|].
  intros [|[|r]] t E; cbn in E; [| |destruct r; discriminate E]; injection E as <-; vm_compute; reflexivity.
Qed.

(** ** a message with tag 0 that is pending during a remap *)
Definition across (len : Z) : nat -> list (@instr Z) := parts_code Zops normZ 8 2 [POwn (hand len); PCall legA; POwn (fetch len)].
(** rank 1 unpacks the caller's message as if it were a part of the grid, and the caller takes the library's message for its own;
    nothing reports an error.  A longer message is an error inside the library. *)
Lemma traffic_pending : exists (j : @job Z) (before after before' after' : nat -> list (@instr Z)) (M0 : nat -> @rmem Z),
  job_ok cexpZ 8 2 (fun _ => 20) M0 j /\ exec_all 2 (fun r => before r ++ after r) M0 (fun r m => r = 1%nat -> zget (m_recv m) 20 = Some 777) /\
  exec_all 2 (fun r => before' r ++ after' r) M0 (fun r m => r = 1%nat -> zget (m_recv m) 20 = Some 777) /\
  (exists c v w x, may_end_with 2 (job_code Zops normZ 8 2 j) M0 1 BIn c v /\ v <> w /\ x <> 777 /\
     may_end_with 2 (parts_code Zops normZ 8 2 [POwn before; PCall j; POwn after]) M0 1 BIn c w /\
     may_end_with 2 (parts_code Zops normZ 8 2 [POwn before; PCall j; POwn after]) M0 1 BRecv 20 x) /\
  may_go_wrong 2 (parts_code Zops normZ 8 2 [POwn before'; PCall j; POwn after']) M0.
Proof.
  exists legA, (hand 4), (fetch 4), (hand 20), (fetch 20), jM. split; [exact (leg_ok jM (lens jM eq_refl))|].
  assert (G : forall len, In len [4; 20] -> exec_all 2 (fun r => hand len r ++ fetch len r) jM (fun r m => r = 1%nat -> zget (m_recv m) 20 = Some 777)).
  { intros len Hl. exists (mem_at 2 (fun r => hand len r ++ fetch len r) jM). split.
    - intros r _ ->. destruct Hl as [<- |[<- |[]]]; vm_compute; reflexivity.
    - apply final_exec; [apply hand_wf|]. destruct Hl as [<- |[<- |[]]]; finish. }
  split; [apply G; cbn; auto|]. split; [apply G; cbn; auto|]. split.
  - exists 0, 4, 777, 4. split; [apply final_ends; vm_compute; reflexivity|]. split; [discriminate|]. split; [discriminate|].
    split; apply final_ends; vm_compute; reflexivity.
  - apply final_bad. vm_compute. reflexivity.
Qed.
