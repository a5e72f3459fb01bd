(** Exec.v : from one complete execution to all executions. *)

From Verif Require Import Base Sched SchedProofs MemProofs Phases.

(** ** specification
    [exec_to n code M0 M']: there is a number of steps [L] such that for every
    completion policy of MPI_Send and every interleaving, every execution of the
    programs [code r] started on memories [M0 r]
    - never can do something undefined next (out of bounds access, truncated
      message, mismatched collective, ...), and
    - either has fewer than [L] steps and some rank or message can make a step,
      or has exactly [L] steps, all ranks have finished, nothing is pending or
      in flight and the memories are [M'].
    [exec_all n code M0 Post]: so for some [M'] satisfying [Post]. *)
Definition start {A} (n : nat) (code : nat -> list instr) (M0 : nat -> @rmem A) : gstate :=
  init n (map code (seq 0 n)) (map M0 (seq 0 n)).

Definition finished {A} (n : nat) (M' : nat -> @rmem A) (s : @gstate A) : Prop :=
  all_done s /\ s_ch s = empty_chans n /\ mems_of s = map M' (seq 0 n).

Definition exec_to {A} (n : nat) (code : nat -> list instr) (M0 M' : nat -> @rmem A) : Prop :=
  exists L, forall eager labels s, run n eager (start n code M0) labels s ->
    (forall a, step n eager a s <> Bad) /\
    (((length labels < L)%nat /\ exists a s', step n eager a s = Ok s') \/
     (length labels = L /\ finished n M' s)).

Definition exec_all {A} (n : nat) (code : nat -> list instr) (M0 : nat -> @rmem A) (Post : nat -> @rmem A -> Prop) : Prop :=
  exists M', (forall r, (r < n)%nat -> Post r (M' r)) /\ exec_to n code M0 M'.

(** ** proofs *)
Section Exec.
Context {A : Type}.
Variable n : nat.
Implicit Types (code : nat -> list (@instr A)) (M : nat -> @rmem A).

Definition strict : nat -> nat -> bool := fun _ _ => false.

Lemma lstep_strict eager a (c : @core A) k c' e : lstep n strict a c k = Ok (c', e) -> lstep n eager a c k = Ok (c', e).
Proof.
  destruct a as [r|p q|r id]; cbn [lstep]; auto.
  destruct (c_prog c) as [|[ | |dst len| |] p]; auto.
  destruct (c_busy c); auto. cbn [strict orb]. destruct (mget (ch k) r dst); [|discriminate].
  rewrite orb_true_r. auto.
Qed.

Lemma step_strict eager a (s s' : @gstate A) : step n strict a s = Ok s' -> step n eager a s = Ok s'.
Proof.
  unfold step. destruct (nth_error (s_core s) (owner a)) as [c|]; [|discriminate].
  destruct (lstep n strict a c (s_ch s)) as [| |[c' e]] eqn:E; try discriminate.
  rewrite (lstep_strict eager _ _ _ _ _ E). auto.
Qed.

Lemma run_strict eager (s : @gstate A) l s' : run n strict s l s' -> run n eager s l s'.
Proof. induction 1; [constructor|]. econstructor; [apply step_strict; eassumption|assumption]. Qed.

Lemma start_quiet code M : start n code M = quiet n code M (fun _ => 0%nat).
Proof.
  unfold start, init, quiet, st, tab. f_equal.
  induction (seq 0 n) as [|x l IH]; cbn; [reflexivity|]. f_equal. exact IH.
Qed.

Lemma quiet_done M sent : finished n M (quiet n (fun _ => []) M sent).
Proof.
  split; [|split].
  - intros c Hc. apply In_tab in Hc as (i & _ & ->). repeat split.
  - reflexivity.
  - unfold mems_of, quiet, st, tab. cbn. rewrite map_map. reflexivity.
Qed.

Lemma run_exec code M M' l sent' : run n strict (quiet n code M (fun _ => 0%nat)) l (quiet n (fun _ => []) M' sent') ->
  wf_code n code -> exec_to n code M M'.
Proof.
  intros HR HW. exists (length l). intros eager labels s Hrun. rewrite start_quiet in *.
  apply (run_strict eager) in HR.
  destruct (confluence n eager _ _ _ (quiet_inv n code M _ HW) HR (quiet_terminal n eager M' sent') _ _ Hrun) as (C1 & C2 & (l'' & C3 & C5) & C4).
  split; [exact C2|]. destruct l'' as [|a l''].
  - right. inversion C3; subst. cbn in C5. split; [lia|]. apply quiet_done.
  - left. inversion C3 as [|? ? s1 ? ? Hs _]; subst. cbn in C5. split; [lia|]. eauto.
Qed.

Theorem triple_exec pre code post M : triple n strict pre code post -> wf_code n code ->
  (forall r, (r < n)%nat -> pre r (M r)) -> exec_all n code M post.
Proof.
  intros HT HW HM. destruct (HT M (fun _ => []) (fun _ => 0%nat) HM) as (M' & l & sent' & HP & HR).
  exists M'. split; [exact HP|]. apply (run_exec code M M' l sent'); [|exact HW].
  replace (quiet n code M (fun _ => 0%nat)) with (quiet n (fun r => code r ++ []) M (fun _ => 0%nat)); [exact HR|].
  unfold quiet, st. f_equal. apply tab_ext. intros i _. rewrite app_nil_r. reflexivity.
Qed.

Lemma run_snoc eager (s : @gstate A) l s1 a s2 : run n eager s l s1 -> step n eager a s1 = Ok s2 -> run n eager s (l ++ [a]) s2.
Proof. induction 1; intros Hs; [econstructor; [exact Hs|constructor]|]. cbn. econstructor; [eassumption|auto]. Qed.

(** some complete execution exists *)
Lemma exec_complete code M M' eager : exec_to n code M M' ->
  exists labels s, run n eager (start n code M) labels s /\ finished n M' s.
Proof.
  intros (L & H).
  assert (G : forall k labels s, (L - length labels <= k)%nat -> run n eager (start n code M) labels s ->
    exists labels s, run n eager (start n code M) labels s /\ finished n M' s).
  { induction k as [|k IH]; intros labels s Hk Hr; destruct (H _ _ _ Hr) as (_ & [(H1 & a & s' & Hs) | (H1 & H2)]); eauto; [lia|].
    apply (IH (labels ++ [a]) s'); [rewrite app_length; cbn; lia|]. eapply run_snoc; eassumption. }
  apply (G L [] (start n code M)); [cbn [length]; lia|constructor].
Qed.

Lemma exec_to_ext code M M1 M2 : exec_to n code M M1 -> exec_to n code M M2 -> forall r, (r < n)%nat -> M1 r = M2 r.
Proof.
  intros H1 (L & H2) r Hn. destruct (exec_complete _ _ _ strict H1) as (labels & s & Hr & (D1 & _ & E1)).
  destruct (H2 _ _ _ Hr) as (_ & [(_ & a & s' & Hs) | (_ & _ & _ & E2)]).
  - exfalso. unfold step in Hs. destruct (nth_error (s_core s) (owner a)) as [c|] eqn:Ec; [|discriminate].
    destruct (D1 c (nth_error_In _ _ Ec)) as (P1 & P2 & P3).
    destruct a as [q|p q|q id]; cbn [lstep] in Hs; rewrite ?P1, ?P2 in Hs; try discriminate.
    destruct (mget (ch (s_ch s)) p q); cbn in Hs; discriminate.
  - rewrite E1 in E2.
    assert (E3 : nth_error (map M1 (seq 0 n)) r = nth_error (map M2 (seq 0 n)) r) by congruence.
    rewrite !nth_error_map, (nth_error_nth' _ 0%nat), seq_nth in E3 by (rewrite ?seq_length; exact Hn).
    cbn in E3. congruence.
Qed.

Lemma exec_all_to code M M' Post : exec_to n code M M' -> exec_all n code M Post -> forall r, (r < n)%nat -> Post r (M' r).
Proof. intros H (M2 & HP & H2) r Hr. rewrite (exec_to_ext _ _ _ _ H H2 r Hr). apply HP, Hr. Qed.

(** ** running one program after the other *)
Definition lift1 (rest : list (@instr A)) (k : nat) (c : @core A) : @core A :=
  mkcore (c_prog c ++ rest) (c_mem c) (c_reqs c) (c_busy c) (k + c_sent c)%nat.

Lemma lstep_lift a (c : @core A) ch' c' e rest k : lstep n strict a c ch' = Ok (c', e) ->
  lstep n strict a (lift1 rest k c) ch' = Ok (lift1 rest k c', e).
Proof.
  destruct c as [pr m rq bz sn]. destruct a as [r|p q|r id]; unfold lift1; cbn [lstep c_prog c_mem c_reqs c_busy c_sent].
  - destruct pr as [|[id src loc len|f|dst len|h|g args] p]; cbn [app]; try discriminate.
    + intros [= <- <-]. reflexivity.
    + destruct (f m); [|discriminate]. intros [= <- <-]. reflexivity.
    + destruct bz.
      * unfold strict. cbn [orb]. destruct (mget (ch ch') r dst); [|discriminate]. intros [= <- <-]. cbn. rewrite Nat.add_succ_r. reflexivity.
      * destruct (zslice (m_send m) 0 len); [|discriminate]. destruct (Nat.ltb dst n); [|discriminate]. intros [= <- <-]. reflexivity.
    + destruct rq; discriminate.
    + destruct bz.
      * destruct (a2a_ready ch' r g); [|discriminate]. destruct (a2a_recv ch' r g g args m); try discriminate. intros [= <- <-]. reflexivity.
      * destruct (_ && _)%bool; [|discriminate]. destruct (a2a_payloads m args); [|discriminate]. intros [= <- <-]. reflexivity.
  - destruct (mget (ch ch') p q); [discriminate|]. destruct (mark_first p rq) as [[q' rs]|]; [|discriminate].
    destruct (rq_len q' <? zlen m0); [discriminate|]. destruct (wrm _ _ _); [|discriminate]. intros [= <- <-]. reflexivity.
  - destruct pr as [|[id' src loc len|f|dst len|h|g args] p]; cbn [app]; try discriminate.
    destruct (take_done id rq); [|discriminate]. destruct (h id m); [|discriminate]. intros [= <- <-]. reflexivity.
Qed.

Fixpoint mapi_from {B C} (f : nat -> B -> C) (i : nat) (l : list B) : list C :=
  match l with [] => [] | x :: t => f i x :: mapi_from f (S i) t end.

Lemma nth_mapi {B C} (f : nat -> B -> C) l i j : nth_error (mapi_from f i l) j = option_map (f (i + j)%nat) (nth_error l j).
Proof. revert i j; induction l as [|x l IH]; intros i [|j]; cbn; auto; rewrite ?Nat.add_0_r; auto. rewrite IH. do 2 f_equal. lia. Qed.

Lemma lupd_mapi {B C} (f : nat -> B -> C) l i j v : mapi_from f i (lupd l j v) = lupd (mapi_from f i l) j (f (i + j)%nat v).
Proof.
  revert i j; induction l as [|x l IH]; intros i [|j]; cbn; auto; rewrite ?Nat.add_0_r; auto. rewrite IH. do 3 f_equal. lia.
Qed.

Definition lift (rest : nat -> list (@instr A)) (k : nat -> nat) (s : @gstate A) : @gstate A :=
  mkstate (mapi_from (fun i => lift1 (rest i) (k i)) 0 (s_core s)) (s_ch s).

Lemma step_lift a (s s' : @gstate A) rest k : step n strict a s = Ok s' -> step n strict a (lift rest k s) = Ok (lift rest k s').
Proof.
  unfold step, lift. cbn [s_core s_ch]. rewrite nth_mapi. destruct (nth_error (s_core s) (owner a)) as [c|]; [|discriminate].
  cbn [option_map]. destruct (lstep n strict a c (s_ch s)) as [| |[c' e]] eqn:E; try discriminate.
  rewrite (lstep_lift _ _ _ _ _ _ _ E). intros [= <-]. cbn [s_core s_ch]. rewrite lupd_mapi. reflexivity.
Qed.

Lemma run_lift (s s' : @gstate A) l rest k : run n strict s l s' -> run n strict (lift rest k s) l (lift rest k s').
Proof. induction 1; [constructor|]. econstructor; [apply step_lift; eassumption|assumption]. Qed.

Lemma mapi_tab {B C} (f : nat -> B -> C) (g : nat -> B) : mapi_from f 0 (tab n g) = tab n (fun i => f i (g i)).
Proof.
  unfold tab. assert (H : forall m b, mapi_from f b (map g (seq b m)) = map (fun i => f i (g i)) (seq b m)); [|apply H].
  induction m as [|m IH]; intros b; cbn; [reflexivity|]. rewrite IH. reflexivity.
Qed.

Lemma lift_quiet rest k code M sent : lift rest k (quiet n code M sent) = quiet n (fun r => code r ++ rest r) M (fun r => (k r + sent r)%nat).
Proof. unfold lift, quiet, st. cbn [s_core s_ch]. rewrite mapi_tab. reflexivity. Qed.

Lemma finished_quiet M (s : @gstate A) : finished n M s -> exists sent, s = quiet n (fun _ => []) M sent.
Proof.
  intros (D & C & E). destruct s as [cs chs]. cbn in C. subst chs. unfold mems_of in E. cbn in E.
  exists (fun i => match nth_error cs i with Some c => c_sent c | None => 0%nat end).
  unfold quiet, st. f_equal. unfold tab.
  assert (Hlen : length cs = n) by (rewrite <- (map_length c_mem cs), E, map_length, seq_length; reflexivity).
  apply nth_error_ext. intros i. rewrite nth_error_map.
  destruct (Nat.lt_ge_cases i n) as [Hi|Hi].
  - assert (Ei : nth_error (map c_mem cs) i = nth_error (map M (seq 0 n)) i) by congruence.
    rewrite !nth_error_map in Ei. rewrite (nth_error_nth' (seq 0 n) 0%nat), seq_nth in * by (rewrite ?seq_length; exact Hi).
    cbn in *. destruct (nth_error cs i) as [c|] eqn:Ec; [|discriminate]. cbn in Ei. injection Ei as Ei.
    destruct (D c (nth_error_In _ _ Ec)) as (P1 & P2 & P3). destruct c; cbn in *; subst. reflexivity.
  - rewrite (proj2 (nth_error_None _ _)) by lia. rewrite (proj2 (nth_error_None (seq 0 n) i)) by (rewrite seq_length; lia). reflexivity.
Qed.

Theorem exec_seq c1 c2 M0 M1 M2 : wf_code n c1 -> wf_code n c2 -> exec_to n c1 M0 M1 -> exec_to n c2 M1 M2 ->
  exec_to n (fun r => c1 r ++ c2 r) M0 M2.
Proof.
  intros W1 W2 H1 H2.
  destruct (exec_complete _ _ _ strict H1) as (l1 & s1 & R1 & F1). destruct (finished_quiet _ _ F1) as (t1 & ->).
  destruct (exec_complete _ _ _ strict H2) as (l2 & s2 & R2 & F2). destruct (finished_quiet _ _ F2) as (t2 & ->).
  rewrite start_quiet in R1, R2.
  apply (run_lift _ _ _ c2 (fun _ => 0%nat)) in R1. rewrite !lift_quiet in R1.
  apply (run_lift _ _ _ (fun _ => []) t1) in R2. rewrite !lift_quiet in R2.
  apply (run_exec _ M0 M2 (l1 ++ l2) (fun r => (t1 r + t2 r)%nat)); [|apply wf_code_app; assumption].
  apply run_app with (quiet n c2 M1 t1); [exact R1|].
  replace (quiet n c2 M1 t1) with (quiet n (fun r => c2 r ++ []) M1 (fun r => (t1 r + 0)%nat)); [exact R2|].
  unfold quiet, st. f_equal. apply tab_ext. intros i _. rewrite app_nil_r, Nat.add_0_r. reflexivity.
Qed.

End Exec.
