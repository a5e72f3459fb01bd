(** Traffic.v : messages of the caller on the communicator it hands to the library (C81).

    The library sends and receives on the caller's communicator itself (remap3d.cpp:69, remap2d.cpp:69: world = user_comm, no
    MPI_Comm_dup), with tag 0 (remap3d.cpp:648-657, remap2d.cpp:601-610).  So
    - messages of the caller with tag 0 on this communicator are in the same queues as those of the library: the caller's own
      programs are then instructions of the machine of Sched.v, before, between and after the calls ([part]);
    - messages with another tag or on another communicator are matched apart from those of the library: a second copy of the
      machine, with the caller's own arrays, of which each rank executes its calls in program order with those of the library ([joint]).
    Receives of the caller with MPI_ANY_TAG or MPI_ANY_SOURCE are not modelled. *)

From Verif Require Import Base Spec Pack3d Pack2d Sched SchedProofs Phases Exec Remap RemapMain RemapInst
  Remap3d Remap2d RemapThms RemapTop Layout Setup3d Setup2d Kiss KissPure Fft1d Fft3d Frame Fft3dMain Fft3dTop Fft2d Fft2dTop Ops OpsSeq OpsProofs Objects.
Local Open Scope Z_scope.

(** ** tag 0: the caller's programs between the calls *)
Section Parts.
Context {F : Type}.
Variables (O : sops F) (cexp : bool -> Z -> Z -> F * F) (rnorm : Z -> F) (esize : Z) (n : nat) (size : nat -> Z).

(** a call of the library, or a program of the caller that sends and receives messages *)
Inductive part := PCall (j : @job F) | POwn (c : nat -> list (@instr F)).
Definition part_code (p : part) : nat -> list (@instr F) := match p with PCall j => job_code O rnorm esize n j | POwn c => c end.
Definition parts_code (l : list part) : nat -> list (@instr F) := together (map part_code l).

(** the parts one after the other: calls are legal where they start, the programs of the caller end when they run alone from
    there (all their messages are received, nothing is left pending), and [Post] holds at the end *)
Fixpoint in_turn (M : nat -> @rmem F) (l : list part) (Post : (nat -> @rmem F) -> Prop) : Prop :=
  match l with
  | [] => Post M
  | PCall j :: t => job_ok cexp esize n size M j /\ forall M1, exec_to n (job_code O rnorm esize n j) M M1 -> in_turn M1 t Post
  | POwn c :: t => wf_code n c /\ exists M1, exec_to n c M M1 /\ in_turn M1 t Post
  end.

Lemma exec_nil (M : nat -> @rmem F) : exec_to n (fun _ => []) M M.
Proof. apply (run_exec n (fun _ => []) M M [] (fun _ => 0%nat)); [constructor|]. intros r _. constructor. Qed.

Lemma traffic_in_turn_wf M l Post : in_turn M l Post -> exists M', exec_to n (parts_code l) M M' /\ wf_code n (parts_code l) /\ Post M'.
Proof.
  revert M. induction l as [|[j|c] l IH]; intros M.
  - intros H. exists M. split; [exact (exec_nil M)|]. split; [intros r _; constructor|exact H].
  - intros (Hj & H).
    destruct (objects_sequence O cexp rnorm esize n size [j] M (Forall_cons _ Hj (Forall_nil _))) as ((M1 & H1 & _) & _).
    assert (H2 : exec_to n (job_code O rnorm esize n j) M M1).
    { revert H1. unfold jobs_code, together. cbn [map List.concat].
      intros (L & K). exists L. intros e labels s. specialize (K e labels s). unfold start in *.
      replace (map (fun r => job_code O rnorm esize n j r ++ []) (seq 0 n)) with (map (job_code O rnorm esize n j) (seq 0 n)) in K; [exact K|].
      apply map_ext. intros r. rewrite app_nil_r. reflexivity. }
    destruct (IH M1 (H M1 H2)) as (M' & E & W & P). exists M'.
    pose proof (job_wf O cexp rnorm esize n size M j Hj) as Wj.
    split; [exact (exec_seq n _ _ M M1 M' Wj W H2 E)|]. split; [exact (wf_code_app n _ _ Wj W)|exact P].
  - intros (Wc & M1 & H2 & H).
    destruct (IH M1 H) as (M' & E & W & P). exists M'.
    split; [exact (exec_seq n _ _ M M1 M' Wc W H2 E)|]. split; [exact (wf_code_app n _ _ Wc W)|exact P].
Qed.

Theorem traffic_in_turn M l Post : in_turn M l Post -> exists M', exec_to n (parts_code l) M M' /\ Post M'.
Proof. intros H. destruct (traffic_in_turn_wf M l Post H) as (M' & E & _ & P). eauto. Qed.
End Parts.

(** ** other tags or communicators: two machines, one order of calls per rank *)
Section Joint.
Context {A B : Type}.
Variables (n : nat) (elib eown : nat -> nat -> bool).

Inductive side := Lib | Own.
(** [j_turn r]: whose calls are next on rank r, in program order *)
Record joint := mkjoint { j_lib : @gstate A; j_own : @gstate B; j_turn : list (list side) }.

Definition left_of {C} (s : @gstate C) (r : nat) : nat := match nth_error (s_core s) r with Some c => length (c_prog c) | None => 0%nat end.
Definition is_own (s : side) : bool := match s with Own => true | Lib => false end.
(** rank r may take part in its next call only when it is that side's turn; the turn passes on when the call has returned.
    A message is delivered at any time. *)
Definition my_turn (sd : side) (a : label) (ts : list (list side)) : bool :=
  match a with
  | Ldeliver _ _ => true
  | _ => match nth_error ts (owner a) with Some (s0 :: _) => Bool.eqb (is_own s0) (is_own sd) | _ => false end
  end.
Definition pass (a : label) (before after : nat) (ts : list (list side)) : list (list side) :=
  if (after <? before)%nat then lupd ts (owner a) (tl (nth (owner a) ts [])) else ts.
Definition jstep (x : side * label) (j : joint) : outcome joint :=
  let '(sd, a) := x in
  if my_turn sd a (j_turn j) then
    match sd with
    | Lib => match step n elib a (j_lib j) with
             | Ok s => Ok (mkjoint s (j_own j) (pass a (left_of (j_lib j) (owner a)) (left_of s (owner a)) (j_turn j)))
             | Bad => Bad | Disabled => Disabled end
    | Own => match step n eown a (j_own j) with
             | Ok s => Ok (mkjoint (j_lib j) s (pass a (left_of (j_own j) (owner a)) (left_of s (owner a)) (j_turn j)))
             | Bad => Bad | Disabled => Disabled end
    end
  else Disabled.
Inductive jrun : joint -> list (side * label) -> joint -> Prop :=
| jrun_nil j : jrun j [] j
| jrun_cons j x j1 l j2 : jstep x j = Ok j1 -> jrun j1 l j2 -> jrun j (x :: l) j2.
Definition of_side (sd : side) (l : list (side * label)) : list label := map snd (filter (fun x => Bool.eqb (is_own (fst x)) (is_own sd)) l).

(** each side's part of an execution is an execution of that side alone *)
Lemma jrun_project j l j' : jrun j l j' -> run n elib (j_lib j) (of_side Lib l) (j_lib j') /\ run n eown (j_own j) (of_side Own l) (j_own j').
Proof.
  induction 1 as [j|j [sd a] j1 l j2 Hs _ (IH1 & IH2)]; [split; constructor|].
  unfold jstep in Hs. destruct (my_turn sd a (j_turn j)); [|discriminate]. destruct sd; unfold of_side in *; cbn [filter map fst snd is_own Bool.eqb].
  - destruct (step n elib a (j_lib j)) as [| |s] eqn:E; try discriminate. injection Hs as <-. cbn in IH1, IH2. split; [|exact IH2]. econstructor; eassumption.
  - destruct (step n eown a (j_own j)) as [| |s] eqn:E; try discriminate. injection Hs as <-. cbn in IH1, IH2. split; [exact IH1|]. econstructor; eassumption.
Qed.
Lemma of_side_length l : (length (of_side Lib l) + length (of_side Own l) = length l)%nat.
Proof. unfold of_side. rewrite !map_length. induction l as [|[[] a] l IH]; cbn in *; lia. Qed.
End Joint.

(** a step leaves the program of a rank or takes its first call away; only deliveries leave programs alone that are empty *)
Lemma lstep_prog {C} n e a (c : @core C) k c' f : lstep n e a c k = Ok (c', f) ->
  (c_prog c' = c_prog c \/ exists i, c_prog c = i :: c_prog c') /\
  (match a with Ldeliver _ _ => c_prog c' = c_prog c | _ => c_prog c <> [] end).
Proof.
  destruct a as [r|p q|r id]; cbn [lstep].
  - destruct (c_prog c) as [|[id src loc len|g|dst len|h|g args] p]; try discriminate.
    + intros [= <- <-]. cbn. split; [eauto|discriminate].
    + destruct (g (c_mem c)); [|discriminate]. intros [= <- <-]. cbn. split; [eauto|discriminate].
    + destruct (c_busy c).
      * destruct (_ || _)%bool; [|discriminate]. intros [= <- <-]. cbn. split; [eauto|discriminate].
      * destruct (zslice _ _ _); [|discriminate]. destruct (Nat.ltb dst n); [|discriminate]. intros [= <- <-]. cbn. split; [eauto|discriminate].
    + destruct (c_reqs c); discriminate.
    + destruct (c_busy c).
      * destruct (a2a_ready k r g); [|discriminate]. destruct (a2a_recv k r g g args (c_mem c)); try discriminate. intros [= <- <-]. cbn. split; [eauto|discriminate].
      * destruct (_ && _)%bool; [|discriminate]. destruct (a2a_payloads _ _); [|discriminate]. intros [= <- <-]. cbn. split; [eauto|discriminate].
  - destruct (mget (ch k) p q); [discriminate|]. destruct (mark_first p (c_reqs c)) as [[q' rs]|]; [|discriminate].
    destruct (rq_len q' <? zlen m); [discriminate|]. destruct (wrm _ _ _); [|discriminate]. intros [= <- <-]. cbn. split; auto.
  - destruct (c_prog c) as [|[id' src loc len|g|dst len|h|g args] p]; try discriminate.
    destruct (take_done id (c_reqs c)); [|discriminate]. destruct (h id (c_mem c)); [|discriminate]. intros [= <- <-]. cbn. split; [eauto|discriminate].
Qed.

Definition prog_at {C} (s : @gstate C) (r : nat) : list (@instr C) := match nth_error (s_core s) r with Some c => c_prog c | None => [] end.
Lemma left_prog {C} (s : @gstate C) r : left_of s r = length (prog_at s r).
Proof. unfold left_of, prog_at. destruct (nth_error (s_core s) r); reflexivity. Qed.

Lemma lupd_same {C} (l : list C) i v x : nth_error l i = Some x -> nth_error (lupd l i v) i = Some v.
Proof. revert i; induction l as [|h l IH]; intros [|i]; cbn; try discriminate; auto. Qed.
Lemma lupd_else {C} (l : list C) i j v : j <> i -> nth_error (lupd l i v) j = nth_error l j.
Proof. revert i j; induction l as [|h l IH]; intros [|i] [|j] H; cbn; auto; lia. Qed.
Lemma lupd_len {C} (l : list C) i v : length (lupd l i v) = length l.
Proof. revert i; induction l as [|h l IH]; intros [|i]; cbn; auto. Qed.

Lemma step_prog {C} n e a (s s' : @gstate C) : step n e a s = Ok s' ->
  length (s_core s') = length (s_core s) /\ (owner a < length (s_core s))%nat /\
  (forall r, r <> owner a -> prog_at s' r = prog_at s r) /\
  (prog_at s' (owner a) = prog_at s (owner a) \/ exists i, prog_at s (owner a) = i :: prog_at s' (owner a)) /\
  (match a with Ldeliver _ _ => prog_at s' (owner a) = prog_at s (owner a) | _ => prog_at s (owner a) <> [] end).
Proof.
  unfold step, prog_at. destruct (nth_error (s_core s) (owner a)) as [c|] eqn:Ec; [|discriminate].
  destruct (lstep n e a c (s_ch s)) as [| |[c' f]] eqn:E; try discriminate. intros [= <-]. cbn [s_core].
  rewrite lupd_len. split; [reflexivity|]. split; [apply nth_error_Some; congruence|].
  split; [intros r Hr; rewrite lupd_else by exact Hr; reflexivity|].
  rewrite (lupd_same _ _ _ _ Ec). exact (lstep_prog n e a c _ c' f E).
Qed.

Lemma start_prog {C} n (code : nat -> list (@instr C)) M r : (r < n)%nat -> prog_at (start n code M) r = code r.
Proof.
  intros Hr. rewrite start_quiet. unfold prog_at, quiet, st, tab. cbn [s_core]. rewrite nth_error_map, (nth_error_nth' _ 0%nat), seq_nth by (rewrite ?seq_length; exact Hr).
  reflexivity.
Qed.
Lemma start_len {C} n (code : nat -> list (@instr C)) M : length (s_core (start n code M)) = n.
Proof. rewrite start_quiet. unfold quiet, st, tab. cbn [s_core]. rewrite map_length, seq_length. reflexivity. Qed.

(** number of calls of one side in an order *)
Definition calls (sd : side) (l : list side) : nat := length (filter (fun s => Bool.eqb (is_own s) (is_own sd)) l).
(** calls that return at once, whatever the other ranks do: posting a receive, computing, MPI_Send of a message the system buffers *)
Definition prompt {C} (i : @instr C) : Prop := match i with IIrecv _ _ _ _ | ILocal _ | ISend _ _ => True | _ => False end.

Section Joint2.
Context {A B : Type}.
Variables (n : nat) (elib eown : nat -> nat -> bool).
Notation jt := (@joint A B).

Lemma pass_nop a k (ts : list (list side)) : pass a k k ts = ts.
Proof. unfold pass. rewrite Nat.ltb_irrefl. reflexivity. Qed.

Lemma turn_head sd a ts : my_turn sd a ts = true -> (exists p q, a = Ldeliver p q) \/ exists t, nth_error ts (owner a) = Some (sd :: t).
Proof.
  destruct a as [r|p q|r id]; cbn [my_turn]; eauto; right; destruct (nth_error ts (owner _)) as [[|s0 t]|]; try discriminate;
    destruct s0, sd; try discriminate; eauto.
Qed.

(** what a step of one side does to the program of that side and to the order of calls *)
Definition moved {C} (sd : side) (a : label) (s s' : @gstate C) (ts ts' : list (list side)) : Prop :=
  (ts' = ts /\ forall r, prog_at s' r = prog_at s r) \/
  (exists i t, nth_error ts (owner a) = Some (sd :: t) /\ ts' = lupd ts (owner a) t /\ prog_at s (owner a) = i :: prog_at s' (owner a) /\
     forall r, r <> owner a -> prog_at s' r = prog_at s r).
Lemma step_moved {C} e sd a (s s' : @gstate C) ts : my_turn sd a ts = true -> step n e a s = Ok s' ->
  moved sd a s s' ts (pass a (left_of s (owner a)) (left_of s' (owner a)) ts).
Proof.
  intros Ht Hs. destruct (step_prog _ _ _ _ _ Hs) as (_ & _ & H1 & H2 & H3). rewrite !left_prog.
  destruct H2 as [H2|(i & H2)].
  - left. rewrite H2, pass_nop. split; [reflexivity|]. intros r. destruct (Nat.eq_dec r (owner a)) as [-> |Hr]; auto.
  - destruct (turn_head _ _ _ Ht) as [(p & q & ->)|(t & Et)].
    + exfalso. rewrite H3 in H2. apply (f_equal (@length _)) in H2. cbn in H2. lia.
    + right. exists i, t. split; [exact Et|]. split; [|split; [exact H2|exact H1]].
      unfold pass. rewrite H2. cbn [length]. rewrite (proj2 (Nat.ltb_lt _ _)) by lia.
      rewrite (nth_error_nth _ _ _ Et). reflexivity.
Qed.

Definition fits (j : jt) : Prop := length (j_turn j) = n /\ length (s_core (j_lib j)) = n /\
  forall r t, nth_error (j_turn j) r = Some t -> calls Lib t = length (prog_at (j_lib j) r).

Lemma fits_step x (j j' : jt) : fits j -> jstep n elib eown x j = Ok j' -> fits j'.
Proof.
  destruct x as [sd a]. intros (F1 & F2 & F3) Hs. unfold jstep in Hs. destruct (my_turn sd a (j_turn j)) eqn:Ht; [|discriminate].
  destruct sd.
  - destruct (step n elib a (j_lib j)) as [| |s] eqn:E; try discriminate. injection Hs as <-.
    pose proof (step_prog _ _ _ _ _ E) as (L1 & _). unfold fits. cbn [j_lib j_own j_turn].
    destruct (step_moved _ _ _ _ _ _ Ht E) as [(-> & H)|(i & t & Et & -> & Hp & H)].
    + split; [exact F1|]. split; [lia|]. intros r t Hr. rewrite H. exact (F3 r t Hr).
    + rewrite lupd_len. split; [exact F1|]. split; [lia|]. intros r t' Hr. destruct (Nat.eq_dec r (owner a)) as [-> |Hn].
      * rewrite (lupd_same _ _ _ _ Et) in Hr. injection Hr as <-. specialize (F3 _ _ Et). rewrite Hp in F3. unfold calls in *. cbn in *. lia.
      * rewrite lupd_else in Hr by exact Hn. rewrite H by exact Hn. exact (F3 r t' Hr).
  - destruct (step n eown a (j_own j)) as [| |s] eqn:E; try discriminate. injection Hs as <-. unfold fits. cbn [j_lib j_own j_turn].
    destruct (step_moved _ _ _ _ _ _ Ht E) as [(-> & H)|(i & t & Et & -> & Hp & H)]; [repeat (split; [assumption|]); exact F3|].
    rewrite lupd_len. split; [exact F1|]. split; [exact F2|]. intros r t' Hr. destruct (Nat.eq_dec r (owner a)) as [-> |Hn].
    + rewrite (lupd_same _ _ _ _ Et) in Hr. injection Hr as <-. exact (F3 _ _ Et).
    + rewrite lupd_else in Hr by exact Hn. exact (F3 r t' Hr).
Qed.
Lemma fits_run (j j' : jt) l : fits j -> jrun n elib eown j l j' -> fits j'.
Proof. intros Hf H. induction H as [|j x j1 l j2 Hs _ IH]; auto. apply IH. eapply fits_step; eassumption. Qed.

(** the library can go on, unless the rank that is to move is at a call of its own *)
Lemma lib_moves (j : jt) a s : fits j -> step n elib a (j_lib j) = Ok s ->
  (exists j', jstep n elib eown (Lib, a) j = Ok j') \/
  exists r t, (r < n)%nat /\ nth_error (j_turn j) r = Some (Own :: t) /\ prog_at (j_lib j) r <> [].
Proof.
  intros (F1 & F2 & F3) Hs. destruct (my_turn Lib a (j_turn j)) eqn:Ht.
  - left. unfold jstep. rewrite Ht, Hs. eauto.
  - right. destruct (step_prog _ _ _ _ _ Hs) as (_ & L2 & _ & _ & H).
    assert (Hn : prog_at (j_lib j) (owner a) <> []) by (destruct a; [exact H|discriminate|exact H]).
    destruct (nth_error (j_turn j) (owner a)) as [t|] eqn:Et; [|apply nth_error_None in Et; lia].
    pose proof (F3 _ _ Et) as K. destruct t as [|[] t].
    + destruct (prog_at (j_lib j) (owner a)); [congruence|discriminate K].
    + exfalso. destruct a; cbn [my_turn] in Ht; [rewrite Et in Ht; discriminate|discriminate|rewrite Et in Ht; discriminate].
    + exists (owner a), t. split; [lia|]. split; [exact Et|exact Hn].
Qed.
End Joint2.

Theorem traffic_apart {A B} n (code : nat -> list (@instr A)) M0 M' (own : @gstate B) turns :
  exec_to n code M0 M' -> length turns = n -> (forall r t, nth_error turns r = Some t -> calls Lib t = length (code r)) ->
  exists L, forall elib eown ls j, jrun n elib eown (mkjoint (start n code M0) own turns) ls j ->
    (forall a, step n elib a (j_lib j) <> Bad) /\
    (((length (of_side Lib ls) < L)%nat /\
       ((exists a j', jstep n elib eown (Lib, a) j = Ok j') \/ exists r t, (r < n)%nat /\ nth_error (j_turn j) r = Some (Own :: t))) \/
     (length (of_side Lib ls) = L /\ finished n M' (j_lib j))).
Proof.
  intros (L & HL) Ht Hc. exists L. intros elib eown ls j Hr.
  destruct (jrun_project _ _ _ _ _ _ Hr) as (R1 & _). cbn [j_lib] in R1. destruct (HL _ _ _ R1) as (HB & HD). split; [exact HB|].
  destruct HD as [(H1 & a & s & Hs)|HD]; [left|right; exact HD]. split; [exact H1|].
  assert (Hf : fits n j).
  { eapply fits_run; [|exact Hr]. split; [exact Ht|]. split; [apply start_len|]. cbn [j_lib j_turn]. intros r t E.
    rewrite start_prog; [exact (Hc r t E)|]. rewrite <- Ht. apply nth_error_Some. congruence. }
  destruct (lib_moves n elib eown j a s Hf Hs) as [(j' & K)|(r & t & K1 & K2 & _)]; eauto.
Qed.

(** ** a caller that starts an exchange before the call and completes it afterwards *)
Definition around (pre lib post : nat) : list side := repeat Own pre ++ repeat Lib lib ++ repeat Own post.

Section Overlap.
Context {A B : Type}.
Variables (n : nat) (elib : nat -> nat -> bool).
Let buffered : nat -> nat -> bool := fun _ _ => true.

Definition lined (j : @joint A B) : Prop := length (j_turn j) = n /\ length (s_core (j_lib j)) = n /\ length (s_core (j_own j)) = n /\
  forall r t, nth_error (j_turn j) r = Some t -> exists k p1 p2, t = around (length p1) k (length p2) /\
    prog_at (j_own j) r = p1 ++ p2 /\ Forall prompt p1 /\ length (prog_at (j_lib j) r) = k.

Lemma lined_step x (j j' : @joint A B) : lined j -> jstep n elib buffered x j = Ok j' -> lined j'.
Proof.
  destruct x as [sd a]. intros (F1 & F2 & F2' & F3) Hs. unfold jstep in Hs. destruct (my_turn sd a (j_turn j)) eqn:Ht; [|discriminate].
  destruct sd.
  - destruct (step n elib a (j_lib j)) as [| |s] eqn:E; try discriminate. injection Hs as <-.
    pose proof (step_prog _ _ _ _ _ E) as (L1 & _). unfold lined. cbn [j_lib j_own j_turn].
    destruct (step_moved _ _ _ _ _ _ _ Ht E) as [(-> & H)|(i & t & Et & -> & Hp & H)].
    + split; [exact F1|]. split; [lia|]. split; [exact F2'|]. intros r t Hr. rewrite H. exact (F3 r t Hr).
    + rewrite lupd_len. split; [exact F1|]. split; [lia|]. split; [exact F2'|]. intros r t' Hr. destruct (Nat.eq_dec r (owner a)) as [-> |Hn].
      * rewrite (lupd_same _ _ _ _ Et) in Hr. injection Hr as <-. destruct (F3 _ _ Et) as (k & p1 & p2 & E1 & E2 & E3 & E4).
        rewrite Hp in E4. cbn [length] in E4. subst k. destruct p1 as [|i1 p1]; [|discriminate E1].
        exists (length (prog_at s (owner a))), [], p2. split; [|auto]. unfold around in *. cbn [length repeat app] in E1. injection E1 as ->. reflexivity.
      * rewrite lupd_else in Hr by exact Hn. rewrite H by exact Hn. exact (F3 r t' Hr).
  - destruct (step n buffered a (j_own j)) as [| |s] eqn:E; try discriminate. injection Hs as <-.
    pose proof (step_prog _ _ _ _ _ E) as (L1 & _). unfold lined. cbn [j_lib j_own j_turn].
    destruct (step_moved _ _ _ _ _ _ _ Ht E) as [(-> & H)|(i & t & Et & -> & Hp & H)].
    + split; [exact F1|]. split; [exact F2|]. split; [lia|]. intros r t Hr. rewrite H. exact (F3 r t Hr).
    + rewrite lupd_len. split; [exact F1|]. split; [exact F2|]. split; [lia|]. intros r t' Hr. destruct (Nat.eq_dec r (owner a)) as [-> |Hn].
      * rewrite (lupd_same _ _ _ _ Et) in Hr. injection Hr as <-. destruct (F3 _ _ Et) as (k & p1 & p2 & E1 & E2 & E3 & E4).
        rewrite Hp in E2. destruct p1 as [|i1 p1].
        -- cbn [app] in E2. destruct p2 as [|i2 p2]; [discriminate|]. injection E2 as -> E2. unfold around in E1. cbn [length repeat app] in E1.
           destruct k as [|k]; [|discriminate E1]. cbn [repeat app] in E1. injection E1 as ->.
           exists 0%nat, [], p2. repeat split; auto.
        -- cbn [app] in E2. injection E2 as -> E2. unfold around in E1. cbn [length repeat app] in E1. injection E1 as ->.
           exists k, p1, p2. inversion E3; subst. repeat split; auto.
      * rewrite lupd_else in Hr by exact Hn. rewrite H by exact Hn. exact (F3 r t' Hr).
Qed.
Lemma lined_run (j j' : @joint A B) l : lined j -> jrun n elib buffered j l j' -> lined j'.
Proof. intros Hf H. induction H as [|j x j1 l j2 Hs _ IH]; auto. apply IH. eapply lined_step; eassumption. Qed.

Lemma lined_fits (j : @joint A B) : lined j -> fits n j.
Proof.
  intros (F1 & F2 & _ & F3). split; [exact F1|]. split; [exact F2|]. intros r t Hr. destruct (F3 r t Hr) as (k & p1 & p2 & -> & _ & _ & E).
  rewrite E. unfold calls, around. rewrite !filter_app, !app_length.
  assert (Ho : forall m, length (filter (fun s => Bool.eqb (is_own s) (is_own Lib)) (repeat Own m)) = 0%nat) by (induction m; auto).
  assert (Hl : forall m, length (filter (fun s => Bool.eqb (is_own s) (is_own Lib)) (repeat Lib m)) = m) by (induction m; cbn in *; auto).
  rewrite !Ho, Hl. lia.
Qed.

(** a prompt call does not wait *)
Lemma prompt_goes (s : @gstate B) r i p : (r < length (s_core s))%nat -> prog_at s r = i :: p -> prompt i -> step n buffered (Lrank r) s <> Disabled.
Proof.
  intros Hr Hp Hi. unfold step. cbn [owner]. unfold prog_at in Hp. destruct (nth_error (s_core s) r) as [c|] eqn:Ec; [|apply nth_error_None in Ec; lia].
  cbn [lstep]. rewrite Hp. destruct i as [id src loc len|g|dst len|h|g args]; try destruct Hi.
  - discriminate.
  - destruct (g (c_mem c)); discriminate.
  - destruct (c_busy c); cbn [buffered orb]; [discriminate|]. destruct (zslice _ _ _); [|discriminate]. destruct (Nat.ltb dst n); discriminate.
Qed.
End Overlap.

Theorem traffic_overlap {A B} n (code : nat -> list (@instr A)) M0 M' (pre post : nat -> list (@instr B)) W0 W' :
  exec_to n code M0 M' -> exec_to n (fun r => pre r ++ post r) W0 W' -> (forall r, (r < n)%nat -> Forall prompt (pre r)) ->
  exists L, forall elib ls j,
    let eown := fun _ _ => true in
    jrun n elib eown (mkjoint (start n code M0) (start n (fun r => pre r ++ post r) W0)
      (map (fun r => around (length (pre r)) (length (code r)) (length (post r))) (seq 0 n))) ls j ->
    (forall x, jstep n elib eown x j <> Bad) /\
    (((length ls < L)%nat /\ exists x j', jstep n elib eown x j = Ok j') \/
     (length ls = L /\ finished n M' (j_lib j) /\ finished n W' (j_own j))).
Proof.
  intros (L1 & H1) (L2 & H2) Hp. exists (L1 + L2)%nat. intros elib ls j eown Hr.
  destruct (jrun_project _ _ _ _ _ _ Hr) as (R1 & R2). cbn [j_lib j_own] in R1, R2.
  destruct (H1 _ _ _ R1) as (B1 & D1). destruct (H2 _ _ _ R2) as (B2 & D2).
  assert (HL : lined n j).
  { eapply lined_run; [|exact Hr]. split; [cbn; rewrite map_length, seq_length; reflexivity|]. split; [apply start_len|]. split; [apply start_len|].
    cbn [j_lib j_own j_turn]. intros r t E. rewrite nth_error_map in E. destruct (nth_error (seq 0 n) r) as [r'|] eqn:Er; [|discriminate]. cbn in E. injection E as <-.
    assert (Hrn : (r < n)%nat) by (pose proof (proj1 (nth_error_Some (seq 0 n) r) ltac:(congruence)) as K; rewrite seq_length in K; exact K).
    rewrite (nth_error_nth' _ 0%nat), seq_nth in Er by (rewrite ?seq_length; exact Hrn). injection Er as <-. cbn.
    exists (length (code r)), (pre r), (post r). rewrite !start_prog by exact Hrn. split; [reflexivity|]. split; [reflexivity|]. split; [apply Hp, Hrn|reflexivity]. }
  pose proof (lined_fits n j HL) as HF. pose proof HL as (F1 & F2 & F2' & F3). pose proof (of_side_length ls) as HN.
  split.
  { intros [sd a]. unfold jstep. destruct (my_turn sd a (j_turn j)); [|discriminate]. destruct sd.
    - specialize (B1 a). destruct (step n elib a (j_lib j)); congruence.
    - specialize (B2 a). destruct (step n eown a (j_own j)); congruence. }
  destruct D1 as [(K1 & a & s & Hs)|(K1 & Q1)].
  - left. split; [destruct D2 as [(K2 & _)|(K2 & _)]; lia|].
    destruct (lib_moves n elib eown j a s HF Hs) as [(j' & K)|(r & t & Hrn & Et & Hn)]; [eauto|].
    destruct (F3 _ _ Et) as (k & p1 & p2 & E1 & E2 & E3 & E4).
    assert (G : exists a' s', step n eown a' (j_own j) = Ok s' /\ my_turn Own a' (j_turn j) = true).
    { destruct p1 as [|i p1].
      - cbn [app] in E2. destruct k as [|k]; [|discriminate E1].
        destruct (prog_at (j_lib j) r); [congruence|discriminate E4].
      - cbn [app] in E2. inversion_clear E3 as [|? ? Hi].
        pose proof (prompt_goes n (j_own j) r i _ ltac:(lia) E2 Hi) as G. specialize (B2 (Lrank r)).
        change (step n (fun _ _ => true) (Lrank r) (j_own j)) with (step n eown (Lrank r) (j_own j)) in G.
        destruct (step n eown (Lrank r) (j_own j)) as [| |s'] eqn:Es; try congruence. exists (Lrank r), s'. split; [exact Es|].
        cbn [my_turn owner]. rewrite Et. reflexivity. }
    destruct G as (a' & s' & Es & Ht). exists (Own, a'). unfold jstep. rewrite Ht, Es. eauto.
  - assert (K0 : forall r, prog_at (j_lib j) r = []).
    { intros r. unfold prog_at. destruct (nth_error (s_core (j_lib j)) r) as [c|] eqn:Ec; [|reflexivity]. exact (proj1 (proj1 Q1 c (nth_error_In _ _ Ec))). }
    destruct D2 as [(K2 & a & s & Hs)|(K2 & Q2)]; [left|right; split; [lia|auto]]. split; [lia|].
    assert (Ht : my_turn Own a (j_turn j) = true).
    { destruct (step_prog _ _ _ _ _ Hs) as (_ & L3 & _ & _ & H). destruct (nth_error (j_turn j) (owner a)) as [t|] eqn:Et; [|apply nth_error_None in Et; lia].
      destruct (F3 _ _ Et) as (k & p1 & p2 & E1 & E2 & E3 & E4). rewrite K0 in E4. cbn in E4. subst k.
      assert (Hh : prog_at (j_own j) (owner a) <> [] -> exists t', t = Own :: t').
      { rewrite E2. intros Hne. destruct p1 as [|i1 p1]; [destruct p2 as [|i2 p2]; [exfalso; apply Hne; reflexivity|]|]; rewrite E1; unfold around; cbn; eauto. }
      destruct a as [r|p q|r id]; [|reflexivity|]; destruct (Hh H) as (t' & ->); cbn [my_turn]; rewrite Et; reflexivity. }
    exists (Own, a). unfold jstep. rewrite Ht, Hs. eauto.
Qed.
