(** TuneStatEx.v : concrete runs of tune(): its trials, its times, and the runs behind the refuted claims. *)

From Coq Require Import QArith Lqa.
From Verif Require Import Base Spec Count Layout LayoutProofs LayoutFinal Sched Remap RemapInst RemapThms Setup3d Setup3dProofs Setup2d Setup2dProofs Fft3dEx Fft2dEx.
From Verif Require Import Life LifeProofs LifeFft LifeObj Tune TuneProofs TuneNum TuneTop Proto ProtoProofs TuneFinal MemUse TuneReal LifeEx TuneEx TuneStat TuneTime.
Open Scope Z_scope.

Definition tune3x (clk : nat -> Q) root flag niter tmax tflag := tune false 8 24 4 8 2 36 true (fn3 0 0 split3 split3) clk root flag niter tmax tflag.
Definition call3x (clk : nat -> Q) root flag niter tmax tflag : call := CTune (fn3 0 0 split3 split3) clk root flag niter tmax tflag.
Lemma call3x_wf clk root flag niter tmax tflag : wf_call true (call3x clk root flag niter tmax tflag). Proof. exact (shape3_wf _ _ _ _ _ _ _). Qed.

(** a run from a new object, checked by a test of the results and of the log *)
Lemma run3x clk root flag niter tmax tflag (k : fobj -> tobj -> fobj -> tobj -> list tevent -> bool) :
  after (hist3 []) (fun o n h => match tune3x clk root flag niter tmax tflag o n (mktst h 0 []) with LOk ((o', n'), b) => k o n o' n' (t_log b) | _ => false end) false = true ->
  exists o n h o' n' b, reach3 [] o n h /\ tune3x clk root flag niter tmax tflag o n (mktst h 0 []) = LOk ((o', n'), b) /\ k o n o' n' (t_log b) = true.
Proof.
  intros H. destruct (after_true _ _ H) as (o & n & h & E & K). destruct (tune3x clk root flag niter tmax tflag o n (mktst h 0 [])) as [?| |[[o' n'] b]] eqn:E1; [discriminate K|discriminate K|].
  exists o, n, h, o', n', b. split; [apply hist3_reach; [constructor|exact E]|]. split; [exact E1 | exact K].
Qed.

(** every setup and every round takes one second; [even k]: the readings of a run with [k] trials *)
Definition even (k : Z) : list Z := [0; 1; 1; 2] ++ map (fun i => i + 3) (zseq 0 (Z.to_nat (2 * k))) ++ [2 * k + 2; 2 * k + 3].
Definition second (e : tevent) : Q := match e with TSetup _ | TCompute _ => 1%Q | _ => 0%Q end.

Fixpoint check_from (w : tevent -> Q) (clk : nat -> Q) (log : list tevent) (m : nat) : bool :=
  match m with O => true | S m => match interval log m with Some l => Qle_bool (clk (S m) - clk m) (total w l) | None => true end && check_from w clk log m end.
Lemma check_from_ok w clk log m : check_from w clk log m = true -> forall k calls, (k < m)%nat -> interval log k = Some calls -> (clk (S k) - clk k <= total w calls)%Q.
Proof.
  induction m as [|m IH]; intros H k calls K I; [lia|]. cbn [check_from] in H. apply andb_prop in H as [H1 H2]. destruct (Nat.eq_dec k m) as [-> |N]; [|apply IH; auto; lia].
  rewrite I in H1. apply Qle_bool_iff, H1.
Qed.
Lemma check_explained w clk log : check_from w clk log (bars log) = true -> explained w clk log.
Proof.
  intros H k calls I. destruct (Nat.lt_ge_cases k (bars log)) as [L|L]; [exact (check_from_ok _ _ _ _ H k calls L I)|]. unfold interval in I. rewrite (after_none _ _ L) in I. discriminate.
Qed.
Lemma second_costs dim3 ts tf : (1 <= ts)%Q -> (1 <= tf)%Q -> costs dim3 second 1 ts tf.
Proof.
  intros S F. split.
  - split; reflexivity.
  - intros s. exact S.
  - exact F.
  - assert (0 <= tf)%Q as G by lra. exact G.
  - assert (0 <= tf)%Q as G by lra. destruct dim3; exact G.
Qed.

(** ** C73 *)
(** nine trials within the limit by the estimate; with the final setup the limit is passed *)
Lemma limit_refuted : exists o n h o' n' b clk, reach3 [] o n h /\ wf_call true (call3x clk None 1 1 20 0) /\
  tune3x clk None 1 1 20 0 o n (mktst h 0 []) = LOk ((o', n'), b) /\ n_trial n' = 9 /\
  let ts := fst (first_times clk None 0) in let tf := snd (first_times clk None 0) in
  (0 <= ts)%Q /\ (0 < tf)%Q /\ (ts + tf <= 20)%Q /\ costs true second 1 ts tf /\ explained second clk (t_log b) /\ (20 < elapsed clk (t_log b))%Q.
Proof.
  destruct (run3x (table (even 9)) None 1 1 20 0 (fun o n o' n' log => (n_trial n' =? 9) && check_from second (table (even 9)) log (bars log) && qlt 20 (elapsed (table (even 9)) log))) as (o & n & h & o' & n' & b & R & T & K); [vm_compute; reflexivity|].
  apply andb_prop in K as [K K3]. apply andb_prop in K as [K1 K2]. apply Z.eqb_eq in K1.
  exists o, n, h, o', n', b, (table (even 9)). split; [exact R|]. split; [apply call3x_wf|]. split; [exact T|]. split; [exact K1|]. cbv zeta.
  split; [vm_compute; discriminate|]. split; [reflexivity|]. split; [vm_compute; discriminate|]. split.
  - apply second_costs; vm_compute; discriminate.
  - split; [apply check_explained, K2|]. destruct (qlt_spec 20 (elapsed (table (even 9)) (t_log b))); [assumption | discriminate].
Qed.

(** the hypotheses of the time bound, with time for three trials only *)
Lemma time_ex : exists o n h o' n' b clk, reach3 [] o n h /\ wf_call true (call3x clk None 1 5 9 1) /\
  tune3x clk None 1 5 9 1 o n (mktst h 0 []) = LOk ((o', n'), b) /\ n_trial n' = 3 /\ n_per n' = 1 /\
  let ts := fst (first_times clk None 0) in let tf := snd (first_times clk None 0) in
  (0 <= ts)%Q /\ (0 < tf)%Q /\ (ts + tf <= 9)%Q /\ costs true second 1 ts tf /\ explained second clk (t_log b) /\ (elapsed clk (t_log b) == 9)%Q.
Proof.
  destruct (run3x (table (even 3)) None 1 5 9 1 (fun o n o' n' log => (n_trial n' =? 3) && (n_per n' =? 1) && check_from second (table (even 3)) log (bars log) && Qeq_bool (elapsed (table (even 3)) log) 9)) as (o & n & h & o' & n' & b & R & T & K); [vm_compute; reflexivity|].
  apply andb_prop in K as [K K3]. apply andb_prop in K as [K K2]. apply andb_prop in K as [K1 K0]. apply Z.eqb_eq in K1, K0.
  exists o, n, h, o', n', b, (table (even 3)). split; [exact R|]. split; [apply call3x_wf|]. split; [exact T|]. split; [exact K1|]. split; [exact K0|]. cbv zeta.
  split; [vm_compute; discriminate|]. split; [reflexivity|]. split; [vm_compute; discriminate|]. split.
  - apply second_costs; vm_compute; discriminate.
  - split; [apply check_explained, K2|]. apply Qeq_bool_eq, K3.
Qed.

(** one round with details asked for, two rounds without details made *)
Lemma rounds_refuted : exists o n h o' n' b clk, reach3 [] o n h /\ wf_call true (call3x clk None 1 1 30 1) /\
  tune3x clk None 1 1 30 1 o n (mktst h 0 []) = LOk ((o', n'), b) /\ n_per n' = 2 /\ (exists q, zget (n_t1d n') 0 = Some q /\ (q == 0)%Q) /\ ~ In (TOnly1d 1) (t_log b).
Proof.
  destruct (run3x (table (even 9)) None 1 1 30 1 (fun o n o' n' log => (n_per n' =? 2) && match zget (n_t1d n') 0 with Some q => Qeq_bool q 0 | None => false end &&
    forallb (fun e => match e with TOnly1d _ => false | _ => true end) log)) as (o & n & h & o' & n' & b & R & T & K); [vm_compute; reflexivity|].
  apply andb_prop in K as [K K3]. apply andb_prop in K as [K1 K2]. apply Z.eqb_eq in K1.
  exists o, n, h, o', n', b, (table (even 9)). split; [exact R|]. split; [apply call3x_wf|]. split; [exact T|]. split; [exact K1|]. split.
  - destruct (zget (n_t1d n') 0) as [q|]; [|discriminate]. exists q. split; [reflexivity | apply Qeq_bool_eq, K2].
  - intros I. rewrite forallb_forall in K3. specialize (K3 _ I). discriminate.
Qed.

(** ** C74 *)
(** with the details; each kind of call takes its own time *)
Definition detailed : list Z := [0; 1; 1; 2] ++ zseq 3 200.
Lemma results_ex : exists o n h o' n' b, reach3 [] o n h /\ wf_call true (call3x (table detailed) None 0 2 0 1) /\
  tune3x (table detailed) None 0 2 0 1 o n (mktst h 0 []) = LOk ((o', n'), b) /\ n_trial n' = 9 /\ n_per n' = 2 /\
  exists q, zget (n_t1d n') 8 = Some q /\ (q == 1 # 4)%Q.
Proof.
  destruct (run3x (table detailed) None 0 2 0 1 (fun o n o' n' log => (n_trial n' =? 9) && (n_per n' =? 2) && match zget (n_t1d n') 8 with Some q => Qeq_bool q (1 # 4) | None => false end)) as (o & n & h & o' & n' & b & R & T & K); [vm_compute; reflexivity|].
  apply andb_prop in K as [K K3]. apply andb_prop in K as [K1 K2]. apply Z.eqb_eq in K1, K2.
  exists o, n, h, o', n', b. split; [exact R|]. split; [apply call3x_wf|]. split; [exact T|]. split; [exact K1|]. split; [exact K2|].
  destruct (zget (n_t1d n') 8) as [q|]; [|discriminate]. exists q. split; [reflexivity | apply Qeq_bool_eq, K3].
Qed.
(** a rank other than 0 after the test run only: its best time is rank 0's, not the one it recorded *)
Lemma besttime_refuted : exists o n h o' n' b t, reach3 [] o n h /\ wf_call true (call3x (table (even 0)) (Some (3, 7)%Q) 1 1 4 0) /\
  tune3x (table (even 0)) (Some (3, 7)%Q) 1 1 4 0 o n (mktst h 0 []) = LOk ((o', n'), b) /\
  n_trial n' = 1 /\ zget (n_tfft n') 0 = Some t /\ (t == 1)%Q /\ (n_besttime n' == 7)%Q.
Proof.
  destruct (run3x (table (even 0)) (Some (3, 7)%Q) 1 1 4 0 (fun o n o' n' log => (n_trial n' =? 1) && match zget (n_tfft n') 0 with Some q => Qeq_bool q 1 | None => false end && Qeq_bool (n_besttime n') 7)) as (o & n & h & o' & n' & b & R & T & K); [vm_compute; reflexivity|].
  apply andb_prop in K as [K K3]. apply andb_prop in K as [K1 K2]. apply Z.eqb_eq in K1.
  destruct (zget (n_tfft n') 0) as [t|] eqn:Z0; [|discriminate]. exists o, n, h, o', n', b, t. split; [exact R|]. split; [apply call3x_wf|]. split; [exact T|]. split; [exact K1|]. split; [exact Z0|]. split; apply Qeq_bool_eq; assumption.
Qed.
