(** PropertiesTune.v : the theorems C73 and C74. *)

From Coq Require Import QArith.
From Verif Require Import Base Setup3d Life LifeProofs LifeFft LifeObj Tune TuneProofs TuneTop Proto ProtoProofs TuneFinal TuneReal LifeEx TuneEx TuneStat TuneTime TuneStatEx.
Open Scope Z_scope.

(** ** C73 *)
(** all calls of a tune() that returns: [enough], how many trials fit into tmax by the time of the test run;
    [per_trial], how many rounds each has and whether the details are measured *)
Theorem C73_trials : forall esize plsize rqsize ptsize nprocs xsize dim3 cs o n h f clk root flag niter tmax tflag o' n' b, 0 < esize ->
  reach false esize plsize rqsize ptsize nprocs xsize dim3 cs o n h -> wf_call dim3 (CTune f clk root flag niter tmax tflag) ->
  tune false esize plsize rqsize ptsize nprocs xsize dim3 f clk root flag niter tmax tflag o n (mktst h 0 []) = LOk ((o', n'), b) ->
  let ts := fst (first_times clk root 0) in let tf := snd (first_times clk root 0) in (0 <= ts)%Q -> (0 < tf)%Q ->
  exists k detail, enough tmax ts tf (o_set o) k /\ per_trial tmax ts tf niter tflag (n_per n') detail /\ n_trial n' = number_of_trials k /\
    t_log b = tune_calls dim3 k (n_per n') flag detail (o_set o) (mkset (n_cbest n') (n_ebest n') (n_pbest n')).
Proof.
  intros. destruct (tune_trials esize plsize rqsize ptsize nprocs xsize H dim3 cs o n h f clk root flag niter tmax tflag o' n' b) as (k & detail & A & B & C & D & _); auto. exists k, detail. auto.
Qed.
Print Assumptions C73_trials.
Theorem C73_rounds : forall esize plsize rqsize ptsize nprocs xsize dim3 cs o n h f clk root flag niter tmax tflag o' n' b, 0 < esize ->
  reach false esize plsize rqsize ptsize nprocs xsize dim3 cs o n h -> wf_call dim3 (CTune f clk root flag niter tmax tflag) ->
  tune false esize plsize rqsize ptsize nprocs xsize dim3 f clk root flag niter tmax tflag o n (mktst h 0 []) = LOk ((o', n'), b) ->
  (0 <= fst (first_times clk root 0))%Q -> (0 < snd (first_times clk root 0))%Q ->
  1 <= n_per n' <= Z.max niter 2 /\ (tflag = 0 -> n_per n' <= niter) /\ ((tmax == 0)%Q -> n_per n' = niter).
Proof. intros. apply (tune_rounds esize plsize rqsize ptsize nprocs xsize H dim3 cs o n h f clk root flag niter tmax tflag o' n' b); auto. Qed.
Print Assumptions C73_rounds.
Theorem C73_time : forall esize plsize rqsize ptsize nprocs xsize dim3 cs o n h f clk root flag niter tmax tflag o' n' b w, 0 < esize ->
  reach false esize plsize rqsize ptsize nprocs xsize dim3 cs o n h -> wf_call dim3 (CTune f clk root flag niter tmax tflag) ->
  tune false esize plsize rqsize ptsize nprocs xsize dim3 f clk root flag niter tmax tflag o n (mktst h 0 []) = LOk ((o', n'), b) ->
  let ts := fst (first_times clk root 0) in let tf := snd (first_times clk root 0) in
  (0 <= ts)%Q -> (0 < tf)%Q -> costs dim3 w flag ts tf -> explained w clk (t_log b) ->
  ((tmax == 0)%Q -> (elapsed clk (t_log b) <= ten_runs ts tf niter tflag + ts)%Q) /\
  ((0 < tmax)%Q -> (ts + tf <= tmax)%Q -> (elapsed clk (t_log b) <= tmax + ts)%Q) /\
  ((0 < tmax)%Q -> (tmax < ts + tf)%Q -> (elapsed clk (t_log b) <= ts + tf + ts)%Q).
Proof. intros. apply (tune_time esize plsize rqsize ptsize nprocs xsize H dim3 cs o n h f clk root flag niter tmax tflag o' n' b w); auto. Qed.
Print Assumptions C73_time.
Example C73_example : exists o n h o' n' b clk, reach3 [] o n h /\ wf_call true (call3x clk None 1 5 9 1) /\
  tune3x clk None 1 5 9 1 o n (mktst h 0 []) = LOk ((o', n'), b) /\ n_trial n' = 3 /\ n_per n' = 1 /\
  let ts := fst (first_times clk None 0) in let tf := snd (first_times clk None 0) in
  (0 <= ts)%Q /\ (0 < tf)%Q /\ (ts + tf <= 9)%Q /\ costs true second 1 ts tf /\ explained second clk (t_log b) /\ (elapsed clk (t_log b) == 9)%Q.
Proof. exact time_ex. Qed.
(** the limit is not kept: the final setup is left out of the estimate *)
Theorem C73_limit_refuted : exists o n h o' n' b clk, reach3 [] o n h /\ wf_call true (call3x clk None 1 1 20 0) /\
  tune3x clk None 1 1 20 0 o n (mktst h 0 []) = LOk ((o', n'), b) /\ n_trial n' = 9 /\
  let ts := fst (first_times clk None 0) in let tf := snd (first_times clk None 0) in
  (0 <= ts)%Q /\ (0 < tf)%Q /\ (ts + tf <= 20)%Q /\ costs true second 1 ts tf /\ explained second clk (t_log b) /\ (20 < elapsed clk (t_log b))%Q.
Proof. exact limit_refuted. Qed.
Print Assumptions C73_limit_refuted.
(** more rounds than asked for, and without the details asked for *)
Theorem C73_rounds_refuted : exists o n h o' n' b clk, reach3 [] o n h /\ wf_call true (call3x clk None 1 1 30 1) /\
  tune3x clk None 1 1 30 1 o n (mktst h 0 []) = LOk ((o', n'), b) /\ n_per n' = 2 /\ (exists q, zget (n_t1d n') 0 = Some q /\ (q == 0)%Q) /\ ~ In (TOnly1d 1) (t_log b).
Proof. exact rounds_refuted. Qed.
Print Assumptions C73_rounds_refuted.

(** ** C74 *)
(** [results]: the recorded settings are those of the setup before the trial; the recorded times are the averages over
    the calls made between two readings of the clock, which are those of [C73_trials] with the same [detail] *)
Theorem C74_results : forall esize plsize rqsize ptsize nprocs xsize dim3 cs o n h f clk root flag niter tmax tflag o' n' b, 0 < esize ->
  reach false esize plsize rqsize ptsize nprocs xsize dim3 cs o n h -> wf_call dim3 (CTune f clk root flag niter tmax tflag) ->
  tune false esize plsize rqsize ptsize nprocs xsize dim3 f clk root flag niter tmax tflag o n (mktst h 0 []) = LOk ((o', n'), b) ->
  let ts := fst (first_times clk root 0) in let tf := snd (first_times clk root 0) in (0 <= ts)%Q -> (0 < tf)%Q ->
  exists k detail, per_trial tmax ts tf niter tflag (n_per n') detail /\ n_trial n' = number_of_trials k /\
    t_log b = tune_calls dim3 k (n_per n') flag detail (o_set o) (mkset (n_cbest n') (n_ebest n') (n_pbest n')) /\
    results dim3 clk root flag detail n' (t_log b).
Proof.
  intros. destruct (tune_trials esize plsize rqsize ptsize nprocs xsize H dim3 cs o n h f clk root flag niter tmax tflag o' n' b) as (k & detail & A & B & C & D & E); auto. exists k, detail. auto.
Qed.
Print Assumptions C74_results.
Example C74_example : exists o n h o' n' b, reach3 [] o n h /\ wf_call true (call3x (table detailed) None 0 2 0 1) /\
  tune3x (table detailed) None 0 2 0 1 o n (mktst h 0 []) = LOk ((o', n'), b) /\ n_trial n' = 9 /\ n_per n' = 2 /\
  exists q, zget (n_t1d n') 8 = Some q /\ (q == 1 # 4)%Q.
Proof. exact results_ex. Qed.
Theorem C74_besttime_refuted : exists o n h o' n' b t, reach3 [] o n h /\ wf_call true (call3x (table (even 0)) (Some (3, 7)%Q) 1 1 4 0) /\
  tune3x (table (even 0)) (Some (3, 7)%Q) 1 1 4 0 o n (mktst h 0 []) = LOk ((o', n'), b) /\
  n_trial n' = 1 /\ zget (n_tfft n') 0 = Some t /\ (t == 1)%Q /\ (n_besttime n' == 7)%Q.
Proof. exact besttime_refuted. Qed.
Print Assumptions C74_besttime_refuted.
