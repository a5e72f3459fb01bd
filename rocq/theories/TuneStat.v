(** TuneStat.v : what the result vectors of tune() contain, and how long tune() takes.  The proofs are about runs
    that return, so they need nothing about the heap. *)

From Coq Require Import QArith.
From Verif Require Import Base Setup3d Life Tune TuneProofs TuneNum TuneTop.
Open Scope Z_scope.

(** ** specification: clock readings in the sequence of calls *)

(** every clock reading directly follows a barrier, so the k-th reading belongs to the k-th barrier (from 0) *)
Fixpoint after_barrier (k : nat) (log : list tevent) : list tevent :=
  match log with
  | [] => []
  | TBarrier :: t => match k with O => t | S k => after_barrier k t end
  | _ :: t => after_barrier k t
  end.
Fixpoint before_barrier (log : list tevent) : option (list tevent) :=
  match log with
  | [] => None
  | TBarrier :: _ => Some []
  | e :: t => option_map (cons e) (before_barrier t)
  end.
(** the calls between the k-th reading and the next one *)
Definition interval (log : list tevent) (k : nat) : option (list tevent) := before_barrier (after_barrier k log).
(** the settings of the last setup() before the k-th reading *)
Fixpoint setup_before (k : nat) (log : list tevent) (cur : option settings) : option settings :=
  match log with
  | [] => None
  | TBarrier :: t => match k with O => cur | S k => setup_before k t cur end
  | TSetup s :: t => setup_before k t (Some s)
  | _ :: t => setup_before k t cur
  end.

(** [nper] rounds of an operation: forward and backward for flag 0, else the direction of flag *)
Definition rounds (nper flag : Z) (f : Z -> tevent) : list tevent :=
  List.concat (repeat (if flag =? 0 then [f 1; f (-1)] else [f flag]) (Z.to_nat nper)).

(** entry i of the result vectors describes a trial that began at the k-th reading.  [T k calls q]: the time q
    is that of these calls, made between reading k and the next *)
Definition trial_entry (dim3 : bool) (log : list tevent) (T : nat -> list tevent -> Q -> Prop) (nper flag detail : Z) (n : tobj) (i : Z) (k : nat) : Prop :=
  (exists c e p, zget (n_cflags n) i = Some c /\ zget (n_eflags n) i = Some e /\ zget (n_pflags n) i = Some p /\
     setup_before k log None = Some (mkset c e p)) /\
  (exists q, zget (n_tfft n) i = Some q /\ T k (rounds nper flag TCompute) q) /\
  (exists q, zget (n_t1d n) i = Some q /\ if detail =? 0 then (q == 0)%Q else T (k + 1)%nat (rounds nper flag TOnly1d) q) /\
  (exists q, zget (n_tremap n) i = Some q /\ if detail =? 0 then (q == 0)%Q else T (k + 2)%nat (rounds nper flag TOnlyRemaps) q) /\
  (forall j, (j < if dim3 then 4 else 3)%nat -> exists l q, nth_error (n_tremaps n) j = Some l /\ zget l i = Some q /\
     if detail =? 0 then (q == 0)%Q else T (k + 3 + j)%nat (rounds nper flag (fun f => TOneRemap f (Z.of_nat j + 1))) q).

(** the average time of one of the calls made between reading k and the next *)
Definition average (clk : nat -> Q) (log : list tevent) (k : nat) (calls : list tevent) (q : Q) : Prop :=
  interval log k = Some calls /\ calls <> [] /\ (q == (clk (S k) - clk k) / inject_Z (zlen calls))%Q.

(** ** proofs *)
Fixpoint bars (log : list tevent) : nat :=
  match log with [] => O | TBarrier :: t => S (bars t) | _ :: t => bars t end.
Lemma bars_app a b : bars (a ++ b) = (bars a + bars b)%nat.
Proof. induction a as [|e a IH]; [reflexivity|]. cbn [app]. destruct e; cbn [bars]; rewrite IH; reflexivity. Qed.

Lemma after_app a k t : bars a = k -> after_barrier k (a ++ TBarrier :: t) = t.
Proof.
  revert k. induction a as [|e a IH]; intros k H; cbn [app].
  - cbn in H. subst k. reflexivity.
  - destruct e; cbn [after_barrier bars] in *; try (apply IH; exact H). destruct k; [discriminate|]. apply IH. congruence.
Qed.
Lemma before_app l t : bars l = O -> before_barrier (l ++ TBarrier :: t) = Some l.
Proof.
  induction l as [|e l IH]; [reflexivity|]. intros H. cbn [app]. destruct e; cbn [bars] in H; try discriminate; cbn [before_barrier]; rewrite (IH H); reflexivity.
Qed.
Lemma interval_here a k l t : bars a = k -> bars l = O -> interval (a ++ TBarrier :: l ++ TBarrier :: t) k = Some l.
Proof. intros A L. unfold interval. rewrite (after_app _ _ _ A). apply before_app, L. Qed.

Lemma before_more l t x : before_barrier l = Some x -> before_barrier (l ++ t) = Some x.
Proof.
  revert x. induction l as [|e l IH]; intros x H; [discriminate|]. cbn [app]. destruct e; cbn [before_barrier] in *; try exact H;
  (destruct (before_barrier l) as [y|]; [|discriminate]; rewrite (IH y eq_refl); exact H).
Qed.
Lemma after_more k l t : (k < bars l)%nat -> after_barrier k (l ++ t) = after_barrier k l ++ t.
Proof.
  revert k. induction l as [|e l IH]; intros k H; [cbn in H; lia|]. cbn [app]. destruct e; cbn [after_barrier bars] in *; try (apply IH; exact H).
  destruct k; [reflexivity|]. apply IH. lia.
Qed.
Lemma after_none k l : (bars l <= k)%nat -> after_barrier k l = [].
Proof.
  revert k. induction l as [|e l IH]; intros k H; [reflexivity|]. destruct e; cbn [after_barrier bars] in *; try (apply IH; exact H).
  destruct k; [lia|]. apply IH. lia.
Qed.
Lemma interval_more l t k x : interval l k = Some x -> interval (l ++ t) k = Some x.
Proof.
  unfold interval. intros H. destruct (Nat.lt_ge_cases k (bars l)) as [B|B].
  - rewrite (after_more _ _ _ B). apply before_more, H.
  - rewrite (after_none _ _ B) in H. discriminate.
Qed.
Lemma setup_more l t k c s : setup_before k l c = Some s -> setup_before k (l ++ t) c = Some s.
Proof.
  revert k c. induction l as [|e l IH]; intros k c H; [discriminate|]. cbn [app]. destruct e; cbn [setup_before] in *; try (apply IH; exact H).
  destruct k; [exact H | apply IH, H].
Qed.
(** the last setup of a piece of the log is followed by the barrier of reading k *)
Lemma setup_here a s k t c : bars a = k -> setup_before k (a ++ TSetup s :: TBarrier :: t) c = Some s.
Proof.
  revert k c. induction a as [|e a IH]; intros k c H; cbn [app].
  - cbn in H. subst k. reflexivity.
  - destruct e; cbn [setup_before bars] in *; try (apply IH; exact H). destruct k; [discriminate|]. apply IH. congruence.
Qed.
Lemma setup_here2 a s k t c : S (bars a) = k -> setup_before k (a ++ TSetup s :: TBarrier :: TBarrier :: t) c = Some s.
Proof.
  intros <-. change (TSetup s :: TBarrier :: TBarrier :: t) with ([TSetup s; TBarrier] ++ TBarrier :: t). rewrite app_assoc.
  revert c. induction a as [|e a IH]; intros c; cbn [app setup_before bars].
  - reflexivity.
  - destruct e; cbn [setup_before bars]; apply IH.
Qed.

Lemma rounds_bars nper flag f : (forall g, f g <> TBarrier) -> bars (rounds nper flag f) = O.
Proof.
  intros H. assert (forall g l, bars (f g :: l) = bars l) as C.
  { intros g l. specialize (H g). destruct (f g); [congruence|reflexivity..]. }
  unfold rounds. induction (Z.to_nat nper) as [|k IH]; [reflexivity|]. cbn [repeat List.concat]. rewrite bars_app, IH.
  destruct (flag =? 0); rewrite !C; reflexivity.
Qed.
Lemma rounds_len nper flag f : 0 <= nper -> zlen (rounds nper flag f) = nper * (if flag =? 0 then 2 else 1).
Proof.
  intros H. unfold rounds. rewrite <- (Z2Nat.id nper H) at 2. induction (Z.to_nat nper) as [|k IH]; [reflexivity|].
  cbn [repeat List.concat]. rewrite zlen_app, IH, Nat2Z.inj_succ. destruct (flag =? 0); cbn [zlen List.length Z.of_nat]; lia.
Qed.

(** what a computation adds to the log, without reading the clock *)
Definition wrote (s b : tst) (l : list tevent) : Prop := t_tick b = t_tick s /\ t_log b = t_log s ++ l.
Lemma wrote_trans a b c l m : wrote a b l -> wrote b c m -> wrote a c (l ++ m).
Proof. intros (A & B) (A' & B'). split; [congruence|]. rewrite B', B, app_assoc. reflexivity. Qed.
Lemma wrote_nil s : wrote s s [].
Proof. split; [reflexivity|]. rewrite app_nil_r. reflexivity. Qed.

Local Notation pc m s Q := (twp m s (fun _ => True) True Q).

Lemma pc_lift {X} (m : LM X) s : pc (tlift m) s (fun _ b => wrote s b []).
Proof. unfold twp, tlift. destruct (m (t_heap s)) as [e| |[x h]]; auto. split; [reflexivity|]. cbn. rewrite app_nil_r. reflexivity. Qed.
Lemma pc_log e s : pc (tlog e) s (fun _ b => wrote s b [e]).
Proof. unfold twp, tlog. split; reflexivity. Qed.
Lemma pc_topt {X} (o : option X) s : pc (topt o) s (fun x b => o = Some x /\ b = s).
Proof. unfold twp, topt. destruct o; cbn; auto. Qed.

Section Stat.
Variable strict : bool.
Variable esize plsize rqsize ptsize nprocs xsize : Z.
Variable dim3 : bool.
Variable setup_fn : settings -> sres shape.
Variable clk : nat -> Q.

Lemma pc_call e (o : fobj) (data : ptr) (m : LM unit) s : pc (tbind (tlog e) (fun _ => with_data esize o data m)) s (fun _ b => wrote s b [e]).
Proof using Type.
  eapply twp_bind; [apply pc_log|]. intros ? b W. eapply twp_mono; [apply pc_lift|]. intros ? c W2. exact (wrote_trans _ _ _ _ _ W W2).
Qed.

Lemma pc_times (m : TM unit) l : (forall s, pc m s (fun _ b => wrote s b l)) -> forall k s, pc (times_ k m) s (fun _ b => wrote s b (List.concat (repeat l k))).
Proof using Type.
  intros H k. induction k as [|k IH]; intros s; cbn [times_ repeat List.concat].
  - apply twp_ret, wrote_nil.
  - eapply twp_bind; [apply H|]. intros ? b W. eapply twp_mono; [apply IH|]. intros ? c W2. exact (wrote_trans _ _ _ _ _ W W2).
Qed.
Lemma pc_both nper flag (f : Z -> TM unit) ev : (forall g s, pc (f g) s (fun _ b => wrote s b [ev g])) ->
  forall s, pc (both nper flag f) s (fun _ b => wrote s b (rounds nper flag ev)).
Proof using Type.
  intros H s. unfold both, rounds. destruct (flag =? 0); apply pc_times; [|intros; apply H].
  intros a. eapply twp_bind; [apply H|]. intros ? b W. eapply twp_mono; [apply H|]. intros ? c W2. exact (wrote_trans _ _ _ _ _ W W2).
Qed.

(** reading the clock *)
Lemma pc_wtime s : pc (wtime clk) s (fun t b => t = clk (t_tick s) /\ t_tick b = S (t_tick s) /\ t_log b = t_log s ++ [TBarrier]).
Proof using Type. unfold twp, wtime. auto. Qed.

(** a trial beginning at reading k *)
Definition wevents (nper flag : Z) (ws : list Z) : list tevent := List.concat (map (fun w => rounds nper flag (fun f => TOneRemap f w) ++ [TBarrier]) ws).
Definition tevents (nper flag detail : Z) : list tevent :=
  TBarrier :: rounds nper flag TCompute ++ [TBarrier] ++
  (if detail =? 0 then [] else rounds nper flag TOnly1d ++ [TBarrier] ++ rounds nper flag TOnlyRemaps ++ [TBarrier] ++ wevents nper flag (whichs dim3)).
Definition ttimes (k : nat) (detail : Z) : tres :=
  ((clk (S k) - clk k)%Q,
   if detail =? 0 then 0%Q else (clk (k + 2)%nat - clk (k + 1)%nat)%Q,
   if detail =? 0 then 0%Q else (clk (k + 3)%nat - clk (k + 2)%nat)%Q,
   map (fun j => if detail =? 0 then 0%Q else (clk (k + 4 + j)%nat - clk (k + 3 + j)%nat)%Q) (seq 0 (List.length (whichs dim3)))).

Lemma pc_remaps o data nper flag ws : forall k s, t_tick s = S k ->
  pc (time_remaps esize clk o data nper flag ws (clk k)) s (fun r b => r = map (fun j => (clk (S k + j)%nat - clk (k + j)%nat)%Q) (seq 0 (List.length ws)) /\
    t_tick b = (S k + List.length ws)%nat /\ t_log b = t_log s ++ wevents nper flag ws).
Proof using Type.
  induction ws as [|w ws IH]; intros k s K; cbn [time_remaps].
  - apply twp_ret. split; [reflexivity|]. split; [cbn; lia|]. cbn. rewrite app_nil_r. reflexivity.
  - eapply twp_bind; [apply (pc_both nper flag _ (fun f => TOneRemap f w)); intros; apply pc_call|]. intros ? b (W1 & W2).
    eapply twp_bind; [apply pc_wtime|]. intros t c (-> & C1 & C2). rewrite W1, K in *.
    eapply twp_bind; [apply (IH (S k) c); lia|]. intros r d (-> & D1 & D2). apply twp_ret. split; [|split].
    + cbn [List.length seq map]. f_equal.
      { rewrite !Nat.add_0_r. reflexivity. }
      rewrite <- seq_shift, map_map. apply map_ext. intros j. replace (S k + S j)%nat with (S (S k) + j)%nat by lia. replace (k + S j)%nat with (S k + j)%nat by lia. reflexivity.
    + rewrite D1. cbn [List.length]. lia.
    + rewrite D2, C2, W2. unfold wevents. cbn [map List.concat]. rewrite <- !app_assoc. reflexivity.
Qed.

Lemma pc_trial o data nper flag detail s :
  pc (tune_trial esize dim3 clk o data nper flag detail) s (fun r b => r = ttimes (t_tick s) detail /\
    t_tick b = (t_tick s + (if (detail =? 0)%Z then 2 else 4 + List.length (whichs dim3)))%nat /\ t_log b = t_log s ++ tevents nper flag detail).
Proof using Type.
  unfold tune_trial. eapply twp_bind; [apply pc_wtime|]. intros t1 s1 (-> & K1 & L1).
  eapply twp_bind; [apply (pc_both nper flag _ TCompute); intros; apply pc_call|]. intros ? s2 (K2 & L2).
  eapply twp_bind; [apply pc_wtime|]. intros t2 s3 (-> & K3 & L3). cbv zeta.
  assert (t_tick s2 = S (t_tick s)) as E2 by congruence. assert (t_tick s3 = S (S (t_tick s))) as E3 by congruence. rewrite E2.
  unfold ttimes, tevents. destruct (detail =? 0).
  - apply twp_ret. split; [|split; [rewrite E3; lia|]].
    + do 2 f_equal. generalize 0%nat at 1. generalize (whichs dim3) as ws. induction ws as [|w ws IH]; intros a; [reflexivity|]. cbn [map List.length seq]. f_equal. apply IH.
    + rewrite L3, L2, L1, <- !app_assoc. reflexivity.
  - eapply twp_bind; [apply (pc_both nper flag _ TOnly1d); intros; apply pc_call|]. intros ? s4 (K4 & L4).
    eapply twp_bind; [apply pc_wtime|]. intros t3 s5 (-> & K5 & L5). rewrite K4, E3 in *.
    eapply twp_bind; [apply (pc_both nper flag _ TOnlyRemaps); intros; apply pc_call|]. intros ? s6 (K6 & L6).
    eapply twp_bind; [apply pc_wtime|]. intros t4 s7 (-> & K7 & L7). rewrite K6, K5 in *.
    eapply twp_bind; [apply (pc_remaps o data nper flag (whichs dim3) (S (S (S (t_tick s)))) s7); exact K7|]. intros r s8 (-> & K8 & L8).
    apply twp_ret. split; [|split].
    + rewrite (Nat.add_comm (t_tick s) 1), (Nat.add_comm (t_tick s) 2), (Nat.add_comm (t_tick s) 3), (Nat.add_comm (t_tick s) 4). reflexivity.
    + rewrite K8. lia.
    + rewrite L8, L7, L6, L5, L4, L3, L2, L1. repeat (rewrite <- ?app_assoc; cbn [app]). reflexivity.
Qed.

Lemma bars_wevents nper flag ws : bars (wevents nper flag ws) = List.length ws.
Proof using Type.
  unfold wevents. induction ws as [|w ws IH]; [reflexivity|]. cbn [map List.concat]. rewrite !bars_app, IH, rounds_bars by discriminate. reflexivity.
Qed.
Lemma bars_tevents nper flag detail : bars (tevents nper flag detail) = (if (detail =? 0)%Z then 2 else 4 + List.length (whichs dim3))%nat.
Proof using Type.
  unfold tevents. cbn [bars app]. rewrite bars_app, rounds_bars by discriminate. cbn [bars]. destruct (detail =? 0); [reflexivity|].
  rewrite bars_app, rounds_bars by discriminate. cbn [bars app]. rewrite bars_app, rounds_bars by discriminate. cbn [bars]. rewrite bars_wevents. reflexivity.
Qed.

(** *** the entries of the result vectors *)
Definition raw (log : list tevent) (k : nat) (calls : list tevent) (q : Q) : Prop := interval log k = Some calls /\ (q == clk (S k) - clk k)%Q.
Definition rentry (log : list tevent) (nper flag detail : Z) (n : tobj) (i : Z) (k : nat) : Prop := trial_entry dim3 log (raw log) nper flag detail n i k.

Lemma entry_map log log' (T T' : nat -> list tevent -> Q -> Prop) nper flag detail n i k :
  (forall s, setup_before k log None = Some s -> setup_before k log' None = Some s) -> (forall a l q, T a l q -> T' a l q) ->
  trial_entry dim3 log T nper flag detail n i k -> trial_entry dim3 log' T' nper flag detail n i k.
Proof using Type.
  intros HS HT ((c & e & p & C & E & P & S) & (q & Q1 & Q2) & (u & U1 & U2) & (v & V1 & V2) & W).
  split; [exists c, e, p; auto 6|]. split; [exists q; auto|]. split; [exists u; split; [exact U1 | destruct (detail =? 0); auto]|].
  split; [exists v; split; [exact V1 | destruct (detail =? 0); auto]|].
  intros j J. destruct (W j J) as (l & x & A & B & X). exists l, x. split; [exact A|]. split; [exact B|]. destruct (detail =? 0); auto.
Qed.
Lemma entry_more log l nper flag detail n i k : rentry log nper flag detail n i k -> rentry (log ++ l) nper flag detail n i k.
Proof using Type.
  apply entry_map; [intros s; apply setup_more|]. intros a c q (A & B). split; [apply interval_more, A | exact B].
Qed.

Lemma set_all_nth ls i vs ls' : set_all ls i vs = Some ls' -> forall j l, nth_error ls j = Some l ->
  exists v l', nth_error vs j = Some v /\ nth_error ls' j = Some l' /\ forall x, zget l' x = if x =? i then Some v else zget l x.
Proof using Type.
  revert vs ls'. induction ls as [|a ls IH]; intros vs ls' H j l J; [destruct j; discriminate|].
  cbn [set_all] in H. destruct vs as [|v vs]; [discriminate|]. destruct (zset a i v) as [a'|] eqn:E; [|discriminate]. cbn [bind] in H.
  destruct (set_all ls i vs) as [t|] eqn:E2; [|discriminate]. cbn [bind] in H. injection H as <-. destruct j as [|j]; cbn [nth_error] in *.
  - injection J as <-. exists v, a'. split; [reflexivity|]. split; [reflexivity|]. intros x. apply (zset_get _ _ _ _ _ E).
  - exact (IH vs t E2 j l J).
Qed.

(** how the recording of a trial changes the vectors *)
Definition recorded (s : settings) (r : tres) (m : Z) (n n' : tobj) : Prop :=
  (forall x, zget (n_cflags n') x = if x =? m then Some (st_coll s) else zget (n_cflags n) x) /\
  (forall x, zget (n_eflags n') x = if x =? m then Some (st_exch s) else zget (n_eflags n) x) /\
  (forall x, zget (n_pflags n') x = if x =? m then Some (st_pack s) else zget (n_pflags n) x) /\
  (forall x, zget (n_tfft n') x = if x =? m then Some (fst (fst (fst r))) else zget (n_tfft n) x) /\
  (forall x, zget (n_t1d n') x = if x =? m then Some (snd (fst (fst r))) else zget (n_t1d n) x) /\
  (forall x, zget (n_tremap n') x = if x =? m then Some (snd (fst r)) else zget (n_tremap n) x) /\
  set_all (n_tremaps n) m (snd r) = Some (n_tremaps n').
(** the choice made so far, and the number of trials, are not changed *)
Definition same_best (n n' : tobj) : Prop :=
  n_trial n' = n_trial n /\ n_besttime n' = n_besttime n /\ n_cbest n' = n_cbest n /\ n_ebest n' = n_ebest n /\ n_pbest n' = n_pbest n.
Lemma num_trial_fields s r n n' : num_trial s r n = Some n' -> recorded s r (n_trial n) n n' /\ same_best n n'.
Proof using Type.
  intros H. set (m := n_trial n). unfold num_trial, record_flags, record_times in H. destruct r as [[[t3 t1] tr] trs]. fold m in H.
  destruct (zset (n_cflags n) m (st_coll s)) as [a|] eqn:A; [|discriminate]. destruct (zset (n_eflags n) m (st_exch s)) as [b|] eqn:B; [|discriminate].
  destruct (zset (n_pflags n) m (st_pack s)) as [c|] eqn:C; [|discriminate]. cbn [bind n_trial n_tfft n_t1d n_tremap n_tremaps] in H. fold m in H.
  destruct (zset (n_tfft n) m t3) as [d|] eqn:D; [|discriminate]. destruct (zset (n_t1d n) m t1) as [e|] eqn:E; [|discriminate]. destruct (zset (n_tremap n) m tr) as [f|] eqn:F; [|discriminate].
  cbn [bind] in H. destruct (set_all (n_tremaps n) m trs) as [g|] eqn:G; [|discriminate]. cbn [bind] in H. injection H as <-.
  split; [|repeat (split; [reflexivity|]); reflexivity]. unfold recorded. cbn [n_cflags n_eflags n_pflags n_tfft n_t1d n_tremap n_tremaps n_trial fst snd].
  split; [intros x; apply (zset_get _ _ _ _ _ A)|]. split; [intros x; apply (zset_get _ _ _ _ _ B)|]. split; [intros x; apply (zset_get _ _ _ _ _ C)|].
  split; [intros x; apply (zset_get _ _ _ _ _ D)|]. split; [intros x; apply (zset_get _ _ _ _ _ E)|]. split; [intros x; apply (zset_get _ _ _ _ _ F)|].
  exact G.
Qed.
Lemma first_fields s r n n1 n2 : record_times 0 r n = Some n1 -> record_flags 0 s n1 = Some n2 -> recorded s r 0 n n2 /\ same_best n n2 /\ zget (n_tfft n1) 0 = Some (fst (fst (fst r))).
Proof using Type.
  intros H1 H2. unfold record_times in H1. destruct r as [[[t3 t1] tr] trs].
  destruct (zset (n_tfft n) 0 t3) as [d|] eqn:D; [|discriminate]. destruct (zset (n_t1d n) 0 t1) as [e|] eqn:E; [|discriminate]. destruct (zset (n_tremap n) 0 tr) as [f|] eqn:F; [|discriminate].
  cbn [bind] in H1. destruct (set_all (n_tremaps n) 0 trs) as [g|] eqn:G; [|discriminate]. cbn [bind] in H1. injection H1 as <-.
  unfold record_flags in H2. cbn [n_cflags n_eflags n_pflags] in H2.
  destruct (zset (n_cflags n) 0 (st_coll s)) as [a|] eqn:A; [|discriminate]. destruct (zset (n_eflags n) 0 (st_exch s)) as [b|] eqn:B; [|discriminate].
  destruct (zset (n_pflags n) 0 (st_pack s)) as [c|] eqn:C; [|discriminate]. cbn [bind] in H2. injection H2 as <-.
  split; [|split; [repeat (split; [reflexivity|]); reflexivity|]].
  - unfold recorded. cbn [n_cflags n_eflags n_pflags n_tfft n_t1d n_tremap n_tremaps n_trial fst snd].
    split; [intros x; apply (zset_get _ _ _ _ _ A)|]. split; [intros x; apply (zset_get _ _ _ _ _ B)|]. split; [intros x; apply (zset_get _ _ _ _ _ C)|].
    split; [intros x; apply (zset_get _ _ _ _ _ D)|]. split; [intros x; apply (zset_get _ _ _ _ _ E)|]. split; [intros x; apply (zset_get _ _ _ _ _ F)|].
    exact G.
  - cbn [n_tfft fst]. rewrite (zset_get _ _ _ _ _ D). reflexivity.
Qed.
Lemma set_all_len ls i vs ls' : set_all ls i vs = Some ls' -> List.length ls' = List.length ls.
Proof using Type.
  revert vs ls'. induction ls as [|a ls IH]; intros vs ls' H; cbn [set_all] in H; [injection H as <-; reflexivity|].
  destruct vs as [|v vs]; [discriminate|]. destruct (zset a i v) as [a'|]; [|discriminate]. cbn [bind] in H.
  destruct (set_all ls i vs) as [t|] eqn:E2; [|discriminate]. cbn [bind] in H. injection H as <-. cbn [List.length]. rewrite (IH _ _ E2). reflexivity.
Qed.

Lemma entry_other s r m n n' log T nper flag detail i k : recorded s r m n n' -> i <> m ->
  trial_entry dim3 log T nper flag detail n i k -> trial_entry dim3 log T nper flag detail n' i k.
Proof using Type.
  intros H N ((c & e & p & C & E & P & S) & (q & Q1 & Q2) & (u & U1 & U2) & (v & V1 & V2) & W).
  destruct H as (F1 & F2 & F3 & F4 & F5 & F6 & F7). assert ((i =? m) = false) as NE by (apply Z.eqb_neq; exact N).
  split; [exists c, e, p; rewrite F1, F2, F3, NE; auto|]. split; [exists q; rewrite F4, NE; auto|]. split; [exists u; rewrite F5, NE; auto|]. split; [exists v; rewrite F6, NE; auto|].
  intros j J. destruct (W j J) as (l & x & A & B & X). destruct (set_all_nth _ _ _ _ F7 j l A) as (y & l' & _ & A' & Z). exists l', x. split; [exact A'|]. split; [rewrite Z, NE; exact B | exact X].
Qed.

Lemma whichs_nth j : (j < if dim3 then 4 else 3)%nat -> nth_error (whichs dim3) j = Some (Z.of_nat j + 1).
Proof using Type. unfold whichs. destruct dim3; intros J; repeat (destruct j as [|j]; [reflexivity|]); lia. Qed.
Lemma whichs_len : List.length (whichs dim3) = (if dim3 then 4 else 3)%nat.
Proof using Type. unfold whichs. destruct dim3; reflexivity. Qed.

(** interval k+3+j of a detailed trial *)
Lemma interval_which nper flag ws pre t : forall j w, nth_error ws j = Some w ->
  interval (pre ++ TBarrier :: wevents nper flag ws ++ t) (bars pre + j) = Some (rounds nper flag (fun f => TOneRemap f w)).
Proof using Type.
  revert pre. induction ws as [|a ws IH]; intros pre j w J; [destruct j; discriminate|]. unfold wevents. cbn [map List.concat]. fold (wevents nper flag ws).
  destruct j as [|j]; cbn [nth_error] in J.
  - injection J as ->. rewrite <- !app_assoc. cbn [app]. apply interval_here; [lia | apply rounds_bars; discriminate].
  - specialize (IH (pre ++ TBarrier :: rounds nper flag (fun f => TOneRemap f a)) j w J).
    replace (bars (pre ++ TBarrier :: rounds nper flag (fun f => TOneRemap f a)) + j)%nat with (bars pre + S j)%nat in IH.
    2:{ rewrite bars_app. cbn [bars]. rewrite rounds_bars by discriminate. lia. }
    rewrite <- IH. f_equal. repeat (rewrite <- ?app_assoc; cbn [app]). rewrite ?app_nil_r. reflexivity.
Qed.

Lemma entry_new s m n n' pre nper flag detail : recorded s (ttimes (bars pre) detail) m n n' -> List.length (n_tremaps n) = List.length (whichs dim3) ->
  setup_before (bars pre) (pre ++ tevents nper flag detail) None = Some s ->
  rentry (pre ++ tevents nper flag detail) nper flag detail n' m (bars pre).
Proof using Type.
  intros (F1 & F2 & F3 & F4 & F5 & F6 & F7) LT S. set (k := bars pre) in *.
  split; [|split; [|split; [|split]]].
  - exists (st_coll s), (st_exch s), (st_pack s). rewrite F1, F2, F3, !Z.eqb_refl. repeat (split; [reflexivity|]). rewrite S. destruct s; reflexivity.
  - exists (clk (Datatypes.S k) - clk k)%Q. rewrite F4, Z.eqb_refl. split; [reflexivity|]. split; [|reflexivity].
    unfold tevents. cbn [app]. apply interval_here; [reflexivity | apply rounds_bars; discriminate].
  - eexists. rewrite F5, Z.eqb_refl. split; [reflexivity|]. unfold ttimes. cbn [fst snd]. unfold tevents. destruct (detail =? 0); [reflexivity|].
    split; [|replace (Datatypes.S (k + 1)) with (k + 2)%nat by lia; reflexivity].
    pose proof (interval_here (pre ++ TBarrier :: rounds nper flag TCompute) (k + 1)%nat (rounds nper flag TOnly1d) (rounds nper flag TOnlyRemaps ++ [TBarrier] ++ wevents nper flag (whichs dim3))) as I.
    rewrite <- I; [|rewrite bars_app; cbn [bars]; rewrite rounds_bars by discriminate; fold k; lia|apply rounds_bars; discriminate]. f_equal.
    repeat (rewrite <- ?app_assoc; cbn [app]). rewrite ?app_nil_r. reflexivity.
  - eexists. rewrite F6, Z.eqb_refl. split; [reflexivity|]. unfold ttimes. cbn [fst snd]. unfold tevents. destruct (detail =? 0); [reflexivity|].
    split; [|replace (Datatypes.S (k + 2)) with (k + 3)%nat by lia; reflexivity].
    pose proof (interval_here (pre ++ TBarrier :: rounds nper flag TCompute ++ TBarrier :: rounds nper flag TOnly1d) (k + 2)%nat (rounds nper flag TOnlyRemaps) (wevents nper flag (whichs dim3))) as I.
    rewrite <- I; [|rewrite bars_app; cbn [bars]; rewrite bars_app; cbn [bars]; rewrite !rounds_bars by discriminate; fold k; lia|apply rounds_bars; discriminate]. f_equal.
    repeat (rewrite <- ?app_assoc; cbn [app]). rewrite ?app_nil_r. reflexivity.
  - intros j J. pose proof (whichs_nth j J) as WJ. destruct (nth_error (n_tremaps n) j) as [l|] eqn:EL.
    2:{ apply nth_error_None in EL. rewrite LT, whichs_len in EL. lia. }
    destruct (set_all_nth _ _ _ _ F7 j l EL) as (v & l' & V & L' & Z). exists l', v. split; [exact L'|]. split; [rewrite Z, Z.eqb_refl; reflexivity|].
    unfold ttimes in V. cbn [snd] in V. rewrite nth_error_map in V. rewrite (nth_error_nth' _ 0%nat) in V by (rewrite seq_length, whichs_len; exact J).
    rewrite seq_nth in V by (rewrite whichs_len; exact J). cbn [option_map Nat.add] in V. injection V as <-. unfold tevents. destruct (detail =? 0); [reflexivity|].
    split; [|replace (Datatypes.S (k + 3 + j)) with (k + 4 + j)%nat by lia; reflexivity].
    pose proof (interval_which nper flag (whichs dim3) (pre ++ TBarrier :: rounds nper flag TCompute ++ TBarrier :: rounds nper flag TOnly1d ++ TBarrier :: rounds nper flag TOnlyRemaps) [] j _ WJ) as I.
    rewrite <- I. f_equal.
    + repeat (rewrite <- ?app_assoc; cbn [app]). rewrite ?app_nil_r. reflexivity.
    + rewrite bars_app. cbn [bars]. rewrite bars_app. cbn [bars]. rewrite bars_app. cbn [bars]. rewrite !rounds_bars by discriminate. fold k. lia.
Qed.

(** *** a trial of the loops *)
Lemma pc_setup o s : pc (t_setup strict esize plsize rqsize ptsize nprocs xsize dim3 setup_fn o) s (fun _ b => wrote s b [TSetup (o_set o)]).
Proof using Type.
  unfold t_setup. eapply twp_bind; [apply pc_log|]. intros ? b W. eapply twp_mono; [apply pc_lift|]. intros ? c W2. exact (wrote_trans _ _ _ _ _ W W2).
Qed.
Lemma pc_grow o d s : pc (grow esize o d) s (fun _ b => wrote s b []).
Proof using Type.
  unfold grow. destruct d as [data mx]. cbv zeta. destruct (mx <? _); [|apply twp_ret, wrote_nil].
  eapply twp_bind; [apply pc_lift|]. intros ? b W. eapply twp_bind; [apply pc_lift|]. intros ? c W2. apply twp_ret. exact (wrote_trans _ _ _ _ _ W W2).
Qed.
Lemma pc_dealloc o s : pc (t_dealloc strict dim3 o) s (fun _ b => wrote s b []).
Proof using Type.
  unfold t_dealloc. eapply twp_bind; [apply pc_lift|]. intros ? b W. destruct (o_memflag _ =? 0); [apply twp_ret; exact W|].
  eapply twp_mono; [apply pc_lift|]. intros ? c W2. exact (wrote_trans _ _ _ _ _ W W2).
Qed.

Lemma pc_one s nper flag detail o n d a :
  pc (one_trial strict esize plsize rqsize ptsize nprocs xsize dim3 setup_fn clk s nper flag detail (o, n, d)) a (fun x b =>
    num_trial s (ttimes (t_tick a) detail) n = Some (snd (fst x)) /\
    t_tick b = (t_tick a + bars (tevents nper flag detail))%nat /\ t_log b = t_log a ++ TSetup s :: tevents nper flag detail).
Proof using Type.
  unfold one_trial. eapply twp_bind; [apply pc_topt|]. intros n1 b (RF & ->). cbv beta.
  eapply twp_bind; [apply pc_setup|]. intros o1 b1 (K1 & L1). eapply twp_bind; [apply pc_grow|]. intros d1 b2 (K2 & L2).
  eapply twp_bind; [apply pc_trial|]. intros r b3 (-> & K3 & L3). eapply twp_bind; [apply pc_topt|]. intros n2 b (RT & ->). cbv beta in *.
  eapply twp_bind; [apply pc_dealloc|]. intros o2 b4 (K4 & L4). apply twp_ret. cbn [fst snd]. split; [|split].
  - unfold num_trial. rewrite RF. cbn [bind]. rewrite K2, K1 in RT. exact RT.
  - rewrite bars_tevents. congruence.
  - rewrite L4, L3, L2, L1, !app_nil_r, <- !app_assoc. reflexivity.
Qed.

(** *** the invariant of the trial loops *)
Definition sinv (nper flag detail : Z) (n : tobj) (a : tst) : Prop :=
  bars (t_log a) = t_tick a /\ List.length (n_tremaps n) = List.length (whichs dim3) /\ 0 <= n_trial n /\
  exists ks : Z -> nat, (forall i j, 0 <= i < j -> j < n_trial n -> (ks i < ks j)%nat) /\
    forall i, 0 <= i < n_trial n -> (ks i < t_tick a)%nat /\ rentry (t_log a) nper flag detail n i (ks i).

(** the best time so far is that of a trial with the best settings so far *)
Definition bst (n : tobj) (pb : Z) : Prop := exists i, 0 <= i < n_trial n /\ tried n i (n_cbest n) (n_ebest n) pb /\ zget (n_tfft n) i = Some (n_besttime n).

Lemma sinv_best nper flag detail n a b c e p : sinv nper flag detail n a -> sinv nper flag detail (set_best b c e p n) a.
Proof using Type. intros (A & B & C & ks & D & E). split; [exact A|]. split; [exact B|]. split; [exact C|]. exists ks. split; [exact D | exact E]. Qed.

Lemma sinv_step s nper flag detail n n' a b : sinv nper flag detail n a -> num_trial s (ttimes (t_tick a) detail) n = Some n' ->
  t_tick b = (t_tick a + bars (tevents nper flag detail))%nat -> t_log b = t_log a ++ TSetup s :: tevents nper flag detail ->
  sinv nper flag detail (set_trial (n_trial n' + 1) n') b.
Proof using Type.
  intros (A & B & C & ks & D & E) NT K L. destruct (num_trial_fields _ _ _ _ NT) as (R & (T & _)).
  assert (bars (t_log a ++ [TSetup s]) = t_tick a) as A2 by (rewrite bars_app; cbn [bars]; lia).
  assert (t_log b = (t_log a ++ [TSetup s]) ++ tevents nper flag detail) as L2 by (rewrite L, <- app_assoc; reflexivity).
  split; [rewrite L2, bars_app, K; lia|]. split.
  { destruct R as (_ & _ & _ & _ & _ & _ & F7). cbn [set_trial n_tremaps]. rewrite (set_all_len _ _ _ _ F7). exact B. }
  cbn [set_trial n_trial]. split; [lia|]. rewrite T. exists (fun i => if i =? n_trial n then t_tick a else ks i). split.
  - intros i j IJ J. destruct (Z.eqb_spec i (n_trial n)); [lia|]. destruct (Z.eqb_spec j (n_trial n)); [apply E; lia | apply D; lia].
  - intros i I. destruct (Z.eqb_spec i (n_trial n)) as [-> |NE].
    + split; [rewrite K, bars_tevents; destruct (detail =? 0); lia|]. change (rentry (t_log b) nper flag detail n' (n_trial n) (t_tick a)). rewrite L2. rewrite <- A2 in R |- *. apply (entry_new s _ n).
      * exact R.
      * exact B.
      * rewrite A2, <- app_assoc. cbn [app]. unfold tevents. cbn [app]. apply setup_here. exact A.
    + destruct (E i) as (E1 & E2); [lia|]. split; [lia|]. change (rentry (t_log b) nper flag detail n' i (ks i)). rewrite L. apply entry_more. exact (entry_other _ _ _ _ _ _ _ _ _ _ _ _ R NE E2).
Qed.

Lemma bst_keep s r n n' pb : num_trial s r n = Some n' -> bst n pb -> bst (set_trial (n_trial n' + 1) n') pb.
Proof using Type.
  intros NT (i & I & (T1 & T2 & T3) & Q). destruct (num_trial_fields _ _ _ _ NT) as ((F1 & F2 & F3 & F4 & _) & (S1 & S2 & S3 & S4 & S5)).
  exists i. unfold tried. cbn [set_trial n_trial n_cflags n_eflags n_pflags n_tfft n_cbest n_ebest n_besttime]. rewrite S1, S2, S3, S4, F1, F2, F3, F4.
  destruct (Z.eqb_spec i (n_trial n)); [lia|]. split; [lia|]. auto.
Qed.
Lemma bst_new s r n n' cur c e p pb : num_trial s r n = Some n' -> 0 <= n_trial n -> s = mkset c e pb -> zget (n_tfft n') (n_trial n') = Some cur ->
  bst (set_trial (n_trial n' + 1) (set_best cur c e p n')) pb.
Proof using Type.
  intros NT N -> Z. destruct (num_trial_fields _ _ _ _ NT) as ((F1 & F2 & F3 & F4 & _) & (S1 & S2 & S3 & S4 & S5)).
  exists (n_trial n'). unfold tried. cbn [set_trial set_best n_trial n_cflags n_eflags n_pflags n_tfft n_cbest n_ebest n_besttime]. rewrite S1 in *. rewrite F1, F2, F3, Z.eqb_refl. cbn [st_coll st_exch st_pack].
  split; [lia|]. auto.
Qed.

Lemma fast_cur s k detail n n' cur : fast clk -> num_trial s (ttimes k detail) n = Some n' -> zget (n_tfft n') (n_trial n') = Some cur -> (cur < BIG)%Q.
Proof using Type.
  intros FA NT Z. destruct (num_trial_fields _ _ _ _ NT) as ((_ & _ & _ & F4 & _) & (S1 & _)). rewrite F4, S1, Z.eqb_refl in Z. injection Z as <-. apply FA.
Qed.

Lemma pc_ce nper flag detail ces : forall o n d a, sinv nper flag detail n a ->
  pc (ce_loop strict esize plsize rqsize ptsize nprocs xsize dim3 setup_fn clk ces nper flag detail (o, n, d)) a (fun x b =>
    sinv nper flag detail (snd (fst x)) b /\ n_pbest (snd (fst x)) = n_pbest n /\ n_trial (snd (fst x)) = n_trial n + zlen ces /\
    (bst n pdefault -> bst (snd (fst x)) pdefault) /\ (fast clk -> n_besttime n = BIG -> ces <> [] -> bst (snd (fst x)) pdefault)).
Proof using Type.
  induction ces as [|[c e] ces IH]; intros o n d a I; cbn [ce_loop].
  - apply twp_ret. cbn [fst snd]. split; [exact I|]. split; [reflexivity|]. split; [cbn; lia|]. split; [auto|]. congruence.
  - eapply twp_bind; [apply pc_one|]. intros [[o1 n1] d1] b (NT & K & L). cbn [fst snd] in NT.
    eapply twp_bind; [apply pc_topt|]. intros cur b' (Z & ->). cbv beta zeta.
    destruct (num_trial_fields _ _ _ _ NT) as (_ & (S1 & S2 & S3 & S4 & S5)). pose proof I as (_ & _ & N0 & _).
    pose proof (sinv_step _ _ _ _ _ _ _ _ I NT K L) as I1.
    set (n2 := if qlt cur (n_besttime n1) then set_best cur c e (n_pbest n1) n1 else n1).
    assert (sinv nper flag detail (set_trial (n_trial n2 + 1) n2) b) as I2.
    { unfold n2. destruct (qlt _ _); [|exact I1]. apply (sinv_best _ _ _ _ _ cur c e (n_pbest n1) I1). }
    assert (n_pbest n2 = n_pbest n /\ n_trial n2 = n_trial n) as (P2 & T2) by (unfold n2; destruct (qlt _ _); cbn [set_best n_pbest n_trial]; auto).
    assert (bst n pdefault -> bst (set_trial (n_trial n2 + 1) n2) pdefault) as B2.
    { intros B. unfold n2. destruct (qlt _ _); [|exact (bst_keep _ _ _ _ _ NT B)]. exact (bst_new _ _ _ _ _ _ _ _ _ NT N0 eq_refl Z). }
    assert (fast clk -> n_besttime n = BIG -> bst (set_trial (n_trial n2 + 1) n2) pdefault) as B3.
    { intros FA BG. pose proof (fast_cur _ _ _ _ _ _ FA NT Z) as CB. unfold n2. destruct (qlt_spec cur (n_besttime n1)) as [Q|Q]; [exact (bst_new _ _ _ _ _ _ _ _ _ NT N0 eq_refl Z)|].
      rewrite S2, BG in Q. contradiction. }
    eapply twp_mono; [apply (IH o1 (set_trial (n_trial n2 + 1) n2) d1 b I2)|]. intros [[o3 n3] d3] c3 (I3 & P3 & T3 & X1 & X2). cbn [fst snd] in *.
    split; [exact I3|]. split; [rewrite P3; exact P2|]. split; [unfold zlen in *; cbn [set_trial n_trial List.length] in *; lia|]. split; [auto|]. auto.
Qed.

Lemma pc_p nper flag detail ps : forall o n d a, sinv nper flag detail n a ->
  pc (p_loop strict esize plsize rqsize ptsize nprocs xsize dim3 setup_fn clk ps nper flag detail (o, n, d)) a (fun x b =>
    sinv nper flag detail (snd (fst x)) b /\ n_trial (snd (fst x)) = n_trial n + zlen ps /\
    (bst n (n_pbest n) -> bst (snd (fst x)) (n_pbest (snd (fst x)))) /\ (fast clk -> n_besttime n = BIG -> ps <> [] -> bst (snd (fst x)) (n_pbest (snd (fst x))))).
Proof using Type.
  induction ps as [|p ps IH]; intros o n d a I; cbn [p_loop].
  - apply twp_ret. cbn [fst snd]. split; [exact I|]. split; [cbn; lia|]. split; [auto|]. congruence.
  - eapply twp_bind; [apply pc_one|]. intros [[o1 n1] d1] b (NT & K & L). cbn [fst snd] in NT.
    eapply twp_bind; [apply pc_topt|]. intros cur b' (Z & ->). cbv beta zeta.
    destruct (num_trial_fields _ _ _ _ NT) as (_ & (S1 & S2 & S3 & S4 & S5)). pose proof I as (_ & _ & N0 & _).
    pose proof (sinv_step _ _ _ _ _ _ _ _ I NT K L) as I1.
    set (n2 := if qlt cur (n_besttime n1) then set_best cur (n_cbest n1) (n_ebest n1) p n1 else n1).
    assert (sinv nper flag detail (set_trial (n_trial n2 + 1) n2) b) as I2.
    { unfold n2. destruct (qlt _ _); [|exact I1]. apply (sinv_best _ _ _ _ _ cur (n_cbest n1) (n_ebest n1) p I1). }
    assert (n_trial n2 = n_trial n) as T2 by (unfold n2; destruct (qlt _ _); cbn [set_best n_pbest n_trial]; auto).
    assert (mkset (n_cbest n) (n_ebest n) p = mkset (n_cbest n1) (n_ebest n1) p) as SE by (rewrite S3, S4; reflexivity).
    assert (bst n (n_pbest n) -> bst (set_trial (n_trial n2 + 1) n2) (n_pbest n2)) as B2.
    { intros B. unfold n2. destruct (qlt _ _); [|rewrite S5; exact (bst_keep _ _ _ _ _ NT B)]. exact (bst_new _ _ _ _ _ _ _ _ _ NT N0 SE Z). }
    assert (fast clk -> n_besttime n = BIG -> bst (set_trial (n_trial n2 + 1) n2) (n_pbest n2)) as B3.
    { intros FA BG. pose proof (fast_cur _ _ _ _ _ _ FA NT Z) as CB. unfold n2. destruct (qlt_spec cur (n_besttime n1)) as [Q|Q]; [exact (bst_new _ _ _ _ _ _ _ _ _ NT N0 SE Z)|].
      rewrite S2, BG in Q. contradiction. }
    eapply twp_mono; [apply (IH o1 (set_trial (n_trial n2 + 1) n2) d1 b I2)|]. intros [[o3 n3] d3] c3 (I3 & T3 & X1 & X2). cbn [fst snd set_trial n_pbest] in *.
    split; [exact I3|]. split; [unfold zlen in *; cbn [set_trial n_trial List.length] in *; lia|]. split; [auto|]. auto.
Qed.

(** *** the averages *)
Definition factor (nper flag : Z) : Q := if flag =? 0 then (1 / inject_Z nper * (1 # 2))%Q else (1 / inject_Z nper)%Q.

Lemma scale_average log nper flag f k q : 0 < nper -> raw log k (rounds nper flag f) q -> average clk log k (rounds nper flag f) (q * factor nper flag)%Q.
Proof using Type.
  intros N (I & Q). assert (zlen (rounds nper flag f) = nper * (if flag =? 0 then 2 else 1)) as LN by (apply rounds_len; lia).
  split; [exact I|]. split.
  - intros E. rewrite E in LN. unfold zlen in LN. cbn in LN. destruct (flag =? 0); lia.
  - rewrite LN, Q. unfold factor. assert (~ (inject_Z nper == 0)%Q) as NZ.
    { unfold Qeq, inject_Z. cbn. lia. }
    destruct (flag =? 0); rewrite inject_Z_mult; [change (inject_Z 2) with 2%Q | change (inject_Z 1) with 1%Q]; field; exact NZ.
Qed.

Lemma scale_entry log nper flag detail n i k : 0 < nper -> 0 <= i < n_trial n ->
  (forall j, 0 <= j < n_trial n -> exists k', rentry log nper flag detail n j k') ->
  rentry log nper flag detail n i k -> trial_entry dim3 log (average clk log) nper flag detail (scale_times nper flag n) i k.
Proof using Type.
  intros N I ALL ((c & e & p & C & E & P & S) & (q & Q1 & Q2) & (u & U1 & U2) & (v & V1 & V2) & W).
  destruct (ALL (n_trial n - 1)) as (k' & _ & (q' & Q1' & _) & (u' & U1' & _) & (v' & V1' & _) & W'); [lia|].
  apply zget_inv in Q1', U1', V1'. fold (factor nper flag) in *.
  assert (forall q, q == 0 -> q * factor nper flag == 0)%Q as ZE by (intros x ->; ring).
  split; [exists c, e, p; auto|]. unfold scale_times. cbv zeta. cbn [n_tfft n_t1d n_tremap n_tremaps n_trial]. fold (factor nper flag).
  split; [|split; [|split]].
  - exists (q * factor nper flag)%Q. rewrite scale_get, Q1 by lia. split; [reflexivity | apply scale_average; assumption].
  - exists (u * factor nper flag)%Q. rewrite scale_get, U1 by lia. split; [reflexivity|]. destruct (detail =? 0); [apply ZE, U2 | apply scale_average; assumption].
  - exists (v * factor nper flag)%Q. rewrite scale_get, V1 by lia. split; [reflexivity|]. destruct (detail =? 0); [apply ZE, V2 | apply scale_average; assumption].
  - intros j J. destruct (W j J) as (l & x & A & B & X). destruct (W' j J) as (l' & x' & A' & B' & _). rewrite A in A'. injection A' as <-. apply zget_inv in B'.
    exists (scale_list (n_trial n) (factor nper flag) l), (x * factor nper flag)%Q. rewrite nth_error_map, A. split; [reflexivity|]. rewrite scale_get, B by lia. split; [reflexivity|].
    destruct (detail =? 0); [apply ZE, X | apply scale_average; assumption].
Qed.

Lemma budget_facts tmax ts tf niter tflag ni tf' nr : budget tmax ts tf niter tflag = Some (ni, tf', nr) -> 0 < niter ->
  0 < ni /\ (tf' = 0 \/ tf' = tflag) /\ (nr = 10 \/ ni = 1 /\ tf' = 0).
Proof using Type.
  unfold budget. intros H N. destruct (negb (tflag =? 0) && negb (int_ok (3 * niter))); [discriminate|]. cbv zeta in H.
  destruct (qlt 0 tmax && _); [|injection H as <- <- <-; auto].
  destruct (qdiv _ _) as [q|]; [|discriminate]. cbn [bind] in H. destruct (cast_int _) as [z|]; [|discriminate]. cbn [bind] in H.
  destruct (Z.leb_spec z 0); [|injection H as <- <- <-; auto]. destruct (cast_int q) as [z2|]; [|discriminate]. cbn [bind] in H.
  destruct (Z.leb_spec z2 0); [|injection H as <- <- <-; auto]. destruct (qdiv tmax _) as [q3|]; [|discriminate]. cbn [bind] in H.
  destruct (cast_int q3) as [z3|]; [|discriminate]. cbn [bind] in H. injection H as <- <- <-. split; [lia|]. auto.
Qed.

Lemma schedule_first nr cur first ces ps : schedule nr cur = (first, ces, ps) -> first = 0 /\ ces <> [] \/ first = 1 /\ nr <> 10 /\ (ces <> [] -> ps = []).
Proof using Type.
  unfold schedule. intros H. destruct (Z.leb_spec 9 (nr - 1)); [injection H as <- <- <-; left; split; [reflexivity | discriminate]|].
  destruct (6 <=? nr - 1); [injection H as <- <- <-; left; split; [reflexivity | discriminate]|]. destruct (3 <=? nr - 1); [injection H as <- <- <-; left; split; [reflexivity | discriminate]|].
  destruct (nr - 1 =? 2); [injection H as <- <- <-; left; split; [reflexivity | discriminate]|]. destruct (_ && _); injection H as <- <- <-; right; (split; [reflexivity|]); (split; [lia|]); auto.
Qed.

(** ** the statement *)
Definition best_of (n : tobj) : settings := mkset (n_cbest n) (n_ebest n) (n_pbest n).

(** the times that tune() leaves behind, given the calls it made *)
Record results (root : option (Q * Q)) (flag detail : Z) (n : tobj) (log : list tevent) : Prop := {
  (* as many rounds in each trial as reported *)
  res_per : 0 < n_per n;
  (* the trials, in the order in which they were made; detail: whether the details were measured *)
  res_trials : exists ks, (forall i j, 0 <= i < j -> j < n_trial n -> (ks i < ks j)%nat) /\
    forall i, 0 <= i < n_trial n -> trial_entry dim3 log (average clk log) (n_per n) flag detail n i (ks i);
  (* the last two readings enclose the final setup *)
  res_setup : exists k, interval log k = Some [TSetup (best_of n)] /\ after_barrier (S k) log = [] /\ (n_setuptime n == clk (S k) - clk k)%Q;
  (* the best time is the recorded time of a trial with the best settings; if only the initial run was made, it is
     that of rank 0, for one of its transforms *)
  res_best : fast clk -> (exists i, 0 <= i < n_trial n /\ tried n i (n_cbest n) (n_ebest n) (n_pbest n) /\ zget (n_tfft n) i = Some (n_besttime n)) \/
    (n_trial n = 1 /\ n_per n = 1 /\ tried n 0 (n_cbest n) (n_ebest n) (n_pbest n) /\ exists p, root = Some p /\ (n_besttime n == snd p / inject_Z (if (flag =? 0)%Z then 2 else 1))%Q)
}.

Lemma pc_tune root flag niter tmax tflag o n h : List.length (n_tremaps n) = List.length (whichs dim3) ->
  pc (tune strict esize plsize rqsize ptsize nprocs xsize dim3 setup_fn clk root flag niter tmax tflag o n) (mktst h 0 []) (fun x b =>
    exists detail nr, budget tmax (fst (first_times clk root 0)) (snd (first_times clk root 0)) niter tflag = Some (n_per (snd x), detail, nr) /\ results root flag detail (snd x) (t_log b)).
Proof using Type.
  intros LT. unfold tune. destruct (o_setup o); [exact Logic.I|]. destruct (_ || _); [exact Logic.I|]. destruct ((niter <=? 0) || _) eqn:NI; [exact Logic.I|]. destruct ((tflag <? 0) || _); [exact Logic.I|].
  apply orb_false_iff in NI. destruct NI as (NI & _). apply Z.leb_gt in NI. cbv zeta. set (cur := o_set o).
  eapply twp_bind; [apply pc_wtime|]. intros t1 s1 (-> & K1 & L1). cbn [t_tick t_log app] in *.
  eapply twp_bind; [apply pc_setup|]. intros o1 s2 (K2 & L2). cbn [with_settings o_set] in L2.
  eapply twp_bind; [apply pc_wtime|]. intros t2 s3 (-> & K3 & L3).
  eapply twp_bind; [apply pc_grow|]. intros d1 s4 (K4 & L4).
  eapply twp_bind; [apply pc_trial|]. intros r s5 (-> & K5 & L5).
  assert (t_tick s2 = 1%nat) as T2 by congruence. assert (t_tick s4 = 2%nat) as T4 by congruence. rewrite T4, T2 in *. change (0 =? 0) with true in K5. cbv iota in K5. cbn [Nat.add] in K5.
  eapply twp_bind; [apply pc_topt|]. intros na s (RT & ->). eapply twp_bind; [apply pc_topt|]. intros tf s (GT & ->). eapply twp_bind; [apply pc_topt|]. intros nb s (RF & ->). cbv beta.
  eapply twp_bind; [apply pc_dealloc|]. intros o2 s6 (K6 & L6).
  eapply twp_bind; [apply pc_log|]. intros ? s7 (K7 & L7). eapply twp_bind; [apply pc_log|]. intros ? s8 (K8 & L8).
  destruct (first_fields _ _ _ _ _ RT RF) as (R & (B1 & _) & G0). rewrite G0 in GT. injection GT as <-. clear G0. cbn [ttimes fst] in *.
  assert (t_tick s8 = 4%nat) as T8 by congruence.
  assert (t_log s8 = ([TBarrier; TSetup cur; TBarrier] ++ tevents 1 flag 0) ++ [TBcast; TBcast]) as LL.
  { rewrite L8, L7, L6, L5, L4, L3, L2, L1. rewrite !app_nil_r, <- !app_assoc. reflexivity. }
  assert (bars (t_log s8) = 4%nat) as BL by (rewrite LL, !bars_app, bars_tevents; reflexivity).
  assert (List.length (n_tremaps nb) = List.length (whichs dim3)) as LT1.
  { destruct R as (_ & _ & _ & _ & _ & _ & F7). rewrite (set_all_len _ _ _ _ F7). exact LT. }
  (* the entry of the initial run *)
  assert (rentry (t_log s8) 1 flag 0 nb 0 2) as E0.
  { rewrite LL. apply entry_more. apply (entry_new cur 0 (set_trial 0 n) nb [TBarrier; TSetup cur; TBarrier] 1 flag 0); [exact R | exact LT|].
    unfold tevents. cbn [app bars setup_before]. reflexivity. }
  assert (sinv 1 flag 0 (set_trial 1 nb) s8) as S1.
  { split; [congruence|]. split; [exact LT1|]. cbn [set_trial n_trial]. split; [lia|]. exists (fun _ => 2%nat). split; [lia|]. intros i I0. assert (i = 0) as -> by lia. split; [lia | exact E0]. }
  assert (forall np dt, sinv np flag dt (set_trial 0 nb) s8) as S0.
  { intros np dt. split; [congruence|]. split; [exact LT1|]. cbn [set_trial n_trial]. split; [lia|]. exists (fun _ => O). split; intros; lia. }
  assert (tried nb 0 (st_coll cur) (st_exch cur) (st_pack cur) /\ zget (n_tfft nb) 0 = Some (clk 3%nat - clk 2%nat)%Q) as (TR & TF).
  { destruct R as (F1 & F2 & F3 & F4 & _). unfold tried. rewrite F1, F2, F3, F4. cbn [fst]. auto. }
  clear RT RF R E0 L1 L2 L3 L4 L5 L6 L7 L8 K1 K2 K3 K4 K5 K6 K7 K8.
  set (tt2 := match root with None => _ | Some p => p end). assert (tt2 = first_times clk root 0) as FT by (unfold tt2, first_times; destruct root; reflexivity). assert (root = None -> snd tt2 = (clk 3%nat - clk 2%nat)%Q) as RN by (intros E; unfold tt2; rewrite E; reflexivity).
  assert (forall p, root = Some p -> tt2 = p) as RS by (intros p E; unfold tt2; rewrite E; reflexivity). destruct tt2 as [ts tf]. cbn [snd] in RN.
  rewrite <- FT. cbn [fst snd]. clear FT.
  eapply twp_bind; [apply pc_topt|]. intros [[ni tf'] nr] s (BU & ->). cbv beta. destruct (budget_facts _ _ _ _ _ _ _ _ BU NI) as (NP & DT & NR).
  destruct (schedule nr cur) as [[first ces] ps] eqn:SC. pose proof (schedule_first _ _ _ _ _ SC) as SF.
  assert (sinv ni flag tf' (set_trial first nb) s8) as SI.
  { destruct SF as [(-> & _)|(-> & N10 & _)]; [apply S0|]. destruct NR as [NR|(-> & ->)]; [contradiction | exact S1]. }
  eapply twp_bind with (R := fun (x : tun) (b : tst) => let n' := snd (fst x) in sinv ni flag tf' n' b /\
      (fast clk -> bst n' (n_pbest n') \/ (n_trial n' = 1 /\ ni = 1 /\ tried n' 0 (n_cbest n') (n_ebest n') (n_pbest n') /\ exists p, root = Some p /\ n_besttime n' = snd p))).
  { destruct ces as [|ce ces].
    - eapply twp_bind; [apply pc_topt|]. intros nc s (RF & ->). cbv beta. apply twp_ret. cbn [fst snd].
      destruct SF as [(_ & C)|(-> & N10 & _)]; [contradiction|]. destruct NR as [NR|(-> & ->)]; [contradiction|].
      assert (forall l x i, zget l i = Some x -> forall l' : list Z, zset l i x = Some l' -> l' = l) as ZS.
      { intros l xx i Zi l' Zs. apply zget_ext. intros j. rewrite (zset_get _ _ _ _ _ Zs). destruct (Z.eqb_spec j i); congruence. }
      assert (nc = set_trial 1 nb) as ->.
      { destruct TR as (TR1 & TR2 & TR3). unfold record_flags in RF. destruct nb as [x1 x2 x3 x4 x5 x6 x7 x8 x9 x10 x11 x12 x13 x14]. cbn [set_trial n_trial n_per n_cbest n_ebest n_pbest n_cflags n_eflags n_pflags n_besttime n_setuptime n_tfft n_t1d n_tremap n_tremaps] in *.
        destruct (zset x6 0 _) as [y6|] eqn:Y6; [|discriminate]. destruct (zset x7 0 _) as [y7|] eqn:Y7; [|discriminate]. destruct (zset x8 0 _) as [y8|] eqn:Y8; [|discriminate]. cbn [bind] in RF. injection RF as <-.
        rewrite (ZS _ _ _ TR1 _ Y6), (ZS _ _ _ TR2 _ Y7), (ZS _ _ _ TR3 _ Y8). reflexivity. }
      split; [apply sinv_best, SI|]. intros _. cbn [set_best set_trial n_trial n_cbest n_ebest n_pbest n_besttime]. destruct root as [p|].
      + right. split; [reflexivity|]. split; [reflexivity|]. split; [exact TR|]. exists p. split; [reflexivity|]. rewrite <- (RS p eq_refl). reflexivity.
      + left. exists 0. cbn [set_best set_trial n_trial n_cbest n_ebest n_pbest n_besttime n_tfft]. split; [lia|]. split; [exact TR|]. rewrite (RN eq_refl). exact TF.
    - set (m1 := match ps with [] => _ | _ => _ end).
      assert (sinv ni flag tf' (set_best BIG (n_cbest m1) (n_ebest m1) (n_pbest m1) m1) s8 /\ (ps = [] -> n_pbest m1 = pdefault)) as (SM & PD).
      { unfold m1. destruct ps; (split; [repeat apply sinv_best; exact SI|]); [reflexivity | discriminate]. }
      eapply twp_bind; [apply (pc_ce _ _ _ (ce :: ces) _ _ _ _ SM)|]. intros [[o3 n3] d3] s9 (S3 & P3 & _ & _ & B3). cbn [fst snd] in *. cbn [set_best n_pbest n_besttime] in P3, B3.
      destruct ps as [|p ps].
      + apply twp_ret. cbn [fst snd]. split; [exact S3|]. intros FA. left. rewrite P3, (PD eq_refl). apply B3; [exact FA | reflexivity | discriminate].
      + eapply twp_mono; [apply (pc_p _ _ _ (p :: ps)); apply sinv_best, S3|]. intros [[o4 n4] d4] s10 (S4 & _ & _ & B4). cbn [fst snd] in *. split; [exact S4|]. intros FA. left. apply B4; [exact FA | reflexivity | discriminate]. }
  intros [[o3 n3] d3] s9 (S3 & B3). cbn [fst snd] in *. clear S0 S1 SI LL BL TR TF LT1 T2 T4 T8 SF. cbv zeta.
  eapply twp_bind; [apply pc_lift|]. intros ? s10 (K10 & L10). rewrite app_nil_r in L10.
  eapply twp_bind; [apply pc_wtime|]. intros ta s11 (-> & K11 & L11).
  eapply twp_bind; [apply pc_setup|]. intros o4 s12 (K12 & L12). cbn [with_settings o_set] in L12.
  eapply twp_bind; [apply pc_wtime|]. intros tb s13 (-> & K13 & L13). apply twp_ret. cbn [snd].
  set (n5 := scale_times ni flag n3) in *. destruct S3 as (SY & _ & NN & ks & KI & KE).
  assert (t_log s13 = t_log s9 ++ [TBarrier; TSetup (best_of n3); TBarrier]) as LF by (rewrite L13, L12, L11, L10, <- !app_assoc; reflexivity).
  exists tf', nr. split; [exact BU|]. split.
  - exact NP.
  - exists ks. split; [exact KI|]. intros i I0. change (n_trial (set_setuptime _ n5)) with (n_trial n3) in I0. destruct (KE i I0) as (_ & E).
    change (trial_entry dim3 (t_log s13) (average clk (t_log s13)) ni flag tf' n5 i (ks i)). apply scale_entry; [exact NP | exact I0 | |].
    + intros j J. exists (ks j). rewrite LF. apply entry_more, KE, J.
    + rewrite LF. apply entry_more, E.
  - exists (t_tick s9). rewrite LF. split; [|split].
    + change (best_of (set_setuptime _ n5)) with (best_of n3). apply (interval_here (t_log s9) (t_tick s9) [TSetup (best_of n3)] []); [exact SY | reflexivity].
    + change [TBarrier; TSetup (best_of n3); TBarrier] with ([TBarrier; TSetup (best_of n3)] ++ TBarrier :: []). rewrite app_assoc. apply after_app. rewrite bars_app, SY. cbn [bars]. lia.
    + change (n_setuptime (set_setuptime ?q n5)) with q. rewrite K12, K11, K10. reflexivity.
  - intros FA. destruct (B3 FA) as [(i & I0 & TI & QI)|(T1 & -> & TI & p & RP & BE)].
    + left. exists i. split; [exact I0|]. split; [exact TI|]. change (zget (scale_list (n_trial n3) (factor ni flag) (n_tfft n3)) i = Some (n_besttime n3 * factor ni flag)%Q).
      destruct (KE (n_trial n3 - 1)) as (_ & (_ & (q' & Q' & _) & _)); [lia|]. apply zget_inv in Q'. rewrite scale_get, QI by lia. reflexivity.
    + right. split; [exact T1|]. split; [reflexivity|]. split; [exact TI|]. exists p. split; [exact RP|].
      change (n_besttime (set_setuptime _ n5)) with (n_besttime n3 * factor 1 flag)%Q. rewrite BE. unfold factor. destruct (flag =? 0); [change (inject_Z 2) with 2%Q | change (inject_Z 1) with 1%Q]; field.
Qed.
End Stat.

Theorem tune_results strict esize plsize rqsize ptsize nprocs xsize (dim3 : bool) f clk root flag niter tmax tflag o n h o' n' b :
  List.length (n_tremaps n) = (if dim3 then 4 else 3)%nat ->
  tune strict esize plsize rqsize ptsize nprocs xsize dim3 f clk root flag niter tmax tflag o n (mktst h 0 []) = LOk ((o', n'), b) ->
  exists detail nr, budget tmax (fst (first_times clk root 0)) (snd (first_times clk root 0)) niter tflag = Some (n_per n', detail, nr) /\ results dim3 clk root flag detail n' (t_log b).
Proof.
  intros L T. rewrite <- (whichs_len dim3) in L. pose proof (pc_tune strict esize plsize rqsize ptsize nprocs xsize dim3 f clk root flag niter tmax tflag o n h L) as P.
  unfold twp in P. rewrite T in P. exact P.
Qed.
