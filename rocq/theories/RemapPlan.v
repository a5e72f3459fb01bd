(** RemapPlan.v : facts about the plans computed by setup (Remap.v): visiting
    order, messages, self message, collective group, counts and displacements. *)

From Verif Require Import Base Sched Remap.

(** ** list facts *)
Lemma flat_map_app' {B C} (f : B -> list C) l1 l2 : flat_map f (l1 ++ l2) = flat_map f l1 ++ flat_map f l2.
Proof. apply flat_map_app. Qed.

Lemma NoDup_app' {B} (l1 l2 : list B) : NoDup l1 -> NoDup l2 -> (forall x, In x l1 -> ~ In x l2) -> NoDup (l1 ++ l2).
Proof.
  intros H1 H2 Hd. induction H1 as [|x l1 Hx H1 IH]; [exact H2|].
  cbn. constructor.
  - rewrite in_app_iff. intros [H|H]; [exact (Hx H)|]. exact (Hd x (or_introl eq_refl) H).
  - apply IH. intros y Hy. apply Hd. right. exact Hy.
Qed.

Lemma NoDup_flat_map {B C} (f : B -> list C) l :
  NoDup l -> (forall x, In x l -> NoDup (f x)) ->
  (forall x y c, In x l -> In y l -> In c (f x) -> In c (f y) -> x = y) ->
  NoDup (flat_map f l).
Proof.
  intros H. induction H as [|x l Hx H IH]; intros H1 H2; [constructor|].
  cbn. apply NoDup_app'.
  - apply H1. left; reflexivity.
  - apply IH; [intros y Hy; apply H1; right; exact Hy|].
    intros y z c Hy Hz. apply H2; right; assumption.
  - intros c Hc Hc'. apply in_flat_map in Hc' as (y & Hy & Hc').
    assert (x = y) by (apply (H2 x y c); [left; reflexivity|right; exact Hy|exact Hc|exact Hc']).
    subst. exact (Hx Hy).
Qed.

Lemma incl_sum {B} (f : B -> Z) l1 l2 : (forall x, In x l2 -> 0 <= f x) -> NoDup l1 -> incl l1 l2 ->
  fold_right (fun e s => f e + s) 0 l1 <= fold_right (fun e s => f e + s) 0 l2.
Proof.
  intros Hf ND. revert l2 Hf. induction ND as [|x l1 Hx ND IH]; intros l2 Hf Hi.
  - cbn. induction l2 as [|y l2 IH2]; cbn; [lia|].
    pose proof (Hf y (or_introl eq_refl)). assert (0 <= fold_right (fun e s => f e + s) 0 l2); [|lia].
    apply IH2; [intros z Hz; apply Hf; right; exact Hz|intros z []].
  - destruct (in_split x l2) as (a & b & ->); [apply Hi; left; reflexivity|].
    assert (H : fold_right (fun e s => f e + s) 0 l1 <= fold_right (fun e s => f e + s) 0 (a ++ b)).
    { apply IH.
      - intros y Hy. apply Hf. apply in_app_iff in Hy. apply in_app_iff. cbn. tauto.
      - intros y Hy. assert (Hy' := Hi y (or_intror Hy)). apply in_app_iff in Hy'. apply in_app_iff.
        destruct Hy' as [?|[->|?]]; auto. contradiction. }
    assert (E : forall l c, fold_right (fun e s => f e + s) 0 (l ++ x :: c) = f x + fold_right (fun e s => f e + s) 0 (l ++ c)).
    { clear. induction l as [|y l IH]; intros c; cbn; [reflexivity|]. rewrite IH. lia. }
    rewrite E. cbn. lia.
Qed.

Section Plan.
Context {A ext plan : Type}.
Variable o : rops A ext plan.
Variable n : nat.
Variable ins outs : nat -> ext.
Let entry := @entry plan.

Hypothesis col_sym : forall a b, o_collide o a b = o_collide o b a.

(** ** visiting order *)
Definition others (me : nat) : list nat := seq (S me) (n - 1 - me) ++ seq 0 me.

Lemma ring_from_seq k i : (i + k < n)%nat -> ring_from n k i = seq (S i) k.
Proof.
  revert i. induction k as [|k IH]; intros i H; [reflexivity|].
  cbn [ring_from seq]. destruct (Nat.eqb_spec (S i) n); [lia|]. f_equal. apply IH. lia.
Qed.

Lemma ring_from_app a b i : (i < n)%nat -> (i + a < n)%nat ->
  ring_from n (a + b) i = ring_from n a i ++ ring_from n b (i + a).
Proof.
  revert i. induction a as [|a IH]; intros i Hi H; [rewrite Nat.add_0_r; reflexivity|].
  cbn [ring_from Nat.add]. destruct (Nat.eqb_spec (S i) n); [lia|]. cbn [app]. f_equal.
  rewrite IH by lia. f_equal. f_equal. lia.
Qed.

Lemma ring_eq me : (me < n)%nat -> ring n me = others me ++ [me].
Proof.
  intros H. unfold ring, others.
  replace n with ((n - 1 - me) + S me)%nat at 2 by lia.
  rewrite ring_from_app by lia. rewrite ring_from_seq by lia. rewrite <- app_assoc. f_equal.
  replace (me + (n - 1 - me))%nat with (n - 1)%nat by lia.
  cbn [ring_from]. destruct (Nat.eqb_spec (S (n - 1)) n) as [_|]; [|lia].
  rewrite ring_from_seq by lia.
  change (0%nat :: seq 1 me) with (seq 0 (S me)). rewrite seq_S. reflexivity.
Qed.

Lemma others_In me q : (me < n)%nat -> In q (others me) <-> (q < n)%nat /\ q <> me.
Proof. intros H. unfold others. rewrite in_app_iff, !in_seq. lia. Qed.

Lemma others_NoDup me : NoDup (others me).
Proof.
  unfold others. apply NoDup_app'; try apply seq_NoDup.
  intros x H. rewrite in_seq in *. lia.
Qed.

Lemma ring_In me q : (me < n)%nat -> In q (ring n me) <-> (q < n)%nat.
Proof.
  intros H. rewrite ring_eq, in_app_iff, others_In by exact H. cbn.
  split; [intros [?|[->|[]]]; lia|]. intros Hq. destruct (Nat.eq_dec q me); [right; left; auto|left; auto].
Qed.

Lemma ring_NoDup me : (me < n)%nat -> NoDup (ring n me).
Proof.
  intros H. rewrite ring_eq by exact H. apply NoDup_app'; [apply others_NoDup|repeat constructor; auto|].
  intros x Hx [->|[]]. apply others_In in Hx; [|exact H]. lia.
Qed.

(** ** messages *)
Definition sent (me p : nat) : list entry :=
  match o_collide o (ins me) (outs p) with
  | Some ov => [mkentry p (o_soff o (ins me) ov) (o_size o ov) (o_splan o (ins me) ov)]
  | None => []
  end.
Definition rcvd (me p : nat) : list entry :=
  match o_collide o (outs me) (ins p) with
  | Some ov => [mkentry p (o_roff o (outs me) ov) (o_size o ov) (o_rplan o (outs me) ov)]
  | None => []
  end.

Lemma send_entries_eq me : (me < n)%nat -> send_entries o n ins outs me = flat_map (sent me) (others me) ++ sent me me.
Proof.
  intros H. unfold send_entries. rewrite ring_eq, flat_map_app' by exact H. cbn [flat_map]. rewrite app_nil_r. reflexivity.
Qed.
Lemma recv_entries_eq me : (me < n)%nat -> recv_entries o n ins outs me = flat_map (rcvd me) (others me) ++ rcvd me me.
Proof.
  intros H. unfold recv_entries. rewrite ring_eq, flat_map_app' by exact H. cbn [flat_map]. rewrite app_nil_r. reflexivity.
Qed.

Lemma sent_proc me p e : In e (sent me p) -> e_proc e = p.
Proof. unfold sent. destruct (o_collide _ _ _); [intros [<-|[]]; reflexivity|intros []]. Qed.
Lemma rcvd_proc me p e : In e (rcvd me p) -> e_proc e = p.
Proof. unfold rcvd. destruct (o_collide _ _ _); [intros [<-|[]]; reflexivity|intros []]. Qed.

Lemma sent_rcvd p q : map e_size (sent p q) = map e_size (rcvd q p).
Proof. unfold sent, rcvd. rewrite (col_sym (outs q) (ins p)). destruct (o_collide _ _ _); reflexivity. Qed.

(** ** the self message *)
Lemma drop_self_p2p me (F : nat -> list entry) l : (me < n)%nat ->
  (forall p e, In e (F p) -> e_proc e = p) -> (forall p, F p = [] \/ exists e, F p = [e]) ->
  l = flat_map F (others me) ++ F me ->
  drop_self false me l = length (flat_map F (others me)).
Proof.
  intros Hme Hp HF ->. unfold drop_self. rewrite app_length.
  destruct (HF me) as [->|(e & E)].
  - cbn [length]. rewrite Nat.add_0_r, app_nil_r.
    destruct (nth_error _ _) as [x|] eqn:En; [|reflexivity].
    apply nth_error_In in En. apply in_flat_map in En as (p & Hin & En).
    apply Hp in En. apply others_In in Hin; [|exact Hme].
    destruct (Nat.eqb_spec (e_proc x) me); [lia|reflexivity].
  - rewrite E. cbn [length].
    replace (length (flat_map F (others me)) + 1 - 1)%nat with (length (flat_map F (others me))) by lia.
    rewrite nth_error_app2, Nat.sub_diag by lia. cbn.
    rewrite (Hp me e) by (rewrite E; left; reflexivity). rewrite Nat.eqb_refl. reflexivity.
Qed.

Lemma drop_self_coll me (l : list entry) : drop_self true me l = length l.
Proof. unfold drop_self. destruct (nth_error _ _); [rewrite andb_false_r|]; reflexivity. Qed.

Lemma sent_one me p : sent me p = [] \/ exists e, sent me p = [e].
Proof. unfold sent. destruct (o_collide _ _ _); eauto. Qed.
Lemma rcvd_one me p : rcvd me p = [] \/ exists e, rcvd me p = [e].
Proof. unfold rcvd. destruct (o_collide _ _ _); eauto. Qed.

Lemma nsend_p2p me : (me < n)%nat ->
  drop_self false me (send_entries o n ins outs me) = length (flat_map (sent me) (others me)).
Proof. intros H. apply drop_self_p2p; auto using sent_one, send_entries_eq. intros. eapply sent_proc; eauto. Qed.
Lemma nrecv_p2p me : (me < n)%nat ->
  drop_self false me (recv_entries o n ins outs me) = length (flat_map (rcvd me) (others me)).
Proof. intros H. apply drop_self_p2p; auto using rcvd_one, recv_entries_eq. intros. eapply rcvd_proc; eauto. Qed.

(** ** the collective group *)
Definition adj (p q : nat) : Prop :=
  (p < n)%nat /\ (q < n)%nat /\
  (o_collide o (ins p) (outs q) <> None \/ o_collide o (outs p) (ins q) <> None).

(** connected by one or more messages (in either direction) *)
Inductive reach (p : nat) : nat -> Prop :=
| reach_one q : adj p q -> reach p q
| reach_step q s : reach p q -> adj q s -> reach p s.

Lemma adj_sym p q : adj p q -> adj q p.
Proof.
  intros (H1 & H2 & H3). split; [exact H2|split; [exact H1|]].
  rewrite (col_sym (ins q)), (col_sym (outs q)). tauto.
Qed.

Lemma reach_trans p q s : reach p q -> reach q s -> reach p s.
Proof. intros H1 H2. induction H2; eauto using reach_step. Qed.

Lemma reach_sym p q : reach p q -> reach q p.
Proof.
  intros H. induction H as [q H|q s H IH Ha].
  - apply reach_one, adj_sym, H.
  - apply reach_trans with q; [apply reach_one, adj_sym, Ha|exact IH].
Qed.

Lemma reach_lt p q : reach p q -> (p < n)%nat /\ (q < n)%nat.
Proof. induction 1 as [q H|q s H IH Ha]; [destruct H|destruct Ha]; intuition. Qed.

Lemma hit_iff a b : hit o a b = true <-> o_collide o a b <> None.
Proof. unfold hit. destruct (o_collide o a b); split; congruence. Qed.

Section Group.
Variable me : nat.
Hypothesis Hme : (me < n)%nat.

(** pflag agrees with the list, no repetitions, only connected ranks *)
Definition GI (pflag : nat -> bool) (g : list nat) : Prop :=
  (forall x, pflag x = true <-> In x g) /\ NoDup g /\ (forall x, In x g -> reach me x).

Lemma GI_add pflag g p : GI pflag g -> pflag p = false -> reach me p -> GI (setflag p pflag) (g ++ [p]).
Proof.
  intros (H1 & H2 & H3) Hp Hr. split; [|split].
  - intros x. unfold setflag. rewrite in_app_iff. cbn.
    destruct (Nat.eqb_spec x p) as [->|Hne]; [split; auto|]. rewrite H1. split; [auto|]. intros [?|[E|[]]]; congruence.
  - apply NoDup_app'; [exact H2|repeat constructor; auto|].
    intros x Hx [<-|[]]. apply H1 in Hx. congruence.
  - intros x Hx. apply in_app_iff in Hx as [Hx|[<-|[]]]; auto.
Qed.

Lemma add_procs_ok l pflag g : GI pflag g -> (forall p, In p l -> reach me p) ->
  let '(pflag', g') := add_procs l (pflag, g) in
  GI pflag' g' /\ (forall p, In p l -> pflag' p = true) /\ (forall x, pflag x = true -> pflag' x = true).
Proof.
  revert pflag g. induction l as [|p l IH]; intros pflag g HG Hl; cbn [add_procs].
  - split; [exact HG|]. split; [intros p []|auto].
  - destruct (pflag p) eqn:Ep.
    + specialize (IH pflag g HG (fun q Hq => Hl q (or_intror Hq))).
      destruct (add_procs l (pflag, g)) as [pf' g']. destruct IH as (I1 & I2 & I3).
      split; [exact I1|]. split; [|exact I3]. intros q [<-|Hq]; auto.
    + specialize (IH (setflag p pflag) (g ++ [p])
         (GI_add _ _ _ HG Ep (Hl p (or_introl eq_refl))) (fun q Hq => Hl q (or_intror Hq))).
      destruct (add_procs l (setflag p pflag, g ++ [p])) as [pf' g']. destruct IH as (I1 & I2 & I3).
      split; [exact I1|]. assert (Hs : forall x, pflag x = true -> setflag p pflag x = true).
      { intros x Hx. unfold setflag. destruct (Nat.eqb x p); auto. }
      split; [|intros x Hx; apply I3, Hs, Hx].
      intros q [<-|Hq]; [|auto]. apply I3. unfold setflag. rewrite Nat.eqb_refl. reflexivity.
Qed.

(** state of a pass over the prefix [g] *)
Definition SI (g : list nat) (st : (nat -> bool) * list nat * bool) : Prop :=
  let '(pflag, extra, active) := st in
  GI pflag (g ++ extra) /\ (active = false -> extra = []) /\ (active = true -> extra <> []).
Definition flag (st : (nat -> bool) * list nat * bool) : nat -> bool := fst (fst st).
Definition grows (st st' : (nat -> bool) * list nat * bool) : Prop := forall x, flag st x = true -> flag st' x = true.

Lemma setflag_mono p pflag x : pflag x = true -> setflag p pflag x = true.
Proof. unfold setflag. destruct (Nat.eqb x p); auto. Qed.

Lemma scan_j_ok g i j st : In i g -> (j < n)%nat -> SI g st ->
  SI g (scan_j o ins outs i j st) /\ grows st (scan_j o ins outs i j st) /\
  (adj i j -> flag (scan_j o ins outs i j st) j = true).
Proof.
  intros Hi Hj. destruct st as [[pflag extra] active]. intros (HG & Ha0 & Ha1).
  assert (Hri : reach me i).
  { apply HG. apply in_app_iff. left; exact Hi. }
  assert (Hin : (i < n)%nat) by (apply (reach_lt me i Hri)).
  unfold scan_j. destruct (pflag j) eqn:Ej.
  { split; [split; auto|]. split; [intros x Hx; exact Hx|]. intros _. exact Ej. }
  assert (Hadd : adj i j ->
     SI g (setflag j pflag, extra ++ [j], true) /\ grows (pflag, extra, active) (setflag j pflag, extra ++ [j], true) /\
     (adj i j -> flag (setflag j pflag, extra ++ [j], true) j = true)).
  { intros Hadj. split; [|split].
    - cbn. split; [rewrite app_assoc; apply GI_add; auto; apply reach_step with i; auto|].
      split; [discriminate|]. intros _. destruct extra; discriminate.
    - intros x Hx. cbn in *. apply setflag_mono, Hx.
    - intros _. cbn. unfold setflag. rewrite Nat.eqb_refl. reflexivity. }
  destruct (hit o (ins i) (outs j)) eqn:H1.
  - assert (E : setflag j pflag j = true) by (unfold setflag; rewrite Nat.eqb_refl; reflexivity).
    rewrite E. apply Hadd. split; [exact Hin|split; [exact Hj|]]. left. apply hit_iff, H1.
  - rewrite Ej. destruct (hit o (outs i) (ins j)) eqn:H2.
    + apply Hadd. split; [exact Hin|split; [exact Hj|]]. right. apply hit_iff, H2.
    + split; [split; auto|]. split; [intros x Hx; exact Hx|].
      intros (_ & _ & [H|H]); apply hit_iff in H; congruence.
Qed.

Lemma scan_js_ok g i l st : In i g -> (forall j, In j l -> (j < n)%nat) -> SI g st ->
  let st' := fold_left (fun st j => scan_j o ins outs i j st) l st in
  SI g st' /\ grows st st' /\ (forall j, In j l -> adj i j -> flag st' j = true).
Proof.
  intros Hi. revert st. induction l as [|j l IH]; intros st Hl HS; cbn [fold_left].
  - split; [exact HS|]. split; [intros x Hx; exact Hx|intros j []].
  - destruct (scan_j_ok g i j st Hi (Hl j (or_introl eq_refl)) HS) as (S1 & G1 & F1).
    destruct (IH _ (fun x Hx => Hl x (or_intror Hx)) S1) as (S2 & G2 & F2).
    split; [exact S2|]. split; [intros x Hx; apply G2, G1, Hx|].
    intros x [<-|Hx] Hadj; [apply G2, F1, Hadj|apply F2; auto].
Qed.

Lemma scan_is_ok g l st : incl l g -> SI g st ->
  let st' := fold_left (fun st i => fold_left (fun st j => scan_j o ins outs i j st) (seq 0 n) st) l st in
  SI g st' /\ grows st st' /\ (forall i j, In i l -> adj i j -> flag st' j = true).
Proof.
  revert st. induction l as [|i l IH]; intros st Hl HS; cbn [fold_left].
  - split; [exact HS|]. split; [intros x Hx; exact Hx|intros i j []].
  - destruct (scan_js_ok g i (seq 0 n) st (Hl i (or_introl eq_refl))) as (S1 & G1 & F1); auto.
    { intros j Hj. apply in_seq in Hj. lia. }
    destruct (IH _ (fun x Hx => Hl x (or_intror Hx)) S1) as (S2 & G2 & F2).
    split; [exact S2|]. split; [intros x Hx; apply G2, G1, Hx|].
    intros i' j [<-|Hx] Hadj; [|apply (F2 i'); auto].
    apply G2, F1; auto. apply in_seq. destruct Hadj as (_ & H & _). lia.
Qed.

Lemma GI_length pflag g : GI pflag g -> (length g <= n)%nat.
Proof.
  intros (_ & H & Hr). rewrite <- (seq_length n 0). apply NoDup_incl_length; [exact H|].
  intros x Hx. apply in_seq. apply Hr, reach_lt in Hx. lia.
Qed.

Lemma close_ok fuel pflag g : GI pflag g -> (forall q, adj me q -> pflag q = true) ->
  (n + 1 < fuel + length g)%nat ->
  exists pflag' g', close o n ins outs fuel pflag g = Some (pflag', g') /\ GI pflag' g' /\
    (forall q, pflag' q = true <-> reach me q).
Proof.
  revert pflag g. induction fuel as [|fuel IH]; intros pflag g HG Hn Hf.
  - pose proof (GI_length _ _ HG). lia.
  - cbn [close]. unfold pass.
    destruct (scan_is_ok g g (pflag, [], false)) as (S1 & G1 & F1).
    { apply incl_refl. } { cbn. rewrite app_nil_r. split; [exact HG|split; [auto|discriminate]]. }
    destruct (fold_left _ g (pflag, [], false)) as [[pf ex] ac]. cbn in S1, G1, F1.
    destruct S1 as (HG' & Ha0 & Ha1). destruct ac.
    + apply IH.
      * exact HG'.
      * intros q Hq. apply G1. cbn. apply Hn, Hq.
      * rewrite app_length. specialize (Ha1 eq_refl). destruct ex; [congruence|]. cbn. lia.
    + rewrite (Ha0 eq_refl) in *. rewrite app_nil_r in *.
      exists pf, g. split; [reflexivity|split; [exact HG'|]].
      intros q. split.
      * intros Hq. apply HG', HG', Hq.
      * intros Hq. induction Hq as [q Hq|q s Hq IHq Hqs].
        -- apply G1. cbn. apply Hn, Hq.
        -- apply (F1 q s); [|exact Hqs]. apply HG', IHq.
Qed.

Lemma group_of_ok sp rp :
  (forall q, In q sp <-> o_collide o (ins me) (outs q) <> None /\ (q < n)%nat) ->
  (forall q, In q rp <-> o_collide o (outs me) (ins q) <> None /\ (q < n)%nat) ->
  exists g, group_of o n ins outs sp rp = Some g /\ (forall q, In q g <-> reach me q) /\
    exists f, g = filter f (seq 0 n).
Proof.
  intros Hs Hr. unfold group_of.
  assert (Hs' : forall p, In p sp -> reach me p).
  { intros p Hp. apply Hs in Hp. apply reach_one. split; [exact Hme|]. tauto. }
  assert (Hr' : forall p, In p rp -> reach me p).
  { intros p Hp. apply Hr in Hp. apply reach_one. split; [exact Hme|]. tauto. }
  assert (HG0 : GI (fun _ => false) []).
  { split; [|split]; [intros x; cbn; intuition congruence|constructor|intros x []]. }
  pose proof (add_procs_ok sp _ _ HG0 Hs') as H1.
  destruct (add_procs sp (fun _ => false, [])) as [pf1 g1]. destruct H1 as (G1 & F1 & _).
  pose proof (add_procs_ok rp _ _ G1 Hr') as H2.
  destruct (add_procs rp (pf1, g1)) as [pf2 g2]. destruct H2 as (G2 & F2 & M2).
  destruct (close_ok (S (S n)) pf2 g2 G2) as (pf & g & E & HG & HR).
  { intros q (_ & Hq & [H|H]); [apply M2, F1, Hs|apply F2, Hr]; auto. }
  { lia. }
  rewrite E. cbn [bind].
  pose proof (GI_length _ _ HG) as Hl.
  destruct (Nat.ltb_spec n (length g)); [lia|].
  assert (Hinc : (length (filter pf (seq 0 n)) <= length g)%nat).
  { apply NoDup_incl_length; [apply NoDup_filter, seq_NoDup|].
    intros x Hx. apply filter_In in Hx. apply HG, Hx. }
  destruct (Nat.ltb_spec (length g) (length (filter pf (seq 0 n)))); [lia|].
  exists (filter pf (seq 0 n)). split; [reflexivity|]. split; [|eauto].
  intros q. rewrite filter_In, in_seq, HR. split; [tauto|]. intros Hq. split; [|exact Hq].
  apply reach_lt in Hq. lia.
Qed.
End Group.

Lemma sends_procs me q : (me < n)%nat ->
  In q (map e_proc (send_entries o n ins outs me)) <-> o_collide o (ins me) (outs q) <> None /\ (q < n)%nat.
Proof.
  intros H. unfold send_entries. rewrite in_map_iff. split.
  - intros (e & <- & He). apply in_flat_map in He as (p & Hp & He).
    apply ring_In in Hp; [|exact H]. destruct (o_collide _ _ _) eqn:E; [|destruct He].
    destruct He as [<-|[]]. cbn. split; [congruence|exact Hp].
  - intros (Hc & Hq). destruct (o_collide o (ins me) (outs q)) as [ov|] eqn:E; [|congruence].
    eexists. split; [|apply in_flat_map; exists q; split; [apply ring_In; auto|rewrite E; left; reflexivity]].
    reflexivity.
Qed.
Lemma recvs_procs me q : (me < n)%nat ->
  In q (map e_proc (recv_entries o n ins outs me)) <-> o_collide o (outs me) (ins q) <> None /\ (q < n)%nat.
Proof.
  intros H. unfold recv_entries. rewrite in_map_iff. split.
  - intros (e & <- & He). apply in_flat_map in He as (p & Hp & He).
    apply ring_In in Hp; [|exact H]. destruct (o_collide _ _ _) eqn:E; [|destruct He].
    destruct He as [<-|[]]. cbn. split; [congruence|exact Hp].
  - intros (Hc & Hq). destruct (o_collide o (outs me) (ins q)) as [ov|] eqn:E; [|congruence].
    eexists. split; [|apply in_flat_map; exists q; split; [apply ring_In; auto|rewrite E; left; reflexivity]].
    reflexivity.
Qed.

(** the group of every rank is its connected component in increasing order *)
Lemma setup_coll me : (me < n)%nat -> exists g,
  setup o n true ins outs me = Some (mkrplan
     (send_entries o n ins outs me) (length (send_entries o n ins outs me))
     (recv_entries o n ins outs me) (length (recv_entries o n ins outs me))
     (buflocs 0 (recv_entries o n ins outs me)) false g
     (a2a_side (send_entries o n ins outs me) g 0) (a2a_side (recv_entries o n ins outs me) g 0)
     (sum_sizes (send_entries o n ins outs me)) (sum_sizes (recv_entries o n ins outs me))) /\
  (forall q, In q g <-> reach me q) /\ exists f, g = filter f (seq 0 n).
Proof.
  intros H. unfold setup. rewrite !drop_self_coll, !firstn_all. cbn [negb].
  destruct (group_of_ok me H (map e_proc (send_entries o n ins outs me)) (map e_proc (recv_entries o n ins outs me)))
    as (g & E & Hg & Hf).
  - intros q. apply sends_procs, H.
  - intros q. apply recvs_procs, H.
  - rewrite E. cbn [bind]. rewrite Nat.eqb_refl. cbn [negb]. exists g. auto.
Qed.

Lemma sorted_unique (f g : nat -> bool) :
  (forall q, In q (filter f (seq 0 n)) <-> In q (filter g (seq 0 n))) -> filter f (seq 0 n) = filter g (seq 0 n).
Proof.
  intros H. apply filter_ext_in. intros x Hx. specialize (H x). rewrite !filter_In in H.
  destruct (f x), (g x); auto; intuition congruence.
Qed.

End Plan.
