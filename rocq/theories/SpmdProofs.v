(** SpmdProofs.v : the programs of all ranks stay in step and compute the shares of the global result. *)

From Coq Require Import String.
From Verif Require Import Base Spec Pack3d Pack2d Sched Remap RemapPlan RemapProofs Remap3d Remap2d RemapInst RemapThms Layout Setup3d Setup2d Spmd.

(** ** the machine *)
Section Machine.
Context {B T : Type}.
Implicit Types s t u : list (prog B T).
Lemma csteps_eq s t u : s = t -> csteps t u -> csteps s u.
Proof. now intros ->. Qed.
Lemma csteps_trans s t u : csteps s t -> csteps t u -> csteps s u.
Proof. induction 1; eauto using csteps_step. Qed.

Lemma map_inj2 {X Y Z : Type} (F : X -> Y -> Z) (l l' : list (X * Y)) :
  (forall x y x' y', F x y = F x' y' -> x = x' /\ y = y') ->
  map (fun c => F (fst c) (snd c)) l = map (fun c => F (fst c) (snd c)) l' -> l = l'.
Proof.
  intros HF. revert l'. induction l as [|[x y] l IH]; intros [|[x' y'] l'] E; try discriminate; [reflexivity|].
  cbn [map fst snd] in E. injection E as E1 E2. destruct (HF _ _ _ _ E1) as [-> ->]. f_equal. auto.
Qed.
Lemma cstep_det s t u : s <> [] -> cstep s t -> cstep s u -> t = u.
Proof.
  intros Hs H1 H2. inversion H1 as [l El|l El|l El|l Hl El]; subst; inversion H2 as [l' El'|l' El'|l' El'|l' Hl' El']; subst;
    try (destruct l, l'; cbn in *; congruence).
  - apply map_inj2 in El'; [subst; reflexivity|]. intros ? ? ? ? [=]; auto.
  - apply map_inj2 in El'; [subst; reflexivity|]. intros ? ? ? ? [=]; auto.
  - apply map_inj2 in El'; [subst; reflexivity|]. intros ? ? ? ? [=]; auto.
  - apply map_inj2 in El'; [subst; reflexivity|]. intros ? ? ? ? [=]; auto.
Qed.
Lemma cstep_length s t : cstep s t -> List.length t = List.length s.
Proof.
  destruct 1; rewrite ?map_length, ?combine_length, ?seq_length; auto. lia.
Qed.
Definition stopped s : Prop := forall t, ~ cstep s t.
(** with a stopped end state, every partial execution can be continued to that end *)
Lemma csteps_confluent s t e : s <> [] -> csteps s e -> stopped e -> csteps s t -> csteps t e.
Proof.
  intros Hs He Hst H. revert e He Hst. induction H as [s|s t u H1 H2 IH]; intros e He Hst; [exact He|].
  assert (Ht : t <> []) by (intros ->; apply cstep_length in H1; destruct s; cbn in *; congruence).
  inversion He as [s0|s0 t' u' H1' H2']; subst.
  - exfalso. exact (Hst _ H1).
  - rewrite <- (cstep_det _ _ _ Hs H1 H1') in H2'. apply IH; auto.
Qed.
Lemma stopped_ret n (x : nat -> T) : (1 <= n)%nat -> stopped (map (fun r => @PRet B T (x r)) (seq 0 n)).
Proof. intros Hn t H. destruct n; [lia|]. inversion H as [l E|l E|l E|l Hl E]; destruct l; discriminate E. Qed.
Lemma stopped_err n (m : string) : (1 <= n)%nat -> stopped (map (fun _ => @PErr B T m) (seq 0 n)).
Proof. intros Hn t H. destruct n; [lia|]. inversion H as [l E|l E|l E|l Hl E]; destruct l; discriminate E. Qed.
Lemma stopped_ub n : (1 <= n)%nat -> stopped (map (fun _ => @PUB B T) (seq 0 n)).
Proof. intros Hn t H. destruct n; [lia|]. inversion H as [l E|l E|l E|l Hl E]; destruct l; discriminate E. Qed.

(** ** steps of ranks that run the same text *)
Variable n : nat.
Notation lift f := (map f (seq 0 n)).
Lemma lift_max (v : nat -> Z) (k : nat -> Z -> prog B T) u :
  csteps (lift (fun r => k r (zmax_list (map v (seq 0 n))))) u -> csteps (lift (fun r => PMax (v r) (k r))) u.
Proof.
  intros H. eapply csteps_step; [|exact H].
  pose proof (cs_max (B := B) (T := T) (map (fun r => (v r, k r)) (seq 0 n))) as S. rewrite !map_map in S. exact S.
Qed.
Lemma lift_sum (v : nat -> Z) (k : nat -> Z -> prog B T) u :
  csteps (lift (fun r => k r (zsum_list (map v (seq 0 n))))) u -> csteps (lift (fun r => PSum (v r) (k r))) u.
Proof.
  intros H. eapply csteps_step; [|exact H].
  pose proof (cs_sum (B := B) (T := T) (map (fun r => (v r, k r)) (seq 0 n))) as S. rewrite !map_map in S. exact S.
Qed.
Lemma lift_gather (v : nat -> B) (k : nat -> list B -> prog B T) u :
  csteps (lift (fun r => k r (map v (seq 0 n)))) u -> csteps (lift (fun r => PGather (v r) (k r))) u.
Proof.
  intros H. eapply csteps_step; [|exact H].
  pose proof (cs_gather (B := B) (T := T) (map (fun r => (v r, k r)) (seq 0 n))) as S. rewrite !map_map in S. exact S.
Qed.
Lemma combine_seq {X} (f : nat -> X) a k : combine (seq a k) (map f (seq a k)) = map (fun r => (r, f r)) (seq a k).
Proof. revert a. induction k; intros a; cbn; [reflexivity|]. f_equal. apply IHk. Qed.
Lemma nth_seq a k r : nth_error (seq a k) r = if Nat.ltb r k then Some (a + r)%nat else None.
Proof.
  revert a r. induction k as [|k IH]; intros a r; [destruct r; reflexivity|].
  destruct r; [cbn; f_equal; lia|]. cbn [seq nth_error]. rewrite IH.
  destruct (Nat.ltb_spec r k), (Nat.ltb_spec (S r) (S k)); try lia; [f_equal; lia|reflexivity].
Qed.
Lemma lift_create (g : nat -> list nat) (k : nat -> list nat -> prog B T) u :
  (forall r, (r < n)%nat -> g r <> [] -> In r (g r)) ->
  (forall r q, (r < n)%nat -> In q (g r) -> (q < n)%nat /\ g q = g r) ->
  csteps (lift (fun r => k r (g r))) u -> csteps (lift (fun r => PCreate (g r) (k r))) u.
Proof.
  intros Hm Hg H. eapply csteps_step; [|exact H].
  pose proof (cs_create (B := B) (T := T) (map (fun r => (g r, k r)) (seq 0 n))) as S.
  rewrite !map_map in S. rewrite map_length, seq_length, combine_seq, map_map in S. cbn [fst snd] in S.
  replace (lift (fun r => k r (g r))) with (lift (fun r => k r (newcomm r (g r)))).
  - apply S. intros r x q E Hq. rewrite !nth_error_map, !nth_seq in *.
    destruct (Nat.ltb_spec r n); [|discriminate]. cbn [option_map Nat.add] in E. injection E as <-.
    destruct (Hg r q ltac:(auto) Hq) as [Hqn Eq]. destruct (Nat.ltb_spec q n); [|lia]. cbn [option_map Nat.add]. congruence.
  - apply map_ext_in. intros r Hr. apply in_seq in Hr. f_equal. unfold newcomm.
    destruct (g r) as [|a l] eqn:E; [reflexivity|]. rewrite <- E in *.
    assert (M : member r (g r) = true).
    { unfold member. apply existsb_exists. exists r. split; [|apply Nat.eqb_refl]. apply Hm; [lia|congruence]. }
    rewrite M. reflexivity.
Qed.
End Machine.

(** ** the reductions *)
Lemma zmax_flags n (f : nat -> bool) : (1 <= n)%nat -> zmax_list (map (fun r => b2z (f r)) (seq 0 n)) = b2z (anyrank n f).
Proof.
  intros Hn. unfold anyrank.
  assert (G : forall l x, fold_left Z.max (map (fun r => b2z (f r)) l) (b2z x) = b2z (x || existsb f l)).
  { induction l as [|r l IH]; intros x; cbn [map fold_left existsb]; [now rewrite Bool.orb_false_r|].
    replace (Z.max (b2z x) (b2z (f r))) with (b2z (x || f r)) by (destruct x, (f r); reflexivity).
    rewrite IH, Bool.orb_assoc. reflexivity. }
  destruct n; [lia|]. cbn [seq map zmax_list existsb]. apply G.
Qed.
Lemma zsum_ranks n (f : nat -> Z) : zsum_list (map f (seq 0 n)) = sumranks n f.
Proof. unfold zsum_list, sumranks. induction (seq 0 n) as [|r l IH]; cbn; [reflexivity|]. now rewrite IH. Qed.
Lemma b2z_set b : negb (b2z b =? 0) = b.
Proof. destruct b; reflexivity. Qed.
Lemma b2z_clear b : (b2z b =? 0) = negb b.
Proof. destruct b; reflexivity. Qed.

(** ** Remap setup *)
Section RemapSteps.
Context {A ext plan T : Type}.
Variables (o : rops A ext plan) (n : nat).
Hypothesis Sym : forall a b, o_collide o a b = o_collide o b a.
Notation lift f := (map f (seq 0 n)).

Definition plan0 : @rplan plan := mkrplan [] 0 [] 0 [] false [] [] [] 0 0.
Definition planof (coll : bool) (ins outs : nat -> ext) (r : nat) : rplan :=
  match setup o n coll ins outs r with Some pl => pl | None => plan0 end.
Definition lmapof (coll : bool) (ins outs : nat -> ext) (r : nat) : lremap :=
  (planof coll ins outs r, rp_group (planof coll ins outs r)).

Lemma adj_ext ins outs ins' outs' p q : (forall r, (r < n)%nat -> ins r = ins' r /\ outs r = outs' r) ->
  adj o n ins outs p q -> adj o n ins' outs' p q.
Proof.
  intros H (H1 & H2 & H3). split; [auto|]. split; [auto|].
  destruct (H p H1) as [<- <-], (H q H2) as [<- <-]. exact H3.
Qed.
Lemma reach_ext ins outs ins' outs' p q : (forall r, (r < n)%nat -> ins r = ins' r /\ outs r = outs' r) ->
  reach o n ins outs p q -> reach o n ins' outs' p q.
Proof.
  intros H. induction 1 as [q Ha|q s Hr IH Ha].
  - apply reach_one. eapply adj_ext; eauto.
  - apply reach_step with q; auto. eapply adj_ext; eauto.
Qed.
Lemma flat_map_ext_in' {X Y} (f g : X -> list Y) l : (forall x, In x l -> f x = g x) -> flat_map f l = flat_map g l.
Proof. intros H. induction l as [|x l IH]; cbn; [reflexivity|]. rewrite H by now left. rewrite IH; [reflexivity|]. intros; apply H; now right. Qed.
Lemma setup_ext coll ins outs ins' outs' me : (me < n)%nat -> (forall r, (r < n)%nat -> ins r = ins' r /\ outs r = outs' r) ->
  setup o n coll ins outs me = setup o n coll ins' outs' me.
Proof.
  intros Hm H.
  assert (Es : send_entries o n ins outs me = send_entries o n ins' outs' me).
  { unfold send_entries. destruct (H me Hm) as [-> _]. apply flat_map_ext_in'. intros q Hq.
    apply ring_In in Hq; auto. destruct (H q Hq) as [_ ->]. reflexivity. }
  assert (Er : recv_entries o n ins outs me = recv_entries o n ins' outs' me).
  { unfold recv_entries. destruct (H me Hm) as [_ ->]. apply flat_map_ext_in'. intros q Hq.
    apply ring_In in Hq; auto. destruct (H q Hq) as [-> _]. reflexivity. }
  destruct coll.
  - destruct (setup_coll o n ins outs me Hm) as (g & E & Hg & f & Ef).
    destruct (setup_coll o n ins' outs' me Hm) as (g' & E' & Hg' & f' & Ef').
    assert (Eg : g = g').
    { subst g g'. apply (sorted_unique n ins outs). intros q. rewrite Hg, Hg'. split; apply reach_ext; auto.
      intros r Hr. destruct (H r Hr) as [Ei Eo]. auto. }
    rewrite E, E', Es, Er, Eg. reflexivity.
  - unfold setup. rewrite Es, Er. cbn [negb]. destruct (H me Hm) as [_ ->]. reflexivity.
Qed.

Lemma planof_some coll ins outs r : (r < n)%nat -> setup o n coll ins outs r = Some (planof coll ins outs r).
Proof. intros Hr. unfold planof. destruct (setup_total o n coll ins outs r Hr) as (pl & ->). reflexivity. Qed.
Lemma planof_group ins outs r q : (r < n)%nat -> In q (rp_group (planof true ins outs r)) <-> reach o n ins outs r q.
Proof.
  intros Hr. unfold planof. destruct (setup_coll o n ins outs r Hr) as (g & E & Hg & _). rewrite E. apply Hg.
Qed.
Lemma planof_same ins outs r q : (r < n)%nat -> In q (rp_group (planof true ins outs r)) ->
  (q < n)%nat /\ rp_group (planof true ins outs q) = rp_group (planof true ins outs r).
Proof.
  intros Hr Hq. apply planof_group in Hq; auto. destruct (reach_lt o n ins outs r q Hq) as [_ Hqn]. split; auto.
  pose proof (planof_group ins outs q) as G1. pose proof (planof_group ins outs r) as G2.
  unfold planof in *. destruct (setup_coll o n ins outs r Hr) as (g & E & _ & f & Ef).
  destruct (setup_coll o n ins outs q Hqn) as (g' & E' & _ & f' & Ef'). rewrite E, E' in *. cbn [rp_group] in *.
  subst g g'. apply (sorted_unique n ins outs). intros s. rewrite G1, G2 by auto. split; intros Hs.
  - eapply reach_trans; [exact Hq|exact Hs].
  - eapply reach_trans; [|exact Hs]. apply reach_sym; auto.
Qed.
Lemma planof_self ins outs r : (r < n)%nat -> rp_group (planof true ins outs r) <> [] -> In r (rp_group (planof true ins outs r)).
Proof.
  intros Hr Hne. destruct (rp_group (planof true ins outs r)) as [|q l] eqn:E; [contradiction|]. rewrite <- E.
  assert (Hq : In q (rp_group (planof true ins outs r))) by (rewrite E; now left).
  apply planof_group in Hq; auto. apply planof_group; auto. eapply reach_trans; [exact Hq|]. apply reach_sym; auto.
Qed.
Lemma planof_p2p ins outs r : rp_group (planof false ins outs r) = [].
Proof. unfold planof, setup. cbn [negb]. reflexivity. Qed.

Lemma remap_steps coll ins outs (k : nat -> lremap -> prog ext T) u :
  csteps (lift (fun r => k r (lmapof coll ins outs r))) u ->
  csteps (lift (fun r => remap_rank o n coll r (ins r) (outs r) (k r))) u.
Proof.
  intros H. unfold remap_rank. apply lift_gather. apply lift_gather.
  assert (E : forall r, (r < n)%nat ->
    setup o n coll (fun q => nth q (map ins (seq 0 n)) (ins r)) (fun q => nth q (map outs (seq 0 n)) (outs r)) r
    = Some (planof coll ins outs r)).
  { intros r Hr. rewrite <- planof_some by auto. apply setup_ext; auto.
    intros q Hq. assert (L : forall f : nat -> ext, nth q (map f (seq 0 n)) (f r) = f q); [|auto].
    intros f. rewrite (map_nth f). rewrite seq_nth by auto. reflexivity. }
  destruct coll.
  - rewrite (map_ext_in _ (fun r => PCreate (rp_group (planof true ins outs r)) (fun comm => k r (planof true ins outs r, comm)))).
    + apply lift_create; [intros; apply planof_self; auto|intros; now apply planof_same|]. exact H.
    + intros r Hr. apply in_seq in Hr. rewrite E by lia. reflexivity.
  - rewrite (map_ext_in _ (fun r => k r (lmapof false ins outs r))); [exact H|].
    intros r Hr. apply in_seq in Hr. rewrite E by lia. unfold lmapof. rewrite planof_p2p. reflexivity.
Qed.
End RemapSteps.
