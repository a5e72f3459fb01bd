(** Remap32Proofs.v : remap() with routines that agree on arrays of at most INT_MAX elements. *)

From Verif Require Import Base Spec Sched SchedProofs MemProofs Phases Exec Layout Overflow OverflowProofs Remap Remap32Sim.
Local Open Scope Z_scope.

(** ** specification: every array of a rank has at most INT_MAX elements *)
Definition ints_index {A} (m : @rmem A) : Prop := forall b, zlen (getb b m) <= INT_MAX.

Lemma ints_set {A} b v (m : @rmem A) : ints_index m -> zlen v = zlen (getb b m) -> ints_index (setb b v m).
Proof. intros H E c. specialize (H c) as Hc. destruct b, c; cbn [getb setb m_in m_out m_send m_recv] in *; try assumption; rewrite E; assumption. Qed.
Lemma ints_wrm {A} loc pl (m m' : @rmem A) : ints_index m -> wrm loc pl m = Some m' -> ints_index m'.
Proof.
  intros H W. apply wrm_spec in W as (E1 & E2 & E3 & E4 & _). intros b. specialize (H b). destruct b; cbn [getb] in *; congruence.
Qed.

Section Same.
Context {A ext plan : Type}.
Variable o : rops A ext plan.
Variables pack' unpack' : list A -> Z -> list A -> Z -> plan -> option (list A).
Definition ops_with : rops A ext plan := mkrops (o_collide o) (o_soff o) (o_splan o) (o_roff o) (o_rplan o) (o_size o) (o_outvol o) pack' unpack'.

Definition agree (p q : list A -> Z -> list A -> Z -> plan -> option (list A)) (off : Z) (pl : plan) : Prop :=
  (forall x y b0, 0 <= b0 -> zlen x <= INT_MAX -> zlen y <= INT_MAX ->
    p x off y b0 pl = q x off y b0 pl /\ forall r, p x off y b0 pl = Some r -> zlen r = zlen y).
Definition agree_un (p q : list A -> Z -> list A -> Z -> plan -> option (list A)) (off : Z) (pl : plan) : Prop :=
  (forall x y b0, 0 <= b0 -> zlen x <= INT_MAX -> zlen y <= INT_MAX ->
    p x b0 y off pl = q x b0 y off pl /\ forall r, p x b0 y off pl = Some r -> zlen r = zlen y).

Variable n : nat.
Variable coll : bool.
Variables ins outs : nat -> ext.
Variables din dout : bsel.
Variable me : nat.
Hypothesis Hsend : forall p ov, o_collide o (ins me) (outs p) = Some ov -> 0 <= o_size o ov /\ agree (o_pack o) pack' (o_soff o (ins me) ov) (o_splan o (ins me) ov).
Hypothesis Hrecv : forall p ov, o_collide o (outs me) (ins p) = Some ov -> 0 <= o_size o ov /\ agree_un (o_unpack o) unpack' (o_roff o (outs me) ov) (o_rplan o (outs me) ov).

Local Notation Inv := (@ints_index A).
Definition sgood (e : entry (plan := plan)) := 0 <= e_size e /\ agree (o_pack o) pack' (e_off e) (e_plan e).
Definition rgood (e : entry (plan := plan)) := 0 <= e_size e /\ agree_un (o_unpack o) unpack' (e_off e) (e_plan e).

Lemma sends_good : Forall sgood (send_entries o n ins outs me).
Proof.
  apply Forall_forall. intros e H. unfold send_entries in H. apply in_flat_map in H as (p & _ & H). destruct (o_collide o (ins me) (outs p)) as [ov|] eqn:E; [|destruct H].
  destruct H as [<- |[]]. unfold sgood. cbn [e_size e_off e_plan]. apply (Hsend p ov E).
Qed.
Lemma recvs_good : Forall rgood (recv_entries o n ins outs me).
Proof.
  apply Forall_forall. intros e H. unfold recv_entries in H. apply in_flat_map in H as (p & _ & H). destruct (o_collide o (outs me) (ins p)) as [ov|] eqn:E; [|destruct H].
  destruct H as [<- |[]]. unfold rgood. cbn [e_size e_off e_plan]. apply (Hrecv p ov E).
Qed.

Lemma pack_rel db b0 e : 0 <= b0 -> sgood e -> lrel Inv (do_pack o din db b0 e) (do_pack ops_with din db b0 e).
Proof.
  intros Hb (_ & H) m Hm. unfold do_pack. cbn [ops_with o_pack]. destruct (H (getb din m) (getb db m) b0 Hb (Hm _) (Hm _)) as (E & K). rewrite <- E. split; [reflexivity|].
  intros m' E'. apply bind_Some_inv in E' as (r & Er & E'). injection E' as <-. apply ints_set; auto.
Qed.
Lemma unpack_rel b0 e : 0 <= b0 -> rgood e -> lrel Inv (do_unpack o dout b0 e) (do_unpack ops_with dout b0 e).
Proof.
  intros Hb (_ & H) m Hm. unfold do_unpack. cbn [ops_with o_unpack]. destruct (H (getb BRecv m) (getb dout m) b0 Hb (Hm _) (Hm _)) as (E & K). rewrite <- E. split; [reflexivity|].
  intros m' E'. apply bind_Some_inv in E' as (r & Er & E'). injection E' as <-. apply ints_set; auto.
Qed.
Lemma bad_rel : lrel Inv (@bad_local A) bad_local.
Proof. intros m _. split; [reflexivity|]. discriminate. Qed.

Lemma buflocs_nn l ib i loc : 0 <= ib -> Forall rgood l -> nth_error (buflocs ib l) i = Some loc -> 0 <= loc.
Proof.
  intros Hi H. revert ib i Hi. induction H as [|e l (He & _) H IH]; intros ib [|i] Hi E; cbn [buflocs nth_error] in E; try discriminate; [congruence|].
  apply (IH (ib + e_size e) i); [lia|assumption].
Qed.

Lemma Forall2_map_same {X} (R : instr -> instr -> Prop) (f g : X -> @instr A) l : (forall x, In x l -> R (f x) (g x)) -> Forall2 R (map f l) (map g l).
Proof. induction l as [|x l IH]; intros H; cbn [map]; constructor; [apply H; left; reflexivity|apply IH; intros; apply H; right; assumption]. Qed.
Lemma Forall2_locals fs gs : Forall2 (lrel Inv) fs gs -> prel Inv (map ILocal fs) (map ILocal gs).
Proof. induction 1; cbn [map]; constructor; [constructor|]; assumption. Qed.

Lemma coll_send l side off : 0 <= off -> Forall sgood l -> Forall2 (lrel Inv) (coll_loop (do_pack o din BSend) l side off) (coll_loop (do_pack ops_with din BSend) l side off).
Proof.
  intros Ho H. revert off Ho. induction side as [|[[a b] [i|]] t IH]; intros off Ho; cbn [coll_loop]; [constructor| |apply IH; assumption].
  destruct (nth_error l i) as [e|] eqn:E; [|constructor; [apply bad_rel|constructor]].
  assert (G : sgood e) by (rewrite Forall_forall in H; apply H; eapply nth_error_In; eassumption).
  constructor; [apply pack_rel; assumption|]. apply IH. destruct G. lia.
Qed.
Lemma coll_recv l side off : 0 <= off -> Forall rgood l -> Forall2 (lrel Inv) (coll_loop (do_unpack o dout) l side off) (coll_loop (do_unpack ops_with dout) l side off).
Proof.
  intros Ho H. revert off Ho. induction side as [|[[a b] [i|]] t IH]; intros off Ho; cbn [coll_loop]; [constructor| |apply IH; assumption].
  destruct (nth_error l i) as [e|] eqn:E; [|constructor; [apply bad_rel|constructor]].
  assert (G : rgood e) by (rewrite Forall_forall in H; apply H; eapply nth_error_In; eassumption).
  constructor; [apply unpack_rel; assumption|]. apply IH. destruct G. lia.
Qed.

Lemma prog_rel pl : Forall sgood (rp_send pl) -> Forall rgood (rp_recv pl) -> rp_bufloc pl = buflocs 0 (rp_recv pl) ->
  prel Inv (remap_prog o coll din dout pl) (remap_prog ops_with coll din dout pl).
Proof.
  intros Hs Hr Hb. assert (Gs : forall i e, nth_error (rp_send pl) i = Some e -> sgood e) by (intros i e E; rewrite Forall_forall in Hs; apply Hs; eapply nth_error_In; eassumption).
  assert (Gr : forall i e, nth_error (rp_recv pl) i = Some e -> rgood e) by (intros i e E; rewrite Forall_forall in Hr; apply Hr; eapply nth_error_In; eassumption).
  unfold remap_prog. destruct (negb coll).
  - unfold remap_p2p. repeat apply Forall2_app.
    + apply Forall2_map_same. intros [i [e loc]] _. constructor.
    + assert (G : Forall sgood (firstn (rp_nsend pl) (rp_send pl))) by (apply Forall_forall; rewrite Forall_forall in Hs; intros e He; apply Hs; rewrite <- (firstn_skipn (rp_nsend pl)); apply in_or_app; left; assumption).
      induction G as [|e l He G IH]; cbn [flat_map app]; [constructor|]. constructor; [constructor; apply pack_rel; [lia|assumption]|]. constructor; [constructor|exact IH].
    + apply Forall2_locals. unfold self_copies. destruct (rp_self pl); [|constructor].
      destruct (nth_error (rp_send pl) (rp_nsend pl)) as [es|] eqn:E1; [|constructor; [apply bad_rel|constructor]].
      destruct (nth_error (rp_recv pl) (rp_nrecv pl)) as [er|] eqn:E2; [|constructor; [apply bad_rel|constructor]].
      destruct (nth_error (rp_bufloc pl) (rp_nrecv pl)) as [loc|] eqn:E3; [|constructor; [apply bad_rel|constructor]].
      assert (0 <= loc) by (rewrite Hb in E3; apply (buflocs_nn (rp_recv pl) 0 (rp_nrecv pl)); [lia|assumption|assumption]).
      constructor; [apply pack_rel; eauto|]. constructor; [apply unpack_rel; eauto|constructor].
    + induction (rp_nrecv pl) as [|k IH]; cbn [repeat]; constructor; [|exact IH]. constructor. intros id. unfold unpack_recv.
      destruct (nth_error (rp_recv pl) id) as [e|] eqn:E1; [|apply bad_rel]. destruct (nth_error (rp_bufloc pl) id) as [loc|] eqn:E2; [|apply bad_rel].
      apply unpack_rel; [|eauto]. rewrite Hb in E2. apply (buflocs_nn (rp_recv pl) 0 id); [lia|assumption|assumption].
  - unfold remap_coll. repeat apply Forall2_app.
    + apply Forall2_locals. apply coll_send; [lia|assumption].
    + destruct (rp_group pl); repeat constructor.
    + apply Forall2_locals. apply coll_recv; [lia|assumption].
Qed.

Lemma setup_fields pl : setup o n coll ins outs me = Some pl ->
  rp_send pl = send_entries o n ins outs me /\ rp_recv pl = recv_entries o n ins outs me /\ rp_bufloc pl = buflocs 0 (rp_recv pl).
Proof.
  unfold setup. destruct (negb coll); [intros [= <-]; repeat split|]. intros E. apply bind_Some_inv in E as (g & _ & E). injection E as <-. repeat split.
Qed.

Theorem code_rel : prel Inv (remap_code o n coll ins outs din dout me) (remap_code ops_with n coll ins outs din dout me).
Proof.
  unfold remap_code. change (setup ops_with n coll ins outs me) with (setup o n coll ins outs me). destruct (setup o n coll ins outs me) as [pl|] eqn:E.
  - apply setup_fields in E as (E1 & E2 & E3). apply prog_rel; [rewrite E1; apply sends_good|rewrite E2; apply recvs_good|assumption].
  - constructor; [constructor; apply bad_rel|constructor].
Qed.
End Same.
