(** RemapMain.v : the generic remap theorem. *)

From Verif Require Import Base Pack3dProofs Sched SchedProofs MemProofs Phases Remap RemapPlan RemapProofs RemapTriple.

Definition isdata (b : bsel) : Prop := b = BIn \/ b = BOut.

Section Main.
Context {A ext plan E : Type}.
Variable o : rops A ext plan.
Variable elems : ext -> list E.
Variable inbx : E -> ext -> Prop.
Variable ain aout : ext -> E -> Z.
Hypothesis SP : rspec o elems inbx ain aout.

Variable n : nat.
Variable eager : nat -> nat -> bool.
Variable ins outs : nat -> ext.
Variable din dout : bsel.
Hypothesis Hdin : isdata din.
Hypothesis Hdout : isdata dout.

(** an element of an out box lies in at most one in box *)
Hypothesis H_disj : forall r p p' e, (r < n)%nat -> (p < n)%nat -> (p' < n)%nat ->
  inbx e (outs r) -> inbx e (ins p) -> inbx e (ins p') -> p = p'.

Local Notation entry := (@Remap.entry plan).

(** elements of the message p -> r *)
Definition ovl (r p : nat) : list E :=
  match o_collide o (outs r) (ins p) with Some ov => elems ov | None => [] end.

Lemma ovl_In r p e : In e (ovl r p) <-> inbx e (outs r) /\ inbx e (ins p).
Proof.
  unfold ovl. destruct (o_collide o (outs r) (ins p)) as [ov|] eqn:Ec.
  - rewrite (sp_mem _ _ _ _ _ SP). apply (sp_some _ _ _ _ _ SP _ _ _ _ Ec).
  - split; [intros []|]. intros (H1 & H2). exact (sp_none _ _ _ _ _ SP _ _ _ Ec H1 H2).
Qed.

Lemma ovl_NoDup r p : NoDup (ovl r p).
Proof. unfold ovl. destruct (o_collide _ _ _); [apply (sp_nodup _ _ _ _ _ SP)|constructor]. Qed.

Lemma recv_In r e : (r < n)%nat -> In e (recv_entries o n ins outs r) -> (e_proc e < n)%nat /\ In e (rcvd o ins outs r (e_proc e)).
Proof.
  intros Hr H. apply in_flat_map in H as (p & Hp & H). apply ring_In in Hp; [|exact Hr].
  assert (Ep : e_proc e = p) by (eapply rcvd_proc; exact H). rewrite Ep. split; [exact Hp|exact H].
Qed.
Lemma send_In r e : (r < n)%nat -> In e (send_entries o n ins outs r) -> (e_proc e < n)%nat /\ In e (sent o ins outs r (e_proc e)).
Proof.
  intros Hr H. apply in_flat_map in H as (p & Hp & H). apply ring_In in Hp; [|exact Hr].
  assert (Ep : e_proc e = p) by (eapply sent_proc; exact H). rewrite Ep. split; [exact Hp|exact H].
Qed.
Lemma In_recv r p e : (r < n)%nat -> (p < n)%nat -> In e (rcvd o ins outs r p) -> In e (recv_entries o n ins outs r).
Proof. intros Hr Hp H. apply in_flat_map. exists p. split; [apply ring_In; auto|exact H]. Qed.
Lemma In_send r p e : (r < n)%nat -> (p < n)%nat -> In e (sent o ins outs r p) -> In e (send_entries o n ins outs r).
Proof. intros Hr Hp H. apply in_flat_map. exists p. split; [apply ring_In; auto|exact H]. Qed.

Lemma rcvd_spec r p e : In e (rcvd o ins outs r p) ->
  e_size e = zlen (ovl r p) /\
  forall loc m, do_unpack o dout loc e m = cpy dout BRecv (upairs loc (aout (outs r)) (ovl r p)) m.
Proof.
  unfold rcvd, ovl. destruct (o_collide o (outs r) (ins p)) as [ov|] eqn:Ec; [|intros []].
  intros [<-|[]]. cbn. split; [symmetry; apply (sp_len _ _ _ _ _ SP _ _ _ Ec)|].
  intros loc m. unfold do_unpack, cpy. cbn. rewrite (sp_unpack _ _ _ _ _ SP _ _ _ _ _ _ Ec). reflexivity.
Qed.
Lemma sent_spec r p e : In e (sent o ins outs r p) ->
  e_size e = zlen (ovl p r) /\
  forall db b0 m, do_pack o din db b0 e m = cpy db din (ppairs b0 (ain (ins r)) (ovl p r)) m.
Proof.
  unfold sent, ovl. rewrite (sp_sym _ _ _ _ _ SP (outs p) (ins r)).
  destruct (o_collide o (ins r) (outs p)) as [ov|] eqn:Ec; [|intros []].
  intros [<-|[]]. cbn. split; [symmetry; apply (sp_len _ _ _ _ _ SP _ _ _ Ec)|].
  intros db b0 m. unfold do_pack, cpy. cbn. rewrite (sp_pack _ _ _ _ _ SP _ _ _ _ _ _ Ec). reflexivity.
Qed.

Lemma recv_spec r e : (r < n)%nat -> In e (recv_entries o n ins outs r) ->
  e_size e = zlen (ovl r (e_proc e)) /\
  forall loc m, do_unpack o dout loc e m = cpy dout BRecv (upairs loc (aout (outs r)) (ovl r (e_proc e))) m.
Proof. intros Hr H. apply recv_In in H as (_ & H); [|exact Hr]. apply rcvd_spec, H. Qed.
Lemma send_spec r e : (r < n)%nat -> In e (send_entries o n ins outs r) ->
  e_size e = zlen (ovl (e_proc e) r) /\
  forall db b0 m, do_pack o din db b0 e m = cpy db din (ppairs b0 (ain (ins r)) (ovl (e_proc e) r)) m.
Proof. intros Hr H. apply send_In in H as (_ & H); [|exact Hr]. apply sent_spec, H. Qed.

Lemma recv_nonneg r : (r < n)%nat -> nonneg (recv_entries o n ins outs r).
Proof. intros Hr e He. apply recv_spec in He as (-> & _); [apply zlen_nonneg|exact Hr]. Qed.
Lemma send_nonneg r : (r < n)%nat -> nonneg (send_entries o n ins outs r).
Proof. intros Hr e He. apply send_spec in He as (-> & _); [apply zlen_nonneg|exact Hr]. Qed.

Lemma procs_NoDup (F : nat -> list entry) l : NoDup l -> (forall p e, In e (F p) -> e_proc e = p) ->
  (forall p, F p = [] \/ exists e, F p = [e]) -> NoDup (map e_proc (flat_map F l)).
Proof.
  intros ND HP H1. induction ND as [|p l Hp ND IH]; [constructor|]. cbn. rewrite map_app. apply NoDup_app'.
  - destruct (H1 p) as [->|(e & ->)]; cbn; repeat constructor. intros [].
  - exact IH.
  - intros x Hx Hx'. apply in_map_iff in Hx as (e & <- & He). apply in_map_iff in Hx' as (e' & E' & He').
    apply in_flat_map in He' as (q & Hq & He'). apply HP in He, He'. congruence.
Qed.
Lemma recv_procs_NoDup r : (r < n)%nat -> NoDup (map e_proc (recv_entries o n ins outs r)).
Proof.
  intros Hr. apply (procs_NoDup (rcvd o ins outs r)); [apply ring_NoDup, Hr| |intros; apply rcvd_one].
  intros p e He; eapply rcvd_proc; eauto.
Qed.
Lemma send_procs_NoDup r : (r < n)%nat -> NoDup (map e_proc (send_entries o n ins outs r)).
Proof.
  intros Hr. apply (procs_NoDup (sent o ins outs r)); [apply ring_NoDup, Hr| |intros; apply sent_one].
  intros p e He; eapply sent_proc; eauto.
Qed.

(** a message sent is a message expected, with the same size *)
Lemma send_to_recv r q e : (r < n)%nat -> (q < n)%nat -> In e (sent o ins outs r q) ->
  exists e', In e' (rcvd o ins outs q r) /\ e_size e' = e_size e.
Proof.
  intros Hr Hq He. pose proof (sent_rcvd o ins outs (sp_sym _ _ _ _ _ SP) r q) as H.
  apply in_map with (f := e_size) in He. rewrite H in He. apply in_map_iff in He as (e' & E' & He'). eauto.
Qed.
Lemma recv_to_send r q e : (r < n)%nat -> (q < n)%nat -> In e (rcvd o ins outs q r) ->
  exists e', In e' (sent o ins outs r q) /\ e_size e' = e_size e.
Proof.
  intros Hr Hq He. pose proof (sent_rcvd o ins outs (sp_sym _ _ _ _ _ SP) r q) as H.
  apply in_map with (f := e_size) in He. rewrite <- H in He. apply in_map_iff in He as (e' & E' & He'). eauto.
Qed.

(** all messages to rank r fit in the volume of its out box *)
Lemma recv_total r : (r < n)%nat -> sum_sizes (recv_entries o n ins outs r) <= Z.max 0 (o_outvol o (outs r)).
Proof.
  intros Hr.
  assert (Hsum : sum_sizes (recv_entries o n ins outs r) = zlen (flat_map (ovl r) (map e_proc (recv_entries o n ins outs r)))).
  { assert (Hs : forall e, In e (recv_entries o n ins outs r) -> e_size e = zlen (ovl r (e_proc e))).
    { intros e He. apply recv_spec; auto. }
    induction (recv_entries o n ins outs r) as [|e l IH]; [reflexivity|].
    cbn [map flat_map sum_sizes fold_right]. rewrite zlen_app, <- IH, Hs by (auto; try (left; reflexivity); intros; apply Hs; right; assumption).
    reflexivity. }
  rewrite Hsum.
  destruct (flat_map (ovl r) (map e_proc (recv_entries o n ins outs r))) as [|e0 t] eqn:Ef; [unfold zlen; cbn; lia|].
  assert (He0 : In e0 (flat_map (ovl r) (map e_proc (recv_entries o n ins outs r)))) by (rewrite Ef; left; reflexivity).
  rewrite <- Ef in *. clear Ef t.
  assert (Hin : forall e, In e (flat_map (ovl r) (map e_proc (recv_entries o n ins outs r))) -> inbx e (outs r)).
  { intros e He. apply in_flat_map in He as (p & _ & He). apply ovl_In in He. tauto. }
  rewrite <- (sp_outvol _ _ _ _ _ SP _ _ (Hin e0 He0)).
  assert (length (flat_map (ovl r) (map e_proc (recv_entries o n ins outs r))) <= length (elems (outs r)))%nat.
  { apply NoDup_incl_length.
    - apply NoDup_flat_map; [apply recv_procs_NoDup, Hr|intros; apply ovl_NoDup|].
      intros p q e Hp Hq He1 He2. apply ovl_In in He1, He2.
      apply in_map_iff in Hp as (ep & <- & Hp). apply in_map_iff in Hq as (eq & <- & Hq).
      apply recv_In in Hp as (Hp & _); [|exact Hr]. apply recv_In in Hq as (Hq & _); [|exact Hr].
      apply (H_disj r _ _ e); tauto.
    - intros e He. apply (sp_mem _ _ _ _ _ SP), Hin, He. }
  unfold zlen. lia.
Qed.

Lemma dout_recv : dout <> BRecv. Proof. destruct Hdout; subst; discriminate. Qed.
Lemma dout_send : dout <> BSend. Proof. destruct Hdout; subst; discriminate. Qed.
Lemma din_recv : din <> BRecv. Proof. destruct Hdin; subst; discriminate. Qed.
Lemma din_send : din <> BSend. Proof. destruct Hdin; subst; discriminate. Qed.

(** ** well-formedness *)

(** the receives posted by rank r in point-to-point mode, in closed form *)
Definition orecv (r : nat) : list entry := flat_map (rcvd o ins outs r) (others n r).
Definition osend (r : nat) : list entry := flat_map (sent o ins outs r) (others n r).

Definition p_recvs (r : nat) : list (nat * nat * Z * Z) :=
  map (fun '(irecv, (e, loc)) => (irecv, e_proc e, loc, e_size e))
      (combine (seq 0 (length (orecv r))) (locs 0 (orecv r))).
Definition p_sends (r : nat) : list ((rmem -> option rmem) * nat * Z) :=
  map (fun e => (do_pack o din BSend 0 e, e_proc e, e_size e)) (osend r).
Definition p_plan (r : nat) : @rplan plan :=
  mkrplan (send_entries o n ins outs r) (length (osend r)) (recv_entries o n ins outs r) (length (orecv r))
    (buflocs 0 (recv_entries o n ins outs r))
    (negb (Nat.eqb (length (orecv r)) (length (recv_entries o n ins outs r)))) [] [] []
    (max_sizes (osend r)) (o_outvol o (outs r)).

Lemma setup_p2p r : (r < n)%nat -> setup o n false ins outs r = Some (p_plan r).
Proof.
  intros Hr. unfold setup. cbn [negb]. rewrite nsend_p2p, nrecv_p2p by exact Hr. unfold p_plan.
  do 2 f_equal. unfold osend. rewrite send_entries_eq by exact Hr. rewrite firstn_app.
  rewrite Nat.sub_diag. cbn [firstn]. rewrite app_nil_r, firstn_all. reflexivity.
Qed.

Lemma combine_app_l {X Y} (a : list X) (b c : list Y) : length a = length b -> combine a (b ++ c) = combine a b.
Proof.
  revert b. induction a as [|x a IH]; intros [|y b] H; cbn in *; try discriminate; [reflexivity|].
  f_equal. apply IH. lia.
Qed.

Lemma locs_orecv r : (r < n)%nat -> locs 0 (recv_entries o n ins outs r) =
  locs 0 (orecv r) ++ locs (sum_sizes (orecv r)) (rcvd o ins outs r r).
Proof. intros Hr. rewrite recv_entries_eq by exact Hr. rewrite locs_app. reflexivity. Qed.

Lemma p_recvs_length r : length (p_recvs r) = length (orecv r).
Proof. unfold p_recvs. rewrite map_length, combine_length, seq_length, locs_length. lia. Qed.

Lemma code_p2p r : (r < n)%nat -> remap_code o n false ins outs din dout r =
  p2p_code p_recvs p_sends (fun r => self_copies o din dout (p_plan r)) (fun r => unpack_recv o dout (p_plan r)) r.
Proof.
  intros Hr. unfold remap_code. rewrite setup_p2p by exact Hr. unfold remap_prog. cbn [negb].
  unfold remap_p2p, p2p_code. f_equal; [|f_equal; [|f_equal]].
  - unfold irecv_code, p_recvs. rewrite map_map. cbn [rp_nrecv rp_recv rp_bufloc p_plan].
    change (combine (recv_entries o n ins outs r) (buflocs 0 (recv_entries o n ins outs r)))
      with (locs 0 (recv_entries o n ins outs r)).
    rewrite locs_orecv by exact Hr. rewrite combine_app_l by (rewrite seq_length, locs_length; reflexivity).
    apply map_ext. intros [i [e loc]]. reflexivity.
  - unfold send_code, p_sends. cbn [rp_nsend rp_send p_plan]. unfold osend at 1. rewrite send_entries_eq by exact Hr.
    rewrite firstn_app, Nat.sub_diag. cbn [firstn]. rewrite app_nil_r, firstn_all. fold (osend r).
    induction (osend r) as [|e l IH]; cbn; [reflexivity|]. do 2 f_equal. exact IH.
  - rewrite p_recvs_length. reflexivity.
Qed.

(** slots *)
Lemma p_recvs_In r i p loc len : In (i, p, loc, len) (p_recvs r) ->
  exists e, nth_error (locs 0 (orecv r)) i = Some (e, loc) /\ p = e_proc e /\ len = e_size e.
Proof.
  unfold p_recvs. rewrite in_map_iff. intros ([j [e l]] & H & Hin). injection H as <- <- <- <-.
  exists e. split; [|auto].
  assert (G : forall (X : list (entry * Z)) b j x, In (j, x) (combine (seq b (length X)) X) -> nth_error X (j - b) = Some x /\ (b <= j)%nat).
  { clear. induction X as [|y X IH]; intros b j x H; cbn in H; [destruct H|].
    destruct H as [H|H]; [injection H as <- <-; rewrite Nat.sub_diag; auto|].
    apply IH in H as (H & Hb). split; [|lia]. replace (j - b)%nat with (S (j - S b)) by lia. exact H. }
  rewrite <- (locs_length 0 (orecv r)) in Hin. apply G in Hin as (Hin & _). rewrite Nat.sub_0_r in Hin. exact Hin.
Qed.

Lemma nth_p_recvs r i e loc : nth_error (locs 0 (orecv r)) i = Some (e, loc) ->
  In (i, e_proc e, loc, e_size e) (p_recvs r).
Proof.
  intros H. unfold p_recvs. apply in_map_iff. exists (i, (e, loc)). split; [reflexivity|].
  assert (G : forall (X : list (entry * Z)) b j x, nth_error X j = Some x -> In ((b + j)%nat, x) (combine (seq b (length X)) X)).
  { clear. induction X as [|y X IH]; intros b [|j] x H; cbn in H; try discriminate.
    - injection H as <-. left. f_equal. lia.
    - right. replace (b + S j)%nat with (S b + j)%nat by lia. apply IH, H. }
  rewrite <- (locs_length 0 (orecv r)). apply (G _ 0%nat i (e, loc) H).
Qed.

Lemma ids_p_recvs r : ids_of (p_recvs r) = seq 0 (length (orecv r)).
Proof.
  unfold ids_of, p_recvs. rewrite map_map. rewrite <- (locs_length 0 (orecv r)).
  generalize 0%nat. induction (locs 0 (orecv r)) as [|[e l] X IH]; intros b; cbn; [reflexivity|]. f_equal. apply IH.
Qed.

Lemma orecv_In r e : (r < n)%nat -> In e (orecv r) -> In e (recv_entries o n ins outs r) /\ e_proc e <> r.
Proof.
  intros Hr He. split.
  - rewrite recv_entries_eq by exact Hr. apply in_app_iff. left. exact He.
  - apply in_flat_map in He as (p & Hp & He). apply others_In in Hp; [|exact Hr].
    assert (e_proc e = p) by (eapply rcvd_proc; exact He). lia.
Qed.
Lemma osend_In r e : (r < n)%nat -> In e (osend r) -> In e (send_entries o n ins outs r) /\ e_proc e <> r.
Proof.
  intros Hr He. split.
  - rewrite send_entries_eq by exact Hr. apply in_app_iff. left. exact He.
  - apply in_flat_map in He as (p & Hp & He). apply others_In in Hp; [|exact Hr].
    assert (e_proc e = p) by (eapply sent_proc; exact He). lia.
Qed.
Lemma orecv_nonneg r : (r < n)%nat -> nonneg (orecv r).
Proof. intros Hr e He. apply orecv_In in He as (He & _); [|exact Hr]. apply (recv_nonneg r Hr e He). Qed.

Lemma unpack_recv_spec r i e loc : (r < n)%nat -> nth_error (locs 0 (orecv r)) i = Some (e, loc) ->
  forall m, unpack_recv o dout (p_plan r) i m = cpy dout BRecv (upairs loc (aout (outs r)) (ovl r (e_proc e))) m.
Proof.
  intros Hr H m. unfold unpack_recv. cbn [rp_recv rp_bufloc p_plan].
  assert (H' : nth_error (locs 0 (recv_entries o n ins outs r)) i = Some (e, loc)).
  { rewrite locs_orecv by exact Hr. rewrite nth_error_app1; [exact H|]. apply nth_error_Some. congruence. }
  apply locs_nth_inv in H' as (H1 & H2). rewrite H1, H2. apply nth_error_In in H1. apply recv_spec; auto.
Qed.

Lemma procs_inj (l : list entry) e e' : NoDup (map e_proc l) -> In e l -> In e' l -> e_proc e = e_proc e' -> e = e'.
Proof.
  induction l as [|x l IH]; intros ND H H' E0; [destruct H|]. cbn in ND. inversion ND; subst.
  destruct H as [<-|H], H' as [<-|H']; auto; exfalso; apply H2; [rewrite E0|rewrite <- E0]; apply in_map; assumption.
Qed.

Lemma nth_locs_NoDup r i j e loc loc' : (r < n)%nat ->
  nth_error (locs 0 (orecv r)) i = Some (e, loc) -> nth_error (locs 0 (orecv r)) j = Some (e, loc') -> i = j.
Proof.
  intros Hr Hi Hj. apply locs_nth_inv in Hi as (Hi & _). apply locs_nth_inv in Hj as (Hj & _).
  assert (ND : NoDup (orecv r)).
  { apply NoDup_map_inv with (f := e_proc). apply (procs_NoDup (rcvd o ins outs r)); [apply others_NoDup| |intros; apply rcvd_one].
    intros p e0 He; eapply rcvd_proc; eauto. }
  apply (proj1 (NoDup_nth_error _) ND); [apply nth_error_Some; congruence|congruence].
Qed.

Lemma cell_apart r p p' a : (r < n)%nat -> (p < n)%nat -> (p' < n)%nat -> p <> p' ->
  In a (map (aout (outs r)) (ovl r p)) -> ~ In a (map (aout (outs r)) (ovl r p')).
Proof.
  intros Hr Hp Hp' Hne H H'. apply in_map_iff in H as (e & <- & He). apply in_map_iff in H' as (e' & E' & He').
  apply ovl_In in He, He'. assert (e' = e) by (apply (sp_inj _ _ _ _ _ SP (outs r)); tauto). subst e'.
  apply Hne. apply (H_disj r _ _ e); tauto.
Qed.

Lemma upairs_src b0 f (l : list E) d s : In (d, s) (upairs b0 f l) -> b0 <= s < b0 + zlen l.
Proof. intros H. apply upairs_In in H as (e & H & _). apply zget_inv in H. lia. Qed.

Lemma comm_ext_r (f : @rmem A -> option rmem) g g' : (forall m, g m = g' m) -> commute f g' -> commute f g.
Proof. intros H. apply commute_ext; [reflexivity|intros m; symmetry; apply H]. Qed.

Lemma self_copies_eq r : (r < n)%nat -> forall f, In f (self_copies o din dout (p_plan r)) ->
  (forall m, f m = cpy BRecv din (ppairs (sum_sizes (orecv r)) (ain (ins r)) (ovl r r)) m) \/
  (forall m, f m = cpy dout BRecv (upairs (sum_sizes (orecv r)) (aout (outs r)) (ovl r r)) m).
Proof.
  intros Hr f. unfold self_copies. cbn [rp_self rp_send rp_nsend rp_recv rp_nrecv rp_bufloc p_plan].
  rewrite send_entries_eq, recv_entries_eq by exact Hr. fold (orecv r) (osend r).
  rewrite !app_length.
  pose proof (sent_rcvd o ins outs (sp_sym _ _ _ _ _ SP) r r) as Hsz.
  destruct (rcvd_one o ins outs r r) as [Er|(er & Er)]; rewrite Er in *.
  - cbn [length]. rewrite Nat.add_0_r, Nat.eqb_refl. intros [].
  - destruct (sent_one o ins outs r r) as [Es|(es & Es)]; rewrite Es in *; [discriminate|].
    cbn [length]. destruct (Nat.eqb_spec (length (orecv r)) (length (orecv r) + 1)); [lia|]. cbn [negb].
    rewrite !nth_error_app2, !Nat.sub_diag by lia. cbn [nth_error].
    assert (Hb : nth_error (buflocs 0 (orecv r ++ [er])) (length (orecv r)) = Some (sum_sizes (orecv r))).
    { clear. change (sum_sizes (orecv r)) with (0 + sum_sizes (orecv r)). generalize 0.
      induction (orecv r) as [|x l IH]; intros b; cbn; [f_equal; lia|]. rewrite IH. f_equal. unfold sum_sizes. lia. }
    rewrite Hb. intros [<-|[<-|[]]]; [left|right]; intros m.
    + apply sent_spec. rewrite Es. left. reflexivity.
    + apply rcvd_spec. rewrite Er. left. reflexivity.
Qed.

Lemma remap_wf_p2p r : (r < n)%nat -> wf [] (remap_code o n false ins outs din dout r).
Proof.
  intros Hr. rewrite code_p2p by exact Hr. unfold p2p_code.
  pose proof dout_recv as Hdr. pose proof dout_send as Hds. pose proof din_recv as Hir. pose proof din_send as His.
  assert (Hx : forall x, In x (slots_of (p_recvs r)) -> exists i e loc,
     x = (i, loc, e_size e) /\ nth_error (locs 0 (orecv r)) i = Some (e, loc)).
  { intros x Hx. unfold slots_of in Hx. apply in_map_iff in Hx as ([[[i p] loc] len] & <- & Hx).
    apply p_recvs_In in Hx as (e & Hx & -> & ->). eauto. }
  assert (Hsz : forall e, In e (orecv r) -> e_size e = zlen (ovl r (e_proc e)) /\ (e_proc e < n)%nat).
  { intros e He. apply orecv_In in He as (He & _); [|exact Hr]. split; [apply recv_spec; auto|apply recv_In in He; tauto]. }
  apply wf_p2p_code.
  - (* disjoint slots *)
    unfold slots_of, p_recvs. rewrite map_map.
    assert (G : forall (X : list (entry * Z)) b, ForallOrdPairs (fun x y => snd x + e_size (fst x) <= snd y) X ->
       ForallOrdPairs (@slots_disj A) (map (fun x : nat * (entry * Z) => let '(id, _, loc, len) := (let '(irecv, (e, loc)) := x in (irecv, e_proc e, loc, e_size e)) in (id, loc, len)) (combine (seq b (length X)) X))).
    { clear. induction X as [|[e l] X IH]; intros b H; cbn; [constructor|]. inversion H as [|? ? Hf Hr]; subst.
      constructor; [|apply IH, Hr]. apply Forall_forall. intros y Hy. apply in_map_iff in Hy as ([j [e' l']] & <- & Hy).
      apply in_combine_r in Hy. rewrite Forall_forall in Hf. apply Hf in Hy. cbn in Hy |- *.
      intros pl Hpl pl' Hpl'. cbn in *. apply wrm_wrm_commute. lia. }
    rewrite <- (locs_length 0 (orecv r)). apply G. apply locs_sep, orecv_nonneg, Hr.
  - rewrite ids_p_recvs. apply seq_NoDup.
  - intros f q len x Hf Hin pl Hpl. unfold p_sends in Hf. apply in_map_iff in Hf as (e & Ef & He).
    injection Ef as <- <- <-. apply osend_In in He as (He & _); [|exact Hr].
    destruct (send_spec r e Hr He) as (_ & Hpk).
    eapply comm_ext_r; [intros m; apply (Hpk BSend 0 m)|].
    apply wrm_cpy_commute; [congruence|discriminate|intros E'; congruence].
  - intros f x Hf Hin pl Hpl. destruct (Hx x Hin) as (i & e & loc & -> & Hn). cbn in Hpl |- *.
    assert (Hlb : loc + e_size e <= sum_sizes (orecv r)).
    { apply nth_error_In in Hn. apply (locs_bound 0) in Hn; [lia|apply orecv_nonneg, Hr]. }
    destruct (self_copies_eq r Hr f Hf) as [H|H]; (eapply comm_ext_r; [exact H|]).
    + apply wrm_cpy_commute; [congruence| |intros E'; congruence].
      intros _ a Ha. apply ppairs_dst in Ha. lia.
    + apply wrm_cpy_commute; [congruence|intros E'; congruence|].
      intros _ d a Ha. apply upairs_src in Ha. lia.
  - intros id x Hid Hin Hne pl Hpl. destruct (Hx x Hin) as (i & e & loc & -> & Hn). cbn in Hpl, Hne |- *.
    rewrite ids_p_recvs in Hid. apply in_seq in Hid.
    destruct (nth_error (locs 0 (orecv r)) id) as [[e' loc']|] eqn:En.
    2:{ apply nth_error_None in En. rewrite locs_length in En. lia. }
    eapply comm_ext_r; [intros m; apply (unpack_recv_spec r id e' loc' Hr En)|].
    apply wrm_cpy_commute; [congruence|intros E'; congruence|].
    intros _ d a Ha. apply upairs_src in Ha.
    assert (e <> e').
    { intros ->. apply Hne. apply (nth_locs_NoDup r i id e' loc loc' Hr Hn En). }
    pose proof (locs_apart 0 (orecv r) e loc e' loc' (orecv_nonneg r Hr) (nth_error_In _ _ Hn) (nth_error_In _ _ En) H) as Hap.
    apply locs_nth_inv in En as (En & _). apply nth_error_In in En. apply Hsz in En as (En & _). lia.
  - intros id id' Hid Hid' Hne. rewrite ids_p_recvs in Hid, Hid'. apply in_seq in Hid, Hid'.
    destruct (nth_error (locs 0 (orecv r)) id) as [[e loc]|] eqn:En.
    2:{ apply nth_error_None in En. rewrite locs_length in En. lia. }
    destruct (nth_error (locs 0 (orecv r)) id') as [[e' loc']|] eqn:En'.
    2:{ apply nth_error_None in En'. rewrite locs_length in En'. lia. }
    apply commute_ext with (f := cpy dout BRecv (upairs loc (aout (outs r)) (ovl r (e_proc e))))
      (g := cpy dout BRecv (upairs loc' (aout (outs r)) (ovl r (e_proc e')))).
    + intros m. symmetry. apply (unpack_recv_spec r id e loc Hr En).
    + intros m. symmetry. apply (unpack_recv_spec r id' e' loc' Hr En').
    + apply cpy_cpy_commute; try congruence. intros _ a. rewrite !upairs_fst.
      assert (e <> e').
      { intros ->. apply Hne. apply (nth_locs_NoDup r id id' e' loc loc' Hr En En'). }
      apply locs_nth_inv in En as (En & _). apply nth_error_In in En. destruct (Hsz _ En) as (_ & Hp).
      apply locs_nth_inv in En' as (En' & _). apply nth_error_In in En'. destruct (Hsz _ En') as (_ & Hp').
      apply cell_apart; auto. intros E'. apply H.
      apply (procs_inj (recv_entries o n ins outs r)); auto using recv_procs_NoDup; apply orecv_In; auto.
Qed.

Lemma wf_locals (fs : list (@rmem A -> option rmem)) p : wf [] p -> wf [] (map ILocal fs ++ p).
Proof. intros H. induction fs as [|f fs IH]; cbn; [exact H|]. constructor; [intros x []|exact IH]. Qed.

Lemma remap_wf coll r : (r < n)%nat -> wf [] (remap_code o n coll ins outs din dout r).
Proof.
  intros Hr. destruct coll; [|apply remap_wf_p2p, Hr].
  destruct (setup_coll o n ins outs r Hr) as (g & Es & _).
  unfold remap_code. rewrite Es. unfold remap_prog. cbn [negb]. unfold remap_coll. apply wf_locals.
  cbn [rp_group]. assert (wf [] (map (@ILocal A) (coll_loop (do_unpack o dout) (recv_entries o n ins outs r)
      (a2a_side (recv_entries o n ins outs r) g 0) 0))).
  { rewrite <- (app_nil_r (map _ _)). apply wf_locals. constructor. }
  destruct g; cbn [app]; [exact H|]. constructor. exact H.
Qed.

(** ** correctness *)
Variable G : E -> A.
Variable M0 : nat -> @rmem A.
Variable coll : bool.

Hypothesis H_data : forall p e, (p < n)%nat -> inbx e (ins p) -> zget (getb din (M0 p)) (ain (ins p) e) = Some (G e).
Hypothesis H_outlen : forall r e, (r < n)%nat -> inbx e (outs r) -> o_outvol o (outs r) <= zlen (getb dout (M0 r)).
Hypothesis H_bufs : forall r pl, (r < n)%nat -> setup o n coll ins outs r = Some pl ->
  rp_sendsize pl <= zlen (m_send (M0 r)) /\ rp_recvsize pl <= zlen (m_recv (M0 r)).

Definition unchanged (r : nat) (m : @rmem A) : Prop :=
  m_in m = m_in (M0 r) /\ m_out m = m_out (M0 r) /\
  zlen (m_send m) = zlen (m_send (M0 r)) /\ zlen (m_recv m) = zlen (m_recv (M0 r)).

(** e is delivered to rank r *)
Definition target (r : nat) (e : E) : Prop := inbx e (outs r) /\ exists p, (p < n)%nat /\ inbx e (ins p).

Definition delivered (r : nat) (m : @rmem A) : Prop :=
  (forall b, isdata b -> b <> dout -> getb b m = getb b (M0 r)) /\
  zlen (getb dout m) = zlen (getb dout (M0 r)) /\
  zlen (m_send m) = zlen (m_send (M0 r)) /\ zlen (m_recv m) = zlen (m_recv (M0 r)) /\
  (forall e, target r e -> zget (getb dout m) (aout (outs r) e) = Some (G e)) /\
  (forall a, (forall e, target r e -> aout (outs r) e <> a) -> zget (getb dout m) a = zget (getb dout (M0 r)) a).

Definition pay (p r : nat) : list A := map G (ovl r p).

Lemma zlen_pay p r : zlen (pay p r) = zlen (ovl r p).
Proof. apply zlen_map. Qed.

Lemma getb_unchanged r m b : isdata b -> unchanged r m -> getb b m = getb b (M0 r).
Proof. intros [-> | ->] (H1 & H2 & _); cbn; assumption. Qed.

(** unpacking a complete list of filled slots *)
Lemma unpack_all r (L : list (nat * Z)) m : (r < n)%nat ->
  NoDup (map fst L) -> (forall p loc, In (p, loc) L -> (p < n)%nat) ->
  (forall p, (p < n)%nat -> ovl r p <> [] -> exists loc, In (p, loc) L) ->
  unchanged r m ->
  (forall p loc, In (p, loc) L -> zslice (m_recv m) loc (zlen (ovl r p)) = Some (pay p r)) ->
  exists m', seqf (map (fun '(p, loc) => cpy dout BRecv (upairs loc (aout (outs r)) (ovl r p))) L) m = Some m' /\ delivered r m'.
Proof.
  intros Hr ND Hlt Hall HU Hs. pose proof dout_recv as Hdr. pose proof dout_send as Hds.
  set (pss := map (fun '(p, loc) => upairs loc (aout (outs r)) (ovl r p)) L).
  assert (E1 : seqf (map (fun '(p, loc) => cpy dout BRecv (upairs loc (aout (outs r)) (ovl r p))) L) m = cpy dout BRecv (concat pss) m).
  { rewrite <- seqf_cpy by exact Hdr. unfold pss. rewrite map_map. apply seqf_map_ext. intros [p loc] m1 _. reflexivity. }
  rewrite E1. clear E1.
  assert (Hin : forall d s, In (d, s) (concat pss) <-> exists p loc e, In (p, loc) L /\ zget (ovl r p) (s - loc) = Some e /\ d = aout (outs r) e).
  { intros d s. rewrite in_concat. unfold pss. split.
    - intros (ps & Hps & Hds'). apply in_map_iff in Hps as ([p loc] & <- & HL). apply upairs_In in Hds' as (e & He & ->). eauto 6.
    - intros (p & loc & e & HL & He & ->). exists (upairs loc (aout (outs r)) (ovl r p)). split.
      + apply in_map_iff. exists (p, loc). auto.
      + apply upairs_In. eauto. }
  assert (Hread : forall p loc s e, In (p, loc) L -> zget (ovl r p) (s - loc) = Some e -> zget (m_recv m) s = Some (G e)).
  { intros p loc s e HL He. pose proof (Hs p loc HL) as Hsl. apply zslice_inv in Hsl as (_ & Hsl); [|apply zlen_nonneg].
    pose proof (zget_inv _ _ _ He) as Hb. replace s with (loc + (s - loc)) by lia. rewrite Hsl by exact Hb.
    unfold pay. rewrite zget_map, He. reflexivity. }
  assert (Hg : getb dout m = getb dout (M0 r)) by (apply getb_unchanged; auto).
  destruct (copies_Some (m_recv m) (concat pss) (getb dout m)) as [b' Hb'].
  { intros d s Hds'. apply Hin in Hds' as (p & loc & e & HL & He & ->).
    pose proof (Hread _ _ _ _ HL He) as Hz. split; [|apply zget_inv in Hz; exact Hz].
    apply zget_In, ovl_In in He. destruct He as (He & _).
    pose proof (sp_aout _ _ _ _ _ SP _ _ He). pose proof (H_outlen r e Hr He). rewrite Hg. lia. }
  assert (NDp : NoDup (map fst (concat pss))).
  { rewrite concat_map. unfold pss. rewrite map_map.
    rewrite (map_ext (fun x => map fst (let '(p, loc) := x in upairs loc (aout (outs r)) (ovl r p)))
       (fun x => map (aout (outs r)) (ovl r (fst x)))) by (intros [p loc]; cbn; apply upairs_fst).
    rewrite <- flat_map_concat_map. apply NoDup_flat_map.
    - apply NoDup_map_inv with (f := fst). exact ND.
    - intros [p loc] HL. cbn.
      assert (HI : forall e e', In e (ovl r p) -> In e' (ovl r p) -> aout (outs r) e = aout (outs r) e' -> e = e').
      { intros e e' He He'. apply ovl_In in He, He'. apply (sp_inj _ _ _ _ _ SP); tauto. }
      pose proof (ovl_NoDup r p) as HN. revert HI. induction HN as [|x l Hx HN IH]; intros HI; cbn; constructor.
      + intros Hc. apply in_map_iff in Hc as (y & Ey & Hy). apply Hx. rewrite (HI x y); auto; [left; reflexivity|right; exact Hy].
      + apply IH. intros e e' He He'. apply HI; right; assumption.
    - intros [p loc] [p' loc'] c HL HL' Hc Hc'. cbn in Hc, Hc'.
      destruct (Nat.eq_dec p p') as [->|Hne].
      + f_equal.
        clear - ND HL HL'. induction L as [|[q l] L IH]; [destruct HL|]. cbn in ND. inversion ND; subst.
        destruct HL as [E1|HL], HL' as [E2|HL'].
        * congruence.
        * injection E1 as -> ->. exfalso. apply H1. apply in_map with (f := fst) in HL'. exact HL'.
        * injection E2 as -> ->. exfalso. apply H1. apply in_map with (f := fst) in HL. exact HL.
        * apply IH; assumption.
      + exfalso. apply (cell_apart r p p' c Hr (Hlt _ _ HL) (Hlt _ _ HL') Hne Hc Hc'). }
  unfold cpy. cbn [getb]. rewrite Hb'. cbn [bind].
  exists (setb dout b' m). split; [reflexivity|].
  destruct HU as (U1 & U2 & U3 & U4).
  split; [|split; [|split; [|split; [|split]]]].
  - intros b Hb Hne. rewrite getb_setb_other by exact Hne. apply getb_unchanged; [exact Hb|]. repeat split; assumption.
  - rewrite getb_setb_same. rewrite (copies_len _ _ _ _ Hb'), Hg. reflexivity.
  - change (m_send (setb dout b' m)) with (getb BSend (setb dout b' m)). rewrite getb_setb_other by congruence. exact U3.
  - change (m_recv (setb dout b' m)) with (getb BRecv (setb dout b' m)). rewrite getb_setb_other by congruence. exact U4.
  - intros e (He & p & Hp & Hep). rewrite getb_setb_same.
    assert (Ho : In e (ovl r p)) by (apply ovl_In; auto).
    destruct (Hall p Hp) as (loc & HL); [intros E'; rewrite E' in Ho; destruct Ho|].
    destruct (In_zget _ _ Ho) as (k & Hk).
    rewrite (copies_hit _ _ _ _ (aout (outs r) e) (loc + k) Hb' NDp).
    + apply (Hread p loc); [exact HL|]. rewrite <- Hk. f_equal. lia.
    + apply Hin. exists p, loc, e. split; [exact HL|]. split; [|reflexivity]. rewrite <- Hk. f_equal. lia.
  - intros a Ha. rewrite getb_setb_same. rewrite (copies_other _ _ _ _ _ Hb'); [rewrite Hg; reflexivity|].
    intros Hc. apply in_map_iff in Hc as ([d s] & Ed & Hc). cbn in Ed. subst d.
    apply Hin in Hc as (p & loc & e & HL & He & ->). apply zget_In, ovl_In in He.
    apply (Ha e); [|reflexivity]. split; [tauto|]. exists p. split; [apply (Hlt _ _ HL)|tauto].
Qed.

(** packing one message *)
Lemma pack_one r p db b0 m : (r < n)%nat -> (p < n)%nat -> db = BSend \/ db = BRecv -> getb din m = getb din (M0 r) ->
  0 <= b0 -> b0 + zlen (ovl p r) <= zlen (getb db m) ->
  exists m1, cpy db din (ppairs b0 (ain (ins r)) (ovl p r)) m = Some m1 /\
    (forall b, b <> db -> getb b m1 = getb b m) /\ zlen (getb db m1) = zlen (getb db m) /\
    zslice (getb db m1) b0 (zlen (ovl p r)) = Some (pay r p) /\
    (forall a, ~ (b0 <= a < b0 + zlen (ovl p r)) -> zget (getb db m1) a = zget (getb db m) a).
Proof.
  intros Hr Hp Hdb Hd Hb Hl.
  assert (HD : forall e, In e (ovl p r) -> zget (getb din m) (ain (ins r) e) = Some (G e)).
  { intros e He. rewrite Hd. apply ovl_In in He. apply H_data; tauto. }
  destruct (ppairs_Some b0 (ain (ins r)) (ovl p r) G _ _ HD Hb Hl) as (b' & Hb').
  unfold cpy. rewrite Hb'. cbn [bind]. exists (setb db b' m). split; [reflexivity|].
  split; [intros b Hne; apply getb_setb_other, Hne|]. rewrite getb_setb_same.
  split; [apply (copies_len _ _ _ _ Hb')|].
  split; [apply (ppairs_slice _ _ _ _ _ _ _ Hb' HD)|].
  intros a Ha. apply (copies_other _ _ _ _ _ Hb'). rewrite ppairs_dst. exact Ha.
Qed.

(** *** point-to-point *)
Lemma p2p_ok : coll = false -> triple n eager unchanged (remap_code o n coll ins outs din dout) delivered.
Proof.
  intros Hcoll. pose proof dout_recv as Hdr. pose proof dout_send as Hds. pose proof din_recv as Hir. pose proof din_send as His.
  rewrite Hcoll in *.
  apply triple_ext with (c := p2p_code p_recvs p_sends (fun r => self_copies o din dout (p_plan r)) (fun r => unpack_recv o dout (p_plan r))).
  { intros r Hr. symmetry. apply code_p2p, Hr. }
  assert (Hbuf : forall r, (r < n)%nat -> max_sizes (osend r) <= zlen (m_send (M0 r)) /\
     sum_sizes (recv_entries o n ins outs r) <= zlen (m_recv (M0 r))).
  { intros r Hr. destruct (H_bufs r (p_plan r) Hr (setup_p2p r Hr)) as (H1 & H2). cbn in H1, H2. split; [exact H1|].
    pose proof (recv_total r Hr). pose proof (zlen_nonneg (m_recv (M0 r))). lia. }
  assert (Hsum : forall r, (r < n)%nat -> sum_sizes (recv_entries o n ins outs r) = sum_sizes (orecv r) + sum_sizes (rcvd o ins outs r r)).
  { intros r Hr. rewrite recv_entries_eq by exact Hr. fold (orecv r). unfold sum_sizes. rewrite fold_right_app.
    generalize (rcvd o ins outs r r). induction (orecv r) as [|e l IH]; intros c; cbn; [lia|]. rewrite IH. lia. }
  assert (Hself_nn : forall r, (r < n)%nat -> 0 <= sum_sizes (rcvd o ins outs r r)).
  { intros r Hr. apply sum_nonneg. intros e He. apply (recv_nonneg r Hr e). apply (In_recv r r); auto. }
  apply (triple_p2p n eager p_recvs p_sends _ _ pay unchanged).
  - (* sends *)
    intros r f q len m Hr Hin HU. unfold p_sends in Hin. apply in_map_iff in Hin as (e & Ef & He). injection Ef as <- <- <-.
    pose proof (max_sizes_ge _ _ He) as Hmax. apply osend_In in He as (He & _); [|exact Hr].
    destruct (send_spec r e Hr He) as (Hsz & Hpk). destruct (send_In r e Hr He) as (Hlt & _).
    destruct (Hbuf r Hr) as (Hb1 & _). destruct HU as (U1 & U2 & U3 & U4).
    destruct (pack_one r (e_proc e) BSend 0 m) as (m1 & P1 & P2 & P3 & P4 & P5); auto.
    { apply getb_unchanged; [exact Hdin|repeat split; assumption]. } { lia. } { cbn [getb]. lia. }
    exists m1. rewrite Hpk. split; [exact P1|]. rewrite Hsz. cbn [getb] in *.
    split; [|split; [exact (P2 BRecv ltac:(discriminate))|exact P4]].
    split; [|split; [|split]]; [rewrite <- U1; exact (P2 BIn ltac:(discriminate))|rewrite <- U2; exact (P2 BOut ltac:(discriminate))|congruence|].
    rewrite <- U4. f_equal. exact (P2 BRecv ltac:(discriminate)).
  - intros r f q len Hr Hin. unfold p_sends in Hin. apply in_map_iff in Hin as (e & Ef & He). injection Ef as <- <- <-.
    apply osend_In in He as (He & Hne); [|exact Hr]. destruct (send_In r e Hr He) as (Hlt & Hse).
    split; [exact Hlt|]. split; [exact Hne|].
    destruct (send_to_recv r (e_proc e) e Hr Hlt Hse) as (e' & He' & _).
    assert (Ho : In e' (orecv (e_proc e))).
    { apply in_flat_map. exists r. split; [apply others_In; auto|exact He']. }
    rewrite <- (locs_fst 0 (orecv (e_proc e))) in Ho. apply in_map_iff in Ho as ([e1 loc] & E1 & Ho). cbn in E1. subst e1.
    apply In_nth_error in Ho as (i & Hi). apply nth_p_recvs in Hi.
    assert (Ep : e_proc e' = r) by (eapply rcvd_proc; exact He'). rewrite Ep in Hi. eauto.
  - intros r Hr. unfold p_sends. rewrite map_map. cbn.
    apply (procs_NoDup (sent o ins outs r)); [apply others_NoDup| |intros; apply sent_one].
    intros p e0 He; eapply sent_proc; eauto.
  - intros r id src loc len Hr Hin. apply p_recvs_In in Hin as (e & Hi & -> & ->).
    pose proof (nth_error_In _ _ Hi) as Hl. apply (locs_bound 0) in Hl; [|apply orecv_nonneg, Hr].
    apply locs_nth_inv in Hi as (Hi & _). apply nth_error_In in Hi. apply orecv_In in Hi as (Hi & Hne); [|exact Hr].
    destruct (recv_In r e Hr Hi) as (Hlt & Hrc). destruct (recv_spec r e Hr Hi) as (Hsz & _).
    split; [exact Hlt|]. split; [|split].
    + destruct (recv_to_send (e_proc e) r e Hlt Hr Hrc) as (e' & He' & _).
      assert (Ep : e_proc e' = r) by (eapply sent_proc; exact He').
      exists (do_pack o din BSend 0 e'), (e_size e'). unfold p_sends. apply in_map_iff. exists e'.
      rewrite Ep. split; [reflexivity|]. apply in_flat_map. exists r. split; [apply others_In; auto|exact He'].
    + rewrite zlen_pay. symmetry. exact Hsz.
    + intros m (U1 & U2 & U3 & U4).
      destruct (wrm_Some loc (pay (e_proc e) r) m) as (m' & Hm').
      { lia. } { rewrite zlen_pay, <- Hsz, U4. destruct (Hbuf r Hr). pose proof (Hsum r Hr). pose proof (Hself_nn r Hr). lia. }
      exists m'. split; [exact Hm'|]. destruct (wrm_spec _ _ _ _ Hm') as (W1 & W2 & W3 & W4 & _).
      repeat split; congruence.
  - intros r Hr. unfold p_recvs. rewrite map_map.
    assert (Ex : map (fun x : nat * (entry * Z) => src_of (let '(irecv, (e, loc)) := x in (irecv, e_proc e, loc, e_size e)))
        (combine (seq 0 (length (orecv r))) (locs 0 (orecv r))) = map e_proc (orecv r)).
    { rewrite <- (locs_fst 0 (orecv r)) at 3. rewrite <- (locs_length 0 (orecv r)). generalize 0%nat.
      induction (locs 0 (orecv r)) as [|[e l] X IH]; intros b; cbn; [reflexivity|]. f_equal. apply IH. }
    rewrite Ex.
    apply (procs_NoDup (rcvd o ins outs r)); [apply others_NoDup| |intros; apply rcvd_one].
    intros p e0 He; eapply rcvd_proc; eauto.
  - intros r id src loc len id' src' loc' len' Hr Hin Hin' Hne.
    apply p_recvs_In in Hin as (e & Hi & -> & ->). apply p_recvs_In in Hin' as (e' & Hi' & -> & ->).
    apply (locs_apart 0 (orecv r)); eauto using orecv_nonneg, nth_error_In. congruence.
  - auto.
  - (* self copy and unpacking *)
    intros r m Hr HU Hslots.
    assert (Hhh : forall m1, seqf (map (unpack_recv o dout (p_plan r)) (ids_of (p_recvs r))) m1 =
       seqf (map (fun '(p, loc) => cpy dout BRecv (upairs loc (aout (outs r)) (ovl r p)))
                 (map (fun '(e, loc) => (e_proc e, loc)) (locs 0 (orecv r)))) m1).
    { intros m1. rewrite ids_p_recvs, map_map. rewrite <- (locs_length 0 (orecv r)).
      apply (seqf_index _ (fun x => let '(p, loc) := (let '(e, loc) := x in (e_proc e, loc)) in
         cpy dout BRecv (upairs loc (aout (outs r)) (ovl r p)))).
      intros i [e loc] m2 Hi. cbn. apply unpack_recv_spec; auto. }
    assert (HLprocs : map fst (map (fun '(e, loc) => (e_proc e, loc)) (locs 0 (orecv r))) = map e_proc (orecv r)).
    { rewrite map_map. rewrite <- (locs_fst 0 (orecv r)) at 2. rewrite map_map. apply map_ext. intros [e l]. reflexivity. }
    assert (HND : NoDup (map e_proc (orecv r))).
    { apply (procs_NoDup (rcvd o ins outs r)); [apply others_NoDup| |intros; apply rcvd_one].
      intros p e0 He; eapply rcvd_proc; eauto. }
    assert (Hoth : forall p, (p < n)%nat -> p <> r -> ovl r p <> [] -> exists loc, In (p, loc) (map (fun '(e, loc) => (e_proc e, loc)) (locs 0 (orecv r)))).
    { intros p Hp Hne Hov. unfold ovl in Hov. destruct (o_collide o (outs r) (ins p)) as [ov|] eqn:Ec; [|congruence].
      assert (Hi : In (mkentry p (o_roff o (outs r) ov) (o_size o ov) (o_rplan o (outs r) ov)) (orecv r)).
      { apply in_flat_map. exists p. split; [apply others_In; auto|]. unfold rcvd. rewrite Ec. left. reflexivity. }
      rewrite <- (locs_fst 0 (orecv r)) in Hi. apply in_map_iff in Hi as ([e loc] & E1 & Hi). cbn in E1.
      exists loc. apply in_map_iff. exists (e, loc). rewrite E1. split; [reflexivity|]. rewrite E1 in Hi. exact Hi. }
    assert (Hlt : forall p loc, In (p, loc) (map (fun '(e, loc) => (e_proc e, loc)) (locs 0 (orecv r))) -> (p < n)%nat /\ p <> r /\
        zslice (m_recv m) loc (zlen (ovl r p)) = Some (pay p r) /\ loc + zlen (ovl r p) <= sum_sizes (orecv r)).
    { intros p loc Hin. apply in_map_iff in Hin as ([e l] & E1 & Hin). injection E1 as <- <-.
      pose proof (locs_bound 0 _ _ _ (orecv_nonneg r Hr) Hin) as Hlb.
      apply In_nth_error in Hin as (i & Hi). pose proof (nth_p_recvs _ _ _ _ Hi) as Hrv.
      apply Hslots in Hrv. apply locs_nth_inv in Hi as (Hi & _). apply nth_error_In in Hi.
      apply orecv_In in Hi as (Hi & Hne); [|exact Hr]. destruct (recv_In r e Hr Hi) as (Hlt & _).
      destruct (recv_spec r e Hr Hi) as (Hsz & _). rewrite Hsz in *. split; [exact Hlt|]. split; [exact Hne|]. split; [exact Hrv|lia]. }
    destruct (rcvd_one o ins outs r r) as [Er|(er & Er)].
    + (* no message to self *)
      assert (Hs0 : self_copies o din dout (p_plan r) = []).
      { unfold self_copies. cbn [rp_self p_plan]. rewrite recv_entries_eq by exact Hr. fold (orecv r). rewrite Er, app_nil_r, Nat.eqb_refl. reflexivity. }
      rewrite Hs0. cbn [app]. rewrite Hhh. apply unpack_all; auto.
      * rewrite HLprocs. exact HND.
      * intros p loc Hin. apply (Hlt p loc Hin).
      * intros p Hp Hov. apply Hoth; auto. intros ->. apply Hov. unfold ovl, rcvd in *. destruct (o_collide o (outs r) (ins r)); [discriminate|reflexivity].
      * intros p loc Hin. apply (Hlt p loc Hin).
    + pose proof (sent_rcvd o ins outs (sp_sym _ _ _ _ _ SP) r r) as Hsz. rewrite Er in Hsz.
      destruct (sent_one o ins outs r r) as [Es|(es & Es)]; rewrite Es in Hsz; [discriminate|].
      set (sl := sum_sizes (orecv r)) in *.
      assert (Hs1 : self_copies o din dout (p_plan r) = [do_pack o din BRecv sl es; do_unpack o dout sl er]).
      { unfold self_copies. cbn [rp_self rp_send rp_nsend rp_recv rp_nrecv rp_bufloc p_plan].
        rewrite send_entries_eq, recv_entries_eq by exact Hr. fold (orecv r) (osend r).
        rewrite Er, Es, app_length. cbn [length]. destruct (Nat.eqb_spec (length (orecv r)) (length (orecv r) + 1)); [lia|]. cbn [negb].
        rewrite !nth_error_app2, !Nat.sub_diag by lia. cbn [nth_error].
        assert (Hb : nth_error (buflocs 0 (orecv r ++ [er])) (length (orecv r)) = Some (sum_sizes (orecv r))).
        { clear. change (sum_sizes (orecv r)) with (0 + sum_sizes (orecv r)). generalize 0.
          induction (orecv r) as [|x l IH]; intros b; cbn; [f_equal; lia|]. rewrite IH. f_equal. unfold sum_sizes. lia. }
        rewrite Hb. reflexivity. }
      rewrite Hs1. cbn [app seqf].
      destruct (rcvd_spec r r er) as (Hszr & Hun); [rewrite Er; left; reflexivity|].
      destruct (sent_spec r r es) as (_ & Hpk); [rewrite Es; left; reflexivity|].
      assert (Hsl0 : 0 <= sl) by (apply sum_nonneg, orecv_nonneg, Hr).
      destruct (pack_one r r BRecv sl m) as (m1 & P1 & P2 & P3 & P4 & P5); auto.
      { apply getb_unchanged; auto. }
      { cbn [getb]. destruct HU as (_ & _ & _ & ->). rewrite <- Hszr. destruct (Hbuf r Hr) as (_ & Hb2).
        rewrite (Hsum r Hr), Er in Hb2. cbn in Hb2. fold sl in Hb2. lia. }
      rewrite Hpk, P1. cbn [bind].
      assert (Heq : forall X, (m' <- do_unpack o dout sl er m1; seqf X m') =
         (m' <- cpy dout BRecv (upairs sl (aout (outs r)) (ovl r r)) m1; seqf X m')) by (intros X; rewrite Hun; reflexivity).
      rewrite Heq.
      assert (Heq2 : (m' <- cpy dout BRecv (upairs sl (aout (outs r)) (ovl r r)) m1; seqf (map (unpack_recv o dout (p_plan r)) (ids_of (p_recvs r))) m') =
         seqf (map (fun '(p, loc) => cpy dout BRecv (upairs loc (aout (outs r)) (ovl r p)))
           ((r, sl) :: map (fun '(e, loc) => (e_proc e, loc)) (locs 0 (orecv r)))) m1).
      { cbn [map seqf]. apply bind_ext. intros m2 _. apply Hhh. }
      rewrite Heq2. apply unpack_all; auto.
      * cbn [map fst]. rewrite HLprocs. constructor; [|exact HND].
        intros Hc. apply in_map_iff in Hc as (e & Ee & He). apply orecv_In in He as (_ & He); [congruence|exact Hr].
      * intros p loc [H|H]; [injection H as <- <-; exact Hr|apply (Hlt p loc H)].
      * intros p Hp Hov. destruct (Nat.eq_dec p r) as [->|Hne]; [exists sl; left; reflexivity|].
        destruct (Hoth p Hp Hne Hov) as (loc & Hl). exists loc. right. exact Hl.
      * destruct HU as (U1 & U2 & U3 & U4). cbn [getb] in *.
        split; [|split; [|split]]; [rewrite <- U1; exact (P2 BIn ltac:(discriminate))|rewrite <- U2; exact (P2 BOut ltac:(discriminate))| |congruence].
        rewrite <- U3. f_equal. exact (P2 BSend ltac:(discriminate)).
      * intros p loc [H|H].
        -- injection H as <- <-. exact P4.
        -- destruct (Hlt p loc H) as (_ & _ & Hz & Hle). rewrite <- Hz. apply zslice_ext. intros a Ha. apply P5.
           fold sl in Hle. lia.
Qed.

(** *** collective *)
Definition grp (r : nat) : list nat :=
  match setup o n true ins outs r with Some pl => rp_group pl | None => [] end.

Lemma grp_spec r : (r < n)%nat ->
  setup o n true ins outs r = Some (mkrplan
     (send_entries o n ins outs r) (length (send_entries o n ins outs r))
     (recv_entries o n ins outs r) (length (recv_entries o n ins outs r))
     (buflocs 0 (recv_entries o n ins outs r)) false (grp r)
     (a2a_side (send_entries o n ins outs r) (grp r) 0) (a2a_side (recv_entries o n ins outs r) (grp r) 0)
     (sum_sizes (send_entries o n ins outs r)) (sum_sizes (recv_entries o n ins outs r))) /\
  (forall q, In q (grp r) <-> reach o n ins outs r q) /\ exists f, grp r = filter f (seq 0 n).
Proof.
  intros Hr. destruct (setup_coll o n ins outs r Hr) as (g & Es & Hg).
  assert (Eg : grp r = g) by (unfold grp; rewrite Es; reflexivity). rewrite Eg. split; [exact Es|exact Hg].
Qed.

Lemma grp_NoDup r : (r < n)%nat -> NoDup (grp r).
Proof. intros Hr. destruct (grp_spec r Hr) as (_ & _ & f & ->). apply NoDup_filter, seq_NoDup. Qed.

Lemma grp_same r s : (r < n)%nat -> In s (grp r) -> (s < n)%nat /\ grp s = grp r.
Proof.
  intros Hr Hs. destruct (grp_spec r Hr) as (_ & Rr & fr & Er). apply Rr in Hs.
  destruct (reach_lt _ _ _ _ _ _ Hs) as (_ & Hsn). split; [exact Hsn|].
  destruct (grp_spec s Hsn) as (_ & Rs & fs & Es). rewrite Er, Es. apply (sorted_unique n ins outs). intros q.
  rewrite <- Er, <- Es, Rr, Rs. pose proof (sp_sym _ _ _ _ _ SP) as Hsym. split; intros H.
  - apply (reach_trans _ _ _ _ _ s); assumption.
  - apply (reach_trans _ _ _ _ _ r); [|exact H]. apply reach_sym; assumption.
Qed.

Lemma grp_self r : (r < n)%nat -> grp r <> [] -> In r (grp r).
Proof.
  intros Hr Hne. destruct (grp_spec r Hr) as (_ & Rr & _). destruct (grp r) as [|q t] eqn:Eg; [congruence|].
  apply Rr. assert (Hq : reach o n ins outs r q) by (apply Rr; left; reflexivity).
  apply (reach_trans _ _ _ _ _ q); [exact Hq|]. apply reach_sym; [apply (sp_sym _ _ _ _ _ SP)|exact Hq].
Qed.

Lemma send_in_grp r e : (r < n)%nat -> In e (send_entries o n ins outs r) -> In (e_proc e) (grp r).
Proof.
  intros Hr He. apply (grp_spec r Hr). apply reach_one.
  assert (Hc : In (e_proc e) (map e_proc (send_entries o n ins outs r))) by (apply in_map, He).
  apply sends_procs in Hc; [|exact Hr]. split; [exact Hr|]. tauto.
Qed.
Lemma recv_in_grp r e : (r < n)%nat -> In e (recv_entries o n ins outs r) -> In (e_proc e) (grp r).
Proof.
  intros Hr He. apply (grp_spec r Hr). apply reach_one.
  assert (Hc : In (e_proc e) (map e_proc (recv_entries o n ins outs r))) by (apply in_map, He).
  apply recvs_procs in Hc; [|exact Hr]. split; [exact Hr|]. tauto.
Qed.

Definition c_args (r : nat) : list (Z * Z * Z * Z) :=
  zargs (a2a_side (send_entries o n ins outs r) (grp r) 0) (a2a_side (recv_entries o n ins outs r) (grp r) 0).
Definition c_slocs (r : nat) : list (entry * Z) := locs 0 (found (send_entries o n ins outs r) (grp r)).
Definition c_rlocs (r : nat) : list (entry * Z) := locs 0 (found (recv_entries o n ins outs r) (grp r)).

Lemma code_coll r : (r < n)%nat -> remap_code o n true ins outs din dout r =
  map ILocal (map (fun '(e, loc) => do_pack o din BSend loc e) (c_slocs r))
  ++ a2a_code grp c_args r
  ++ map ILocal (map (fun '(e, loc) => do_unpack o dout loc e) (c_rlocs r)).
Proof.
  intros Hr. unfold remap_code. destruct (grp_spec r Hr) as (-> & _). unfold remap_prog, remap_coll. cbn [negb].
  cbn [rp_send rp_recv rp_sside rp_rside rp_group]. rewrite !coll_loop_locs. reflexivity.
Qed.

Lemma find_none_ovl_s r q : (r < n)%nat -> (q < n)%nat -> find_proc q (send_entries o n ins outs r) 0 = None -> ovl q r = [].
Proof.
  intros Hr Hq Hf. unfold ovl. rewrite (sp_sym _ _ _ _ _ SP).
  destruct (o_collide o (ins r) (outs q)) as [ov|] eqn:Ec; [|reflexivity]. exfalso.
  assert (Hin : In q (map e_proc (send_entries o n ins outs r))) by (apply sends_procs; [exact Hr|]; split; [congruence|exact Hq]).
  apply in_map_iff in Hin as (e & Ee & He). apply (find_proc_None _ _ _ Hf e He Ee).
Qed.
Lemma find_none_ovl_r r q : (r < n)%nat -> (q < n)%nat -> find_proc q (recv_entries o n ins outs r) 0 = None -> ovl r q = [].
Proof.
  intros Hr Hq Hf. unfold ovl.
  destruct (o_collide o (outs r) (ins q)) as [ov|] eqn:Ec; [|reflexivity]. exfalso.
  assert (Hin : In q (map e_proc (recv_entries o n ins outs r))) by (apply recvs_procs; [exact Hr|]; split; [congruence|exact Hq]).
  apply in_map_iff in Hin as (e & Ee & He). apply (find_proc_None _ _ _ Hf e He Ee).
Qed.

Lemma packs_ok r (X : list entry) b m : (r < n)%nat -> incl X (send_entries o n ins outs r) ->
  unchanged r m -> 0 <= b -> b + sum_sizes X <= zlen (m_send m) ->
  exists m', seqf (map (fun '(e, loc) => do_pack o din BSend loc e) (locs b X)) m = Some m' /\ unchanged r m' /\
    (forall a, a < b -> zget (m_send m') a = zget (m_send m) a) /\
    (forall e loc, In (e, loc) (locs b X) -> zslice (m_send m') loc (e_size e) = Some (pay r (e_proc e))).
Proof.
  intros Hr. pose proof din_send as His. revert b m. induction X as [|e X IH]; intros b m Hi HU Hb Hl.
  - exists m. cbn. split; [reflexivity|]. split; [exact HU|]. split; [auto|intros e loc []].
  - rewrite locs_cons. cbn [map seqf]. assert (He : In e (send_entries o n ins outs r)) by (apply Hi; left; reflexivity).
    destruct (send_spec r e Hr He) as (Hsz & Hpk). destruct (send_In r e Hr He) as (Hlt & _).
    assert (HnX : 0 <= sum_sizes X).
    { apply sum_nonneg. intros x Hx. apply (send_nonneg r Hr). apply Hi. right; exact Hx. }
    cbn [sum_sizes fold_right] in Hl. fold (sum_sizes X) in Hl. pose proof (zlen_nonneg (ovl (e_proc e) r)) as Hnn.
    destruct HU as (U1 & U2 & U3 & U4).
    destruct (pack_one r (e_proc e) BSend b m) as (m1 & P1 & P2 & P3 & P4 & P5); auto.
    { apply getb_unchanged; [exact Hdin|repeat split; assumption]. } { cbn [getb]. lia. }
    rewrite Hpk, P1. cbn [bind]. cbn [getb] in *.
    destruct (IH (b + e_size e) m1) as (m' & E1 & E2 & E3 & E4).
    + intros x Hx. apply Hi. right; exact Hx.
    + split; [|split; [|split]]; [rewrite <- U1; exact (P2 BIn ltac:(discriminate))|rewrite <- U2; exact (P2 BOut ltac:(discriminate))|congruence|].
      rewrite <- U4. f_equal. exact (P2 BRecv ltac:(discriminate)).
    + lia.
    + rewrite P3. lia.
    + exists m'. split; [exact E1|]. split; [exact E2|]. split.
      * intros a Ha. rewrite E3 by lia. apply P5. lia.
      * intros e0 loc [H|H]; [|apply E4, H]. injection H as <- <-. rewrite Hsz, <- P4. apply zslice_ext.
        intros a Ha. apply E3. lia.
Qed.

Lemma coll_ok : coll = true -> triple n eager unchanged (remap_code o n coll ins outs din dout) delivered.
Proof.
  intros Hcoll. rewrite Hcoll in *. pose proof dout_recv as Hdr. pose proof dout_send as Hds. pose proof din_recv as Hir. pose proof din_send as His.
  eapply triple_ext with (c := fun r => map ILocal (map (fun '(e, loc) => do_pack o din BSend loc e) (c_slocs r))
     ++ (a2a_code grp c_args r ++ map ILocal (map (fun '(e, loc) => do_unpack o dout loc e) (c_rlocs r)))).
  { intros r Hr. symmetry. apply code_coll, Hr. }
  set (mid1 := fun r m => unchanged r m /\ forall e loc, In (e, loc) (c_slocs r) -> zslice (m_send m) loc (e_size e) = Some (pay r (e_proc e))).
  set (mid2 := fun r m => unchanged r m /\ forall e loc, In (e, loc) (c_rlocs r) -> zslice (m_recv m) loc (e_size e) = Some (pay (e_proc e) r)).
  assert (Hbuf : forall r, (r < n)%nat ->
     sum_sizes (found (send_entries o n ins outs r) (grp r)) <= zlen (m_send (M0 r)) /\
     sum_sizes (found (recv_entries o n ins outs r) (grp r)) <= zlen (m_recv (M0 r))).
  { intros r Hr. destruct (grp_spec r Hr) as (Es & _). destruct (H_bufs r _ Hr Es) as (H1 & H2). cbn in H1, H2.
    pose proof (found_sum _ (grp r) (send_nonneg r Hr) (grp_NoDup r Hr)).
    pose proof (found_sum _ (grp r) (recv_nonneg r Hr) (grp_NoDup r Hr)). lia. }
  apply triple_seq with (mid := mid1); [|apply triple_seq with (mid := mid2)].
  - apply triple_local. intros r m Hr HU.
    destruct (packs_ok r (found (send_entries o n ins outs r) (grp r)) 0 m Hr) as (m' & E1 & E2 & _ & E4); auto.
    + apply found_incl.
    + lia.
    + destruct HU as (_ & _ & -> & _). apply (Hbuf r Hr).
    + exists m'. split; [exact E1|]. split; [exact E2|exact E4].
  - apply (triple_a2a n eager grp c_args pay).
    + intros r Hr. apply grp_self, Hr.
    + intros r s Hr Hs. apply grp_same; assumption.
    + intros r Hr. unfold c_args, zargs. rewrite map_length, combine_length, !a2a_side_length. lia.
    + intros r s sc sd rc rd Hr Hin. symmetry.
      apply (cnt_locs _ _ _ _ _ _ _ _ _ _ (fun p => zlen (pay p r))) in Hin; [exact Hin| |].
      * intros e He. rewrite zlen_pay. symmetry. apply recv_spec; auto.
      * intros p Hp Hf. apply grp_same in Hp as (Hp & _); [|exact Hr]. rewrite zlen_pay, (find_none_ovl_r r p Hr Hp Hf). reflexivity.
    + intros r m Hr Hg (HU & HS). split; [exact HU|]. unfold c_rlocs. rewrite Hg. intros e loc [].
    + intros r m Hr Hg (HU & HS). split.
      * apply payloads_locs; [exact HS|]. intros p Hp Hf. apply grp_same in Hp as (Hp & _); [|exact Hr].
        unfold pay. rewrite (find_none_ovl_s r p Hr Hp Hf). reflexivity.
      * destruct (writes_locs (fun s => pay s r) (send_entries o n ins outs r) (recv_entries o n ins outs r) (grp r) 0 0 m)
          as (m' & E1 & E2 & E3 & E4 & E5 & E6 & E7).
        -- apply recv_nonneg, Hr.
        -- intros e He. rewrite zlen_pay. symmetry. apply recv_spec; auto.
        -- intros p Hp Hf. apply grp_same in Hp as (Hp & _); [|exact Hr]. unfold pay. rewrite (find_none_ovl_r r p Hr Hp Hf). reflexivity.
        -- lia.
        -- destruct HU as (_ & _ & _ & ->). apply (Hbuf r Hr).
        -- exists m'. split; [exact E1|]. split; [|exact E7].
           destruct HU as (U1 & U2 & U3 & U4). repeat split; congruence.
  - apply triple_local. intros r m Hr (HU & HS).
    assert (Hconv : seqf (map (fun '(e, loc) => do_unpack o dout loc e) (c_rlocs r)) m =
       seqf (map (fun '(p, loc) => cpy dout BRecv (upairs loc (aout (outs r)) (ovl r p))) (map (fun '(e, loc) => (e_proc e, loc)) (c_rlocs r))) m).
    { rewrite map_map. apply seqf_map_ext. intros [e loc] m1 Hin. cbn.
      assert (He : In e (found (recv_entries o n ins outs r) (grp r))).
      { rewrite <- (locs_fst 0 (found _ _)). apply in_map with (f := fst) in Hin. exact Hin. }
      apply found_incl in He. apply recv_spec; auto. }
    rewrite Hconv.
    assert (Hinc : forall e loc, In (e, loc) (c_rlocs r) -> In e (recv_entries o n ins outs r)).
    { intros e loc Hin. apply in_map with (f := fst) in Hin. unfold c_rlocs in Hin. rewrite locs_fst in Hin. apply found_incl in Hin. exact Hin. }
    apply unpack_all; auto.
    + assert (Ep : map fst (map (fun '(e, loc) => (e_proc e, loc)) (c_rlocs r)) = map e_proc (found (recv_entries o n ins outs r) (grp r))).
      { rewrite map_map. rewrite <- (locs_fst 0 (found (recv_entries o n ins outs r) (grp r))). rewrite map_map. apply map_ext. intros [e l]. reflexivity. }
      rewrite Ep. clear - Hr H_disj SP.
      apply procs_NoDup; [apply grp_NoDup, Hr| |].
      * intros p e He. destruct (find_proc p _ 0) as [[j x]|] eqn:E'; [|destruct He]. destruct He as [<-|[]].
        apply find_proc_Some in E'. tauto.
      * intros p. destruct (find_proc p _ 0) as [[j x]|]; eauto.
    + intros p loc Hin. apply in_map_iff in Hin as ([e l] & E1 & Hin). injection E1 as <- <-.
      apply Hinc in Hin. apply recv_In in Hin; tauto.
    + intros p Hp Hov. unfold ovl in Hov. destruct (o_collide o (outs r) (ins p)) as [ov|] eqn:Ec; [|congruence].
      set (e := mkentry p (o_roff o (outs r) ov) (o_size o ov) (o_rplan o (outs r) ov)).
      assert (He : In e (recv_entries o n ins outs r)).
      { apply (In_recv r p); auto. unfold rcvd. rewrite Ec. left. reflexivity. }
      assert (Hf : In e (found (recv_entries o n ins outs r) (grp r))).
      { apply found_In; [apply recv_procs_NoDup, Hr|exact He|apply recv_in_grp; auto]. }
      rewrite <- (locs_fst 0 (found _ _)) in Hf. apply in_map_iff in Hf as ([e1 loc] & E1 & Hf). cbn in E1. subst e1.
      exists loc. apply in_map_iff. exists (e, loc). split; [reflexivity|exact Hf].
    + intros p loc Hin. apply in_map_iff in Hin as ([e l] & E1 & Hin). injection E1 as <- <-.
      pose proof (HS e l Hin) as Hz. apply Hinc in Hin. destruct (recv_spec r e Hr Hin) as (<- & _). exact Hz.
Qed.

Theorem remap_triple : triple n eager unchanged (remap_code o n coll ins outs din dout) delivered.
Proof.
  destruct (Bool.bool_dec coll true) as [H|H]; [apply coll_ok, H|apply p2p_ok, Bool.not_true_is_false, H].
Qed.

End Main.
