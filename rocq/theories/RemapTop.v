(** RemapTop.v : the remap properties in the form in which Properties files state them. *)

From Verif Require Import Base Spec Pack3d Pack2d Sched SchedProofs MemProofs Phases Exec Remap RemapPlan RemapProofs RemapTriple RemapMain
  Remap3d Remap2d RemapInst RemapThms.

(** ** plans (generic) *)
Section Plans.
Context {A ext plan E : Type}.
Variable o : rops A ext plan.
Variable elems : ext -> list E.
Variable inbx : E -> ext -> Prop.
Variable ain aout : ext -> E -> Z.
Hypothesis SP : rspec o elems inbx ain aout.
Variable n : nat.
Variable ins outs : nat -> ext.
Local Notation entry := (@Remap.entry plan).

(** messages a plan sends to / expects from other ranks *)
Definition out_msgs (pl : @rplan plan) : list entry := firstn (rp_nsend pl) (rp_send pl).
Definition in_msgs (pl : @rplan plan) : list entry := firstn (rp_nrecv pl) (rp_recv pl).
(** sizes of the messages of [l] exchanged with rank [q] *)
Definition with_rank (q : nat) (l : list entry) : list Z := map e_size (filter (fun e => Nat.eqb (e_proc e) q) l).

Lemma filter_same q (l : list entry) : (forall e, In e l -> e_proc e = q) -> filter (fun e => Nat.eqb (e_proc e) q) l = l.
Proof.
  induction l as [|e t IH]; intros H; [reflexivity|]. cbn. rewrite (H e (or_introl eq_refl)), Nat.eqb_refl. f_equal.
  apply IH. intros; apply H; right; assumption.
Qed.
Lemma filter_diff q p (l : list entry) : (forall e, In e l -> e_proc e = p) -> p <> q -> filter (fun e => Nat.eqb (e_proc e) q) l = [].
Proof.
  intros H Hne. induction l as [|e t IH]; [reflexivity|]. cbn. rewrite (H e (or_introl eq_refl)).
  destruct (Nat.eqb_spec p q); [contradiction|]. apply IH. intros; apply H; right; assumption.
Qed.

Lemma filter_flat (F : nat -> list entry) l q : (forall p e, In e (F p) -> e_proc e = p) -> NoDup l ->
  filter (fun e => Nat.eqb (e_proc e) q) (flat_map F l) = if in_dec Nat.eq_dec q l then F q else [].
Proof.
  intros HF. assert (Hp : forall p, filter (fun e => Nat.eqb (e_proc e) q) (F p) = if Nat.eq_dec p q then F q else []).
  { intros p. destruct (Nat.eq_dec p q) as [->|Hne]; [apply filter_same|apply filter_diff with p]; auto. }
  induction l as [|x l IH]; intros ND; [reflexivity|]. cbn [flat_map]. rewrite filter_app, Hp. inversion ND; subst. rewrite IH by assumption.
  destruct (Nat.eq_dec x q) as [->|Hne]; destruct (in_dec Nat.eq_dec q l); destruct (in_dec Nat.eq_dec q (_ :: l)) as [Hi|Hi];
    try contradiction; try reflexivity; try (rewrite app_nil_r; reflexivity); exfalso; cbn in *; intuition congruence.
Qed.

Lemma out_msgs_eq coll r pl : (r < n)%nat -> setup o n coll ins outs r = Some pl ->
  out_msgs pl = flat_map (sent o ins outs r) (others n r) ++ (if coll then sent o ins outs r r else []).
Proof.
  intros Hr Hs. destruct coll.
  - destruct (setup_coll o n ins outs r Hr) as (g & Eg & _). rewrite Eg in Hs. injection Hs as <-. unfold out_msgs. cbn [rp_nsend rp_send].
    rewrite firstn_all. apply send_entries_eq, Hr.
  - rewrite (setup_p2p o n ins outs r Hr) in Hs. injection Hs as <-. unfold out_msgs, p_plan. cbn [rp_nsend rp_send].
    rewrite send_entries_eq by exact Hr. unfold osend. rewrite firstn_app, firstn_all, Nat.sub_diag. reflexivity.
Qed.
Lemma in_msgs_eq coll r pl : (r < n)%nat -> setup o n coll ins outs r = Some pl ->
  in_msgs pl = flat_map (rcvd o ins outs r) (others n r) ++ (if coll then rcvd o ins outs r r else []).
Proof.
  intros Hr Hs. destruct coll.
  - destruct (setup_coll o n ins outs r Hr) as (g & Eg & _). rewrite Eg in Hs. injection Hs as <-. unfold in_msgs. cbn [rp_nrecv rp_recv].
    rewrite firstn_all. apply recv_entries_eq, Hr.
  - rewrite (setup_p2p o n ins outs r Hr) in Hs. injection Hs as <-. unfold in_msgs, p_plan. cbn [rp_nrecv rp_recv].
    rewrite recv_entries_eq by exact Hr. unfold orecv. rewrite firstn_app, firstn_all, Nat.sub_diag. reflexivity.
Qed.

Lemma with_rank_gen (F : nat -> list entry) coll r q : (forall p e, In e (F p) -> e_proc e = p) -> (r < n)%nat -> (q < n)%nat ->
  coll = true \/ r <> q -> with_rank q (flat_map F (others n r) ++ (if coll then F r else [])) = map e_size (F q).
Proof.
  intros HF Hr Hq Hc. unfold with_rank. f_equal. rewrite filter_app.
  destruct (Nat.eq_dec r q) as [->|Hne].
  - destruct Hc as [-> | Hc]; [|contradiction]. rewrite filter_flat by (auto using others_NoDup).
    destruct (in_dec Nat.eq_dec q (others n q)) as [Hi|_]; [apply others_In in Hi; [lia|exact Hq]|]. cbn [app].
    apply filter_same, HF.
  - rewrite filter_flat by (auto using others_NoDup).
    destruct (in_dec Nat.eq_dec q (others n r)) as [_|Hi]; [|exfalso; apply Hi, others_In; auto].
    replace (filter (fun e => Nat.eqb (e_proc e) q) (if coll then F r else [])) with (@nil entry); [apply app_nil_r|].
    destruct coll; [|reflexivity]. symmetry. apply filter_diff with r; auto.
Qed.

(** the common elements, as a list without repetition *)
Lemma plans_agree coll r q plr plq : (r < n)%nat -> (q < n)%nat -> coll = true \/ r <> q ->
  setup o n coll ins outs r = Some plr -> setup o n coll ins outs q = Some plq ->
  with_rank q (out_msgs plr) = with_rank r (in_msgs plq) /\
  exists l : list E, NoDup l /\ (forall e, In e l <-> inbx e (ins r) /\ inbx e (outs q)) /\
    (with_rank q (out_msgs plr) = [] /\ (forall e, ~ (inbx e (ins r) /\ inbx e (outs q))) \/
     with_rank q (out_msgs plr) = [zlen l]).
Proof.
  intros Hr Hq Hc Hsr Hsq. rewrite (out_msgs_eq _ _ _ Hr Hsr), (in_msgs_eq _ _ _ Hq Hsq).
  rewrite (with_rank_gen (sent o ins outs r)); [|intros p e; apply sent_proc|exact Hr|exact Hq|exact Hc].
  rewrite (with_rank_gen (rcvd o ins outs q)); [|intros p e; apply rcvd_proc|exact Hq|exact Hr|destruct Hc; auto].
  split; [apply (sent_rcvd o ins outs (sp_sym _ _ _ _ _ SP))|].
  exists (ovl o elems ins outs q r). split; [apply (ovl_NoDup o elems inbx ain aout SP)|].
  split; [intros e; rewrite (ovl_In o elems inbx ain aout SP); tauto|].
  destruct (sent_one o ins outs r q) as [Es|(e & Es)]; rewrite Es; [left|right].
  - split; [reflexivity|]. intros e He. unfold sent in Es. destruct (o_collide o (ins r) (outs q)) as [ov|] eqn:Ec; [discriminate|].
    apply (sp_none _ _ _ _ _ SP _ _ e Ec); tauto.
  - cbn. f_equal. apply (sent_spec o elems inbx ain aout SP ins outs BIn r q e). rewrite Es. left; reflexivity.
Qed.

(** the collective group *)
Lemma groups_consistent r pl : (r < n)%nat -> setup o n true ins outs r = Some pl ->
  (exists f, rp_group pl = filter f (seq 0 n)) /\
  (rp_group pl <> [] -> In r (rp_group pl)) /\
  (forall q e, (q < n)%nat -> inbx e (ins r) -> inbx e (outs q) -> In q (rp_group pl)) /\
  (forall q e, (q < n)%nat -> inbx e (outs r) -> inbx e (ins q) -> In q (rp_group pl)) /\
  (forall q plq, In q (rp_group pl) -> setup o n true ins outs q = Some plq -> rp_group plq = rp_group pl) /\
  (forall q plq, (q < n)%nat -> setup o n true ins outs q = Some plq ->
     rp_group plq = rp_group pl \/ forall s, ~ (In s (rp_group pl) /\ In s (rp_group plq))).
Proof.
  intros Hr Hs.
  assert (Hg : forall r pl, setup o n true ins outs r = Some pl -> rp_group pl = grp o n ins outs r).
  { intros r' pl' H. unfold grp. rewrite H. reflexivity. }
  rewrite (Hg _ _ Hs). destruct (grp_spec o n ins outs r Hr) as (_ & Hreach & Hf).
  split; [exact Hf|]. split; [apply (grp_self o elems inbx ain aout SP n ins outs r Hr)|].
  split; [|split; [|split]].
  - intros q e Hq H1 H2. apply Hreach. constructor. split; [exact Hr|]. split; [exact Hq|]. left. intros Hn.
    apply (sp_none _ _ _ _ _ SP _ _ e Hn); assumption.
  - intros q e Hq H1 H2. apply Hreach. constructor. split; [exact Hr|]. split; [exact Hq|]. right. intros Hn.
    apply (sp_none _ _ _ _ _ SP _ _ e Hn); assumption.
  - intros q plq Hin Hq. rewrite (Hg _ _ Hq). apply (grp_same o elems inbx ain aout SP n ins outs r q Hr Hin).
  - intros q plq Hq Hsq. rewrite (Hg _ _ Hsq).
    destruct (in_dec Nat.eq_dec q (grp o n ins outs r)) as [Hi|Hi].
    + left. apply (grp_same o elems inbx ain aout SP n ins outs r q Hr Hi).
    + right. intros s (Hs1 & Hs2). apply Hi.
      destruct (grp_same o elems inbx ain aout SP n ins outs r s Hr Hs1) as (Hsn & E1).
      destruct (grp_same o elems inbx ain aout SP n ins outs q s Hq Hs2) as (_ & E2). rewrite <- E1, E2.
      apply (grp_self o elems inbx ain aout SP n ins outs q Hq). intros En. rewrite En in Hs2. destruct Hs2.
Qed.

Lemma a2a_side_nth (l : list entry) g b i p c d mp :
  nth_error g i = Some p -> nth_error (a2a_side l g b) i = Some (c, d, mp) ->
  match find_proc p l 0 with
  | Some (_, e) => c = e_size e /\ nth_error (locs b (found l g)) (length (found l (firstn i g))) = Some (e, d)
  | None => c = 0
  end.
Proof.
  revert b i. induction g as [|x g IH]; intros b i Hg Hn; [destruct i; discriminate|].
  destruct i as [|i]; cbn in Hg.
  - injection Hg as ->. cbn [a2a_side firstn found flat_map] in *. destruct (find_proc p l 0) as [[j e]|].
    + injection Hn as <- <- <-. cbn [app length]. rewrite locs_cons. auto.
    + injection Hn as <- <- <-. reflexivity.
  - cbn [a2a_side firstn] in *. cbn [found flat_map]. fold (found l g). fold (found l (firstn i g)).
    destruct (find_proc x l 0) as [[j e]|] eqn:Ex; cbn [nth_error] in Hn.
    + specialize (IH _ _ Hg Hn). destruct (find_proc p l 0) as [[j' e']|]; [|exact IH].
      cbn [app length]. rewrite locs_cons. exact IH.
    + exact (IH _ _ Hg Hn).
Qed.

Lemma found_firstn_lt (l : list entry) g i j p e k : (i < j)%nat -> nth_error g i = Some p -> find_proc p l 0 = Some (k, e) ->
  (length (found l (firstn i g)) < length (found l (firstn j g)))%nat.
Proof.
  revert i j. induction g as [|x g IH]; intros i j Hij Hg Hf; [destruct i; discriminate|].
  destruct j as [|j]; [lia|]. destruct i as [|i]; cbn in Hg.
  - injection Hg as ->. cbn [firstn found flat_map]. rewrite Hf. cbn. lia.
  - cbn [firstn found flat_map]. rewrite !app_length. specialize (IH i j ltac:(lia) Hg Hf). unfold found in IH. lia.
Qed.

(** counts and displacements of the collective exchange *)
Lemma counts_match r q plr plq i j c d mp c' d' mp' :
  (r < n)%nat -> setup o n true ins outs r = Some plr -> setup o n true ins outs q = Some plq ->
  nth_error (rp_group plr) i = Some q -> nth_error (rp_sside plr) i = Some (c, d, mp) ->
  nth_error (rp_group plq) j = Some r -> nth_error (rp_rside plq) j = Some (c', d', mp') ->
  c = c' /\ exists l : list E, NoDup l /\ (forall e, In e l <-> inbx e (ins r) /\ inbx e (outs q)) /\ c = zlen l.
Proof.
  intros Hr Hs Hsq Hi Hc Hj Hc'.
  destruct (grp_spec o n ins outs r Hr) as (E1 & _ & _).
  assert (Hq : (q < n)%nat).
  { rewrite E1 in Hs. injection Hs as <-. cbn [rp_group] in Hi. apply nth_error_In in Hi.
    apply (grp_same o elems inbx ain aout SP n ins outs r q Hr Hi). }
  destruct (grp_spec o n ins outs q Hq) as (E2 & _ & _).
  rewrite E1 in Hs. injection Hs as <-. rewrite E2 in Hsq. injection Hsq as <-. cbn [rp_group rp_sside rp_rside] in *.
  assert (F1 : c = zlen (ovl o elems ins outs q r)).
  { pose proof (a2a_side_nth _ _ _ _ _ _ _ _ Hi Hc) as H. destruct (find_proc q (send_entries o n ins outs r) 0) as [[k e]|] eqn:Ef.
    - destruct H as (-> & _). destruct (find_proc_Some _ _ _ _ _ Ef) as (_ & Hn & <-). apply nth_error_In in Hn.
      apply (send_spec o elems inbx ain aout SP n ins outs BIn r e Hr Hn).
    - rewrite H. rewrite (find_none_ovl_s o elems inbx ain aout SP n ins outs r q Hr Hq Ef). reflexivity. }
  assert (F2 : c' = zlen (ovl o elems ins outs q r)).
  { pose proof (a2a_side_nth _ _ _ _ _ _ _ _ Hj Hc') as H. destruct (find_proc r (recv_entries o n ins outs q) 0) as [[k e]|] eqn:Ef.
    - destruct H as (-> & _). destruct (find_proc_Some _ _ _ _ _ Ef) as (_ & Hn & <-). apply nth_error_In in Hn.
      apply (recv_spec o elems inbx ain aout SP n ins outs BIn q e Hq Hn).
    - rewrite H. rewrite (find_none_ovl_r o elems n ins outs q r Hq Hr Ef). reflexivity. }
  split; [congruence|]. exists (ovl o elems ins outs q r). split; [apply (ovl_NoDup o elems inbx ain aout SP)|].
  split; [intros e; rewrite (ovl_In o elems inbx ain aout SP); tauto|exact F1].
Qed.

Lemma slots_gen (l : list entry) g : nonneg l -> NoDup g ->
  (forall i p c d mp, nth_error g i = Some p -> nth_error (a2a_side l g 0) i = Some (c, d, mp) -> 0 < c -> 0 <= d /\ d + c <= sum_sizes l) /\
  (forall i i' p p' c d mp c' d' mp', (i < i')%nat -> nth_error g i = Some p -> nth_error g i' = Some p' ->
     nth_error (a2a_side l g 0) i = Some (c, d, mp) -> nth_error (a2a_side l g 0) i' = Some (c', d', mp') ->
     0 < c -> 0 < c' -> d + c <= d').
Proof.
  intros Hn ND.
  assert (Hn' : nonneg (found l g)) by (intros e He; apply Hn, (found_incl l g e He)).
  split.
  - intros i p c d mp Hi Hc Hp. pose proof (a2a_side_nth _ _ _ _ _ _ _ _ Hi Hc) as H.
    destruct (find_proc p l 0) as [[k e]|]; [|lia]. destruct H as (-> & H). apply nth_error_In in H.
    pose proof (locs_bound _ _ _ _ Hn' H). pose proof (found_sum l g Hn ND). lia.
  - intros i i' p p' c d mp c' d' mp' Hii Hi Hi' Hc Hc' Hp Hp'.
    pose proof (a2a_side_nth _ _ _ _ _ _ _ _ Hi Hc) as H. pose proof (a2a_side_nth _ _ _ _ _ _ _ _ Hi' Hc') as H'.
    destruct (find_proc p l 0) as [[k e]|] eqn:E1; [|lia]. destruct (find_proc p' l 0) as [[k' e']|] eqn:E2; [|lia].
    destruct H as (-> & H). destruct H' as (-> & H').
    pose proof (found_firstn_lt l g i i' p e k Hii Hi E1) as Hlt.
    revert Hlt H H'. generalize (length (found l (firstn i g))) (length (found l (firstn i' g))). intros a b Hab Ha Hb.
    pose proof (locs_sep 0 (found l g) Hn') as HS. revert Ha Hb Hab. clear - HS.
    revert a b. induction HS as [|x t Hx HS IH]; intros a b Ha Hb Hab; [destruct a; discriminate|].
    destruct b as [|b]; [lia|]. destruct a as [|a]; cbn in Ha, Hb.
    + injection Ha as ->. rewrite Forall_forall in Hx. apply (Hx (e', d')). eapply nth_error_In; eassumption.
    + apply (IH a b); auto. lia.
Qed.

(** slots lie in the buffers of the sizes returned by setup and do not overlap *)
Lemma slots_ok r pl : (r < n)%nat -> setup o n true ins outs r = Some pl ->
  length (rp_sside pl) = length (rp_group pl) /\ length (rp_rside pl) = length (rp_group pl) /\
  (forall side size, (side, size) = (rp_sside pl, rp_sendsize pl) \/ (side, size) = (rp_rside pl, rp_recvsize pl) ->
    (forall i c d mp, nth_error side i = Some (c, d, mp) -> 0 < c -> 0 <= d /\ d + c <= size) /\
    (forall i i' c d mp c' d' mp', (i < i')%nat -> nth_error side i = Some (c, d, mp) -> nth_error side i' = Some (c', d', mp') ->
       0 < c -> 0 < c' -> d + c <= d')).
Proof.
  intros Hr Hs. destruct (grp_spec o n ins outs r Hr) as (E1 & _ & _).
  rewrite E1 in Hs. injection Hs as <-. cbn [rp_group rp_sside rp_rside rp_sendsize rp_recvsize].
  rewrite !a2a_side_length. split; [reflexivity|]. split; [reflexivity|].
  pose proof (grp_NoDup o n ins outs r Hr) as ND.
  assert (G : forall l : list entry, nonneg l ->
    (forall i c d mp, nth_error (a2a_side l (grp o n ins outs r) 0) i = Some (c, d, mp) -> 0 < c -> 0 <= d /\ d + c <= sum_sizes l) /\
    (forall i i' c d mp c' d' mp', (i < i')%nat -> nth_error (a2a_side l (grp o n ins outs r) 0) i = Some (c, d, mp) ->
       nth_error (a2a_side l (grp o n ins outs r) 0) i' = Some (c', d', mp') -> 0 < c -> 0 < c' -> d + c <= d')).
  { intros l Hl. destruct (slots_gen l (grp o n ins outs r) Hl ND) as (G1 & G2).
    assert (Hg : forall i x, nth_error (a2a_side l (grp o n ins outs r) 0) i = Some x -> exists p, nth_error (grp o n ins outs r) i = Some p).
    { intros i x Hx. destruct (nth_error (grp o n ins outs r) i) eqn:En; [eauto|]. apply nth_error_None in En.
      assert (nth_error (a2a_side l (grp o n ins outs r) 0) i = None) by (apply nth_error_None; rewrite a2a_side_length; exact En). congruence. }
    split.
    - intros i c d mp Hi. destruct (Hg _ _ Hi) as (p & Hp). eapply G1; eassumption.
    - intros i i' c d mp c' d' mp' Hii Hi Hi'. destruct (Hg _ _ Hi) as (p & Hp). destruct (Hg _ _ Hi') as (p' & Hp'). eapply G2; eassumption. }
  intros side size [E2 | E2]; injection E2 as -> ->; apply G.
  - apply (send_nonneg o elems inbx ain aout SP n ins outs BIn r Hr).
  - apply (recv_nonneg o elems inbx ain aout SP n ins outs BIn r Hr).
Qed.

End Plans.

(** ** 3d remaps *)

Lemma out_of_cells3 nq perm b p q a : inb3 p b -> 0 <= q < nq -> ~ (0 <= a < nq * vol3 b) -> cell3 nq perm b p q <> a.
Proof. intros Hp Hq Ha E. pose proof (cell3_bound nq perm b p q Hp Hq). rewrite (vol3_pos _ _ Hp) in Ha. lia. Qed.

Section T3.
Context {A : Type}.
Variables (n : nat) (nq permute : Z) (ins outs : nat -> box3).
Hypothesis Hp : perm_ok3 permute.
Hypothesis Hq : 0 < nq.
Hypothesis Hdisj : disjoint_owners3 n ins.

(** legal call: settings and array sizes *)
Definition call_ok3 (coll : bool) (packflag : Z) (din dout : bsel) (M0 : nat -> @rmem A) : Prop :=
  flag_ok packflag /\ isdata din /\ isdata dout /\
  (forall r, (r < n)%nat -> nq * vol3 (ins r) <= zlen (getb din (M0 r)) /\ nq * vol3 (outs r) <= zlen (getb dout (M0 r))) /\
  bufs3 n coll packflag nq permute ins outs M0.

Lemma remap3_safe (dflt : A) coll packflag din dout M0 : call_ok3 coll packflag din dout M0 ->
  exec_all n (remap3 n coll packflag nq permute ins outs din dout) M0 (fun r m =>
    (forall b, zlen (getb b m) = zlen (getb b (M0 r))) /\
    (forall b, isdata b -> b <> dout -> getb b m = getb b (M0 r)) /\
    (forall a, ~ (0 <= a < nq * vol3 (outs r)) -> zget (getb dout m) a = zget (getb dout (M0 r)) a)).
Proof.
  intros (Hf & Hdi & Hdo & Hl & Hb).
  destruct (field3_exists dflt n nq ins (fun r => getb din (M0 r)) Hdisj (fun r Hr => proj1 (Hl r Hr))) as (g & Hg).
  destruct (remap3_delivers n coll packflag nq permute ins outs din dout Hf Hp Hq Hdi Hdo Hdisj g M0 Hg (fun r Hr => proj2 (Hl r Hr)) Hb) as (M' & HP & HE).
  exists M'. split; [|exact HE]. intros r Hr. destruct (HP r Hr) as (_ & H2 & H3 & H4).
  split; [exact H2|]. split; [exact H3|]. intros a Ha. apply H4. intros p q Hpb _ Hqq. apply out_of_cells3; assumption.
Qed.

Lemma remap3_correct (g : pt3 -> Z -> A) coll packflag din dout M0 : call_ok3 coll packflag din dout M0 -> covered3 n ins outs ->
  (forall r, (r < n)%nat -> holds3 nq 0 (ins r) g (getb din (M0 r))) ->
  exec_all n (remap3 n coll packflag nq permute ins outs din dout) M0 (fun r m => holds3 nq permute (outs r) g (getb dout m)).
Proof.
  intros (Hf & Hdi & Hdo & Hl & Hb) Hc Hg.
  destruct (remap3_delivers n coll packflag nq permute ins outs din dout Hf Hp Hq Hdi Hdo Hdisj g M0 Hg (fun r Hr => proj2 (Hl r Hr)) Hb) as (M' & HP & HE).
  exists M'. split; [|exact HE]. intros r Hr p q Hpb Hqq. apply (HP r Hr); auto. apply (Hc p r Hr Hpb).
Qed.

(** two calls on memories with the same input contents give the same output cells *)
Lemma remap3_agree (dflt : A) coll packflag din dout M0 coll' packflag' din' dout' M0' :
  covered3 n ins outs -> call_ok3 coll packflag din dout M0 -> call_ok3 coll' packflag' din' dout' M0' ->
  (forall r a, (r < n)%nat -> 0 <= a < nq * vol3 (ins r) -> zget (getb din (M0 r)) a = zget (getb din' (M0' r)) a) ->
  exists M1 M2,
    exec_to n (remap3 n coll packflag nq permute ins outs din dout) M0 M1 /\
    exec_to n (remap3 n coll' packflag' nq permute ins outs din' dout') M0' M2 /\
    forall r p q, (r < n)%nat -> inb3 p (outs r) -> 0 <= q < nq ->
      zget (getb dout (M1 r)) (cell3 nq permute (outs r) p q) = zget (getb dout' (M2 r)) (cell3 nq permute (outs r) p q).
Proof.
  intros Hc C1 C2 Hsame.
  assert (Hl : forall r, (r < n)%nat -> nq * vol3 (ins r) <= zlen (getb din (M0 r))) by (intros r Hr; apply C1, Hr).
  destruct (field3_exists dflt n nq ins (fun r => getb din (M0 r)) Hdisj Hl) as (g & Hg).
  destruct (remap3_correct g coll packflag din dout M0 C1 Hc Hg) as (M1 & P1 & E1).
  assert (Hg' : forall r, (r < n)%nat -> holds3 nq 0 (ins r) g (getb din' (M0' r))).
  { intros r Hr p q Hpb Hqq. rewrite <- Hsame; [apply Hg; assumption|exact Hr|].
    rewrite (vol3_pos _ _ Hpb). pose proof (cell3_bound nq 0 (ins r) p q Hpb Hqq). lia. }
  destruct (remap3_correct g coll' packflag' din' dout' M0' C2 Hc Hg') as (M2 & P2 & E2).
  exists M1, M2. split; [exact E1|]. split; [exact E2|]. intros r p q Hr Hpb Hqq.
  rewrite (P1 r Hr p q Hpb Hqq), (P2 r Hr p q Hpb Hqq). reflexivity.
Qed.
End T3.

(** *** a sequence of remaps *)
Record leg3 := mkleg3 { l_coll : bool; l_pack : Z; l_nq : Z; l_perm : Z; l_ins : nat -> box3; l_outs : nat -> box3; l_din : bsel; l_dout : bsel }.
Definition leg3_code {A} (n : nat) (l : leg3) : nat -> list (@instr A) :=
  remap3 n (l_coll l) (l_pack l) (l_nq l) (l_perm l) (l_ins l) (l_outs l) (l_din l) (l_dout l).
Definition leg3_ok {A} (n : nat) (M0 : nat -> @rmem A) (l : leg3) : Prop :=
  perm_ok3 (l_perm l) /\ 0 < l_nq l /\ disjoint_owners3 n (l_ins l) /\
  call_ok3 n (l_nq l) (l_perm l) (l_ins l) (l_outs l) (l_coll l) (l_pack l) (l_din l) (l_dout l) M0.

(** executing the programs one after the other, all ranks together *)
Inductive one_by_one {A} (n : nat) : list (nat -> list instr) -> (nat -> @rmem A) -> (nat -> @rmem A) -> Prop :=
| obo_nil M : one_by_one n [] M M
| obo_cons c cs M M1 M2 : exec_to n c M M1 -> one_by_one n cs M1 M2 -> one_by_one n (c :: cs) M M2.

Definition together {A} (cs : list (nat -> list (@instr A))) : nat -> list instr := fun r => concat (map (fun c => c r) cs).

Lemma exec_nil {A} n (M : nat -> @rmem A) : exec_to n (fun _ => []) M M.
Proof. apply (run_exec n (fun _ => []) M M [] (fun _ => 0%nat)); [constructor|intros r _; constructor]. Qed.

Lemma together_wf {A} n (cs : list (nat -> list (@instr A))) : Forall (wf_code n) cs -> wf_code n (together cs).
Proof.
  induction 1 as [|c cs H _ IH]; [intros r _; constructor|]. exact (wf_code_app n c (together cs) H IH).
Qed.

Lemma one_by_one_together {A} n (cs : list (nat -> list (@instr A))) M M' : Forall (wf_code n) cs -> one_by_one n cs M M' -> exec_to n (together cs) M M'.
Proof.
  intros HF H. induction H as [M|c cs M M1 M2 H1 _ IH]; [apply exec_nil|]. inversion HF; subst.
  exact (exec_seq n c (together cs) M M1 M2 H2 (together_wf n cs H3) H1 (IH H3)).
Qed.

Lemma leg3_wf {A} n (M0 : nat -> @rmem A) l : leg3_ok n M0 l -> wf_code (A := A) n (leg3_code n l).
Proof. intros (H1 & H2 & H3 & H4 & H5 & H6 & _). apply remap3_wf; assumption. Qed.

Lemma leg3_lens {A} n (M0 M1 : nat -> @rmem A) l : (forall r b, (r < n)%nat -> zlen (getb b (M1 r)) = zlen (getb b (M0 r))) ->
  leg3_ok n M0 l -> leg3_ok n M1 l.
Proof.
  intros E (H1 & H2 & H3 & H4 & H5 & H6 & H7 & H8). repeat (split; [assumption|]). split.
  - intros r Hr. rewrite !E by exact Hr. apply H7, Hr.
  - intros r pl Hr Hs. pose proof (H8 r pl Hr Hs) as H. pose proof (E r BSend Hr) as E1. pose proof (E r BRecv Hr) as E2. cbn in E1, E2.
    rewrite E1, E2. exact H.
Qed.

Lemma legs3_run {A} (dflt : A) n legs : forall M0 : nat -> @rmem A, Forall (leg3_ok n M0) legs ->
  exists M' : nat -> @rmem A, one_by_one n (map (leg3_code n) legs) M0 M' /\ exec_to n (together (map (leg3_code n) legs)) M0 M'.
Proof.
  intros M0 HF. assert (HW : Forall (wf_code n) (map (leg3_code (A := A) n) legs)).
  { clear dflt. induction HF; constructor; auto. eapply leg3_wf; eassumption. }
  assert (H : exists M', one_by_one n (map (leg3_code n) legs) M0 M').
  { clear HW. revert M0 HF. induction legs as [|l legs IH]; intros M0 HF; [exists M0; constructor|]. inversion HF as [|? ? Hl HF']; subst.
    destruct Hl as (H1 & H2 & H3 & H4).
    destruct (remap3_safe n _ _ _ _ H1 H2 H3 dflt _ _ _ _ _ H4) as (M1 & P1 & E1).
    destruct (IH M1) as (M2 & O2).
    - revert HF'. apply Forall_impl. intros l'. apply leg3_lens. intros r b Hr. apply (P1 r Hr).
    - exists M2. econstructor; eassumption. }
  destruct H as (M' & H). exists M'. split; [exact H|]. apply one_by_one_together; assumption.
Qed.

(** *** renaming of axes *)
Lemma rot_inb3 perm p b : perm_ok3 perm -> inb3 (rotp3 perm p) (rotb3 perm b) <-> inb3 p b.
Proof. destruct p as [[i j] k]. intros [-> | [-> | ->]]; cbn; tauto. Qed.
Lemma rot_pos3 perm b p : perm_ok3 perm -> pos3 0 (rotb3 perm b) (rotp3 perm p) = pos3 perm b p.
Proof. destruct p as [[i j] k]. intros [-> | [-> | ->]]; cbn; unfold ni, nj, nk; cbn; lia. Qed.
Lemma rot_back3 perm p : perm_ok3 perm -> rotp3 (back3 perm) (rotp3 perm p) = p.
Proof. destruct p as [[i j] k]. intros [-> | [-> | ->]]; reflexivity. Qed.
Lemma back_rot3 perm p : perm_ok3 perm -> rotp3 perm (rotp3 (back3 perm) p) = p.
Proof. destruct p as [[i j] k]. intros [-> | [-> | ->]]; reflexivity. Qed.
Lemma rotb_back3 perm b : perm_ok3 perm -> rotb3 (back3 perm) (rotb3 perm b) = b.
Proof. destruct b. intros [-> | [-> | ->]]; reflexivity. Qed.
Lemma back_ok3 perm : perm_ok3 perm -> perm_ok3 (back3 perm).
Proof. intros [-> | [-> | ->]]; cbv; auto. Qed.
Lemma rot_vol3 perm b : perm_ok3 perm -> vol3 (rotb3 perm b) = vol3 b.
Proof. intros [-> | [-> | ->]]; unfold vol3, ni, nj, nk; cbn; lia. Qed.

Lemma holds_rot3 {A} nq perm b (g : pt3 -> Z -> A) arr : perm_ok3 perm ->
  holds3 nq perm b g arr <-> holds3 nq 0 (rotb3 perm b) (fun p => g (rotp3 (back3 perm) p)) arr.
Proof.
  intros Hp. split; intros H p q Hpb Hq.
  - rewrite <- (back_rot3 perm p Hp) in Hpb |- *. rewrite rot_inb3 in Hpb by exact Hp.
    specialize (H _ q Hpb Hq). unfold cell3 in *. rewrite rot_pos3 by exact Hp. rewrite rot_back3 by exact Hp. exact H.
  - assert (Hb : inb3 (rotp3 perm p) (rotb3 perm b)) by (apply rot_inb3; assumption).
    specialize (H _ q Hb Hq). unfold cell3 in *. rewrite rot_pos3, rot_back3 in H by exact Hp. exact H.
Qed.

Lemma rot_disjoint3 n perm t : perm_ok3 perm -> disjoint_owners3 n t -> disjoint_owners3 n (fun r => rotb3 perm (t r)).
Proof.
  intros Hp H p r r' Hr Hr' H1 H2. apply (H (rotp3 (back3 perm) p)); auto.
  - rewrite <- (back_rot3 perm p Hp) in H1. rewrite rot_inb3 in H1; assumption.
  - rewrite <- (back_rot3 perm p Hp) in H2. rewrite rot_inb3 in H2; assumption.
Qed.
Lemma rot_covered3 n perm t u : perm_ok3 perm -> covered3 n t u -> covered3 n (fun r => rotb3 perm (t r)) (fun r => rotb3 perm (u r)).
Proof.
  intros Hp H p r Hr H1. rewrite <- (back_rot3 perm p Hp) in H1 |- *. rewrite rot_inb3 in H1 by exact Hp.
  destruct (H _ r Hr H1) as (s & Hs & H2). exists s. split; [exact Hs|]. apply rot_inb3; assumption.
Qed.

Lemma remap3_back {A} n nq perm tA tB coll1 pack1 coll2 pack2 b1 b2 b3 (g : pt3 -> Z -> A) M0 :
  perm_ok3 perm -> 0 < nq -> disjoint_owners3 n tA -> disjoint_owners3 n tB -> covered3 n tA tB -> covered3 n tB tA ->
  call_ok3 n nq perm tA tB coll1 pack1 b1 b2 M0 ->
  call_ok3 n nq (back3 perm) (fun r => rotb3 perm (tB r)) (fun r => rotb3 perm (tA r)) coll2 pack2 b2 b3 M0 ->
  (forall r, (r < n)%nat -> holds3 nq 0 (tA r) g (getb b1 (M0 r))) ->
  exec_all n (fun r => remap3 n coll1 pack1 nq perm tA tB b1 b2 r ++
                       remap3 n coll2 pack2 nq (back3 perm) (fun r => rotb3 perm (tB r)) (fun r => rotb3 perm (tA r)) b2 b3 r) M0
    (fun r m => holds3 nq 0 (tA r) g (getb b3 m)).
Proof.
  intros Hp Hq DA DB CA CB (F1 & I1 & O1 & L1 & B1) (F2 & I2 & O2 & L2 & B2) Hg.
  apply triple_exec with (pre := fun r m => holds3 nq 0 (tA r) g (getb b1 m) /\ frame M0 false r m).
  - eapply triple_seq.
    + apply (remap3_step n coll1 pack1 nq perm tA tB b1 b2 F1 Hp Hq I1 O1 DA strict g M0 false ltac:(discriminate) CA (fun r Hr => proj2 (L1 r Hr)) B1).
    + eapply triple_conseq; [| |apply (remap3_step n coll2 pack2 nq (back3 perm) (fun r => rotb3 perm (tB r)) (fun r => rotb3 perm (tA r))
         b2 b3 F2 (back_ok3 _ Hp) Hq I2 O2 (rot_disjoint3 _ _ _ Hp DB) strict (fun p => g (rotp3 (back3 perm) p)) M0 false ltac:(discriminate)
         (rot_covered3 _ _ _ _ Hp CB) (fun r Hr => proj2 (L2 r Hr)) B2)].
      * intros r m Hr (H1 & H2). split; [|exact H2]. apply (holds_rot3 nq perm (tB r) g _ Hp). exact H1.
      * intros r m Hr (H1 & _). apply (holds_rot3 _ _ _ _ _ (back_ok3 _ Hp)) in H1. rewrite rotb_back3 in H1 by exact Hp.
        intros p q Hpb Hqq. rewrite (H1 p q Hpb Hqq). do 2 f_equal.
        destruct p as [[i j] k], Hp as [-> | [-> | ->]]; reflexivity.
  - apply wf_code_app; apply remap3_wf; auto using back_ok3, rot_disjoint3.
  - intros r Hr. split; [apply Hg, Hr|]. repeat split.
Qed.

(** ** 2d remaps *)
Lemma out_of_cells2 nq perm b p q a : inb2 p b -> 0 <= q < nq -> ~ (0 <= a < nq * vol2 b) -> cell2 nq perm b p q <> a.
Proof. intros Hp Hq Ha E. pose proof (cell2_bound nq perm b p q Hp Hq). rewrite (vol2_pos _ _ Hp) in Ha. lia. Qed.

Section T2.
Context {A : Type}.
Variables (esize : Z) (n : nat) (nq permute : Z) (ins outs : nat -> box2).
Hypothesis Hp : perm_ok2 permute.
Hypothesis Hq : 0 < nq.
Hypothesis Hdisj : disjoint_owners2 n ins.

(** packflag 2 copies sizeof(double) bytes per scalar, so it is legal only for double scalars *)
Definition call_ok2 (coll : bool) (packflag : Z) (din dout : bsel) (M0 : nat -> @rmem A) : Prop :=
  flag_ok packflag /\ (esize = 8 \/ packflag <> 2) /\ isdata din /\ isdata dout /\
  (forall r, (r < n)%nat -> nq * vol2 (ins r) <= zlen (getb din (M0 r)) /\ nq * vol2 (outs r) <= zlen (getb dout (M0 r))) /\
  bufs2 n coll packflag nq permute ins outs M0.

Lemma remap2_safe (dflt : A) coll packflag din dout M0 : call_ok2 coll packflag din dout M0 ->
  exec_all n (remap2 esize n coll packflag nq permute ins outs din dout) M0 (fun r m =>
    (forall b, zlen (getb b m) = zlen (getb b (M0 r))) /\
    (forall b, isdata b -> b <> dout -> getb b m = getb b (M0 r)) /\
    (forall a, ~ (0 <= a < nq * vol2 (outs r)) -> zget (getb dout m) a = zget (getb dout (M0 r)) a)).
Proof.
  intros (Hf & He & Hdi & Hdo & Hl & Hb).
  destruct (field2_exists dflt n nq ins (fun r => getb din (M0 r)) Hdisj (fun r Hr => proj1 (Hl r Hr))) as (g & Hg).
  destruct (remap2_delivers esize n coll packflag nq permute ins outs din dout Hf Hp Hq He Hdi Hdo Hdisj g M0 Hg (fun r Hr => proj2 (Hl r Hr)) Hb) as (M' & HP & HE).
  exists M'. split; [|exact HE]. intros r Hr. destruct (HP r Hr) as (_ & H2 & H3 & H4).
  split; [exact H2|]. split; [exact H3|]. intros a Ha. apply H4. intros p q Hpb _ Hqq. apply out_of_cells2; assumption.
Qed.

Lemma remap2_correct (g : pt2 -> Z -> A) coll packflag din dout M0 : call_ok2 coll packflag din dout M0 -> covered2 n ins outs ->
  (forall r, (r < n)%nat -> holds2 nq 0 (ins r) g (getb din (M0 r))) ->
  exec_all n (remap2 esize n coll packflag nq permute ins outs din dout) M0 (fun r m => holds2 nq permute (outs r) g (getb dout m)).
Proof.
  intros (Hf & He & Hdi & Hdo & Hl & Hb) Hc Hg.
  destruct (remap2_delivers esize n coll packflag nq permute ins outs din dout Hf Hp Hq He Hdi Hdo Hdisj g M0 Hg (fun r Hr => proj2 (Hl r Hr)) Hb) as (M' & HP & HE).
  exists M'. split; [|exact HE]. intros r Hr p q Hpb Hqq. apply (HP r Hr); auto. apply (Hc p r Hr Hpb).
Qed.

Lemma remap2_agree (dflt : A) coll packflag din dout M0 coll' packflag' din' dout' M0' :
  covered2 n ins outs -> call_ok2 coll packflag din dout M0 -> call_ok2 coll' packflag' din' dout' M0' ->
  (forall r a, (r < n)%nat -> 0 <= a < nq * vol2 (ins r) -> zget (getb din (M0 r)) a = zget (getb din' (M0' r)) a) ->
  exists M1 M2,
    exec_to n (remap2 esize n coll packflag nq permute ins outs din dout) M0 M1 /\
    exec_to n (remap2 esize n coll' packflag' nq permute ins outs din' dout') M0' M2 /\
    forall r p q, (r < n)%nat -> inb2 p (outs r) -> 0 <= q < nq ->
      zget (getb dout (M1 r)) (cell2 nq permute (outs r) p q) = zget (getb dout' (M2 r)) (cell2 nq permute (outs r) p q).
Proof.
  intros Hc C1 C2 Hsame.
  assert (Hl : forall r, (r < n)%nat -> nq * vol2 (ins r) <= zlen (getb din (M0 r))) by (intros r Hr; apply C1, Hr).
  destruct (field2_exists dflt n nq ins (fun r => getb din (M0 r)) Hdisj Hl) as (g & Hg).
  destruct (remap2_correct g coll packflag din dout M0 C1 Hc Hg) as (M1 & P1 & E1).
  assert (Hg' : forall r, (r < n)%nat -> holds2 nq 0 (ins r) g (getb din' (M0' r))).
  { intros r Hr p q Hpb Hqq. rewrite <- Hsame; [apply Hg; assumption|exact Hr|].
    rewrite (vol2_pos _ _ Hpb). pose proof (cell2_bound nq 0 (ins r) p q Hpb Hqq). lia. }
  destruct (remap2_correct g coll' packflag' din' dout' M0' C2 Hc Hg') as (M2 & P2 & E2).
  exists M1, M2. split; [exact E1|]. split; [exact E2|]. intros r p q Hr Hpb Hqq.
  rewrite (P1 r Hr p q Hpb Hqq), (P2 r Hr p q Hpb Hqq). reflexivity.
Qed.
End T2.

Lemma rot_inb2 perm p b : perm_ok2 perm -> inb2 (rotp2 perm p) (rotb2 perm b) <-> inb2 p b.
Proof. destruct p as [i j]. intros [-> | ->]; cbn; tauto. Qed.
Lemma rot_pos2 perm b p : perm_ok2 perm -> pos2 0 (rotb2 perm b) (rotp2 perm p) = pos2 perm b p.
Proof. destruct p as [i j]. intros [-> | ->]; cbn; unfold ni2, nj2; cbn; lia. Qed.
Lemma rot_rot2 perm p : perm_ok2 perm -> rotp2 perm (rotp2 perm p) = p.
Proof. destruct p as [i j]. intros [-> | ->]; reflexivity. Qed.
Lemma rotb_rotb2 perm b : perm_ok2 perm -> rotb2 perm (rotb2 perm b) = b.
Proof. destruct b. intros [-> | ->]; reflexivity. Qed.
Lemma rot_vol2 perm b : perm_ok2 perm -> vol2 (rotb2 perm b) = vol2 b.
Proof. intros [-> | ->]; unfold vol2, ni2, nj2; cbn; lia. Qed.
Lemma holds_rot2 {A} nq perm b (g : pt2 -> Z -> A) arr : perm_ok2 perm ->
  holds2 nq perm b g arr <-> holds2 nq 0 (rotb2 perm b) (fun p => g (rotp2 perm p)) arr.
Proof.
  intros Hp. split; intros H p q Hpb Hq.
  - rewrite <- (rot_rot2 perm p Hp) in Hpb |- *. rewrite rot_inb2 in Hpb by exact Hp.
    specialize (H _ q Hpb Hq). unfold cell2 in *. rewrite rot_pos2 by exact Hp. rewrite rot_rot2 by exact Hp. exact H.
  - assert (Hb : inb2 (rotp2 perm p) (rotb2 perm b)) by (apply rot_inb2; assumption).
    specialize (H _ q Hb Hq). unfold cell2 in *. rewrite rot_pos2, rot_rot2 in H by exact Hp. exact H.
Qed.
Lemma rot_disjoint2 n perm t : perm_ok2 perm -> disjoint_owners2 n t -> disjoint_owners2 n (fun r => rotb2 perm (t r)).
Proof.
  intros Hp H p r r' Hr Hr' H1 H2. apply (H (rotp2 perm p)); auto.
  - rewrite <- (rot_rot2 perm p Hp) in H1. rewrite rot_inb2 in H1; assumption.
  - rewrite <- (rot_rot2 perm p Hp) in H2. rewrite rot_inb2 in H2; assumption.
Qed.
Lemma rot_covered2 n perm t u : perm_ok2 perm -> covered2 n t u -> covered2 n (fun r => rotb2 perm (t r)) (fun r => rotb2 perm (u r)).
Proof.
  intros Hp H p r Hr H1. rewrite <- (rot_rot2 perm p Hp) in H1 |- *. rewrite rot_inb2 in H1 by exact Hp.
  destruct (H _ r Hr H1) as (s & Hs & H2). exists s. split; [exact Hs|]. apply rot_inb2; assumption.
Qed.
