(** Volume.v : how much a program communicates.  The programs of Remap.v and Fft3d.v
    have no branches around their MPI calls, so a complete execution performs every
    instruction once and the counts below are the amounts handed to MPI
    (src/remap3d.cpp:643-710, src/remap2d.cpp:596-663). *)

From Verif Require Import Base Spec Pack3d Sched Phases Remap RemapPlan RemapProofs RemapTriple RemapMain RemapInst Remap3d Remap2d RemapThms RemapTop Count.
From Coq Require Import Permutation.

(** ** specification *)
Section Traffic.
Context {A : Type}.
(** scalars addressed to rank [q] by one MPI call *)
Definition sends1 (q : nat) (i : @instr A) : Z :=
  match i with
  | ISend d len => if Nat.eqb d q then len else 0
  | IA2A g args => fold_right (fun x s => (if Nat.eqb (fst x) q then let '(sc, _, _, _) := snd x in sc else 0) + s) 0 (combine g args)
  | _ => 0
  end.
(** scalars expected from rank [q] by one MPI call *)
Definition expects1 (q : nat) (i : @instr A) : Z :=
  match i with
  | IIrecv _ s _ len => if Nat.eqb s q then len else 0
  | IA2A g args => fold_right (fun x s => (if Nat.eqb (fst x) q then let '(_, _, rc, _) := snd x in rc else 0) + s) 0 (combine g args)
  | _ => 0
  end.
(** calls of MPI_Send to rank [q] *)
Definition msgs1 (q : nat) (i : @instr A) : Z :=
  match i with ISend d _ => if Nat.eqb d q then 1 else 0 | _ => 0 end.

Definition tally (f : @instr A -> Z) (c : list instr) : Z := fold_right (fun i s => f i + s) 0 c.
Definition sends (q : nat) := tally (sends1 q).
Definition expects (q : nat) := tally (expects1 q).
Definition msgs (q : nat) := tally (msgs1 q).

(** everything [n] ranks send to other ranks *)
Definition traffic (n : nat) (code : nat -> list (@instr A)) : Z :=
  zsum n (fun r => zsum n (fun q => if Nat.eqb r q then 0 else sends q (code r))).
End Traffic.

(** [k] points satisfy [P] *)
Definition number {T} (P : T -> Prop) (k : Z) : Prop := exists l, NoDup l /\ (forall p, In p l <-> P p) /\ zlen l = k.

(** the point changes its owner from the layout [a] to the layout [b] *)
Definition moves3 (n : nat) (a b : nat -> box3) (p : pt3) : Prop :=
  exists r q, (r < n)%nat /\ (q < n)%nat /\ r <> q /\ inb3 p (a r) /\ inb3 p (b q).
Definition moves2 (n : nat) (a b : nat -> box2) (p : pt2) : Prop :=
  exists r q, (r < n)%nat /\ (q < n)%nat /\ r <> q /\ inb2 p (a r) /\ inb2 p (b q).

(** ** proofs *)
Section Tally.
Context {A : Type}.
Lemma tally_app (f : @instr A -> Z) a b : tally f (a ++ b) = tally f a + tally f b.
Proof. unfold tally. induction a as [|x a IH]; cbn [app fold_right]; [lia|]. rewrite IH. lia. Qed.
Lemma tally_zero (f : @instr A -> Z) c : (forall i, In i c -> f i = 0) -> tally f c = 0.
Proof.
  unfold tally. induction c as [|x c IH]; intros H; cbn [fold_right]; [reflexivity|]. rewrite (H x (or_introl eq_refl)).
  rewrite IH; [reflexivity|]. intros; apply H; right; assumption.
Qed.
Lemma tally_local (f : @instr A -> Z) l : (forall h, f (ILocal h) = 0) -> tally f (map ILocal l) = 0.
Proof. intros H. apply tally_zero. intros i Hi. apply in_map_iff in Hi as (h & <- & _). apply H. Qed.
Lemma tally_concat (f : @instr A -> Z) l : tally f (concat l) = fold_right (fun c s => tally f c + s) 0 l.
Proof. induction l as [|c l IH]; [reflexivity|]. cbn [concat fold_right]. rewrite tally_app, IH. reflexivity. Qed.
End Tally.

Section Gen.
Context {A ext plan E : Type} (o : rops A ext plan) (elems : ext -> list E) (inbx : E -> ext -> Prop) (ain aout : ext -> E -> Z).
Hypothesis SP : rspec o elems inbx ain aout.
Variable n : nat.
Variable ins outs : nat -> ext.
Variable din dout : bsel.
Local Notation entry := (@Remap.entry plan).
Local Notation code c := (remap_code o n c ins outs din dout).
Local Notation ovl := (ovl o elems ins outs).

Definition zs (l : list Z) : Z := fold_right Z.add 0 l.

Lemma sends_flat q (l : list entry) :
  tally (sends1 q) (flat_map (fun e => [ILocal (do_pack o din BSend 0 e); ISend (e_proc e) (e_size e)]) l) = zs (with_rank q l).
Proof.
  unfold with_rank. induction l as [|e l IH]; [reflexivity|]. cbn [flat_map]. rewrite tally_app, IH.
  cbn [filter]. cbn [tally fold_right sends1]. destruct (Nat.eqb (e_proc e) q); cbn [map zs fold_right]; unfold zs; lia.
Qed.
Lemma msgs_flat q (l : list entry) :
  tally (msgs1 q) (flat_map (fun e => [ILocal (do_pack o din BSend 0 e); ISend (e_proc e) (e_size e)]) l) = zlen (with_rank q l).
Proof.
  unfold with_rank. induction l as [|e l IH]; [reflexivity|]. cbn [flat_map]. rewrite tally_app, IH.
  cbn [filter]. cbn [tally fold_right msgs1]. destruct (Nat.eqb (e_proc e) q); cbn [map]; rewrite ?zlen_cons; lia.
Qed.
Lemma expects_flat q (l : list entry) m locs i : (length l <= length locs)%nat -> m = length l ->
  tally (expects1 (A := A) q) (map (fun '(irecv, (e, loc)) => IIrecv irecv (e_proc e) loc (e_size e)) (combine (seq i m) (combine l locs))) = zs (with_rank q l).
Proof.
  intros Hl ->. unfold with_rank. revert i locs Hl. induction l as [|e l IH]; intros i locs Hl; [reflexivity|]. destruct locs as [|x locs]; [cbn in Hl; lia|].
  cbn [length seq combine map]. cbn [tally fold_right expects1 filter].
  assert (Hl' : (length l <= length locs)%nat) by (cbn in Hl; lia). specialize (IH (S i) locs Hl'). unfold tally in IH. rewrite IH.
  destruct (Nat.eqb (e_proc e) q); cbn [map zs fold_right]; unfold zs; lia.
Qed.

Lemma tally_expects_sends q (l : list entry) :
  tally (expects1 q) (flat_map (fun e => [ILocal (do_pack o din BSend 0 e); ISend (e_proc e) (e_size e)]) l) = 0.
Proof. apply tally_zero. intros i Hi. apply in_flat_map in Hi as (e & _ & [<- | [<- | []]]); reflexivity. Qed.


Lemma sent_size r q : zs (map e_size (sent o ins outs r q)) = zlen (ovl q r).
Proof.
  destruct (sent_one o ins outs r q) as [Es|(e & Es)]; rewrite Es.
  - cbn. unfold RemapMain.ovl. rewrite (sp_sym _ _ _ _ _ SP). unfold sent in Es. destruct (o_collide o (ins r) (outs q)); [discriminate|reflexivity].
  - cbn. rewrite Z.add_0_r. apply (sent_spec o elems inbx ain aout SP ins outs BIn r q e). rewrite Es. left; reflexivity.
Qed.
Lemma rcvd_size r q : zs (map e_size (rcvd o ins outs r q)) = zlen (ovl r q).
Proof. rewrite <- (sent_rcvd o ins outs (sp_sym _ _ _ _ _ SP)). apply sent_size. Qed.

(** *** point-to-point *)
Lemma sends_p2p r q : (r < n)%nat -> (q < n)%nat -> r <> q -> sends q (code false r) = zlen (ovl q r).
Proof.
  intros Hr Hq Hne. unfold sends, remap_code. rewrite (setup_p2p o n ins outs r Hr). unfold remap_prog, remap_p2p. cbn [negb].
  rewrite !tally_app. rewrite (sends_flat q (firstn (rp_nsend (p_plan o n ins outs r)) (rp_send (p_plan o n ins outs r)))).
  change (firstn (rp_nsend (p_plan o n ins outs r)) (rp_send (p_plan o n ins outs r))) with (out_msgs (p_plan o n ins outs r)).
  rewrite (out_msgs_eq o n ins outs false r _ Hr (setup_p2p o n ins outs r Hr)).
  rewrite (with_rank_gen n ins outs (sent o ins outs r) false r q); [|intros p e; apply sent_proc|exact Hr|exact Hq|right; exact Hne].
  rewrite sent_size. rewrite (tally_local _ (self_copies _ _ _ _)) by reflexivity.
  rewrite (tally_zero _ (repeat _ _)) by (intros i Hi; apply repeat_spec in Hi; subst; reflexivity).
  rewrite tally_zero; [lia|]. intros i Hi. apply in_map_iff in Hi as ([? [? ?]] & <- & _). reflexivity.
Qed.
Lemma msgs_p2p r q : (r < n)%nat -> (q < n)%nat -> r <> q -> msgs q (code false r) = zlen (sent o ins outs r q).
Proof.
  intros Hr Hq Hne. unfold msgs, remap_code. rewrite (setup_p2p o n ins outs r Hr). unfold remap_prog, remap_p2p. cbn [negb].
  rewrite !tally_app. rewrite (msgs_flat q (firstn (rp_nsend (p_plan o n ins outs r)) (rp_send (p_plan o n ins outs r)))).
  change (firstn (rp_nsend (p_plan o n ins outs r)) (rp_send (p_plan o n ins outs r))) with (out_msgs (p_plan o n ins outs r)).
  rewrite (out_msgs_eq o n ins outs false r _ Hr (setup_p2p o n ins outs r Hr)).
  rewrite (with_rank_gen n ins outs (sent o ins outs r) false r q); [|intros p e; apply sent_proc|exact Hr|exact Hq|right; exact Hne].
  rewrite zlen_map. rewrite (tally_local _ (self_copies _ _ _ _)) by reflexivity.
  rewrite (tally_zero _ (repeat _ _)) by (intros i Hi; apply repeat_spec in Hi; subst; reflexivity).
  rewrite tally_zero; [lia|]. intros i Hi. apply in_map_iff in Hi as ([? [? ?]] & <- & _). reflexivity.
Qed.
Lemma expects_p2p r q : (r < n)%nat -> (q < n)%nat -> r <> q -> expects q (code false r) = zlen (ovl r q).
Proof.
  intros Hr Hq Hne. unfold expects. rewrite (code_p2p o n ins outs din dout r Hr). unfold p2p_code, irecv_code, p_recvs.
  rewrite !tally_app. rewrite map_map.
  rewrite (map_ext _ (fun '(irecv, (e, loc)) => IIrecv irecv (e_proc e) loc (e_size e))) by (intros [? [? ?]]; reflexivity).
  unfold locs. rewrite expects_flat; [|clear; generalize 0; induction (orecv o n ins outs r) as [|e l IH]; intros b; cbn; [lia|]; specialize (IH (b + e_size e)); lia|reflexivity].
  unfold orecv. pose proof (with_rank_gen n ins outs (rcvd o ins outs r) false r q) as H. rewrite app_nil_r in H.
  rewrite H; [|intros p e; apply rcvd_proc|exact Hr|exact Hq|right; exact Hne]. rewrite rcvd_size.
  rewrite (tally_local _ (self_copies _ _ _ _)) by reflexivity.
  rewrite (tally_zero _ (repeat _ _)) by (intros i Hi; apply repeat_spec in Hi; subst; reflexivity).
  unfold send_code. rewrite tally_zero; [lia|]. intros i Hi. apply in_flat_map in Hi as ([[? ?] ?] & _ & Hi).
  destruct Hi as [<- | [<- | []]]; reflexivity.
Qed.

(** *** collective *)
Definition pick (q : nat) (x : nat * Z) : Z := if Nat.eqb (fst x) q then snd x else 0.
Lemma pick_side q (l : list entry) g b : NoDup g ->
  fold_right (fun x s => pick q x + s) 0 (combine g (map (fun '(c, _, _) => c) (a2a_side l g b))) =
  if in_dec Nat.eq_dec q g then match find_proc q l 0 with Some (_, e) => e_size e | None => 0 end else 0.
Proof.
  revert b. induction g as [|p g IH]; intros b ND; [reflexivity|]. inversion ND as [|? ? Hp ND']; subst.
  assert (G : forall b' c, fold_right (fun x s => pick q x + s) 0 ((p, c) :: combine g (map (fun '(c, _, _) => c) (a2a_side l g b'))) =
     (if Nat.eqb p q then c else 0) + if in_dec Nat.eq_dec q g then match find_proc q l 0 with Some (_, e) => e_size e | None => 0 end else 0).
  { intros b' c. cbn [fold_right]. rewrite (IH b' ND'). reflexivity. }
  cbn [a2a_side]. destruct (find_proc p l 0) as [[i e]|] eqn:Ef; cbn [map combine]; rewrite G.
  - destruct (Nat.eqb_spec p q) as [->|Hne].
    + destruct (in_dec Nat.eq_dec q g); [contradiction|]. destruct (in_dec Nat.eq_dec q (q :: g)) as [_|Hn]; [|exfalso; apply Hn; left; reflexivity].
      rewrite Ef. lia.
    + destruct (in_dec Nat.eq_dec q g) as [Hi|Hi]; destruct (in_dec Nat.eq_dec q (p :: g)) as [Hj|Hj]; try reflexivity; exfalso; cbn in Hj; intuition congruence.
  - destruct (Nat.eqb_spec p q) as [->|Hne].
    + destruct (in_dec Nat.eq_dec q g); [contradiction|]. destruct (in_dec Nat.eq_dec q (q :: g)) as [_|Hn]; [|exfalso; apply Hn; left; reflexivity].
      rewrite Ef. lia.
    + destruct (in_dec Nat.eq_dec q g) as [Hi|Hi]; destruct (in_dec Nat.eq_dec q (p :: g)) as [Hj|Hj]; try reflexivity; exfalso; cbn in Hj; intuition congruence.
Qed.

Lemma side_fst q g (x y : list (Z * Z * option nat)) : length x = length g -> length y = length g ->
  fold_right (fun x s => (if Nat.eqb (fst x) q then let '(sc, _, _, _) := snd x in sc else 0) + s) 0 (combine g (zargs x y)) =
  fold_right (fun x s => pick q x + s) 0 (combine g (map (fun '(c, _, _) => c) x)).
Proof.
  unfold zargs. revert x y. induction g as [|p g IH]; intros [|[[c d] m] x] [|[[c' d'] m'] y] H1 H2; try discriminate; [reflexivity|].
  cbn in H1, H2. cbn [combine map fold_right]. rewrite IH by lia. reflexivity.
Qed.
Lemma side_snd q g (x y : list (Z * Z * option nat)) : length x = length g -> length y = length g ->
  fold_right (fun x s => (if Nat.eqb (fst x) q then let '(_, _, rc, _) := snd x in rc else 0) + s) 0 (combine g (zargs x y)) =
  fold_right (fun x s => pick q x + s) 0 (combine g (map (fun '(c, _, _) => c) y)).
Proof.
  unfold zargs. revert x y. induction g as [|p g IH]; intros [|[[c d] m] x] [|[[c' d'] m'] y] H1 H2; try discriminate; [reflexivity|].
  cbn in H1, H2. cbn [combine map fold_right]. rewrite IH by lia. reflexivity.
Qed.

Lemma found_send r q : (r < n)%nat -> (q < n)%nat ->
  match find_proc q (send_entries o n ins outs r) 0 with Some (_, e) => e_size e | None => 0 end = zlen (ovl q r).
Proof.
  intros Hr Hq. destruct (find_proc q (send_entries o n ins outs r) 0) as [[k e]|] eqn:Ef.
  - destruct (find_proc_Some _ _ _ _ _ Ef) as (_ & Hn & <-). apply nth_error_In in Hn.
    apply (send_spec o elems inbx ain aout SP n ins outs BIn r e Hr Hn).
  - rewrite (find_none_ovl_s o elems inbx ain aout SP n ins outs r q Hr Hq Ef). reflexivity.
Qed.
Lemma found_recv r q : (r < n)%nat -> (q < n)%nat ->
  match find_proc q (recv_entries o n ins outs r) 0 with Some (_, e) => e_size e | None => 0 end = zlen (ovl r q).
Proof.
  intros Hr Hq. destruct (find_proc q (recv_entries o n ins outs r) 0) as [[k e]|] eqn:Ef.
  - destruct (find_proc_Some _ _ _ _ _ Ef) as (_ & Hn & <-). apply nth_error_In in Hn.
    apply (recv_spec o elems inbx ain aout SP n ins outs BIn r e Hr Hn).
  - rewrite (find_none_ovl_r o elems n ins outs r q Hr Hq Ef). reflexivity.
Qed.

Lemma not_grp_ovl r q : (r < n)%nat -> (q < n)%nat -> ~ In q (grp o n ins outs r) -> zlen (ovl q r) = 0 /\ zlen (ovl r q) = 0.
Proof.
  intros Hr Hq Hg. split.
  - rewrite <- (found_send r q Hr Hq). destruct (find_proc q (send_entries o n ins outs r) 0) as [[k e]|] eqn:Ef; [|reflexivity].
    exfalso. destruct (find_proc_Some _ _ _ _ _ Ef) as (_ & Hn & <-). apply nth_error_In in Hn. apply Hg, (send_in_grp o n (fun _ _ => true) ins outs r e Hr Hn).
  - rewrite <- (found_recv r q Hr Hq). destruct (find_proc q (recv_entries o n ins outs r) 0) as [[k e]|] eqn:Ef; [|reflexivity].
    exfalso. destruct (find_proc_Some _ _ _ _ _ Ef) as (_ & Hn & <-). apply nth_error_In in Hn. apply Hg, (recv_in_grp o n (fun _ _ => true) ins outs r e Hr Hn).
Qed.

Lemma tally_coll (f : @instr A -> Z) r : (forall h, f (ILocal h) = 0) -> (r < n)%nat ->
  tally f (code true r) = match grp o n ins outs r with [] => 0 | _ => f (IA2A (grp o n ins outs r) (c_args o n ins outs r)) end.
Proof.
  intros Hf Hr. rewrite (code_coll o n ins outs din dout r Hr). rewrite !tally_app, !tally_local by exact Hf. unfold a2a_code.
  destruct (grp o n ins outs r); cbn [tally fold_right]; lia.
Qed.

Lemma sends_coll r q : (r < n)%nat -> (q < n)%nat -> sends q (code true r) = zlen (ovl q r).
Proof.
  intros Hr Hq. unfold sends. rewrite (tally_coll _ r) by (reflexivity || exact Hr).
  pose proof (grp_NoDup o n ins outs r Hr) as ND. pose proof (not_grp_ovl r q Hr Hq) as Hno.
  assert (E0 : sends1 (A := A) q (IA2A (grp o n ins outs r) (c_args o n ins outs r)) = zlen (ovl q r)).
  { cbn [sends1]. unfold c_args. rewrite side_fst by (apply a2a_side_length). rewrite pick_side by exact ND.
    destruct (in_dec Nat.eq_dec q (grp o n ins outs r)) as [_|Hi]; [apply found_send; assumption|]. symmetry. apply Hno, Hi. }
  destruct (grp o n ins outs r); [|exact E0]. symmetry. apply Hno. intros [].
Qed.
Lemma expects_coll r q : (r < n)%nat -> (q < n)%nat -> expects q (code true r) = zlen (ovl r q).
Proof.
  intros Hr Hq. unfold expects. rewrite (tally_coll _ r) by (reflexivity || exact Hr).
  pose proof (grp_NoDup o n ins outs r Hr) as ND. pose proof (not_grp_ovl r q Hr Hq) as Hno.
  assert (E0 : expects1 (A := A) q (IA2A (grp o n ins outs r) (c_args o n ins outs r)) = zlen (ovl r q)).
  { cbn [expects1]. unfold c_args. rewrite side_snd by (apply a2a_side_length). rewrite pick_side by exact ND.
    destruct (in_dec Nat.eq_dec q (grp o n ins outs r)) as [_|Hi]; [apply found_recv; assumption|]. symmetry. apply Hno, Hi. }
  destruct (grp o n ins outs r); [|exact E0]. symmetry. apply Hno. intros [].
Qed.
Lemma msgs_coll r q : (r < n)%nat -> msgs q (code true r) = 0.
Proof. intros Hr. unfold msgs. rewrite (tally_coll _ r) by (reflexivity || exact Hr). destruct (grp o n ins outs r); reflexivity. Qed.

Lemma pair_traffic coll r q : (r < n)%nat -> (q < n)%nat -> r <> q ->
  sends q (code coll r) = zlen (ovl q r) /\ expects r (code coll q) = zlen (ovl q r) /\
  msgs q (code coll r) = if coll then 0 else zlen (sent o ins outs r q).
Proof.
  intros Hr Hq Hne. destruct coll.
  - rewrite sends_coll, expects_coll, msgs_coll by assumption. auto.
  - rewrite sends_p2p, expects_p2p, msgs_p2p by auto. auto.
Qed.

(** *** nobody else *)
Lemma with_rank_out (G : nat -> list entry) r q : (forall p e, In e (G p) -> e_proc e = p) -> (r < n)%nat -> q = r \/ (n <= q)%nat ->
  with_rank q (flat_map G (others n r)) = [].
Proof.
  intros HG Hr Hq. unfold with_rank. destruct (filter (fun e => Nat.eqb (e_proc e) q) (flat_map G (others n r))) as [|e l] eqn:Ef; [reflexivity|].
  exfalso. assert (Hi : In e (e :: l)) by (left; reflexivity). rewrite <- Ef in Hi. apply filter_In in Hi as (Hi & Hp). apply Nat.eqb_eq in Hp.
  apply in_flat_map in Hi as (p & Hp' & He). apply HG in He. apply others_In in Hp'; [|exact Hr]. lia.
Qed.
Lemma none_p2p r q : (r < n)%nat -> q = r \/ (n <= q)%nat -> sends q (code false r) = 0 /\ expects q (code false r) = 0 /\ msgs q (code false r) = 0.
Proof.
  intros Hr Hq.
  assert (W1 : with_rank q (out_msgs (p_plan o n ins outs r)) = []).
  { rewrite (out_msgs_eq o n ins outs false r _ Hr (setup_p2p o n ins outs r Hr)), app_nil_r. apply with_rank_out; [intros p e; apply sent_proc|exact Hr|exact Hq]. }
  assert (W2 : with_rank q (orecv o n ins outs r) = []) by (apply with_rank_out; [intros p e; apply rcvd_proc|exact Hr|exact Hq]).
  split; [|split].
  - unfold sends, remap_code. rewrite (setup_p2p o n ins outs r Hr). unfold remap_prog, remap_p2p. cbn [negb].
    rewrite !tally_app. rewrite (sends_flat q (firstn (rp_nsend (p_plan o n ins outs r)) (rp_send (p_plan o n ins outs r)))).
    change (firstn (rp_nsend (p_plan o n ins outs r)) (rp_send (p_plan o n ins outs r))) with (out_msgs (p_plan o n ins outs r)). rewrite W1.
    rewrite (tally_local _ (self_copies _ _ _ _)) by reflexivity.
    rewrite (tally_zero _ (repeat _ _)) by (intros i Hi; apply repeat_spec in Hi; subst; reflexivity).
    rewrite tally_zero; [reflexivity|]. intros i Hi. apply in_map_iff in Hi as ([? [? ?]] & <- & _). reflexivity.
  - unfold expects. rewrite (code_p2p o n ins outs din dout r Hr). unfold p2p_code, irecv_code, p_recvs.
    rewrite !tally_app. rewrite map_map.
    rewrite (map_ext _ (fun '(irecv, (e, loc)) => IIrecv irecv (e_proc e) loc (e_size e))) by (intros [? [? ?]]; reflexivity).
    unfold locs. rewrite expects_flat; [|clear; generalize 0; induction (orecv o n ins outs r) as [|e l IH]; intros b; cbn; [lia|]; specialize (IH (b + e_size e)); lia|reflexivity].
    rewrite W2. rewrite (tally_local _ (self_copies _ _ _ _)) by reflexivity.
    rewrite (tally_zero _ (repeat _ _)) by (intros i Hi; apply repeat_spec in Hi; subst; reflexivity).
    unfold send_code. rewrite tally_zero; [reflexivity|]. intros i Hi. apply in_flat_map in Hi as ([[? ?] ?] & _ & Hi).
    destruct Hi as [<- | [<- | []]]; reflexivity.
  - unfold msgs, remap_code. rewrite (setup_p2p o n ins outs r Hr). unfold remap_prog, remap_p2p. cbn [negb].
    rewrite !tally_app. rewrite (msgs_flat q (firstn (rp_nsend (p_plan o n ins outs r)) (rp_send (p_plan o n ins outs r)))).
    change (firstn (rp_nsend (p_plan o n ins outs r)) (rp_send (p_plan o n ins outs r))) with (out_msgs (p_plan o n ins outs r)). rewrite W1.
    rewrite (tally_local _ (self_copies _ _ _ _)) by reflexivity.
    rewrite (tally_zero _ (repeat _ _)) by (intros i Hi; apply repeat_spec in Hi; subst; reflexivity).
    rewrite tally_zero; [reflexivity|]. intros i Hi. apply in_map_iff in Hi as ([? [? ?]] & <- & _). reflexivity.
Qed.
End Gen.

(** ** points *)
Definition cut3 (a b : box3) : box3 :=
  mkbox3 (Z.max (ilo a) (ilo b)) (Z.min (ihi a) (ihi b)) (Z.max (jlo a) (jlo b)) (Z.min (jhi a) (jhi b)) (Z.max (klo a) (klo b)) (Z.min (khi a) (khi b)).
Definition cut2 (a b : box2) : box2 :=
  mkbox2 (Z.max (ilo2 a) (ilo2 b)) (Z.min (ihi2 a) (ihi2 b)) (Z.max (jlo2 a) (jlo2 b)) (Z.min (jhi2 a) (jhi2 b)).
Lemma cut3_in p a b : inb3 p (cut3 a b) <-> inb3 p a /\ inb3 p b.
Proof. destruct p as [[i j] k]. cbn. lia. Qed.
Lemma cut2_in p a b : inb2 p (cut2 a b) <-> inb2 p a /\ inb2 p b.
Proof. destruct p as [i j]. cbn. lia. Qed.
Lemma number_cut3 a b : number (fun p => inb3 p a /\ inb3 p b) (vol3 (cut3 a b)).
Proof.
  exists (pts3 (cut3 a b)). split; [apply pts3_NoDup|]. split; [|apply pts3_length]. intros p. rewrite In_pts3. apply cut3_in.
Qed.
Lemma number_cut2 a b : number (fun p => inb2 p a /\ inb2 p b) (vol2 (cut2 a b)).
Proof.
  exists (pts2 (cut2 a b)). split; [apply pts2_NoDup|]. split; [|apply pts2_length]. intros p. rewrite In_pts2. apply cut2_in.
Qed.
Lemma number_fun {T} (P : T -> Prop) k k' : number P k -> number P k' -> k = k'.
Proof.
  intros (l & N1 & I1 & <-) (l' & N2 & I2 & <-). unfold zlen. f_equal. apply Permutation_length. apply NoDup_Permutation; auto.
  intros p. rewrite I1, I2. tauto.
Qed.
Lemma number_ext {T} (P Q : T -> Prop) k : (forall p, P p <-> Q p) -> number P k -> number Q k.
Proof. intros H (l & N1 & I1 & E). exists l. split; [exact N1|]. split; [intros p; rewrite I1; apply H|exact E]. Qed.

Lemma vol3_pos_iff b : 0 < vol3 b <-> 0 < ni b /\ 0 < nj b /\ 0 < nk b.
Proof.
  unfold vol3. split; [|intros (H1 & H2 & H3); repeat apply Z.mul_pos_pos; lia]. intros H.
  destruct (Z.leb_spec (ni b) 0); [rewrite (Z.max_l 0 (ni b)) in H by lia; lia|].
  destruct (Z.leb_spec (nj b) 0); [rewrite (Z.max_l 0 (nj b)) in H by lia; lia|].
  destruct (Z.leb_spec (nk b) 0); [rewrite (Z.max_l 0 (nk b)) in H by lia; lia|]. auto.
Qed.
Lemma collide_cut3 a b : collide3 a b = if 0 <? vol3 (cut3 a b) then Some (cut3 a b) else None.
Proof.
  change (collide3 a b) with (if (ihi (cut3 a b) <? ilo (cut3 a b)) || (jhi (cut3 a b) <? jlo (cut3 a b)) || (khi (cut3 a b) <? klo (cut3 a b)) then None else Some (cut3 a b)).
  pose proof (vol3_pos_iff (cut3 a b)) as Hv. unfold ni, nj, nk in Hv. revert Hv. generalize (cut3 a b). intros v Hv.
  destruct (Z.ltb_spec (ihi v) (ilo v)); destruct (Z.ltb_spec (jhi v) (jlo v)); destruct (Z.ltb_spec (khi v) (klo v)); destruct (Z.ltb_spec 0 (vol3 v)); cbn; try reflexivity; exfalso; lia.
Qed.
Lemma vol2_pos_iff b : 0 < vol2 b <-> 0 < ni2 b /\ 0 < nj2 b.
Proof.
  unfold vol2. split; [|intros (H1 & H2); repeat apply Z.mul_pos_pos; lia]. intros H.
  destruct (Z.leb_spec (ni2 b) 0); [rewrite (Z.max_l 0 (ni2 b)) in H by lia; lia|].
  destruct (Z.leb_spec (nj2 b) 0); [rewrite (Z.max_l 0 (nj2 b)) in H by lia; lia|]. auto.
Qed.
Lemma collide_cut2 a b : collide2 a b = if 0 <? vol2 (cut2 a b) then Some (cut2 a b) else None.
Proof.
  change (collide2 a b) with (if (ihi2 (cut2 a b) <? ilo2 (cut2 a b)) || (jhi2 (cut2 a b) <? jlo2 (cut2 a b)) then None else Some (cut2 a b)).
  pose proof (vol2_pos_iff (cut2 a b)) as Hv. unfold ni2, nj2 in Hv. revert Hv. generalize (cut2 a b). intros v Hv.
  destruct (Z.ltb_spec (ihi2 v) (ilo2 v)); destruct (Z.ltb_spec (jhi2 v) (jlo2 v)); destruct (Z.ltb_spec 0 (vol2 v)); cbn; try reflexivity; exfalso; lia.
Qed.
Lemma vol3_nonneg b : 0 <= vol3 b. Proof. unfold vol3. nia. Qed.
Lemma vol2_nonneg b : 0 <= vol2 b. Proof. unfold vol2. nia. Qed.
Lemma zlen_elems3 nq b : 0 <= nq -> zlen (elems3 nq b) = nq * vol3 b.
Proof. intros H. unfold elems3. rewrite zlen_els by lia. unfold vol3. ring. Qed.
Lemma zlen_elems2 nq b : 0 <= nq -> zlen (elems2 nq b) = nq * vol2 b.
Proof. intros H. unfold elems2. rewrite zlen_els by lia. unfold vol2. ring. Qed.

Section R3.
Context {A : Type}.
Variables (n : nat) (coll : bool) (packflag nq permute : Z) (ins outs : nat -> box3) (din dout : bsel).
Hypothesis Hf : flag_ok packflag.
Hypothesis Hp : perm_ok3 permute.
Hypothesis Hq : 0 < nq.
Local Notation code := (remap3 (A := A) n coll packflag nq permute ins outs din dout).

Lemma ovl_vol3 r q : zlen (ovl (ops3 (A := A) packflag nq permute) (elems3 nq) ins outs q r) = nq * vol3 (cut3 (ins r) (outs q)).
Proof.
  unfold ovl. change (o_collide (ops3 (A := A) packflag nq permute)) with collide3. rewrite collide_cut3.
  assert (E : vol3 (cut3 (outs q) (ins r)) = vol3 (cut3 (ins r) (outs q))).
  { apply (number_fun (fun p => inb3 p (ins r) /\ inb3 p (outs q))); [|apply number_cut3].
    apply (number_ext (fun p => inb3 p (outs q) /\ inb3 p (ins r))); [tauto|apply number_cut3]. }
  rewrite <- E. pose proof (vol3_nonneg (cut3 (outs q) (ins r))). destruct (Z.ltb_spec 0 (vol3 (cut3 (outs q) (ins r)))).
  - apply zlen_elems3. lia.
  - replace (vol3 (cut3 (outs q) (ins r))) with 0 by lia. cbn. lia.
Qed.

Lemma pair3 r q : (r < n)%nat -> (q < n)%nat -> r <> q ->
  sends q (code r) = nq * vol3 (cut3 (ins r) (outs q)) /\ expects r (code q) = nq * vol3 (cut3 (ins r) (outs q)) /\
  msgs q (code r) = if coll then 0 else if 0 <? vol3 (cut3 (ins r) (outs q)) then 1 else 0.
Proof.
  intros Hr Hq' Hne. unfold remap3.
  destruct (pair_traffic (ops3 (A := A) packflag nq permute) _ _ _ _ (rspec3 packflag nq permute Hf Hp Hq) n ins outs din dout coll r q Hr Hq' Hne) as (H1 & H2 & H3).
  rewrite H1, H2, H3, ovl_vol3. split; [reflexivity|]. split; [reflexivity|]. destruct coll; [reflexivity|].
  unfold sent. change (o_collide (ops3 (A := A) packflag nq permute)) with collide3. rewrite collide_cut3. destruct (0 <? _); reflexivity.
Qed.
End R3.

Section R2.
Context {A : Type}.
Variables (esize : Z) (n : nat) (coll : bool) (packflag nq permute : Z) (ins outs : nat -> box2) (din dout : bsel).
Hypothesis Hf : flag_ok packflag.
Hypothesis Hp : perm_ok2 permute.
Hypothesis Hq : 0 < nq.
Hypothesis He : esize = 8 \/ packflag <> 2.
Local Notation code := (remap2 (A := A) esize n coll packflag nq permute ins outs din dout).

Lemma ovl_vol2 r q : zlen (ovl (ops2 (A := A) esize packflag nq permute) (elems2 nq) ins outs q r) = nq * vol2 (cut2 (ins r) (outs q)).
Proof.
  unfold ovl. change (o_collide (ops2 (A := A) esize packflag nq permute)) with collide2. rewrite collide_cut2.
  assert (E : vol2 (cut2 (outs q) (ins r)) = vol2 (cut2 (ins r) (outs q))).
  { apply (number_fun (fun p => inb2 p (ins r) /\ inb2 p (outs q))); [|apply number_cut2].
    apply (number_ext (fun p => inb2 p (outs q) /\ inb2 p (ins r))); [tauto|apply number_cut2]. }
  rewrite <- E. pose proof (vol2_nonneg (cut2 (outs q) (ins r))). destruct (Z.ltb_spec 0 (vol2 (cut2 (outs q) (ins r)))).
  - apply zlen_elems2. lia.
  - replace (vol2 (cut2 (outs q) (ins r))) with 0 by lia. cbn. lia.
Qed.

Lemma pair2 r q : (r < n)%nat -> (q < n)%nat -> r <> q ->
  sends q (code r) = nq * vol2 (cut2 (ins r) (outs q)) /\ expects r (code q) = nq * vol2 (cut2 (ins r) (outs q)) /\
  msgs q (code r) = if coll then 0 else if 0 <? vol2 (cut2 (ins r) (outs q)) then 1 else 0.
Proof.
  intros Hr Hq' Hne. unfold remap2.
  destruct (pair_traffic (ops2 (A := A) esize packflag nq permute) _ _ _ _ (rspec2 esize packflag nq permute Hf Hp Hq He) n ins outs din dout coll r q Hr Hq' Hne) as (H1 & H2 & H3).
  rewrite H1, H2, H3, ovl_vol2. split; [reflexivity|]. split; [reflexivity|]. destruct coll; [reflexivity|].
  unfold sent. change (o_collide (ops2 (A := A) esize packflag nq permute)) with collide2. rewrite collide_cut2. destruct (0 <? _); reflexivity.
Qed.
End R2.

(** ** totals *)
Lemma zlen_flat_seq {T} (L : nat -> list T) n k : (forall r, (r < n)%nat -> k r = zlen (L r)) -> zlen (flat_map L (seq 0 n)) = zsum n k.
Proof. intros H. rewrite (zsum_total L n k H). unfold zlen. rewrite flat_length. reflexivity. Qed.

Lemma pairs_number {T} n (L : nat -> nat -> list T) (k : nat -> nat -> Z) :
  (forall r q, NoDup (L r q)) ->
  (forall r q r' q' x, (r < n)%nat -> (q < n)%nat -> (r' < n)%nat -> (q' < n)%nat -> In x (L r q) -> In x (L r' q') -> r = r' /\ q = q') ->
  (forall r q, (r < n)%nat -> (q < n)%nat -> k r q = zlen (L r q)) ->
  number (fun p => exists r q, (r < n)%nat /\ (q < n)%nat /\ In p (L r q)) (zsum n (fun r => zsum n (fun q => k r q))).
Proof.
  intros ND HD HK. exists (flat_map (fun r => flat_map (L r) (seq 0 n)) (seq 0 n)). split; [|split].
  - assert (NDr : forall r l, (r < n)%nat -> (forall q, In q l -> (q < n)%nat) -> NoDup l -> NoDup (flat_map (L r) l)).
    { intros r l Hr Hl Hnd. apply flat_NoDup; [intros; apply ND|exact Hnd|]. intros q q' x H1 H2 Hx Hx'. apply (HD r q r q' x); auto. }
    assert (G : forall l, (forall r, In r l -> (r < n)%nat) -> NoDup l -> NoDup (flat_map (fun r => flat_map (L r) (seq 0 n)) l)).
    { induction l as [|r l IH]; intros Hl Hnd; [constructor|]. inversion Hnd; subst. cbn [flat_map]. apply NoDup_app'.
      - apply NDr; [apply Hl; left; reflexivity|intros q Hq; apply in_seq in Hq; lia|apply seq_NoDup].
      - apply IH; auto. intros; apply Hl; right; assumption.
      - intros x Hx Hx'. apply in_flat_map in Hx as (q & Hq & Hx). apply in_flat_map in Hx' as (r' & Hr' & Hx'). apply in_flat_map in Hx' as (q' & Hq' & Hx').
        apply in_seq in Hq, Hq'. assert (r = r') by (apply (HD r q r' q' x); auto; try lia; apply Hl; [left; reflexivity|right; exact Hr']). subst. contradiction. }
    apply G; [intros r Hr; apply in_seq in Hr; lia|apply seq_NoDup].
  - intros p. rewrite in_flat_map. split.
    + intros (r & Hr & H). apply in_flat_map in H as (q & Hq & H). apply in_seq in Hr, Hq. exists r, q. split; [lia|]. split; [lia|exact H].
    + intros (r & q & Hr & Hq & H). exists r. split; [apply in_seq; lia|]. apply in_flat_map. exists q. split; [apply in_seq; lia|exact H].
  - apply zlen_flat_seq. intros r Hr. symmetry. apply zlen_flat_seq. intros q Hq. apply HK; assumption.
Qed.

Lemma zsum_ext' n f g : (forall r, (r < n)%nat -> f r = g r) -> zsum n f = zsum n g.
Proof.
  intros H. unfold zsum. assert (H' : forall r, In r (seq 0 n) -> f r = g r) by (intros r Hr; apply in_seq in Hr; apply H; lia).
  clear H. induction (seq 0 n) as [|r l IH]; cbn [fold_right]; [reflexivity|]. rewrite (H' r) by (now left). rewrite IH by (intros; apply H'; now right). reflexivity.
Qed.
Lemma zsum_mul n c f : zsum n (fun r => c * f r) = c * zsum n f.
Proof. unfold zsum. induction (seq 0 n) as [|r l IH]; cbn [fold_right]; [ring|]. rewrite IH. ring. Qed.
Lemma zsum_add n f g : zsum n (fun r => f r + g r) = zsum n f + zsum n g.
Proof. unfold zsum. induction (seq 0 n) as [|r l IH]; cbn [fold_right]; [ring|]. rewrite IH. ring. Qed.
Lemma zsum_zero n f : (forall r, (r < n)%nat -> f r = 0) -> zsum n f = 0.
Proof. intros H. rewrite (zsum_ext' n f (fun r => 0 * 0)) by (intros; rewrite H by assumption; reflexivity). rewrite zsum_mul. reflexivity. Qed.

Definition moved3 (n : nat) (a b : nat -> box3) : Z := zsum n (fun r => zsum n (fun q => if Nat.eqb r q then 0 else vol3 (cut3 (a r) (b q)))).
Definition moved2 (n : nat) (a b : nat -> box2) : Z := zsum n (fun r => zsum n (fun q => if Nat.eqb r q then 0 else vol2 (cut2 (a r) (b q)))).

Lemma moved3_number n a b : disjoint_owners3 n a -> disjoint_owners3 n b -> number (moves3 n a b) (moved3 n a b).
Proof.
  intros Ha Hb. apply number_ext with (P := fun p => exists r q, (r < n)%nat /\ (q < n)%nat /\ In p (if Nat.eqb r q then [] else pts3 (cut3 (a r) (b q)))).
  - intros p. split; intros (r & q & Hr & Hq & H).
    + destruct (Nat.eqb_spec r q) as [|Hne]; [destruct H|]. apply In_pts3, cut3_in in H. exists r, q. tauto.
    + destruct H as (Hne & H1 & H2). exists r, q. split; [exact Hr|]. split; [exact Hq|]. destruct (Nat.eqb_spec r q); [contradiction|].
      apply In_pts3, cut3_in. auto.
  - apply pairs_number with (L := fun r q => if Nat.eqb r q then [] else pts3 (cut3 (a r) (b q))).
    + intros r q. destruct (Nat.eqb r q); [constructor|apply pts3_NoDup].
    + intros r q r' q' x Hr Hq Hr' Hq' H H'. destruct (Nat.eqb r q); [destruct H|]. destruct (Nat.eqb r' q'); [destruct H'|].
      apply In_pts3, cut3_in in H as (H1 & H2). apply In_pts3, cut3_in in H' as (H3 & H4).
      split; [apply (Ha x)|apply (Hb x)]; assumption.
    + intros r q _ _. destruct (Nat.eqb r q); [reflexivity|]. symmetry. apply pts3_length.
Qed.
Lemma moved2_number n a b : disjoint_owners2 n a -> disjoint_owners2 n b -> number (moves2 n a b) (moved2 n a b).
Proof.
  intros Ha Hb. apply number_ext with (P := fun p => exists r q, (r < n)%nat /\ (q < n)%nat /\ In p (if Nat.eqb r q then [] else pts2 (cut2 (a r) (b q)))).
  - intros p. split; intros (r & q & Hr & Hq & H).
    + destruct (Nat.eqb_spec r q) as [|Hne]; [destruct H|]. apply In_pts2, cut2_in in H. exists r, q. tauto.
    + destruct H as (Hne & H1 & H2). exists r, q. split; [exact Hr|]. split; [exact Hq|]. destruct (Nat.eqb_spec r q); [contradiction|].
      apply In_pts2, cut2_in. auto.
  - apply pairs_number with (L := fun r q => if Nat.eqb r q then [] else pts2 (cut2 (a r) (b q))).
    + intros r q. destruct (Nat.eqb r q); [constructor|apply pts2_NoDup].
    + intros r q r' q' x Hr Hq Hr' Hq' H H'. destruct (Nat.eqb r q); [destruct H|]. destruct (Nat.eqb r' q'); [destruct H'|].
      apply In_pts2, cut2_in in H as (H1 & H2). apply In_pts2, cut2_in in H' as (H3 & H4).
      split; [apply (Ha x)|apply (Hb x)]; assumption.
    + intros r q _ _. destruct (Nat.eqb r q); [reflexivity|]. symmetry. apply pts2_length.
Qed.

Lemma traffic3 {A} n coll packflag nq permute ins outs din dout : flag_ok packflag -> perm_ok3 permute -> 0 < nq ->
  traffic n (remap3 (A := A) n coll packflag nq permute ins outs din dout) = nq * moved3 n ins outs.
Proof.
  intros Hf Hp Hq. unfold traffic, moved3. rewrite <- zsum_mul. apply zsum_ext'. intros r Hr. rewrite <- zsum_mul. apply zsum_ext'. intros q Hq'.
  destruct (Nat.eqb_spec r q); [ring|]. apply pair3; auto.
Qed.
Lemma traffic2 {A} esize n coll packflag nq permute ins outs din dout : flag_ok packflag -> perm_ok2 permute -> 0 < nq -> esize = 8 \/ packflag <> 2 ->
  traffic n (remap2 (A := A) esize n coll packflag nq permute ins outs din dout) = nq * moved2 n ins outs.
Proof.
  intros Hf Hp Hq He. unfold traffic, moved2. rewrite <- zsum_mul. apply zsum_ext'. intros r Hr. rewrite <- zsum_mul. apply zsum_ext'. intros q Hq'.
  destruct (Nat.eqb_spec r q); [ring|]. apply pair2; auto.
Qed.

(** *** sequences of programs *)
Section Seqs.
Context {A : Type}.
Lemma traffic_cons n (c : nat -> list (@instr A)) cs : traffic n (together (c :: cs)) = traffic n c + traffic n (together cs).
Proof.
  unfold traffic. rewrite <- zsum_add. apply zsum_ext'. intros r _. rewrite <- zsum_add. apply zsum_ext'. intros q _.
  destruct (Nat.eqb r q); [reflexivity|]. unfold together. cbn [map concat]. apply tally_app.
Qed.
Lemma traffic_app n (a b : list (nat -> list (@instr A))) : traffic n (together (a ++ b)) = traffic n (together a) + traffic n (together b).
Proof.
  induction a as [|c a IH]; [|cbn [app]; rewrite !traffic_cons, IH; ring].
  cbn [app]. replace (traffic n (together [])) with 0; [reflexivity|]. symmetry. apply zsum_zero. intros r _. apply zsum_zero. intros q _.
  destruct (Nat.eqb r q); reflexivity.
Qed.
Lemma traffic_nil n : traffic n (together (A := A) []) = 0.
Proof. apply zsum_zero. intros r _. apply zsum_zero. intros q _. destruct (Nat.eqb r q); reflexivity. Qed.
(** local computation sends nothing *)
Definition silent (c : nat -> list (@instr A)) : Prop := forall r i, In i (c r) -> exists h, i = ILocal h.
Lemma traffic_silent n c : silent c -> traffic n c = 0.
Proof.
  intros H. apply zsum_zero. intros r _. apply zsum_zero. intros q _. destruct (Nat.eqb r q); [reflexivity|].
  apply tally_zero. intros i Hi. destruct (H r i Hi) as (h & ->). reflexivity.
Qed.
End Seqs.

(** ** statements *)
Lemma volume_pair3 {A} n coll packflag nq permute ins outs din dout r q : flag_ok packflag -> perm_ok3 permute -> 0 < nq -> (r < n)%nat -> (q < n)%nat -> r <> q ->
  exists k, number (fun p => inb3 p (ins r) /\ inb3 p (outs q)) k /\
    sends q (remap3 (A := A) n coll packflag nq permute ins outs din dout r) = nq * k /\
    expects r (remap3 (A := A) n coll packflag nq permute ins outs din dout q) = nq * k /\
    msgs q (remap3 (A := A) n coll packflag nq permute ins outs din dout r) = if coll then 0 else if 0 <? k then 1 else 0.
Proof. intros Hf Hp Hq Hr Hq' Hne. exists (vol3 (cut3 (ins r) (outs q))). split; [apply number_cut3|]. apply pair3; assumption. Qed.
Lemma volume_self3 {A} n packflag nq permute ins outs din dout r q : flag_ok packflag -> perm_ok3 permute -> 0 < nq -> (r < n)%nat -> q = r \/ (n <= q)%nat ->
  let code := remap3 (A := A) n false packflag nq permute ins outs din dout r in sends q code = 0 /\ expects q code = 0 /\ msgs q code = 0.
Proof. intros Hf Hp Hq Hr Hq'. apply none_p2p; assumption. Qed.
Lemma volume_total3 {A} n coll packflag nq permute ins outs din dout : flag_ok packflag -> perm_ok3 permute -> 0 < nq -> disjoint_owners3 n ins -> disjoint_owners3 n outs ->
  exists k, number (moves3 n ins outs) k /\ traffic n (remap3 (A := A) n coll packflag nq permute ins outs din dout) = nq * k.
Proof. intros Hf Hp Hq H1 H2. exists (moved3 n ins outs). split; [apply moved3_number; assumption|apply traffic3; assumption]. Qed.

Lemma volume_pair2 {A} esize n coll packflag nq permute ins outs din dout r q : flag_ok packflag -> perm_ok2 permute -> 0 < nq -> esize = 8 \/ packflag <> 2 -> (r < n)%nat -> (q < n)%nat -> r <> q ->
  exists k, number (fun p => inb2 p (ins r) /\ inb2 p (outs q)) k /\
    sends q (remap2 (A := A) esize n coll packflag nq permute ins outs din dout r) = nq * k /\
    expects r (remap2 (A := A) esize n coll packflag nq permute ins outs din dout q) = nq * k /\
    msgs q (remap2 (A := A) esize n coll packflag nq permute ins outs din dout r) = if coll then 0 else if 0 <? k then 1 else 0.
Proof. intros Hf Hp Hq He Hr Hq' Hne. exists (vol2 (cut2 (ins r) (outs q))). split; [apply number_cut2|]. apply pair2; assumption. Qed.
Lemma volume_self2 {A} esize n packflag nq permute ins outs din dout r q : flag_ok packflag -> perm_ok2 permute -> 0 < nq -> esize = 8 \/ packflag <> 2 -> (r < n)%nat -> q = r \/ (n <= q)%nat ->
  let code := remap2 (A := A) esize n false packflag nq permute ins outs din dout r in sends q code = 0 /\ expects q code = 0 /\ msgs q code = 0.
Proof. intros Hf Hp Hq He Hr Hq'. apply none_p2p; assumption. Qed.
Lemma volume_total2 {A} esize n coll packflag nq permute ins outs din dout : flag_ok packflag -> perm_ok2 permute -> 0 < nq -> esize = 8 \/ packflag <> 2 ->
  disjoint_owners2 n ins -> disjoint_owners2 n outs ->
  exists k, number (moves2 n ins outs) k /\ traffic n (remap2 (A := A) esize n coll packflag nq permute ins outs din dout) = nq * k.
Proof. intros Hf Hp Hq He H1 H2. exists (moved2 n ins outs). split; [apply moved2_number; assumption|apply traffic2; assumption]. Qed.
