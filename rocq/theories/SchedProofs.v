(** SchedProofs.v : confluence of the message passing machine.

    Every program whose closures satisfy the commutation conditions of [wf]
    behaves the same under every schedule: if one complete execution exists,
    then all executions have bounded length, never go wrong, can always be
    continued, and end in the same state. *)

From Verif Require Import Base Sched.

(** ** matrices *)
Section MatrixP.
Context {Q : Type}.

Lemma nth_map_seq (B : Type) (f : nat -> B) (P i : nat) (d : B) :
  (i < P)%nat -> nth i (map f (seq 0 P)) d = f i.
Proof.
  intros H. rewrite (nth_indep _ d (f 0%nat)) by (rewrite map_length, seq_length; exact H).
  rewrite map_nth. rewrite seq_nth by exact H. reflexivity.
Qed.

Lemma mget_mbuild (P : nat) (f : nat -> nat -> list Q) (s d : nat) :
  (s < P)%nat -> (d < P)%nat -> mget (mbuild P f) s d = f s d.
Proof.
  intros Hs Hd. unfold mget, mbuild. rewrite nth_map_seq by exact Hs.
  rewrite nth_map_seq by exact Hd. reflexivity.
Qed.

Lemma mget_mbuild_oob (P : nat) (f : nat -> nat -> list Q) (s d : nat) :
  (P <= s)%nat \/ (P <= d)%nat -> mget (mbuild P f) s d = [].
Proof.
  intros H. unfold mget, mbuild.
  destruct (Nat.lt_ge_cases s P) as [Hs|Hs].
  - rewrite nth_map_seq by exact Hs. apply nth_overflow. rewrite map_length, seq_length. lia.
  - rewrite (nth_overflow (map _ _)) by (rewrite map_length, seq_length; lia).
    destruct d; reflexivity.
Qed.

Lemma mbuild_ext (P : nat) (f g : nat -> nat -> list Q) :
  (forall s d, (s < P)%nat -> (d < P)%nat -> f s d = g s d) -> mbuild P f = mbuild P g.
Proof.
  intros H. unfold mbuild. apply map_ext_in. intros s Hs. apply in_seq in Hs.
  apply map_ext_in. intros d Hd. apply in_seq in Hd. apply H; lia.
Qed.

Lemma mbuild_mget_idem (P : nat) (f : nat -> nat -> list Q) :
  mbuild P (fun s d => mget (mbuild P f) s d) = mbuild P f.
Proof. apply mbuild_ext. intros. apply mget_mbuild; assumption. Qed.
End MatrixP.

(** ** list update *)
Section LupdP.
Context {B : Type}.
Lemma lupd_length (l : list B) (n : nat) (v : B) : length (lupd l n v) = length l.
Proof. revert n. induction l as [|h t IH]; intros [|n]; cbn; auto. Qed.

Lemma nth_error_lupd_same (l : list B) (n : nat) (v : B) :
  (n < length l)%nat -> nth_error (lupd l n v) n = Some v.
Proof.
  revert n. induction l as [|h t IH]; intros [|n] H; cbn in *; try lia; auto.
  apply IH. lia.
Qed.

Lemma nth_error_lupd_other (l : list B) (n m : nat) (v : B) :
  n <> m -> nth_error (lupd l n v) m = nth_error l m.
Proof.
  revert n m. induction l as [|h t IH]; intros [|n] [|m] H; cbn; auto; try lia.
Qed.

Lemma lupd_comm (l : list B) (n m : nat) (v w : B) :
  n <> m -> lupd (lupd l n v) m w = lupd (lupd l m w) n v.
Proof.
  revert n m. induction l as [|h t IH]; intros [|n] [|m] H; cbn; auto; try lia.
  f_equal. apply IH. lia.
Qed.

Lemma lupd_lupd (l : list B) (n : nat) (v w : B) : lupd (lupd l n v) n w = lupd l n w.
Proof. revert n. induction l as [|h t IH]; intros [|n]; cbn; auto. f_equal. apply IH. Qed.

Lemma In_lupd (l : list B) (n : nat) (v x : B) : In x (lupd l n v) -> x = v \/ In x l.
Proof.
  revert n. induction l as [|h t IH]; intros [|n]; cbn; auto.
  - intros [->|H]; auto.
  - intros [->|H]; auto. destruct (IH n H); auto.
Qed.

Lemma lupd_same (l : list B) (n : nat) (v : B) : nth_error l n = Some v -> lupd l n v = l.
Proof.
  revert n. induction l as [|h t IH]; intros [|n] H; cbn in *; try discriminate; auto.
  - injection H as <-. reflexivity.
  - f_equal. apply IH. exact H.
Qed.
End LupdP.

Section Proofs.
Context {A : Type}.
Variable P : nat.
Variable eager : nat -> nat -> bool.

Notation rmem := (@rmem A).
Notation instr := (@instr A).
Notation core := (@core A).
Notation gstate := (@gstate A).
Notation chans := (@chans A).
Notation effect := (@effect A).
Notation lstep := (@lstep A P eager).
Notation step := (@step A P eager).
Notation apply_eff := (@apply_eff A P).

Definition commute (f g : rmem -> option rmem) : Prop :=
  forall m, bind (f m) g = bind (g m) f /\
            (forall m1 m2, f m = Some m1 -> g m = Some m2 -> exists m3, g m1 = Some m3).

Lemma commute_sym f g : commute f g -> commute g f.
Proof.
  intros H m. destruct (H m) as [H1 H2]. split; [symmetry; exact H1|].
  intros m1 m2 Hg Hf. destruct (H2 m2 m1 Hf Hg) as (m3 & H3).
  rewrite Hf, Hg in H1. cbn in H1. exists m3. congruence.
Qed.

Lemma commute_ok f g m m1 m2 : commute f g -> f m = Some m1 -> g m = Some m2 ->
  exists m3, g m1 = Some m3 /\ f m2 = Some m3.
Proof.
  intros H Hf Hg. destruct (H m) as [H1 H2]. destruct (H2 m1 m2 Hf Hg) as (m3 & H3).
  rewrite Hf, Hg in H1. cbn in H1. exists m3. split; [exact H3|congruence].
Qed.

Lemma commute_bad f g m m1 : commute f g -> f m = Some m1 -> g m = None -> g m1 = None.
Proof. intros H Hf Hg. destruct (H m) as [H1 _]. rewrite Hf, Hg in H1. exact H1. Qed.

Definition slot := (nat * Z * Z)%type.   (* id, loc, len *)
Definition slot_of (r : req) : slot := (rq_id r, rq_loc r, rq_len r).

Fixpoint del (id : nat) (sl : list slot) : option (list slot) :=
  match sl with
  | [] => None
  | x :: t => if Nat.eqb (fst (fst x)) id then Some t else t' <- del id t; Some (x :: t')
  end.

Definition slot_comm (x : slot) (f : rmem -> option rmem) : Prop :=
  forall pl, zlen pl <= snd x -> commute (wrm (snd (fst x)) pl) f.

Definition slots_disj (x y : slot) : Prop :=
  forall pl, zlen pl <= snd y -> slot_comm x (wrm (snd (fst y)) pl).

Inductive wf : list slot -> list instr -> Prop :=
| wf_nil : wf [] []
| wf_irecv sl id src loc len p :
    (forall x, In x sl -> slots_disj x (id, loc, len)) ->
    wf (sl ++ [(id, loc, len)]) p -> wf sl (IIrecv id src loc len :: p)
| wf_local sl f p :
    (forall x, In x sl -> slot_comm x f) -> wf sl p -> wf sl (ILocal f :: p)
| wf_send sl dst len p : wf sl p -> wf sl (ISend dst len :: p)
| wf_wait sl h p :
    sl <> [] ->
    (forall id sl', del id sl = Some sl' -> wf sl' p) ->
    (forall id sl', del id sl = Some sl' ->
       (forall x, In x sl' -> slot_comm x (h id)) /\
       (forall id' sl'', id' <> id -> del id' sl' = Some sl'' -> commute (h id) (h id')) /\
       (sl' <> [] -> exists p', p = IWaitany h :: p')) ->
    wf sl (IWaitany h :: p)
| wf_a2a g args p : wf [] p -> wf [] (IA2A g args :: p).

Lemma wf_app sl p q : wf sl p -> wf [] q -> wf sl (p ++ q).
Proof.
  intros H Hq. induction H as [| sl id src loc len p Hd H IH | sl f p Hf H IH
                               | sl dst len p H IH | sl h p Hne Hp IH Hw | g args p H IH]; cbn.
  - exact Hq.
  - constructor; assumption.
  - constructor; assumption.
  - constructor; assumption.
  - constructor; [exact Hne|exact IH|]. intros id sl' Hdel.
    destruct (Hw id sl' Hdel) as (H2 & H3 & H4).
    split; [exact H2|split; [exact H3|]].
    intros Hn. destruct (H4 Hn) as (p' & ->). exists (p' ++ q). reflexivity.
  - constructor. exact IH.
Qed.

(** ** invariants *)
Definition pairwise (sl : list slot) : Prop := ForallOrdPairs slots_disj sl.

Definition wfc (c : core) : Prop :=
  pairwise (map slot_of (c_reqs c)) /\ wf (map slot_of (c_reqs c)) (c_prog c).

Definition shape {Q} (m : list (list (list Q))) : Prop :=
  forall s d, (P <= s)%nat \/ (P <= d)%nat -> mget m s d = [].

Definition inv (s : gstate) : Prop :=
  length (s_core s) = P /\ shape (ch (s_ch s)) /\ shape (cch (s_ch s)) /\
  forall c, In c (s_core s) -> wfc c.

Lemma slots_disj_sym x y : slots_disj x y -> slots_disj y x.
Proof.
  intros H pl Hpl pl' Hpl'. apply commute_sym. apply (H pl' Hpl' pl Hpl).
Qed.

Lemma mark_first_slots p rs rq rs' :
  mark_first p rs = Some (rq, rs') -> map slot_of rs' = map slot_of rs /\ In (slot_of rq) (map slot_of rs).
Proof.
  revert rs'. induction rs as [|r t IH]; cbn; intros rs' H; [discriminate|].
  destruct (Nat.eqb (rq_src r) p && negb (rq_done r)) eqn:E.
  - injection H as <- <-. cbn. split; [reflexivity|left; reflexivity].
  - destruct (mark_first p t) as [[x t']|] eqn:E2; [|discriminate].
    injection H as <- <-. destruct (IH t' eq_refl) as (H1 & H2). cbn. rewrite H1. auto.
Qed.

Lemma take_done_del id rs rs' :
  take_done id rs = Some rs' -> del id (map slot_of rs) = Some (map slot_of rs').
Proof.
  revert rs'. induction rs as [|r t IH]; cbn; intros rs' H; [discriminate|].
  destruct (Nat.eqb (rq_id r) id) eqn:E.
  - destruct (rq_done r); [|discriminate]. injection H as <-. reflexivity.
  - destruct (take_done id t) as [t'|]; [|discriminate]. injection H as <-.
    rewrite (IH t' eq_refl). reflexivity.
Qed.

Lemma del_In id sl sl' x : del id sl = Some sl' -> In x sl' -> In x sl.
Proof.
  revert sl'. induction sl as [|y t IH]; cbn; intros sl' H Hx; [discriminate|].
  destruct (Nat.eqb (fst (fst y)) id).
  - injection H as <-. auto.
  - destruct (del id t) as [t'|]; [|discriminate]. injection H as <-.
    destruct Hx as [->|Hx]; auto. right. apply (IH t'); auto.
Qed.

Lemma pairwise_del id sl sl' : del id sl = Some sl' -> pairwise sl -> pairwise sl'.
Proof.
  unfold pairwise. revert sl'. induction sl as [|y t IH]; cbn; intros sl' H Hp; [discriminate|].
  inversion Hp as [|? ? Hf Hr]; subst.
  destruct (Nat.eqb (fst (fst y)) id).
  - injection H as <-. exact Hr.
  - destruct (del id t) as [t'|] eqn:E; [|discriminate]. injection H as <-.
    constructor; [|apply IH; auto].
    rewrite Forall_forall in *. intros x Hx. apply Hf. apply (del_In id t t' x E Hx).
Qed.

Lemma pairwise_snoc sl x : pairwise sl -> (forall y, In y sl -> slots_disj y x) -> pairwise (sl ++ [x]).
Proof.
  unfold pairwise. induction sl as [|y t IH]; cbn; intros Hp Hd.
  - constructor; constructor.
  - inversion Hp as [|? ? Hf Hr]; subst. constructor.
    + rewrite Forall_forall in *. intros z Hz. apply in_app_or in Hz. destruct Hz as [Hz|[<-|[]]]; auto.
    + apply IH; auto.
Qed.

(** *** every step preserves the invariant *)
Lemma shape_apply e k : shape (ch k) -> shape (cch k) ->
  shape (ch (apply_eff e k)) /\ shape (cch (apply_eff e k)).
Proof.
  intros H1 H2. destruct e; cbn; split; auto; intros s' d' H; apply mget_mbuild_oob; exact H.
Qed.

Lemma lstep_wfc a c k c' e : wfc c -> lstep a c k = Ok (c', e) -> wfc c'.
Proof.
  intros [Hpw Hwf] H. destruct a as [r|p q|r id]; cbn [Sched.lstep] in H.
  - destruct (c_prog c) as [|i p] eqn:Ep; [discriminate|].
    destruct i as [id src loc len|f|dst len|h|g args].
    + injection H as <- <-. inversion Hwf; subst. unfold wfc; cbn. rewrite map_app. cbn.
      split; [apply pairwise_snoc; auto|auto].
    + destruct (f (c_mem c)); [|discriminate]. injection H as <- <-.
      inversion Hwf; subst. split; cbn; auto.
    + inversion Hwf; subst.
      destruct (c_busy c).
      * destruct (eager r (c_sent c) || _); [|discriminate]. injection H as <- <-. split; cbn; auto.
      * destruct (zslice (m_send (c_mem c)) 0 len); [|discriminate].
        destruct (Nat.ltb dst P); [|discriminate]. injection H as <- <-. split; cbn; auto.
    + destruct (c_reqs c); discriminate.
    + inversion Hwf as [| | | | |g' args' p' Hw Hnil]; subst.
      destruct (c_busy c).
      * destruct (a2a_ready k r g); [|discriminate].
        destruct (a2a_recv k r g g args (c_mem c)); try discriminate.
        injection H as <- <-. split; cbn; auto.
        destruct (c_reqs c); [exact Hw|discriminate].
      * destruct (inb r g && forallb (fun s => Nat.ltb s P) g && Nat.eqb (length g) (length args)); [|discriminate].
        destruct (a2a_payloads (c_mem c) args); [|discriminate].
        injection H as <- <-. split; cbn; auto.
  - destruct (mget (ch k) p q) as [|pl rest]; [discriminate|].
    destruct (mark_first p (c_reqs c)) as [[rq rs]|] eqn:Em; [|discriminate].
    destruct (rq_len rq <? zlen pl); [discriminate|].
    destruct (wrm (rq_loc rq) pl (c_mem c)); [|discriminate].
    injection H as <- <-. destruct (mark_first_slots _ _ _ _ Em) as (E & _).
    unfold wfc; cbn. rewrite E. split; auto.
  - destruct (c_prog c) as [|i p] eqn:Ep; [discriminate|]. destruct i; try discriminate.
    destruct (take_done id (c_reqs c)) as [rs|] eqn:Et; [|discriminate].
    destruct (h id (c_mem c)); [|discriminate]. injection H as <- <-.
    apply take_done_del in Et. inversion Hwf as [| | | |sl0 h0 p0 Hne Hp Hw|]; subst.
    split; cbn; [apply (pairwise_del id (map slot_of (c_reqs c))); auto|].
    apply Hp with id. exact Et.
Qed.

Lemma step_inv a s s' : inv s -> step a s = Ok s' -> inv s'.
Proof.
  intros (HP & Hs1 & Hs2 & Hc) H. unfold Sched.step in H.
  destruct (nth_error (s_core s) (owner a)) as [c|] eqn:En; [|discriminate].
  destruct (lstep a c (s_ch s)) as [| |[c' e]] eqn:El; try discriminate.
  injection H as <-. cbn.
  destruct (shape_apply e (s_ch s) Hs1 Hs2) as (Ha & Hb).
  repeat split; auto; cbn.
  - rewrite lupd_length. exact HP.
  - apply In_lupd in H. destruct H as [->|H].
    + apply (lstep_wfc a c (s_ch s) c' e); auto. apply Hc. apply nth_error_In with (owner a). exact En.
    + apply Hc. exact H.
  - apply In_lupd in H. destruct H as [->|H].
    + apply (lstep_wfc a c (s_ch s) c' e); auto. apply Hc. apply nth_error_In with (owner a). exact En.
    + apply Hc. exact H.
Qed.

(** ** the diamond property *)

(** which effects a label can have *)
Definition eff_ok (a : label) (e : effect) (k : chans) : Prop :=
  match e with
  | ENone => True
  | ESend s d m => a = Lrank s
  | EPop s d => a = Ldeliver s d /\ mget (ch k) s d <> []
  | EContrib s g ms => a = Lrank s
  | EPopC g d => a = Lrank d /\ forall s, In s g -> mget (cch k) s d <> []
  end.

Lemma a2a_ready_spec (k : chans) r g :
  a2a_ready k r g = true -> forall s, In s g -> mget (cch k) s r <> [].
Proof.
  unfold a2a_ready. rewrite forallb_forall. intros H s Hs. specialize (H s Hs).
  destruct (mget (cch k) s r); [discriminate|]. intro E; discriminate E.
Qed.

Lemma lstep_eff a c k c' e : lstep a c k = Ok (c', e) -> eff_ok a e k.
Proof.
  intros H. destruct a as [r|p q|r id]; cbn [Sched.lstep] in H.
  - destruct (c_prog c) as [|i p] eqn:Ep; [discriminate|].
    destruct i as [id src loc len|f|dst len|h|g args].
    + injection H as <- <-. exact I.
    + destruct (f (c_mem c)); [|discriminate]. injection H as <- <-. exact I.
    + destruct (c_busy c).
      * destruct (eager r (c_sent c) || _); [|discriminate]. injection H as <- <-. exact I.
      * destruct (zslice (m_send (c_mem c)) 0 len); [|discriminate].
        destruct (Nat.ltb dst P); [|discriminate]. injection H as <- <-. reflexivity.
    + destruct (c_reqs c); discriminate.
    + destruct (c_busy c).
      * destruct (a2a_ready k r g) eqn:Er; [|discriminate].
        destruct (a2a_recv k r g g args (c_mem c)); try discriminate.
        injection H as <- <-. split; [reflexivity|]. apply a2a_ready_spec. exact Er.
      * destruct (inb r g && forallb (fun s => Nat.ltb s P) g && Nat.eqb (length g) (length args)); [|discriminate].
        destruct (a2a_payloads (c_mem c) args); [|discriminate].
        injection H as <- <-. reflexivity.
  - destruct (mget (ch k) p q) as [|pl rest] eqn:E; [discriminate|].
    destruct (mark_first p (c_reqs c)) as [[rq rs]|] eqn:Em; [|discriminate].
    destruct (rq_len rq <? zlen pl); [discriminate|].
    destruct (wrm (rq_loc rq) pl (c_mem c)); [|discriminate].
    injection H as <- <-. split; [reflexivity|]. rewrite E. discriminate.
  - destruct (c_prog c) as [|i p] eqn:Ep; [discriminate|]. destruct i; try discriminate.
    destruct (take_done id (c_reqs c)) as [rs|] eqn:Et; [|discriminate].
    destruct (h id (c_mem c)); [|discriminate]. injection H as <- <-. exact I.
Qed.

Lemma inb_In x g : inb x g = true -> In x g.
Proof.
  unfold inb. rewrite existsb_exists. intros (y & Hy & E). apply Nat.eqb_eq in E. subst. exact Hy.
Qed.

Lemma tl_snoc {Q} (l : list Q) (x : Q) : l <> [] -> tl (l ++ [x]) = tl l ++ [x].
Proof. destruct l; [congruence|reflexivity]. Qed.

(** *** effects of different labels commute *)
Lemma eff_comm a b ea eb k :
  a <> b -> (owner a <> owner b \/ ea = ENone \/ eb = ENone \/
             (exists s d, ea = EPop s d) \/ (exists s d, eb = EPop s d)) ->
  eff_ok a ea k -> eff_ok b eb k ->
  apply_eff ea (apply_eff eb k) = apply_eff eb (apply_eff ea k).
Proof.
  intros Hab Ho Ha Hb.
  destruct ea as [|s d m|s d|s g ms|g d]; destruct eb as [|s' d' m'|s' d'|s' g' ms'|g' d'];
    cbn [Sched.apply_eff eff_ok ch cch] in *; try reflexivity; f_equal; apply mbuild_ext;
    intros x y Hx Hy; rewrite !mget_mbuild by assumption; cbn [ch cch].
  - (* send, send *) subst a b. cbn in Ho.
    destruct Ho as [Ho|[E|[E|[(?&?&E)|(?&?&E)]]]]; try discriminate.
    destruct (Nat.eqb x s) eqn:E1; destruct (Nat.eqb x s') eqn:E2; cbn; auto.
    apply Nat.eqb_eq in E1, E2. congruence.
  - (* send, pop *) destruct Hb as [Hb Hne].
    destruct (Nat.eqb x s && Nat.eqb y d) eqn:E1; destruct (Nat.eqb x s' && Nat.eqb y d') eqn:E2; auto.
    apply andb_true_iff in E2. destruct E2 as [E2 E3]. apply Nat.eqb_eq in E2, E3. subst x y.
    symmetry. apply tl_snoc. exact Hne.
  - (* pop, send *) destruct Ha as [Ha Hne].
    destruct (Nat.eqb x s && Nat.eqb y d) eqn:E1; destruct (Nat.eqb x s' && Nat.eqb y d') eqn:E2; auto.
    apply andb_true_iff in E1. destruct E1 as [E1 E3]. apply Nat.eqb_eq in E1, E3. subst x y.
    apply tl_snoc. exact Hne.
  - (* pop, pop *)
    destruct (Nat.eqb x s && Nat.eqb y d) eqn:E1; destruct (Nat.eqb x s' && Nat.eqb y d') eqn:E2; auto.
  - (* contrib, contrib *) subst a b. cbn in Ho.
    destruct Ho as [Ho|[E|[E|[(?&?&E)|(?&?&E)]]]]; try discriminate.
    destruct (Nat.eqb x s) eqn:E1; destruct (Nat.eqb x s') eqn:E2; cbn; auto.
    apply Nat.eqb_eq in E1, E2. congruence.
  - (* contrib, popc *) destruct Hb as [Hb Hne].
    destruct (Nat.eqb x s) eqn:E1; destruct (Nat.eqb y d' && inb x g') eqn:E2; auto.
    destruct (assoc_msg g ms y); auto.
    apply andb_true_iff in E2. destruct E2 as [E2 E3]. apply Nat.eqb_eq in E2. subst y.
    symmetry. apply tl_snoc. apply Hne. apply inb_In. exact E3.
  - (* popc, contrib *) destruct Ha as [Ha Hne].
    destruct (Nat.eqb x s') eqn:E1; destruct (Nat.eqb y d && inb x g) eqn:E2; auto.
    destruct (assoc_msg g' ms' y); auto.
    apply andb_true_iff in E2. destruct E2 as [E2 E3]. apply Nat.eqb_eq in E2. subst y.
    apply tl_snoc. apply Hne. apply inb_In. exact E3.
  - (* popc, popc *) destruct Ha as [Ha _]; destruct Hb as [Hb _]. subst a b. cbn in Ho.
    destruct Ho as [Ho|[E|[E|[(?&?&E)|(?&?&E)]]]]; try discriminate.
    destruct (Nat.eqb y d) eqn:E1; destruct (Nat.eqb y d') eqn:E2; cbn; auto.
    all: destruct (inb x g); destruct (inb x g'); reflexivity.
Qed.

(** *** a step of another rank does not change what an enabled step sees *)
Definition heads_le {Q} (m m' : list (list (list Q))) (s d : nat) : Prop :=
  mget m s d <> [] -> exists h t t', mget m s d = h :: t /\ mget m' s d = h :: t'.

Lemma a2a_recv_ext (k k' : chans) r g0 g args m :
  (forall s, In s g -> hd_error (mget (cch k) s r) = hd_error (mget (cch k') s r)) ->
  a2a_recv k r g0 g args m = a2a_recv k' r g0 g args m.
Proof.
  revert args m. induction g as [|s g IH]; intros [|[[[sc sd] rc] rd] args] m H; cbn; auto.
  pose proof (H s (or_introl eq_refl)) as Hs.
  destruct (mget (cch k) s r) as [|[gt pl] t]; destruct (mget (cch k') s r) as [|[gt' pl'] t'];
    cbn in Hs; try discriminate; auto.
  injection Hs as <- <-.
  destruct (negb (list_nat_eqb gt g0)); auto. destruct (negb (zlen pl =? rc)); auto.
  destruct (wrm rd pl m); auto. apply IH. intros s' Hs'. apply H. right. exact Hs'.
Qed.

Lemma a2a_ready_ext (k k' : chans) r g :
  (forall s, In s g -> hd_error (mget (cch k) s r) = hd_error (mget (cch k') s r)) ->
  a2a_ready k r g = a2a_ready k' r g.
Proof.
  unfold a2a_ready. induction g as [|s g IH]; cbn; intros H; auto.
  rewrite IH by (intros s' Hs'; apply H; right; exact Hs'). f_equal.
  pose proof (H s (or_introl eq_refl)) as Hs.
  destruct (mget (cch k) s r); destruct (mget (cch k') s r); cbn in Hs; try discriminate; auto.
Qed.

Lemma stable a e b c k :
  shape (ch k) -> shape (cch k) ->
  eff_ok a e k -> owner a <> owner b -> lstep b c k <> Disabled ->
  lstep b c (apply_eff e k) = lstep b c k.
Proof.
  intros Hs1 Hs2 He Ho Hd. destruct b as [r|p q|r id]; cbn [Sched.lstep] in *.
  - destruct (c_prog c) as [|i p] eqn:Ep; auto.
    destruct i as [id src loc len|f|dst len|h|g args]; auto.
    + destruct (c_busy c); auto. destruct (eager r (c_sent c)); auto. cbn [orb] in *.
      destruct (mget (ch k) r dst) eqn:E; [|congruence].
      enough (E' : mget (ch (apply_eff e k)) r dst = []) by (rewrite E'; reflexivity).
      destruct (Nat.lt_ge_cases r P) as [Hr|Hr];
        [destruct (Nat.lt_ge_cases dst P) as [Hq|Hq]|];
        try (apply (shape_apply e k Hs1 Hs2); tauto).
      destruct e; cbn [Sched.apply_eff ch eff_ok] in *; auto; rewrite mget_mbuild by assumption.
      * subst a. cbn in Ho. destruct (Nat.eqb_spec r s); [congruence|]. cbn. exact E.
      * destruct (Nat.eqb_spec r s); cbn; auto. destruct (Nat.eqb_spec dst d); auto.
        subst. rewrite E. reflexivity.
    + destruct (c_busy c); auto.
      destruct (a2a_ready k r g) eqn:Er; [|congruence].
      pose proof (a2a_ready_spec _ _ _ Er) as Hne.
      assert (Hh : forall s, In s g -> hd_error (mget (cch k) s r) = hd_error (mget (cch (apply_eff e k)) s r)).
      { intros s Hs. specialize (Hne s Hs).
        destruct (Nat.lt_ge_cases s P) as [Hsp|Hsp]; [|exfalso; apply Hne, Hs2; tauto].
        destruct (Nat.lt_ge_cases r P) as [Hr|Hr]; [|exfalso; apply Hne, Hs2; tauto].
        destruct e as [|s' d' m'|s' d'|s' g' ms'|g' d'];
          cbn [Sched.apply_eff cch eff_ok] in *; auto; rewrite mget_mbuild by assumption.
        - destruct (Nat.eqb s s'); auto. destruct (assoc_msg g' ms' r); auto.
          destruct (mget (cch k) s r); [congruence|reflexivity].
        - destruct He as [-> He]. cbn in Ho. destruct (Nat.eqb_spec r d'); [congruence|]. reflexivity. }
      rewrite <- (a2a_ready_ext _ _ _ _ Hh), Er, <- (a2a_recv_ext _ _ _ _ _ _ _ Hh). reflexivity.
  - destruct (mget (ch k) p q) as [|pl t] eqn:E; [congruence|].
    enough (E' : exists t', mget (ch (apply_eff e k)) p q = pl :: t')
      by (destruct E' as (t' & ->); reflexivity).
    destruct (Nat.lt_ge_cases p P) as [Hp|Hp]; [|rewrite (Hs1 p q) in E by tauto; discriminate].
    destruct (Nat.lt_ge_cases q P) as [Hq|Hq]; [|rewrite (Hs1 p q) in E by tauto; discriminate].
    destruct e as [|s' d' m'|s' d'|s' g' ms'|g' d'];
      cbn [Sched.apply_eff ch eff_ok] in *; eauto; rewrite mget_mbuild by assumption.
    + destruct (Nat.eqb p s' && Nat.eqb q d'); rewrite E; cbn; eauto.
    + destruct He as [-> He]. cbn in Ho. destruct (Nat.eqb_spec q d'); [congruence|].
      rewrite andb_false_r. eauto.
  - reflexivity.
Qed.

Definition dia (a b : label) (c : core) (k : chans) : Prop :=
  match lstep a c k, lstep b c k with
  | Disabled, _ | _, Disabled | Bad, Bad => True
  | Ok (c1, e1), Ok (c2, e2) =>
      exists c3, lstep b c1 (apply_eff e1 k) = Ok (c3, e2) /\ lstep a c2 (apply_eff e2 k) = Ok (c3, e1)
  | Ok (c1, e1), Bad => lstep b c1 (apply_eff e1 k) = Bad
  | Bad, Ok (c2, e2) => lstep a c2 (apply_eff e2 k) = Bad
  end.

Lemma dia_sym a b c k : dia a b c k -> dia b a c k.
Proof.
  unfold dia. destruct (lstep a c k) as [| |[c1 e1]]; destruct (lstep b c k) as [| |[c2 e2]]; auto.
  intros (c3 & H1 & H2). exists c3. auto.
Qed.

Lemma mark_first_snoc p rs rq rs' x :
  mark_first p rs = Some (rq, rs') -> mark_first p (rs ++ [x]) = Some (rq, rs' ++ [x]).
Proof.
  revert rs'. induction rs as [|r t IH]; cbn; intros rs' H; [discriminate|].
  destruct (Nat.eqb (rq_src r) p && negb (rq_done r)).
  - injection H as <- <-. reflexivity.
  - destruct (mark_first p t) as [[y t']|]; [|discriminate]. injection H as <- <-.
    rewrite (IH t' eq_refl). reflexivity.
Qed.

Lemma wrm_fields loc pl (m m' : rmem) :
  wrm loc pl m = Some m' -> m_in m' = m_in m /\ m_out m' = m_out m /\ m_send m' = m_send m.
Proof.
  unfold wrm. intros H. apply bind_Some_inv in H. destruct H as (b & _ & H). injection H as <-. auto.
Qed.

Lemma mark_first_None_nil p : mark_first p [] = None.
Proof. reflexivity. Qed.

(** deliver against the rank's own next call *)
Lemma dia_rank_deliver r p c k : shape (ch k) -> wfc c -> dia (Lrank r) (Ldeliver p r) c k.
Proof.
  intros Hsh [Hpw Hwf]. unfold dia.
  destruct (lstep (Lrank r) c k) as [| |[c1 e1]] eqn:E1; auto;
  destruct (lstep (Ldeliver p r) c k) as [| |[c2 e2]] eqn:E2; auto.
  - (* rank Bad, deliver Ok *)
    cbn [Sched.lstep] in *.
    destruct (mget (ch k) p r) as [|pl rest] eqn:Ech; [discriminate|].
    destruct (mark_first p (c_reqs c)) as [[rq rs]|] eqn:Em; [|discriminate].
    destruct (rq_len rq <? zlen pl) eqn:El; [discriminate|].
    destruct (wrm (rq_loc rq) pl (c_mem c)) as [m|] eqn:Ew; [|discriminate].
    injection E2 as <- <-. cbn [c_prog c_mem c_reqs c_busy c_sent].
    destruct (mark_first_slots _ _ _ _ Em) as (Hsl & Hin).
    destruct (wrm_fields _ _ _ _ Ew) as (_ & _ & Fs).
    destruct (c_prog c) as [|i p'] eqn:Ep; [discriminate|].
    destruct i as [id src loc len|f|dst len|h|g args].
    + discriminate.
    + destruct (f (c_mem c)) eqn:Ef; [discriminate|].
      inversion Hwf as [|? ? ? ? ? ? ? ?|sl0 f0 p0 Hf Hp| | |]; subst.
      specialize (Hf _ Hin pl). cbn in Hf. specialize (Hf ltac:(lia)).
      rewrite (commute_bad _ _ _ _ Hf Ew Ef). reflexivity.
    + destruct (c_busy c); [destruct (eager r (c_sent c) || _); discriminate|].
      rewrite Fs. destruct (zslice (m_send (c_mem c)) 0 len); auto.
      destruct (Nat.ltb dst P); auto. discriminate.
    + destruct (c_reqs c); [discriminate|]. discriminate.
    + inversion Hwf as [| | | | |? ? ? ? Hnil]; subst.
      destruct (c_reqs c); [discriminate|discriminate].
  - (* rank Ok, deliver Bad *)
    pose proof (lstep_eff _ _ _ _ _ E1) as He.
    cbn [Sched.lstep] in *.
    destruct (mget (ch k) p r) as [|pl rest] eqn:Ech; [discriminate|].
    assert (Hpr : (p < P /\ r < P)%nat).
    { destruct (Nat.lt_ge_cases p P); [|rewrite (Hsh p r) in Ech by tauto; discriminate].
      destruct (Nat.lt_ge_cases r P); [|rewrite (Hsh p r) in Ech by tauto; discriminate]. lia. }
    destruct (mark_first p (c_reqs c)) as [[rq rs]|] eqn:Em; [|discriminate].
    destruct (mark_first_slots _ _ _ _ Em) as (Hsl & Hin).
    destruct (c_prog c) as [|i p'] eqn:Ep; [discriminate|].
    destruct i as [id src loc len|f|dst len|h|g args].
    + injection E1 as <- <-. cbn [Sched.apply_eff c_reqs c_mem]. rewrite Ech.
      rewrite (mark_first_snoc _ _ _ _ _ Em).
      destruct (rq_len rq <? zlen pl); auto.
      destruct (wrm (rq_loc rq) pl (c_mem c)); [discriminate|reflexivity].
    + destruct (f (c_mem c)) as [m|] eqn:Ef; [|discriminate]. injection E1 as <- <-.
      cbn [Sched.apply_eff c_reqs c_mem]. rewrite Ech, Em.
      destruct (rq_len rq <? zlen pl) eqn:El; auto.
      destruct (wrm (rq_loc rq) pl (c_mem c)) eqn:Ew; [discriminate|].
      inversion Hwf as [|? ? ? ? ? ? ? ?|sl0 f0 p0 Hf Hp| | |]; subst.
      specialize (Hf _ Hin pl). cbn in Hf. specialize (Hf ltac:(lia)).
      rewrite (commute_bad _ _ _ _ (commute_sym _ _ Hf) Ef Ew). reflexivity.
    + assert (Hsame : c_mem c1 = c_mem c /\ c_reqs c1 = c_reqs c /\ exists t', mget (ch (apply_eff e1 k)) p r = pl :: t').
      { destruct (c_busy c).
        - destruct (eager r (c_sent c) || _); [|discriminate]. injection E1 as <- <-. cbn. eauto.
        - destruct (zslice (m_send (c_mem c)) 0 len); [|discriminate].
          destruct (Nat.ltb dst P); [|discriminate]. injection E1 as <- <-. cbn [c_mem c_reqs Sched.apply_eff ch].
          repeat split. rewrite mget_mbuild by tauto.
          destruct (Nat.eqb p r && Nat.eqb r dst); rewrite Ech; cbn; eauto. }
      destruct Hsame as (Hm & Hr & t' & Hc). rewrite Hc, Hr, Em, Hm.
      destruct (rq_len rq <? zlen pl); auto. destruct (wrm (rq_loc rq) pl (c_mem c)); auto. discriminate.
    + destruct (c_reqs c); discriminate.
    + inversion Hwf as [| | | | |? ? ? ? Hnil]; subst.
      destruct (c_reqs c); [discriminate|discriminate].
  - (* both Ok *)
    cbn [Sched.lstep] in *.
    destruct (mget (ch k) p r) as [|pl rest] eqn:Ech; [discriminate|].
    assert (Hpr : (p < P /\ r < P)%nat).
    { destruct (Nat.lt_ge_cases p P); [|rewrite (Hsh p r) in Ech by tauto; discriminate].
      destruct (Nat.lt_ge_cases r P); [|rewrite (Hsh p r) in Ech by tauto; discriminate]. lia. }
    destruct (mark_first p (c_reqs c)) as [[rq rs]|] eqn:Em; [|discriminate].
    destruct (rq_len rq <? zlen pl) eqn:El; [discriminate|].
    destruct (wrm (rq_loc rq) pl (c_mem c)) as [m|] eqn:Ew; [|discriminate].
    injection E2 as <- <-. cbn [c_prog c_mem c_reqs c_busy c_sent].
    destruct (mark_first_slots _ _ _ _ Em) as (Hsl & Hin).
    destruct (wrm_fields _ _ _ _ Ew) as (_ & _ & Fs).
    destruct (c_prog c) as [|i p'] eqn:Ep; [discriminate|].
    destruct i as [id src loc len|f|dst len|h|g args].
    + injection E1 as <- <-. cbn [Sched.apply_eff c_reqs c_mem c_prog c_busy c_sent].
      rewrite Ech, (mark_first_snoc _ _ _ _ _ Em), El, Ew. eexists; split; reflexivity.
    + destruct (f (c_mem c)) as [m1|] eqn:Ef; [|discriminate]. injection E1 as <- <-.
      cbn [Sched.apply_eff c_reqs c_mem c_prog c_busy c_sent].
      rewrite Ech, Em, El.
      inversion Hwf as [|? ? ? ? ? ? ? ?|sl0 f0 p0 Hf Hp| | |]; subst.
      specialize (Hf _ Hin pl). cbn in Hf. specialize (Hf ltac:(lia)).
      destruct (commute_ok _ _ _ _ _ Hf Ew Ef) as (m3 & H3 & H4). rewrite H3, H4.
      eexists; split; reflexivity.
    + destruct (c_busy c).
      * destruct (eager r (c_sent c)) eqn:Ee; cbn [orb] in *.
        -- injection E1 as <- <-. cbn [Sched.apply_eff c_reqs c_mem c_prog c_busy c_sent].
           rewrite Ech, Em, El, Ew. eexists; split; reflexivity.
        -- destruct (mget (ch k) r dst) eqn:Ed; [|discriminate].
           injection E1 as <- <-. cbn [Sched.apply_eff c_reqs c_mem c_prog c_busy c_sent ch].
           rewrite Ech, Em, El, Ew.
           assert (E0 : mget (mbuild P (fun s' d' => if Nat.eqb s' p && Nat.eqb d' r then tl (mget (ch k) s' d')
                                      else mget (ch k) s' d')) r dst = []).
           { destruct (Nat.lt_ge_cases dst P) as [Hd|Hd]; [|apply mget_mbuild_oob; tauto].
             rewrite mget_mbuild by tauto. rewrite Ed. destruct (_ && _); reflexivity. }
           rewrite E0. eexists; split; reflexivity.
      * rewrite Fs. destruct (zslice (m_send (c_mem c)) 0 len); [|discriminate].
        destruct (Nat.ltb dst P); [|discriminate]. injection E1 as <- <-.
        cbn [Sched.apply_eff c_reqs c_mem c_prog c_busy c_sent ch].
        rewrite mget_mbuild by tauto. rewrite Ech, Em.
        destruct (Nat.eqb p r && Nat.eqb r dst); cbn [app]; rewrite El, Ew; eexists; split; reflexivity.
    + destruct (c_reqs c); discriminate.
    + inversion Hwf as [| | | | |? ? ? ? Hnil]; subst.
      destruct (c_reqs c); [discriminate|discriminate].
Qed.

Lemma mark_first_comm p p' rs r1 rs1 r2 rs2 : p <> p' ->
  mark_first p rs = Some (r1, rs1) -> mark_first p' rs = Some (r2, rs2) ->
  exists rs3, mark_first p' rs1 = Some (r2, rs3) /\ mark_first p rs2 = Some (r1, rs3).
Proof.
  intros Hne. revert rs1 rs2. induction rs as [|r t IH]; cbn; intros rs1 rs2 H1 H2; [discriminate|].
  destruct (Nat.eqb (rq_src r) p && negb (rq_done r)) eqn:E1;
  destruct (Nat.eqb (rq_src r) p' && negb (rq_done r)) eqn:E2.
  - apply andb_true_iff in E1, E2. destruct E1 as [E1 _], E2 as [E2 _].
    apply Nat.eqb_eq in E1, E2. congruence.
  - injection H1 as <- <-. destruct (mark_first p' t) as [[y t']|] eqn:Em; [|discriminate].
    injection H2 as <- <-. cbn. rewrite andb_false_r, E1, Em. eexists; split; reflexivity.
  - injection H2 as <- <-. destruct (mark_first p t) as [[y t']|] eqn:Em; [|discriminate].
    injection H1 as <- <-. cbn. rewrite andb_false_r, E2, Em. eexists; split; reflexivity.
  - destruct (mark_first p t) as [[y t1]|]; [|discriminate].
    destruct (mark_first p' t) as [[z t2]|]; [|discriminate].
    injection H1 as <- <-. injection H2 as <- <-.
    destruct (IH t1 t2 eq_refl eq_refl) as (t3 & Ha & Hb).
    cbn. rewrite E1, E2, Ha, Hb. eexists; split; reflexivity.
Qed.

Lemma mark_first_slot_pair p p' rs r1 rs1 r2 rs2 : p <> p' -> pairwise (map slot_of rs) ->
  mark_first p rs = Some (r1, rs1) -> mark_first p' rs = Some (r2, rs2) ->
  slots_disj (slot_of r1) (slot_of r2).
Proof.
  intros Hne. unfold pairwise. revert rs1 rs2. induction rs as [|r t IH]; cbn; intros rs1 rs2 Hp H1 H2; [discriminate|].
  inversion Hp as [|? ? Hf Hr]; subst. rewrite Forall_forall in Hf.
  destruct (Nat.eqb (rq_src r) p && negb (rq_done r)) eqn:E1;
  destruct (Nat.eqb (rq_src r) p' && negb (rq_done r)) eqn:E2.
  - apply andb_true_iff in E1, E2. destruct E1 as [E1 _], E2 as [E2 _].
    apply Nat.eqb_eq in E1, E2. congruence.
  - injection H1 as <- <-. destruct (mark_first p' t) as [[y t']|] eqn:Em; [|discriminate].
    injection H2 as <- <-. apply Hf. apply (mark_first_slots _ _ _ _ Em).
  - injection H2 as <- <-. destruct (mark_first p t) as [[y t']|] eqn:Em; [|discriminate].
    injection H1 as <- <-. apply slots_disj_sym. apply Hf. apply (mark_first_slots _ _ _ _ Em).
  - destruct (mark_first p t) as [[y t1]|]; [|discriminate].
    destruct (mark_first p' t) as [[z t2]|]; [|discriminate].
    injection H1 as <- <-. injection H2 as <- <-. apply (IH t1 t2); auto.
Qed.

Lemma dia_deliver_deliver p p' r c k : p <> p' -> shape (ch k) -> wfc c ->
  dia (Ldeliver p r) (Ldeliver p' r) c k.
Proof.
  intros Hne Hsh [Hpw Hwf]. unfold dia. cbn [Sched.lstep].
  destruct (mget (ch k) p r) as [|pl rest] eqn:Ech; auto.
  destruct (mark_first p (c_reqs c)) as [[rq rs]|] eqn:Em; auto.
  destruct (mget (ch k) p' r) as [|pl' rest'] eqn:Ech'.
  { destruct (rq_len rq <? zlen pl); auto. destruct (wrm (rq_loc rq) pl (c_mem c)); auto. }
  destruct (mark_first p' (c_reqs c)) as [[rq' rs']|] eqn:Em'.
  2:{ destruct (rq_len rq <? zlen pl); auto. destruct (wrm (rq_loc rq) pl (c_mem c)); auto. }
  assert (Hpr : (p < P /\ r < P)%nat).
  { destruct (Nat.lt_ge_cases p P); [|rewrite (Hsh p r) in Ech by tauto; discriminate].
    destruct (Nat.lt_ge_cases r P); [|rewrite (Hsh p r) in Ech by tauto; discriminate]. lia. }
  assert (Hpr' : (p' < P)%nat).
  { destruct (Nat.lt_ge_cases p' P); [|rewrite (Hsh p' r) in Ech' by tauto; discriminate]. lia. }
  destruct (mark_first_comm _ _ _ _ _ _ _ Hne Em Em') as (rs3 & M1 & M2).
  pose proof (mark_first_slot_pair _ _ _ _ _ _ _ Hne Hpw Em Em') as Hdj.
  unfold slots_disj, slot_comm in Hdj. cbn in Hdj.
  destruct (Nat.eqb_spec p p') as [Heq|_]; [congruence|].
  destruct (Nat.eqb_spec p' p) as [Heq|Hne']; [congruence|].
  destruct (rq_len rq <? zlen pl) eqn:El; destruct (rq_len rq' <? zlen pl') eqn:El'; auto;
  [destruct (wrm (rq_loc rq') pl' (c_mem c)) as [m'|] eqn:Ew'; auto
  |destruct (wrm (rq_loc rq) pl (c_mem c)) as [m|] eqn:Ew; auto
  |specialize (Hdj pl' ltac:(lia) pl ltac:(lia));
   destruct (wrm (rq_loc rq) pl (c_mem c)) as [m|] eqn:Ew;
   destruct (wrm (rq_loc rq') pl' (c_mem c)) as [m'|] eqn:Ew'; auto];
  cbn [Sched.apply_eff c_reqs c_mem c_prog c_busy c_sent ch];
  rewrite ?mget_mbuild by tauto;
  rewrite ?Nat.eqb_refl;
  try (destruct (Nat.eqb_spec p p') as [Heq|_]; [congruence|]);
  try (destruct (Nat.eqb_spec p' p) as [Heq|_]; [congruence|]); cbn [andb];
  rewrite ?Ech, ?Ech', ?M1, ?M2, ?El, ?El'; auto.
  - destruct (commute_ok _ _ _ _ _ Hdj Ew Ew') as (m3 & H3 & H4). rewrite H3, H4. eexists; split; reflexivity.
  - rewrite (commute_bad _ _ _ _ Hdj Ew Ew'). reflexivity.
  - rewrite (commute_bad _ _ _ _ (commute_sym _ _ Hdj) Ew' Ew). reflexivity.
Qed.

Lemma take_mark id p rs rs1 rq rs2 :
  take_done id rs = Some rs1 -> mark_first p rs = Some (rq, rs2) ->
  exists rs3, take_done id rs2 = Some rs3 /\ mark_first p rs1 = Some (rq, rs3).
Proof.
  revert rs1 rs2. induction rs as [|r t IH]; cbn; intros rs1 rs2 H1 H2; [discriminate|].
  destruct (Nat.eqb (rq_id r) id) eqn:E1.
  - destruct (rq_done r) eqn:Ed; [|discriminate]. injection H1 as <-.
    rewrite andb_false_r in H2.
    destruct (mark_first p t) as [[y t']|]; [|discriminate]. injection H2 as <- <-.
    cbn. rewrite E1, Ed. eexists; split; reflexivity.
  - destruct (take_done id t) as [t1|] eqn:Et; [|discriminate]. injection H1 as <-.
    destruct (Nat.eqb (rq_src r) p && negb (rq_done r)) eqn:E2.
    + injection H2 as <- <-. cbn. rewrite E1, Et, E2. cbn. eexists; split; reflexivity.
    + destruct (mark_first p t) as [[y t']|]; [|discriminate]. injection H2 as <- <-.
      destruct (IH t1 t' eq_refl eq_refl) as (t3 & Ha & Hb).
      cbn. rewrite E1, E2, Ha, Hb. cbn. eexists; split; reflexivity.
Qed.

Lemma dia_deliver_wait p r id c k : shape (ch k) -> wfc c -> dia (Ldeliver p r) (Lwait r id) c k.
Proof.
  intros Hsh [Hpw Hwf]. unfold dia. cbn [Sched.lstep].
  destruct (mget (ch k) p r) as [|pl rest] eqn:Ech; auto.
  destruct (mark_first p (c_reqs c)) as [[rq rs]|] eqn:Em; auto.
  assert (Hsk : forall X : outcome (core * effect), match X with Disabled => True | _ => True end) by (intros []; exact I).
  destruct (c_prog c) as [|i pr] eqn:Ep.
  { destruct (rq_len rq <? zlen pl); auto. destruct (wrm (rq_loc rq) pl (c_mem c)); auto. }
  destruct i as [| | |h|];
    try (destruct (rq_len rq <? zlen pl); auto; destruct (wrm (rq_loc rq) pl (c_mem c)); auto; fail).
  destruct (take_done id (c_reqs c)) as [rs'|] eqn:Et.
  2:{ destruct (rq_len rq <? zlen pl); auto; destruct (wrm (rq_loc rq) pl (c_mem c)); auto. }
  destruct (take_mark _ _ _ _ _ _ Et Em) as (rs3 & M1 & M2).
  pose proof (take_done_del _ _ _ Et) as Hdel.
  inversion Hwf as [| | | |sl0 h0 p0 Hnn Hp Hw|]; subst.
  destruct (Hw id _ Hdel) as (Hc & _ & _).
  destruct (mark_first_slots _ _ _ _ M2) as (_ & Hin).
  specialize (Hc _ Hin pl). cbn in Hc.
  destruct (rq_len rq <? zlen pl) eqn:El.
  - destruct (h id (c_mem c)) eqn:Eh; auto.
    cbn [Sched.apply_eff c_reqs c_mem c_prog c_busy c_sent ch]. rewrite Ech, M2, El. reflexivity.
  - specialize (Hc ltac:(lia)).
    destruct (wrm (rq_loc rq) pl (c_mem c)) as [m|] eqn:Ew;
    destruct (h id (c_mem c)) as [m'|] eqn:Eh; auto;
    cbn [Sched.apply_eff c_reqs c_mem c_prog c_busy c_sent ch]; rewrite ?Ech, ?M2, ?M1, ?El; auto.
    + destruct (commute_ok _ _ _ _ _ Hc Ew Eh) as (m3 & H3 & H4). rewrite H3, H4. eexists; split; reflexivity.
    + rewrite (commute_bad _ _ _ _ Hc Ew Eh). reflexivity.
    + rewrite (commute_bad _ _ _ _ (commute_sym _ _ Hc) Eh Ew). reflexivity.
Qed.

Lemma take_take id id' rs rs1 rs2 : id <> id' ->
  take_done id rs = Some rs1 -> take_done id' rs = Some rs2 ->
  exists rs3, take_done id' rs1 = Some rs3 /\ take_done id rs2 = Some rs3.
Proof.
  intros Hne. revert rs1 rs2. induction rs as [|r t IH]; cbn; intros rs1 rs2 H1 H2; [discriminate|].
  destruct (Nat.eqb (rq_id r) id) eqn:E1; destruct (Nat.eqb (rq_id r) id') eqn:E2.
  - apply Nat.eqb_eq in E1, E2. congruence.
  - destruct (rq_done r) eqn:Ed; [|discriminate]. injection H1 as <-.
    destruct (take_done id' t) as [t'|]; [|discriminate]. injection H2 as <-.
    cbn. rewrite E1, Ed. eexists; split; reflexivity.
  - destruct (rq_done r) eqn:Ed; [|discriminate]. injection H2 as <-.
    destruct (take_done id t) as [t'|]; [|discriminate]. injection H1 as <-.
    cbn. rewrite E2, Ed. eexists; split; reflexivity.
  - destruct (take_done id t) as [t1|]; [|discriminate]. injection H1 as <-.
    destruct (take_done id' t) as [t2|]; [|discriminate]. injection H2 as <-.
    destruct (IH t1 t2 eq_refl eq_refl) as (t3 & Ha & Hb).
    cbn. rewrite E1, E2, Ha, Hb. cbn. eexists; split; reflexivity.
Qed.

Lemma dia_wait_wait r id id' c k : id <> id' -> wfc c -> dia (Lwait r id) (Lwait r id') c k.
Proof.
  intros Hne [Hpw Hwf]. unfold dia. cbn [Sched.lstep].
  destruct (c_prog c) as [|i pr] eqn:Ep; auto. destruct i as [| | |h|]; auto.
  destruct (take_done id (c_reqs c)) as [rs1|] eqn:Et; auto.
  destruct (take_done id' (c_reqs c)) as [rs2|] eqn:Et'; [|destruct (h id (c_mem c)); auto].
  destruct (take_take _ _ _ _ _ Hne Et Et') as (rs3 & M1 & M2).
  pose proof (take_done_del _ _ _ Et) as Hdel.
  pose proof (take_done_del _ _ _ M1) as Hdel2.
  inversion Hwf as [| | | |sl0 h0 p0 Hnn Hp Hw|]; subst.
  destruct (Hw id _ Hdel) as (_ & Hc & Hnext).
  specialize (Hc id' _ ltac:(congruence) Hdel2).
  assert (Hn : map slot_of rs1 <> []) by (destruct (map slot_of rs1); discriminate).
  destruct (Hnext Hn) as (p' & Hpr). subst pr.
  destruct (h id (c_mem c)) as [m|] eqn:Eh; destruct (h id' (c_mem c)) as [m'|] eqn:Eh'; auto;
  cbn [Sched.apply_eff c_reqs c_mem c_prog c_busy c_sent ch]; rewrite ?M1, ?M2.
  - destruct (commute_ok _ _ _ _ _ Hc Eh Eh') as (m3 & H3 & H4). rewrite H3, H4. eexists; split; reflexivity.
  - rewrite (commute_bad _ _ _ _ Hc Eh Eh'). reflexivity.
  - rewrite (commute_bad _ _ _ _ (commute_sym _ _ Hc) Eh' Eh). reflexivity.
Qed.

Lemma dia_rank_wait r id c k : dia (Lrank r) (Lwait r id) c k.
Proof.
  unfold dia. cbn [Sched.lstep].
  destruct (c_prog c) as [|i pr] eqn:Ep; auto. destruct i as [| | |h|].
  - exact I.
  - destruct (f (c_mem c)); exact I.
  - match goal with |- match ?X with _ => _ end => destruct X as [| |[? ?]]; exact I end.
  - destruct (c_reqs c); exact I.
  - match goal with |- match ?X with _ => _ end => destruct X as [| |[? ?]]; exact I end.
Qed.

Lemma dia_all a b c k : a <> b -> owner a = owner b -> shape (ch k) -> wfc c -> dia a b c k.
Proof.
  intros Hne Ho Hsh Hc.
  destruct a as [r|p q|r id]; destruct b as [r'|p' q'|r' id']; cbn in Ho; subst.
  - congruence.
  - apply dia_rank_deliver; auto.
  - apply dia_rank_wait.
  - apply dia_sym, dia_rank_deliver; auto.
  - apply dia_deliver_deliver; auto; congruence.
  - apply dia_deliver_wait; auto.
  - apply dia_sym, dia_rank_wait.
  - apply dia_sym, dia_deliver_wait; auto.
  - apply dia_wait_wait; auto; congruence.
Qed.

(** effects of two enabled steps of the same rank *)
Lemma same_owner_eff a b c k c1 e1 c2 e2 :
  a <> b -> owner a = owner b ->
  lstep a c k = Ok (c1, e1) -> lstep b c k = Ok (c2, e2) ->
  e1 = ENone \/ e2 = ENone \/ (exists s d, e1 = EPop s d) \/ (exists s d, e2 = EPop s d).
Proof.
  intros Hne Ho H1 H2. pose proof (lstep_eff _ _ _ _ _ H1) as E1. pose proof (lstep_eff _ _ _ _ _ H2) as E2.
  destruct a as [r|p q|r id]; destruct b as [r'|p' q'|r' id']; cbn in Ho; subst; try congruence;
  destruct e1; cbn in E1; try tauto; destruct e2; cbn in E2; try tauto;
  try (destruct E1; discriminate); try (destruct E2; discriminate); try discriminate;
  intuition eauto; try discriminate.
Qed.

Theorem diamond a b s s1 : inv s -> a <> b -> step a s = Ok s1 ->
  (forall s2, step b s = Ok s2 -> exists s3, step b s1 = Ok s3 /\ step a s2 = Ok s3) /\
  (step b s = Bad -> step b s1 = Bad).
Proof.
  intros (HP & Hs1 & Hs2 & Hc) Hne Ha. unfold Sched.step in *.
  destruct (nth_error (s_core s) (owner a)) as [ca|] eqn:Ena; [|discriminate].
  destruct (lstep a ca (s_ch s)) as [| |[c1 e1]] eqn:Ela; try discriminate.
  injection Ha as <-. cbn [s_core s_ch].
  assert (Hla : (owner a < length (s_core s))%nat) by (apply nth_error_Some; congruence).
  destruct (Nat.eq_dec (owner a) (owner b)) as [Ho|Ho].
  - rewrite <- Ho. rewrite Ena. rewrite nth_error_lupd_same by exact Hla.
    pose proof (dia_all a b ca (s_ch s) Hne Ho Hs1 (Hc ca (nth_error_In _ _ Ena))) as D.
    unfold dia in D. rewrite Ela in D.
    destruct (lstep b ca (s_ch s)) as [| |[c2 e2]] eqn:Elb.
    + split; [intros; discriminate|discriminate].
    + split; [intros; discriminate|]. intros _. rewrite D. reflexivity.
    + split; [|discriminate]. intros s2 E. injection E as <-. cbn [s_core s_ch].
      destruct D as (c3 & D1 & D2).
      rewrite nth_error_lupd_same by exact Hla. rewrite D1, D2. rewrite !lupd_lupd.
      eexists; split; [reflexivity|]. f_equal. f_equal.
      apply eff_comm with a b; auto.
      * right. apply (same_owner_eff a b ca (s_ch s) c1 e1 c2 e2); auto.
      * apply (lstep_eff _ _ _ _ _ Ela).
      * apply (lstep_eff _ _ _ _ _ Elb).
  - rewrite nth_error_lupd_other by exact Ho.
    destruct (nth_error (s_core s) (owner b)) as [cb|] eqn:Enb; [|split; [intros; discriminate|discriminate]].
    pose proof (lstep_eff _ _ _ _ _ Ela) as Ea.
    destruct (lstep b cb (s_ch s)) as [| |[c2 e2]] eqn:Elb.
    + split; [intros; discriminate|discriminate].
    + split; [intros; discriminate|]. intros _.
      rewrite (stable a e1 b cb (s_ch s)); auto; [rewrite Elb; reflexivity|rewrite Elb; discriminate].
    + split; [|discriminate]. intros s2 E. injection E as <-. cbn [s_core s_ch].
      rewrite nth_error_lupd_other by congruence. rewrite Ena.
      rewrite (stable a e1 b cb (s_ch s)); auto; [|rewrite Elb; discriminate].
      rewrite (stable b e2 a ca (s_ch s)); auto;
        [|apply (lstep_eff _ _ _ _ _ Elb)|rewrite Ela; discriminate].
      rewrite Ela, Elb. eexists; split; [reflexivity|].
      f_equal. rewrite lupd_comm by congruence. f_equal.
      apply eff_comm with a b; auto. apply (lstep_eff _ _ _ _ _ Elb).
Qed.

(** ** confluence *)
Notation run := (@run A P eager).

Definition terminal (s : gstate) : Prop := forall a, step a s = Disabled.

Lemma run_app s l1 s1 l2 s2 : run s l1 s1 -> run s1 l2 s2 -> run s (l1 ++ l2) s2.
Proof. intros H. induction H; cbn; auto. intros H2. econstructor; eauto. Qed.

Lemma run_inv s l s' : inv s -> run s l s' -> inv s'.
Proof. intros Hi H. induction H as [|s a s1 l s2 Hs Hr IH]; auto. apply IH. apply (step_inv a s); auto. Qed.

Lemma one_step n : forall s l sf b, length l = n -> inv s -> run s l sf -> terminal sf ->
  step b s <> Bad /\
  forall s', step b s = Ok s' -> exists l', run s' l' sf /\ S (length l') = length l.
Proof.
  induction n as [|n IH]; intros s l sf b Hl Hi Hr Ht.
  - destruct l; [|discriminate]. inversion Hr; subst. rewrite (Ht b).
    split; [discriminate|intros; discriminate].
  - destruct l as [|a l]; [discriminate|]. inversion Hr as [|s0 a0 s1 l0 s20 Hs1 Hr1]; subst.
    pose proof (step_inv _ _ _ Hi Hs1) as Hi1.
    assert (Hn : length l = n) by (cbn in Hl; lia).
    assert (Dec : a = b \/ a <> b).
    { destruct a as [r|p q|r id], b as [r'|p' q'|r' id']; try (right; discriminate).
      - destruct (Nat.eq_dec r r'); [left; congruence|right; congruence].
      - destruct (Nat.eq_dec p p'); [|right; congruence]. destruct (Nat.eq_dec q q'); [left; congruence|right; congruence].
      - destruct (Nat.eq_dec r r'); [|right; congruence]. destruct (Nat.eq_dec id id'); [left; congruence|right; congruence]. }
    destruct Dec as [<-|Hne].
    + rewrite Hs1. split; [discriminate|]. intros s' E. injection E as <-. exists l. auto.
    + destruct (diamond a b s s1 Hi Hne Hs1) as (D1 & D2).
      destruct (IH s1 l sf b Hn Hi1 Hr1 Ht) as (I1 & I2).
      split; [intro E; apply I1, D2, E|].
      intros s2 E. destruct (D1 s2 E) as (s3 & S1 & S2).
      destruct (I2 s3 S1) as (l' & Hl' & Hlen).
      exists (a :: l'). split; [econstructor; eauto|]. cbn. lia.
Qed.

(** If one complete execution exists, every execution is a prefix of a complete
    execution of the same length with the same final state, and no execution
    ever reaches an undefined step. *)
Theorem confluence s l sf : inv s -> run s l sf -> terminal sf ->
  forall l' s', run s l' s' ->
    (length l' <= length l)%nat /\
    (forall b, step b s' <> Bad) /\
    (exists l'', run s' l'' sf /\ (length l' + length l'' = length l)%nat) /\
    (terminal s' -> s' = sf).
Proof.
  intros Hi Hr Ht l' s' Hr'.
  assert (G : exists l'', run s' l'' sf /\ (length l' + length l'' = length l)%nat).
  { revert l Hr. induction Hr' as [s|s a s1 l1 s2 Hs Hr1 IH]; intros l Hr.
    - exists l. split; [exact Hr|reflexivity].
    - destruct (one_step (length l) s l sf a eq_refl Hi Hr Ht) as (_ & H2).
      destruct (H2 s1 Hs) as (l2 & Hl2 & Hlen).
      destruct (IH (step_inv _ _ _ Hi Hs) l2 Hl2) as (l3 & Hl3 & E).
      exists l3. split; [exact Hl3|]. cbn. lia. }
  destruct G as (l'' & Hl'' & Hlen).
  pose proof (run_inv _ _ _ Hi Hr') as Hi'.
  repeat split.
  - lia.
  - intros b. apply (one_step (length l'') s' l'' sf b eq_refl Hi' Hl'' Ht).
  - exists l''. auto.
  - intros Ht'. destruct l'' as [|a l'']; [inversion Hl''; auto|].
    inversion Hl'' as [|? ? ? ? ? Hs _]; subst. rewrite (Ht' a) in Hs. discriminate.
Qed.

End Proofs.
