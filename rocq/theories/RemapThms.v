(** RemapThms.v : 3d and 2d remaps against the specification of Spec.v. *)

From Verif Require Import Base Spec Pack3d Pack2d Sched SchedProofs MemProofs Phases Exec Remap RemapPlan RemapProofs RemapTriple RemapMain
  Remap3d Remap2d RemapInst.

(** lengths of the four arrays are those of [M0]; if [keep], the caller's input array is intact *)
Definition frame {A} (M0 : nat -> @rmem A) (keep : bool) (r : nat) (m : @rmem A) : Prop :=
  zlen (m_in m) = zlen (m_in (M0 r)) /\ zlen (m_out m) = zlen (m_out (M0 r)) /\
  zlen (m_send m) = zlen (m_send (M0 r)) /\ zlen (m_recv m) = zlen (m_recv (M0 r)) /\
  (keep = true -> m_in m = m_in (M0 r)).

Lemma frame_len {A} (M0 : nat -> @rmem A) keep r m b : frame M0 keep r m -> zlen (getb b m) = zlen (getb b (M0 r)).
Proof. intros (H1 & H2 & H3 & H4 & _). destruct b; assumption. Qed.

Lemma triple_M0 {A} n eager (pre : nat -> @rmem A -> Prop) code post :
  (forall M, (forall r, (r < n)%nat -> pre r (M r)) -> triple n eager (fun r m => m = M r) code post) -> triple n eager pre code post.
Proof. intros H M rest sent HM. apply (H M HM). auto. Qed.

(** ** generic *)
Section Gen.
Context {A ext plan E : Type}.
Variable o : rops A ext plan.
Variable elems : ext -> list E.
Variable inbx : E -> ext -> Prop.
Variable ain aout : ext -> E -> Z.
Hypothesis SP : rspec o elems inbx ain aout.

Lemma remap_step n eager ins outs din dout (G : E -> A) coll M0 keep :
  isdata din -> isdata dout -> (keep = true -> dout <> BIn) ->
  (forall r p p' e, (r < n)%nat -> (p < n)%nat -> (p' < n)%nat -> inbx e (outs r) -> inbx e (ins p) -> inbx e (ins p') -> p = p') ->
  (forall r e, (r < n)%nat -> inbx e (outs r) -> o_outvol o (outs r) <= zlen (getb dout (M0 r))) ->
  (forall r pl, (r < n)%nat -> setup o n coll ins outs r = Some pl ->
     rp_sendsize pl <= zlen (m_send (M0 r)) /\ rp_recvsize pl <= zlen (m_recv (M0 r))) ->
  triple n eager
    (fun r m => (forall e, inbx e (ins r) -> zget (getb din m) (ain (ins r) e) = Some (G e)) /\ frame M0 keep r m)
    (remap_code o n coll ins outs din dout)
    (fun r m => (forall e, target inbx n ins outs r e -> zget (getb dout m) (aout (outs r) e) = Some (G e)) /\ frame M0 keep r m).
Proof.
  intros Hdi Hdo Hk Hd Ho Hb. apply triple_M0. intros M HM.
  eapply triple_conseq; [| |apply (remap_triple o elems inbx ain aout SP n eager ins outs din dout Hdi Hdo Hd G M coll)].
  - intros r m _ ->. repeat split.
  - intros r m Hr (D1 & D2 & D3 & D4 & D5 & _). split; [exact D5|]. destruct (HM r Hr) as (_ & F1 & F2 & F3 & F4 & F5).
    assert (Hin : dout <> BIn -> m_in m = m_in (M r)) by (intros Hne; apply (D1 BIn); [left; reflexivity|congruence]).
    assert (Hout : dout <> BOut -> m_out m = m_out (M r)) by (intros Hne; apply (D1 BOut); [right; reflexivity|congruence]).
    split; [|split; [|split; [|split]]]; try congruence.
    + destruct Hdo as [-> | ->]; [cbn in D2; congruence|]. rewrite Hin by discriminate. exact F1.
    + destruct Hdo as [-> | ->]; [|cbn in D2; congruence]. rewrite Hout by discriminate. exact F2.
    + intros Hkk. rewrite Hin by (apply Hk, Hkk). apply F5, Hkk.
  - intros p e Hp. apply (HM p Hp).
  - intros r e Hr He. destruct (HM r Hr) as (_ & F). rewrite (frame_len _ _ _ _ dout F). eapply Ho; eauto.
  - intros r pl Hr Hs. destruct (HM r Hr) as (_ & F1 & F2 & F3 & F4 & F5). rewrite F3, F4. eapply Hb; eauto.
Qed.

Lemma setup_total n coll ins outs r : (r < n)%nat -> exists pl, setup o n coll ins outs r = Some pl.
Proof.
  intros Hr. destruct coll; [|eexists; apply (setup_p2p o n ins outs r Hr)].
  destruct (setup_coll o n ins outs r Hr) as (g & Hg & _). eauto.
Qed.
End Gen.

(** ** 3d *)

(** the program of one Remap3d::remap call (after setup) *)
Definition remap3 {A} (n : nat) (coll : bool) (packflag nq permute : Z) (ins outs : nat -> box3) (din dout : bsel)
  : nat -> list (@instr A) := remap_code (ops3 packflag nq permute) n coll ins outs din dout.

Definition setup3 (n : nat) (coll : bool) (packflag nq permute : Z) (ins outs : nat -> box3) (r : nat) : option (@rplan pack_plan_3d) :=
  setup (ops3 (A := Z) packflag nq permute) n coll ins outs r.

(** the scratch buffers are at least as big as setup() reports *)
Definition bufs3 {A} n coll packflag nq permute ins outs (M0 : nat -> @rmem A) : Prop :=
  forall r pl, (r < n)%nat -> setup3 n coll packflag nq permute ins outs r = Some pl ->
    rp_sendsize pl <= zlen (m_send (M0 r)) /\ rp_recvsize pl <= zlen (m_recv (M0 r)).

(** setup does not depend on the scalar type *)
Lemma setup3_any {A} n coll packflag nq permute ins outs r :
  setup (ops3 (A := A) packflag nq permute) n coll ins outs r = setup3 n coll packflag nq permute ins outs r.
Proof. reflexivity. Qed.

Lemma vol3_pos b p : inb3 p b -> vol3 b = ni b * nj b * nk b.
Proof. destruct p as [[i j] k]. unfold inb3, vol3, ni, nj, nk. intros H. rewrite !Z.max_r by lia. reflexivity. Qed.

Section R3.
Context {A : Type}.
Variables (n : nat) (coll : bool) (packflag nq permute : Z) (ins outs : nat -> box3) (din dout : bsel).
Hypothesis Hf : flag_ok packflag.
Hypothesis Hp : perm_ok3 permute.
Hypothesis Hq : 0 < nq.
Hypothesis Hdi : isdata din.
Hypothesis Hdo : isdata dout.
Hypothesis Hdisj : disjoint_owners3 n ins.

Lemma disj3 r p p' (e : el3) : (r < n)%nat -> (p < n)%nat -> (p' < n)%nat ->
  inbx3 nq e (outs r) -> inbx3 nq e (ins p) -> inbx3 nq e (ins p') -> p = p'.
Proof. intros _ H1 H2 _ (H3 & _) (H4 & _). apply (Hdisj (fst e)); assumption. Qed.

Lemma remap3_step eager (g : pt3 -> Z -> A) M0 keep : (keep = true -> dout <> BIn) ->
  covered3 n ins outs ->
  (forall r, (r < n)%nat -> nq * vol3 (outs r) <= zlen (getb dout (M0 r))) ->
  bufs3 n coll packflag nq permute ins outs M0 ->
  triple n eager
    (fun r m => holds3 nq 0 (ins r) g (getb din m) /\ frame M0 keep r m)
    (remap3 n coll packflag nq permute ins outs din dout)
    (fun r m => holds3 nq permute (outs r) g (getb dout m) /\ frame M0 keep r m).
Proof.
  intros Hk Hc Ho Hb.
  eapply triple_conseq; [| |apply (remap_step (ops3 packflag nq permute) (elems3 nq) (inbx3 nq) (a3 nq 0) (a3 nq permute)
     (rspec3 packflag nq permute Hf Hp Hq) n eager ins outs din dout (fun e => g (fst e) (snd e)) coll M0 keep Hdi Hdo Hk)].
  - intros r m Hr (H1 & H2). split; [|exact H2]. intros [p q] (He & Heq). apply H1; assumption.
  - intros r m Hr (H1 & H2). split; [|exact H2]. intros p q Hpb Hqq.
    apply (H1 (p, q)). split; [split; assumption|]. destruct (Hc p r Hr Hpb) as (s & Hs & Hps). exists s. split; [exact Hs|]. split; assumption.
  - intros r p p' e. apply disj3.
  - intros r e Hr (He & _). cbn. unfold outvol3. specialize (Ho r Hr). rewrite (vol3_pos _ _ He) in Ho. lia.
  - exact Hb.
Qed.

Lemma remap3_wf : wf_code n (remap3 (A := A) n coll packflag nq permute ins outs din dout).
Proof.
  intros r Hr. apply (remap_wf (ops3 packflag nq permute) (elems3 nq) (inbx3 nq) (a3 nq 0) (a3 nq permute)
    (rspec3 packflag nq permute Hf Hp Hq) n strict ins outs din dout Hdi Hdo); [|exact Hr].
  intros r' p p' e. apply disj3.
Qed.

(** full statement for one remap: what is delivered and what is left alone *)
Theorem remap3_delivers (g : pt3 -> Z -> A) (M0 : nat -> rmem) :
  (forall r, (r < n)%nat -> holds3 nq 0 (ins r) g (getb din (M0 r))) ->
  (forall r, (r < n)%nat -> nq * vol3 (outs r) <= zlen (getb dout (M0 r))) ->
  bufs3 n coll packflag nq permute ins outs M0 ->
  exec_all n (remap3 n coll packflag nq permute ins outs din dout) M0 (fun r m =>
    (forall p q, inb3 p (outs r) -> (exists s, (s < n)%nat /\ inb3 p (ins s)) -> 0 <= q < nq ->
       zget (getb dout m) (cell3 nq permute (outs r) p q) = Some (g p q)) /\
    (forall b, zlen (getb b m) = zlen (getb b (M0 r))) /\
    (forall b, isdata b -> b <> dout -> getb b m = getb b (M0 r)) /\
    (forall a, (forall p q, inb3 p (outs r) -> (exists s, (s < n)%nat /\ inb3 p (ins s)) -> 0 <= q < nq -> cell3 nq permute (outs r) p q <> a) ->
       zget (getb dout m) a = zget (getb dout (M0 r)) a)).
Proof.
  intros Hd Ho Hb. eapply triple_exec with (pre := unchanged M0); [|apply remap3_wf|intros r Hr; repeat split].
  eapply triple_conseq; [| |apply (remap_triple (ops3 packflag nq permute) (elems3 nq) (inbx3 nq) (a3 nq 0) (a3 nq permute)
     (rspec3 packflag nq permute Hf Hp Hq) n strict ins outs din dout Hdi Hdo) with (G := fun e => g (fst e) (snd e)) (M0 := M0) (coll := coll)].
  - auto.
  - intros r m Hr (D1 & D2 & D3 & D4 & D5 & D6). split; [|split; [|split]].
    + intros p q Hpb (s & Hs & Hps) Hqq. apply (D5 (p, q)). split; [split; assumption|]. exists s. split; [exact Hs|split; assumption].
    + intros b. destruct b; try assumption.
      * destruct Hdo as [-> | ->]; [exact D2|]. rewrite D1; [reflexivity|left; reflexivity|discriminate].
      * destruct Hdo as [-> | ->]; [|exact D2]. rewrite D1; [reflexivity|right; reflexivity|discriminate].
    + exact D1.
    + intros a Ha. apply D6. intros [p q] ((H1 & H2) & s & Hs & H3 & _). apply Ha; [exact H1|eauto|exact H2].
  - intros r p p' e. apply disj3.
  - intros p [x q] Hpn (H1 & H2). apply Hd; assumption.
  - intros r e Hr (He & _). cbn. unfold outvol3. specialize (Ho r Hr). rewrite (vol3_pos _ _ He) in Ho. lia.
  - exact Hb.
Qed.

End R3.

(** a field holding whatever the arrays contain *)
Lemma field3_exists {A} (dflt : A) n nq ins (arr : nat -> list A) : disjoint_owners3 n ins ->
  (forall r, (r < n)%nat -> nq * vol3 (ins r) <= zlen (arr r)) ->
  exists g : pt3 -> Z -> A, forall r, (r < n)%nat -> holds3 nq 0 (ins r) g (arr r).
Proof.
  intros Hd Hl.
  set (inbb := fun (p : pt3) b => let '(i, j, k) := p in
     (ilo b <=? i) && (i <=? ihi b) && (jlo b <=? j) && (j <=? jhi b) && (klo b <=? k) && (k <=? khi b)).
  assert (Hin : forall p b, inbb p b = true <-> inb3 p b).
  { intros [[i j] k] b. unfold inbb, inb3. rewrite !andb_true_iff, !Z.leb_le. tauto. }
  exists (fun p q => match find (fun r => inbb p (ins r)) (seq 0 n) with
                     | Some r => match zget (arr r) (cell3 nq 0 (ins r) p q) with Some v => v | None => dflt end
                     | None => dflt end).
  intros r Hr p q Hp Hq. destruct (find (fun r => inbb p (ins r)) (seq 0 n)) as [s|] eqn:Ef.
  - apply find_some in Ef as (Hs & Ef). apply in_seq in Hs. apply Hin in Ef.
    assert (s = r) by (apply (Hd p); auto; lia). subst s.
    destruct (zget_Some (arr r) (cell3 nq 0 (ins r) p q)) as [v Hv].
    + pose proof (cell3_bound nq 0 (ins r) p q Hp Hq). specialize (Hl r Hr). rewrite (vol3_pos _ _ Hp) in Hl. lia.
    + rewrite Hv. reflexivity.
  - exfalso. assert (Hx : inbb p (ins r) = false) by (apply (find_none _ _ Ef r), in_seq; lia).
    apply Hin in Hp. congruence.
Qed.

(** ** 2d *)
Definition remap2 {A} (esize : Z) (n : nat) (coll : bool) (packflag nq permute : Z) (ins outs : nat -> box2) (din dout : bsel)
  : nat -> list (@instr A) := remap_code (ops2 esize packflag nq permute) n coll ins outs din dout.
Definition setup2 (n : nat) (coll : bool) (packflag nq permute : Z) (ins outs : nat -> box2) (r : nat) : option (@rplan pack_plan_2d) :=
  setup (ops2 (A := Z) 8 packflag nq permute) n coll ins outs r.
Definition bufs2 {A} n coll packflag nq permute ins outs (M0 : nat -> @rmem A) : Prop :=
  forall r pl, (r < n)%nat -> setup2 n coll packflag nq permute ins outs r = Some pl ->
    rp_sendsize pl <= zlen (m_send (M0 r)) /\ rp_recvsize pl <= zlen (m_recv (M0 r)).
Lemma setup2_any {A} esize n coll packflag nq permute ins outs r :
  setup (ops2 (A := A) esize packflag nq permute) n coll ins outs r = setup2 n coll packflag nq permute ins outs r.
Proof. reflexivity. Qed.

Lemma vol2_pos b p : inb2 p b -> vol2 b = ni2 b * nj2 b.
Proof. destruct p as [i j]. unfold inb2, vol2, ni2, nj2. intros H. rewrite !Z.max_r by lia. reflexivity. Qed.

Section R2.
Context {A : Type}.
Variables (esize : Z) (n : nat) (coll : bool) (packflag nq permute : Z) (ins outs : nat -> box2) (din dout : bsel).
Hypothesis Hf : flag_ok packflag.
Hypothesis Hp : perm_ok2 permute.
Hypothesis Hq : 0 < nq.
Hypothesis He : esize = 8 \/ packflag <> 2.
Hypothesis Hdi : isdata din.
Hypothesis Hdo : isdata dout.
Hypothesis Hdisj : disjoint_owners2 n ins.

Lemma disj2 r p p' (e : el2) : (r < n)%nat -> (p < n)%nat -> (p' < n)%nat ->
  inbx2 nq e (outs r) -> inbx2 nq e (ins p) -> inbx2 nq e (ins p') -> p = p'.
Proof. intros _ H1 H2 _ (H3 & _) (H4 & _). apply (Hdisj (fst e)); assumption. Qed.

Lemma remap2_step eager (g : pt2 -> Z -> A) M0 keep : (keep = true -> dout <> BIn) ->
  covered2 n ins outs ->
  (forall r, (r < n)%nat -> nq * vol2 (outs r) <= zlen (getb dout (M0 r))) ->
  bufs2 n coll packflag nq permute ins outs M0 ->
  triple n eager
    (fun r m => holds2 nq 0 (ins r) g (getb din m) /\ frame M0 keep r m)
    (remap2 esize n coll packflag nq permute ins outs din dout)
    (fun r m => holds2 nq permute (outs r) g (getb dout m) /\ frame M0 keep r m).
Proof.
  intros Hk Hc Ho Hb.
  eapply triple_conseq; [| |apply (remap_step (ops2 esize packflag nq permute) (elems2 nq) (inbx2 nq) (a2 nq 0) (a2 nq permute)
     (rspec2 esize packflag nq permute Hf Hp Hq He) n eager ins outs din dout (fun e => g (fst e) (snd e)) coll M0 keep Hdi Hdo Hk)].
  - intros r m Hr (H1 & H2). split; [|exact H2]. intros [p q] (Hee & Heq). apply H1; assumption.
  - intros r m Hr (H1 & H2). split; [|exact H2]. intros p q Hpb Hqq.
    apply (H1 (p, q)). split; [split; assumption|]. destruct (Hc p r Hr Hpb) as (s & Hs & Hps). exists s. split; [exact Hs|]. split; assumption.
  - intros r p p' e. apply disj2.
  - intros r e Hr (Hee & _). cbn. unfold outvol2. specialize (Ho r Hr). rewrite (vol2_pos _ _ Hee) in Ho. lia.
  - exact Hb.
Qed.

Lemma remap2_wf : wf_code n (remap2 (A := A) esize n coll packflag nq permute ins outs din dout).
Proof.
  intros r Hr. apply (remap_wf (ops2 esize packflag nq permute) (elems2 nq) (inbx2 nq) (a2 nq 0) (a2 nq permute)
    (rspec2 esize packflag nq permute Hf Hp Hq He) n strict ins outs din dout Hdi Hdo); [|exact Hr].
  intros r' p p' e. apply disj2.
Qed.

Theorem remap2_delivers (g : pt2 -> Z -> A) (M0 : nat -> rmem) :
  (forall r, (r < n)%nat -> holds2 nq 0 (ins r) g (getb din (M0 r))) ->
  (forall r, (r < n)%nat -> nq * vol2 (outs r) <= zlen (getb dout (M0 r))) ->
  bufs2 n coll packflag nq permute ins outs M0 ->
  exec_all n (remap2 esize n coll packflag nq permute ins outs din dout) M0 (fun r m =>
    (forall p q, inb2 p (outs r) -> (exists s, (s < n)%nat /\ inb2 p (ins s)) -> 0 <= q < nq ->
       zget (getb dout m) (cell2 nq permute (outs r) p q) = Some (g p q)) /\
    (forall b, zlen (getb b m) = zlen (getb b (M0 r))) /\
    (forall b, isdata b -> b <> dout -> getb b m = getb b (M0 r)) /\
    (forall a, (forall p q, inb2 p (outs r) -> (exists s, (s < n)%nat /\ inb2 p (ins s)) -> 0 <= q < nq -> cell2 nq permute (outs r) p q <> a) ->
       zget (getb dout m) a = zget (getb dout (M0 r)) a)).
Proof.
  intros Hd Ho Hb. eapply triple_exec with (pre := unchanged M0); [|apply remap2_wf|intros r Hr; repeat split].
  eapply triple_conseq; [| |apply (remap_triple (ops2 esize packflag nq permute) (elems2 nq) (inbx2 nq) (a2 nq 0) (a2 nq permute)
     (rspec2 esize packflag nq permute Hf Hp Hq He) n strict ins outs din dout Hdi Hdo) with (G := fun e => g (fst e) (snd e)) (M0 := M0) (coll := coll)].
  - auto.
  - intros r m Hr (D1 & D2 & D3 & D4 & D5 & D6). split; [|split; [|split]].
    + intros p q Hpb (s & Hs & Hps) Hqq. apply (D5 (p, q)). split; [split; assumption|]. exists s. split; [exact Hs|split; assumption].
    + intros b. destruct b; try assumption.
      * destruct Hdo as [-> | ->]; [exact D2|]. rewrite D1; [reflexivity|left; reflexivity|discriminate].
      * destruct Hdo as [-> | ->]; [|exact D2]. rewrite D1; [reflexivity|right; reflexivity|discriminate].
    + exact D1.
    + intros a Ha. apply D6. intros [p q] ((H1 & H2) & s & Hs & H3 & _). apply Ha; [exact H1|eauto|exact H2].
  - intros r p p' e. apply disj2.
  - intros p [x q] Hpn (H1 & H2). apply Hd; assumption.
  - intros r e Hr (Hee & _). cbn. unfold outvol2. specialize (Ho r Hr). rewrite (vol2_pos _ _ Hee) in Ho. lia.
  - exact Hb.
Qed.
End R2.

Lemma field2_exists {A} (dflt : A) n nq ins (arr : nat -> list A) : disjoint_owners2 n ins ->
  (forall r, (r < n)%nat -> nq * vol2 (ins r) <= zlen (arr r)) ->
  exists g : pt2 -> Z -> A, forall r, (r < n)%nat -> holds2 nq 0 (ins r) g (arr r).
Proof.
  intros Hd Hl.
  set (inbb := fun (p : pt2) b => let '(i, j) := p in
     (ilo2 b <=? i) && (i <=? ihi2 b) && (jlo2 b <=? j) && (j <=? jhi2 b)).
  assert (Hin : forall p b, inbb p b = true <-> inb2 p b).
  { intros [i j] b. unfold inbb, inb2. rewrite !andb_true_iff, !Z.leb_le. tauto. }
  exists (fun p q => match find (fun r => inbb p (ins r)) (seq 0 n) with
                     | Some r => match zget (arr r) (cell2 nq 0 (ins r) p q) with Some v => v | None => dflt end
                     | None => dflt end).
  intros r Hr p q Hp Hq. destruct (find (fun r => inbb p (ins r)) (seq 0 n)) as [s|] eqn:Ef.
  - apply find_some in Ef as (Hs & Ef). apply in_seq in Hs. apply Hin in Ef.
    assert (s = r) by (apply (Hd p); auto; lia). subst s.
    destruct (zget_Some (arr r) (cell2 nq 0 (ins r) p q)) as [v Hv].
    + pose proof (cell2_bound nq 0 (ins r) p q Hp Hq). specialize (Hl r Hr). rewrite (vol2_pos _ _ Hp) in Hl. lia.
    + rewrite Hv. reflexivity.
  - exfalso. assert (Hx : inbb p (ins r) = false) by (apply (find_none _ _ Ef r), in_seq; lia).
    apply Hin in Hp. congruence.
Qed.
