(** Frame.v : one remap step inside a longer computation that writes only the
    array [bo], and of it only the first [hi r] cells; and the complex view of an array. *)

From Verif Require Import Base Spec Pack3d Pack2d Sched SchedProofs MemProofs Phases Exec Remap RemapPlan RemapProofs RemapTriple RemapMain
  Remap3d Remap2d RemapInst RemapThms RemapTop Kiss KissPure Fft1d Layout Setup3d Fft3d.

Definition framed {A} (M0 : nat -> @rmem A) (bo : bsel) (hi : nat -> Z) (r : nat) (m : @rmem A) : Prop :=
  (forall b, zlen (getb b m) = zlen (getb b (M0 r))) /\
  (forall b, isdata b -> b <> bo -> getb b m = getb b (M0 r)) /\
  (forall a, ~ (0 <= a < hi r) -> zget (getb bo m) a = zget (getb bo (M0 r)) a).

Lemma framed_refl {A} (M0 : nat -> @rmem A) bo hi r : framed M0 bo hi r (M0 r).
Proof. repeat split; auto. Qed.

Lemma framed_trans {A} (M0 M1 : nat -> @rmem A) bo hi r m : framed M0 bo hi r (M1 r) -> framed M1 bo hi r m -> framed M0 bo hi r m.
Proof.
  intros (A1 & A2 & A3) (B1 & B2 & B3). split; [|split].
  - intros b. rewrite B1. apply A1.
  - intros b H1 H2. rewrite B2 by assumption. apply A2; assumption.
  - intros a Ha. rewrite B3 by exact Ha. apply A3, Ha.
Qed.

Lemma triple_frame {A} n eager (M0 : nat -> @rmem A) bo hi (pre : nat -> @rmem A -> Prop) code post :
  (forall M, (forall r, (r < n)%nat -> pre r (M r) /\ framed M0 bo hi r (M r)) ->
     triple n eager (fun r m => m = M r) code (fun r m => post r m /\ framed M bo hi r m)) ->
  triple n eager (fun r m => pre r m /\ framed M0 bo hi r m) code (fun r m => post r m /\ framed M0 bo hi r m).
Proof.
  intros H. apply triple_M0. intros M HM. eapply triple_conseq; [| |apply (H M HM)].
  - auto.
  - intros r m Hr (H1 & H2). split; [exact H1|]. apply framed_trans with M; [|exact H2]. apply HM, Hr.
Qed.

(** ** 3d remap *)
Section R3.
Context {A : Type}.
Variables (n : nat) (coll : bool) (packflag nq permute : Z) (ins outs : nat -> box3) (din bo : bsel).
Hypothesis Hf : flag_ok packflag.
Hypothesis Hp : perm_ok3 permute.
Hypothesis Hq : 0 < nq.
Hypothesis Hdi : isdata din.
Hypothesis Hdo : isdata bo.
Hypothesis Hdisj : disjoint_owners3 n ins.

Lemma remap3_framed eager (g : pt3 -> Z -> A) M0 hi :
  covered3 n ins outs ->
  (forall r, (r < n)%nat -> nq * vol3 (outs r) <= hi r <= zlen (getb bo (M0 r))) ->
  bufs3 n coll packflag nq permute ins outs M0 ->
  triple n eager
    (fun r m => holds3 nq 0 (ins r) g (getb din m) /\ framed M0 bo hi r m)
    (remap3 n coll packflag nq permute ins outs din bo)
    (fun r m => holds3 nq permute (outs r) g (getb bo m) /\ framed M0 bo hi r m).
Proof.
  intros Hc Ho Hb. apply triple_frame. intros M HM.
  eapply triple_conseq; [| |apply (remap_triple (ops3 packflag nq permute) (elems3 nq) (inbx3 nq) (a3 nq 0) (a3 nq permute)
     (rspec3 packflag nq permute Hf Hp Hq) n eager ins outs din bo Hdi Hdo) with (G := fun e => g (fst e) (snd e)) (M0 := M) (coll := coll)].
  - intros r m _ ->. repeat split.
  - intros r m Hr (D1 & D2 & D3 & D4 & D5 & D6). split; [|split; [|split]].
    + intros p q Hpb Hqq. apply (D5 (p, q)). split; [split; assumption|].
      destruct (Hc p r Hr Hpb) as (s & Hs & Hps). exists s. split; [exact Hs|split; assumption].
    + intros b. destruct b; try assumption.
      * destruct Hdo as [-> | ->]; [exact D2|]. rewrite D1; [reflexivity|left; reflexivity|discriminate].
      * destruct Hdo as [-> | ->]; [|exact D2]. rewrite D1; [reflexivity|right; reflexivity|discriminate].
    + exact D1.
    + intros a Ha. apply D6. intros [p q] ((H1 & H2) & s & Hs & H3 & _) E. apply Ha.
      pose proof (cell3_bound nq permute (outs r) p q H1 H2) as Hcell. cbn in H1, H2.
      specialize (Ho r Hr). rewrite (vol3_pos _ _ H1) in Ho. unfold a3 in E. cbn [fst snd] in E, Hcell. lia.
  - intros r p p' e H1 H2 H3 _ (H5 & _) (H6 & _). apply (Hdisj (fst e)); assumption.
  - intros p [x q] Hpn (H1 & H2). apply (HM p Hpn); assumption.
  - intros r e Hr (He & _). cbn. unfold outvol3. specialize (Ho r Hr). rewrite (vol3_pos _ _ He) in Ho.
    destruct (HM r Hr) as (_ & F1 & _). rewrite (F1 bo). lia.
  - intros r pl Hr Hs. destruct (HM r Hr) as (_ & F1 & _). pose proof (F1 BSend) as E1. pose proof (F1 BRecv) as E2. cbn in E1, E2.
    rewrite E1, E2. apply (Hb r pl Hr Hs).
Qed.
End R3.

(** ** 2d remap *)
Section R2.
Context {A : Type}.
Variables (esize : Z) (n : nat) (coll : bool) (packflag nq permute : Z) (ins outs : nat -> box2) (din bo : bsel).
Hypothesis Hf : flag_ok packflag.
Hypothesis Hp : perm_ok2 permute.
Hypothesis Hq : 0 < nq.
Hypothesis He : esize = 8 \/ packflag <> 2.
Hypothesis Hdi : isdata din.
Hypothesis Hdo : isdata bo.
Hypothesis Hdisj : disjoint_owners2 n ins.

Lemma remap2_framed eager (g : pt2 -> Z -> A) M0 hi :
  covered2 n ins outs ->
  (forall r, (r < n)%nat -> nq * vol2 (outs r) <= hi r <= zlen (getb bo (M0 r))) ->
  bufs2 n coll packflag nq permute ins outs M0 ->
  triple n eager
    (fun r m => holds2 nq 0 (ins r) g (getb din m) /\ framed M0 bo hi r m)
    (remap2 esize n coll packflag nq permute ins outs din bo)
    (fun r m => holds2 nq permute (outs r) g (getb bo m) /\ framed M0 bo hi r m).
Proof.
  intros Hc Ho Hb. apply triple_frame. intros M HM.
  eapply triple_conseq; [| |apply (remap_triple (ops2 esize packflag nq permute) (elems2 nq) (inbx2 nq) (a2 nq 0) (a2 nq permute)
     (rspec2 esize packflag nq permute Hf Hp Hq He) n eager ins outs din bo Hdi Hdo) with (G := fun e => g (fst e) (snd e)) (M0 := M) (coll := coll)].
  - intros r m _ ->. repeat split.
  - intros r m Hr (D1 & D2 & D3 & D4 & D5 & D6). split; [|split; [|split]].
    + intros p q Hpb Hqq. apply (D5 (p, q)). split; [split; assumption|].
      destruct (Hc p r Hr Hpb) as (s & Hs & Hps). exists s. split; [exact Hs|split; assumption].
    + intros b. destruct b; try assumption.
      * destruct Hdo as [-> | ->]; [exact D2|]. rewrite D1; [reflexivity|left; reflexivity|discriminate].
      * destruct Hdo as [-> | ->]; [|exact D2]. rewrite D1; [reflexivity|right; reflexivity|discriminate].
    + exact D1.
    + intros a Ha. apply D6. intros [p q] ((H1 & H2) & s & Hs & H3 & _) E. apply Ha.
      pose proof (cell2_bound nq permute (outs r) p q H1 H2) as Hcell. cbn in H1, H2.
      specialize (Ho r Hr). rewrite (vol2_pos _ _ H1) in Ho. unfold a2 in E. cbn [fst snd] in E, Hcell. lia.
  - intros r p p' e H1 H2 H3 _ (H5 & _) (H6 & _). apply (Hdisj (fst e)); assumption.
  - intros p [x q] Hpn (H1 & H2). apply (HM p Hpn); assumption.
  - intros r e Hr (Hee & _). cbn. unfold outvol2. specialize (Ho r Hr). rewrite (vol2_pos _ _ Hee) in Ho.
    destruct (HM r Hr) as (_ & F1 & _). rewrite (F1 bo). lia.
  - intros r pl Hr Hs. destruct (HM r Hr) as (_ & F1 & _). pose proof (F1 BSend) as E1. pose proof (F1 BRecv) as E2. cbn in E1, E2.
    rewrite E1, E2. apply (Hb r pl Hr Hs).
Qed.
End R2.

(** ** the complex view *)
Section View.
Context {F : Type}.

Lemma pair_list_ind (P : list F -> Prop) : P [] -> (forall a, P [a]) -> (forall a b t, P t -> P (a :: b :: t)) -> forall l, P l.
Proof.
  intros H0 H1 H2. assert (G : forall l, P l /\ forall a, P (a :: l)).
  { induction l as [|a l (IH1 & IH2)]; split; auto. }
  intros l. apply G.
Qed.

Lemma unpairs_pairs (l : list F) : unpairs (fst (pairs l)) ++ snd (pairs l) = l.
Proof.
  induction l as [| a | a b t IH] using pair_list_ind; try reflexivity.
  cbn [pairs]. destruct (pairs t) as [ps tl]. cbn in *. congruence.
Qed.

Lemma zlen_unpairs (ps : list (F * F)) : zlen (unpairs ps) = 2 * zlen ps.
Proof. induction ps as [|[a b] t IH]; [reflexivity|]. cbn [unpairs]. rewrite !zlen_cons, IH. lia. Qed.

Lemma unpairs_get (ps : list (F * F)) i a b : zget ps i = Some (a, b) ->
  zget (unpairs ps) (2 * i) = Some a /\ zget (unpairs ps) (2 * i + 1) = Some b.
Proof.
  revert i. induction ps as [|[x y] t IH]; intros i Hi.
  - apply zget_inv in Hi. unfold zlen in Hi. cbn in Hi. lia.
  - rewrite zget_cons in Hi. cbn [unpairs]. rewrite !zget_cons. destruct (Z.eqb_spec i 0) as [Hz|Hne].
    + subst i. injection Hi as <- <-. split; reflexivity.
    + pose proof (zget_inv _ _ _ Hi) as Hb.
      destruct (Z.eqb_spec (2 * i) 0); [lia|]. destruct (Z.eqb_spec (2 * i + 1) 0); [lia|].
      destruct (Z.eqb_spec (2 * i - 1) 0); [lia|]. destruct (Z.eqb_spec (2 * i + 1 - 1) 0); [lia|].
      destruct (IH _ Hi) as (E1 & E2). split; [rewrite <- E1|rewrite <- E2]; f_equal; lia.
Qed.

Lemma pairs_tail (l : list F) : zlen (snd (pairs l)) <= 1.
Proof.
  induction l as [| a | a b t IH] using pair_list_ind; try (cbn; lia).
  cbn [pairs]. destruct (pairs t) as [ps tl]. cbn [fst snd] in *. exact IH.
Qed.

Lemma pairs_get (l : list F) i a b : zget l (2 * i) = Some a -> zget l (2 * i + 1) = Some b -> zget (fst (pairs l)) i = Some (a, b).
Proof.
  intros Ha Hb. pose proof (zget_inv _ _ _ Ha) as Hia. pose proof (zget_inv _ _ _ Hb) as Hib.
  pose proof (unpairs_pairs l) as E.
  assert (HL : 2 * zlen (fst (pairs l)) + zlen (snd (pairs l)) = zlen l).
  { rewrite <- E at 3. rewrite zlen_app, zlen_unpairs. reflexivity. }
  assert (Ht : zlen (snd (pairs l)) <= 1).
  { apply pairs_tail. }
  destruct (zget_Some (fst (pairs l)) i ltac:(lia)) as [[x y] Hxy]. rewrite Hxy.
  destruct (unpairs_get _ _ _ _ Hxy) as (E1 & E2).
  rewrite <- E in Ha, Hb. rewrite zget_app in Ha, Hb. rewrite zlen_unpairs in Ha, Hb.
  pose proof (zget_inv _ _ _ Hxy).
  destruct (Z.ltb_spec (2 * i) (2 * zlen (fst (pairs l)))); [|lia].
  destruct (Z.ltb_spec (2 * i + 1) (2 * zlen (fst (pairs l)))); [|lia]. congruence.
Qed.

Lemma zlen_pairs (l : list F) : zlen l - 1 <= 2 * zlen (fst (pairs l)) <= zlen l.
Proof.
  induction l as [| a | a b t IH] using pair_list_ind; try (cbn; lia).
  cbn [pairs]. destruct (pairs t) as [ps tl]. cbn [fst] in *. rewrite !zlen_cons. lia.
Qed.

(** what running [g] on the complex view does to the scalars *)
Lemma cview_ok b g (m : @rmem F) ps' :
  g (fst (pairs (getb b m))) = Some ps' -> zlen ps' = zlen (fst (pairs (getb b m))) ->
  exists m', cview b g m = Some m' /\
    (forall c, c <> b -> getb c m' = getb c m) /\
    zlen (getb b m') = zlen (getb b m) /\
    (forall i x y, zget ps' i = Some (x, y) -> zget (getb b m') (2 * i) = Some x /\ zget (getb b m') (2 * i + 1) = Some y) /\
    (forall lo, (forall i, ~ (0 <= i < lo) -> zget ps' i = zget (fst (pairs (getb b m))) i) ->
       forall a, ~ (0 <= a < 2 * lo) -> zget (getb b m') a = zget (getb b m) a).
Proof.
  intros Hg Hl. unfold cview. pose proof (unpairs_pairs (getb b m)) as E.
  destruct (pairs (getb b m)) as [ps tl]. cbn [fst snd] in *. rewrite Hg. cbn [bind].
  eexists. split; [reflexivity|].
  assert (Hget : getb b (setb b (unpairs ps' ++ tl) m) = unpairs ps' ++ tl) by (destruct b; reflexivity).
  rewrite Hget. split; [|split; [|split]].
  - intros c Hc. destruct b, c; try reflexivity; congruence.
  - rewrite <- E, !zlen_app, !zlen_unpairs. lia.
  - intros i x y Hi. pose proof (zget_inv _ _ _ Hi). rewrite !zget_app, zlen_unpairs.
    destruct (Z.ltb_spec (2 * i) (2 * zlen ps')); [|lia]. destruct (Z.ltb_spec (2 * i + 1) (2 * zlen ps')); [|lia].
    apply unpairs_get, Hi.
  - intros lo Hlo a Ha. rewrite <- E, !zget_app, !zlen_unpairs, Hl.
    destruct (Z.ltb_spec a (2 * zlen ps)) as [Hlt|]; [|reflexivity].
    destruct (Z.lt_ge_cases a 0) as [Hneg|Hpos]; [rewrite !zget_oob by lia; reflexivity|].
    assert (Hi : 0 <= a / 2 < zlen ps) by (split; [apply Z.div_pos; lia|apply Z.div_lt_upper_bound; lia]).
    pose proof (Z.div_mod a 2 ltac:(lia)) as Hdm. pose proof (Z.mod_pos_bound a 2 ltac:(lia)) as Hm.
    destruct (zget_Some ps (a / 2) Hi) as [[x y] Hxy].
    assert (Hxy' : zget ps' (a / 2) = Some (x, y)) by (rewrite Hlo; [exact Hxy|lia]).
    destruct (unpairs_get _ _ _ _ Hxy) as (E1 & E2). destruct (unpairs_get _ _ _ _ Hxy') as (E3 & E4).
    assert (a = 2 * (a / 2) \/ a = 2 * (a / 2) + 1) as [Ea|Ea] by lia; rewrite Ea; congruence.
Qed.

(** complex fields as two-component scalar fields *)
Definition fld {X} (G : X -> F * F) (p : X) (q : Z) : F := if q =? 0 then fst (G p) else snd (G p).

Lemma holds3_cpx perm b (G : pt3 -> F * F) (l : list F) :
  holds3 2 perm b (fld G) l <-> forall p, inb3 p b ->
    zget l (2 * pos3 perm b p) = Some (fst (G p)) /\ zget l (2 * pos3 perm b p + 1) = Some (snd (G p)).
Proof.
  split; intros H p.
  - intros Hp. split; [rewrite <- (Z.add_0_r (2 * _))|]; [exact (H p 0 Hp ltac:(lia))|exact (H p 1 Hp ltac:(lia))].
  - intros q Hp Hq. destruct (H p Hp) as (H1 & H2). unfold cell3, fld.
    assert (q = 0 \/ q = 1) as [-> | ->] by lia; cbn [Z.eqb]; [rewrite Z.add_0_r|]; assumption.
Qed.

Lemma holds2_cpx perm b (G : pt2 -> F * F) (l : list F) :
  holds2 2 perm b (fld G) l <-> forall p, inb2 p b ->
    zget l (2 * pos2 perm b p) = Some (fst (G p)) /\ zget l (2 * pos2 perm b p + 1) = Some (snd (G p)).
Proof.
  split; intros H p.
  - intros Hp. split; [rewrite <- (Z.add_0_r (2 * _))|]; [exact (H p 0 Hp ltac:(lia))|exact (H p 1 Hp ltac:(lia))].
  - intros q Hp Hq. destruct (H p Hp) as (H1 & H2). unfold cell2, fld.
    assert (q = 0 \/ q = 1) as [-> | ->] by lia; cbn [Z.eqb]; [rewrite Z.add_0_r|]; assumption.
Qed.
End View.
