(** RemapTriple.v : phase triples and well-formedness of the remap programs. *)

From Verif Require Import Base Pack3dProofs Sched SchedProofs MemProofs Phases Remap RemapPlan RemapProofs.

Section SeqF.
Context {A : Type}.
Implicit Types (m : @rmem A).

Lemma seqf_app fs gs m : seqf (fs ++ gs) m = (m' <- seqf fs m; seqf gs m').
Proof.
  revert m. induction fs as [|f fs IH]; intros m; cbn; [reflexivity|].
  destruct (f m); cbn; [apply IH|reflexivity].
Qed.

Lemma seqf_map_ext {X} (f g : X -> @rmem A -> option rmem) l m :
  (forall x m, In x l -> f x m = g x m) -> seqf (map f l) m = seqf (map g l) m.
Proof.
  revert m. induction l as [|x l IH]; intros m H; cbn; [reflexivity|].
  rewrite H by (left; reflexivity). apply bind_ext. intros m' _. apply IH. intros y m0 Hy. apply H. right; exact Hy.
Qed.

Lemma seqf_index {X} (h : nat -> @rmem A -> option rmem) (g : X -> @rmem A -> option rmem) l b m :
  (forall i x m, nth_error l i = Some x -> h (b + i)%nat m = g x m) ->
  seqf (map h (seq b (length l))) m = seqf (map g l) m.
Proof.
  revert b m. induction l as [|x l IH]; intros b m H; cbn; [reflexivity|].
  pose proof (H 0%nat x m eq_refl) as H0. rewrite Nat.add_0_r in H0. rewrite H0. apply bind_ext. intros m' _. apply IH.
  intros i y m0 Hi. replace (S b + i)%nat with (b + S i)%nat by lia. apply H. exact Hi.
Qed.

(** consecutive copies between the same two arrays are one list of copies *)
Lemma seqf_cpy d s pss m : d <> s -> seqf (map (cpy d s) pss) m = cpy d s (concat pss) m.
Proof.
  intros Hds. revert m. induction pss as [|ps pss IH]; intros m; cbn [map seqf concat].
  - unfold cpy. cbn. f_equal. destruct d, m; reflexivity.
  - unfold cpy at 3. rewrite copies_app. unfold cpy at 1.
    destruct (copies (getb s m) ps (getb d m)) as [b|]; cbn [bind]; [|reflexivity].
    rewrite IH. unfold cpy. rewrite getb_setb_same, getb_setb_other by congruence.
    apply bind_ext. intros b' _. rewrite setb_setb_same. reflexivity.
Qed.
End SeqF.

(** ** entries with running locations *)
Section Locs.
Context {plan : Type}.
Implicit Types (l : list (@entry plan)).

Definition locs (b : Z) l : list (@entry plan * Z) := combine l (buflocs b l).
Definition nonneg l := forall e, In e l -> 0 <= e_size e.

Lemma locs_cons b e l : locs b (e :: l) = (e, b) :: locs (b + e_size e) l.
Proof. reflexivity. Qed.

Lemma locs_fst b l : map fst (locs b l) = l.
Proof. revert b. induction l as [|e l IH]; intros b; [reflexivity|]. rewrite locs_cons. cbn. f_equal. apply IH. Qed.

Lemma locs_app b l1 l2 : locs b (l1 ++ l2) = locs b l1 ++ locs (b + sum_sizes l1) l2.
Proof.
  revert b. induction l1 as [|e l1 IH]; intros b; cbn [app sum_sizes fold_right].
  - rewrite Z.add_0_r. reflexivity.
  - rewrite !locs_cons, IH. cbn [app]. do 3 f_equal. unfold sum_sizes. lia.
Qed.

Lemma locs_length b l : length (locs b l) = length l.
Proof. rewrite <- (locs_fst b l) at 2. rewrite map_length. reflexivity. Qed.

Lemma sum_nonneg l : nonneg l -> 0 <= sum_sizes l.
Proof.
  induction l as [|e l IH]; intros H; cbn; [lia|].
  pose proof (H e (or_introl eq_refl)). assert (0 <= sum_sizes l) by (apply IH; intros x Hx; apply H; right; exact Hx).
  unfold sum_sizes in *. lia.
Qed.

Lemma locs_bound b l e loc : nonneg l -> In (e, loc) (locs b l) -> b <= loc /\ loc + e_size e <= b + sum_sizes l.
Proof.
  intros Hn. revert b. induction l as [|x l IH]; intros b Hin; [destruct Hin|].
  rewrite locs_cons in Hin. pose proof (Hn x (or_introl eq_refl)).
  assert (Hn' : nonneg l) by (intros y Hy; apply Hn; right; exact Hy).
  pose proof (sum_nonneg _ Hn'). cbn [sum_sizes fold_right] in *. unfold sum_sizes in *.
  destruct Hin as [E|Hin].
  - injection E as <- <-. lia.
  - apply (IH Hn') in Hin. lia.
Qed.

Lemma locs_sep b l : nonneg l ->
  ForallOrdPairs (fun x y => snd x + e_size (fst x) <= snd y) (locs b l).
Proof.
  revert b. induction l as [|x l IH]; intros b Hn; [constructor|].
  assert (Hn' : nonneg l) by (intros y Hy; apply Hn; right; exact Hy).
  rewrite locs_cons. constructor; [|apply IH, Hn'].
  apply Forall_forall. intros [e loc] Hin. apply (locs_bound _ _ _ _ Hn') in Hin. cbn. lia.
Qed.

Lemma locs_apart b l e loc e' loc' : nonneg l ->
  In (e, loc) (locs b l) -> In (e', loc') (locs b l) -> e <> e' ->
  loc + e_size e <= loc' \/ loc' + e_size e' <= loc.
Proof.
  intros Hn H1 H2 Hne. destruct (ForallOrdPairs_In (locs_sep b l Hn) _ _ H1 H2) as [E|[H|H]].
  - congruence.
  - left. exact H.
  - right. exact H.
Qed.

Lemma locs_nth b l i e loc : nth_error l i = Some e -> nth_error (buflocs b l) i = Some loc ->
  nth_error (locs b l) i = Some (e, loc).
Proof.
  revert b i. induction l as [|x l IH]; intros b [|i] H1 H2; cbn in *; try discriminate.
  - congruence.
  - apply (IH _ _ H1 H2).
Qed.
Lemma locs_nth_inv b l i e loc : nth_error (locs b l) i = Some (e, loc) ->
  nth_error l i = Some e /\ nth_error (buflocs b l) i = Some loc.
Proof.
  revert b i. induction l as [|x l IH]; intros b [|i] H; cbn in *; try discriminate.
  - injection H as <- <-. auto.
  - apply (IH _ _ H).
Qed.

Lemma max_ge_acc l b : b <= fold_left (fun s e => Z.max s (e_size e)) l b.
Proof. revert b. induction l as [|e l IH]; intros b; cbn; [lia|]. pose proof (IH (Z.max b (e_size e))). lia. Qed.
Lemma max_sizes_ge l e : In e l -> e_size e <= max_sizes l.
Proof.
  unfold max_sizes. generalize 0. induction l as [|x l IH]; intros b Hin; [destruct Hin|].
  cbn. destruct Hin as [->|Hin]; [|apply IH, Hin].
  pose proof (max_ge_acc l (Z.max b (e_size e))). lia.
Qed.

(** entries found for a group, in group order *)
Definition found l (g : list nat) : list (@entry plan) :=
  flat_map (fun p => match find_proc p l 0 with Some (_, e) => [e] | None => [] end) g.

Lemma find_proc_Some p l i j e : find_proc p l i = Some (j, e) ->
  (i <= j)%nat /\ nth_error l (j - i) = Some e /\ e_proc e = p.
Proof.
  revert i. induction l as [|x l IH]; intros i H; cbn in H; [discriminate|].
  destruct (Nat.eqb_spec (e_proc x) p).
  - injection H as <- <-. rewrite Nat.sub_diag. auto.
  - apply IH in H as (H1 & H2 & H3). split; [lia|split; [|exact H3]].
    replace (j - i)%nat with (S (j - S i)) by lia. exact H2.
Qed.
Lemma find_proc_None p l i : find_proc p l i = None -> forall e, In e l -> e_proc e <> p.
Proof.
  revert i. induction l as [|x l IH]; intros i H e Hin; cbn in H; [destruct Hin|].
  destruct (Nat.eqb_spec (e_proc x) p); [discriminate|].
  destruct Hin as [<-|Hin]; [assumption|]. apply (IH _ H _ Hin).
Qed.

Lemma found_incl l g : incl (found l g) l.
Proof.
  intros e H. apply in_flat_map in H as (p & _ & H).
  destruct (find_proc p l 0) as [[j x]|] eqn:E; [|destruct H]. destruct H as [<-|[]].
  apply find_proc_Some in E as (_ & E & _). eapply nth_error_In; eauto.
Qed.
Lemma found_In l g e : NoDup (map e_proc l) -> In e l -> In (e_proc e) g -> In e (found l g).
Proof.
  intros ND He Hg. apply in_flat_map. exists (e_proc e). split; [exact Hg|].
  destruct (find_proc (e_proc e) l 0) as [[j x]|] eqn:E.
  - left. apply find_proc_Some in E as (_ & E & Ep). apply nth_error_In in E.
    clear - ND E He Ep. induction l as [|y l IH]; [destruct He|]. cbn in ND. inversion ND; subst.
    destruct He as [<-|He], E as [<-|E]; auto.
    + exfalso. apply H1. rewrite <- Ep. apply in_map, E.
    + exfalso. apply H1. rewrite Ep. apply in_map, He.
  - exfalso. apply (find_proc_None _ _ _ E e He eq_refl).
Qed.
Lemma found_NoDup l g : NoDup g -> NoDup (found l g).
Proof.
  intros H. apply NoDup_flat_map; [exact H| |].
  - intros p _. destruct (find_proc p l 0) as [[j x]|]; [|constructor]. constructor; [intros []|constructor].
  - intros p q e _ _ Hp Hq.
    destruct (find_proc p l 0) as [[j x]|] eqn:Ep; [|destruct Hp]. destruct Hp as [<-|[]].
    destruct (find_proc q l 0) as [[j' y]|] eqn:Eq; [|destruct Hq]. destruct Hq as [<-|[]].
    apply find_proc_Some in Ep as (_ & _ & <-). apply find_proc_Some in Eq as (_ & _ & <-). reflexivity.
Qed.
Lemma found_sum l g : nonneg l -> NoDup g -> sum_sizes (found l g) <= sum_sizes l.
Proof.
  intros Hn Hg. apply (incl_sum (fun e : @entry plan => e_size e)); [exact Hn|apply found_NoDup, Hg|apply found_incl].
Qed.

Context {A : Type}.
Lemma coll_loop_locs (f : Z -> @entry plan -> @rmem A -> option rmem) l g b :
  coll_loop f l (a2a_side l g b) b = map (fun '(e, loc) => f loc e) (locs b (found l g)).
Proof.
  revert b. induction g as [|p g IH]; intros b; [reflexivity|].
  cbn [a2a_side found flat_map]. destruct (find_proc p l 0) as [[j e]|] eqn:E.
  - cbn [coll_loop]. apply find_proc_Some in E as (_ & E & _). rewrite Nat.sub_0_r in E. rewrite E.
    cbn [app]. rewrite locs_cons. cbn [map]. f_equal. apply IH.
  - cbn [coll_loop app]. apply IH.
Qed.

Lemma a2a_side_length l g b : length (a2a_side l g b) = length g.
Proof.
  revert b. induction g as [|p g IH]; intros b; [reflexivity|]. cbn.
  destruct (find_proc p l 0) as [[j e]|]; cbn; rewrite IH; reflexivity.
Qed.

Definition zargs (x y : list (Z * Z * option nat)) : list (Z * Z * Z * Z) :=
  map (fun '((sc, sd, _), (rc, rd, _)) => (sc, sd, rc, rd)) (combine x y).

Lemma payloads_locs (m : @rmem A) (pay : nat -> list A) (sl rl : list (@entry plan)) g b c :
  (forall e loc, In (e, loc) (locs b (found sl g)) -> zslice (m_send m) loc (e_size e) = Some (pay (e_proc e))) ->
  (forall p, In p g -> find_proc p sl 0 = None -> pay p = []) ->
  a2a_payloads m (zargs (a2a_side sl g b) (a2a_side rl g c)) = Some (map pay g).
Proof.
  revert b c. induction g as [|p g IH]; intros b c H1 H2; [reflexivity|].
  cbn [a2a_side]. cbn [found flat_map] in H1.
  assert (H2' : forall q, In q g -> find_proc q sl 0 = None -> pay q = []) by (intros q Hq; apply H2; right; exact Hq).
  destruct (find_proc p sl 0) as [[j e]|] eqn:E.
  - cbn [app] in H1. rewrite locs_cons in H1.
    pose proof (H1 e b (or_introl eq_refl)) as Hb. apply find_proc_Some in E as (_ & _ & <-).
    assert (H1' : forall e0 loc, In (e0, loc) (locs (b + e_size e) (found sl g)) ->
      zslice (m_send m) loc (e_size e0) = Some (pay (e_proc e0))).
    { intros e0 loc Hin. apply H1. right. exact Hin. }
    destruct (find_proc (e_proc e) rl 0) as [[j' e']|]; cbn [zargs combine map a2a_payloads]; rewrite Hb; cbn [bind];
      unfold zargs in IH; rewrite (IH _ _ H1' H2'); reflexivity.
  - cbn [app] in H1.
    assert (H0 : zslice (m_send m) 0 0 = Some (pay p)).
    { rewrite (H2 p (or_introl eq_refl) E). reflexivity. }
    destruct (find_proc p rl 0) as [[j' e']|]; cbn [zargs combine map a2a_payloads]; rewrite H0; cbn [bind];
      unfold zargs in IH; rewrite (IH _ _ H1 H2'); reflexivity.
Qed.

Lemma cnt_locs (sl rl : list (@entry plan)) g b c s x1 x2 rc rd (sz : nat -> Z) :
  (forall e, In e rl -> sz (e_proc e) = e_size e) ->
  (forall p, In p g -> find_proc p rl 0 = None -> sz p = 0) ->
  In (s, (x1, x2, rc, rd)) (combine g (zargs (a2a_side sl g b) (a2a_side rl g c))) -> rc = sz s.
Proof.
  revert b c. induction g as [|p g IH]; intros b c H1 H2 Hin; [destruct Hin|].
  cbn [a2a_side] in Hin.
  assert (H2' : forall q, In q g -> find_proc q rl 0 = None -> sz q = 0) by (intros q Hq; apply H2; right; exact Hq).
  destruct (find_proc p rl 0) as [[j e]|] eqn:E.
  - apply find_proc_Some in E as (_ & E & <-). apply nth_error_In in E.
    destruct (find_proc (e_proc e) sl 0) as [[j' e']|]; cbn [zargs combine map In] in Hin;
    (destruct Hin as [Hin|Hin]; [injection Hin as <- _ _ <- _; rewrite H1; auto|apply (IH _ _ H1 H2' Hin)]).
  - destruct (find_proc p sl 0) as [[j' e']|]; cbn [zargs combine map In] in Hin;
    (destruct Hin as [Hin|Hin]; [injection Hin as <- _ _ <- _; rewrite H2; auto; left; reflexivity|apply (IH _ _ H1 H2' Hin)]).
Qed.

Lemma writes_locs (pay : nat -> list A) (sl rl : list (@entry plan)) g b c (m : @rmem A) :
  nonneg rl ->
  (forall e, In e rl -> zlen (pay (e_proc e)) = e_size e) ->
  (forall p, In p g -> find_proc p rl 0 = None -> pay p = []) ->
  0 <= c -> c + sum_sizes (found rl g) <= zlen (m_recv m) ->
  exists m', seqf (map (fun '(s, (_, _, _, rd)) => wrm rd (pay s)) (combine g (zargs (a2a_side sl g b) (a2a_side rl g c)))) m = Some m' /\
    m_in m' = m_in m /\ m_out m' = m_out m /\ m_send m' = m_send m /\ zlen (m_recv m') = zlen (m_recv m) /\
    (forall a, a < c -> zget (m_recv m') a = zget (m_recv m) a) /\
    (forall e loc, In (e, loc) (locs c (found rl g)) -> zslice (m_recv m') loc (e_size e) = Some (pay (e_proc e))).
Proof.
  intros Hn Hl. revert b c m. induction g as [|p g IH]; intros b c m Hp Hc Hs.
  - exists m. cbn. intuition.
  - cbn [a2a_side]. cbn [found flat_map] in Hs |- *.
    assert (Hp' : forall q, In q g -> find_proc q rl 0 = None -> pay q = []) by (intros q Hq; apply Hp; right; exact Hq).
    destruct (find_proc p rl 0) as [[j e]|] eqn:E.
    + apply find_proc_Some in E as (_ & E & <-). apply nth_error_In in E.
      cbn [app] in Hs |- *. cbn [sum_sizes fold_right] in Hs. rewrite locs_cons.
      pose proof (Hn e E) as He. pose proof (Hl e E) as Hle.
      assert (Hf : 0 <= sum_sizes (found rl g)).
      { apply sum_nonneg. intros x Hx. apply Hn. eapply found_incl; eauto. }
      unfold sum_sizes in *.
      destruct (wrm_Some c (pay (e_proc e)) m) as [m1 Hm1]; [exact Hc|rewrite Hle; unfold found in Hf; lia|].
      destruct (wrm_spec _ _ _ _ Hm1) as (W1 & W2 & W3 & W4 & W5 & W6). rewrite Hle in *.
      assert (K : forall b', exists m',
        seqf (map (fun '(s, (_, _, _, rd)) => wrm rd (pay s)) (combine g (zargs (a2a_side sl g b') (a2a_side rl g (c + e_size e))))) m1 = Some m' /\
        m_in m' = m_in m1 /\ m_out m' = m_out m1 /\ m_send m' = m_send m1 /\ zlen (m_recv m') = zlen (m_recv m1) /\
        (forall a, a < c + e_size e -> zget (m_recv m') a = zget (m_recv m1) a) /\
        (forall e0 loc, In (e0, loc) (locs (c + e_size e) (found rl g)) -> zslice (m_recv m') loc (e_size e0) = Some (pay (e_proc e0)))).
      { intros b'. apply IH; [exact Hp'|lia|]. rewrite W4. unfold sum_sizes, found. lia. }
      assert (Fin : forall m', m_in m' = m_in m1 /\ m_out m' = m_out m1 /\ m_send m' = m_send m1 /\ zlen (m_recv m') = zlen (m_recv m1) /\
        (forall a, a < c + e_size e -> zget (m_recv m') a = zget (m_recv m1) a) /\
        (forall e0 loc, In (e0, loc) (locs (c + e_size e) (found rl g)) -> zslice (m_recv m') loc (e_size e0) = Some (pay (e_proc e0))) ->
        m_in m' = m_in m /\ m_out m' = m_out m /\ m_send m' = m_send m /\ zlen (m_recv m') = zlen (m_recv m) /\
        (forall a, a < c -> zget (m_recv m') a = zget (m_recv m) a) /\
        (forall e0 loc, In (e0, loc) ((e, c) :: locs (c + e_size e) (found rl g)) -> zslice (m_recv m') loc (e_size e0) = Some (pay (e_proc e0)))).
      { intros m' (K1 & K2 & K3 & K4 & K5 & K6). repeat split; try congruence.
        - intros a Ha. rewrite K5 by lia. apply W5. lia.
        - intros e0 loc [H|H]; [|apply K6, H]. injection H as <- <-. rewrite <- W6. apply zslice_ext.
          intros a Ha. apply K5. lia. }
      destruct (find_proc (e_proc e) sl 0) as [[j' e']|]; cbn [zargs combine map seqf]; rewrite Hm1; cbn [bind];
      [destruct (K (b + e_size e')) as (m' & Km & K') | destruct (K b) as (m' & Km & K')];
      (exists m'; split; [exact Km|apply Fin, K']).
    + cbn [app] in Hs |- *.
      assert (Hw : wrm 0 (pay p) m = Some m).
      { rewrite (Hp p (or_introl eq_refl) E). unfold wrm, memcpy_elems. cbn. destruct m; reflexivity. }
      destruct (find_proc p sl 0) as [[j' e']|]; cbn [zargs combine map seqf]; rewrite Hw; cbn [bind];
      apply IH; auto.
Qed.
End Locs.
