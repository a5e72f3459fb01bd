(** Phases.v : complete executions of one communication phase.

    A phase gives every rank a piece of code.  [triple pre code post] says that
    from every quiet state (nothing in flight) whose memories satisfy [pre] the
    code has a complete execution to a quiet state whose memories satisfy
    [post].  Together with [confluence] one complete execution determines all. *)

From Verif Require Import Base Sched SchedProofs MemProofs.

Section Tab.
Context {B : Type}.
Variable P : nat.
Definition tab (f : nat -> B) : list B := map f (seq 0 P).
Definition upd (f : nat -> B) (r : nat) (v : B) : nat -> B := fun i => if Nat.eqb i r then v else f i.

Lemma tab_length f : length (tab f) = P.
Proof. unfold tab. rewrite map_length, seq_length. reflexivity. Qed.

Lemma tab_ext f g : (forall i, (i < P)%nat -> f i = g i) -> tab f = tab g.
Proof. intros H. apply map_ext_in. intros i Hi. apply in_seq in Hi. apply H. lia. Qed.

Lemma nth_error_tab f i : (i < P)%nat -> nth_error (tab f) i = Some (f i).
Proof.
  intros H. unfold tab. rewrite nth_error_map. 
  rewrite (nth_error_nth' _ 0%nat) by (rewrite seq_length; exact H).
  rewrite seq_nth by exact H. reflexivity.
Qed.

Lemma lupd_tab f r v : lupd (tab f) r v = tab (upd f r v).
Proof.
  apply nth_error_ext. intros n.
  destruct (Nat.lt_ge_cases n P) as [Hn|Hn].
  - rewrite (nth_error_tab (upd f r v)) by exact Hn. unfold upd. destruct (Nat.eqb_spec n r) as [->|Hne].
    + apply nth_error_lupd_same. rewrite tab_length. exact Hn.
    + rewrite nth_error_lupd_other by congruence. apply nth_error_tab. exact Hn.
  - transitivity (@None B); [|symmetry]; apply nth_error_None; rewrite ?lupd_length, tab_length; exact Hn.
Qed.

Lemma In_tab f x : In x (tab f) -> exists i, (i < P)%nat /\ x = f i.
Proof.
  intros H. apply in_map_iff in H. destruct H as (i & <- & Hi). apply in_seq in Hi. exists i. split; [lia|reflexivity].
Qed.

Lemma upd_same f r v : upd f r v r = v.
Proof. unfold upd. rewrite Nat.eqb_refl. reflexivity. Qed.
Lemma upd_other f r v i : i <> r -> upd f r v i = f i.
Proof. intros H. unfold upd. apply Nat.eqb_neq in H. rewrite H. reflexivity. Qed.
End Tab.

Section Phases.
Context {A : Type}.
Variable P : nat.
Variable eager : nat -> nat -> bool.
Notation rmem := (@rmem A).
Notation instr := (@instr A).
Notation core := (@core A).
Notation gstate := (@gstate A).
Notation chans := (@chans A).
Notation step := (@step A P eager).
Notation run := (@run A P eager).
Notation E0 := (@empty_chans A P).

Definition st (f : nat -> core) : gstate := mkstate (tab P f) E0.
Definition quiet (prog : nat -> list instr) (M : nat -> rmem) (sent : nat -> nat) : gstate :=
  st (fun i => mkcore (prog i) (M i) [] false (sent i)).

Definition triple (pre : nat -> rmem -> Prop) (code : nat -> list instr) (post : nat -> rmem -> Prop) : Prop :=
  forall M rest sent, (forall r, (r < P)%nat -> pre r (M r)) ->
  exists M' l sent', (forall r, (r < P)%nat -> post r (M' r)) /\
    run (quiet (fun r => code r ++ rest r) M sent) l (quiet rest M' sent').

Lemma triple_nil pre : triple pre (fun _ => []) pre.
Proof. intros M rest sent H. exists M, [], sent. split; [exact H|]. constructor. Qed.

Lemma triple_seq pre c1 mid c2 post :
  triple pre c1 mid -> triple mid c2 post -> triple pre (fun r => c1 r ++ c2 r) post.
Proof.
  intros H1 H2 M rest sent HM. destruct (H1 M (fun r => c2 r ++ rest r) sent HM) as (M1 & l1 & s1 & HM1 & L1).
  destruct (H2 M1 rest s1 HM1) as (M2 & l2 & s2 & HM2 & L2).
  exists M2, (l1 ++ l2), s2. split; [exact HM2|].
  apply run_app with (quiet (fun r => c2 r ++ rest r) M1 s1); [|exact L2].
  unfold quiet, st in *.
  replace (tab P (fun i => mkcore ((c1 i ++ c2 i) ++ rest i) (M i) [] false (sent i)))
    with (tab P (fun i => mkcore (c1 i ++ c2 i ++ rest i) (M i) [] false (sent i))); [exact L1|].
  apply tab_ext. intros. rewrite app_assoc. reflexivity.
Qed.

Lemma triple_conseq (pre pre' post post' : nat -> rmem -> Prop) c :
  (forall r m, (r < P)%nat -> pre' r m -> pre r m) -> (forall r m, (r < P)%nat -> post r m -> post' r m) ->
  triple pre c post -> triple pre' c post'.
Proof.
  intros Hp Hq H M rest sent HM. destruct (H M rest sent) as (M' & l & s' & HM' & R); [auto|].
  exists M', l, s'. auto.
Qed.

Lemma triple_ext pre c c' post :
  (forall r, (r < P)%nat -> c r = c' r) -> triple pre c post -> triple pre c' post.
Proof.
  intros Hc H M rest sent HM. destruct (H M rest sent HM) as (M' & l & s' & HM' & L).
  exists M', l, s'. split; [exact HM'|].
  unfold quiet, st in *.
  replace (tab P (fun i => mkcore (c' i ++ rest i) (M i) [] false (sent i)))
    with (tab P (fun i => mkcore (c i ++ rest i) (M i) [] false (sent i))); [exact L|].
  apply tab_ext. intros i Hi. rewrite (Hc i Hi). reflexivity.
Qed.

(** ** single steps on [st] *)
Lemma step_st_none a (f : nat -> core) c' :
  (owner a < P)%nat -> lstep P eager a (f (owner a)) E0 = Ok (c', ENone) ->
  step a (st f) = Ok (st (upd f (owner a) c')).
Proof.
  intros Ho H. unfold Sched.step, st. cbn [s_core s_ch]. rewrite nth_error_tab by exact Ho. rewrite H.
  cbn [apply_eff]. rewrite lupd_tab. reflexivity.
Qed.

Lemma upd_upd {B} (f : nat -> B) r v w i : upd (upd f r v) r w i = upd f r w i.
Proof. unfold upd. destruct (Nat.eqb i r); reflexivity. Qed.

Lemma st_ext f g : (forall i, (i < P)%nat -> f i = g i) -> st f = st g.
Proof. intros H. unfold st. f_equal. apply tab_ext. exact H. Qed.

(** a stage in which every rank works on its own *)
Definition stage (r : nat) (c c' : core) : Prop :=
  forall f, f r = c -> exists l, run (st f) l (st (upd f r c')).

Lemma stage_refl r c : stage r c c.
Proof.
  intros f Hf. exists []. rewrite (st_ext (upd f r c) f); [constructor|].
  intros i _. unfold upd. destruct (Nat.eqb_spec i r); congruence.
Qed.

Lemma stage_step a r c c' c'' : owner a = r -> (r < P)%nat ->
  lstep P eager a c E0 = Ok (c', ENone) -> stage r c' c'' -> stage r c c''.
Proof.
  intros Ho Hr Hs H f Hf. destruct (H (upd f r c') (upd_same f r c')) as (l & L).
  exists (a :: l). apply run_cons with (st (upd f r c')).
  - rewrite <- Ho. apply step_st_none; rewrite Ho; [exact Hr|]. rewrite Hf. exact Hs.
  - rewrite (st_ext (upd f r c'') (upd (upd f r c') r c'')); [exact L|].
    intros i _. symmetry. apply upd_upd.
Qed.

Lemma stage_trans r c c' c'' : stage r c c' -> stage r c' c'' -> stage r c c''.
Proof.
  intros H1 H2 f Hf. destruct (H1 f Hf) as (l1 & L1).
  destruct (H2 (upd f r c') (upd_same f r c')) as (l2 & L2).
  exists (l1 ++ l2). apply run_app with (st (upd f r c')); [exact L1|].
  rewrite (st_ext (upd f r c'') (upd (upd f r c') r c'')); [exact L2|].
  intros i _. symmetry. apply upd_upd.
Qed.

Lemma stages (f g : nat -> core) :
  (forall r, (r < P)%nat -> stage r (f r) (g r)) -> exists l, run (st f) l (st g).
Proof.
  intros H.
  assert (G : forall n, (n <= P)%nat -> exists l, run (st f) l (st (fun i => if Nat.ltb i n then g i else f i))).
  { induction n as [|n IH]; intros Hn.
    - exists []. rewrite (st_ext (fun i => if Nat.ltb i 0 then g i else f i) f); [constructor|reflexivity].
    - destruct IH as (l & L); [lia|].
      destruct (H n ltac:(lia) (fun i => if Nat.ltb i n then g i else f i)) as (l2 & L2).
      { rewrite Nat.ltb_irrefl. reflexivity. }
      exists (l ++ l2). apply run_app with (1 := L).
      rewrite (st_ext (fun i => if Nat.ltb i (S n) then g i else f i)
                 (upd (fun i => if Nat.ltb i n then g i else f i) n (g n))); [exact L2|].
      intros i _. unfold upd. destruct (Nat.eqb_spec i n) as [->|Hne].
      + rewrite (proj2 (Nat.ltb_lt n (S n))) by lia. reflexivity.
      + destruct (Nat.ltb_spec i (S n)); destruct (Nat.ltb_spec i n); auto; lia. }
  destruct (G P (le_n P)) as (l & L). exists l.
  rewrite (st_ext g (fun i => if Nat.ltb i P then g i else f i)); [exact L|].
  intros i Hi. rewrite (proj2 (Nat.ltb_lt i P)) by exact Hi. reflexivity.
Qed.

(** ** local code *)
Fixpoint seqf (fs : list (rmem -> option rmem)) (m : rmem) : option rmem :=
  match fs with [] => Some m | f :: t => m' <- f m; seqf t m' end.

Lemma stage_local r fs p m m' rs b sent : (r < P)%nat -> seqf fs m = Some m' ->
  stage r (mkcore (map ILocal fs ++ p) m rs b sent) (mkcore p m' rs b sent).
Proof.
  intros Hr. revert m. induction fs as [|f t IH]; cbn [seqf map app]; intros m H.
  - injection H as <-. apply stage_refl.
  - apply bind_Some_inv in H. destruct H as (m1 & Hf & H).
    apply stage_step with (a := Lrank r) (c' := mkcore (map ILocal t ++ p) m1 rs b sent); auto.
    cbn [lstep c_prog c_mem]. rewrite Hf. reflexivity.
Qed.

Lemma triple_local (pre : nat -> rmem -> Prop) (fs : nat -> list (rmem -> option rmem)) post :
  (forall r m, (r < P)%nat -> pre r m -> exists m', seqf (fs r) m = Some m' /\ post r m') ->
  triple pre (fun r => map ILocal (fs r)) post.
Proof.
  intros H M rest sent HM.
  destruct (stages (fun r => mkcore (map ILocal (fs r) ++ rest r) (M r) [] false (sent r))
       (fun r => mkcore (rest r) (match seqf (fs r) (M r) with Some m => m | None => M r end) [] false (sent r)))
      as (l & L).
  - intros r Hr. destruct (H r (M r) Hr (HM r Hr)) as (m' & E & _). rewrite E. apply stage_local; auto.
  - exists (fun r => match seqf (fs r) (M r) with Some m => m | None => M r end), l, sent. split.
    + intros r Hr. destruct (H r (M r) Hr (HM r Hr)) as (m' & E & Hp). rewrite E. exact Hp.
    + exact L.
Qed.

(** ** posting receives *)
Definition irecv_code (l : list (nat * nat * Z * Z)) : list instr :=
  map (fun '(id, src, loc, len) => IIrecv id src loc len) l.
Definition irecv_reqs (l : list (nat * nat * Z * Z)) : list req :=
  map (fun '(id, src, loc, len) => mkreq id src loc len false) l.

Lemma stage_irecv r l p m rs b sent : (r < P)%nat ->
  stage r (mkcore (irecv_code l ++ p) m rs b sent) (mkcore p m (rs ++ irecv_reqs l) b sent).
Proof.
  intros Hr. revert rs. induction l as [|[[[id src] loc] len] t IH]; intros rs; cbn [irecv_code irecv_reqs map app].
  - rewrite app_nil_r. apply stage_refl.
  - apply stage_step with (a := Lrank r)
      (c' := mkcore (irecv_code t ++ p) m (rs ++ [mkreq id src loc len false]) b sent);
      [reflexivity|exact Hr|reflexivity|].
    pose proof (IH (rs ++ [mkreq id src loc len false])) as H. rewrite <- app_assoc in H. exact H.
Qed.

(** ** waiting for all receives *)
Definition done_reqs (l : list (nat * nat * Z * Z)) : list req :=
  map (fun '(id, src, loc, len) => mkreq id src loc len true) l.

Definition ids_of (l : list (nat * nat * Z * Z)) : list nat := map (fun '(id, _, _, _) => id) l.

Lemma stage_wait r l h p m m' b sent : (r < P)%nat -> seqf (map h (ids_of l)) m = Some m' ->
  stage r (mkcore (repeat (IWaitany h) (length l) ++ p) m (done_reqs l) b sent) (mkcore p m' [] b sent).
Proof.
  intros Hr. revert m. induction l as [|[[[id src] loc] len] t IH]; intros m; cbn [done_reqs ids_of map repeat length app seqf].
  - intros H. injection H as <-. apply stage_refl.
  - intros H. apply bind_Some_inv in H. destruct H as (m1 & Hh & H).
    apply stage_step with (a := Lwait r id)
      (c' := mkcore (repeat (IWaitany h) (length t) ++ p) m1 (done_reqs t) b sent); auto.
    cbn [lstep c_prog c_mem c_reqs take_done rq_id rq_done]. rewrite Nat.eqb_refl, Hh. reflexivity.
Qed.


(** ** the point-to-point phase *)
Section P2P.
Variable recvs : nat -> list (nat * nat * Z * Z).            (* id, src, loc, len *)
Variable sends : nat -> list ((rmem -> option rmem) * nat * Z). (* pack, dst, len *)
Variable selfs : nat -> list (rmem -> option rmem).
Variable hh : nat -> nat -> rmem -> option rmem.

Definition send_code (l : list ((rmem -> option rmem) * nat * Z)) : list instr :=
  flat_map (fun '(f, q, len) => [ILocal f; ISend q len]) l.

Definition p2p_code (r : nat) : list instr :=
  irecv_code (recvs r) ++ send_code (sends r) ++ map ILocal (selfs r)
  ++ repeat (IWaitany (hh r)) (length (recvs r)).

Variable pay : nat -> nat -> list A.
Variable Good : nat -> rmem -> Prop.

Definition src_of (x : nat * nat * Z * Z) : nat := let '(_, src, _, _) := x in src.

Definition holds_slots (r : nat) (m : rmem) : Prop :=
  forall id src loc len, In (id, src, loc, len) (recvs r) -> zslice (m_recv m) loc len = Some (pay src r).

Hypothesis H_send : forall r f q len m, (r < P)%nat -> In (f, q, len) (sends r) -> Good r m ->
  exists m1, f m = Some m1 /\ Good r m1 /\ m_recv m1 = m_recv m /\ zslice (m_send m1) 0 len = Some (pay r q).
Hypothesis H_dst : forall r f q len, (r < P)%nat -> In (f, q, len) (sends r) ->
  (q < P)%nat /\ q <> r /\ exists id loc l, In (id, r, loc, l) (recvs q).
Hypothesis H_dst_nodup : forall r, (r < P)%nat -> NoDup (map (fun x => snd (fst x)) (sends r)).
Hypothesis H_src : forall r id src loc len, (r < P)%nat -> In (id, src, loc, len) (recvs r) ->
  (src < P)%nat /\ (exists f l, In (f, r, l) (sends src)) /\ zlen (pay src r) = len /\
  forall m, Good r m -> exists m', wrm loc (pay src r) m = Some m' /\ Good r m'.
Hypothesis H_src_nodup : forall r, (r < P)%nat -> NoDup (map src_of (recvs r)).
Hypothesis H_sep : forall r id src loc len id' src' loc' len', (r < P)%nat ->
  In (id, src, loc, len) (recvs r) -> In (id', src', loc', len') (recvs r) -> src <> src' ->
  loc + len <= loc' \/ loc' + len' <= loc.

Definition reqsD (D : nat -> nat -> bool) (q : nat) (l : list (nat * nat * Z * Z)) : list req :=
  map (fun '(id, src, loc, len) => mkreq id src loc len (D src q)) l.

Lemma mark_reqsD D D' p q l id loc len :
  NoDup (map src_of l) -> In (id, p, loc, len) l -> D p q = false -> D' p q = true ->
  (forall s, s <> p -> D' s q = D s q) ->
  mark_first p (reqsD D q l) = Some (mkreq id p loc len false, reqsD D' q l).
Proof.
  intros ND Hin HD HD' Ho. induction l as [|[[[id0 s0] loc0] len0] t IH]; [destruct Hin|].
  cbn [map src_of] in ND. inversion ND as [|? ? Hnin ND']; subst. cbn [reqsD map mark_first rq_src rq_done].
  destruct (Nat.eqb_spec s0 p) as [->|Hne].
  - destruct Hin as [E|Hin].
    + injection E as -> -> ->. rewrite HD, HD'. cbn. f_equal. f_equal. f_equal.
      apply map_ext_in. intros [[[id1 s1] loc1] len1] Hin1.
      rewrite Ho; [reflexivity|]. intros ->. apply Hnin. apply in_map_iff. eexists; split; [|exact Hin1]. reflexivity.
    + exfalso. apply Hnin. apply in_map_iff. eexists; split; [|exact Hin]. reflexivity.
  - destruct Hin as [E|Hin]; [congruence|]. cbn [andb].
    change (map (fun '(id1, src, loc1, len1) => mkreq id1 src loc1 len1 (D src q)) t) with (reqsD D q t).
    rewrite (IH ND' Hin). cbn [bind]. rewrite (Ho s0 Hne). reflexivity.
Qed.

(** state during the send stage *)
Definition sst (rem : nat -> list ((rmem -> option rmem) * nat * Z)) (tail : nat -> list instr)
  (M : nat -> rmem) (D : nat -> nat -> bool) (sent : nat -> nat) : nat -> core :=
  fun i => mkcore (send_code (rem i) ++ tail i) (M i) (reqsD D i (recvs i)) false (sent i).

Definition SInv (rem : nat -> list ((rmem -> option rmem) * nat * Z)) (M : nat -> rmem) (D : nat -> nat -> bool) : Prop :=
  (forall r, (r < P)%nat -> Good r (M r)) /\
  (forall r, (r < P)%nat -> exists pre, sends r = pre ++ rem r) /\
  (forall r f q len, (r < P)%nat -> In (f, q, len) (rem r) -> D r q = false) /\
  (forall r, (r < P)%nat -> forall f q len, In (f, q, len) (sends r) -> D r q = true \/ exists f' l', In (f', q, l') (rem r)) /\
  (forall r id src loc len, (r < P)%nat -> In (id, src, loc, len) (recvs r) -> D src r = true ->
     zslice (m_recv (M r)) loc len = Some (pay src r)).

Lemma mset_empty (f : nat -> nat -> list (@msg A)) : (forall s d, (s < P)%nat -> (d < P)%nat -> f s d = []) ->
  mbuild P f = ch E0.
Proof. intros H. cbn. apply mbuild_ext. exact H. Qed.

Lemma one_send r f q len t rem tail M D sent :
  (r < P)%nat -> rem r = (f, q, len) :: t -> SInv rem M D ->
  exists l M' D' sent', run (st (sst rem tail M D sent)) l (st (sst (upd rem r t) tail M' D' sent')) /\
     SInv (upd rem r t) M' D'.
Proof.
  intros Hr Hrem (HG & Hsuf & HDf & Hall & Hsl).
  assert (Hin : In (f, q, len) (sends r)).
  { destruct (Hsuf r Hr) as (pre & E). rewrite E, Hrem. apply in_or_app. right. left. reflexivity. }
  destruct (H_send r f q len (M r) Hr Hin (HG r Hr)) as (m1 & Hf & HG1 & Hrc & Hpl).
  destruct (H_dst r f q len Hr Hin) as (Hq & Hqr & id & loc & ln & Hrecv).
  destruct (H_src q id r loc ln Hq Hrecv) as (_ & _ & Hlen & Hw).
  destruct (Hw (M q) (HG q Hq)) as (m2 & Hw2 & HG2).
  set (D' := fun s d => if Nat.eqb s r && Nat.eqb d q then true else D s d).
  set (M1 := upd M r m1). set (M2 := upd M1 q m2). set (sent' := upd sent r (S (sent r))).
  assert (HDrq : D r q = false). { apply (HDf r f q len Hr). rewrite Hrem. left. reflexivity. }
  exists [Lrank r; Lrank r; Ldeliver r q; Lrank r], M2, D', sent'.
  split.
  - (* the four steps *)
    set (c1 := mkcore (ISend q len :: send_code t ++ tail r) m1 (reqsD D r (recvs r)) false (sent r)).
    apply run_cons with (st (upd (sst rem tail M D sent) r c1)).
    { apply (step_st_none (Lrank r)); [exact Hr|]. cbn [owner]. unfold sst at 1. rewrite Hrem.
      cbn [send_code flat_map app lstep c_prog c_mem]. rewrite Hf. reflexivity. }
    set (c2 := mkcore (ISend q len :: send_code t ++ tail r) m1 (reqsD D r (recvs r)) true (sent r)).
    set (k2 := apply_eff P (ESend r q (pay r q)) E0).
    apply run_cons with (mkstate (tab P (upd (sst rem tail M D sent) r c2)) k2).
    { unfold Sched.step, st. cbn [s_core s_ch owner]. rewrite nth_error_tab by exact Hr. rewrite upd_same.
      cbn [lstep c_prog c_mem c_busy c1]. rewrite Hpl. rewrite (proj2 (Nat.ltb_lt q P)) by exact Hq.
      rewrite lupd_tab. f_equal. f_equal. apply tab_ext. intros i _. apply upd_upd. }
    set (c3 := mkcore (send_code (rem q) ++ tail q) m2 (reqsD D' q (recvs q)) false (sent q)).
    apply run_cons with (st (upd (upd (sst rem tail M D sent) r c2) q c3)).
    { unfold Sched.step. cbn [s_core s_ch owner]. rewrite nth_error_tab by exact Hq.
      rewrite upd_other by exact Hqr. cbn [lstep]. unfold k2 at 1. cbn [apply_eff ch].
      rewrite mget_mbuild by assumption. rewrite !Nat.eqb_refl. cbn [andb].
      cbn [ch empty_chans]. rewrite mget_mbuild by assumption. cbn [app].
      unfold sst at 1. cbn [c_reqs].
      rewrite (mark_reqsD D D' r q (recvs q) id loc ln); auto.
      2:{ unfold D'. rewrite !Nat.eqb_refl. reflexivity. }
      2:{ intros s Hs. unfold D'. apply Nat.eqb_neq in Hs. rewrite Hs. reflexivity. }
      cbn [rq_len rq_loc]. rewrite Hlen, Z.ltb_irrefl. unfold sst at 1. cbn [c_mem]. rewrite Hw2.
      rewrite lupd_tab. unfold st. f_equal. f_equal.
      unfold k2. cbn [apply_eff ch cch]. unfold empty_chans. cbn [ch cch]. f_equal.
      apply mbuild_ext. intros s d Hs Hd. rewrite !mget_mbuild by assumption.
      destruct (Nat.eqb s r && Nat.eqb d q); reflexivity. }
    apply run_cons with (st (sst (upd rem r t) tail M2 D' sent')); [|constructor].
    rewrite (st_ext (sst (upd rem r t) tail M2 D' sent')
      (upd (upd (upd (sst rem tail M D sent) r c2) q c3) r
         (mkcore (send_code t ++ tail r) m1 (reqsD D r (recvs r)) false (S (sent r))))).
    + apply (step_st_none (Lrank r)); [exact Hr|]. cbn [owner]. rewrite upd_other by congruence.
      rewrite upd_same. cbn [lstep c_prog c_mem c_busy c2 c_sent]. cbn [ch empty_chans].
      rewrite mget_mbuild by assumption. rewrite orb_true_r. reflexivity.
    + intros i Hi. unfold sst, M2, M1, sent', c3, c2. unfold upd.
      destruct (Nat.eqb_spec i r) as [->|Hir].
      * destruct (Nat.eqb_spec r q) as [E|_]; [congruence|]. f_equal.
        unfold reqsD. apply map_ext. intros [[[a b] c] d]. unfold D'.
        destruct (Nat.eqb_spec r q) as [E|_]; [congruence|]. rewrite andb_false_r. reflexivity.
      * destruct (Nat.eqb_spec i q) as [->|Hiq]; [reflexivity|]. f_equal.
        unfold reqsD. apply map_ext. intros [[[a b] c] d]. unfold D'.
        destruct (Nat.eqb_spec i q) as [E|_]; [congruence|]. rewrite andb_false_r. reflexivity.
  - (* invariant *)
    split; [|split; [|split; [|split]]].
    + intros i Hi. unfold M2, M1, upd. destruct (Nat.eqb_spec i q) as [->|_]; [exact HG2|].
      destruct (Nat.eqb_spec i r) as [->|_]; [exact HG1|]. apply HG. exact Hi.
    + intros i Hi. unfold upd. destruct (Nat.eqb_spec i r) as [->|_]; [|apply Hsuf; exact Hi].
      destruct (Hsuf r Hr) as (pre & E). exists (pre ++ [(f, q, len)]). rewrite <- app_assoc. cbn. congruence.
    + intros i f' q' len' Hi Hin'. unfold D'. unfold upd in Hin'.
      destruct (Nat.eqb_spec i r) as [->|Hir]; cbn [andb].
      * destruct (Nat.eqb_spec q' q) as [->|Hq'].
        -- exfalso. destruct (Hsuf r Hr) as (pre & E). pose proof (H_dst_nodup r Hr) as ND.
           rewrite E, Hrem, map_app in ND. apply NoDup_remove_2 in ND. apply ND.
           apply in_or_app. right. apply in_map_iff. exists (f', q, len'). split; [reflexivity|exact Hin'].
        -- apply (HDf r f' q' len' Hr). rewrite Hrem. right. exact Hin'.
      * apply (HDf i f' q' len' Hi Hin').
    + intros i Hi f' q' len' Hin'. unfold D', upd.
      destruct (Nat.eqb_spec i r) as [->|Hir]; cbn [andb]; [|apply (Hall i Hi f' q' len' Hin')].
      destruct (Nat.eqb_spec q' q) as [->|Hq']; [left; reflexivity|].
      destruct (Hall r Hr f' q' len' Hin') as [HD|(f2 & l2 & H2)]; [left; exact HD|].
      right. rewrite Hrem in H2. destruct H2 as [E|H2]; [congruence|]. eauto.
    + intros i id' src' loc' len' Hi Hin' HD'.
      destruct (wrm_spec _ _ _ _ Hw2) as (_ & _ & _ & Hzl & Hoth & Hself).
      assert (Hold : D src' i = true -> zslice (m_recv (M i)) loc' len' = Some (pay src' i))
        by (apply (Hsl i id' src' loc' len' Hi Hin')).
      unfold D' in HD'. unfold M2, M1, upd.
      destruct (Nat.eqb_spec i q) as [->|Hiq].
      * destruct (Nat.eqb_spec src' r) as [->|Hsr].
        -- assert (Hsame : loc' = loc /\ len' = ln).
           { pose proof (H_src_nodup q Hq) as ND. clear - ND Hin' Hrecv.
             induction (recvs q) as [|[[[a b] c] d] tl IH]; [destruct Hin'|].
             cbn [map src_of] in ND. inversion ND as [|? ? Hn ND']; subst.
             destruct Hin' as [E|Hin']; destruct Hrecv as [E'|Hrecv].
             - split; congruence.
             - injection E as -> -> -> ->. exfalso. apply Hn. apply in_map_iff. eexists; split; [|exact Hrecv]. reflexivity.
             - injection E' as -> -> -> ->. exfalso. apply Hn. apply in_map_iff. eexists; split; [|exact Hin']. reflexivity.
             - apply IH; auto. }
           destruct Hsame as (-> & ->). rewrite Hlen in Hself. exact Hself.
        -- cbn [andb] in HD'. rewrite <- (Hold HD'). apply zslice_ext. intros a Ha. apply Hoth.
           destruct (H_sep q id' src' loc' len' id r loc ln Hq Hin' Hrecv Hsr); rewrite Hlen; lia.
      * rewrite andb_false_r in HD'. destruct (Nat.eqb_spec i r) as [->|Hir]; [rewrite Hrc|]; auto.
Qed.

Lemma rank_sends r tail : (r < P)%nat -> forall n rem M D sent, length (rem r) = n -> SInv rem M D ->
  exists l rem' M' D' sent', run (st (sst rem tail M D sent)) l (st (sst rem' tail M' D' sent')) /\
     SInv rem' M' D' /\ rem' r = [] /\ forall i, i <> r -> rem' i = rem i.
Proof.
  intros Hr. induction n as [|n IH]; intros rem M D sent Hn HI.
  - exists [], rem, M, D, sent. split; [constructor|]. destruct (rem r); [auto|discriminate].
  - destruct (rem r) as [|[[f q] len] t] eqn:E; [discriminate|].
    destruct (one_send r f q len t rem tail M D sent Hr E HI) as (l & M1 & D1 & s1 & R1 & I1).
    destruct (IH (upd rem r t) M1 D1 s1) as (l2 & rem' & M2 & D2 & s2 & R2 & I2 & E2 & O2).
    { rewrite upd_same. cbn in Hn. lia. }
    { exact I1. }
    exists (l ++ l2), rem', M2, D2, s2. split; [apply run_app with (1 := R1); exact R2|].
    split; [exact I2|split; [exact E2|]]. intros i Hi. rewrite O2 by exact Hi. apply upd_other. exact Hi.
Qed.

Lemma all_sends tail rem M D sent : SInv rem M D ->
  exists l rem' M' D' sent', run (st (sst rem tail M D sent)) l (st (sst rem' tail M' D' sent')) /\
     SInv rem' M' D' /\ forall i, (i < P)%nat -> rem' i = [].
Proof.
  intros HI.
  assert (G : forall n, (n <= P)%nat -> exists l rem' M' D' sent',
     run (st (sst rem tail M D sent)) l (st (sst rem' tail M' D' sent')) /\
     SInv rem' M' D' /\ forall i, (i < n)%nat -> rem' i = []).
  { induction n as [|n IH]; intros Hn.
    - exists [], rem, M, D, sent. split; [constructor|]. split; [exact HI|]. intros; lia.
    - destruct IH as (l & rem1 & M1 & D1 & s1 & R1 & I1 & E1); [lia|].
      destruct (rank_sends n tail ltac:(lia) (length (rem1 n)) rem1 M1 D1 s1 eq_refl I1)
        as (l2 & rem2 & M2 & D2 & s2 & R2 & I2 & E2 & O2).
      exists (l ++ l2), rem2, M2, D2, s2. split; [apply run_app with (1 := R1); exact R2|].
      split; [exact I2|]. intros i Hi. destruct (Nat.eq_dec i n) as [->|Hne]; [exact E2|].
      rewrite O2 by exact Hne. apply E1. lia. }
  apply (G P). lia.
Qed.

(** the phase as a whole *)
Lemma triple_p2p (pre post : nat -> rmem -> Prop) :
  (forall r m, (r < P)%nat -> pre r m -> Good r m) ->
  (forall r m, (r < P)%nat -> Good r m -> holds_slots r m ->
     exists m', seqf (selfs r ++ map (hh r) (ids_of (recvs r))) m = Some m' /\ post r m') ->
  triple pre p2p_code post.
Proof.
  intros Hpre Hpost M rest sent HM.
  set (D0 := fun _ _ : nat => false).
  assert (I0 : SInv sends M D0).
  { split; [|split; [|split; [|split]]].
    - intros r Hr. apply Hpre; auto.
    - intros r Hr. exists []. reflexivity.
    - reflexivity.
    - intros r Hr f q len Hin. right. eauto.
    - intros; discriminate. }
  set (tail := fun r => map ILocal (selfs r) ++ repeat (IWaitany (hh r)) (length (recvs r)) ++ rest r).
  (* receives *)
  destruct (stages (fun r => mkcore (p2p_code r ++ rest r) (M r) [] false (sent r)) (sst sends tail M D0 sent)) as (l1 & R1).
  { intros r Hr. unfold p2p_code. rewrite <- !app_assoc. apply stage_irecv. exact Hr. }
  (* sends *)
  destruct (all_sends tail sends M D0 sent I0) as (l2 & rem' & M' & D' & s' & R2 & (HG & _ & HDf & Hall & Hsl) & E).
  assert (HD : forall r id src loc len, (r < P)%nat -> In (id, src, loc, len) (recvs r) -> D' src r = true).
  { intros r id src loc len Hr Hin. destruct (H_src r id src loc len Hr Hin) as (Hs & (f & l & Hsd) & _).
    destruct (Hall src Hs f r l Hsd) as [H|(f' & l' & H)]; [exact H|]. rewrite E in H by exact Hs. destruct H. }
  assert (Hslots : forall r, (r < P)%nat -> holds_slots r (M' r)).
  { intros r Hr id src loc len Hin. apply (Hsl r id src loc len Hr Hin). apply (HD r id src loc len Hr Hin). }
  (* local part *)
  set (fin := fun r => match seqf (selfs r ++ map (hh r) (ids_of (recvs r))) (M' r) with Some m => m | None => M' r end).
  destruct (stages (sst rem' tail M' D' s') (fun r => mkcore (rest r) (fin r) [] false (s' r))) as (l3 & R3).
  { intros r Hr. unfold sst, fin. rewrite E by exact Hr. cbn [send_code flat_map app].
    destruct (Hpost r (M' r) Hr (HG r Hr) (Hslots r Hr)) as (m' & Es & _). rewrite Es.
    assert (Hq : reqsD D' r (recvs r) = done_reqs (recvs r)).
    { apply map_ext_in. intros [[[id src] loc] len] Hin. rewrite (HD r id src loc len Hr Hin). reflexivity. }
    rewrite Hq. 
    assert (Happ : forall a b m m2, seqf (a ++ b) m = Some m2 -> exists m1, seqf a m = Some m1 /\ seqf b m1 = Some m2).
    { clear. induction a as [|f a IH]; cbn; intros b m m2 H; [eauto|].
      destruct (f m) as [mf|]; cbn in *; [|discriminate]. apply IH. exact H. }
    destruct (Happ _ _ _ _ Es) as (m1 & E1 & E2).
    apply stage_trans with (mkcore (repeat (IWaitany (hh r)) (length (recvs r)) ++ rest r) m1 (done_reqs (recvs r)) false (s' r)).
    - apply stage_local; auto.
    - apply stage_wait; auto. }
  exists fin, (l1 ++ l2 ++ l3), s'. split.
  - intros r Hr. unfold fin. destruct (Hpost r (M' r) Hr (HG r Hr) (Hslots r Hr)) as (m' & Es & Hp). rewrite Es. exact Hp.
  - apply run_app with (1 := R1). apply run_app with (1 := R2). exact R3.
Qed.

End P2P.


(** ** the collective *)
Section A2A.
Variable grp : nat -> list nat.
Variable args : nat -> list (Z * Z * Z * Z).
Variable pay : nat -> nat -> list A.

Definition a2a_code (r : nat) : list instr :=
  match grp r with [] => [] | _ => [IA2A (grp r) (args r)] end.

Definition a2a_writes (r : nat) : list (rmem -> option rmem) :=
  map (fun '(s, (_, _, _, rd)) => wrm rd (pay s r)) (combine (grp r) (args r)).

Hypothesis G_self : forall r, (r < P)%nat -> grp r <> [] -> In r (grp r).
Hypothesis G_mem : forall r s, (r < P)%nat -> In s (grp r) -> (s < P)%nat /\ grp s = grp r.
Hypothesis G_len : forall r, (r < P)%nat -> length (grp r) = length (args r).
Hypothesis G_cnt : forall r s sc sd rc rd, (r < P)%nat -> In (s, (sc, sd, rc, rd)) (combine (grp r) (args r)) ->
  zlen (pay s r) = rc.

Definition contrib (s d : nat) : list (@cmsg A) :=
  if inb d (grp s) then [(grp s, pay s d)] else [].

Lemma assoc_map s g d : assoc_msg g (map (pay s) g) d = if inb d g then Some (pay s d) else None.
Proof.
  unfold assoc_msg. induction g as [|x g IH]; [reflexivity|]. cbn [map combine find fst inb existsb].
  rewrite (Nat.eqb_sym d x). destruct (Nat.eqb_spec x d) as [->|Hne]; [reflexivity|]. exact IH.
Qed.

Lemma inb_true x g : In x g -> inb x g = true.
Proof. intros H. apply existsb_exists. exists x. split; [exact H|apply Nat.eqb_refl]. Qed.

Lemma inb_sym s d : (s < P)%nat -> (d < P)%nat -> inb d (grp s) = inb s (grp d).
Proof.
  intros Hs Hd.
  assert (K : forall a b, (a < P)%nat -> (b < P)%nat -> inb b (grp a) = true -> inb a (grp b) = true).
  { intros a b Ha Hb H. apply inb_In in H. destruct (G_mem a b Ha H) as (_ & E).
    apply inb_true. rewrite E. apply G_self; [exact Ha|]. intros E0. rewrite E0 in H. destruct H. }
  destruct (inb d (grp s)) eqn:E1; destruct (inb s (grp d)) eqn:E2; auto.
  - rewrite (K s d) in E2; auto.
  - rewrite (K d s) in E1; auto.
Qed.

Definition acore (rest : nat -> list instr) (M : nat -> rmem) (sent : nat -> nat) (b : bool) (i : nat) : core :=
  mkcore (a2a_code i ++ rest i) (M i) [] (match grp i with [] => false | _ => b end) (sent i).

Lemma a2a_starts rest M sent :
  (forall r, (r < P)%nat -> grp r <> [] -> a2a_payloads (M r) (args r) = Some (map (pay r) (grp r))) ->
  forall n, (n <= P)%nat -> exists l,
  run (st (acore rest M sent false)) l
      (mkstate (tab P (fun i => acore rest M sent (Nat.ltb i n) i))
               (mkchans (ch E0) (mbuild P (fun s d => if Nat.ltb s n then contrib s d else [])))).
Proof.
  intros HM. induction n as [|n IH]; intros Hn.
  - exists []. replace (mkstate (tab P (fun i => acore rest M sent (Nat.ltb i 0) i)) _)
      with (st (acore rest M sent false)); [constructor|]. reflexivity.
  - destruct IH as (l & L); [lia|]. destruct (grp n) as [|g0 gt] eqn:Eg.
    + exists l. 
      replace (mkstate (tab P (fun i => acore rest M sent (Nat.ltb i (S n)) i)) _)
        with (mkstate (tab P (fun i => acore rest M sent (Nat.ltb i n) i))
               (mkchans (ch E0) (mbuild P (fun s d => if Nat.ltb s n then contrib s d else []))));
        [exact L|].
      f_equal; [|f_equal].
      * apply tab_ext. intros i _. unfold acore. f_equal.
        destruct (Nat.eq_dec i n) as [->|Hne]; [rewrite Eg; reflexivity|].
        destruct (Nat.ltb_spec i n); destruct (Nat.ltb_spec i (S n)); auto; lia.
      * apply mbuild_ext. intros s d _ _.
        destruct (Nat.eq_dec s n) as [->|Hne].
        -- rewrite Nat.ltb_irrefl. unfold contrib. rewrite Eg. destruct (Nat.ltb n (S n)); reflexivity.
        -- destruct (Nat.ltb_spec s n); destruct (Nat.ltb_spec s (S n)); auto; lia.
    + exists (l ++ [Lrank n]). apply run_app with (1 := L).
      assert (Hgn : grp n <> []) by (rewrite Eg; discriminate).
      eapply run_cons; [|constructor].
      unfold Sched.step. cbn [s_core s_ch owner]. rewrite nth_error_tab by lia.
      unfold acore at 1. unfold a2a_code at 1. rewrite Eg at 1. cbn [app lstep c_prog c_busy].
      unfold acore at 1. rewrite Eg at 1. cbn [c_busy]. rewrite Nat.ltb_irrefl.
      rewrite (inb_true n (grp n)) by (apply G_self; [lia|exact Hgn]).
      assert (Hfb : forallb (fun s => Nat.ltb s P) (grp n) = true).
      { apply forallb_forall. intros s Hs. apply Nat.ltb_lt. apply (G_mem n s); [lia|exact Hs]. }
      rewrite Hfb. rewrite (proj2 (Nat.eqb_eq _ _) (G_len n ltac:(lia))). cbn [andb].
      unfold acore at 1. cbn [c_mem]. rewrite (HM n ltac:(lia) Hgn). rewrite lupd_tab.
      f_equal. f_equal.
      * apply tab_ext. intros i Hi. unfold upd. destruct (Nat.eqb_spec i n) as [->|Hne].
        -- unfold acore, a2a_code. rewrite Eg. cbn [c_mem c_reqs c_sent app].
           rewrite (proj2 (Nat.ltb_lt n (S n))) by lia. reflexivity.
        -- unfold acore. f_equal. destruct (Nat.ltb_spec i n); destruct (Nat.ltb_spec i (S n)); auto; lia.
      * cbn [apply_eff ch cch]. f_equal. apply mbuild_ext. intros s d Hs Hd.
        rewrite mget_mbuild by assumption. rewrite assoc_map.
        destruct (Nat.eqb_spec s n) as [->|Hne].
        -- rewrite Nat.ltb_irrefl. rewrite (proj2 (Nat.ltb_lt n (S n))) by lia.
           unfold contrib. destruct (inb d (grp n)); reflexivity.
        -- destruct (Nat.ltb_spec s n); destruct (Nat.ltb_spec s (S n)); auto; lia.
Qed.

Lemma a2a_recv_ok k r g0 g ar m m' :
  (forall s, In s g -> mget (cch k) s r = [(g0, pay s r)]) ->
  (forall s sc sd rc rd, In (s, (sc, sd, rc, rd)) (combine g ar) -> zlen (pay s r) = rc) ->
  length g = length ar ->
  seqf (map (fun '(s, (_, _, _, rd)) => wrm rd (pay s r)) (combine g ar)) m = Some m' ->
  a2a_recv k r g0 g ar m = Ok m'.
Proof.
  revert ar m. induction g as [|s g IH]; intros [|[[[sc sd] rc] rd] ar] m Hk Hc Hl Hs; cbn in Hl; try discriminate.
  - cbn in *. congruence.
  - cbn [combine map seqf] in Hs. apply bind_Some_inv in Hs. destruct Hs as (m1 & Hw & Hs).
    cbn [a2a_recv]. rewrite (Hk s (or_introl eq_refl)).
    unfold list_nat_eqb. destruct (list_eq_dec Nat.eq_dec g0 g0) as [_|n]; [|congruence]. cbn [negb].
    rewrite (Hc s sc sd rc rd (or_introl eq_refl)), Z.eqb_refl. cbn [negb]. rewrite Hw.
    apply IH; auto.
    + intros s' Hs'. apply Hk. right. exact Hs'.
    + intros s0 sc0 sd0 rc0 rd0 H0. apply (Hc s0 sc0 sd0 rc0 rd0). right. exact H0.
Qed.

Lemma a2a_finishes rest M sent (fin : nat -> rmem) :
  (forall r, (r < P)%nat -> grp r = [] -> fin r = M r) ->
  (forall r, (r < P)%nat -> grp r <> [] -> seqf (a2a_writes r) (M r) = Some (fin r)) ->
  forall n, (n <= P)%nat -> exists l,
  run (mkstate (tab P (acore rest M sent true)) (mkchans (ch E0) (mbuild P contrib))) l
      (mkstate (tab P (fun i => if Nat.ltb i n then mkcore (rest i) (fin i) [] false (sent i) else acore rest M sent true i))
               (mkchans (ch E0) (mbuild P (fun s d => if Nat.ltb d n then [] else contrib s d)))).
Proof.
  intros Hnil HM. induction n as [|n IH]; intros Hn.
  - exists []. constructor.
  - destruct IH as (l & L); [lia|]. destruct (grp n) as [|g0 gt] eqn:Eg.
    + exists l. 
      match type of L with Sched.run _ _ _ _ ?S => match goal with |- Sched.run _ _ _ _ ?S' => replace S' with S; [exact L|] end end.
      f_equal; [|f_equal].
      * apply tab_ext. intros i _. 
        destruct (Nat.eq_dec i n) as [->|Hne].
        -- rewrite Nat.ltb_irrefl. rewrite (proj2 (Nat.ltb_lt n (S n))) by lia. unfold acore, a2a_code. rewrite Eg.
           rewrite (Hnil n ltac:(lia) Eg). reflexivity.
        -- destruct (Nat.ltb_spec i n); destruct (Nat.ltb_spec i (S n)); auto; lia.
      * apply mbuild_ext. intros s d Hs Hd.
        destruct (Nat.eq_dec d n) as [->|Hne].
        -- rewrite Nat.ltb_irrefl. rewrite (proj2 (Nat.ltb_lt n (S n))) by lia.
           unfold contrib. rewrite (inb_sym s n) by assumption. rewrite Eg. reflexivity.
        -- destruct (Nat.ltb_spec d n); destruct (Nat.ltb_spec d (S n)); auto; lia.
    + exists (l ++ [Lrank n]). apply run_app with (1 := L).
      assert (Hgn : grp n <> []) by (rewrite Eg; discriminate).
      eapply run_cons; [|constructor].
      unfold Sched.step. cbn [s_core s_ch owner]. rewrite nth_error_tab by lia. rewrite Nat.ltb_irrefl.
      unfold acore at 1. unfold a2a_code at 1. rewrite Eg at 1. cbn [app lstep c_prog c_busy].
      unfold acore at 1. rewrite Eg at 1. cbn [c_busy].
      assert (Hc : forall s, In s (grp n) -> mget (mbuild P (fun s d => if Nat.ltb d n then [] else contrib s d)) s n = [(grp n, pay s n)]).
      { intros s Hs. destruct (G_mem n s ltac:(lia) Hs) as (HsP & Es).
        rewrite mget_mbuild by lia. rewrite Nat.ltb_irrefl. unfold contrib. rewrite Es.
        rewrite inb_true; [reflexivity|]. apply G_self; [lia|exact Hgn]. }
      assert (Hr : a2a_ready (mkchans (ch E0) (mbuild P (fun s d => if Nat.ltb d n then [] else contrib s d))) n (grp n) = true).
      { apply forallb_forall. intros s Hs. cbn [cch]. rewrite (Hc s Hs). reflexivity. }
      rewrite Hr.
      assert (Hrv : a2a_recv (mkchans (ch E0) (mbuild P (fun s d => if Nat.ltb d n then [] else contrib s d)))
                 n (grp n) (grp n) (args n) (M n) = Ok (fin n)).
      { apply a2a_recv_ok.
        - exact Hc.
        - intros s sc sd rc rd Hin. apply (G_cnt n s sc sd rc rd ltac:(lia) Hin).
        - apply G_len. lia.
        - apply HM; [lia|exact Hgn]. }
      unfold acore at 1. cbn [c_mem]. rewrite Hrv. rewrite lupd_tab.
      f_equal. f_equal.
      * apply tab_ext. intros i Hi. unfold upd. destruct (Nat.eqb_spec i n) as [->|Hne].
        -- rewrite (proj2 (Nat.ltb_lt n (S n))) by lia. reflexivity.
        -- destruct (Nat.ltb_spec i n); destruct (Nat.ltb_spec i (S n)); auto; lia.
      * cbn [apply_eff ch cch]. f_equal. apply mbuild_ext. intros s d Hs Hd.
        rewrite mget_mbuild by assumption.
        destruct (Nat.eqb_spec d n) as [->|Hne].
        -- rewrite Nat.ltb_irrefl. rewrite (proj2 (Nat.ltb_lt n (S n))) by lia. cbn [andb].
           unfold contrib. rewrite <- (inb_sym s n) by assumption.
           destruct (inb n (grp s)); reflexivity.
        -- cbn [andb]. destruct (Nat.ltb_spec d n); destruct (Nat.ltb_spec d (S n)); auto; lia.
Qed.

Lemma triple_a2a (pre post : nat -> rmem -> Prop) :
  (forall r m, (r < P)%nat -> grp r = [] -> pre r m -> post r m) ->
  (forall r m, (r < P)%nat -> grp r <> [] -> pre r m ->
     a2a_payloads m (args r) = Some (map (pay r) (grp r)) /\
     exists m', seqf (a2a_writes r) m = Some m' /\ post r m') ->
  triple pre a2a_code post.
Proof.
  intros H0 H1 M rest sent HM.
  set (fin := fun r => match grp r with [] => M r | _ =>
                match seqf (a2a_writes r) (M r) with Some m => m | None => M r end end).
  destruct (a2a_starts rest M sent) with (n := P) as (l1 & L1); [|lia|].
  { intros r Hr Hg. apply (H1 r (M r) Hr Hg (HM r Hr)). }
  destruct (a2a_finishes rest M sent fin) with (n := P) as (l2 & L2).
  { intros r Hr Hg. unfold fin. rewrite Hg. reflexivity. }
  { intros r Hr Hg. destruct (H1 r (M r) Hr Hg (HM r Hr)) as (_ & m' & E & _).
    unfold fin. rewrite E. destruct (grp r); [congruence|reflexivity]. }
  { lia. }
  exists fin, (l1 ++ l2), sent. split.
  - intros r Hr. unfold fin. destruct (grp r) as [|g gt] eqn:Eg.
    + apply H0; auto.
    + destruct (H1 r (M r) Hr) as (_ & m' & E & Hp); [congruence|apply HM; exact Hr|]. rewrite E. exact Hp.
  - unfold quiet.
    match type of L1 with Sched.run _ _ _ ?l ?S => match type of L2 with Sched.run _ _ ?S1 ?l' ?S2 =>
      apply run_app with S1 end end.
    + replace (st (fun i => mkcore (a2a_code i ++ rest i) (M i) [] false (sent i))) with (st (acore rest M sent false)).
      2:{ apply st_ext. intros i _. unfold acore. f_equal. destruct (grp i); reflexivity. }
      match type of L1 with Sched.run _ _ _ _ ?S => match goal with |- Sched.run _ _ _ _ ?S' => replace S' with S; [exact L1|] end end.
      f_equal; [|f_equal].
      * apply tab_ext. intros i Hi. rewrite (proj2 (Nat.ltb_lt i P)) by exact Hi. reflexivity.
      * apply mbuild_ext. intros s d Hs Hd. rewrite (proj2 (Nat.ltb_lt s P)) by exact Hs. reflexivity.
    + match type of L2 with Sched.run _ _ _ _ ?S => match goal with |- Sched.run _ _ _ _ ?S' => replace S' with S; [exact L2|] end end.
      unfold st. f_equal; [|unfold empty_chans; cbn [ch]; f_equal].
      * apply tab_ext. intros i Hi. rewrite (proj2 (Nat.ltb_lt i P)) by exact Hi. reflexivity.
      * apply mbuild_ext. intros s d Hs Hd. rewrite (proj2 (Nat.ltb_lt d P)) by exact Hd. reflexivity.
Qed.
End A2A.

(** ** from one complete execution to all executions *)
Definition mems (M : nat -> rmem) : list rmem := tab P M.

Lemma quiet_terminal M sent : terminal P eager (quiet (fun _ => []) M sent).
Proof.
  intros a. unfold Sched.step, quiet, st. cbn [s_core s_ch].
  destruct (nth_error (tab P _) (owner a)) as [c|] eqn:E; [|reflexivity].
  apply nth_error_In in E. apply In_tab in E. destruct E as (i & Hi & ->).
  destruct a as [r|p q|r id]; cbn [lstep c_prog c_reqs]; try reflexivity.
  destruct (mget (ch E0) p q); reflexivity.
Qed.

Definition wf_code (code : nat -> list instr) : Prop := forall r, (r < P)%nat -> wf [] (code r).

Lemma wf_code_app c1 c2 : wf_code c1 -> wf_code c2 -> wf_code (fun r => c1 r ++ c2 r).
Proof. intros H1 H2 r Hr. apply wf_app; auto. Qed.

Lemma quiet_inv code M sent : wf_code code -> inv P (quiet code M sent).
Proof.
  intros H. unfold quiet, st. repeat split; cbn [s_core s_ch ch cch empty_chans].
  - apply tab_length.
  - intros s d Hsd. apply mget_mbuild_oob. exact Hsd.
  - intros s d Hsd. apply mget_mbuild_oob. exact Hsd.
  - apply In_tab in H0. destruct H0 as (i & Hi & ->). cbn. constructor.
  - apply In_tab in H0. destruct H0 as (i & Hi & ->). cbn. apply H. exact Hi.
Qed.

End Phases.
