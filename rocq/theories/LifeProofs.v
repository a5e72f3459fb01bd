(** LifeProofs.v : ownership reasoning for Life.v.  [has h bs]: the live blocks of [h] are exactly [bs]. *)

From Coq Require Import Permutation.
From Verif Require Import Base Setup3d Life.

Ltac spl := repeat match goal with |- _ /\ _ => split end.

Definition wf (h : heap) : Prop := NoDup (map b_id (h_live h)) /\ forall x, In x (h_live h) -> (b_id x < h_next h)%nat.
Definition has (h : heap) (bs : list blk) : Prop := wf h /\ Permutation (h_live h) bs.

Definition pids (ps : list ptr) : list nat := flat_map (fun p => match p with PTo b => [b] | _ => [] end) ps.
Definition defined (p : ptr) : Prop := p <> PUndef.
Definition is_to (p : ptr) : Prop := exists b, p = PTo b.
(** the pointers [ps] own exactly the blocks [bs] *)
Definition ownl (ps : list ptr) (bs : list blk) : Prop :=
  Forall defined ps /\ Permutation (pids ps) (map b_id bs) /\ Forall (fun x => b_own x = OLib) bs.

Definition dbytes1 (x : blk) : Z := match b_kind x with KData => b_bytes x | KObj => 0 end.
Definition dbytes (bs : list blk) : Z := fold_right (fun x s => dbytes1 x + s) 0 bs.

Lemma dbytes_app a b : dbytes (a ++ b) = dbytes a + dbytes b.
Proof. induction a as [|x t IH]; cbn [dbytes app fold_right]; [reflexivity|]. fold (dbytes (t ++ b)). fold (dbytes t). rewrite IH. lia. Qed.
Lemma dbytes_perm a b : Permutation a b -> dbytes a = dbytes b.
Proof.
  induction 1; cbn [dbytes fold_right]; repeat match goal with |- context[fold_right _ 0 ?l] => fold (dbytes l) end; try lia.
Qed.

Lemma has_perm h a b : Permutation a b -> has h a -> has h b.
Proof. intros P [W H]. split; [exact W|]. rewrite H. exact P. Qed.

Lemma has_nodup h a : has h a -> NoDup (map b_id a).
Proof. intros [[N _] P]. apply (Permutation_map b_id) in P. apply (Permutation_NoDup P N). Qed.

Lemma pids_app a b : pids (a ++ b) = pids a ++ pids b.
Proof. apply flat_map_app. Qed.

Lemma ownl_nil : ownl [] [].
Proof. repeat split; constructor. Qed.
Lemma ownl_app a b x y : ownl a x -> ownl b y -> ownl (a ++ b) (x ++ y).
Proof.
  intros (A & B & C) (A' & B' & C'). repeat split.
  - apply Forall_app; auto.
  - rewrite pids_app, map_app. apply Permutation_app; auto.
  - apply Forall_app; auto.
Qed.
Lemma ownl_perm_r a x y : Permutation x y -> ownl a x -> ownl a y.
Proof.
  intros P (A & B & C). repeat split; auto.
  - rewrite B. apply Permutation_map, P.
  - eapply Permutation_Forall; eauto.
Qed.
Lemma ownl_perm_l a b x : Permutation a b -> ownl a x -> ownl b x.
Proof.
  intros P (A & B & C). repeat split; auto.
  - eapply Permutation_Forall; eauto.
  - rewrite <- B. apply Permutation_sym. unfold pids. apply Permutation_flat_map, P.
Qed.
Lemma ownl_nulls k : ownl (repeat PNull k) [].
Proof.
  repeat split; [| |constructor].
  - apply Forall_forall. intros p H. apply repeat_spec in H. subst. discriminate.
  - replace (pids (repeat PNull k)) with (@nil nat); [constructor|]. induction k; simpl; auto.
Qed.
Lemma ownl_one b : b_own b = OLib -> ownl [PTo (b_id b)] [b].
Proof. intros H. repeat split; [repeat constructor; discriminate | reflexivity | repeat constructor; exact H]. Qed.

(** *** primitive steps *)

Lemma alloc_ok o k bytes h bs : has h bs ->
  exists b h', alloc o k bytes h = LOk (PTo (b_id b), h') /\ has h' (b :: bs) /\ b_own b = o /\ b_kind b = k /\ b_bytes b = bytes.
Proof.
  intros [[N L] P]. eexists (mkblk (h_next h) o k bytes), _. split; [reflexivity|]. repeat split; cbn.
  - constructor; [|exact N]. intros H. apply in_map_iff in H as (x & E & I). apply L in I. lia.
  - intros x [<-|I]; cbn; [lia|]. apply L in I. lia.
  - apply perm_skip, P.
Qed.

Lemma find_has h bs b : has h bs -> In b bs -> find_blk (b_id b) h = Some b.
Proof.
  intros [[N L] P] I. assert (In b (h_live h)) as J by (eapply Permutation_in; [apply Permutation_sym, P | exact I]).
  unfold find_blk. clear - N J. induction (h_live h) as [|x t IH]; [destruct J|]. cbn in *. inversion N; subst.
  destruct (Nat.eqb_spec (b_id x) (b_id b)) as [E|E].
  - destruct J as [->|J]; [reflexivity|]. exfalso. apply H1. rewrite E. apply in_map, J.
  - destruct J as [->|J]; [congruence|]. apply IH; auto.
Qed.

Lemma live_has h bs b : has h bs -> In b bs -> livep (PTo (b_id b)) h = true.
Proof. intros H I. cbn. rewrite (find_has _ _ _ H I). reflexivity. Qed.

Lemma live_In h bs b : has h bs -> livep (PTo b) h = true -> In b (map b_id bs).
Proof.
  intros [W P] E. cbn in E. destruct (find_blk b h) as [x|] eqn:F; [|discriminate]. apply find_some in F as [F G].
  apply Nat.eqb_eq in G. subst. apply in_map. eapply Permutation_in; eauto.
Qed.

Lemma filter_id_out (f : blk -> bool) l : (forall x, In x l -> f x = true) -> filter f l = l.
Proof. induction l as [|x t IH]; intros H; [reflexivity|]. cbn. rewrite H by (left; reflexivity). f_equal. apply IH. intros; apply H; right; auto. Qed.

Lemma Permutation_filter_blk (f : blk -> bool) a b : Permutation a b -> Permutation (filter f a) (filter f b).
Proof.
  induction 1; cbn.
  - constructor.
  - destruct (f x); [constructor; auto | auto].
  - destruct (f y), (f x); try reflexivity. constructor.
  - etransitivity; eauto.
Qed.

Lemma NoDup_filter_ids (f : blk -> bool) l : NoDup (map b_id l) -> NoDup (map b_id (filter f l)).
Proof.
  induction l as [|x t IH]; intros H; [constructor|]. cbn in *. inversion H; subst. destruct (f x); [|auto].
  cbn. constructor; [|auto]. intros I. apply H2. apply in_map_iff in I as (y & E & J). apply filter_In in J as [J _].
  apply in_map_iff. exists y; auto.
Qed.

Lemma free_ok h b bs : has h (b :: bs) -> exists h', free (PTo (b_id b)) h = LOk (tt, h') /\ has h' bs.
Proof.
  intros H. pose proof (live_has _ _ b H (or_introl eq_refl)) as E. pose proof (has_nodup _ _ H) as N.
  cbn in N. inversion N; subst. destruct H as [[N' L'] P].
  eexists. unfold free. rewrite E. split; [reflexivity|]. repeat split; cbn.
  - apply NoDup_filter_ids; auto.
  - intros x I. apply filter_In in I as [I _]. auto.
  - rewrite (Permutation_filter_blk _ _ _ P). cbn. rewrite Nat.eqb_refl. cbn. rewrite filter_id_out; [reflexivity|].
    intros x I. apply negb_true_iff, Nat.eqb_neq. intros E'. apply H2. rewrite <- E'. apply in_map, I.
Qed.

Definition free_all (ps : list ptr) : LM unit := seqM (map free ps).

Lemma in_ids_split b bs : In b (map b_id bs) -> exists x bs', b_id x = b /\ Permutation bs (x :: bs').
Proof.
  intros H. apply in_map_iff in H as (x & E & I). apply in_split in I as (l1 & l2 & ->).
  exists x, (l1 ++ l2). split; [exact E|]. apply Permutation_sym, Permutation_middle.
Qed.

Lemma free_all_ok ps bs rest h : ownl ps bs -> has h (bs ++ rest) -> exists h', free_all ps h = LOk (tt, h') /\ has h' rest.
Proof.
  revert bs h. induction ps as [|p ps IH]; intros bs h (D & P & L) H.
  - cbn in P. apply Permutation_nil in P. apply map_eq_nil in P. subst. exists h. split; [reflexivity | exact H].
  - inversion D; subst. destruct p as [| |b]; [exfalso; apply H2; reflexivity| |].
    + destruct (IH bs h) as (h' & E & H'); [repeat split; auto | exact H|]. exists h'. split; [|exact H'].
      unfold free_all in *. cbn. unfold lbind. exact E.
    + cbn in P. destruct (in_ids_split b bs) as (x & bs' & E & Q).
      { eapply Permutation_in; [exact P | left; reflexivity]. }
      subst b. assert (has h (x :: bs' ++ rest)) as H1.
      { eapply has_perm; [|exact H]. change (x :: bs' ++ rest) with ((x :: bs') ++ rest). apply Permutation_app_tail, Q. }
      destruct (free_ok _ _ _ H1) as (h1 & E1 & H1').
      destruct (IH bs' h1) as (h2 & E2 & H2'); [|exact H1'|].
      { repeat split; auto.
        - apply (Permutation_map b_id) in Q. cbn in Q. rewrite Q in P. apply Permutation_cons_inv in P. exact P.
        - apply (Permutation_Forall Q) in L. inversion L; auto. }
      exists h2. split; [|exact H2']. unfold free_all in *. cbn [map seqM]. unfold lbind. rewrite E1. exact E2.
Qed.

Lemma seqM_app a b h : seqM (a ++ b) h = (match seqM a h with LHalt s => LHalt s | LUB => LUB | LOk (_, h') => seqM b h' end).
Proof.
  revert h. induction a as [|m t IH]; intros h; [reflexivity|]. cbn [app seqM]. unfold lbind.
  destruct (m h) as [s| |[u h']]; auto.
Qed.
Lemma free_all_app a b h : free_all (a ++ b) h = (match free_all a h with LHalt s => LHalt s | LUB => LUB | LOk (_, h') => free_all b h' end).
Proof. unfold free_all. rewrite map_app. apply seqM_app. Qed.

(** lenient sfree is free *)
Lemma sfree_lenient m p h : sfree false m p h = free p h.
Proof. reflexivity. Qed.
Lemma seq_sfree_lenient m ps h : seqM (map (sfree false m) ps) h = free_all ps h.
Proof.
  revert h. induction ps as [|p t IH]; intros h; [reflexivity|]. unfold free_all in *. cbn [map seqM]. unfold lbind at 1 2.
  rewrite sfree_lenient. destruct (free p h) as [s| |[u h']]; auto.
Qed.

Lemma smalloc_ok mb bytes h bs : has h bs -> In mb bs ->
  exists p h' nb, smalloc (PTo (b_id mb)) bytes h = LOk (p, h') /\ has h' (nb ++ bs) /\ ownl [p] nb /\ dbytes nb = bytes.
Proof.
  intros H I. unfold smalloc, lbind, deref. rewrite (live_has _ _ _ H I). destruct (Z.eqb_spec bytes 0) as [->|N].
  - exists PNull, h, []. spl; auto. exact (ownl_nulls 1).
  - destruct (alloc_ok OLib KData bytes _ _ H) as (b & h' & E & H' & A & B & C). exists (PTo (b_id b)), h', [b].
    spl; auto; [apply ownl_one; auto | cbn; unfold dbytes1; rewrite B; lia].
Qed.

Lemma mapM_smalloc_ok mb l h bs : has h bs -> In mb bs ->
  exists ps h' nb, mapM (smalloc (PTo (b_id mb))) l h = LOk (ps, h') /\ has h' (nb ++ bs) /\ ownl ps nb /\
    dbytes nb = fold_right Z.add 0 l /\ List.length ps = List.length l.
Proof.
  revert h bs. induction l as [|a t IH]; intros h bs H I.
  - exists [], h, []. spl; auto. apply ownl_nil.
  - destruct (smalloc_ok mb a h bs H I) as (p & h1 & n1 & E1 & H1 & O1 & D1).
    destruct (IH h1 (n1 ++ bs) H1) as (ps & h2 & n2 & E2 & H2 & O2 & D2 & L2).
    { apply in_or_app. right. exact I. }
    exists (p :: ps), h2, (n1 ++ n2). spl.
    + cbn [mapM]. unfold lbind at 1. rewrite E1. cbn beta iota. unfold lbind at 1. rewrite E2. reflexivity.
    + eapply has_perm; [|exact H2]. rewrite !app_assoc. apply Permutation_app_tail, Permutation_app_comm.
    + change (p :: ps) with ([p] ++ ps). apply ownl_app; auto.
    + rewrite dbytes_app. cbn. lia.
    + cbn. lia.
Qed.

(** ** Remap objects *)

Definition robj_ptrs (r : robj) : list ptr :=
  [r_mem r; r_err r] ++ (if r_coll r =? 0 then [] else [r_comm r; r_pgroup r]) ++ r_arr r ++
  (if r_coll r =? 0 then [] else r_carr r) ++
  (match r_memflag r with Some mf => if mf =? 0 then [] else [r_send r; r_recv r] | None => [] end).

Lemma free_all_cons p ps h : free_all (p :: ps) h = match free p h with LHalt s => LHalt s | LUB => LUB | LOk (_, h') => free_all ps h' end.
Proof. reflexivity. Qed.

(** split off the next free of both sides *)
Ltac fstep := unfold lbind at 1; rewrite ?free_all_cons, ?sfree_lenient;
  match goal with |- context [free ?p ?h] => destruct (free p h) as [?| |[[] ?]]; [reflexivity | reflexivity |]; cbv beta iota end.
Ltac lstep := unfold lbind at 1; rewrite ?free_all_app, ?seq_sfree_lenient;
  match goal with |- context [free_all ?p ?h] => destruct (free_all p h) as [?| |[[] ?]]; [reflexivity | reflexivity |]; cbv beta iota end.

Lemma del_robj_eq r mf h : r_memflag r = Some mf -> Forall defined (robj_ptrs r) ->
  del_robj false r h = free_all (robj_ptrs r) h.
Proof.
  intros E D. unfold robj_ptrs in *. rewrite E in *. cbn [app]. unfold del_robj. rewrite E. fstep. fstep.
  assert (forall h3, (if mf =? 0 then lret tt else sfree false (r_mem r) (r_send r) ;;; sfree false (r_mem r) (r_recv r)) h3
    = free_all (if mf =? 0 then [] else [r_send r; r_recv r]) h3) as B.
  { intros h3. destruct (mf =? 0); [reflexivity|]. fstep. rewrite sfree_lenient, free_all_cons. match goal with |- context [free ?p ?hh] => destruct (free p hh) as [?| |[[] ?]]; reflexivity end. }
  destruct (r_coll r =? 0).
  - cbn [app] in *. unfold lbind at 1. unfold lret at 1. cbv beta iota. lstep. unfold lbind at 1. unfold lret at 1. cbv beta iota. apply B.
  - cbn [app] in *.
    assert (r_comm r <> PUndef) as NC by (inversion D as [|? ? _ D1]; inversion D1 as [|? ? _ D2]; inversion D2; auto).
    assert ((match r_comm r with PUndef => lub | _ => free (r_comm r) end) = free (r_comm r)) as -> by (destruct (r_comm r); [congruence | reflexivity | reflexivity]).
    unfold lbind at 1. fstep. rewrite sfree_lenient, free_all_cons. match goal with |- context [free ?p ?hh] => destruct (free p hh) as [?| |[[] ?]]; [reflexivity | reflexivity |] end.
    lstep. lstep. apply B.
Qed.

(** bytes of the arrays and buffers that a Remap object allocates *)
Definition rbytes (esize plsize rqsize : Z) (c : rcnt) (coll : bool) (mf : Z) : Z :=
  c_nsend c * (3 * 4 + plsize) + c_nrecv c * (4 * 4 + rqsize + plsize)
  + (if coll then 7 * (4 * c_ngroup c) else 0)
  + (if mf =? 0 then 0 else (c_ssize c + c_rsize c) * esize).

Definition rusage (esize plsize ptsize : Z) (c : rcnt) (coll : bool) (mf : Z) : Z :=
  let ns := if c_self c && negb coll then c_nsend c - 1 else c_nsend c in
  let nr := if c_self c && negb coll then c_nrecv c - 1 else c_nrecv c in
  ns * (3 * 4 + plsize) + nr * (4 * 4 + ptsize + plsize)
  + (if coll then 7 * (4 * c_ngroup c) else 0)
  + (if mf =? 0 then 0 else (c_ssize c + c_rsize c) * esize).

(** a freshly constructed remap object whose collective variable may have been set *)
Definition fresh_robj (mb eb : blk) (r : robj) : Prop :=
  r_mem r = PTo (b_id mb) /\ r_err r = PTo (b_id eb) /\ r_setup r = false /\ r_memflag r = None /\ r_comm r = PUndef /\
  r_arr r = repeat PNull 10 /\ r_send r = PNull /\ r_recv r = PNull.

Lemma new_robj_ok h bs : has h bs -> exists r h' mb eb, new_robj h = LOk (r, h') /\ has h' (eb :: mb :: bs) /\
  fresh_robj mb eb r /\ b_own mb = OLib /\ b_own eb = OLib /\ b_kind mb = KObj /\ b_kind eb = KObj.
Proof.
  intros H. destruct (alloc_ok OLib KObj 0 _ _ H) as (mb & h1 & E1 & H1 & A1 & B1 & _).
  destruct (alloc_ok OLib KObj 0 _ _ H1) as (eb & h2 & E2 & H2 & A2 & B2 & _).
  eexists _, h2, mb, eb. spl; [unfold new_robj, lbind; rewrite E1, E2; reflexivity | exact H2 | unfold fresh_robj; spl; reflexivity | auto..].
Qed.

Section RemapSetup.
Variable esize plsize rqsize ptsize nprocs xsize : Z.

Lemma perm_mid {X} (a b c : list X) : Permutation (a ++ b ++ c) (b ++ a ++ c).
Proof. rewrite !app_assoc. apply Permutation_app_tail, Permutation_app_comm. Qed.

(** conditional smalloc *)
Lemma if_smalloc_ok (q : bool) mb bytes (old : ptr) h bs : has h bs -> In mb bs ->
  exists p h' nb, (if q then smalloc (PTo (b_id mb)) bytes else lret old) h = LOk (p, h') /\ has h' (nb ++ bs) /\
    (if q then ownl [p] nb /\ dbytes nb = bytes else p = old /\ nb = [] /\ h' = h).
Proof.
  intros H I. destruct q.
  - destruct (smalloc_ok mb bytes h bs H I) as (p & h' & nb & E & H' & O & D). exists p, h', nb. auto.
  - exists old, h, []. spl; auto.
Qed.

Lemma free_own_ok p nb bs h : ownl [p] nb -> has h (nb ++ bs) -> exists h', free p h = LOk (tt, h') /\ has h' bs.
Proof.
  intros O H. destruct (free_all_ok [p] nb bs h O H) as (h' & E & H'). exists h'. split; [|exact H'].
  rewrite free_all_cons in E. destruct (free p h) as [s| |[[] h1]]; [discriminate | discriminate |]. exact E.
Qed.

Lemma setup_robj_ok mb eb c mf r h bs : fresh_robj mb eb r -> has h bs -> In mb bs ->
  exists r' h' nb, setup_robj false esize plsize rqsize ptsize nprocs xsize c mf r h = LOk (r', h') /\ has h' (nb ++ bs) /\
    r_mem r' = r_mem r /\ r_err r' = r_err r /\ r_coll r' = r_coll r /\
    r_memflag r' = Some mf /\ r_setup r' = true /\ r_need r' = (c_ssize c, c_rsize c) /\
    ownl (skipn 2 (robj_ptrs r')) nb /\
    dbytes nb = rbytes esize plsize rqsize c (negb (r_coll r =? 0)) mf /\
    r_usage r' = rusage esize plsize ptsize c (negb (r_coll r =? 0)) mf.
Proof.
  intros (Em & Ee & _ & _ & Ec & Ea & Es & Er) H I. set (coll := negb (r_coll r =? 0)).
  unfold setup_robj. fold coll. rewrite Em, Ea, Es, Er.
  destruct (smalloc_ok mb (nprocs * xsize) h bs H I) as (ia & h1 & n1 & E1 & H1 & O1 & D1).
  unfold lbind at 1. rewrite E1. cbv beta iota. assert (In mb (n1 ++ bs)) as I1 by (apply in_or_app; auto).
  destruct (smalloc_ok mb (nprocs * xsize) h1 _ H1 I1) as (oa & h2 & n2 & E2 & H2 & O2 & D2).
  unfold lbind at 1. rewrite E2. cbv beta iota. assert (In mb (n2 ++ n1 ++ bs)) as I2 by (apply in_or_app; auto).
  (* send arrays *)
  assert (exists sa h' nb, (if c_nsend c =? 0 then lret (firstn 4 (repeat PNull 10))
         else mapM (smalloc (PTo (b_id mb))) [c_nsend c * 4; c_nsend c * 4; c_nsend c * 4; c_nsend c * plsize]) h2 = LOk (sa, h') /\
         has h' (nb ++ n2 ++ n1 ++ bs) /\ ownl sa nb /\ dbytes nb = c_nsend c * (3 * 4 + plsize)) as (sa & h3 & n3 & E3 & H3 & O3 & D3).
  { destruct (Z.eqb_spec (c_nsend c) 0) as [Z0|Z0].
    - exists (repeat PNull 4), h2, []. split; [reflexivity|]. split; [exact H2|]. split; [apply ownl_nulls|]. cbn. rewrite Z0. reflexivity.
    - destruct (mapM_smalloc_ok mb [c_nsend c * 4; c_nsend c * 4; c_nsend c * 4; c_nsend c * plsize] h2 _ H2 I2) as (ps & h' & nb & E & H' & O & D & _).
      exists ps, h', nb. spl; auto. rewrite D. cbn [fold_right repeat]. lia. }
  unfold lbind at 1. rewrite E3. cbv beta iota. assert (In mb (n3 ++ n2 ++ n1 ++ bs)) as I3 by (apply in_or_app; auto).
  assert (exists ra h' nb, (if c_nrecv c =? 0 then lret (skipn 4 (repeat PNull 10))
         else mapM (smalloc (PTo (b_id mb))) [c_nrecv c * 4; c_nrecv c * 4; c_nrecv c * 4; c_nrecv c * 4; c_nrecv c * rqsize; c_nrecv c * plsize]) h3 = LOk (ra, h') /\
         has h' (nb ++ n3 ++ n2 ++ n1 ++ bs) /\ ownl ra nb /\ dbytes nb = c_nrecv c * (4 * 4 + rqsize + plsize)) as (ra & h4 & n4 & E4 & H4 & O4 & D4).
  { destruct (Z.eqb_spec (c_nrecv c) 0) as [Z0|Z0].
    - exists (repeat PNull 6), h3, []. split; [reflexivity|]. split; [exact H3|]. split; [apply ownl_nulls|]. cbn. rewrite Z0. reflexivity.
    - destruct (mapM_smalloc_ok mb [c_nrecv c * 4; c_nrecv c * 4; c_nrecv c * 4; c_nrecv c * 4; c_nrecv c * rqsize; c_nrecv c * plsize] h3 _ H3 I3) as (ps & h' & nb & E & H' & O & D & _).
      exists ps, h', nb. spl; auto. rewrite D. cbn [fold_right repeat]. lia. }
  unfold lbind at 1. rewrite E4. cbv beta iota zeta. assert (In mb (n4 ++ n3 ++ n2 ++ n1 ++ bs)) as I4 by (apply in_or_app; auto).
  (* pflag, pgroup, realloc, free pflag, communicator: as one net effect *)
  set (K := n4 ++ n3 ++ n2 ++ n1 ++ bs) in *.
  assert (forall (k : ptr -> ptr -> LM robj),
    exists pg cm h' nb, (pflag <~ (if coll then smalloc (PTo (b_id mb)) (nprocs * 4) else lret PNull) ;;
      pgroup <~ (if coll then smalloc (PTo (b_id mb)) (nprocs * 4) else lret (r_pgroup r)) ;;
      pgroup <~ (if coll then free pgroup ;;; smalloc (PTo (b_id mb)) (c_ngroup c * 4) else lret pgroup) ;;
      (if coll then sfree false (PTo (b_id mb)) pflag else lret tt) ;;;
      comm <~ (if coll then (if c_ngroup c =? 0 then lret PNull else alloc OLib KObj 0) else lret (r_comm r)) ;; k pgroup comm) h4
      = k pg cm h' /\ has h' (nb ++ K) /\ ownl (if coll then [cm; pg] else []) nb /\ dbytes nb = (if coll then c_ngroup c * 4 else 0)) as STEP.
  { intros k. destruct coll.
    - destruct (smalloc_ok mb (nprocs * 4) h4 _ H4 I4) as (pf & g1 & m1 & F1 & G1 & P1 & _).
      destruct (smalloc_ok mb (nprocs * 4) g1 (m1 ++ K) G1 ltac:(apply in_or_app; auto)) as (pg0 & g2 & m2 & F2 & G2 & P2 & _).
      destruct (free_own_ok pg0 m2 _ g2 P2 G2) as (g3 & F3 & G3).
      destruct (smalloc_ok mb (c_ngroup c * 4) g3 (m1 ++ K) G3 ltac:(apply in_or_app; auto)) as (pg & g4 & m4 & F4 & G4 & P4 & Q4).
      destruct (free_own_ok pf m1 (m4 ++ K) g4 P1) as (g5 & F5 & G5).
      { eapply has_perm; [|exact G4]. apply perm_mid. }
      assert (exists cm g6 m6, (if c_ngroup c =? 0 then lret PNull else alloc OLib KObj 0) g5 = LOk (cm, g6) /\ has g6 (m6 ++ m4 ++ K) /\ ownl [cm] m6 /\ dbytes m6 = 0)
        as (cm & g6 & m6 & F6 & G6 & P6 & Q6).
      { destruct (c_ngroup c =? 0).
        - exists PNull, g5, []. spl; auto. exact (ownl_nulls 1).
        - destruct (alloc_ok OLib KObj 0 _ _ G5) as (b & g & A & B & C & D & _). exists (PTo (b_id b)), g, [b].
          split; [exact A|]. split; [exact B|]. split; [apply ownl_one; auto|]. cbn. unfold dbytes1. rewrite D. reflexivity. }
      exists pg, cm, g6, (m6 ++ m4). split; [|split; [|split]].
      + unfold lbind. rewrite F1. rewrite F2. rewrite F3. rewrite F4. rewrite sfree_lenient. rewrite F5. rewrite F6. reflexivity.
      + rewrite <- app_assoc. exact G6.
      + change [cm; pg] with ([cm] ++ [pg]). apply ownl_app; auto.
      + rewrite dbytes_app. lia.
    - exists (r_pgroup r), (r_comm r), h4, []. spl; auto; apply ownl_nil. }
  specialize (STEP (fun pgroup comm =>
    sb <~ (if negb (mf =? 0) && negb (c_ssize c =? 0) then smalloc (PTo (b_id mb)) (c_ssize c * esize) else lret PNull) ;;
    rb <~ (if negb (mf =? 0) && negb (c_rsize c =? 0) then smalloc (PTo (b_id mb)) (c_rsize c * esize) else lret PNull) ;;
    ca <~ (if coll then mapM (smalloc (PTo (b_id mb))) (repeat (4 * c_ngroup c) 6) else lret (r_carr r)) ;;
    sfree false (PTo (b_id mb)) ia ;;; sfree false (PTo (b_id mb)) oa ;;;
    lret (mkrobj (PTo (b_id mb)) (r_err r) true (r_coll r) (Some mf) comm pgroup (sa ++ ra) ca sb rb (c_ssize c, c_rsize c)
      (3 * (if c_self c && negb coll then c_nsend c - 1 else c_nsend c) * 4 + (if c_self c && negb coll then c_nsend c - 1 else c_nsend c) * plsize
       + 4 * (if c_self c && negb coll then c_nrecv c - 1 else c_nrecv c) * 4 + (if c_self c && negb coll then c_nrecv c - 1 else c_nrecv c) * ptsize
       + (if c_self c && negb coll then c_nrecv c - 1 else c_nrecv c) * plsize
               + (if mf =? 0 then 0 else c_ssize c * esize + c_rsize c * esize)
               + (if coll then 7 * c_ngroup c * 4 else 0))))).
  destruct STEP as (pg & cm & h5 & n5 & E5 & H5 & O5 & D5).
  rewrite E5. clear E5. assert (In mb (n5 ++ K)) as I5 by (apply in_or_app; auto).
  assert (forall sz hh bb, has hh bb -> In mb bb -> exists p h' nb,
     (if negb (mf =? 0) && negb (sz =? 0) then smalloc (PTo (b_id mb)) (sz * esize) else lret PNull) hh = LOk (p, h') /\ has h' (nb ++ bb) /\
     ownl [p] nb /\ (mf = 0 -> p = PNull /\ nb = []) /\ dbytes nb = (if mf =? 0 then 0 else sz * esize)) as BUF.
  { intros sz hh bb Hh Ih. destruct (if_smalloc_ok (negb (mf =? 0) && negb (sz =? 0)) mb (sz * esize) PNull hh bb Hh Ih) as (p & h' & nb & E & H' & O).
    exists p, h', nb. split; [exact E|]. split; [exact H'|]. destruct (Z.eqb_spec mf 0) as [M|M]; cbn [negb andb] in O.
    - destruct O as (-> & -> & _). spl; auto. exact (ownl_nulls 1).
    - destruct (Z.eqb_spec sz 0) as [S|S]; cbn [negb] in O.
      + destruct O as (-> & -> & _). split; [exact (ownl_nulls 1)|]. split; [auto|]. rewrite S. reflexivity.
      + destruct O as (O & D). split; [exact O|]. split; [intros; lia | exact D]. }
  destruct (BUF (c_ssize c) h5 _ H5 I5) as (sb & h6 & n6 & E6 & H6 & O6 & Z6 & D6).
  unfold lbind at 1. rewrite E6. cbv beta iota. assert (In mb (n6 ++ n5 ++ K)) as I6 by (apply in_or_app; auto).
  destruct (BUF (c_rsize c) h6 _ H6 I6) as (rb & h7 & n7 & E7 & H7 & O7 & Z7 & D7).
  unfold lbind at 1. rewrite E7. cbv beta iota. assert (In mb (n7 ++ n6 ++ n5 ++ K)) as I7 by (apply in_or_app; auto).
  assert (exists ca h' nb, (if coll then mapM (smalloc (PTo (b_id mb))) (repeat (4 * c_ngroup c) 6) else lret (r_carr r)) h7 = LOk (ca, h') /\
     has h' (nb ++ n7 ++ n6 ++ n5 ++ K) /\ ownl (if coll then ca else []) nb /\ dbytes nb = (if coll then 6 * (4 * c_ngroup c) else 0)) as (ca & h8 & n8 & E8 & H8 & O8 & D8).
  { destruct coll.
    - destruct (mapM_smalloc_ok mb (repeat (4 * c_ngroup c) 6) h7 _ H7 I7) as (ps & h' & nb & E & H' & O & D & _). exists ps, h', nb.
      spl; auto. rewrite D. cbn [fold_right repeat]. lia.
    - exists (r_carr r), h7, []. spl; auto; apply ownl_nil. }
  unfold lbind at 1. rewrite E8. cbv beta iota.
  set (nb := n8 ++ n7 ++ n6 ++ n5 ++ n4 ++ n3).
  assert (has h8 (n1 ++ n2 ++ nb ++ bs)) as H8'.
  { eapply has_perm; [|exact H8]. unfold nb, K. rewrite <- !app_assoc.
    transitivity (n1 ++ n8 ++ n7 ++ n6 ++ n5 ++ n4 ++ n3 ++ n2 ++ bs).
    - replace (n8 ++ n7 ++ n6 ++ n5 ++ n4 ++ n3 ++ n2 ++ n1 ++ bs) with ((n8 ++ n7 ++ n6 ++ n5 ++ n4 ++ n3 ++ n2) ++ n1 ++ bs) by (rewrite <- !app_assoc; reflexivity).
      rewrite perm_mid. rewrite <- !app_assoc. reflexivity.
    - apply Permutation_app_head.
      replace (n8 ++ n7 ++ n6 ++ n5 ++ n4 ++ n3 ++ n2 ++ bs) with ((n8 ++ n7 ++ n6 ++ n5 ++ n4 ++ n3) ++ n2 ++ bs) by (rewrite <- !app_assoc; reflexivity).
      rewrite perm_mid. rewrite <- !app_assoc. reflexivity. }
  destruct (free_own_ok ia n1 _ h8 O1 H8') as (h9 & E9 & H9).
  destruct (free_own_ok oa n2 _ h9 O2 H9) as (h10 & E10 & H10).
  unfold lbind at 1. rewrite sfree_lenient, E9. unfold lbind at 1. rewrite sfree_lenient, E10. unfold lret.
  eexists _, h10, nb. split; [reflexivity|]. split; [exact H10|]. cbn [r_mem r_err r_coll r_memflag r_setup r_need r_usage].
  repeat (split; [auto; fail || reflexivity|]). split; [|split].
  - unfold robj_ptrs. cbn [r_mem r_err r_coll r_memflag r_comm r_pgroup r_arr r_carr r_send r_recv app skipn].
    assert (ownl ((if coll then [cm; pg] else []) ++ (sa ++ ra) ++ (if coll then ca else []) ++ (if mf =? 0 then [] else [sb] ++ [rb])) (n5 ++ (n3 ++ n4) ++ n8 ++ (n6 ++ n7))) as OW.
    { apply ownl_app; [exact O5|]. apply ownl_app; [apply ownl_app; assumption|]. apply ownl_app; [exact O8|].
      destruct (Z.eqb_spec mf 0) as [M|M]; [|apply ownl_app; assumption]. destruct (Z6 M) as [_ ->], (Z7 M) as [_ ->]. apply ownl_nil. }
    assert (Permutation (n5 ++ (n3 ++ n4) ++ n8 ++ n6 ++ n7) nb) as PN.
    { unfold nb. rewrite <- !app_assoc.
      transitivity (n8 ++ n5 ++ n3 ++ n4 ++ n6 ++ n7).
      - replace (n5 ++ n3 ++ n4 ++ n8 ++ n6 ++ n7) with ((n5 ++ n3 ++ n4) ++ n8 ++ n6 ++ n7) by (rewrite <- !app_assoc; reflexivity).
        rewrite perm_mid. rewrite <- !app_assoc. reflexivity.
      - apply Permutation_app_head. transitivity (n7 ++ n5 ++ n3 ++ n4 ++ n6).
        + replace (n5 ++ n3 ++ n4 ++ n6 ++ n7) with ((n5 ++ n3 ++ n4 ++ n6) ++ n7) by (rewrite <- !app_assoc; reflexivity). apply Permutation_app_comm.
        + apply Permutation_app_head. transitivity (n6 ++ n5 ++ n3 ++ n4).
          * replace (n5 ++ n3 ++ n4 ++ n6) with ((n5 ++ n3 ++ n4) ++ n6) by (rewrite <- !app_assoc; reflexivity). apply Permutation_app_comm.
          * do 2 apply Permutation_app_head. apply Permutation_app_comm. }
    apply (ownl_perm_r _ _ _ PN) in OW. unfold coll in OW. destruct (r_coll r =? 0); cbn [negb app] in OW; exact OW.
  - unfold nb. rewrite !dbytes_app, D3, D4, D5, D6, D7, D8. unfold rbytes. fold coll. destruct coll, (mf =? 0); lia.
  - unfold rusage. fold coll. destruct coll, (mf =? 0), (c_self c); cbn [negb andb]; lia.
Qed.

(** make_robj: a Remap object inside an FFT object *)
Definition pair_ptrs (x : ptr * robj) : list ptr := robj_ptrs (snd x) ++ [fst x].

Lemma make_robj_ok k h bs : has h bs ->
  exists x h' nb, make_robj false esize plsize rqsize ptsize nprocs xsize k h = LOk (x, h') /\ has h' (nb ++ bs) /\
    ownl (pair_ptrs x) nb /\ is_to (fst x) /\ r_memflag (snd x) = Some 0 /\ r_setup (snd x) = true /\ r_need (snd x) = (c_ssize (snd k), c_rsize (snd k)) /\
    dbytes nb = rbytes esize plsize rqsize (snd k) (negb (fst k =? 0)) 0 /\
    r_usage (snd x) = rusage esize plsize ptsize (snd k) (negb (fst k =? 0)) 0.
Proof.
  intros H. destruct (alloc_ok OLib KObj 0 _ _ H) as (pb & h1 & E1 & H1 & A1 & B1 & _).
  destruct (new_robj_ok _ _ H1) as (r & h2 & mb & eb & E2 & H2 & F & Am & Ae & Bm & Be).
  set (r0 := mkrobj (r_mem r) (r_err r) (r_setup r) (fst k) (r_memflag r) (r_comm r) (r_pgroup r) (r_arr r) (r_carr r)
                  (r_send r) (r_recv r) (r_need r) (r_usage r)).
  assert (fresh_robj mb eb r0) as F0 by (destruct F as (? & ? & ? & ? & ? & ? & ? & ?); unfold fresh_robj; spl; assumption).
  destruct (setup_robj_ok mb eb (snd k) 0 r0 h2 _ F0 H2 ltac:(right; left; reflexivity))
    as (r' & h3 & nb & E3 & H3 & Rm & Re & Rc & Rf & Rs & Rn & O & D & U).
  exists (PTo (b_id pb), r'), h3, (nb ++ [eb; mb; pb]). cbn [fst snd]. spl; auto.
  - unfold make_robj, lbind. rewrite E1, E2. fold r0. rewrite E3. reflexivity.
  - rewrite <- app_assoc. exact H3.
  - unfold pair_ptrs. cbn [fst snd].
    apply (ownl_perm_l (skipn 2 (robj_ptrs r') ++ [r_err r'; r_mem r'; PTo (b_id pb)])).
    + destruct F0 as (M & E & _). rewrite Rm, Re, M, E. unfold robj_ptrs. rewrite Rm, Re, M, E. cbn [app skipn].
      match goal with |- Permutation (?l ++ _) _ => remember l as L end.
      apply Permutation_sym. change (?a :: ?b :: L ++ ?t) with ([a; b] ++ L ++ t). 
      transitivity (L ++ [PTo (b_id mb); PTo (b_id eb)] ++ [PTo (b_id pb)]).
      * change (PTo (b_id mb) :: PTo (b_id eb) :: L ++ [PTo (b_id pb)]) with ([PTo (b_id mb); PTo (b_id eb)] ++ L ++ [PTo (b_id pb)]). apply perm_mid.
      * apply Permutation_app_head. cbn [app]. apply perm_swap.
    + apply ownl_app; [exact O|]. destruct F0 as (M & E & _). rewrite Rm, Re, M, E.
      change [PTo (b_id eb); PTo (b_id mb); PTo (b_id pb)] with ([PTo (b_id eb)] ++ [PTo (b_id mb)] ++ [PTo (b_id pb)]).
      change [eb; mb; pb] with ([eb] ++ [mb] ++ [pb]). repeat apply ownl_app; apply ownl_one; assumption.
  - eexists; reflexivity.
  - rewrite dbytes_app, D. cbn. unfold dbytes1. rewrite Be, Bm, B1. cbn. lia.
Qed.
End RemapSetup.
