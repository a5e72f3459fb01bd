(** TuneProofs.v : what tune() does to the heap and in which order it calls the communicating functions.
    The numeric part (which settings win) is reduced to the pure function [tune_num]. *)

From Coq Require Import QArith Permutation.
From Verif Require Import Base Setup3d Life LifeProofs LifeFft LifeObj Tune.
Open Scope Z_scope.

(** ** the three outcomes of a run: error [H], undefined [U], result [Q] *)
Definition twp {X} (m : TM X) (s : tst) (H : string -> Prop) (U : Prop) (Q : X -> tst -> Prop) : Prop :=
  match m s with LHalt e => H e | LUB => U | LOk (x, s') => Q x s' end.

Lemma twp_bind {X Y} (m : TM X) (k : X -> TM Y) s H U Q R :
  twp m s H U R -> (forall x s', R x s' -> twp (k x) s' H U Q) -> twp (tbind m k) s H U Q.
Proof. unfold twp, tbind. intros A B. destruct (m s) as [e| |[x s']]; auto. apply B. exact A. Qed.
Lemma twp_mono {X} (m : TM X) s H U (Q R : X -> tst -> Prop) : twp m s H U R -> (forall x s', R x s' -> Q x s') -> twp m s H U Q.
Proof. unfold twp. destruct (m s) as [e| |[x s']]; auto. Qed.
Lemma twp_ret {X} (x : X) s H U (Q : X -> tst -> Prop) : Q x s -> twp (tret x) s H U Q.
Proof. auto. Qed.

(** ** the calls a trial makes *)
Definition ev_both (nper flag : Z) (f : Z -> tevent) : list tevent :=
  List.concat (repeat (if flag =? 0 then [f 1; f (-1)] else [f flag]) (Z.to_nat nper)).
Definition ev_trial (dim3 : bool) (nper flag tflag : Z) : list tevent :=
  TBarrier :: ev_both nper flag TCompute ++ [TBarrier] ++
  (if tflag =? 0 then [] else
     ev_both nper flag TOnly1d ++ [TBarrier] ++ ev_both nper flag TOnlyRemaps ++ [TBarrier] ++
     List.concat (map (fun w => ev_both nper flag (fun f => TOneRemap f w) ++ [TBarrier]) (whichs dim3))).

(** ** pure part *)
Definition tres : Type := (Q * Q * Q * list Q)%type.
Definition num_trial (s : settings) (r : tres) (n : tobj) : option tobj :=
  n1 <- record_flags (n_trial n) s n; record_times (n_trial n1) r n1.
Fixpoint ce_num (ces : list (Z * Z)) (rs : list tres) (n : tobj) : option tobj :=
  match ces, rs with
  | (c, e) :: t, r :: rs =>
    n <- num_trial (mkset c e pdefault) r n;
    cur <- zget (n_tfft n) (n_trial n);
    let n := if qlt cur (n_besttime n) then set_best cur c e (n_pbest n) n else n in
    ce_num t rs (set_trial (n_trial n + 1) n)
  | _, _ => Some n
  end.
Fixpoint p_num (ps : list Z) (rs : list tres) (n : tobj) : option tobj :=
  match ps, rs with
  | p :: t, r :: rs =>
    n <- num_trial (mkset (n_cbest n) (n_ebest n) p) r n;
    cur <- zget (n_tfft n) (n_trial n);
    let n := if qlt cur (n_besttime n) then set_best cur (n_cbest n) (n_ebest n) p n else n in
    p_num t rs (set_trial (n_trial n + 1) n)
  | _, _ => Some n
  end.

Definition tlen (n : tobj) : Prop :=
  zlen (n_cflags n) = 10 /\ zlen (n_eflags n) = 10 /\ zlen (n_pflags n) = 10 /\
  zlen (n_tfft n) = 10 /\ zlen (n_t1d n) = 10 /\ zlen (n_tremap n) = 10 /\ Forall (fun l => zlen l = 10) (n_tremaps n).

Lemma zset_ok {A} (l : list A) i v : 0 <= i < zlen l -> exists l', zset l i v = Some l' /\ zlen l' = zlen l.
Proof.
  intros I. destruct (zset_Some l i v I) as (l' & E). exists l'. split; [exact E|]. apply zset_len in E. exact E.
Qed.

Lemma set_all_ok ls i vs : Forall (fun l : list Q => zlen l = 10) ls -> 0 <= i < 10 -> (List.length ls <= List.length vs)%nat ->
  exists ls', set_all ls i vs = Some ls' /\ Forall (fun l => zlen l = 10) ls' /\ List.length ls' = List.length ls.
Proof.
  revert vs. induction ls as [|l t IH]; intros vs F I L; [exists []; cbn; auto|]. destruct vs as [|v vs]; [cbn in L; lia|].
  inversion F; subst. destruct (zset_ok l i v) as (l' & E & Z'); [lia|]. destruct (IH vs) as (t' & E' & F' & L'); auto; [cbn in L; lia|].
  exists (l' :: t'). cbn [set_all]. rewrite E, E'. cbn. split; [reflexivity|]. split; [constructor; [lia | exact F'] | lia].
Qed.

Section TuneProofs.
Variable esize plsize rqsize ptsize nprocs xsize : Z.
Hypothesis esize_pos : 0 < esize.
Variable dim3 : bool.
Variable setup_fn : settings -> sres shape.
Variable clk : nat -> Q.
Hypothesis shapes : forall s sh, setup_fn s = SOk sh -> shape_len dim3 sh = true.

(** needs within the sizes *)
Definition shape_fits (sh : shape) : bool :=
  let '(fs, ss, rs) := s_sizes sh in
  (0 <=? fs) && forallb (fun c => (0 <=? c_ssize (snd c)) && (c_ssize (snd c) <=? ss) && (0 <=? c_rsize (snd c)) && (c_rsize (snd c) <=? rs)) (all_cnts sh).

Variable P : settings -> Prop.
Variable H : string -> Prop.
Variable U : Prop.
Hypothesis HE : forall s e, P s -> setup_fn s = SErr e -> H e.
Hypothesis HU : forall s, P s -> setup_fn s = SUB -> U.
Hypothesis HF : forall s sh, P s -> setup_fn s = SOk sh -> shape_fits sh = false -> U.

Local Notation wp m s Q := (twp m s H U Q).
Local Notation t_setup' := (t_setup false esize plsize rqsize ptsize nprocs xsize dim3 setup_fn).

Lemma fits_after sh mf s o : after_setup sh mf s o -> shape_fits sh = true -> fits o /\ 0 <= fst (fst (o_sizes o)).
Proof using Type.
  intros (_ & _ & _ & _ & SZ & _ & N) F. unfold shape_fits in F. unfold fits. rewrite SZ. destruct (s_sizes sh) as [[fs ss] rs].
  apply andb_prop in F as [F0 F]. split; [|apply Z.leb_le, F0]. rewrite forallb_forall in F. apply Forall_forall. intros x I.
  assert (In (r_need (snd x)) (map (fun c => (c_ssize (snd c), c_rsize (snd c))) (all_cnts sh))) as J.
  { rewrite <- N. apply (in_map (fun x => r_need (snd x))), I. }
  apply in_map_iff in J as (c & E & J). specialize (F c J). rewrite <- E. cbn [fst snd]. repeat (apply andb_prop in F as [F ?]).
  rewrite !Z.leb_le in *. lia.
Qed.

(** no error report from the transform functions *)
Lemma seqM_nohalt l h e : (forall m, In m l -> forall hh ee, m hh <> LHalt ee) -> seqM l h <> LHalt e.
Proof using Type.
  revert h. induction l as [|m t IH]; intros h A; [discriminate|]. cbn [seqM]. unfold lbind. destruct (m h) as [s| |[x h1]] eqn:E; try discriminate.
  - exfalso. eapply A; [left; reflexivity | exact E].
  - apply IH. intros; apply A; right; auto.
Qed.
Lemma deref_nohalt p h e : deref p h <> LHalt e.
Proof using Type. unfold deref. destruct (livep p h); discriminate. Qed.
Lemma use_buf_nohalt n p h e : use_buf esize n p h <> LHalt e.
Proof using Type. unfold use_buf. destruct (n =? 0); [discriminate|]. destruct p; try discriminate. destruct (find_blk b h); [|discriminate]. destruct (n * esize <=? b_bytes b0); discriminate. Qed.
Lemma lbind_nohalt {X Y} (m : LM X) (k : X -> LM Y) h e : (forall hh ee, m hh <> LHalt ee) -> (forall x hh ee, k x hh <> LHalt ee) -> lbind m k h <> LHalt e.
Proof using Type. intros A B. unfold lbind. destruct (m h) as [s| |[x h1]] eqn:E; try discriminate; [exfalso; exact (A _ _ E) | apply B]. Qed.
Lemma remaps_nohalt o us ur h e : (forall x, In x (flat_map oremap_pairs (o_remaps o)) -> pair_set x) -> seqM (map (use_remap esize us ur) (o_remaps o)) h <> LHalt e.
Proof using Type.
  intros A. apply seqM_nohalt. intros m I. apply in_map_iff in I as (r & <- & I).
  assert (forall x, In x (oremap_pairs r) -> forall hh ee, use_pair esize us ur x hh <> LHalt ee) as UP.
  { intros x J hh ee. assert (pair_set x) as [M S] by (apply A, in_flat_map; exists r; auto).
    unfold use_pair. apply lbind_nohalt; [apply deref_nohalt|]. intros _ h2 e2. apply lbind_nohalt; [|discriminate]. intros h3 e3.
    unfold remap_robj. rewrite S, M. cbn [negb]. apply lbind_nohalt; [apply use_buf_nohalt|]. intros _ h4 e4. apply lbind_nohalt; [apply use_buf_nohalt|]. discriminate. }
  intros hh ee. destruct r as [q|]; [|discriminate]. unfold use_remap. apply lbind_nohalt; [apply deref_nohalt|]. intros _ h2 e2.
  apply lbind_nohalt; [apply UP; left; reflexivity|]. intros _ h3 e3. unfold oremap_pairs, pairs_of_struct in UP. destruct (rs_extra q); [|discriminate].
  apply UP. right; left; reflexivity.
Qed.
Lemma f1ds_nohalt l h e : seqM (map use_f1d l) h <> LHalt e.
Proof using Type.
  apply seqM_nohalt. intros m I. apply in_map_iff in I as (f & <- & _). intros hh ee. destruct f as [q|]; [|discriminate]. unfold use_f1d.
  apply lbind_nohalt; [apply deref_nohalt|]. intros _ h2 e2. apply lbind_nohalt; [apply deref_nohalt|]. intros _ h3 e3. apply deref_nohalt.
Qed.

(** ** heap state of tune: object blocks, data block, everything else *)
Definition dinv (d : dbuf) (dl : list blk) : Prop := ownl [fst d] dl /\ 0 <= snd d /\ buf esize dl (2 * snd d) (fst d).

Lemma buf_incl a b n p : incl a b -> buf esize a n p -> buf esize b n p.
Proof using Type. intros I [->|(x & ? & ? & ?)]; [left; reflexivity | right; exists x; auto]. Qed.

(** an object that is set up with library buffers, ready for a trial *)
Definition ready (o : fobj) (lib : list blk) : Prop :=
  inv dim3 true o lib /\ o_setup o = true /\ o_smem o = true /\ o_memflag o = 1 /\
  buf esize lib (snd (fst (o_sizes o))) (o_send o) /\ buf esize lib (snd (o_sizes o)) (o_recv o).

(** one communicating call: the log grows, nothing else changes *)
Definition logs (s s' : tst) (l : list tevent) : Prop := t_heap s' = t_heap s /\ t_tick s' = t_tick s /\ t_log s' = t_log s ++ l.

Lemma call_ok (o : fobj) (data : ptr) (m : LM unit) ev s :
  (forall h x h', m h = LOk (x, h') -> h' = h) -> (forall h e, m h <> LHalt e) ->
  (fits o /\ 0 <= fst (fst (o_sizes o)) -> m (t_heap s) = LOk (tt, t_heap s) /\ use_buf esize (2 * fst (fst (o_sizes o))) data (t_heap s) = LOk (tt, t_heap s)) ->
  (fits o /\ 0 <= fst (fst (o_sizes o))) \/ U ->
  wp (tbind (tlog ev) (fun _ => with_data esize o data m)) s (fun _ s' => logs s s' [ev]).
Proof using Type.
  intros PU NH OKf D. unfold twp, tbind, tlog, with_data, tlift. cbn [t_heap t_tick t_log]. unfold lbind.
  destruct D as [D|D].
  - destruct (OKf D) as [-> ->]. repeat split.
  - destruct (m (t_heap s)) as [e| |[x h1]] eqn:E; [exfalso; exact (NH _ _ E) | exact D|]. apply PU in E. subst h1.
    destruct (use_buf _ _ _ _) as [e| |[y h2]] eqn:F; [exfalso; exact (use_buf_nohalt _ _ _ _ F) | exact D|]. apply use_buf_pure in F. subst h2. repeat split.
Qed.

Lemma logs_trans a b c l m : logs a b l -> logs b c m -> logs a c (l ++ m).
Proof using Type. intros (A & B & C) (A' & B' & C'). repeat split; [congruence | congruence |]. rewrite C', C, app_assoc. reflexivity. Qed.

Lemma times_ok (m : TM unit) l k s (I : tst -> Prop) : I s -> (forall a b x, I a -> logs a b x -> I b) ->
  (forall a, I a -> wp m a (fun _ b => logs a b l)) -> wp (times_ k m) s (fun _ b => logs s b (List.concat (repeat l k))).
Proof using Type.
  intros IS IP A. revert s IS. induction k as [|k IH]; intros s IS; cbn [times_ repeat List.concat].
  - apply twp_ret. repeat split. rewrite app_nil_r. reflexivity.
  - eapply twp_bind; [apply A, IS|]. intros ? s1 L1; cbv beta in L1. eapply twp_mono; [apply IH; eapply IP; eauto|]. intros ? s2 L2; cbv beta in L2. eapply logs_trans; eauto.
Qed.

Lemma both_ok (f : Z -> TM unit) ev nper flag s (I : tst -> Prop) : I s -> (forall a b x, I a -> logs a b x -> I b) ->
  (forall g a, I a -> wp (f g) a (fun _ b => logs a b [ev g])) -> wp (both nper flag f) s (fun _ b => logs s b (ev_both nper flag ev)).
Proof using Type.
  intros IS IP A. unfold both, ev_both. destruct (flag =? 0).
  - eapply times_ok; eauto. intros a IA. eapply twp_bind; [apply A, IA|]. intros ? s1 L1; cbv beta in L1. eapply twp_mono; [apply A; eapply IP; eauto|].
    intros ? s2 L2; cbv beta in L2. exact (logs_trans _ _ _ _ _ L1 L2).
  - eapply times_ok; eauto.
Qed.

(** state invariant during a trial *)
Definition trial_st (o : fobj) (lib dl rest : list blk) (d : dbuf) (s : tst) : Prop :=
  ready o lib /\ dinv d dl /\ fst (fst (o_sizes o)) <= snd d /\ has (t_heap s) ((lib ++ dl) ++ rest) /\
  ((fits o /\ 0 <= fst (fst (o_sizes o))) \/ U).

Lemma trial_st_logs o lib dl rest d a b x : trial_st o lib dl rest d a -> logs a b x -> trial_st o lib dl rest d b.
Proof using Type. unfold trial_st. intros (A & B & C & D & E) (L & _). rewrite L. auto. Qed.

Lemma data_ok o lib dl rest d s : trial_st o lib dl rest d s -> 0 <= fst (fst (o_sizes o)) -> use_buf esize (2 * fst (fst (o_sizes o))) (fst d) (t_heap s) = LOk (tt, t_heap s).
Proof using esize_pos.
  intros (_ & (_ & D0 & D) & L & Hs & _) F. apply (use_buf_ok esize esize_pos _ ((lib ++ dl) ++ rest) (2 * snd d)); auto; [|lia].
  eapply buf_incl; [|exact D]. intros x I. rewrite !in_app_iff. auto.
Qed.

Section Calls.
Variable o : fobj.
Variable lib dl rest : list blk.
Variable d : dbuf.
Local Notation I := (trial_st o lib dl rest d).

Lemma remaps_fine s : I s -> fits o -> seqM (map (use_remap esize (o_send o) (o_recv o)) (o_remaps o)) (t_heap s) = LOk (tt, t_heap s).
Proof using esize_pos.
  intros ((IV & ST & _ & _ & BS & BR) & _ & _ & Hs & _) F. rewrite <- app_assoc in Hs. apply (use_remaps_ok esize esize_pos dim3 true o lib (dl ++ rest)); auto;
    (eapply buf_incl; [|eassumption]; intros x J; apply in_or_app; auto).
Qed.
Lemma f1ds_fine s : I s -> seqM (map use_f1d (o_ffts o)) (t_heap s) = LOk (tt, t_heap s).
Proof using Type. intros ((IV & ST & _) & _ & _ & Hs & _). rewrite <- app_assoc in Hs. apply (use_f1ds_ok dim3 true o lib (dl ++ rest)); auto. Qed.

Lemma compute_call g s : I s -> wp (t_compute esize o (fst d) g) s (fun _ b => logs s b [TCompute g]).
Proof using esize_pos.
  intros IS. pose proof IS as ((IV & ST & SM & _) & _ & _ & Hs & F). apply call_ok.
  - apply compute_pure.
  - intros h e. unfold compute_life. rewrite ST, SM. cbn [negb]. apply lbind_nohalt; [intros; apply remaps_nohalt | intros; apply f1ds_nohalt].
    destruct IV as (_ & _ & _ & S). apply (S ST).
  - intros (F1 & F2). split; [|apply (data_ok _ _ _ _ _ _ IS F2)]. unfold compute_life. rewrite ST, SM. cbn [negb]. unfold lbind. rewrite (remaps_fine s IS F1). apply (f1ds_fine s IS).
  - exact F.
Qed.
Lemma only1d_call g s : I s -> wp (t_only1d esize o (fst d) g) s (fun _ b => logs s b [TOnly1d g]).
Proof using esize_pos.
  intros IS. pose proof IS as ((IV & ST & SM & _) & _ & _ & Hs & F). apply call_ok.
  - apply only1d_pure.
  - intros h e. unfold only1d_life. rewrite ST. cbn [negb]. apply f1ds_nohalt.
  - intros (F1 & F2). split; [|apply (data_ok _ _ _ _ _ _ IS F2)]. unfold only1d_life. rewrite ST. apply (f1ds_fine s IS).
  - exact F.
Qed.
Lemma onlyremaps_call g s : I s -> wp (t_onlyremaps esize o (fst d) g) s (fun _ b => logs s b [TOnlyRemaps g]).
Proof using esize_pos.
  intros IS. pose proof IS as ((IV & ST & SM & _) & _ & _ & Hs & F). apply call_ok.
  - apply onlyremaps_pure.
  - intros h e. unfold onlyremaps_life. rewrite ST, SM. cbn [negb]. apply remaps_nohalt. destruct IV as (_ & _ & _ & S). apply (S ST).
  - intros (F1 & F2). split; [|apply (data_ok _ _ _ _ _ _ IS F2)]. unfold onlyremaps_life. rewrite ST, SM. apply (remaps_fine s IS F1).
  - exact F.
Qed.
Lemma oneremap_call w g s : I s -> wp (t_oneremap esize o (fst d) g w) s (fun _ b => logs s b [TOneRemap g w]).
Proof using esize_pos.
  intros IS. pose proof IS as ((IV & ST & SM & _) & _ & _ & Hs & F). apply call_ok.
  - apply oneremap_pure.
  - intros h e. unfold oneremap_life. rewrite ST, SM. cbn [negb]. apply remaps_nohalt. destruct IV as (_ & _ & _ & S). apply (S ST).
  - intros (F1 & F2). split; [|apply (data_ok _ _ _ _ _ _ IS F2)]. unfold oneremap_life. rewrite ST, SM. apply (remaps_fine s IS F1).
  - exact F.
Qed.

(** [adv s s' l]: the clock was read, the log grew by l, the heap is the same *)
Definition adv (s s' : tst) (l : list tevent) : Prop := t_heap s' = t_heap s /\ t_log s' = t_log s ++ l.
Lemma logs_adv a b l : logs a b l -> adv a b l.
Proof using Type. intros (A & _ & B). split; auto. Qed.
Lemma adv_trans a b c l m : adv a b l -> adv b c m -> adv a c (l ++ m).
Proof using Type. intros (A & B) (A' & B'). split; [congruence|]. rewrite B', B, app_assoc. reflexivity. Qed.
Lemma st_adv a b x : I a -> adv a b x -> I b.
Proof using Type. unfold trial_st. intros (A & B & C & D & E) (L & _). rewrite L. auto. Qed.

Lemma wtime_ok s : wp (wtime clk) s (fun t b => t = clk (t_tick s) /\ t_tick b = S (t_tick s) /\ t_heap b = t_heap s /\ t_log b = t_log s ++ [TBarrier]).
Proof using Type. unfold twp, wtime. auto. Qed.

Lemma time_remaps_ok nper flag ws t2 s : I s ->
  wp (time_remaps esize clk o (fst d) nper flag ws t2) s (fun r b => List.length r = List.length ws /\ adv s b (List.concat (map (fun w => ev_both nper flag (fun f => TOneRemap f w) ++ [TBarrier]) ws))).
Proof using esize_pos.
  revert t2 s. induction ws as [|w t IH]; intros t2 s IS; cbn [time_remaps map List.concat].
  - apply twp_ret. repeat split. rewrite app_nil_r. reflexivity.
  - eapply twp_bind; [apply both_ok with (ev := fun f => TOneRemap f w) (I := I); [exact IS | intros; eapply trial_st_logs; eauto | intros; apply oneremap_call; auto]|].
    intros ? s1 L1; cbv beta in L1. eapply twp_bind; [apply wtime_ok|]. intros t1 s2 (_ & _ & A & B).
    assert (adv s s2 (ev_both nper flag (fun f => TOneRemap f w) ++ [TBarrier])) as A2. { apply logs_adv in L1. destruct L1 as [? L1]. split; [congruence|]. rewrite B, L1, app_assoc. reflexivity. }
    eapply twp_bind; [apply IH; eapply st_adv; eauto|]. intros r s3 (L & A3). apply twp_ret. split; [cbn; lia|]. eapply adv_trans; eauto.
Qed.

Lemma tune_trial_ok nper flag tflag s : I s ->
  wp (tune_trial esize dim3 clk o (fst d) nper flag tflag) s
     (fun r b => List.length (snd r) = List.length (whichs dim3) /\ fst (fst (fst r)) = (clk (S (t_tick s)) - clk (t_tick s))%Q /\
                 adv s b (ev_trial dim3 nper flag tflag)).
Proof using esize_pos.
  intros IS. unfold tune_trial.
  eapply twp_bind; [apply wtime_ok|]. intros t1 s1 (-> & T1 & A1 & B1).
  assert (I s1) as I1 by (eapply (st_adv s s1 [TBarrier]); [exact IS | split; auto]).
  eapply twp_bind; [apply both_ok with (ev := TCompute) (I := I); [exact I1 | intros; eapply trial_st_logs; eauto | intros; apply compute_call; auto]|].
  intros ? s2 L2; cbv beta in L2. pose proof (trial_st_logs _ _ _ _ _ _ _ _ I1 L2) as I2.
  eapply twp_bind; [apply wtime_ok|]. intros t2 s3 (-> & T3 & A3 & B3).
  assert (t_tick s2 = S (t_tick s)) as T2 by (destruct L2 as (_ & ? & _); congruence). rewrite T2.
  assert (adv s s3 (TBarrier :: ev_both nper flag TCompute ++ [TBarrier])) as AD3.
  { destruct L2 as (X & _ & Y). split; [congruence|]. rewrite B3, Y, B1, <- !app_assoc. reflexivity. }
  pose proof (st_adv _ _ _ IS AD3) as I3. cbv zeta. unfold ev_trial. destruct (tflag =? 0).
  - apply twp_ret. cbn [app]. cbn [fst snd]. split; [apply map_length|]. auto.
  - eapply twp_bind; [apply both_ok with (ev := TOnly1d) (I := I); [exact I3 | intros; eapply trial_st_logs; eauto | intros; apply only1d_call; auto]|].
    intros ? s4 L4; cbv beta in L4. eapply twp_bind; [apply wtime_ok|]. intros t3 s5 (_ & _ & A5 & B5).
    assert (adv s3 s5 (ev_both nper flag TOnly1d ++ [TBarrier])) as AD5 by (apply logs_adv in L4; destruct L4 as [? L4]; split; [congruence | rewrite B5, L4, app_assoc; reflexivity]).
    pose proof (st_adv _ _ _ I3 AD5) as I5.
    eapply twp_bind; [apply both_ok with (ev := TOnlyRemaps) (I := I); [exact I5 | intros; eapply trial_st_logs; eauto | intros; apply onlyremaps_call; auto]|].
    intros ? s6 L6; cbv beta in L6. eapply twp_bind; [apply wtime_ok|]. intros t4 s7 (_ & _ & A7 & B7).
    assert (adv s5 s7 (ev_both nper flag TOnlyRemaps ++ [TBarrier])) as AD7 by (apply logs_adv in L6; destruct L6 as [? L6]; split; [congruence | rewrite B7, L6, app_assoc; reflexivity]).
    pose proof (st_adv _ _ _ I5 AD7) as I7.
    eapply twp_bind; [apply time_remaps_ok; exact I7|]. intros r s8 (LR & A8). apply twp_ret. cbn [fst snd]. split; [exact LR|]. split; [reflexivity|].
    pose proof (adv_trans _ _ _ _ _ AD3 (adv_trans _ _ _ _ _ AD5 (adv_trans _ _ _ _ _ AD7 A8))) as AD. rewrite <- !app_assoc in AD. cbn [app] in AD. rewrite <- !app_assoc in AD. exact AD.
Qed.
End Calls.

(** ** between trials *)
Definition idle (o : fobj) (lib dl rest : list blk) (d : dbuf) (h : heap) : Prop :=
  inv dim3 false o lib /\ o_setup o = false /\ dinv d dl /\ has h ((lib ++ dl) ++ rest).

Lemma inv_settings ob o lib s mf : inv dim3 ob o lib -> inv dim3 ob (with_settings s mf o) lib.
Proof using Type. exact (fun x => x). Qed.

Lemma setup_step s o lib dl rest d st : P s -> idle o lib dl rest d (t_heap st) ->
  wp (t_setup' (with_settings s 1 o)) st (fun o' b => exists sh lib', setup_fn s = SOk sh /\ ready o' lib' /\ after_setup sh 1 s o' /\ base_ptrs o' = base_ptrs o /\
     has (t_heap b) ((lib' ++ dl) ++ rest) /\ t_tick b = t_tick st /\ t_log b = t_log st ++ [TSetup s]).
Proof using esize_pos shapes HE HU HF.
  intros PS (IV & ST & _ & Hs). unfold t_setup, twp, tbind, tlog, tlift. cbn [t_heap t_tick t_log with_settings o_set].
  destruct (setup_fn s) as [e| |sh] eqn:E.
  - unfold setup_fobj. cbn [with_settings o_setup]. rewrite ST, andb_false_r. exact (HE _ _ PS E).
  - unfold setup_fobj. cbn [with_settings o_setup]. rewrite ST, andb_false_r. exact (HU _ PS E).
  - rewrite <- app_assoc in Hs.
    destruct (setup_fobj_ok esize plsize rqsize ptsize nprocs xsize esize_pos dim3 (with_settings s 1 o) lib (dl ++ rest) (t_heap st) sh (inv_settings _ _ _ s 1 IV) ST Hs (shapes _ _ E))
      as (o' & h' & nb & E1 & H1 & IV1 & AS & BU & _ & _ & _ & BP).
    rewrite E1. exists sh, (nb ++ lib). cbn [with_settings o_memflag o_set] in *.
    destruct (BU ltac:(discriminate)) as [BS BR]. destruct AS as (A1 & A2 & A3 & A4 & A5 & A6 & A7).
    spl; auto.
    + unfold ready. rewrite A5. split; [exact IV1|]. split; [exact A1|]. split; [rewrite A4; reflexivity|]. split; [exact A3|]. split; (eapply buf_incl; [|eassumption]; intros x J; apply in_or_app; auto).
    + unfold after_setup. spl; auto.
    + rewrite <- app_assoc. exact H1.
Qed.

Lemma grow_step o lib dl rest d st : ready o lib -> dinv d dl -> has (t_heap st) ((lib ++ dl) ++ rest) ->
  wp (grow esize o d) st (fun d' b => exists dl', dinv d' dl' /\ has (t_heap b) ((lib ++ dl') ++ rest) /\ fst (fst (o_sizes o)) <= snd d' /\
     t_tick b = t_tick st /\ t_log b = t_log st).
Proof using esize_pos.
  intros (IV & ST & _) (DO & D0 & DB) Hs. unfold grow. destruct d as [data mx]. cbn [fst snd] in *.
  destruct (Z.ltb_spec mx (fst (fst (o_sizes o)))) as [L|L].
  - destruct (free_own_ok data dl (lib ++ rest) (t_heap st) DO) as (h1 & E1 & H1).
    { eapply has_perm; [|exact Hs]. rewrite <- app_assoc. apply perm_mid. }
    destruct IV as (T & O & _). destruct (own_block _ _ (o_mem o) O ltac:(left; reflexivity) T) as (mb & Em & Im).
    set (fsz := fst (fst (o_sizes o))) in *.
    assert (In mb (lib ++ rest)) as Im' by (apply in_or_app; auto).
    unfold twp, tbind, tlift. rewrite E1. cbn [t_heap t_tick t_log]. rewrite Em. unfold smalloc, lbind, deref. rewrite (live_has _ _ _ H1 Im').
    destruct (Z.eqb_spec (fsz * 2 * esize) 0) as [Z0|Z0]; [nia|].
    destruct (alloc_ok OLib KData (fsz * 2 * esize) _ _ H1) as (b & h' & A & B & C & D & F). rewrite A. cbn. exists [b]. spl; auto; try lia.
    + unfold dinv. cbn [fst snd]. spl; [apply ownl_one; auto | lia |]. right. exists b. spl; auto; [left; reflexivity | rewrite F; lia].
    + eapply has_perm; [|exact B]. rewrite <- app_assoc. cbn [app]. apply Permutation_middle.
  - apply twp_ret. exists dl. unfold dinv. spl; auto.
Qed.

Lemma dealloc_step o lib dl rest d st : ready o lib -> dinv d dl -> has (t_heap st) ((lib ++ dl) ++ rest) ->
  wp (t_dealloc false dim3 o) st (fun o' b => exists lib', idle o' lib' dl rest d (t_heap b) /\ base_ptrs o' = base_ptrs o /\
     t_tick b = t_tick st /\ t_log b = t_log st).
Proof using Type.
  intros (IV & ST & SM & MF & _) DI Hs. rewrite <- app_assoc in Hs.
  destruct (dealloc_setup_ok dim3 true o lib (dl ++ rest) (t_heap st) IV ST Hs) as (o1 & h1 & l1 & E1 & H1 & O1 & EQ).
  assert (base_ptrs o1 = base_ptrs o /\ o_send o1 = o_send o /\ o_recv o1 = o_recv o) as (B1 & B2 & B3) by (subst o1; repeat split; reflexivity).
  destruct (dealloc_memory_ok o1 l1 (dl ++ rest) h1) as (h2 & l2 & E2 & H2 & O2).
  { rewrite B1, B2, B3. exact O1. }
  { exact H1. }
  unfold t_dealloc, twp, tbind, tlift. rewrite E1. cbn [t_heap t_tick t_log].
  assert (o_memflag o1 = 1) as MF1 by (subst o1; exact MF). rewrite MF1. cbn [Z.eqb]. cbn [t_heap]. rewrite E2. subst o1.
  cbn [t_heap t_tick t_log]. exists l2. spl; auto.
  unfold idle. spl; auto; [|rewrite <- app_assoc; exact H2].
  unfold inv. spl.
  - destruct IV as (T & _). exact T.
  - unfold all_ptrs. cbn [o_setup app]. rewrite app_nil_r. exact O2.
  - intros _. split; [reflexivity|]. unfold unset. cbn. spl; reflexivity.
  - discriminate.
Qed.

(** numbers of a trial index *)
Definition tcond (n : tobj) : Prop := tlen n /\ List.length (n_tremaps n) = List.length (whichs dim3).

Lemma num_trial_ok s r n : tcond n -> 0 <= n_trial n < 10 -> List.length (snd r) = List.length (whichs dim3) ->
  exists n1 n2, record_flags (n_trial n) s n = Some n1 /\ record_times (n_trial n1) r n1 = Some n2 /\ tcond n2 /\ n_trial n1 = n_trial n /\ n_trial n2 = n_trial n.
Proof using Type.
  intros ((A1 & A2 & A3 & A4 & A5 & A6 & A7) & LR) I L. destruct r as [[[t3 t1] tr] trs]. cbn [snd] in L.
  destruct (zset_ok (n_cflags n) (n_trial n) (st_coll s)) as (c & E1 & L1); [lia|].
  destruct (zset_ok (n_eflags n) (n_trial n) (st_exch s)) as (e & E2 & L2); [lia|].
  destruct (zset_ok (n_pflags n) (n_trial n) (st_pack s)) as (p & E3 & L3); [lia|].
  destruct (zset_ok (n_tfft n) (n_trial n) t3) as (f & E4 & L4); [lia|].
  destruct (zset_ok (n_t1d n) (n_trial n) t1) as (g & E5 & L5); [lia|].
  destruct (zset_ok (n_tremap n) (n_trial n) tr) as (k & E6 & L6); [lia|].
  destruct (set_all_ok (n_tremaps n) (n_trial n) trs A7 I) as (q & E7 & L7 & L8); [lia|].
  eexists _, _. unfold record_flags. rewrite E1, E2, E3. split; [reflexivity|]. unfold record_times.
  cbn [n_tfft n_t1d n_tremap n_tremaps n_trial]. rewrite E4, E5, E6, E7. split; [reflexivity|]. split; [|auto].
  split; [|cbn; lia]. unfold tlen. cbn. spl; auto; lia.
Qed.

Lemma one_trial_step s niter flag tflag o n lib dl rest d st :
  P s -> tcond n -> 0 <= n_trial n < 10 -> idle o lib dl rest d (t_heap st) ->
  wp (one_trial false esize plsize rqsize ptsize nprocs xsize dim3 setup_fn clk s niter flag tflag (o, n, d)) st
   (fun x b => let '(o', n', d') := x in exists lib' dl' r i, idle o' lib' dl' rest d' (t_heap b) /\ base_ptrs o' = base_ptrs o /\
      num_trial s r n = Some n' /\ tcond n' /\ n_trial n' = n_trial n /\ fst (fst (fst r)) = (clk (S i) - clk i)%Q /\
      t_log b = t_log st ++ TSetup s :: ev_trial dim3 niter flag tflag).
Proof using esize_pos shapes HE HU HF.
  intros PS TC TI ID. unfold one_trial.
  destruct (num_trial_ok s (0%Q, 0%Q, 0%Q, map (fun _ => 0%Q) (whichs dim3)) n TC TI (map_length _ _)) as (n1 & _ & E1 & _ & _ & N1 & _).
  eapply twp_bind with (R := fun x b => x = n1 /\ b = st); [unfold topt; rewrite E1; apply twp_ret; auto|]. intros ? ? [-> ->].
  eapply twp_bind; [exact (setup_step s o lib dl rest d st PS ID)|]. intros o1 s1 (sh & lib1 & SF & R1 & AS1 & BP1 & H1 & T1 & G1).
  destruct ID as (_ & _ & DI & _).
  eapply twp_bind; [exact (grow_step o1 lib1 dl rest d s1 R1 DI H1)|]. intros d2 s2 (dl2 & DI2 & H2 & L2 & T2 & G2).
  assert (trial_st o1 lib1 dl2 rest d2 s2) as IS.
  { unfold trial_st. spl; auto. destruct (shape_fits sh) eqn:SFI; [left; exact (fits_after _ _ _ _ AS1 SFI) | right; exact (HF _ _ PS SF SFI)]. }
  eapply twp_bind; [exact (tune_trial_ok o1 lib1 dl2 rest d2 niter flag tflag s2 IS)|]. intros r s3 (LR & TR & (A3 & B3)).
  destruct (num_trial_ok s r n TC TI LR) as (n1' & n2 & E1' & E2 & TC2 & _ & N2). rewrite E1 in E1'. injection E1' as <-.
  eapply twp_bind with (R := fun x b => x = n2 /\ b = s3); [unfold topt; rewrite E2; apply twp_ret; auto|]. intros ? ? [-> ->].
  assert (has (t_heap s3) ((lib1 ++ dl2) ++ rest)) as H3 by (rewrite A3; exact H2).
  eapply twp_bind; [exact (dealloc_step o1 lib1 dl2 rest d2 s3 R1 DI2 H3)|]. intros o4 s4 (lib4 & ID4 & BP4 & T4 & G4).
  apply twp_ret. exists lib4, dl2, r, (t_tick s2). spl; auto.
  - rewrite BP4. exact BP1.
  - unfold num_trial. rewrite E1. exact E2.
  - rewrite G4, B3, G2, G1, <- app_assoc. reflexivity.
Qed.

Definition ev_ces (ces : list (Z * Z)) (niter flag tflag : Z) : list tevent :=
  List.concat (map (fun x => TSetup (mkset (fst x) (snd x) pdefault) :: ev_trial dim3 niter flag tflag) ces).
Definition ev_ps (c e : Z) (ps : list Z) (niter flag tflag : Z) : list tevent :=
  List.concat (map (fun p => TSetup (mkset c e p) :: ev_trial dim3 niter flag tflag) ps).

(** every measured time is the difference of two consecutive clock readings *)
Definition measured (r : tres) : Prop := exists i, fst (fst (fst r)) = (clk (S i) - clk i)%Q.

Lemma tcond_best n b c e p : tcond n -> tcond (set_best b c e p n).
Proof using Type. exact (fun x => x). Qed.
Lemma tcond_trial n k : tcond n -> tcond (set_trial k n).
Proof using Type. exact (fun x => x). Qed.

Lemma ce_loop_ok ces niter flag tflag : forall o n lib dl rest d st,
  (forall c e, In (c, e) ces -> P (mkset c e pdefault)) -> tcond n -> 0 <= n_trial n -> n_trial n + zlen ces <= 10 -> idle o lib dl rest d (t_heap st) ->
  wp (ce_loop false esize plsize rqsize ptsize nprocs xsize dim3 setup_fn clk ces niter flag tflag (o, n, d)) st
   (fun x b => let '(o', n', d') := x in exists lib' dl' rs, idle o' lib' dl' rest d' (t_heap b) /\ base_ptrs o' = base_ptrs o /\
      List.length rs = List.length ces /\ Forall measured rs /\ ce_num ces rs n = Some n' /\ tcond n' /\ n_trial n' = n_trial n + zlen ces /\
      t_log b = t_log st ++ ev_ces ces niter flag tflag).
Proof using esize_pos shapes HE HU HF.
  induction ces as [|[c e] t IH]; intros o n lib dl rest d st PS TC T0 TL ID; cbn [ce_loop].
  - apply twp_ret. exists lib, dl, []. cbn [ce_num ev_ces map List.concat]. spl; auto; [cbn; lia | rewrite app_nil_r; reflexivity].
  - rewrite zlen_cons in TL. pose proof (zlen_nonneg t).
    eapply twp_bind; [exact (one_trial_step (mkset c e pdefault) niter flag tflag o n lib dl rest d st (PS c e (or_introl eq_refl)) TC ltac:(lia) ID)|].
    intros [[o1 n1] d1] s1 (lib1 & dl1 & r & i & ID1 & BP1 & N1 & TC1 & T1 & M1 & G1).
    destruct (zget_Some (n_tfft n1) (n_trial n1)) as (cur & EC).
    { destruct TC1 as ((_ & _ & _ & L & _) & _). lia. }
    eapply twp_bind with (R := fun x b => x = cur /\ b = s1); [unfold topt; rewrite EC; apply twp_ret; auto|]. intros ? ? [-> ->]. cbv zeta.
    set (n2 := if qlt cur (n_besttime n1) then set_best cur c e (n_pbest n1) n1 else n1).
    assert (n_trial n2 = n_trial n1 /\ tcond n2) as [T2 TC2] by (unfold n2; destruct (qlt cur (n_besttime n1)); auto).
    eapply twp_mono; [apply (IH o1 (set_trial (n_trial n2 + 1) n2) lib1 dl1 rest d1 s1)|].
    + intros; apply PS; right; auto.
    + exact TC2.
    + cbn; lia.
    + cbn [set_trial n_trial]. lia.
    + exact ID1.
    + intros [[o3 n3] d3] s3 (lib3 & dl3 & rs & ID3 & BP3 & L3 & M3 & N3 & TC3 & T3 & G3).
      exists lib3, dl3, (r :: rs). spl; auto.
      * rewrite BP3. exact BP1.
      * cbn. lia.
      * constructor; [exists i; exact M1 | exact M3].
      * cbn [ce_num]. rewrite N1. cbn [bind]. rewrite EC. exact N3.
      * cbn [set_trial n_trial] in T3. rewrite zlen_cons. lia.
      * rewrite G3, G1, <- app_assoc. reflexivity.
Qed.

Lemma num_trial_best s r n n' : num_trial s r n = Some n' -> n_cbest n' = n_cbest n /\ n_ebest n' = n_ebest n /\ n_pbest n' = n_pbest n /\ n_besttime n' = n_besttime n /\ n_setuptime n' = n_setuptime n /\ n_per n' = n_per n.
Proof using Type.
  unfold num_trial, record_flags, record_times. destruct r as [[[t3 t1] tr] trs].
  destruct (zset _ _ (st_coll s)); [|discriminate]. destruct (zset _ _ (st_exch s)); [|discriminate]. destruct (zset _ _ (st_pack s)); [|discriminate]. cbn.
  destruct (zset _ _ t3); [|discriminate]. destruct (zset _ _ t1); [|discriminate]. destruct (zset _ _ tr); [|discriminate]. destruct (set_all _ _ _); [|discriminate].
  intros E. injection E as <-. cbn. auto 10.
Qed.

Lemma p_loop_ok ps niter flag tflag : forall o n lib dl rest d st,
  (forall p, In p ps -> P (mkset (n_cbest n) (n_ebest n) p)) -> tcond n -> 0 <= n_trial n -> n_trial n + zlen ps <= 10 -> idle o lib dl rest d (t_heap st) ->
  wp (p_loop false esize plsize rqsize ptsize nprocs xsize dim3 setup_fn clk ps niter flag tflag (o, n, d)) st
   (fun x b => let '(o', n', d') := x in exists lib' dl' rs, idle o' lib' dl' rest d' (t_heap b) /\ base_ptrs o' = base_ptrs o /\
      List.length rs = List.length ps /\ Forall measured rs /\ p_num ps rs n = Some n' /\ tcond n' /\ n_trial n' = n_trial n + zlen ps /\
      t_log b = t_log st ++ ev_ps (n_cbest n) (n_ebest n) ps niter flag tflag).
Proof using esize_pos shapes HE HU HF.
  induction ps as [|p t IH]; intros o n lib dl rest d st PS TC T0 TL ID; cbn [p_loop].
  - apply twp_ret. exists lib, dl, []. cbn [p_num ev_ps map List.concat]. spl; auto; [cbn; lia | rewrite app_nil_r; reflexivity].
  - rewrite zlen_cons in TL. pose proof (zlen_nonneg t).
    eapply twp_bind; [exact (one_trial_step (mkset (n_cbest n) (n_ebest n) p) niter flag tflag o n lib dl rest d st (PS p (or_introl eq_refl)) TC ltac:(lia) ID)|].
    intros [[o1 n1] d1] s1 (lib1 & dl1 & r & i & ID1 & BP1 & N1 & TC1 & T1 & M1 & G1).
    destruct (num_trial_best _ _ _ _ N1) as (NC & NE & NP & NB & _ & _).
    destruct (zget_Some (n_tfft n1) (n_trial n1)) as (cur & EC).
    { destruct TC1 as ((_ & _ & _ & L & _) & _). lia. }
    eapply twp_bind with (R := fun x b => x = cur /\ b = s1); [unfold topt; rewrite EC; apply twp_ret; auto|]. intros ? ? [-> ->]. cbv zeta.
    set (n2 := if qlt cur (n_besttime n1) then set_best cur (n_cbest n1) (n_ebest n1) p n1 else n1).
    assert (n_trial n2 = n_trial n1 /\ tcond n2 /\ n_cbest n2 = n_cbest n /\ n_ebest n2 = n_ebest n) as (T2 & TC2 & NC2 & NE2) by (unfold n2; destruct (qlt cur (n_besttime n1)); auto).
    eapply twp_mono; [apply (IH o1 (set_trial (n_trial n2 + 1) n2) lib1 dl1 rest d1 s1)|].
    + cbn [set_trial n_cbest n_ebest]. rewrite NC2, NE2. intros; apply PS; right; auto.
    + exact TC2.
    + cbn; lia.
    + cbn [set_trial n_trial]. lia.
    + exact ID1.
    + intros [[o3 n3] d3] s3 (lib3 & dl3 & rs & ID3 & BP3 & L3 & M3 & N3 & TC3 & T3 & G3).
      exists lib3, dl3, (r :: rs). spl; auto.
      * rewrite BP3. exact BP1.
      * cbn. lia.
      * constructor; [exists i; exact M1 | exact M3].
      * cbn [p_num]. rewrite N1. cbn [bind]. rewrite EC. exact N3.
      * cbn [set_trial n_trial] in T3. rewrite zlen_cons. lia.
      * rewrite G3, G1, <- app_assoc. cbn [set_trial n_cbest n_ebest]. rewrite NC2, NE2. reflexivity.
Qed.
End TuneProofs.
