(** LifeObj.v : the ownership invariant of FFT3d / FFT2d objects and what each member function does to it. *)

From Coq Require Import Permutation.
From Verif Require Import Base Setup3d Life LifeProofs LifeFft.

Definition nrem (dim3 : bool) : nat := if dim3 then 8 else 6.
Definition nfft (dim3 : bool) : nat := if dim3 then 3 else 2.

(** [ob]: sendbuf and recvbuf belong to the library *)
Definition all_ptrs (ob : bool) (o : fobj) : list ptr :=
  base_ptrs o ++ (if o_setup o then setup_ptrs o else []) ++ (if ob then [o_send o; o_recv o] else []).

Definition unset (dim3 : bool) (o : fobj) : Prop :=
  o_remaps o = repeat None (nrem dim3) /\ o_ffts o = repeat None (nfft dim3) /\ o_smem o = false /\ o_send o = PNull /\ o_recv o = PNull.
Definition isset (dim3 : bool) (o : fobj) : Prop :=
  ffts_set dim3 o /\ (forall x, In x (flat_map oremap_pairs (o_remaps o)) -> pair_set x) /\
  (forall p, In p (flat_map follow_remap (o_remaps o) ++ flat_map follow_f1d (o_ffts o)) -> is_to p /\ In p (setup_ptrs o)) /\
  List.length (o_remaps o) = nrem dim3.

Definition inv (dim3 ob : bool) (o : fobj) (lib : list blk) : Prop :=
  is_to (o_mem o) /\ ownl (all_ptrs ob o) lib /\
  (o_setup o = false -> ob = false /\ unset dim3 o) /\ (o_setup o = true -> isset dim3 o).

Lemma ownl_split a b lib : ownl (a ++ b) lib -> exists la lb, Permutation lib (la ++ lb) /\ ownl a la /\ ownl b lb.
Proof.
  revert lib. induction a as [|p t IH]; intros lib O.
  - exists [], lib. spl; auto. apply ownl_nil.
  - destruct O as (D & P & L). cbn [app] in *. inversion D; subst. destruct p as [| |i].
    + exfalso. apply H1. reflexivity.
    + destruct (IH lib) as (la & lb & Q & A & B); [unfold ownl; spl; auto|]. exists la, lb. spl; auto.
      change (PNull :: t) with (repeat PNull 1 ++ t). apply (ownl_app (repeat PNull 1) t [] la); [apply ownl_nulls | exact A].
    + cbn in P. destruct (in_ids_split i lib) as (x & lib' & E & Q).
      { eapply Permutation_in; [exact P | left; reflexivity]. }
      subst i. destruct (IH lib') as (la & lb & R & A & B).
      { unfold ownl. spl; auto.
        - apply (Permutation_map b_id) in Q. cbn in Q. rewrite Q in P. apply Permutation_cons_inv in P. exact P.
        - apply (Permutation_Forall Q) in L. inversion L; auto. }
      exists (x :: la), lb. spl; auto.
      * rewrite Q. cbn. apply perm_skip, R.
      * change (PTo (b_id x) :: t) with ([PTo (b_id x)] ++ t). change (x :: la) with ([x] ++ la). apply ownl_app; auto.
        apply ownl_one. apply (Permutation_Forall Q) in L. inversion L; auto.
Qed.

Lemma own_block ps lib p : ownl ps lib -> In p ps -> is_to p -> exists b, p = PTo (b_id b) /\ In b lib.
Proof.
  intros (_ & P & _) I (i & ->). assert (In i (map b_id lib)) as J.
  { eapply Permutation_in; [exact P|]. apply in_flat_map. exists (PTo i). split; [exact I | left; reflexivity]. }
  apply in_map_iff in J as (b & E & K). exists b. subst. auto.
Qed.

Lemma deref_ok ps lib rest p h : ownl ps lib -> In p ps -> is_to p -> has h (lib ++ rest) -> deref p h = LOk (tt, h).
Proof.
  intros O I T H. destruct (own_block _ _ _ O I T) as (b & -> & J). unfold deref. rewrite (live_has _ _ b H); [reflexivity | apply in_or_app; auto].
Qed.

(** ** transformer calls leave the heap alone *)
Lemma deref_pure p h x h' : deref p h = LOk (x, h') -> h' = h.
Proof. unfold deref. destruct (livep p h); congruence. Qed.
Lemma use_buf_pure e n p h x h' : use_buf e n p h = LOk (x, h') -> h' = h.
Proof.
  unfold use_buf. destruct (n =? 0); [unfold lret; congruence|]. destruct p; try discriminate. destruct (find_blk b h); [|discriminate].
  destruct (n * e <=? b_bytes b0); congruence.
Qed.
Lemma lbind_pure {X Y} (m : LM X) (k : X -> LM Y) : (forall h x h', m h = LOk (x, h') -> h' = h) -> (forall a h x h', k a h = LOk (x, h') -> h' = h) ->
  forall h x h', lbind m k h = LOk (x, h') -> h' = h.
Proof.
  intros A B h x h' E. unfold lbind in E. destruct (m h) as [?| |[a h1]] eqn:F; try discriminate. apply A in F. subst. exact (B _ _ _ _ E).
Qed.
Lemma lret_pure {X} (a : X) h x h' : lret a h = LOk (x, h') -> h' = h.
Proof. unfold lret. congruence. Qed.
Lemma seqM_pure l : (forall m, In m l -> forall h x h', m h = LOk (x, h') -> h' = h) -> forall h x h', seqM l h = LOk (x, h') -> h' = h.
Proof.
  induction l as [|m t IH]; intros A; [apply lret_pure|]. cbn [seqM]. apply lbind_pure; [apply A; left; reflexivity|]. intros _. apply IH. intros; eapply A; [right|]; eauto.
Qed.
Lemma remap_robj_pure e us ur r h x h' : remap_robj e us ur r h = LOk (x, h') -> h' = h.
Proof.
  unfold remap_robj. destruct (negb (r_setup r)); [discriminate|]. destruct (r_memflag r) as [mf|]; [|discriminate]. revert h x h'.
  apply lbind_pure; [apply use_buf_pure|]. intros _. apply lbind_pure; [apply use_buf_pure|]. intros _. apply lret_pure.
Qed.
Lemma use_pair_pure e us ur x h y h' : use_pair e us ur x h = LOk (y, h') -> h' = h.
Proof.
  unfold use_pair. revert h y h'. apply lbind_pure; [apply deref_pure|]. intros _. apply lbind_pure; [apply remap_robj_pure|]. intros _. apply lret_pure.
Qed.
Lemma use_remap_pure e us ur x h y h' : use_remap e us ur x h = LOk (y, h') -> h' = h.
Proof.
  unfold use_remap. revert h y h'. destruct x as [q|]; [|apply lret_pure]. apply lbind_pure; [apply deref_pure|]. intros _.
  apply lbind_pure; [apply use_pair_pure|]. intros _. destruct (rs_extra q); [apply use_pair_pure | apply lret_pure].
Qed.
Lemma use_f1d_pure f h y h' : use_f1d f h = LOk (y, h') -> h' = h.
Proof.
  unfold use_f1d. revert h y h'. destruct f as [q|]; [|discriminate]. apply lbind_pure; [apply deref_pure|]. intros _. apply lbind_pure; [apply deref_pure|]. intros _. apply deref_pure.
Qed.
Lemma seq_remap_pure e us ur l h y h' : seqM (map (use_remap e us ur) l) h = LOk (y, h') -> h' = h.
Proof. revert h y h'. apply seqM_pure. intros m I. apply in_map_iff in I as (x & <- & _). apply use_remap_pure. Qed.
Lemma seq_f1d_pure l h y h' : seqM (map use_f1d l) h = LOk (y, h') -> h' = h.
Proof. revert h y h'. apply seqM_pure. intros m I. apply in_map_iff in I as (x & <- & _). apply use_f1d_pure. Qed.
Lemma compute_pure e o h y h' : compute_life e o h = LOk (y, h') -> h' = h.
Proof.
  unfold compute_life. destruct (negb (o_setup o)); [discriminate|]. destruct (negb (o_smem o)); [discriminate|]. revert h y h'.
  apply lbind_pure; [intros ? ? ?; apply seq_remap_pure|]. intros _ ? ? ?. apply seq_f1d_pure.
Qed.
Lemma only1d_pure o h y h' : only1d_life o h = LOk (y, h') -> h' = h.
Proof. unfold only1d_life. destruct (negb (o_setup o)); [discriminate|]. apply seq_f1d_pure. Qed.
Lemma onlyremaps_pure e o h y h' : onlyremaps_life e o h = LOk (y, h') -> h' = h.
Proof. unfold onlyremaps_life. destruct (negb (o_setup o)); [discriminate|]. destruct (negb (o_smem o)); [discriminate|]. apply seq_remap_pure. Qed.
Lemma oneremap_pure e o h y h' : oneremap_life e o h = LOk (y, h') -> h' = h.
Proof. unfold oneremap_life. destruct (negb (o_setup o)); [discriminate|]. destruct (negb (o_smem o)); [discriminate|]. apply seq_remap_pure. Qed.

Lemma use_f1ds_ok dim3 ob o lib rest h : inv dim3 ob o lib -> o_setup o = true -> has h (lib ++ rest) -> seqM (map use_f1d (o_ffts o)) h = LOk (tt, h).
Proof.
  intros (_ & O & _ & S) E H. specialize (S E) as (F & _ & W & _).
  assert (forall p, In p (flat_map follow_f1d (o_ffts o)) -> deref p h = LOk (tt, h)) as DR.
  { intros p I. destruct (W p ltac:(apply in_or_app; auto)) as [T J]. apply (deref_ok _ _ rest _ _ O); auto.
    unfold all_ptrs. rewrite E, !in_app_iff. auto. }
  assert (forall f, In f (o_ffts o) -> use_f1d f h = LOk (tt, h)) as U.
  { intros f I. destruct f as [q|].
    - unfold use_f1d, lbind. rewrite !DR; auto; apply in_flat_map; exists (Some q); cbn; auto.
    - exfalso. destruct dim3; cbn in F; [destruct F as (? & ? & ? & ? & ? & ? & _ & F) | destruct F as (? & ? & ? & ? & _ & F)]; rewrite F in I;
        repeat (destruct I as [I|I]; [discriminate|]); destruct I. }
  clear - U. induction (o_ffts o) as [|f t IH]; [reflexivity|]. cbn [map seqM]. unfold lbind. rewrite U by (left; reflexivity). apply IH. intros; apply U; right; auto.
Qed.

Section Obj.
Variable esize plsize rqsize ptsize nprocs xsize : Z.
Hypothesis esize_pos : 0 < esize.
Local Notation setup_fobj' := (setup_fobj false esize plsize rqsize ptsize nprocs xsize).

(** a buffer of [n] scalars *)
Definition buf (bs : list blk) (n : Z) (p : ptr) : Prop := n = 0 \/ exists b, p = PTo (b_id b) /\ In b bs /\ n * esize <= b_bytes b.

Lemma use_buf_ok h bs n need p : has h bs -> buf bs n p -> 0 <= need <= n -> use_buf esize need p h = LOk (tt, h).
Proof using esize_pos.
  intros H B N. unfold use_buf. destruct (Z.eqb_spec need 0) as [->|Z0]; [reflexivity|].
  destruct B as [->|(b & -> & I & L)]; [lia|]. rewrite (find_has _ _ _ H I). destruct (Z.leb_spec (need * esize) (b_bytes b)); [reflexivity|].
  exfalso. assert (need * esize <= n * esize) by (apply Z.mul_le_mono_nonneg_r; lia). lia.
Qed.

Definition fits (o : fobj) : Prop :=
  let '(_, ss, rs) := o_sizes o in
  Forall (fun x => 0 <= fst (r_need (snd x)) <= ss /\ 0 <= snd (r_need (snd x)) <= rs) (flat_map oremap_pairs (o_remaps o)).

Lemma use_remaps_ok dim3 ob o lib rest h : inv dim3 ob o lib -> o_setup o = true -> has h (lib ++ rest) -> fits o ->
  buf (lib ++ rest) (snd (fst (o_sizes o))) (o_send o) -> buf (lib ++ rest) (snd (o_sizes o)) (o_recv o) ->
  seqM (map (use_remap esize (o_send o) (o_recv o)) (o_remaps o)) h = LOk (tt, h).
Proof using esize_pos.
  intros (_ & O & _ & S) E H F BS BR. specialize (S E) as (_ & PS & W & _).
  assert (forall p, In p (flat_map follow_remap (o_remaps o)) -> deref p h = LOk (tt, h)) as DR.
  { intros p I. destruct (W p ltac:(apply in_or_app; auto)) as [T J]. apply (deref_ok _ _ rest _ _ O); auto.
    unfold all_ptrs. rewrite E, !in_app_iff. auto. }
  unfold fits in F. destruct (o_sizes o) as [[fs ss] rsz]. cbn [fst snd] in *. rewrite Forall_forall in F.
  assert (forall x, In x (flat_map oremap_pairs (o_remaps o)) -> deref (fst x) h = LOk (tt, h) -> use_pair esize (o_send o) (o_recv o) x h = LOk (tt, h)) as UP.
  { intros x I D. unfold use_pair, lbind. rewrite D. unfold remap_robj. destruct (PS _ I) as [M ST]. rewrite ST, M. cbn [negb Z.eqb].
    destruct (F _ I) as [N1 N2]. unfold lbind. rewrite (use_buf_ok _ _ _ _ _ H BS N1), (use_buf_ok _ _ _ _ _ H BR N2). reflexivity. }
  assert (forall r, In r (o_remaps o) -> use_remap esize (o_send o) (o_recv o) r h = LOk (tt, h)) as U.
  { intros r I. destruct r as [q|]; [|reflexivity].
    assert (forall p, In p (follow_remap (Some q)) -> deref p h = LOk (tt, h)) as DQ by (intros p J; apply DR, in_flat_map; exists (Some q); auto).
    assert (forall x, In x (pairs_of_struct q) -> use_pair esize (o_send o) (o_recv o) x h = LOk (tt, h)) as UQ.
    { intros x J. apply UP; [apply in_flat_map; exists (Some q); auto|]. apply DQ. right. apply in_map, J. }
    unfold use_remap, lbind. rewrite DQ by (left; reflexivity). rewrite UQ by (left; reflexivity).
    unfold pairs_of_struct in UQ. destruct (rs_extra q); [|reflexivity]. apply UQ. right; left; reflexivity. }
  clear - U. induction (o_remaps o) as [|f t IH]; [reflexivity|]. cbn [map seqM]. unfold lbind. rewrite U by (left; reflexivity). apply IH. intros; apply U; right; auto.
Qed.

(** ** setup *)
Definition shape_len (dim3 : bool) (sh : shape) : bool :=
  Nat.eqb (List.length (s_dims sh)) (nfft dim3) && Nat.eqb (List.length (s_remaps sh)) (nrem dim3).
Definition all_cnts (sh : shape) : list (Z * rcnt) := flat_map kcnts (s_remaps sh).

(** the part of [inv] and of the sizes that setup establishes *)
Definition after_setup (sh : shape) (mf : Z) (s : settings) (o : fobj) : Prop :=
  o_setup o = true /\ o_set o = s /\ o_memflag o = mf /\ o_smem o = negb (mf =? 0) /\ o_sizes o = s_sizes sh /\ o_dims o = Some (s_dims sh) /\
  map (fun x => r_need (snd x)) (flat_map oremap_pairs (o_remaps o)) = map (fun c => (c_ssize (snd c), c_rsize (snd c))) (all_cnts sh).

Definition own_bytes (sh : shape) (mf : Z) : Z :=
  zsum (cbytes esize plsize rqsize) (all_cnts sh) + (if mf =? 0 then 0 else (snd (fst (s_sizes sh)) + snd (s_sizes sh)) * esize).
Definition said_bytes (sh : shape) (mf : Z) : Z :=
  zsum (cusage esize plsize ptsize) (all_cnts sh) + (if mf =? 0 then 0 else (snd (fst (s_sizes sh)) + snd (s_sizes sh)) * esize).

Lemma setup_fobj_ok dim3 o lib rest h sh : inv dim3 false o lib -> o_setup o = false -> has h (lib ++ rest) -> shape_len dim3 sh = true ->
  exists o' h' nb, setup_fobj' dim3 (SOk sh) o h = LOk (o', h') /\ has h' ((nb ++ lib) ++ rest) /\
    inv dim3 (negb (o_memflag o =? 0)) o' (nb ++ lib) /\ after_setup sh (o_memflag o) (o_set o) o' /\
    (o_memflag o <> 0 -> buf nb (snd (fst (s_sizes sh))) (o_send o') /\ buf nb (snd (s_sizes sh)) (o_recv o')) /\
    (o_memflag o = 0 -> o_send o' = PNull /\ o_recv o' = PNull) /\
    dbytes nb = own_bytes sh (o_memflag o) /\ o_usage o' = said_bytes sh (o_memflag o) /\ base_ptrs o' = base_ptrs o.
Proof using esize_pos.
  intros (T & O & U & _) E H L. destruct (U E) as (_ & UR & UF & UM & US & UV).
  unfold shape_len in L. apply andb_prop in L as [L1 L2]. apply Nat.eqb_eq in L1, L2.
  unfold all_ptrs in O. rewrite E in O. cbn [app] in O. rewrite app_nil_r in O.
  destruct (own_block _ _ (o_mem o) O ltac:(left; reflexivity) T) as (mb & Em & Im).
  destruct (make_remaps_ok esize plsize rqsize ptsize nprocs xsize (s_remaps sh) h _ H) as (rs & h1 & n1 & E1 & H1 & O1 & S1 & F1 & N1 & LL1 & D1 & U1).
  assert (exists fs h' nb, (if dim3 then match s_dims sh with [a; b; c] => setup_ffts3 a b c | _ => lub end
           else match s_dims sh with [a; b] => setup_ffts2 a b | _ => lub end) h1 = LOk (fs, h') /\ has h' (nb ++ n1 ++ lib ++ rest) /\
           (if dim3 then exists a b c f m s, Some (s_dims sh) = Some [a; b; c] /\ fs = [Some f; Some m; Some s] else exists a c f s, Some (s_dims sh) = Some [a; c] /\ fs = [Some f; Some s]) /\
           ownl (plan_ptrs (Some (s_dims sh)) fs ++ flat_map f1d_blk fs) nb /\ dbytes nb = 0 /\
           (forall p, In p (flat_map follow_f1d fs) -> is_to p /\ In p (plan_ptrs (Some (s_dims sh)) fs ++ flat_map f1d_blk fs)))
    as (fs & h2 & n2 & E2 & H2 & S2 & O2 & D2 & F2).
  { destruct dim3.
    - destruct (s_dims sh) as [|a [|b [|c [|? ?]]]]; try discriminate L1. destruct (setup_ffts3_ok a b c h1 _ H1) as (f & m & s & h' & nb & A & B & C & D & F).
      exists [Some f; Some m; Some s], h', nb. spl; auto. exists a, b, c, f, m, s. auto.
    - destruct (s_dims sh) as [|a [|c [|? ?]]]; try discriminate L1. destruct (setup_ffts2_ok a c h1 _ H1) as (f & s & h' & nb & A & B & C & D & F).
      exists [Some f; Some s], h', nb. spl; auto. exists a, c, f, s. auto. }
  destruct (s_sizes sh) as [[fsz ssz] rsz] eqn:SZ. set (mf := o_memflag o) in *.
  assert (forall sz hh bb, has hh bb -> In mb bb -> exists p h' nb,
     (if negb (mf =? 0) && negb (sz =? 0) then smalloc (PTo (b_id mb)) (sz * esize) else lret PNull) hh = LOk (p, h') /\ has h' (nb ++ bb) /\
     ownl [p] nb /\ (mf = 0 -> p = PNull /\ nb = []) /\ (mf <> 0 -> buf nb sz p) /\ dbytes nb = (if mf =? 0 then 0 else sz * esize)) as BUF.
  { intros sz hh bb Hh Ih. destruct (Z.eqb_spec mf 0) as [M|M]; cbn [negb andb].
    { exists PNull, hh, []. spl; auto; [exact (ownl_nulls 1) | intros; contradiction]. }
    destruct (Z.eqb_spec sz 0) as [S|S]; cbn [negb].
    { exists PNull, hh, []. spl; auto; [exact (ownl_nulls 1) | intros _; left; exact S | rewrite S; reflexivity]. }
    unfold smalloc, lbind, deref. rewrite (live_has _ _ _ Hh Ih). destruct (Z.eqb_spec (sz * esize) 0) as [Q|Q]; [nia|].
    destruct (alloc_ok OLib KData (sz * esize) _ _ Hh) as (b & h' & A & B & C & D & F). exists (PTo (b_id b)), h', [b].
    split; [exact A|]. split; [exact B|]. split; [apply ownl_one; auto|]. split; [intros; contradiction|]. split; [|cbn; unfold dbytes1; rewrite D; lia].
    intros _. right. exists b. spl; auto; [left; reflexivity | rewrite F; lia]. }
  assert (In mb (n2 ++ n1 ++ lib ++ rest)) as I2 by (rewrite !in_app_iff; auto).
  destruct (BUF ssz h2 _ H2 I2) as (sb & h3 & n3 & E3 & H3 & O3 & Z3 & B3 & D3).
  destruct (BUF rsz h3 _ H3 ltac:(apply in_or_app; right; exact I2)) as (rb & h4 & n4 & E4 & H4 & O4 & Z4 & B4 & D4).
  eexists _, h4, (n4 ++ n3 ++ n2 ++ n1). split.
  { unfold setup_fobj. rewrite E, andb_false_r. fold mf. unfold lbind at 1. rewrite UR. replace (nrem dim3) with (List.length (s_remaps sh)) by exact L2.
    rewrite E1. cbv beta iota. unfold lbind at 1. rewrite E2. rewrite SZ. cbv beta iota. rewrite Em, US, UV. unfold lbind at 1. rewrite E3. cbv beta iota.
    unfold lbind at 1. rewrite E4. reflexivity. }
  split; [rewrite <- !app_assoc; exact H4|].
  match goal with |- inv _ _ ?x _ /\ _ => set (o' := x) end.
  assert (base_ptrs o' = base_ptrs o) as BP by (unfold base_ptrs; cbn; rewrite Em; reflexivity).
  assert (ownl (setup_ptrs o' ++ (if negb (mf =? 0) then [sb; rb] else [])) (n4 ++ n3 ++ n2 ++ n1)) as OS.
  { apply (ownl_perm_r _ ((n1 ++ n2) ++ n3 ++ n4)).
    { rewrite <- app_assoc. transitivity (n3 ++ n4 ++ n1 ++ n2).
      - rewrite !app_assoc. rewrite <- (app_assoc (n1 ++ n2)). rewrite <- (app_assoc (n3 ++ n4)). apply Permutation_app_comm.
      - rewrite perm_mid. do 2 apply Permutation_app_head. apply Permutation_app_comm. }
    apply ownl_app.
    - unfold setup_ptrs, o'. cbn [o_remaps o_dims o_ffts]. apply ownl_app; assumption.
    - destruct (Z.eqb_spec mf 0) as [M|M]; cbn [negb].
      + destruct (Z3 M) as [_ ->], (Z4 M) as [_ ->]. apply ownl_nil.
      + change [sb; rb] with ([sb] ++ [rb]). apply ownl_app; assumption. }
  spl.
  - unfold inv. spl.
    + eexists; reflexivity.
    + unfold all_ptrs. rewrite BP. unfold o' at 1. cbn [o_setup]. apply (ownl_perm_r _ (lib ++ (n4 ++ n3 ++ n2 ++ n1))); [apply Permutation_app_comm|].
      apply ownl_app; assumption.
    + discriminate.
    + intros _. unfold isset. spl.
      * unfold ffts_set. destruct dim3; unfold o'; cbn [o_dims o_ffts]; exact S2.
      * exact S1.
      * unfold o', setup_ptrs. cbn [o_remaps o_ffts o_dims]. intros p I. apply in_app_or in I as [I|I].
        -- apply F1 in I as [? ?]. split; auto. rewrite !in_app_iff. auto.
        -- apply F2 in I as [? I]. split; auto. apply in_or_app. auto.
      * unfold o'. cbn [o_remaps]. rewrite LL1, L2. reflexivity.
  - unfold after_setup, o'. cbn [o_setup o_set o_memflag o_smem o_sizes o_remaps o_dims]. rewrite UM, orb_false_r. spl; auto.
  - intros M. unfold o'. cbn [o_send o_recv]. 
    assert (forall a b n p, buf a n p -> incl a b -> buf b n p) as BM.
    { intros a b n p [->|(x & ? & ? & ?)] I; [left; reflexivity | right; exists x; auto]. }
    split; [apply (BM n3); [exact (B3 M)|] | apply (BM n4); [exact (B4 M)|]]; intros x; rewrite !in_app_iff; auto.
  - intros M. unfold o'. cbn [o_send o_recv]. split; [apply Z3 | apply Z4]; exact M.
  - rewrite !dbytes_app, D1, D2, D3, D4. unfold own_bytes. rewrite SZ. cbn [fst snd]. unfold all_cnts. destruct (mf =? 0); lia.
  - unfold o'. cbn [o_usage]. rewrite U1. unfold said_bytes. rewrite SZ. cbn [fst snd]. unfold all_cnts. destruct (mf =? 0); lia.
  - exact BP.
Qed.

(** setup() that returns had a shape of the right form *)
Lemma make_remaps_len old ks h x : make_remaps false esize plsize rqsize ptsize nprocs xsize old ks h = LOk x -> List.length ks = List.length old.
Proof using Type.
  revert ks h x. induction old as [|a t IH]; intros [|k ks] h x E; try discriminate; [reflexivity|]. cbn [make_remaps] in E. unfold lbind at 1 in E.
  destruct (make_remap _ _ _ _ _ _ _ a k h) as [?| |[r h1]]; try discriminate. unfold lbind in E.
  destruct (make_remaps _ _ _ _ _ _ _ t ks h1) as [?| |[rs h2]] eqn:F; try discriminate. apply IH in F. cbn. lia.
Qed.

Lemma setup_fobj_len dim3 o lib rest h sh x : inv dim3 false o lib -> o_setup o = false -> has h (lib ++ rest) ->
  setup_fobj' dim3 (SOk sh) o h = LOk x -> shape_len dim3 sh = true.
Proof using Type.
  intros (_ & _ & U & _) E H F. destruct (U E) as (_ & UR & _). unfold setup_fobj in F. rewrite E, andb_false_r in F.
  unfold lbind at 1 in F. destruct (make_remaps _ _ _ _ _ _ _ (o_remaps o) (s_remaps sh) h) as [?| |[rs h1]] eqn:M; try discriminate.
  apply make_remaps_len in M. rewrite UR, repeat_length in M. unfold shape_len. rewrite M, Nat.eqb_refl, andb_true_r.
  destruct dim3.
  - destruct (s_dims sh) as [|a [|b [|c [|? ?]]]]; try discriminate F. reflexivity.
  - destruct (s_dims sh) as [|a [|c [|? ?]]]; try discriminate F. reflexivity.
Qed.

(** ** deallocation *)
Lemma base_split dim3 ob o lib : inv dim3 ob o lib -> exists la lb, Permutation lib (la ++ lb) /\ ownl (base_ptrs o) la /\
   ownl ((if o_setup o then setup_ptrs o else []) ++ (if ob then [o_send o; o_recv o] else [])) lb.
Proof using Type. intros (_ & O & _). apply ownl_split in O. exact O. Qed.

Lemma dealloc_setup_ok dim3 ob o lib rest h : inv dim3 ob o lib -> o_setup o = true -> has h (lib ++ rest) ->
  exists o' h' lib', dealloc_setup false dim3 o h = LOk (o', h') /\ has h' (lib' ++ rest) /\
    ownl (base_ptrs o ++ (if ob then [o_send o; o_recv o] else [])) lib' /\
    o' = mkfobj (o_mem o) (o_err o) (o_primes o) (o_factors o) (o_set o) (o_memflag o) false (o_smem o) (o_dims o)
          (repeat None (nrem dim3)) (repeat None (nfft dim3)) (o_send o) (o_recv o) (o_sizes o) (o_usage o).
Proof using Type.
  intros (T & O & U & S) E H. destruct (S E) as (F & PS & W & LN). unfold all_ptrs in O. rewrite E in O.
  apply ownl_split in O as (la & l1 & P1 & O1 & O2). apply ownl_split in O2 as (lb & lc & P2 & O2 & O3).
  rewrite (dealloc_setup_eq dim3 o h F PS (proj1 O2)).
  destruct (free_all_ok (setup_ptrs o) lb ((la ++ lc) ++ rest) h O2) as (h' & E' & H').
  { eapply has_perm; [|exact H]. rewrite P1, P2. rewrite <- !app_assoc. rewrite perm_mid. reflexivity. }
  rewrite E'. eexists _, h', (la ++ lc). split; [reflexivity|]. split; [exact H'|]. split; [apply ownl_app; auto|].
  f_equal; [rewrite LN; reflexivity|]. f_equal. unfold ffts_set in F. destruct dim3; [destruct F as (? & ? & ? & ? & ? & ? & _ & ->) | destruct F as (? & ? & ? & ? & _ & ->)]; reflexivity.
Qed.

Lemma dealloc_memory_ok o lib rest h : ownl (base_ptrs o ++ [o_send o; o_recv o]) lib -> has h (lib ++ rest) ->
  exists h' lib', dealloc_memory false o h = LOk (mkfobj (o_mem o) (o_err o) (o_primes o) (o_factors o) (o_set o) (o_memflag o) (o_setup o) false (o_dims o)
          (o_remaps o) (o_ffts o) PNull PNull (o_sizes o) (o_usage o), h') /\ has h' (lib' ++ rest) /\ ownl (base_ptrs o) lib'.
Proof using Type.
  intros O H. apply ownl_split in O as (la & lb & P & O1 & O2).
  destruct (free_all_ok _ lb (la ++ rest) h O2) as (h' & E & H').
  { eapply has_perm; [|exact H]. rewrite P, <- app_assoc. apply perm_mid. }
  exists h', la. spl; auto. unfold dealloc_memory, lbind. rewrite !sfree_lenient. rewrite free_all_cons in E.
  destruct (free (o_send o) h) as [?| |[[] h1]]; try discriminate. rewrite free_all_single in E. rewrite sfree_lenient, E. reflexivity.
Qed.

(** ** destructors *)
Lemma del_fobj3_ok o lib rest h : inv true (negb (o_memflag o =? 0)) o lib \/ (inv true false o lib /\ o_setup o = false) ->
  has h (lib ++ rest) -> exists h', del_fobj3 false o h = LOk (tt, h') /\ has h' rest.
Proof using Type.
  intros I H.
  assert (exists ob, inv true ob o lib /\ (o_setup o = true -> ob = negb (o_memflag o =? 0))) as (ob & IV & OB) by (destruct I as [I|[I E]]; [|rewrite E]; eexists; split; eauto; discriminate).
  clear I. destruct IV as (T & O & U & S). unfold all_ptrs in O. apply ownl_split in O as (la & l1 & P1 & O1 & O2). apply ownl_split in O2 as (lb & lc & P2 & O2 & O3).
  assert (has h (la ++ lb ++ lc ++ rest)) as H1.
  { eapply has_perm; [|exact H]. rewrite P1, P2, <- !app_assoc. reflexivity. }
  destruct (free_all_ok _ _ _ _ O1 H1) as (h1 & E1 & H2).
  assert (forall (k : LM unit), (free (o_mem o) ;;; free (o_err o) ;;; free (o_primes o) ;;; free (o_factors o) ;;; k) h = k h1) as STEP.
  { intros k. unfold base_ptrs in E1. rewrite !free_all_cons in E1. unfold lbind. destruct (free (o_mem o) h) as [?| |[[] g]]; try discriminate. rewrite !free_all_cons in E1.
    destruct (free (o_err o) g) as [?| |[[] g1]]; try discriminate. rewrite !free_all_cons in E1.
    destruct (free (o_primes o) g1) as [?| |[[] g2]]; try discriminate. rewrite free_all_single in E1. rewrite E1. reflexivity. }
  unfold del_fobj3. rewrite STEP. clear STEP E1 H1 H.
  destruct (o_setup o) eqn:E.
  - specialize (OB eq_refl). subst ob. destruct (S eq_refl) as (F & PS & _ & _). unfold lbind at 1. rewrite (dealloc_setup_eq true o h1 F PS (proj1 O2)).
    destruct (free_all_ok _ _ _ _ O2 H2) as (h3 & E3 & H3). rewrite E3. cbn [o_memflag]. destruct (o_memflag o =? 0); cbn [negb] in O3.
    + assert (lc = []) as ->. { destruct O3 as (_ & Q & _). cbn in Q. apply Permutation_nil, map_eq_nil in Q. exact Q. }
      exists h3. split; [reflexivity | exact H3].
    + unfold lbind, dealloc_memory. cbn [o_mem o_send o_recv]. destruct (free_all_ok _ _ _ _ O3 H3) as (h4 & E4 & H4). rewrite free_all_cons in E4.
      unfold lbind. rewrite sfree_lenient. destruct (free (o_send o) h3) as [?| |[[] g]]; try discriminate. rewrite free_all_single in E4. rewrite sfree_lenient, E4.
      exists h4. split; [reflexivity | exact H4].
  - destruct (U eq_refl) as (-> & _ & _ & _ & US & UV). unfold lbind at 1, lret at 1.
    assert (lb = []) as ->. { destruct O2 as (_ & Q & _). cbn in Q. apply Permutation_nil, map_eq_nil in Q. exact Q. }
    assert (lc = []) as ->. { destruct O3 as (_ & Q & _). cbn in Q. apply Permutation_nil, map_eq_nil in Q. exact Q. }
    exists h1. split; [|exact H2]. destruct (o_memflag o =? 0); [reflexivity|]. unfold dealloc_memory. rewrite US, UV. reflexivity.
Qed.

Lemma del_fobj2_ok o lib rest h : inv false (negb (o_memflag o =? 0)) o lib -> o_setup o = true ->
  has h (lib ++ rest) -> exists h', del_fobj2 false o h = LOk (tt, h') /\ has h' rest.
Proof using Type.
  intros (T & O & _ & S) E H. unfold all_ptrs in O. rewrite E in O. apply ownl_split in O as (la & l1 & P1 & O1 & O2). apply ownl_split in O2 as (lb & lc & P2 & O2 & O3).
  assert (has h (la ++ lb ++ lc ++ rest)) as H1.
  { eapply has_perm; [|exact H]. rewrite P1, P2, <- !app_assoc. reflexivity. }
  destruct (free_all_ok _ _ _ _ O1 H1) as (h1 & E1 & H2).
  assert (forall (k : LM unit), (free (o_mem o) ;;; free (o_err o) ;;; free (o_primes o) ;;; free (o_factors o) ;;; k) h = k h1) as STEP.
  { intros k. unfold base_ptrs in E1. rewrite !free_all_cons in E1. unfold lbind. destruct (free (o_mem o) h) as [?| |[[] g]]; try discriminate. rewrite !free_all_cons in E1.
    destruct (free (o_err o) g) as [?| |[[] g1]]; try discriminate. rewrite !free_all_cons in E1.
    destruct (free (o_primes o) g1) as [?| |[[] g2]]; try discriminate. rewrite free_all_single in E1. rewrite E1. reflexivity. }
  unfold del_fobj2. rewrite STEP. clear STEP E1 H1 H.
  destruct (S E) as (F & PS & _ & _). pose proof (dealloc_setup_eq false o h1 F PS (proj1 O2)) as D. unfold dealloc_setup in D.
  destruct (free_all_ok _ _ _ _ O2 H2) as (h3 & E3 & H3). rewrite E3 in D. unfold lbind in D |- *.
  destruct (seqM (map (del_remap false) (o_remaps o)) h1) as [?| |[[] g1]]; try discriminate.
  destruct (dealloc_ffts2 (o_dims o) (o_ffts o) g1) as [?| |[[] g2]]; try discriminate.
  destruct (seqM (map del_f1d (o_ffts o)) g2) as [?| |[[] g3]]; try discriminate. injection D as ->.
  destruct (o_memflag o =? 0); cbn [negb] in O3.
  - assert (lc = []) as ->. { destruct O3 as (_ & Q & _). cbn in Q. apply Permutation_nil, map_eq_nil in Q. exact Q. }
    exists h3. split; [reflexivity | exact H3].
  - destruct (free_all_ok _ _ _ _ O3 H3) as (h4 & E4 & H4). rewrite free_all_cons in E4. rewrite sfree_lenient.
    destruct (free (o_send o) h3) as [?| |[[] g]]; try discriminate. rewrite free_all_single in E4. rewrite sfree_lenient, E4.
    exists h4. split; [reflexivity | exact H4].
Qed.

Lemma new_fobj_ok dim3 prec h bs : has h bs -> (prec = 1 /\ esize = 4) \/ (prec = 2 /\ esize = 8) ->
  exists o h' lib, new_fobj esize dim3 prec h = LOk (o, h') /\ has h' (lib ++ bs) /\ inv dim3 false o lib /\
    o_setup o = false /\ o_memflag o = 1 /\ o_set o = mkset 2 0 (if dim3 then 2 else 0).
Proof using esize_pos.
  intros H P.
  destruct (alloc_ok OLib KObj 0 _ _ H) as (x1 & h1 & E1 & H1 & A1 & _ & _).
  destruct (alloc_ok OLib KObj 0 _ _ H1) as (x2 & h2 & E2 & H2 & A2 & _ & _).
  destruct (alloc_ok OLib KObj 0 _ _ H2) as (x3 & h3 & E3 & H3 & A3 & _ & _).
  destruct (alloc_ok OLib KObj 0 _ _ H3) as (x4 & h4 & E4 & H4 & A4 & _ & _).
  eexists _, h4, [x4; x3; x2; x1]. split.
  { unfold new_fobj, lbind. rewrite E1, E2. destruct P as [[-> ->]|[-> ->]]; cbn [Z.eqb Pos.eqb negb andb orb]; rewrite E3, E4; reflexivity. }
  split; [exact H4|]. unfold inv. cbn [o_setup o_memflag o_set o_mem]. spl; auto; try discriminate.
  - eexists; reflexivity.
  - unfold all_ptrs, base_ptrs. cbn [o_mem o_err o_primes o_factors o_setup app].
    apply (ownl_perm_r _ ([x1] ++ [x2] ++ [x3] ++ [x4])).
    + cbn. change [x1; x2; x3; x4] with (rev [x4; x3; x2; x1]). apply Permutation_sym, Permutation_rev.
    + change [PTo (b_id x1); PTo (b_id x2); PTo (b_id x3); PTo (b_id x4)] with ([PTo (b_id x1)] ++ [PTo (b_id x2)] ++ [PTo (b_id x3)] ++ [PTo (b_id x4)]).
      repeat apply ownl_app; apply ownl_one; auto.
  - intros _. split; [reflexivity|]. unfold unset. spl; reflexivity.
Qed.
End Obj.
