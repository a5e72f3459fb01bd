(** LifeFft.v : ownership reasoning for FFT3d and FFT2d objects. *)

From Coq Require Import Permutation.
From Verif Require Import Base Setup3d Life LifeProofs.

(** ** what an FFT object owns, in the order in which the destructor frees it *)

Definition rstruct_ptrs (q : rstruct) : list ptr :=
  pair_ptrs (rs_main q) ++ match rs_extra q with None => [] | Some x => pair_ptrs x end ++ [rs_blk q].
Definition oremap_ptrs (r : option rstruct) : list ptr := match r with None => [] | Some q => rstruct_ptrs q end.
Definition f1d_plans (f : option f1d) : list ptr := match f with None => [] | Some q => [p_fwd q; p_bwd q] end.
Definition f1d_blk (f : option f1d) : list ptr := match f with None => [] | Some q => [p_blk q] end.

Definition plan_ptrs (dims : option (list Z)) (fs : list (option f1d)) : list ptr :=
  match dims, fs with
  | Some [nfast; nmid; nslow], [fast; mid; slow] =>
    (if negb (nslow =? nfast) && negb (nslow =? nmid) then f1d_plans slow else []) ++
    (if negb (nmid =? nfast) then f1d_plans mid else []) ++ f1d_plans fast
  | Some [nfast; nslow], [fast; slow] =>
    (if negb (nslow =? nfast) then f1d_plans slow else []) ++ f1d_plans fast
  | _, _ => []
  end.

Definition setup_ptrs (o : fobj) : list ptr :=
  flat_map oremap_ptrs (o_remaps o) ++ plan_ptrs (o_dims o) (o_ffts o) ++ flat_map f1d_blk (o_ffts o).
Definition base_ptrs (o : fobj) : list ptr := [o_mem o; o_err o; o_primes o; o_factors o].
Definition buf_ptrs (o : fobj) : list ptr := if o_memflag o =? 0 then [] else [o_send o; o_recv o].

(** ** the parts *)

Definition pair_set (x : ptr * robj) : Prop := r_memflag (snd x) = Some 0 /\ r_setup (snd x) = true.
Definition pairs_of_struct (q : rstruct) : list (ptr * robj) := rs_main q :: match rs_extra q with None => [] | Some x => [x] end.
(** the pointers that compute follows *)
Definition follow_remap (r : option rstruct) : list ptr := match r with None => [] | Some q => rs_blk q :: map fst (pairs_of_struct q) end.
Definition follow_f1d (f : option f1d) : list ptr := match f with None => [] | Some q => [p_blk q; p_fwd q; p_bwd q] end.
Definition oremap_pairs (r : option rstruct) : list (ptr * robj) := match r with None => [] | Some q => pairs_of_struct q end.

Lemma free_all_single p h : free_all [p] h = free p h.
Proof. rewrite free_all_cons. destruct (free p h) as [?| |[[] ?]]; reflexivity. Qed.

Lemma del_pair_eq x h : r_memflag (snd x) = Some 0 -> Forall defined (pair_ptrs x) -> del_pair false x h = free_all (pair_ptrs x) h.
Proof.
  intros E D. unfold pair_ptrs in *. apply Forall_app in D as [D _]. unfold del_pair. unfold lbind.
  rewrite (del_robj_eq _ 0 h E D), free_all_app. destruct (free_all (robj_ptrs (snd x)) h) as [?| |[[] ?]]; auto. rewrite free_all_single. reflexivity.
Qed.

Lemma del_remap_eq r h : (forall x, In x (oremap_pairs r) -> pair_set x) -> Forall defined (oremap_ptrs r) ->
  del_remap false r h = free_all (oremap_ptrs r) h.
Proof.
  destruct r as [q|]; [|reflexivity]. cbn [oremap_pairs oremap_ptrs]. unfold pairs_of_struct, rstruct_ptrs. intros S D.
  apply Forall_app in D as [D1 D2]. apply Forall_app in D2 as [D2 _]. unfold del_remap. unfold lbind at 1.
  rewrite (del_pair_eq _ h (proj1 (S _ (or_introl eq_refl))) D1), free_all_app.
  destruct (free_all (pair_ptrs (rs_main q)) h) as [?| |[[] h1]]; auto.
  destruct (rs_extra q) as [x|].
  - unfold lbind. rewrite (del_pair_eq _ h1 (proj1 (S _ (or_intror (or_introl eq_refl)))) D2), free_all_app.
    destruct (free_all (pair_ptrs x) h1) as [?| |[[] h2]]; auto. rewrite free_all_single. reflexivity.
  - cbn [app]. unfold lbind, lret. rewrite free_all_single. reflexivity.
Qed.

Lemma del_remaps_eq rs h : (forall x, In x (flat_map oremap_pairs rs) -> pair_set x) -> Forall defined (flat_map oremap_ptrs rs) ->
  seqM (map (del_remap false) rs) h = free_all (flat_map oremap_ptrs rs) h.
Proof.
  revert h. induction rs as [|r t IH]; intros h S D; [reflexivity|]. cbn [map seqM flat_map] in *. apply Forall_app in D as [D1 D2].
  unfold lbind. rewrite del_remap_eq; [|intros; apply S, in_or_app; auto | exact D1]. rewrite free_all_app.
  destruct (free_all (oremap_ptrs r) h) as [?| |[[] h1]]; auto. apply IH; [intros; apply S, in_or_app; auto | exact D2].
Qed.

Lemma free_plans_eq q h : free_plans (Some q) h = free_all (f1d_plans (Some q)) h.
Proof. cbn [free_plans f1d_plans]. unfold lbind. rewrite free_all_cons. destruct (free (p_fwd q) h) as [?| |[[] h1]]; auto. rewrite free_all_single. reflexivity. Qed.

Lemma dealloc_ffts3_eq a b c f m s h : dealloc_ffts3 (Some [a; b; c]) [Some f; Some m; Some s] h = free_all (plan_ptrs (Some [a; b; c]) [Some f; Some m; Some s]) h.
Proof.
  unfold dealloc_ffts3, plan_ptrs. rewrite free_all_app. unfold lbind at 1.
  assert (forall (q : bool) g hh, (if q then free_plans (Some g) else lret tt) hh = free_all (if q then f1d_plans (Some g) else []) hh) as B.
  { intros [] g hh; [apply free_plans_eq | reflexivity]. }
  rewrite B. destruct (free_all (if negb (c =? a) && negb (c =? b) then f1d_plans (Some s) else []) h) as [?| |[[] h1]]; auto.
  rewrite free_all_app. unfold lbind. rewrite B. destruct (free_all (if negb (b =? a) then f1d_plans (Some m) else []) h1) as [?| |[[] h2]]; auto.
  apply free_plans_eq.
Qed.
Lemma dealloc_ffts2_eq a c f s h : dealloc_ffts2 (Some [a; c]) [Some f; Some s] h = free_all (plan_ptrs (Some [a; c]) [Some f; Some s]) h.
Proof.
  unfold dealloc_ffts2, plan_ptrs. rewrite free_all_app. unfold lbind at 1.
  assert (forall (q : bool) g hh, (if q then free_plans (Some g) else lret tt) hh = free_all (if q then f1d_plans (Some g) else []) hh) as B.
  { intros [] g hh; [apply free_plans_eq | reflexivity]. }
  rewrite B. destruct (free_all (if negb (c =? a) then f1d_plans (Some s) else []) h) as [?| |[[] h1]]; auto. apply free_plans_eq.
Qed.

Lemma del_f1ds_eq fs h : seqM (map del_f1d fs) h = free_all (flat_map f1d_blk fs) h.
Proof.
  revert h. induction fs as [|f t IH]; intros h; [reflexivity|]. cbn [map seqM flat_map]. rewrite free_all_app. unfold lbind.
  destruct f as [q|]; cbn [del_f1d f1d_blk].
  - rewrite free_all_single. destruct (free (p_blk q) h) as [?| |[[] h1]]; auto.
  - apply IH.
Qed.

(** the shape of the transforms after setup *)
Definition ffts_set (dim3 : bool) (o : fobj) : Prop :=
  if dim3 then exists a b c f m s, o_dims o = Some [a; b; c] /\ o_ffts o = [Some f; Some m; Some s]
  else exists a c f s, o_dims o = Some [a; c] /\ o_ffts o = [Some f; Some s].

Lemma dealloc_setup_eq dim3 o h : ffts_set dim3 o -> (forall x, In x (flat_map oremap_pairs (o_remaps o)) -> pair_set x) ->
  Forall defined (setup_ptrs o) ->
  dealloc_setup false dim3 o h =
  match free_all (setup_ptrs o) h with
  | LHalt s => LHalt s | LUB => LUB
  | LOk (_, h') => LOk (mkfobj (o_mem o) (o_err o) (o_primes o) (o_factors o) (o_set o) (o_memflag o) false (o_smem o) (o_dims o)
          (repeat None (List.length (o_remaps o))) (repeat None (List.length (o_ffts o))) (o_send o) (o_recv o) (o_sizes o) (o_usage o), h')
  end.
Proof.
  intros F S D. unfold setup_ptrs in *. apply Forall_app in D as [D1 D2]. unfold dealloc_setup. unfold lbind at 1.
  rewrite (del_remaps_eq _ _ S D1), free_all_app. destruct (free_all (flat_map oremap_ptrs (o_remaps o)) h) as [?| |[[] h1]]; auto.
  assert ((if dim3 then dealloc_ffts3 (o_dims o) (o_ffts o) else dealloc_ffts2 (o_dims o) (o_ffts o)) h1 = free_all (plan_ptrs (o_dims o) (o_ffts o)) h1) as B.
  { destruct dim3; cbn [ffts_set] in F.
    - destruct F as (a & b & c & f & m & s & -> & ->). apply dealloc_ffts3_eq.
    - destruct F as (a & c & f & s & -> & ->). apply dealloc_ffts2_eq. }
  unfold lbind at 1. rewrite B, free_all_app. destruct (free_all (plan_ptrs (o_dims o) (o_ffts o)) h1) as [?| |[[] h2]]; auto.
  unfold lbind at 1. rewrite del_f1ds_eq. destruct (free_all (flat_map f1d_blk (o_ffts o)) h2) as [?| |[[] h3]]; auto.
Qed.

(** ** setup *)

Section FftSetup.
Variable esize plsize rqsize ptsize nprocs xsize : Z.
Local Notation make_robj' := (make_robj false esize plsize rqsize ptsize nprocs xsize).
Local Notation make_remap' := (make_remap false esize plsize rqsize ptsize nprocs xsize).
Local Notation make_remaps' := (make_remaps false esize plsize rqsize ptsize nprocs xsize).
Local Notation setup_fobj' := (setup_fobj false esize plsize rqsize ptsize nprocs xsize).

Definition cbytes (k : Z * rcnt) : Z := rbytes esize plsize rqsize (snd k) (negb (fst k =? 0)) 0.
Definition cusage (k : Z * rcnt) : Z := rusage esize plsize ptsize (snd k) (negb (fst k =? 0)) 0.
Definition kcnts (k : option rmk) : list (Z * rcnt) := match k with None => [] | Some q => k_main q :: match k_extra q with None => [] | Some x => [x] end end.
Definition zsum {X} (f : X -> Z) (l : list X) : Z := fold_right (fun x s => f x + s) 0 l.

Lemma zsum_app {X} (f : X -> Z) a b : zsum f (a ++ b) = zsum f a + zsum f b.
Proof. unfold zsum. induction a as [|x t IH]; cbn [app fold_right]; [reflexivity|]. rewrite IH. lia. Qed.
Lemma zsum_cons {X} (f : X -> Z) x t : zsum f (x :: t) = f x + zsum f t.
Proof. reflexivity. Qed.
Lemma zsum_nil {X} (f : X -> Z) : zsum f [] = 0.
Proof. reflexivity. Qed.

Definition needs_match (r : option rstruct) (k : option rmk) : Prop :=
  map (fun x => r_need (snd x)) (oremap_pairs r) = map (fun c => (c_ssize (snd c), c_rsize (snd c))) (kcnts k).

Lemma make_remap_ok k h bs : has h bs ->
  exists r h' nb, make_remap' None k h = LOk (r, h') /\ has h' (nb ++ bs) /\ ownl (oremap_ptrs r) nb /\
    (forall x, In x (oremap_pairs r) -> pair_set x) /\ (forall p, In p (follow_remap r) -> is_to p /\ In p (oremap_ptrs r)) /\ needs_match r k /\
    dbytes nb = zsum cbytes (kcnts k) /\ remap_usage r = zsum cusage (kcnts k).
Proof.
  intros H. destruct k as [k|].
  2:{ exists None, h, []. cbn. spl; auto; [apply ownl_nil | contradiction | contradiction | reflexivity]. }
  destruct (alloc_ok OLib KObj 0 _ _ H) as (b & h1 & E1 & H1 & A1 & B1 & _).
  destruct (make_robj_ok esize plsize rqsize ptsize nprocs xsize (k_main k) h1 _ H1) as (m & h2 & n2 & E2 & H2 & O2 & T2 & M2 & S2 & N2 & D2 & U2).
  destruct k as [km [ke|]]; cbn [k_main k_extra] in *.
  - destruct (make_robj_ok esize plsize rqsize ptsize nprocs xsize ke h2 _ H2) as (x & h3 & n3 & E3 & H3 & O3 & T3 & M3 & S3 & N3 & D3 & U3).
    exists (Some (mkrstruct (PTo (b_id b)) m (Some x))), h3, (n3 ++ n2 ++ [b]). spl.
    + unfold make_remap, lbind. cbn [k_main k_extra]. rewrite E1, E2, E3. reflexivity.
    + rewrite <- !app_assoc. exact H3.
    + cbn [oremap_ptrs]. unfold rstruct_ptrs. cbn [rs_main rs_extra rs_blk].
      apply (ownl_perm_r _ (n2 ++ n3 ++ [b])); [apply perm_mid|]. repeat apply ownl_app; auto. apply ownl_one, A1.
    + cbn. intros y [<-|[<-|[]]]; split; assumption.
    + cbn [follow_remap pairs_of_struct rs_blk rs_main rs_extra map oremap_ptrs]. unfold rstruct_ptrs, pair_ptrs. cbn [rs_blk rs_main rs_extra].
      intros p [<-|[<-|[<-|[]]]]; (split; [first [assumption | eexists; reflexivity] |]); rewrite !in_app_iff; cbn [In]; auto.
    + unfold needs_match. cbn. rewrite N2, N3. reflexivity.
    + rewrite !dbytes_app, D2, D3. cbn [kcnts k_main k_extra]. rewrite !zsum_cons, zsum_nil. unfold cbytes. cbn. unfold dbytes1. rewrite B1. lia.
    + cbn [remap_usage rs_main rs_extra kcnts k_main k_extra]. rewrite U2, U3, !zsum_cons, zsum_nil. unfold cusage. lia.
  - exists (Some (mkrstruct (PTo (b_id b)) m None)), h2, (n2 ++ [b]). spl.
    + unfold make_remap, lbind. cbn [k_main k_extra]. rewrite E1, E2. reflexivity.
    + rewrite <- !app_assoc. exact H2.
    + cbn [oremap_ptrs]. unfold rstruct_ptrs. cbn [rs_main rs_extra rs_blk app]. apply ownl_app; auto. apply ownl_one, A1.
    + cbn. intros y [<-|[]]; split; assumption.
    + cbn [follow_remap pairs_of_struct rs_blk rs_main rs_extra map oremap_ptrs]. unfold rstruct_ptrs, pair_ptrs. cbn [rs_blk rs_main rs_extra].
      intros p [<-|[<-|[]]]; (split; [first [assumption | eexists; reflexivity] |]); rewrite !in_app_iff; cbn [In]; auto.
    + unfold needs_match. cbn. rewrite N2. reflexivity.
    + rewrite !dbytes_app, D2. cbn [kcnts k_main k_extra]. rewrite !zsum_cons, zsum_nil. unfold cbytes. cbn. unfold dbytes1. rewrite B1. lia.
    + cbn [remap_usage rs_main rs_extra kcnts k_main k_extra]. rewrite U2, !zsum_cons, zsum_nil. unfold cusage. lia.
Qed.

Lemma remap_memory_cons r rs : remap_memory (r :: rs) = remap_usage r + remap_memory rs.
Proof.
  unfold remap_memory. cbn [fold_left]. assert (forall l a, fold_left (fun s x => s + remap_usage x) l a = a + fold_left (fun s x => s + remap_usage x) l 0) as F.
  { induction l as [|x t IH]; intros a; cbn [fold_left]; [lia|]. rewrite IH, (IH (0 + remap_usage x)). lia. }
  rewrite F. lia.
Qed.

Lemma make_remaps_ok ks h bs : has h bs ->
  exists rs h' nb, make_remaps' (repeat None (List.length ks)) ks h = LOk (rs, h') /\ has h' (nb ++ bs) /\
    ownl (flat_map oremap_ptrs rs) nb /\ (forall x, In x (flat_map oremap_pairs rs) -> pair_set x) /\
    (forall p, In p (flat_map follow_remap rs) -> is_to p /\ In p (flat_map oremap_ptrs rs)) /\
    map (fun x => r_need (snd x)) (flat_map oremap_pairs rs) = map (fun c => (c_ssize (snd c), c_rsize (snd c))) (flat_map kcnts ks) /\
    List.length rs = List.length ks /\
    dbytes nb = zsum cbytes (flat_map kcnts ks) /\ remap_memory rs = zsum cusage (flat_map kcnts ks).
Proof.
  revert h bs. induction ks as [|k t IH]; intros h bs H.
  - exists [], h, []. cbn. spl; auto; [apply ownl_nil | contradiction | contradiction].
  - destruct (make_remap_ok k h bs H) as (r & h1 & n1 & E1 & H1 & O1 & S1 & F1 & N1 & D1 & U1).
    destruct (IH h1 _ H1) as (rs & h2 & n2 & E2 & H2 & O2 & S2 & F2 & N2 & L2 & D2 & U2).
    exists (r :: rs), h2, (n2 ++ n1). spl.
    + cbn [List.length repeat make_remaps]. unfold lbind. rewrite E1, E2. reflexivity.
    + rewrite <- app_assoc. exact H2.
    + cbn [flat_map]. apply (ownl_perm_r _ (n1 ++ n2)); [apply Permutation_app_comm|]. apply ownl_app; auto.
    + cbn [flat_map]. intros x I. apply in_app_or in I as [I|I]; auto.
    + cbn [flat_map]. intros p I. rewrite in_app_iff. apply in_app_or in I as [I|I]; [apply F1 in I as [? ?] | apply F2 in I as [? ?]]; auto.
    + cbn [flat_map]. rewrite !map_app, N2. f_equal. exact N1.
    + cbn. lia.
    + cbn [flat_map]. rewrite dbytes_app, zsum_app. lia.
    + rewrite remap_memory_cons. cbn [flat_map]. rewrite zsum_app. lia.
Qed.

Lemma setup_ffts3_ok a b c h bs : has h bs ->
  exists f m s h' nb, setup_ffts3 a b c h = LOk ([Some f; Some m; Some s], h') /\ has h' (nb ++ bs) /\
    ownl (plan_ptrs (Some [a; b; c]) [Some f; Some m; Some s] ++ flat_map f1d_blk [Some f; Some m; Some s]) nb /\ dbytes nb = 0 /\
    (forall p, In p (flat_map follow_f1d [Some f; Some m; Some s]) -> is_to p /\ In p (plan_ptrs (Some [a; b; c]) [Some f; Some m; Some s] ++ flat_map f1d_blk [Some f; Some m; Some s])).
Proof.
  intros H. unfold setup_ffts3, kiss_alloc.
  destruct (alloc_ok OLib KObj 0 _ _ H) as (x1 & h1 & E1 & H1 & A1 & B1 & _).
  destruct (alloc_ok OLib KObj 0 _ _ H1) as (x2 & h2 & E2 & H2 & A2 & B2 & _).
  destruct (alloc_ok OLib KObj 0 _ _ H2) as (x3 & h3 & E3 & H3 & A3 & B3 & _).
  destruct (alloc_ok OLib KObj 0 _ _ H3) as (x4 & h4 & E4 & H4 & A4 & B4 & _).
  destruct (alloc_ok OLib KObj 0 _ _ H4) as (x5 & h5 & E5 & H5 & A5 & B5 & _).
  unfold lbind at 1. rewrite E1. unfold lbind at 1. rewrite E2. unfold lbind at 1. rewrite E3. unfold lbind at 1. rewrite E4.
  unfold lbind at 1. rewrite E5. cbv beta iota.
  assert (forall (q : bool) (old : ptr * ptr) hh bb, has hh bb -> exists p hh' nn,
     (if q then lret old else a0 <~ alloc OLib KObj 0 ;; b0 <~ alloc OLib KObj 0 ;; lret (a0, b0)) hh = LOk (p, hh') /\ has hh' (nn ++ bb) /\
     (if q then p = old /\ nn = [] else (exists u v, p = (PTo u, PTo v)) /\ ownl [fst p; snd p] nn) /\ dbytes nn = 0) as TWO.
  { intros q old hh bb Hh. destruct q.
    - exists old, hh, []. spl; auto.
    - destruct (alloc_ok OLib KObj 0 _ _ Hh) as (y1 & g1 & F1 & G1 & C1 & K1 & _).
      destruct (alloc_ok OLib KObj 0 _ _ G1) as (y2 & g2 & F2 & G2 & C2 & K2 & _).
      exists (PTo (b_id y1), PTo (b_id y2)), g2, [y2; y1]. spl.
      + unfold lbind. rewrite F1, F2. reflexivity.
      + exact G2.
      + eexists _, _; reflexivity.
      + apply (ownl_perm_r _ ([y1] ++ [y2])); [apply perm_swap|]. change [fst (PTo (b_id y1), PTo (b_id y2)); snd (PTo (b_id y1), PTo (b_id y2))] with ([PTo (b_id y1)] ++ [PTo (b_id y2)]).
        apply ownl_app; apply ownl_one; auto.
      + cbn. unfold dbytes1. rewrite K1, K2. reflexivity. }
  destruct (TWO (b =? a) (PTo (b_id x4), PTo (b_id x5)) h5 _ H5) as (mid & h6 & n6 & E6 & H6 & O6 & D6).
  unfold lbind at 1. rewrite E6. cbv beta iota.
  assert (exists p hh' nn,
     (if c =? a then lret (PTo (b_id x4), PTo (b_id x5)) else if c =? b then lret mid else a0 <~ alloc OLib KObj 0 ;; b0 <~ alloc OLib KObj 0 ;; lret (a0, b0)) h6 = LOk (p, hh') /\
     has hh' (nn ++ n6 ++ x5 :: x4 :: x3 :: x2 :: x1 :: bs) /\
     (if c =? a then p = (PTo (b_id x4), PTo (b_id x5)) /\ nn = [] else if c =? b then p = mid /\ nn = [] else (exists u v, p = (PTo u, PTo v)) /\ ownl [fst p; snd p] nn) /\ dbytes nn = 0)
    as (slow & h7 & n7 & E7 & H7 & O7 & D7).
  { destruct (c =? a); [exact (TWO true (PTo (b_id x4), PTo (b_id x5)) h6 _ H6)|]. destruct (c =? b); [exact (TWO true mid h6 _ H6) | exact (TWO false mid h6 _ H6)]. }
  unfold lbind at 1. rewrite E7. cbv beta iota. unfold lret.
  eexists (mkf1d _ _ _), (mkf1d _ _ _), (mkf1d _ _ _), h7, (n7 ++ n6 ++ [x5; x4; x3; x2; x1]). split; [reflexivity|]. spl.
  - rewrite <- !app_assoc. exact H7.
  - apply (ownl_perm_r _ ((n7 ++ n6 ++ [x4] ++ [x5]) ++ [x1] ++ [x2] ++ [x3])).
    { rewrite <- !app_assoc. do 2 apply Permutation_app_head. cbn [app]. etransitivity; [apply perm_swap|]. do 2 apply perm_skip.
      etransitivity; [apply perm_swap|]. etransitivity; [apply perm_skip, perm_swap|]. apply perm_swap. }
    apply ownl_app.
    + cbn [plan_ptrs]. apply ownl_app; [|apply ownl_app].
      * rewrite (Z.eqb_sym c a), (Z.eqb_sym c b) in *. rewrite (Z.eqb_sym a c), (Z.eqb_sym b c) in *. destruct (c =? a); cbn [negb andb].
        -- destruct O7 as [_ ->]. apply ownl_nil.
        -- destruct (c =? b); cbn [negb]; [destruct O7 as [_ ->]; apply ownl_nil|]. exact (proj2 O7).
      * destruct (b =? a); cbn [negb]; [destruct O6 as [_ ->]; apply ownl_nil|]. exact (proj2 O6).
      * cbn [f1d_plans p_fwd p_bwd]. change [PTo (b_id x4); PTo (b_id x5)] with ([PTo (b_id x4)] ++ [PTo (b_id x5)]). apply ownl_app; apply ownl_one; auto.
    + cbn [flat_map f1d_blk p_blk app]. change [PTo (b_id x1); PTo (b_id x2); PTo (b_id x3)] with ([PTo (b_id x1)] ++ [PTo (b_id x2)] ++ [PTo (b_id x3)]).
      change [x1; x2; x3] with ([x1] ++ [x2] ++ [x3]). repeat apply ownl_app; apply ownl_one; auto.
  - rewrite !dbytes_app, D6, D7. cbn. unfold dbytes1. rewrite B1, B2, B3, B4, B5. reflexivity.
  - cbn [flat_map follow_f1d f1d_blk p_fwd p_bwd p_blk plan_ptrs f1d_plans app].
    destruct (Z.eqb_spec b a) as [Eb|Eb]; destruct (Z.eqb_spec c a) as [Ec|Ec]; try (destruct (Z.eqb_spec c b)); cbn [negb andb app] in *;
      repeat match goal with H : _ /\ _ |- _ => destruct H | H : exists _, _ |- _ => destruct H | H : ?x = (_, _) |- _ => subst x | H : slow = mid |- _ => subst slow end;
      try lia; cbn [fst snd In app]; intros p I; (split; [repeat (destruct I as [<-|I]; [eexists; reflexivity|]); destruct I | intuition (subst; auto)]).
Qed.

Lemma setup_ffts2_ok a c h bs : has h bs ->
  exists f s h' nb, setup_ffts2 a c h = LOk ([Some f; Some s], h') /\ has h' (nb ++ bs) /\
    ownl (plan_ptrs (Some [a; c]) [Some f; Some s] ++ flat_map f1d_blk [Some f; Some s]) nb /\ dbytes nb = 0 /\
    (forall p, In p (flat_map follow_f1d [Some f; Some s]) -> is_to p /\ In p (plan_ptrs (Some [a; c]) [Some f; Some s] ++ flat_map f1d_blk [Some f; Some s])).
Proof.
  intros H. unfold setup_ffts2, kiss_alloc.
  destruct (alloc_ok OLib KObj 0 _ _ H) as (x1 & h1 & E1 & H1 & A1 & B1 & _).
  destruct (alloc_ok OLib KObj 0 _ _ H1) as (x2 & h2 & E2 & H2 & A2 & B2 & _).
  destruct (alloc_ok OLib KObj 0 _ _ H2) as (x4 & h4 & E4 & H4 & A4 & B4 & _).
  destruct (alloc_ok OLib KObj 0 _ _ H4) as (x5 & h5 & E5 & H5 & A5 & B5 & _).
  unfold lbind at 1. rewrite E1. unfold lbind at 1. rewrite E2. unfold lbind at 1. rewrite E4.
  unfold lbind at 1. rewrite E5. cbv beta iota.
  assert (exists p hh' nn,
     (if c =? a then lret (PTo (b_id x4), PTo (b_id x5)) else a0 <~ alloc OLib KObj 0 ;; b0 <~ alloc OLib KObj 0 ;; lret (a0, b0)) h5 = LOk (p, hh') /\
     has hh' (nn ++ x5 :: x4 :: x2 :: x1 :: bs) /\
     (if c =? a then p = (PTo (b_id x4), PTo (b_id x5)) /\ nn = [] else (exists u v, p = (PTo u, PTo v)) /\ ownl [fst p; snd p] nn) /\ dbytes nn = 0)
    as (slow & h7 & n7 & E7 & H7 & O7 & D7).
  { destruct (c =? a).
    - eexists _, h5, []. spl; [reflexivity | exact H5 | reflexivity..].
    - destruct (alloc_ok OLib KObj 0 _ _ H5) as (y1 & g1 & F1 & G1 & C1 & K1 & _).
      destruct (alloc_ok OLib KObj 0 _ _ G1) as (y2 & g2 & F2 & G2 & C2 & K2 & _).
      exists (PTo (b_id y1), PTo (b_id y2)), g2, [y2; y1]. spl.
      + unfold lbind. rewrite F1, F2. reflexivity.
      + exact G2.
      + eexists _, _; reflexivity.
      + apply (ownl_perm_r _ ([y1] ++ [y2])); [apply perm_swap|]. change [fst (PTo (b_id y1), PTo (b_id y2)); snd (PTo (b_id y1), PTo (b_id y2))] with ([PTo (b_id y1)] ++ [PTo (b_id y2)]).
        apply ownl_app; apply ownl_one; auto.
      + cbn. unfold dbytes1. rewrite K1, K2. reflexivity. }
  unfold lbind at 1. rewrite E7. cbv beta iota. unfold lret.
  eexists (mkf1d _ _ _), (mkf1d _ _ _), h7, (n7 ++ [x5; x4; x2; x1]). split; [reflexivity|]. spl.
  - rewrite <- !app_assoc. exact H7.
  - apply (ownl_perm_r _ ((n7 ++ [x4] ++ [x5]) ++ [x1] ++ [x2])).
    { rewrite <- !app_assoc. apply Permutation_app_head. cbn [app]. etransitivity; [apply perm_swap|]. do 2 apply perm_skip. apply perm_swap. }
    apply ownl_app.
    + cbn [plan_ptrs]. apply ownl_app.
      * destruct (c =? a); cbn [negb]; [destruct O7 as [_ ->]; apply ownl_nil|]. exact (proj2 O7).
      * cbn [f1d_plans p_fwd p_bwd]. change [PTo (b_id x4); PTo (b_id x5)] with ([PTo (b_id x4)] ++ [PTo (b_id x5)]). apply ownl_app; apply ownl_one; auto.
    + cbn [flat_map f1d_blk p_blk app]. change [PTo (b_id x1); PTo (b_id x2)] with ([PTo (b_id x1)] ++ [PTo (b_id x2)]).
      change [x1; x2] with ([x1] ++ [x2]). repeat apply ownl_app; apply ownl_one; auto.
  - rewrite !dbytes_app, D7. cbn. unfold dbytes1. rewrite B1, B2, B4, B5. reflexivity.
  - cbn [flat_map follow_f1d f1d_blk p_fwd p_bwd p_blk plan_ptrs f1d_plans app].
    destruct (Z.eqb_spec c a) as [Ec|Ec]; cbn [negb andb app] in *;
      repeat match goal with H : _ /\ _ |- _ => destruct H | H : exists _, _ |- _ => destruct H | H : ?x = (_, _) |- _ => subst x end;
      cbn [fst snd In app]; intros p I; (split; [repeat (destruct I as [<-|I]; [eexists; reflexivity|]); destruct I | intuition (subst; auto)]).
Qed.
End FftSetup.
