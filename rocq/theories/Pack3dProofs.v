(** Pack3dProofs.v : every routine of src/pack3d.h performs the same list of
    element copies as its specification. *)

From Verif Require Import Base Pack3d.

(** *** specification: lists of copies.
    Message slots are numbered in the order slow, mid, fast (, component). *)

Definition flat3 {B} (ns nm nf : Z) (f : Z -> Z -> Z -> list B) : list B :=
  flat_map (fun s => flat_map (fun m => flat_map (fun x => f s m x) (zrange nf)) (zrange nm)) (zrange ns).

(** contiguous slot of element (s,m,x) *)
Definition slot3 (nm nf s m x : Z) : Z := (s * nm + m) * nf + x.

(** strided address without permutation *)
Definition addr0 pl (s m x : Z) : Z := s * nstride_plane pl + m * nstride_line pl + x.
(** strided address of component q after one / two axis permutations *)
Definition addr1 pl (s m x q : Z) : Z := s * nstride_line pl + nqty pl * m + x * nstride_plane pl + q.
Definition addr2 pl (s m x q : Z) : Z := nqty pl * s + m * nstride_plane pl + x * nstride_line pl + q.

Definition pairs_pack pl d0 b0 : list (Z * Z) :=
  flat3 (nslow pl) (nmid pl) (nfast pl)
    (fun s m x => [(b0 + slot3 (nmid pl) (nfast pl) s m x, d0 + addr0 pl s m x)]).

Definition pairs_unpack pl d0 b0 : list (Z * Z) :=
  flat3 (nslow pl) (nmid pl) (nfast pl)
    (fun s m x => [(d0 + addr0 pl s m x, b0 + slot3 (nmid pl) (nfast pl) s m x)]).

Definition pairs_unpackP (addr : pack_plan_3d -> Z -> Z -> Z -> Z -> Z) nq pl d0 b0 : list (Z * Z) :=
  flat3 (nslow pl) (nmid pl) (nfast pl)
    (fun s m x => map (fun q => (d0 + addr pl s m x q,
                                 b0 + (slot3 (nmid pl) (nfast pl) s m x * nq + q))) (zrange nq)).

Ltac peq := repeat match goal with
  | |- Some _ = Some _ => apply f_equal
  | |- (_, _) = (_, _) => apply f_equal2
  | |- @eq Z _ _ => first [lia | ring | nia]
  | |- _ => reflexivity end.

Section Proofs.
Context {A : Type}.
Implicit Types (data buf : list A) (pl : pack_plan_3d).

Lemma copies1 (src dst : list A) d s : copies src [(d, s)] dst = cp src d s dst.
Proof. unfold cp; simpl. apply bind_ext; intros v _. apply bind_some_r. Qed.

Lemma memcpy_copies (src dst : list A) d s n : 0 <= n ->
  memcpy_elems dst d src s n = copies src (flat_map (fun k => [(d + k, s + k)]) (zrange n)) dst.
Proof.
  intros Hn. unfold memcpy_elems.
  erewrite (for_copies (fun _ dst => dst) src (fun k => [(d + k, s + k)])); [|lia|reflexivity|].
  - destruct (copies _ _ _); reflexivity.
  - intros. rewrite copies1. unfold cp. destruct (bind _ _); reflexivity.
Qed.

Lemma option_map_id {B} (o : option B) : option_map (fun x => x) o = o.
Proof. destruct o; reflexivity. Qed.

Lemma flat_map_ext' {B C} (f g : B -> list C) l : (forall x, In x l -> f x = g x) -> flat_map f l = flat_map g l.
Proof.
  induction l as [|a l IH]; intros H; simpl; [reflexivity|].
  rewrite H by (left; auto). f_equal. apply IH; intros; apply H; right; auto.
Qed.

Definition wfp pl := 0 <= nfast pl /\ 0 <= nmid pl /\ 0 <= nslow pl.

(** Generic statement used for all variants: if the innermost computation at
    (slow,mid), started in state [(dst, c0 + slot)], performs the copies [line s m]
    and advances the counter by [nl], the whole nest performs all copies. *)
Lemma nest3 (src dst : list A) ns nm (nl : Z) (line : Z -> Z -> list (Z*Z)) outer c0 :
  0 <= ns -> 0 <= nm ->
  (forall s, exists body,
    (forall d c, outer s (d, c) = for_ nm body (d, c)) /\
    (forall m d, 0 <= s < ns -> 0 <= m < nm ->
     body m (d, c0 + (s * nm + m) * nl) =
     option_map (fun d => (d, c0 + (s * nm + m) * nl + nl)) (copies src (line s m) d))) ->
  ('(r, _) <- for_ ns outer (dst, c0); Some r) =
  copies src (flat_map (fun s => flat_map (line s) (zrange nm)) (zrange ns)) dst.
Proof.
  intros Hs Hm Hb.
  erewrite (for_copies (fun s d => (d, c0 + s * nm * nl)) src
             (fun s => flat_map (line s) (zrange nm)) ns _ dst); [|lia|f_equal; lia|].
  - destruct (copies _ _ _); reflexivity.
  - intros s d Hs'. destruct (Hb s) as (body & Ho & Hbody). rewrite Ho.
    erewrite (for_copies (fun m d => (d, c0 + (s * nm + m) * nl)) src (line s) nm _ d); [|lia|f_equal; lia|].
    + destruct (copies _ _ _); simpl; [|reflexivity]. do 2 f_equal. lia.
    + intros m d' Hm'. rewrite Hbody by lia.
      destruct (copies _ _ _); simpl; [|reflexivity]. do 2 f_equal. lia.
Qed.


Ltac start3 nl_ :=
  apply nest3 with (nl := nl_); [assumption|assumption|];
  let s := fresh "s" in intros s; eexists; split; [intros; reflexivity|];
  let m := fresh "m" in let d := fresh "d" in intros m d ?Hs' ?Hm'; cbv beta iota zeta.

Lemma pack_3d_array_ok data d0 buf b0 pl : wfp pl ->
  pack_3d_array data d0 buf b0 pl = copies data (pairs_pack pl d0 b0) buf.
Proof.
  intros (Hf & Hm & Hs). unfold pack_3d_array, pairs_pack, flat3.
  start3 (nfast pl).
  erewrite (for_copies (fun x d => (d, 0 + (s * nmid pl + m) * nfast pl + x, s * nstride_plane pl + m * nstride_line pl + x)) data
    (fun x => [(b0 + slot3 (nmid pl) (nfast pl) s m x, d0 + addr0 pl s m x)]) _ _ d).
  - destruct (copies _ _ _); reflexivity.
  - lia.
  - peq.
  - intros x d' Hx. rewrite copies1. unfold slot3, addr0. rewrite !Z.add_0_l.
    destruct (cp _ _ _ _); simpl; peq.
Qed.

Lemma unpack_3d_array_ok data d0 buf b0 pl : wfp pl ->
  unpack_3d_array buf b0 data d0 pl = copies buf (pairs_unpack pl d0 b0) data.
Proof.
  intros (Hf & Hm & Hs). unfold unpack_3d_array, pairs_unpack, flat3.
  start3 (nfast pl).
  erewrite (for_copies (fun x d => (d, s * nstride_plane pl + m * nstride_line pl + x, 0 + (s * nmid pl + m) * nfast pl + x)) buf
    (fun x => [(d0 + addr0 pl s m x, b0 + slot3 (nmid pl) (nfast pl) s m x)]) _ _ d).
  - destruct (copies _ _ _); reflexivity.
  - lia.
  - peq.
  - intros x d' Hx. rewrite copies1. unfold slot3, addr0. rewrite !Z.add_0_l.
    destruct (cp _ _ _ _); simpl; peq.
Qed.

Lemma pack_3d_pointer_ok data d0 buf b0 pl : wfp pl ->
  pack_3d_pointer data d0 buf b0 pl = copies data (pairs_pack pl d0 b0) buf.
Proof.
  intros (Hf & Hm & Hs). unfold pack_3d_pointer, pairs_pack, flat3.
  start3 (nfast pl).
  rewrite <- (Z.mul_1_r (nfast pl)) at 1. rewrite for_ptr_for by lia.
  erewrite (for_copies (fun x d => (d, b0 + (s * nmid pl + m) * nfast pl + x)) data
    (fun x => [(b0 + slot3 (nmid pl) (nfast pl) s m x, d0 + addr0 pl s m x)]) _ _ d).
  - destruct (copies _ _ _); reflexivity.
  - lia.
  - peq.
  - intros x d' Hx. rewrite copies1. unfold slot3, addr0.
    replace (b0 + ((s * nmid pl + m) * nfast pl + x)) with (b0 + (s * nmid pl + m) * nfast pl + x) by lia.
    replace (d0 + (s * nstride_plane pl + m * nstride_line pl + x)) with (d0 + (s * nstride_plane pl + m * nstride_line pl) + x * 1) by lia.
    destruct (cp _ _ _ _); simpl; peq.
Qed.

Lemma unpack_3d_pointer_ok data d0 buf b0 pl : wfp pl ->
  unpack_3d_pointer buf b0 data d0 pl = copies buf (pairs_unpack pl d0 b0) data.
Proof.
  intros (Hf & Hm & Hs). unfold unpack_3d_pointer, pairs_unpack, flat3.
  start3 (nfast pl).
  rewrite <- (Z.mul_1_r (nfast pl)) at 1. rewrite for_ptr_for by lia.
  erewrite (for_copies (fun x d => (d, b0 + (s * nmid pl + m) * nfast pl + x)) buf
    (fun x => [(d0 + addr0 pl s m x, b0 + slot3 (nmid pl) (nfast pl) s m x)]) _ _ d).
  - destruct (copies _ _ _); reflexivity.
  - lia.
  - peq.
  - intros x d' Hx. rewrite copies1. unfold slot3, addr0.
    replace (b0 + ((s * nmid pl + m) * nfast pl + x)) with (b0 + (s * nmid pl + m) * nfast pl + x) by lia.
    replace (d0 + (s * nstride_plane pl + m * nstride_line pl + x)) with (d0 + (s * nstride_plane pl + m * nstride_line pl) + x * 1) by lia.
    destruct (cp _ _ _ _); simpl; peq.
Qed.

Lemma pack_3d_memcpy_ok data d0 buf b0 pl : wfp pl ->
  pack_3d_memcpy data d0 buf b0 pl = copies data (pairs_pack pl d0 b0) buf.
Proof.
  intros (Hf & Hm & Hs). unfold pack_3d_memcpy, pairs_pack, flat3.
  rewrite (for_copies (fun _ d => d) data (fun s => flat_map (fun m => flat_map (fun x =>
    [(b0 + slot3 (nmid pl) (nfast pl) s m x, d0 + addr0 pl s m x)]) (zrange (nfast pl))) (zrange (nmid pl))) _ _ buf); auto using option_map_id.
  intros s d Hs'. cbv zeta.
  rewrite (for_copies (fun _ d => d) data (fun m => flat_map (fun x =>
    [(b0 + slot3 (nmid pl) (nfast pl) s m x, d0 + addr0 pl s m x)]) (zrange (nfast pl))) _ _ d); auto.
  intros m d' Hm'. rewrite memcpy_copies by auto. rewrite option_map_id. f_equal.
  apply flat_map_ext'; intros x Hx. unfold slot3, addr0. do 2 f_equal; lia.
Qed.

Lemma unpack_3d_memcpy_ok data d0 buf b0 pl : wfp pl ->
  unpack_3d_memcpy buf b0 data d0 pl = copies buf (pairs_unpack pl d0 b0) data.
Proof.
  intros (Hf & Hm & Hs). unfold unpack_3d_memcpy, pairs_unpack, flat3.
  rewrite (for_copies (fun _ d => d) buf (fun s => flat_map (fun m => flat_map (fun x =>
    [(d0 + addr0 pl s m x, b0 + slot3 (nmid pl) (nfast pl) s m x)]) (zrange (nfast pl))) (zrange (nmid pl))) _ _ data); auto using option_map_id.
  intros s d Hs'. cbv zeta.
  rewrite (for_copies (fun _ d => d) buf (fun m => flat_map (fun x =>
    [(d0 + addr0 pl s m x, b0 + slot3 (nmid pl) (nfast pl) s m x)]) (zrange (nfast pl))) _ _ d); auto.
  intros m d' Hm'. rewrite memcpy_copies by auto. rewrite option_map_id. f_equal.
  apply flat_map_ext'; intros x Hx. unfold slot3, addr0. do 2 f_equal; lia.
Qed.

(** inner copies of one element with [nq] components *)
Lemma copies_q1 (src dst : list A) a b : copies src (map (fun q => (a + q, b + q)) (zrange 1)) dst = cp src a b dst.
Proof. change (zrange 1) with [0]. simpl map. rewrite !Z.add_0_r. apply copies1. Qed.

Lemma copies_q2 (src dst : list A) a b :
  copies src (map (fun q => (a + q, b + q)) (zrange 2)) dst =
  bind (cp src a b dst) (cp src (a + 1) (b + 1)).
Proof.
  change (zrange 2) with [0; 1]. simpl map. rewrite !Z.add_0_r.
  change [(a, b); (a + 1, b + 1)] with ([(a, b)] ++ [(a + 1, b + 1)]).
  rewrite copies_app, copies1. apply bind_ext; intros; apply copies1.
Qed.

Lemma flat_map_single {B C} (f : B -> C) l : flat_map (fun x => [f x]) l = map f l.
Proof. induction l; simpl; congruence. Qed.

Lemma copies_qn (src dst : list A) da sa nq a b : 0 <= nq ->
  for_ nq (fun _ '(data, in_, out) =>
             data <- cp src (da + in_) (sa + out) data;
             Some (data, in_ + 1, out + 1)) (dst, a, b) =
  option_map (fun d => (d, a + nq, b + nq))
    (copies src (map (fun q => (da + a + q, sa + b + q)) (zrange nq)) dst).
Proof.
  intros Hq. rewrite <- flat_map_single.
  rewrite (for_copies (fun q d => (d, a + q, b + q)) src (fun q => [(da + a + q, sa + b + q)]) _ _ dst).
  - reflexivity.
  - lia.
  - peq.
  - intros q d Hd. rewrite copies1.
    replace (da + a + q) with (da + (a + q)) by lia. replace (sa + b + q) with (sa + (b + q)) by lia.
    destruct (cp _ _ _ _); simpl; peq.
Qed.

(** the permuted unpack nests, given the copies of one element *)
Lemma permute_array (start : Z -> Z -> Z) (step : Z) addr nq buf b0 data d0 pl
   (eo : list A * Z * Z -> option (list A * Z * Z)) outer :
  wfp pl -> 0 <= nq ->
  (forall s m x q, addr pl s m x q = start s m + x * step + q) ->
  (forall s, exists body,
    (forall d c, outer s (d, c) = for_ (nmid pl) body (d, c)) /\
    (forall m d c, body m (d, c) =
       ('(data, _, out) <- for_ (nfast pl) (fun _ st => eo st) (d, start s m, c); Some (data, out)))) ->
  (forall d a b, eo (d, a, b) = option_map (fun d => (d, a + step, b + nq))
      (copies buf (map (fun q => (d0 + a + q, b0 + b + q)) (zrange nq)) d)) ->
  ('(r, _) <- for_ (nslow pl) outer (data, 0); Some r) = copies buf (pairs_unpackP addr nq pl d0 b0) data.
Proof.
  intros (Hf & Hm & Hs) Hq Haddr Ho He. unfold pairs_unpackP, flat3.
  apply nest3 with (nl := nfast pl * nq); auto.
  intros s. destruct (Ho s) as (body & H1 & H2). exists body; split; [auto|].
  intros m d Hs' Hm'. rewrite H2.
  rewrite (for_copies (fun x d => (d, start s m + x * step, 0 + (s * nmid pl + m) * (nfast pl * nq) + x * nq)) buf
    (fun x => map (fun q => (d0 + addr pl s m x q, b0 + (slot3 (nmid pl) (nfast pl) s m x * nq + q))) (zrange nq)) _ _ d).
  - destruct (copies _ _ _); simpl; peq.
  - lia.
  - peq.
  - intros x d' Hx. rewrite He.
    assert (E : map (fun q => (d0 + (start s m + x * step) + q, b0 + (0 + (s * nmid pl + m) * (nfast pl * nq) + x * nq) + q)) (zrange nq) =
                map (fun q => (d0 + addr pl s m x q, b0 + (slot3 (nmid pl) (nfast pl) s m x * nq + q))) (zrange nq)).
    { apply map_ext; intros q. rewrite Haddr. unfold slot3. peq. }
    rewrite E. destruct (copies _ _ _); simpl; peq.
Qed.

Lemma permute_pointer (start : Z -> Z -> Z) (step : Z) addr nq buf b0 data d0 pl
   (eo : Z -> list A * Z -> option (list A * Z)) outer :
  wfp pl -> 0 <= nq -> 0 < step ->
  (forall s m x q, addr pl s m x q = start s m + x * step + q) ->
  (forall s, exists body,
    (forall d c, outer s (d, c) = for_ (nmid pl) body (d, c)) /\
    (forall m d c, body m (d, c) =
       for_ptr (d0 + start s m) (d0 + start s m + nfast pl * step) step eo (d, c))) ->
  (forall d a b, eo a (d, b) = option_map (fun d => (d, b + nq))
      (copies buf (map (fun q => (a + q, b + q)) (zrange nq)) d)) ->
  ('(r, _) <- for_ (nslow pl) outer (data, b0); Some r) = copies buf (pairs_unpackP addr nq pl d0 b0) data.
Proof.
  intros (Hf & Hm & Hs) Hq Hst Haddr Ho He. unfold pairs_unpackP, flat3.
  apply nest3 with (nl := nfast pl * nq); auto.
  intros s. destruct (Ho s) as (body & H1 & H2). exists body; split; [auto|].
  intros m d Hs' Hm'. rewrite H2. rewrite for_ptr_for by lia.
  rewrite (for_copies (fun x d => (d, b0 + (s * nmid pl + m) * (nfast pl * nq) + x * nq)) buf
    (fun x => map (fun q => (d0 + addr pl s m x q, b0 + (slot3 (nmid pl) (nfast pl) s m x * nq + q))) (zrange nq)) _ _ d).
  - destruct (copies _ _ _); simpl; peq.
  - lia.
  - peq.
  - intros x d' Hx. rewrite He.
    assert (E : map (fun q => (d0 + start s m + x * step + q, b0 + (s * nmid pl + m) * (nfast pl * nq) + x * nq + q)) (zrange nq) =
                map (fun q => (d0 + addr pl s m x q, b0 + (slot3 (nmid pl) (nfast pl) s m x * nq + q))) (zrange nq)).
    { apply map_ext; intros q. rewrite Haddr. unfold slot3. peq. }
    rewrite E. destruct (copies _ _ _); simpl; peq.
Qed.

Lemma option_map_bind {B C D} (f : C -> D) (o : option B) (g : B -> option C) :
  option_map f (bind o g) = bind o (fun b => option_map f (g b)).
Proof. destruct o; reflexivity. Qed.

Ltac nestshape := let s := fresh in intros s; eexists; split; [intros; reflexivity | intros; reflexivity].

Ltac solve_q1 := intros; rewrite copies_q1, <- ?Z.add_assoc;
  destruct (cp _ _ _ _); simpl; peq.
Ltac solve_q2 := intros; rewrite copies_q2, <- ?Z.add_assoc, option_map_bind;
  apply bind_ext; intros; destruct (cp _ _ _ _); simpl; peq.

Lemma unpack_3d_permute1_1_array_ok data d0 buf b0 pl : wfp pl -> nqty pl = 1 ->
  unpack_3d_permute1_1_array buf b0 data d0 pl = copies buf (pairs_unpackP addr1 (nqty pl) pl d0 b0) data.
Proof.
  intros Hw Hq. unfold unpack_3d_permute1_1_array. rewrite Hq.
  eapply permute_array with (start := fun s m => s * nstride_line pl + m) (step := nstride_plane pl);
    [assumption|lia|intros; unfold addr1; rewrite Hq; ring|nestshape|solve_q1].
Qed.

Lemma unpack_3d_permute1_2_array_ok data d0 buf b0 pl : wfp pl -> nqty pl = 2 ->
  unpack_3d_permute1_2_array buf b0 data d0 pl = copies buf (pairs_unpackP addr1 (nqty pl) pl d0 b0) data.
Proof.
  intros Hw Hq. unfold unpack_3d_permute1_2_array. rewrite Hq.
  eapply permute_array with (start := fun s m => s * nstride_line pl + 2 * m) (step := nstride_plane pl);
    [assumption|lia|intros; unfold addr1; rewrite Hq; ring|nestshape|solve_q2].
Qed.

Lemma unpack_3d_permute2_1_array_ok data d0 buf b0 pl : wfp pl -> nqty pl = 1 ->
  unpack_3d_permute2_1_array buf b0 data d0 pl = copies buf (pairs_unpackP addr2 (nqty pl) pl d0 b0) data.
Proof.
  intros Hw Hq. unfold unpack_3d_permute2_1_array. rewrite Hq.
  eapply permute_array with (start := fun s m => s + m * nstride_plane pl) (step := nstride_line pl);
    [assumption|lia|intros; unfold addr2; rewrite Hq; ring|nestshape|solve_q1].
Qed.

Lemma unpack_3d_permute2_2_array_ok data d0 buf b0 pl : wfp pl -> nqty pl = 2 ->
  unpack_3d_permute2_2_array buf b0 data d0 pl = copies buf (pairs_unpackP addr2 (nqty pl) pl d0 b0) data.
Proof.
  intros Hw Hq. unfold unpack_3d_permute2_2_array. rewrite Hq.
  eapply permute_array with (start := fun s m => 2 * s + m * nstride_plane pl) (step := nstride_line pl);
    [assumption|lia|intros; unfold addr2; rewrite Hq; ring|nestshape|solve_q2].
Qed.

Lemma unpack_3d_permute1_n_array_ok data d0 buf b0 pl : wfp pl -> 0 <= nqty pl ->
  unpack_3d_permute1_n_array buf b0 data d0 pl = copies buf (pairs_unpackP addr1 (nqty pl) pl d0 b0) data.
Proof.
  intros Hw Hq. unfold unpack_3d_permute1_n_array.
  eapply permute_array with (start := fun s m => s * nstride_line pl + nqty pl * m) (step := nstride_plane pl);
    [assumption|lia|intros; unfold addr1; ring|nestshape|].
  intros. cbv beta iota. rewrite copies_qn by auto. destruct (copies _ _ _); simpl; peq.
Qed.

Lemma unpack_3d_permute2_n_array_ok data d0 buf b0 pl : wfp pl -> 0 <= nqty pl ->
  unpack_3d_permute2_n_array buf b0 data d0 pl = copies buf (pairs_unpackP addr2 (nqty pl) pl d0 b0) data.
Proof.
  intros Hw Hq. unfold unpack_3d_permute2_n_array.
  eapply permute_array with (start := fun s m => nqty pl * s + m * nstride_plane pl) (step := nstride_line pl);
    [assumption|lia|intros; unfold addr2; ring|nestshape|].
  intros. cbv beta iota. rewrite copies_qn by auto. destruct (copies _ _ _); simpl; peq.
Qed.

Lemma copies_qn0 (src dst : list A) nq a b : 0 <= nq ->
  for_ nq (fun _ '(data, in_, out) =>
             data <- cp src in_ out data;
             Some (data, in_ + 1, out + 1)) (dst, a, b) =
  option_map (fun d => (d, a + nq, b + nq))
    (copies src (map (fun q => (a + q, b + q)) (zrange nq)) dst).
Proof. intros. apply (copies_qn src dst 0 0); auto. Qed.

Ltac solve_qn := intros; cbv beta iota; rewrite copies_qn0 by auto; destruct (copies _ _ _); simpl; peq.

Lemma unpack_3d_permute1_1_pointer_ok data d0 buf b0 pl : wfp pl -> nqty pl = 1 -> 0 < nstride_plane pl ->
  unpack_3d_permute1_1_pointer buf b0 data d0 pl = copies buf (pairs_unpackP addr1 (nqty pl) pl d0 b0) data.
Proof.
  intros Hw Hq Hst. unfold unpack_3d_permute1_1_pointer. rewrite Hq.
  eapply permute_pointer with (start := fun s m => s * nstride_line pl + m) (step := nstride_plane pl);
    [assumption|lia|assumption|intros; unfold addr1; rewrite Hq; ring|nestshape|solve_q1].
Qed.

Lemma unpack_3d_permute1_2_pointer_ok data d0 buf b0 pl : wfp pl -> nqty pl = 2 -> 0 < nstride_plane pl ->
  unpack_3d_permute1_2_pointer buf b0 data d0 pl = copies buf (pairs_unpackP addr1 (nqty pl) pl d0 b0) data.
Proof.
  intros Hw Hq Hst. unfold unpack_3d_permute1_2_pointer. rewrite Hq.
  eapply permute_pointer with (start := fun s m => s * nstride_line pl + 2 * m) (step := nstride_plane pl);
    [assumption|lia|assumption|intros; unfold addr1; rewrite Hq; ring|nestshape|solve_q2].
Qed.

Lemma unpack_3d_permute1_n_pointer_ok data d0 buf b0 pl : wfp pl -> 0 <= nqty pl -> 0 < nstride_plane pl ->
  unpack_3d_permute1_n_pointer buf b0 data d0 pl = copies buf (pairs_unpackP addr1 (nqty pl) pl d0 b0) data.
Proof.
  intros Hw Hq Hst. unfold unpack_3d_permute1_n_pointer.
  eapply permute_pointer with (start := fun s m => s * nstride_line pl + nqty pl * m) (step := nstride_plane pl);
    [assumption|lia|assumption|intros; unfold addr1; ring|nestshape|solve_qn].
Qed.

Lemma unpack_3d_permute2_1_pointer_ok data d0 buf b0 pl : wfp pl -> nqty pl = 1 -> 0 < nstride_line pl ->
  unpack_3d_permute2_1_pointer buf b0 data d0 pl = copies buf (pairs_unpackP addr2 (nqty pl) pl d0 b0) data.
Proof.
  intros Hw Hq Hst. unfold unpack_3d_permute2_1_pointer. rewrite Hq.
  eapply permute_pointer with (start := fun s m => s + m * nstride_plane pl) (step := nstride_line pl);
    [assumption|lia|assumption|intros; unfold addr2; rewrite Hq; ring|nestshape|solve_q1].
Qed.

Lemma unpack_3d_permute2_2_pointer_ok data d0 buf b0 pl : wfp pl -> nqty pl = 2 -> 0 < nstride_line pl ->
  unpack_3d_permute2_2_pointer buf b0 data d0 pl = copies buf (pairs_unpackP addr2 (nqty pl) pl d0 b0) data.
Proof.
  intros Hw Hq Hst. unfold unpack_3d_permute2_2_pointer. rewrite Hq.
  eapply permute_pointer with (start := fun s m => 2 * s + m * nstride_plane pl) (step := nstride_line pl);
    [assumption|lia|assumption|intros; unfold addr2; rewrite Hq; ring|nestshape|solve_q2].
Qed.

Lemma unpack_3d_permute2_n_pointer_ok data d0 buf b0 pl : wfp pl -> 0 <= nqty pl -> 0 < nstride_line pl ->
  unpack_3d_permute2_n_pointer buf b0 data d0 pl = copies buf (pairs_unpackP addr2 (nqty pl) pl d0 b0) data.
Proof.
  intros Hw Hq Hst. unfold unpack_3d_permute2_n_pointer.
  eapply permute_pointer with (start := fun s m => nqty pl * s + m * nstride_plane pl) (step := nstride_line pl);
    [assumption|lia|assumption|intros; unfold addr2; ring|nestshape|solve_qn].
Qed.

Lemma unpack_3d_permute1_1_memcpy_ok data d0 buf b0 pl : wfp pl -> nqty pl = 1 -> 0 < nstride_plane pl ->
  unpack_3d_permute1_1_memcpy buf b0 data d0 pl = copies buf (pairs_unpackP addr1 (nqty pl) pl d0 b0) data.
Proof. exact (unpack_3d_permute1_1_pointer_ok data d0 buf b0 pl). Qed.

Lemma unpack_3d_permute1_2_memcpy_ok data d0 buf b0 pl : wfp pl -> nqty pl = 2 -> 0 < nstride_plane pl ->
  unpack_3d_permute1_2_memcpy buf b0 data d0 pl = copies buf (pairs_unpackP addr1 (nqty pl) pl d0 b0) data.
Proof. exact (unpack_3d_permute1_2_pointer_ok data d0 buf b0 pl). Qed.

Lemma unpack_3d_permute1_n_memcpy_ok data d0 buf b0 pl : wfp pl -> 0 <= nqty pl -> 0 < nstride_plane pl ->
  unpack_3d_permute1_n_memcpy buf b0 data d0 pl = copies buf (pairs_unpackP addr1 (nqty pl) pl d0 b0) data.
Proof. exact (unpack_3d_permute1_n_pointer_ok data d0 buf b0 pl). Qed.

Lemma unpack_3d_permute2_1_memcpy_ok data d0 buf b0 pl : wfp pl -> nqty pl = 1 -> 0 < nstride_line pl ->
  unpack_3d_permute2_1_memcpy buf b0 data d0 pl = copies buf (pairs_unpackP addr2 (nqty pl) pl d0 b0) data.
Proof. exact (unpack_3d_permute2_1_pointer_ok data d0 buf b0 pl). Qed.

Lemma unpack_3d_permute2_2_memcpy_ok data d0 buf b0 pl : wfp pl -> nqty pl = 2 -> 0 < nstride_line pl ->
  unpack_3d_permute2_2_memcpy buf b0 data d0 pl = copies buf (pairs_unpackP addr2 (nqty pl) pl d0 b0) data.
Proof. exact (unpack_3d_permute2_2_pointer_ok data d0 buf b0 pl). Qed.

Lemma unpack_3d_permute2_n_memcpy_ok data d0 buf b0 pl : wfp pl -> 0 <= nqty pl -> 0 < nstride_line pl ->
  unpack_3d_permute2_n_memcpy buf b0 data d0 pl = copies buf (pairs_unpackP addr2 (nqty pl) pl d0 b0) data.
Proof. exact (unpack_3d_permute2_n_pointer_ok data d0 buf b0 pl). Qed.

End Proofs.
