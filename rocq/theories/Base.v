(** Base.v : checked arrays, C style loops and list lemmas shared by the model.

    Conventions of the whole development
    - a C array is a [list A] indexed by [Z]; [zget]/[zset] return [None] when
      the index is outside the array, which is how out-of-bounds accesses
      (undefined behaviour in C++) show up in the model;
    - a C [for] loop is [for_]; a pointer loop [for (p=b; p<e; p+=s)] is
      [for_ptr]; both propagate [None]. *)

From Coq Require Export List ZArith Lia Bool.
From Coq Require Export ZifyBool.
Export ListNotations.
Global Open Scope Z_scope.

(** ** Option monad *)

Definition bind {A B} (o : option A) (f : A -> option B) : option B :=
  match o with Some a => f a | None => None end.
Notation "x <- e ; k" := (bind e (fun x => k))
  (at level 100, e at next level, right associativity).
Notation "' p <- e ; k" := (bind e (fun x => match x with p => k end))
  (at level 100, p pattern, e at next level, right associativity).

Lemma bind_assoc {A B C} (o : option A) (f : A -> option B) (g : B -> option C) :
  bind (bind o f) g = bind o (fun a => bind (f a) g).
Proof. destruct o; reflexivity. Qed.

Lemma bind_some_r {A} (o : option A) : bind o Some = o.
Proof. destruct o; reflexivity. Qed.

Lemma bind_Some_inv {A B} (o : option A) (f : A -> option B) b :
  bind o f = Some b -> exists a, o = Some a /\ f a = Some b.
Proof. destruct o as [a|]; simpl; intros H; [exists a; auto | discriminate]. Qed.

Lemma bind_ext {A B} (o : option A) (f g : A -> option B) :
  (forall a, o = Some a -> f a = g a) -> bind o f = bind o g.
Proof. destruct o; simpl; auto. Qed.

(** ** Checked arrays *)

Section Arrays.
Context {A : Type}.
Implicit Types (l : list A) (i : Z).

Definition zlen l : Z := Z.of_nat (length l).

(** [zget l i]: C expression [l[i]] as an rvalue; [None] = out of bounds. *)
Definition zget l i : option A :=
  if i <? 0 then None else nth_error l (Z.to_nat i).

Fixpoint nset l (n : nat) (v : A) : option (list A) :=
  match l, n with
  | [], _ => None
  | _ :: t, O => Some (v :: t)
  | h :: t, S n' => t' <- nset t n' v; Some (h :: t')
  end.

(** [zset l i v]: C statement [l[i] = v]; [None] = out of bounds. *)
Definition zset l i (v : A) : option (list A) :=
  if i <? 0 then None else nset l (Z.to_nat i) v.

Lemma nset_Some l n v : (n < length l)%nat -> exists l', nset l n v = Some l'.
Proof.
  revert n; induction l as [|a l IH]; intros n Hn; simpl in *; [lia|].
  destruct n as [|n]; [eauto|].
  destruct (IH n) as [l' H']; [lia|]. rewrite H'; simpl; eauto.
Qed.

Lemma nset_None l n v : (length l <= n)%nat -> nset l n v = None.
Proof.
  revert n; induction l as [|a l IH]; intros n Hn; simpl in *; [destruct n; reflexivity|].
  destruct n as [|n]; [lia|]. rewrite IH by lia. reflexivity.
Qed.

Lemma nset_length l n v l' : nset l n v = Some l' -> length l' = length l.
Proof.
  revert n l'; induction l as [|a l IH]; intros n l' H; simpl in *; [discriminate|].
  destruct n as [|n]; [inversion H; reflexivity|].
  apply bind_Some_inv in H as (t & Ht & H); inversion H; subst; simpl.
  f_equal; eauto.
Qed.

Lemma nset_spec l n v l' : nset l n v = Some l' ->
  forall m, nth_error l' m = if Nat.eqb n m then Some v else nth_error l m.
Proof.
  revert n l'; induction l as [|a l IH]; intros n l' H m; simpl in *; [discriminate|].
  destruct n as [|n].
  - inversion H; subst. destruct m; reflexivity.
  - apply bind_Some_inv in H as (t & Ht & H); inversion H; subst.
    destruct m as [|m]; simpl; [reflexivity|]. eauto.
Qed.

Lemma zlen_nonneg l : 0 <= zlen l.
Proof. unfold zlen; lia. Qed.

Lemma zget_Some l i : 0 <= i < zlen l -> exists v, zget l i = Some v.
Proof.
  unfold zget, zlen; intros H. destruct (Z.ltb_spec i 0); [lia|].
  destruct (nth_error l (Z.to_nat i)) eqn:E; [eauto|].
  apply nth_error_None in E; lia.
Qed.

Lemma zget_inv l i v : zget l i = Some v -> 0 <= i < zlen l.
Proof.
  unfold zget, zlen. destruct (Z.ltb_spec i 0); [discriminate|]; intros Hx.
  assert (Z.to_nat i < length l)%nat by (apply nth_error_Some; congruence). lia.
Qed.

Lemma zget_None l i : ~ (0 <= i < zlen l) -> zget l i = None.
Proof.
  unfold zget, zlen; intros H. destruct (Z.ltb_spec i 0); [reflexivity|].
  apply nth_error_None; lia.
Qed.

Lemma zget_oob l i : i < 0 \/ zlen l <= i -> zget l i = None.
Proof. intros; apply zget_None; lia. Qed.

Lemma zset_Some l i v : 0 <= i < zlen l -> exists l', zset l i v = Some l'.
Proof.
  unfold zset, zlen; intros H. destruct (Z.ltb_spec i 0); [lia|].
  apply nset_Some; lia.
Qed.

Lemma zset_inv l i v l' : zset l i v = Some l' -> 0 <= i < zlen l.
Proof.
  unfold zset, zlen. destruct (Z.ltb_spec i 0); [discriminate|]; intros Hx.
  destruct (Nat.lt_ge_cases (Z.to_nat i) (length l)); [lia|].
  rewrite nset_None in Hx by lia; discriminate.
Qed.

Lemma zset_None l i v : ~ (0 <= i < zlen l) -> zset l i v = None.
Proof.
  unfold zset, zlen; intros H. destruct (Z.ltb_spec i 0); [reflexivity|].
  apply nset_None; lia.
Qed.

Lemma zset_len l i v l' : zset l i v = Some l' -> zlen l' = zlen l.
Proof.
  unfold zset, zlen. destruct (Z.ltb_spec i 0); [discriminate|]; intros Hx.
  apply nset_length in Hx; lia.
Qed.

Lemma zget_zset l i v l' : zset l i v = Some l' ->
  forall j, zget l' j = if i =? j then Some v else zget l j.
Proof.
  unfold zset, zget. destruct (Z.ltb_spec i 0); [discriminate|]; intros Hx j.
  destruct (Z.ltb_spec j 0); [destruct (Z.eqb_spec i j); [lia|reflexivity]|].
  rewrite (nset_spec _ _ _ _ Hx).
  destruct (Nat.eqb_spec (Z.to_nat i) (Z.to_nat j)); destruct (Z.eqb_spec i j); auto; lia.
Qed.

Lemma zget_zset_same l i v l' : zset l i v = Some l' -> zget l' i = Some v.
Proof. intros Hx; rewrite (zget_zset _ _ _ _ Hx), Z.eqb_refl; reflexivity. Qed.

Lemma zget_zset_other l i v l' j : zset l i v = Some l' -> i <> j -> zget l' j = zget l j.
Proof. intros Hx Hj; rewrite (zget_zset _ _ _ _ Hx). destruct (Z.eqb_spec i j); congruence. Qed.

Lemma nth_error_ext l l' : (forall n, nth_error l n = nth_error l' n) -> l = l'.
Proof.
  revert l'; induction l as [|a l IH]; intros [|b l'] H; auto.
  - specialize (H O); discriminate.
  - specialize (H O); discriminate.
  - f_equal; [specialize (H O); simpl in H; congruence|].
    apply IH; intros n; exact (H (S n)).
Qed.

Lemma zget_ext l l' : (forall i, zget l i = zget l' i) -> l = l'.
Proof.
  intros H; apply nth_error_ext; intros n.
  specialize (H (Z.of_nat n)); unfold zget in H.
  destruct (Z.ltb_spec (Z.of_nat n) 0); [lia|]. rewrite Nat2Z.id in H; exact H.
Qed.

Lemma zlen_app l1 l2 : zlen (l1 ++ l2) = zlen l1 + zlen l2.
Proof. unfold zlen; rewrite app_length; lia. Qed.

Lemma zlen_cons a l : zlen (a :: l) = 1 + zlen l.
Proof. unfold zlen; cbn [length]; lia. Qed.

Lemma zget_cons a l i : zget (a :: l) i = if i =? 0 then Some a else zget l (i - 1).
Proof.
  unfold zget. destruct (Z.eqb_spec i 0).
  - subst; reflexivity.
  - destruct (Z.ltb_spec i 0); destruct (Z.ltb_spec (i-1) 0); try lia; auto.
    replace (Z.to_nat i) with (S (Z.to_nat (i-1))) by lia. reflexivity.
Qed.

Lemma zget_app l1 l2 i :
  zget (l1 ++ l2) i = if i <? zlen l1 then zget l1 i else zget l2 (i - zlen l1).
Proof.
  unfold zget, zlen.
  destruct (Z.ltb_spec i 0); destruct (Z.ltb_spec i (Z.of_nat (length l1))); try lia; auto.
  - rewrite nth_error_app1 by lia; reflexivity.
  - destruct (Z.ltb_spec (i - Z.of_nat (length l1)) 0); [lia|].
    rewrite nth_error_app2 by lia. f_equal; lia.
Qed.

Lemma zget_In l i v : zget l i = Some v -> In v l.
Proof. unfold zget. destruct (i <? 0); [discriminate|]. apply nth_error_In. Qed.

Lemma In_zget l v : In v l -> exists i, zget l i = Some v.
Proof.
  intros H; apply In_nth_error in H as [n Hn]. exists (Z.of_nat n).
  unfold zget. destruct (Z.ltb_spec (Z.of_nat n) 0); [lia|]. rewrite Nat2Z.id; auto.
Qed.

(** writes to different addresses commute *)
Lemma zset_comm l i j v w : i <> j ->
  bind (zset l i v) (fun l' => zset l' j w) = bind (zset l j w) (fun l' => zset l' i v).
Proof.
  intros Hij.
  destruct (zset l i v) as [l1|] eqn:E1; destruct (zset l j w) as [l2|] eqn:E2; simpl.
  - pose proof (zset_inv _ _ _ _ E1) as Hi; pose proof (zset_inv _ _ _ _ E2) as Hj.
    destruct (zset_Some l1 j w) as [l3 E3]; [rewrite (zset_len _ _ _ _ E1); lia|].
    destruct (zset_Some l2 i v) as [l4 E4]; [rewrite (zset_len _ _ _ _ E2); lia|].
    rewrite E3, E4; f_equal. apply zget_ext; intros k.
    rewrite (zget_zset _ _ _ _ E3), (zget_zset _ _ _ _ E4), (zget_zset _ _ _ _ E1), (zget_zset _ _ _ _ E2).
    destruct (Z.eqb_spec i k); destruct (Z.eqb_spec j k); auto; lia.
  - destruct (zset l1 j w) eqn:E3; auto. apply zset_inv in E3.
    rewrite (zset_len _ _ _ _ E1) in E3. destruct (zset_Some l j w E3); congruence.
  - destruct (zset l2 i v) eqn:E3; auto. apply zset_inv in E3.
    rewrite (zset_len _ _ _ _ E2) in E3. destruct (zset_Some l i v E3); congruence.
  - reflexivity.
Qed.

End Arrays.

Lemma zlen_map {A B} (f : A -> B) l : zlen (map f l) = zlen l.
Proof. unfold zlen; rewrite map_length; reflexivity. Qed.

Lemma zget_map {A B} (f : A -> B) l i : zget (map f l) i = option_map f (zget l i).
Proof. unfold zget. destruct (i <? 0); [reflexivity|]. apply nth_error_map. Qed.

(** ** Integer ranges *)

(** [zseq a n] = [a; a+1; ...; a+n-1]. *)
Fixpoint zseq (a : Z) (n : nat) : list Z :=
  match n with O => [] | S n' => a :: zseq (a + 1) n' end.

(** [zrange n] = [0; 1; ...; n-1] (empty when n <= 0). *)
Definition zrange (n : Z) : list Z := zseq 0 (Z.to_nat n).

Lemma In_zseq a n x : In x (zseq a n) <-> a <= x < a + Z.of_nat n.
Proof.
  revert a; induction n as [|n IH]; intros a; simpl; [lia|].
  rewrite IH; lia.
Qed.

Lemma In_zrange n x : In x (zrange n) <-> 0 <= x < n.
Proof. unfold zrange; rewrite In_zseq; lia. Qed.

Lemma zseq_length a n : length (zseq a n) = n.
Proof. revert a; induction n; intros; simpl; auto. Qed.

Lemma zlen_zrange n : zlen (zrange n) = Z.max 0 n.
Proof. unfold zrange, zlen; rewrite zseq_length; lia. Qed.

Lemma zseq_NoDup a n : NoDup (zseq a n).
Proof.
  revert a; induction n as [|n IH]; intros a; simpl; constructor; auto.
  rewrite In_zseq; lia.
Qed.

Lemma zrange_NoDup n : NoDup (zrange n).
Proof. apply zseq_NoDup. Qed.

Lemma zseq_app a n m : zseq a (n + m) = zseq a n ++ zseq (a + Z.of_nat n) m.
Proof.
  revert a; induction n as [|n IH]; intros a; simpl.
  - f_equal; lia.
  - rewrite IH. do 3 f_equal; lia.
Qed.

Lemma zseq_snoc a n : zseq a (S n) = zseq a n ++ [a + Z.of_nat n].
Proof. replace (S n) with (n + 1)%nat by lia. rewrite zseq_app; reflexivity. Qed.

Lemma zget_zseq a n i : zget (zseq a n) i =
  if (0 <=? i) && (i <? Z.of_nat n) then Some (a + i) else None.
Proof.
  revert a i; induction n as [|n IH]; intros a i; simpl zseq.
  - rewrite zget_oob by (unfold zlen; simpl; lia). destruct (Z.leb_spec 0 i), (Z.ltb_spec i (Z.of_nat 0)); simpl; auto; lia.
  - rewrite zget_cons, IH. destruct (Z.eqb_spec i 0).
    + subst. simpl. f_equal; lia.
    + destruct (Z.leb_spec 0 i), (Z.ltb_spec i (Z.of_nat (S n))), (Z.leb_spec 0 (i-1)), (Z.ltb_spec (i-1) (Z.of_nat n)); simpl; try lia; auto.
      f_equal; lia.
Qed.

(** ** Loops *)

Section Loops.
Context {S : Type}.

Fixpoint iter (n : nat) (k : Z) (body : Z -> S -> option S) (s : S) : option S :=
  match n with
  | O => Some s
  | Datatypes.S n' => s' <- body k s; iter n' (k + 1) body s'
  end.

(** [for (k = 0; k < n; k++) body] *)
Definition for_ (n : Z) (body : Z -> S -> option S) (s : S) : option S :=
  iter (Z.to_nat n) 0 body s.

(** [for (p = p0; p < e; p += stride) body]; running out of fuel is an error
    ([None]); the fuel [e - p0] suffices whenever [stride >= 1]. *)
Fixpoint while_lt (fuel : nat) (p e stride : Z) (body : Z -> S -> option S) (s : S) : option S :=
  if p <? e then
    match fuel with
    | O => None
    | Datatypes.S f => s' <- body p s; while_lt f (p + stride) e stride body s'
    end
  else Some s.

Definition for_ptr (p0 e stride : Z) (body : Z -> S -> option S) (s : S) : option S :=
  while_lt (Z.to_nat (e - p0)) p0 e stride body s.

Lemma iter_ext n k b1 b2 s :
  (forall j s, k <= j < k + Z.of_nat n -> b1 j s = b2 j s) -> iter n k b1 s = iter n k b2 s.
Proof.
  revert k s; induction n as [|n IH]; intros k s H; simpl; [reflexivity|].
  rewrite H by lia. apply bind_ext; intros a _. apply IH; intros; apply H; lia.
Qed.

Lemma for_ext n b1 b2 s :
  (forall j s, 0 <= j < n -> b1 j s = b2 j s) -> for_ n b1 s = for_ n b2 s.
Proof. intros H; apply iter_ext; intros; apply H; lia. Qed.

Lemma iter_shift n k b s : iter n k b s = iter n 0 (fun j => b (k + j)) s.
Proof.
  revert k b s; induction n as [|n IH]; intros k b s; simpl; [reflexivity|].
  rewrite Z.add_0_r. apply bind_ext; intros a _.
  rewrite IH. rewrite (IH 1). apply iter_ext; intros; f_equal; lia.
Qed.

Lemma while_lt_iter n fuel p e stride b s :
  0 < stride -> (n <= fuel)%nat -> e = p + Z.of_nat n * stride ->
  while_lt fuel p e stride b s = iter n 0 (fun j => b (p + j * stride)) s.
Proof.
  revert fuel p s; induction n as [|n IH]; intros fuel p s Hs Hf He; simpl.
  - destruct fuel; simpl; destruct (Z.ltb_spec p e); auto; lia.
  - destruct fuel as [|fuel]; [lia|]. simpl.
    destruct (Z.ltb_spec p e); [|nia].
    rewrite Z.add_0_r. apply bind_ext; intros a _.
    rewrite IH by (try lia; nia). rewrite (iter_shift n (0+1)).
    apply iter_ext; intros; f_equal; lia.
Qed.

Lemma for_ptr_for p0 n stride b s :
  0 < stride -> 0 <= n ->
  for_ptr p0 (p0 + n * stride) stride b s = for_ n (fun j => b (p0 + j * stride)) s.
Proof.
  intros Hs Hn. unfold for_ptr, for_. apply while_lt_iter; nia.
Qed.

(** invariant rule *)
Lemma iter_inv (I : Z -> S -> Prop) n k b s :
  I k s ->
  (forall j s, k <= j < k + Z.of_nat n -> I j s -> exists s', b j s = Some s' /\ I (j+1) s') ->
  exists s', iter n k b s = Some s' /\ I (k + Z.of_nat n) s'.
Proof.
  revert k s; induction n as [|n IH]; intros k s H0 Hstep; simpl.
  - exists s; split; auto. replace (k + 0) with k by lia; auto.
  - destruct (Hstep k s) as (s1 & E1 & H1); [lia|auto|]. rewrite E1; simpl.
    destruct (IH (k+1) s1 H1) as (s2 & E2 & H2).
    + intros; apply Hstep; auto; lia.
    + exists s2; split; auto. replace (k + Z.pos (Pos.of_succ_nat n)) with (k + 1 + Z.of_nat n) by lia; auto.
Qed.

Lemma for_inv (I : Z -> S -> Prop) n b s :
  0 <= n -> I 0 s ->
  (forall j s, 0 <= j < n -> I j s -> exists s', b j s = Some s' /\ I (j+1) s') ->
  exists s', for_ n b s = Some s' /\ I n s'.
Proof.
  intros Hn H0 Hs. destruct (iter_inv I (Z.to_nat n) 0 b s) as (s' & E & HI); auto.
  - intros; apply Hs; auto; lia.
  - exists s'; split; auto. replace (0 + Z.of_nat (Z.to_nat n)) with n in HI by lia; auto.
Qed.

End Loops.

(** ** Copy lists: a sequence of element copies [dst[d] = src[s]]. *)

Section Copies.
Context {A : Type}.

Fixpoint copies (src : list A) (ps : list (Z * Z)) (dst : list A) : option (list A) :=
  match ps with
  | [] => Some dst
  | (d, s) :: ps' => v <- zget src s; dst' <- zset dst d v; copies src ps' dst'
  end.

Lemma copies_app src ps1 ps2 dst :
  copies src (ps1 ++ ps2) dst = bind (copies src ps1 dst) (copies src ps2).
Proof.
  revert dst; induction ps1 as [|[d s] ps IH]; intros dst; simpl; [reflexivity|].
  rewrite !bind_assoc. apply bind_ext; intros v _.
  rewrite !bind_assoc. apply bind_ext; intros d' _. apply IH.
Qed.

Lemma copies_len src ps dst dst' : copies src ps dst = Some dst' -> zlen dst' = zlen dst.
Proof.
  revert dst; induction ps as [|[d s] ps IH]; intros dst H; simpl in *; [congruence|].
  apply bind_Some_inv in H as (v & Hv & H). apply bind_Some_inv in H as (d1 & Hd & H).
  rewrite (IH _ H). eapply zset_len; eauto.
Qed.

Lemma copies_Some src ps dst :
  (forall d s, In (d, s) ps -> 0 <= d < zlen dst /\ 0 <= s < zlen src) ->
  exists dst', copies src ps dst = Some dst'.
Proof.
  revert dst; induction ps as [|[d s] ps IH]; intros dst H; simpl; [eauto|].
  destruct (H d s) as [Hd Hs]; [left; auto|].
  destruct (zget_Some src s Hs) as [v Hv]; rewrite Hv; simpl.
  destruct (zset_Some dst d v Hd) as [d1 H1]; rewrite H1; simpl.
  apply IH. intros; rewrite (zset_len _ _ _ _ H1); apply H; right; auto.
Qed.

Lemma copies_inv src ps dst dst' : copies src ps dst = Some dst' ->
  forall d s, In (d, s) ps -> 0 <= d < zlen dst /\ 0 <= s < zlen src.
Proof.
  revert dst; induction ps as [|[d0 s0] ps IH]; intros dst H d s Hin; simpl in *; [tauto|].
  apply bind_Some_inv in H as (v & Hv & H). apply bind_Some_inv in H as (d1 & Hd & H).
  destruct Hin as [E|Hin].
  - inversion E; subst. apply zget_inv in Hv. apply zset_inv in Hd. auto.
  - rewrite <- (zset_len _ _ _ _ Hd). eauto.
Qed.

Lemma copies_other src ps dst dst' a : copies src ps dst = Some dst' ->
  ~ In a (map fst ps) -> zget dst' a = zget dst a.
Proof.
  revert dst; induction ps as [|[d s] ps IH]; intros dst H Ha; simpl in *; [congruence|].
  apply bind_Some_inv in H as (v & Hv & H). apply bind_Some_inv in H as (d1 & Hd & H).
  rewrite (IH _ H) by tauto. eapply zget_zset_other; eauto.
Qed.

Lemma copies_hit src ps dst dst' d s : copies src ps dst = Some dst' ->
  NoDup (map fst ps) -> In (d, s) ps -> zget dst' d = zget src s.
Proof.
  revert dst; induction ps as [|[d0 s0] ps IH]; intros dst H ND Hin; simpl in *; [tauto|].
  apply bind_Some_inv in H as (v & Hv & H). apply bind_Some_inv in H as (d1 & Hd & H).
  inversion ND; subst. destruct Hin as [E|Hin].
  - inversion E; subst. rewrite (copies_other _ _ _ _ _ H) by auto.
    rewrite (zget_zset_same _ _ _ _ Hd). congruence.
  - eauto.
Qed.

(** two copy lists into disjoint destinations commute *)
Lemma copies_comm src1 src2 ps1 ps2 dst :
  (forall a, In a (map fst ps1) -> ~ In a (map fst ps2)) ->
  bind (copies src1 ps1 dst) (copies src2 ps2) = bind (copies src2 ps2 dst) (copies src1 ps1).
Proof.
  intros Hdis.
  destruct (copies src1 ps1 dst) as [d1|] eqn:E1; destruct (copies src2 ps2 dst) as [d2|] eqn:E2; simpl.
  - destruct (copies_Some src2 ps2 d1) as [d3 E3].
    { intros; rewrite (copies_len _ _ _ _ E1). eapply copies_inv; eauto. }
    destruct (copies_Some src1 ps1 d2) as [d4 E4].
    { intros; rewrite (copies_len _ _ _ _ E2). eapply copies_inv; eauto. }
    rewrite E3, E4. f_equal.
    assert (Hgen : forall src ps dst dst' x a, copies src ps dst = Some dst' ->
      zget x a = zget dst a -> zlen x = zlen dst ->
      forall x', copies src ps x = Some x' -> In a (map fst ps) -> zget x' a = zget dst' a).
    { clear. intros src ps. induction ps as [|[d s] ps IH]; intros dst dst' x a H Hx Hl x' H' Hin; simpl in *; [tauto|].
      apply bind_Some_inv in H as (v & Hv & H). apply bind_Some_inv in H as (d1 & Hd & H).
      apply bind_Some_inv in H' as (v' & Hv' & H'). apply bind_Some_inv in H' as (d1' & Hd' & H').
      assert (v' = v) by congruence; subst v'.
      assert (Heq : zget d1' a = zget d1 a).
      { rewrite (zget_zset _ _ _ _ Hd), (zget_zset _ _ _ _ Hd'). rewrite Hx; reflexivity. }
      destruct (in_dec Z.eq_dec a (map fst ps)) as [Hi|Hn].
      - eapply IH; eauto. rewrite (zset_len _ _ _ _ Hd), (zset_len _ _ _ _ Hd'); auto.
      - rewrite (copies_other _ _ _ _ _ H) by auto. rewrite (copies_other _ _ _ _ _ H') by auto. auto. }
    apply zget_ext; intros a.
    destruct (in_dec Z.eq_dec a (map fst ps2)) as [Hi2|Hn2].
    + assert (Hn1 : ~ In a (map fst ps1)) by (intros Hi1; exact (Hdis _ Hi1 Hi2)).
      rewrite (copies_other _ _ _ _ _ E4) by auto.
      eapply Hgen; [exact E2| | |exact E3|auto].
      * apply (copies_other _ _ _ _ _ E1); auto.
      * apply (copies_len _ _ _ _ E1).
    + rewrite (copies_other _ _ _ _ _ E3) by auto.
      destruct (in_dec Z.eq_dec a (map fst ps1)) as [Hi1|Hn1].
      * symmetry. eapply Hgen; [exact E1| | |exact E4|auto].
        -- apply (copies_other _ _ _ _ _ E2); auto.
        -- apply (copies_len _ _ _ _ E2).
      * rewrite (copies_other _ _ _ _ _ E4) by auto.
        rewrite (copies_other _ _ _ _ _ E1) by auto. rewrite (copies_other _ _ _ _ _ E2) by auto. auto.
  - destruct (copies src2 ps2 d1) as [d3|] eqn:E3; auto.
    destruct (copies_Some src2 ps2 dst) as [d4 E4]; [|congruence].
    intros; rewrite <- (copies_len _ _ _ _ E1). eapply copies_inv; eauto.
  - destruct (copies src1 ps1 d2) as [d3|] eqn:E3; auto.
    destruct (copies_Some src1 ps1 dst) as [d4 E4]; [|congruence].
    intros; rewrite <- (copies_len _ _ _ _ E2). eapply copies_inv; eauto.
  - reflexivity.
Qed.

(** copies only depend on the source cells they read *)
Lemma copies_src_ext src1 src2 ps dst :
  (forall d s, In (d, s) ps -> zget src1 s = zget src2 s) ->
  copies src1 ps dst = copies src2 ps dst.
Proof.
  revert dst; induction ps as [|[d s] ps IH]; intros dst H; simpl; [reflexivity|].
  rewrite (H d s) by (left; auto). apply bind_ext; intros v _. apply bind_ext; intros d' _.
  apply IH; intros; eapply H; right; eauto.
Qed.

(** [memcpy(&dst[d], &src[s], n*sizeof(elem))], element by element. *)
Definition memcpy_elems (dst : list A) (d : Z) (src : list A) (s n : Z) : option (list A) :=
  for_ n (fun k dst => v <- zget src (s + k); zset dst (d + k) v) dst.

(** [zslice l o n]: read the [n] elements [l[o..o+n-1]]. *)
Fixpoint zslice_nat (l : list A) (o : Z) (n : nat) : option (list A) :=
  match n with
  | O => Some []
  | S n' => v <- zget l o; t <- zslice_nat l (o + 1) n'; Some (v :: t)
  end.
Definition zslice (l : list A) (o n : Z) : option (list A) := zslice_nat l o (Z.to_nat n).

(** a loop whose body performs the copies [ps k] performs all of them in order;
    [st k dst] is the loop state before iteration [k]. *)
Lemma iter_copies {St : Type} (st : Z -> list A -> St) (src : list A) (ps : Z -> list (Z * Z))
      n k body dst :
  (forall j d, k <= j < k + Z.of_nat n ->
     body j (st j d) = option_map (st (j + 1)) (copies src (ps j) d)) ->
  iter n k body (st k dst) =
  option_map (st (k + Z.of_nat n)) (copies src (flat_map ps (zseq k n)) dst).
Proof.
  revert k dst; induction n as [|n IH]; intros k dst H; simpl.
  - f_equal. f_equal. lia.
  - rewrite H by lia. rewrite copies_app.
    destruct (copies src (ps k) dst) as [d1|]; simpl; [|reflexivity].
    rewrite IH by (intros; apply H; lia).
    replace (k + 1 + Z.of_nat n) with (k + Z.pos (Pos.of_succ_nat n)) by lia. reflexivity.
Qed.

Lemma for_copies {St : Type} (st : Z -> list A -> St) (src : list A) (ps : Z -> list (Z * Z))
      n body dst s0 :
  0 <= n -> s0 = st 0 dst ->
  (forall j d, 0 <= j < n -> body j (st j d) = option_map (st (j + 1)) (copies src (ps j) d)) ->
  for_ n body s0 = option_map (st n) (copies src (flat_map ps (zrange n)) dst).
Proof.
  intros Hn -> H. unfold for_, zrange. rewrite iter_copies with (src := src) (ps := ps).
  - replace (0 + Z.of_nat (Z.to_nat n)) with n by lia. reflexivity.
  - intros; apply H; lia.
Qed.

End Copies.
