(** TestOutProofs.v : what output() prints. *)

From Coq Require Import QArith String Sorted Lia ZArith.
From Verif Require Import Base Spec Layout LayoutProofs Setup3d Setup2d RemapInst Fft3dMain Fft2dMain TestProg TestLayProofs TestDataProofs TestOpt.
Local Open Scope Z_scope.
Local Open Scope list_scope.

(** ** specification *)
(** the lines printed are those of the points of the tiles, each with its owner and its value,
    the ranks one after the other and the points of a rank in the order of storage *)
Definition prints3 {F} (n : nat) (t : nat -> box3) (w : nat -> list F) (L : list (@line3 F)) : Prop :=
  (forall p r x y, In (p, r, x, y) L <->
     (r < n)%nat /\ inb3 p (t r) /\ zget (w r) (cell3 2 0 (t r) p 0) = Some x /\ zget (w r) (cell3 2 0 (t r) p 1) = Some y) /\
  StronglySorted (fun a b => let '(p, r, _, _) := a in let '(p', r', _, _) := b in
     (r < r')%nat \/ (r = r' /\ pos3 0 (t r) p < pos3 0 (t r) p')) L.
Definition prints2 {F} (n : nat) (t : nat -> box2) (w : nat -> list F) (L : list (@line2 F)) : Prop :=
  (forall p r x y, In (p, r, x, y) L <->
     (r < n)%nat /\ inb2 p (t r) /\ zget (w r) (cell2 2 0 (t r) p 0) = Some x /\ zget (w r) (cell2 2 0 (t r) p 1) = Some y) /\
  StronglySorted (fun a b => let '(p, r, _, _) := a in let '(p', r', _, _) := b in
     (r < r')%nat \/ (r = r' /\ pos2 0 (t r) p < pos2 0 (t r) p')) L.

(** ** sorted lists *)
Lemma sorted_snoc {A} (R : A -> A -> Prop) l a : StronglySorted R l -> (forall x, In x l -> R x a) -> StronglySorted R (l ++ [a]).
Proof.
  induction 1 as [|x l Hs IH Hx]; intros H; cbn [app]; [repeat constructor|]. constructor.
  - apply IH. intros y Hy. apply H. right. exact Hy.
  - rewrite Forall_forall in *. intros y Hy. apply in_app_or in Hy. destruct Hy as [Hy | [<- | []]]; [apply Hx, Hy|apply H; left; reflexivity].
Qed.
Lemma sorted_app {A} (R : A -> A -> Prop) l l' : StronglySorted R l -> StronglySorted R l' -> (forall x y, In x l -> In y l' -> R x y) -> StronglySorted R (l ++ l').
Proof.
  induction 1 as [|x l Hs IH Hx]; intros H' H; cbn [app]; [exact H'|]. constructor.
  - apply IH; [exact H'|]. intros a b Ha. apply H. right. exact Ha.
  - rewrite Forall_forall in *. intros y Hy. apply in_app_or in Hy. destruct Hy as [Hy | Hy]; [apply Hx, Hy|apply H; [left; reflexivity|exact Hy]].
Qed.

(** ** one rank; [at_] gives the point of position m *)
Section Rank.
Context {F pt : Type}.
Variables (at_ : Z -> option pt) (pv : Z -> pt) (nfft : Z) (r : nat) (w : list F).
Hypothesis Hn : 0 <= nfft.
Hypothesis Hat : forall m, 0 <= m < nfft -> at_ m = Some (pv m).
Hypothesis Hw : 2 * nfft <= zlen w.
Definition rank_lines : option (list (pt * nat * F * F)) :=
  for_ nfft (fun m acc => p <- at_ m; x <- zget w (2 * m); y <- zget w (2 * m + 1); Some (acc ++ [(p, r, x, y)])) [].
Lemma rank_lines_ok : exists L, rank_lines = Some L /\
  (forall p r' x y, In (p, r', x, y) L <-> r' = r /\ exists m, 0 <= m < nfft /\ p = pv m /\ zget w (2 * m) = Some x /\ zget w (2 * m + 1) = Some y) /\
  StronglySorted (fun a b : pt * nat * F * F => exists m m', 0 <= m < m' /\ m' < nfft /\ fst (fst (fst a)) = pv m /\ fst (fst (fst b)) = pv m') L.
Proof.
  unfold rank_lines. destruct (for_inv (fun k (L : list (pt * nat * F * F)) =>
    (forall p r' x y, In (p, r', x, y) L <-> r' = r /\ exists m, 0 <= m < k /\ p = pv m /\ zget w (2 * m) = Some x /\ zget w (2 * m + 1) = Some y) /\
    StronglySorted (fun a b : pt * nat * F * F => exists m m', 0 <= m < m' /\ m' < nfft /\ fst (fst (fst a)) = pv m /\ fst (fst (fst b)) = pv m') L)
    nfft (fun m acc => p <- at_ m; x <- zget w (2 * m); y <- zget w (2 * m + 1); Some (acc ++ [(p, r, x, y)])) []) as (L & E & H); [exact Hn| | |].
  - split; [|constructor]. intros p r' x y. split; [intros []|]. intros (_ & m & Hm & _). lia.
  - intros m L Hm (HI & HS). rewrite (Hat m Hm). destruct (zget_Some w (2 * m) ltac:(lia)) as (x & Ex). destruct (zget_Some w (2 * m + 1) ltac:(lia)) as (y & Ey).
    rewrite Ex, Ey. cbn [bind]. eexists. split; [reflexivity|]. split.
    + intros p r' x' y'. rewrite in_app_iff, HI. cbn [In]. split.
      * intros [(-> & m' & Hm' & H) | [Q | []]]; [split; [reflexivity|]; exists m'; split; [lia|exact H]|]. injection Q as <- <- <- <-. split; [reflexivity|]. exists m. auto with zarith.
      * intros (-> & m' & Hm' & -> & H1 & H2). destruct (Z.eq_dec m' m) as [-> |Hne]; [right; left; congruence|]. left. split; [reflexivity|]. exists m'. split; [lia|auto].
    + apply sorted_snoc; [exact HS|]. intros [[[p r'] x'] y'] Hin. apply HI in Hin as (-> & m' & Hm' & -> & _). exists m', m. cbn. split; [lia|]. split; [lia|]. auto.
  - exists L. split; [exact E|exact H].
Qed.
End Rank.

Lemma in_turn_ok {L} n (f : nat -> option (list L)) (g : nat -> list L) : (forall r, (r < n)%nat -> f r = Some (g r)) -> in_turn n f = Some (flat_map g (seq 0 n)).
Proof.
  unfold in_turn. intros H. assert (K : forall l acc, (forall r, In r l -> f r = Some (g r)) -> fold_left (fun a r => a <- a; l <- f r; Some (a ++ l)) l (Some acc) = Some (acc ++ flat_map g l)).
  { induction l as [|r l IH]; intros acc Hl; cbn [fold_left flat_map]; [rewrite app_nil_r; reflexivity|]. cbn [bind]. rewrite (Hl r (or_introl eq_refl)). cbn [bind].
    rewrite IH by (intros; apply Hl; right; assumption). rewrite app_assoc. reflexivity. }
  rewrite K; [reflexivity|]. intros r Hr. apply in_seq in Hr. apply H. lia.
Qed.
Lemma sorted_turns {A} (R : A -> A -> Prop) (g : nat -> list A) n : (forall r, (r < n)%nat -> StronglySorted R (g r)) ->
  (forall r r' x y, (r < r' < n)%nat -> In x (g r) -> In y (g r') -> R x y) -> StronglySorted R (flat_map g (seq 0 n)).
Proof.
  induction n as [|n IH]; intros H H'; [constructor|]. rewrite seq_S, flat_map_app. cbn [flat_map plus]. rewrite app_nil_r. apply sorted_app.
  - apply IH; [intros; apply H; lia|]. intros r r' x y Hr. apply H'. lia.
  - apply H. lia.
  - intros x y Hx Hy. apply in_flat_map in Hx. destruct Hx as (r & Hr & Hx). apply in_seq in Hr. apply (H' r n); [lia|exact Hx|exact Hy].
Qed.
Lemma sorted_weaken {A} (R S : A -> A -> Prop) l : (forall x y, In x l -> In y l -> R x y -> S x y) -> StronglySorted R l -> StronglySorted S l.
Proof.
  intros H Hs. induction Hs as [|x l Hs IH Hx]; constructor.
  - apply IH. intros a b Ha Hb. apply H; right; assumption.
  - rewrite Forall_forall in *. intros y Hy. apply H; [left; reflexivity|right; exact Hy|apply Hx, Hy].
Qed.
Lemma choose_lists {A} n (Q : nat -> list A -> Prop) : (forall r, (r < n)%nat -> exists L, Q r L) -> exists g, forall r, (r < n)%nat -> Q r (g r).
Proof.
  induction n as [|n IH]; intros H; [exists (fun _ => []); intros; lia|]. destruct IH as (g & Hg); [intros; apply H; lia|]. destruct (H n ltac:(lia)) as (L & HL).
  exists (fun r => if (r =? n)%nat then L else g r). intros r Hr. destruct (Nat.eqb_spec r n) as [-> |]; [exact HL|apply Hg; lia].
Qed.

Lemma prints3_ok {F} n (t : nat -> box3) (w : nat -> list F) : (forall r, (r < n)%nat -> legal3 (t r) /\ 2 * psize3 (t r) <= zlen (w r)) ->
  exists L, in_turn n (fun r => out_rank3 (t r) (psize3 (t r)) r (w r)) = Some L /\ prints3 n t w L.
Proof.
  intros H. destruct (choose_lists n (fun r L => out_rank3 (t r) (psize3 (t r)) r (w r) = Some L /\
    (forall p r' x y, In (p, r', x, y) L <-> r' = r /\ exists m, 0 <= m < psize3 (t r) /\ p = pt_at3 (t r) m /\ zget (w r) (2 * m) = Some x /\ zget (w r) (2 * m + 1) = Some y) /\
    StronglySorted (fun a b : pt3 * nat * F * F => exists m m', 0 <= m < m' /\ m' < psize3 (t r) /\ fst (fst (fst a)) = pt_at3 (t r) m /\ fst (fst (fst b)) = pt_at3 (t r) m') L)) as (g & Hg).
  { intros r Hr. destruct (H r Hr) as (Hl & Hw). apply (rank_lines_ok (at3 (t r)) (pt_at3 (t r)) (psize3 (t r)) r (w r)); [apply psize3_nonneg, Hl| |exact Hw].
    intros m Hm. apply at3_ok; assumption. }
  exists (flat_map g (seq 0 n)). split; [apply in_turn_ok; intros r Hr; apply (Hg r Hr)|].
  assert (In_ : forall r p r' x y, (r < n)%nat -> In (p, r', x, y) (g r) <-> r' = r /\ inb3 p (t r) /\ zget (w r) (cell3 2 0 (t r) p 0) = Some x /\ zget (w r) (cell3 2 0 (t r) p 1) = Some y).
  { intros r p r' x y Hr. destruct (Hg r Hr) as (_ & HI & _). rewrite HI. destruct (H r Hr) as (Hl & _). unfold cell3. split.
    - intros (-> & m & Hm & -> & Hx & Hy). destruct (pt_at3_in (t r) m Hl Hm) as (A & B). rewrite B, Z.add_0_r. auto.
    - intros (-> & Hp & Hx & Hy). split; [reflexivity|]. exists (pos3 0 (t r) p). rewrite Z.add_0_r in Hx. split; [|split; [symmetry; apply pt_at3_pos, Hp|auto]].
      apply pos3_psize; [left; reflexivity|exact Hp]. }
  split.
  - intros p r x y. rewrite in_flat_map. split.
    + intros (s & Hs & Hin). apply in_seq in Hs. apply In_ in Hin; [|lia]. destruct Hin as (-> & Hin). split; [lia|exact Hin].
    + intros (Hr & Hin). exists r. split; [apply in_seq; lia|]. apply In_; auto.
  - apply sorted_turns.
    + intros r Hr. destruct (Hg r Hr) as (_ & _ & HS). destruct (H r Hr) as (Hl & _). eapply sorted_weaken; [|exact HS].
      intros [[[p a] x] y] [[[p' a'] x'] y'] Hi Hi' (m & m' & Hm & Hm' & E & E'). apply In_ in Hi as (-> & _); [|exact Hr]. apply In_ in Hi' as (-> & _); [|exact Hr].
      cbn [fst] in E, E'. right. split; [reflexivity|]. subst p p'. destruct (pt_at3_in (t r) m Hl ltac:(lia)) as (_ & ->). destruct (pt_at3_in (t r) m' Hl ltac:(lia)) as (_ & ->). lia.
    + intros r r' [[[p a] x] y] [[[p' a'] x'] y'] Hr Hi Hi'. apply In_ in Hi as (-> & _); [|lia]. apply In_ in Hi' as (-> & _); [|lia]. left. lia.
Qed.
Lemma prints2_ok {F} n (t : nat -> box2) (w : nat -> list F) : (forall r, (r < n)%nat -> legal2 (t r) /\ 2 * psize2 (t r) <= zlen (w r)) ->
  exists L, in_turn n (fun r => out_rank2 (t r) (psize2 (t r)) r (w r)) = Some L /\ prints2 n t w L.
Proof.
  intros H. destruct (choose_lists n (fun r L => out_rank2 (t r) (psize2 (t r)) r (w r) = Some L /\
    (forall p r' x y, In (p, r', x, y) L <-> r' = r /\ exists m, 0 <= m < psize2 (t r) /\ p = pt_at2 (t r) m /\ zget (w r) (2 * m) = Some x /\ zget (w r) (2 * m + 1) = Some y) /\
    StronglySorted (fun a b : pt2 * nat * F * F => exists m m', 0 <= m < m' /\ m' < psize2 (t r) /\ fst (fst (fst a)) = pt_at2 (t r) m /\ fst (fst (fst b)) = pt_at2 (t r) m') L)) as (g & Hg).
  { intros r Hr. destruct (H r Hr) as (Hl & Hw). apply (rank_lines_ok (at2 (t r)) (pt_at2 (t r)) (psize2 (t r)) r (w r)); [apply psize2_nonneg, Hl| |exact Hw].
    intros m Hm. apply at2_ok; assumption. }
  exists (flat_map g (seq 0 n)). split; [apply in_turn_ok; intros r Hr; apply (Hg r Hr)|].
  assert (In_ : forall r p r' x y, (r < n)%nat -> In (p, r', x, y) (g r) <-> r' = r /\ inb2 p (t r) /\ zget (w r) (cell2 2 0 (t r) p 0) = Some x /\ zget (w r) (cell2 2 0 (t r) p 1) = Some y).
  { intros r p r' x y Hr. destruct (Hg r Hr) as (_ & HI & _). rewrite HI. destruct (H r Hr) as (Hl & _). unfold cell2. split.
    - intros (-> & m & Hm & -> & Hx & Hy). destruct (pt_at2_in (t r) m Hl Hm) as (A & B). rewrite B, Z.add_0_r. auto.
    - intros (-> & Hp & Hx & Hy). split; [reflexivity|]. exists (pos2 0 (t r) p). rewrite Z.add_0_r in Hx. split; [|split; [symmetry; apply pt_at2_pos, Hp|auto]].
      apply pos2_psize; [left; reflexivity|exact Hp]. }
  split.
  - intros p r x y. rewrite in_flat_map. split.
    + intros (s & Hs & Hin). apply in_seq in Hs. apply In_ in Hin; [|lia]. destruct Hin as (-> & Hin). split; [lia|exact Hin].
    + intros (Hr & Hin). exists r. split; [apply in_seq; lia|]. apply In_; auto.
  - apply sorted_turns.
    + intros r Hr. destruct (Hg r Hr) as (_ & _ & HS). destruct (H r Hr) as (Hl & _). eapply sorted_weaken; [|exact HS].
      intros [[[p a] x] y] [[[p' a'] x'] y'] Hi Hi' (m & m' & Hm & Hm' & E & E'). apply In_ in Hi as (-> & _); [|exact Hr]. apply In_ in Hi' as (-> & _); [|exact Hr].
      cbn [fst] in E, E'. right. split; [reflexivity|]. subst p p'. destruct (pt_at2_in (t r) m Hl ltac:(lia)) as (_ & ->). destruct (pt_at2_in (t r) m' Hl ltac:(lia)) as (_ & ->). lia.
    + intros r r' [[[p a] x] y] [[[p' a'] x'] y'] Hr Hi Hi'. apply In_ in Hi as (-> & _); [|lia]. apply In_ in Hi' as (-> & _); [|lia]. left. lia.
Qed.
