(** Count.v : counting the points of tiles. *)

From Verif Require Import Base Spec.

(** a generic version: [L r] lists the points of rank r *)
Section Count.
Context {E : Type}.
Variable L : nat -> list E.
Hypothesis ND : forall r, NoDup (L r).

Definition total (n : nat) : nat := fold_right (fun r s => length (L r) + s)%nat 0%nat (seq 0 n).

Lemma flat_length l : length (flat_map L l) = fold_right (fun r s => length (L r) + s)%nat 0%nat l.
Proof. induction l as [|r l IH]; cbn [flat_map fold_right]; [reflexivity|]. rewrite app_length, IH. reflexivity. Qed.

Lemma flat_NoDup (l : list nat) : NoDup l ->
  (forall r r' x, In r l -> In r' l -> In x (L r) -> In x (L r') -> r = r') -> NoDup (flat_map L l).
Proof.
  induction l as [|r l IH]; intros Hl Hd; cbn [flat_map]; [constructor|].
  inversion Hl; subst.
  assert (H : forall (a b : list E), NoDup a -> NoDup b -> (forall x, In x a -> ~ In x b) -> NoDup (a ++ b)).
  { clear. induction a as [|x a IH]; intros b Ha Hb Hab; cbn; [auto|]. inversion Ha; subst. constructor.
    - rewrite in_app_iff. intros [H|H]; [contradiction|]. apply (Hab x); [now left|auto].
    - apply IH; auto. intros y Hy. apply Hab. now right. }
  apply H; [apply ND| |].
  - apply IH; auto. intros r1 r2 x H1' H2' Hx1 Hx2. apply (Hd r1 r2 x); auto; now right.
  - intros x Hx Hf. apply in_flat_map in Hf. destruct Hf as (r' & Hr' & Hx').
    assert (r = r') by (apply (Hd r r' x); auto; [now left|now right]). subst. contradiction.
Qed.

Variable G : list E.
Hypothesis NDG : NoDup G.
Variable n : nat.
Hypothesis inside : forall r x, (r < n)%nat -> In x (L r) -> In x G.
Hypothesis disj : forall r r' x, (r < n)%nat -> (r' < n)%nat -> In x (L r) -> In x (L r') -> r = r'.

Lemma flat_ND : NoDup (flat_map L (seq 0 n)).
Proof.
  apply flat_NoDup; [apply seq_NoDup|]. intros r r' x H1 H2. apply in_seq in H1, H2. apply disj; lia.
Qed.

Lemma total_le : (total n <= length G)%nat.
Proof.
  unfold total. rewrite <- flat_length. apply NoDup_incl_length; [apply flat_ND|].
  intros x Hx. apply in_flat_map in Hx. destruct Hx as (r & Hr & Hx). apply in_seq in Hr. apply (inside r); auto; lia.
Qed.

Lemma total_covers : total n = length G -> forall x, In x G -> exists r, (r < n)%nat /\ In x (L r).
Proof.
  intros Ht x Hx. assert (Hi : incl G (flat_map L (seq 0 n))).
  { apply NoDup_length_incl; [apply flat_ND| |].
    - rewrite flat_length. fold (total n). lia.
    - intros y Hy. apply in_flat_map in Hy. destruct Hy as (r & Hr & Hy). apply in_seq in Hr. apply (inside r); auto; lia. }
  apply Hi in Hx. apply in_flat_map in Hx. destruct Hx as (r & Hr & Hx'). apply in_seq in Hr. exists r. split; [lia|auto].
Qed.

Lemma covers_total : (forall x, In x G -> exists r, (r < n)%nat /\ In x (L r)) -> total n = length G.
Proof.
  intros Hc. apply Nat.le_antisymm; [apply total_le|].
  unfold total. rewrite <- flat_length. apply NoDup_incl_length; [exact NDG|].
  intros x Hx. destruct (Hc x Hx) as (r & Hr & Hx'). apply in_flat_map. exists r. split; [apply in_seq; lia|auto].
Qed.
End Count.

(** product lists *)
Lemma prod_NoDup {B C} (l : list B) (l' : list C) : NoDup l -> NoDup l' -> NoDup (list_prod l l').
Proof.
  intros H H'. induction H as [|a l Ha H IH]; cbn; [constructor|].
  assert (K : forall (a b : list (B * C)), NoDup a -> NoDup b -> (forall x, In x a -> ~ In x b) -> NoDup (a ++ b)).
  { clear. induction a as [|x a IH]; intros b Ha Hb Hab; cbn; [auto|]. inversion Ha; subst. constructor.
    - rewrite in_app_iff. intros [H|H]; [contradiction|]. apply (Hab x); [now left|auto].
    - apply IH; auto. intros y Hy. apply Hab. now right. }
  apply K; [| exact IH|].
  - clear -H'. induction H' as [|c l' Hc H' IH]; cbn; [constructor|]. constructor; [|exact IH].
    rewrite in_map_iff. intros (x & [= ->] & Hx). contradiction.
  - intros [b c] Hin Hin2. apply in_map_iff in Hin. destruct Hin as (x & [= <- <-] & _).
    apply in_prod_iff in Hin2. destruct Hin2. contradiction.
Qed.

Definition span (lo hi : Z) : list Z := zseq lo (Z.to_nat (hi - lo + 1)).
Lemma In_span lo hi x : In x (span lo hi) <-> lo <= x <= hi.
Proof. unfold span. rewrite In_zseq. lia. Qed.

Definition pts3 (b : box3) : list pt3 := list_prod (list_prod (span (ilo b) (ihi b)) (span (jlo b) (jhi b))) (span (klo b) (khi b)).
Lemma In_pts3 b p : In p (pts3 b) <-> inb3 p b.
Proof. destruct p as [[i j] k]. unfold pts3, pt3. rewrite !in_prod_iff, !In_span. cbn. tauto. Qed.
Lemma pts3_NoDup b : NoDup (pts3 b).
Proof. unfold pts3, pt3, span. repeat apply prod_NoDup; apply zseq_NoDup. Qed.
Lemma pts3_length b : Z.of_nat (length (pts3 b)) = vol3 b.
Proof.
  unfold pts3, pt3, span, vol3, ni, nj, nk. rewrite !prod_length, !zseq_length. rewrite !Nat2Z.inj_mul.
  f_equal; [f_equal|]; lia.
Qed.

Definition pts2 (b : box2) : list pt2 := list_prod (span (ilo2 b) (ihi2 b)) (span (jlo2 b) (jhi2 b)).
Lemma In_pts2 b p : In p (pts2 b) <-> inb2 p b.
Proof. destruct p as [i j]. unfold pts2, pt2. rewrite !in_prod_iff, !In_span. cbn. tauto. Qed.
Lemma pts2_NoDup b : NoDup (pts2 b).
Proof. unfold pts2, pt2, span. repeat apply prod_NoDup; apply zseq_NoDup. Qed.
Lemma pts2_length b : Z.of_nat (length (pts2 b)) = vol2 b.
Proof.
  unfold pts2, pt2, span, vol2, ni2, nj2. rewrite !prod_length, !zseq_length. rewrite !Nat2Z.inj_mul.
  f_equal; lia.
Qed.

(** sum over the ranks *)
Definition zsum (n : nat) (f : nat -> Z) : Z := fold_right (fun r s => f r + s) 0 (seq 0 n).
Lemma zsum_total {E} (L : nat -> list E) n f : (forall r, (r < n)%nat -> f r = Z.of_nat (length (L r))) -> zsum n f = Z.of_nat (total L n).
Proof.
  unfold zsum, total. intros H. assert (H' : forall r, In r (seq 0 n) -> f r = Z.of_nat (length (L r))) by (intros r Hr; apply in_seq in Hr; apply H; lia).
  clear H. induction (seq 0 n) as [|r l IH]; cbn [fold_right]; [reflexivity|].
  rewrite (H' r) by (now left). rewrite IH by (intros; apply H'; now right). lia.
Qed.

Lemma tiling3_sum n N t : tiling3 n N t -> zsum n (fun r => vol3 (t r)) = vol3 (grid3 N).
Proof.
  intros (Hi & Hd & Hc).
  rewrite (zsum_total (fun r => pts3 (t r))) by (intros; symmetry; apply pts3_length).
  rewrite <- (pts3_length (grid3 N)). f_equal. apply covers_total.
  - intros; apply pts3_NoDup.
  - apply pts3_NoDup.
  - intros r x Hr Hx. apply In_pts3 in Hx. apply In_pts3. eauto.
  - intros r r' x Hr Hr' H1 H2. apply In_pts3 in H1, H2. eapply Hd; eauto.
  - intros x Hx. apply In_pts3 in Hx. destruct (Hc x Hx) as (r & Hr & Hx'). exists r. split; auto. now apply In_pts3.
Qed.
Lemma sum_tiling3 n N t : (forall p r, (r < n)%nat -> inb3 p (t r) -> inb3 p (grid3 N)) -> disjoint_owners3 n t ->
  zsum n (fun r => vol3 (t r)) = vol3 (grid3 N) -> tiling3 n N t.
Proof.
  intros Hi Hd Hs. split; [exact Hi|]. split; [exact Hd|]. intros p Hp.
  rewrite (zsum_total (fun r => pts3 (t r))) in Hs by (intros; symmetry; apply pts3_length).
  rewrite <- (pts3_length (grid3 N)) in Hs. apply Nat2Z.inj in Hs.
  apply In_pts3 in Hp. destruct (total_covers (fun r => pts3 (t r)) (fun r => pts3_NoDup (t r)) (pts3 (grid3 N)) n) with (x := p) as (r & Hr & Hx); auto.
  - intros r x Hr Hx. apply In_pts3 in Hx. apply In_pts3. eauto.
  - intros r r' x Hr Hr' H1 H2. apply In_pts3 in H1, H2. eapply Hd; eauto.
  - exists r. split; auto. now apply In_pts3.
Qed.
Lemma tiling2_sum n N t : tiling2 n N t -> zsum n (fun r => vol2 (t r)) = vol2 (grid2 N).
Proof.
  intros (Hi & Hd & Hc).
  rewrite (zsum_total (fun r => pts2 (t r))) by (intros; symmetry; apply pts2_length).
  rewrite <- (pts2_length (grid2 N)). f_equal. apply covers_total.
  - intros; apply pts2_NoDup.
  - apply pts2_NoDup.
  - intros r x Hr Hx. apply In_pts2 in Hx. apply In_pts2. eauto.
  - intros r r' x Hr Hr' H1 H2. apply In_pts2 in H1, H2. eapply Hd; eauto.
  - intros x Hx. apply In_pts2 in Hx. destruct (Hc x Hx) as (r & Hr & Hx'). exists r. split; auto. now apply In_pts2.
Qed.
Lemma sum_tiling2 n N t : (forall p r, (r < n)%nat -> inb2 p (t r) -> inb2 p (grid2 N)) -> disjoint_owners2 n t ->
  zsum n (fun r => vol2 (t r)) = vol2 (grid2 N) -> tiling2 n N t.
Proof.
  intros Hi Hd Hs. split; [exact Hi|]. split; [exact Hd|]. intros p Hp.
  rewrite (zsum_total (fun r => pts2 (t r))) in Hs by (intros; symmetry; apply pts2_length).
  rewrite <- (pts2_length (grid2 N)) in Hs. apply Nat2Z.inj in Hs.
  apply In_pts2 in Hp. destruct (total_covers (fun r => pts2 (t r)) (fun r => pts2_NoDup (t r)) (pts2 (grid2 N)) n) with (x := p) as (r & Hr & Hx); auto.
  - intros r x Hr Hx. apply In_pts2 in Hx. apply In_pts2. eauto.
  - intros r r' x Hr Hr' H1 H2. apply In_pts2 in H1, H2. eapply Hd; eauto.
  - exists r. split; auto. now apply In_pts2.
Qed.
