(** ConvMath.v : cyclic convolution and the discrete Fourier transform (C82). *)

From Coq Require Import Reals Lra.
From Verif Require Import Base Spec Kiss KissAlg KissReal KissFinal DftMulti.
Local Open Scope R_scope.

(** ** specification *)
Definition cprod (a b : R * R) : R * R := (fst a * fst b - snd a * snd b, fst a * snd b + snd a * fst b).
(** (x * g)(p) = sum over q of x(q) g(p - q), indices modulo the dimensions *)
Definition CONV3 (N : Z * Z * Z) (x g : pt3 -> R * R) (p : pt3) : R * R :=
  let '(n1, n2, n3) := N in let '(i, j, k) := p in
  let t := fun a b c => cprod (x (a, b, c)) (g (((i - a) mod n1, (j - b) mod n2, (k - c) mod n3)%Z)) in
  (sum3 n1 n2 n3 (fun a b c => fst (t a b c)), sum3 n1 n2 n3 (fun a b c => snd (t a b c))).
Definition CONV2 (N : Z * Z) (x g : pt2 -> R * R) (p : pt2) : R * R :=
  let '(n1, n2) := N in let '(i, j) := p in
  let t := fun a b => cprod (x (a, b)) (g (((i - a) mod n1, (j - b) mod n2)%Z)) in
  (sum2 n1 n2 (fun a b => fst (t a b)), sum2 n1 n2 (fun a b => snd (t a b))).

(** ** proofs *)
Local Notation csum := (csum Rops).
Local Notation cmul := (c_mul Rops).

Lemma cprod_cmul a b : cprod a b = cmul a b.
Proof. destruct a, b. unfold cprod, c_mul. cbn. f_equal; ring. Qed.

Lemma cmul_swap a d e : cmul a (cmul d e) = cmul (cmul a e) d.
Proof. destruct a, d, e. unfold c_mul; cbn. f_equal; ring. Qed.

(** shifting the index of a periodic sum *)
Lemma csum_shift n q (f : Z -> R * R) : (0 <= q < n)%Z -> csum n (fun j => f ((j - q) mod n)%Z) = csum n f.
Proof.
  intros H.
  assert (E1 : forall h : Z -> R * R, csum n h = c_add Rops (csum q h) (csum (n - q) (fun i => h (q + i)%Z))).
  { intros h. rewrite <- (csum_app Rops Rlaws q (n - q) h) by lia. f_equal. lia. }
  assert (E2 : forall h : Z -> R * R, csum n h = c_add Rops (csum (n - q) h) (csum q (fun i => h (n - q + i)%Z))).
  { intros h. rewrite <- (csum_app Rops Rlaws (n - q) q h) by lia. f_equal. lia. }
  rewrite E1, (E2 f).
  transitivity (c_add Rops (csum q (fun i => f (n - q + i)%Z)) (csum (n - q) f)).
  - f_equal; apply (csum_ext Rops); intros i Hi; f_equal.
    + symmetry. apply (Z.mod_unique_pos _ _ (-1)); lia.
    + symmetry. apply (Z.mod_unique_pos _ _ 0); lia.
  - unfold c_add; cbn. f_equal; ring.
Qed.

Lemma ee_shift inv n q k j : (0 <= q < n)%Z -> ee inv n j k = cmul (ee inv n ((j - q) mod n)%Z k) (ee inv n q k).
Proof.
  intros H. unfold ee. pose proof (cexpR_roots inv n ltac:(lia)) as W. rewrite <- (R_add _ _ _ _ W).
  apply (w_period Rops Rlaws inv n _ ltac:(lia) W). rewrite <- Z.mul_add_distr_r.
  rewrite (Z.mul_mod ((j - q) mod n + q)) by lia. rewrite Z.add_mod_idemp_l by lia. replace (j - q + q)%Z with j by lia.
  rewrite <- Z.mul_mod by lia. reflexivity.
Qed.

(** the transform of a shifted field, one dimension *)
Lemma csum_ee_shift inv n q k (h : Z -> R * R) : (0 <= q < n)%Z ->
  csum n (fun j => cmul (h ((j - q) mod n)%Z) (ee inv n j k)) = cmul (csum n (fun t => cmul (h t) (ee inv n t k))) (ee inv n q k).
Proof.
  intros H. rewrite <- (csum_mul_r Rops Rlaws).
  rewrite <- (csum_shift n q (fun t => cmul (cmul (h t) (ee inv n t k)) (ee inv n q k))) by exact H.
  apply (csum_ext Rops). intros j _. rewrite (ee_shift inv n q k j H), cmulA. reflexivity.
Qed.

Lemma CONV3_csum n1 n2 n3 x g i j k : (1 <= n1)%Z -> (1 <= n2)%Z -> (1 <= n3)%Z ->
  CONV3 (n1, n2, n3) x g (i, j, k) = csum n3 (fun c => csum n2 (fun b => csum n1 (fun a =>
    cmul (x (a, b, c)) (g (((i - a) mod n1, (j - b) mod n2, (k - c) mod n3)%Z))))).
Proof.
  intros H1 H2 H3. unfold CONV3, sum3, sum2. rewrite csum_sum1 by exact H3.
  f_equal; apply sum1_ext; intros c Hc; rewrite csum_sum1 by exact H2; cbn [fst snd]; apply sum1_ext; intros b Hb;
    rewrite csum_sum1 by exact H1; cbn [fst snd]; apply sum1_ext; intros a Ha; rewrite cprod_cmul; reflexivity.
Qed.
Lemma CONV2_csum n1 n2 x g i j : (1 <= n1)%Z -> (1 <= n2)%Z ->
  CONV2 (n1, n2) x g (i, j) = csum n2 (fun b => csum n1 (fun a => cmul (x (a, b)) (g (((i - a) mod n1, (j - b) mod n2)%Z)))).
Proof.
  intros H1 H2. unfold CONV2, sum2. rewrite csum_sum1 by exact H2.
  f_equal; apply sum1_ext; intros b Hb; rewrite csum_sum1 by exact H1; cbn [fst snd]; apply sum1_ext; intros a Ha; rewrite cprod_cmul; reflexivity.
Qed.

(** one dimension, values in any "module": here fields of the remaining indices are carried by [h] *)
Lemma DFT_shift inv n q k (h : Z -> R * R) : (0 <= q < n)%Z ->
  DFT inv n (fun j => h ((j - q) mod n)%Z) k = cmul (DFT inv n h k) (ee inv n q k).
Proof. intros H. rewrite !DFT_csum by lia. apply csum_ee_shift, H. Qed.

Lemma DFT_add inv n f g k : (1 <= n)%Z -> DFT inv n (fun t => c_add Rops (f t) (g t)) k = c_add Rops (DFT inv n f k) (DFT inv n g k).
Proof.
  intros H. rewrite !DFT_csum by exact H. rewrite <- (csum_add Rops Rlaws). apply (csum_ext Rops). intros j _.
  unfold c_mul, c_add; cbn. f_equal; ring.
Qed.
Lemma DFT_cmul_l inv n c f k : (1 <= n)%Z -> DFT inv n (fun t => cmul c (f t)) k = cmul c (DFT inv n f k).
Proof.
  intros H. rewrite !DFT_csum by exact H. rewrite <- (csum_mul_l Rops Rlaws). apply (csum_ext Rops). intros j _. apply cmulA.
Qed.
Lemma DFT_csum_in inv n m (f : Z -> Z -> R * R) k : (1 <= n)%Z -> DFT inv n (fun t => csum m (fun a => f a t)) k = csum m (fun a => DFT inv n (f a) k).
Proof.
  intros H. rewrite DFT_csum by exact H.
  transitivity (csum n (fun t => csum m (fun a => cmul (f a t) (ee inv n t k)))).
  - apply (csum_ext Rops). intros t _. rewrite (csum_mul_r Rops Rlaws). reflexivity.
  - rewrite (csum_swap Rops Rlaws). apply (csum_ext Rops). intros a _. rewrite DFT_csum by exact H. reflexivity.
Qed.

(** transforms of sums, multiples and shifts of fields in 3d and 2d *)
Lemma DFT3_csum_in inv n1 n2 n3 m (f : Z -> pt3 -> R * R) p : (1 <= n1)%Z -> (1 <= n2)%Z -> (1 <= n3)%Z ->
  DFT3 inv (n1, n2, n3) (fun q => csum m (fun a => f a q)) p = csum m (fun a => DFT3 inv (n1, n2, n3) (f a) p).
Proof.
  intros H1 H2 H3. destruct p as [[k1 k2] k3]. rewrite <- DFT3_fwd by assumption.
  transitivity (DFT inv n3 (fun c => csum m (fun t => DFT inv n2 (fun b => DFT inv n1 (fun a => f t (a, b, c)) k1) k2)) k3).
  - apply DFT_ext; [exact H3|]. intros c _.
    transitivity (DFT inv n2 (fun b => csum m (fun t => DFT inv n1 (fun a => f t (a, b, c)) k1)) k2).
    + apply DFT_ext; [exact H2|]. intros b _. apply (DFT_csum_in inv n1 m (fun t a => f t (a, b, c)) k1 H1).
    + apply (DFT_csum_in inv n2 m (fun t b => DFT inv n1 (fun a => f t (a, b, c)) k1) k2 H2).
  - rewrite (DFT_csum_in inv n3 m (fun t c => DFT inv n2 (fun b => DFT inv n1 (fun a => f t (a, b, c)) k1) k2) k3 H3).
    apply (csum_ext Rops). intros t _. apply DFT3_fwd; assumption.
Qed.
Lemma DFT2_csum_in inv n1 n2 m (f : Z -> pt2 -> R * R) p : (1 <= n1)%Z -> (1 <= n2)%Z ->
  DFT2 inv (n1, n2) (fun q => csum m (fun a => f a q)) p = csum m (fun a => DFT2 inv (n1, n2) (f a) p).
Proof.
  intros H1 H2. destruct p as [k1 k2]. rewrite <- DFT2_fwd by assumption.
  transitivity (DFT inv n2 (fun b => csum m (fun t => DFT inv n1 (fun a => f t (a, b)) k1)) k2).
  - apply DFT_ext; [exact H2|]. intros b _. apply (DFT_csum_in inv n1 m (fun t a => f t (a, b)) k1 H1).
  - rewrite (DFT_csum_in inv n2 m (fun t b => DFT inv n1 (fun a => f t (a, b)) k1) k2 H2).
    apply (csum_ext Rops). intros t _. apply DFT2_fwd; assumption.
Qed.
Lemma DFT3_cmul_l inv n1 n2 n3 c x p : (1 <= n1)%Z -> (1 <= n2)%Z -> (1 <= n3)%Z ->
  DFT3 inv (n1, n2, n3) (fun q => cmul c (x q)) p = cmul c (DFT3 inv (n1, n2, n3) x p).
Proof.
  intros H1 H2 H3. destruct p as [[k1 k2] k3]. rewrite !DFT3_csum by assumption.
  rewrite <- (csum_mul_l Rops Rlaws). apply (csum_ext Rops). intros d _.
  rewrite <- (csum_mul_l Rops Rlaws). apply (csum_ext Rops). intros b _.
  rewrite <- (csum_mul_l Rops Rlaws). apply (csum_ext Rops). intros a _. apply cmulA.
Qed.
Lemma DFT2_cmul_l inv n1 n2 c x p : (1 <= n1)%Z -> (1 <= n2)%Z ->
  DFT2 inv (n1, n2) (fun q => cmul c (x q)) p = cmul c (DFT2 inv (n1, n2) x p).
Proof.
  intros H1 H2. destruct p as [k1 k2]. rewrite !DFT2_csum by assumption.
  rewrite <- (csum_mul_l Rops Rlaws). apply (csum_ext Rops). intros b _.
  rewrite <- (csum_mul_l Rops Rlaws). apply (csum_ext Rops). intros a _. apply cmulA.
Qed.
Lemma DFT3_shift inv n1 n2 n3 a b c x k1 k2 k3 : (0 <= a < n1)%Z -> (0 <= b < n2)%Z -> (0 <= c < n3)%Z ->
  DFT3 inv (n1, n2, n3) (fun q => let '(i, j, k) := q in x ((i - a) mod n1, (j - b) mod n2, (k - c) mod n3)%Z) (k1, k2, k3) =
  cmul (DFT3 inv (n1, n2, n3) x (k1, k2, k3)) (cmul (cmul (ee inv n1 a k1) (ee inv n2 b k2)) (ee inv n3 c k3)).
Proof.
  intros Ha Hb Hc. rewrite <- !DFT3_fwd by lia.
  transitivity (DFT inv n3 (fun k => (fun w => cmul (cmul (DFT inv n2 (fun j => DFT inv n1 (fun i => x (i, j, w)) k1) k2) (ee inv n1 a k1)) (ee inv n2 b k2)) ((k - c) mod n3)%Z) k3).
  - apply DFT_ext; [lia|]. intros k _. cbv beta.
    transitivity (DFT inv n2 (fun j => (fun v => cmul (DFT inv n1 (fun i => x (i, v, (k - c) mod n3)%Z) k1) (ee inv n1 a k1)) ((j - b) mod n2)%Z) k2).
    + apply DFT_ext; [lia|]. intros j _. cbv beta. apply (DFT_shift inv n1 a k1 (fun i => x (i, (j - b) mod n2, (k - c) mod n3)%Z) Ha).
    + rewrite (DFT_shift inv n2 b k2 (fun v => cmul (DFT inv n1 (fun i => x (i, v, (k - c) mod n3)%Z) k1) (ee inv n1 a k1)) Hb). f_equal.
      rewrite (cmulC (DFT _ _ _ _) (ee inv n1 a k1)). rewrite <- DFT_cmul_l by lia. apply DFT_ext; [lia|]. intros v _. apply cmulC.
  - rewrite (DFT_shift inv n3 c k3 (fun w => cmul (cmul (DFT inv n2 (fun j => DFT inv n1 (fun i => x (i, j, w)) k1) k2) (ee inv n1 a k1)) (ee inv n2 b k2)) Hc).
    rewrite <- !cmulA. f_equal. rewrite cmulA, (cmulC (DFT _ _ _ _) (cmul _ _)). rewrite <- DFT_cmul_l by lia. apply DFT_ext; [lia|]. intros w _.
    rewrite cmulA. apply cmulC.
Qed.
Lemma DFT2_shift inv n1 n2 a b x k1 k2 : (0 <= a < n1)%Z -> (0 <= b < n2)%Z ->
  DFT2 inv (n1, n2) (fun q => let '(i, j) := q in x ((i - a) mod n1, (j - b) mod n2)%Z) (k1, k2) =
  cmul (DFT2 inv (n1, n2) x (k1, k2)) (cmul (ee inv n1 a k1) (ee inv n2 b k2)).
Proof.
  intros Ha Hb. rewrite <- !DFT2_fwd by lia.
  transitivity (DFT inv n2 (fun j => (fun v => cmul (DFT inv n1 (fun i => x (i, v)) k1) (ee inv n1 a k1)) ((j - b) mod n2)%Z) k2).
  - apply DFT_ext; [lia|]. intros j _. cbv beta. apply (DFT_shift inv n1 a k1 (fun i => x (i, (j - b) mod n2)%Z) Ha).
  - rewrite (DFT_shift inv n2 b k2 (fun v => cmul (DFT inv n1 (fun i => x (i, v)) k1) (ee inv n1 a k1)) Hb). rewrite <- cmulA. f_equal.
    rewrite (cmulC (DFT _ _ _ _) (ee inv n1 a k1)). rewrite <- DFT_cmul_l by lia. apply DFT_ext; [lia|]. intros v _. apply cmulC.
Qed.

(** the transform of a convolution is the product of the transforms *)
Lemma DFT3_conv inv n1 n2 n3 x g p : (1 <= n1)%Z -> (1 <= n2)%Z -> (1 <= n3)%Z ->
  DFT3 inv (n1, n2, n3) (CONV3 (n1, n2, n3) x g) p = cprod (DFT3 inv (n1, n2, n3) x p) (DFT3 inv (n1, n2, n3) g p).
Proof.
  intros H1 H2 H3. destruct p as [[k1 k2] k3]. rewrite cprod_cmul.
  transitivity (DFT3 inv (n1, n2, n3) (fun q => csum n3 (fun c => csum n2 (fun b => csum n1 (fun a =>
     cmul (x (a, b, c)) (let '(i, j, k) := q in g ((i - a) mod n1, (j - b) mod n2, (k - c) mod n3)%Z))))) (k1, k2, k3)).
  { apply DFT3_ext; try assumption. intros i j k _ _ _. apply CONV3_csum; assumption. }
  rewrite (DFT3_csum_in inv n1 n2 n3 n3 (fun c q => csum n2 (fun b => csum n1 (fun a =>
     cmul (x (a, b, c)) (let '(i, j, k) := q in g ((i - a) mod n1, (j - b) mod n2, (k - c) mod n3)%Z))))) by assumption.
  rewrite (DFT3_csum inv n1 n2 n3 x) by assumption. rewrite <- (csum_mul_r Rops Rlaws). apply (csum_ext Rops). intros c Hc.
  rewrite (DFT3_csum_in inv n1 n2 n3 n2 (fun b q => csum n1 (fun a =>
     cmul (x (a, b, c)) (let '(i, j, k) := q in g ((i - a) mod n1, (j - b) mod n2, (k - c) mod n3)%Z)))) by assumption.
  rewrite <- (csum_mul_r Rops Rlaws). apply (csum_ext Rops). intros b Hb.
  rewrite (DFT3_csum_in inv n1 n2 n3 n1 (fun a q =>
     cmul (x (a, b, c)) (let '(i, j, k) := q in g ((i - a) mod n1, (j - b) mod n2, (k - c) mod n3)%Z))) by assumption.
  rewrite <- (csum_mul_r Rops Rlaws). apply (csum_ext Rops). intros a Ha.
  etransitivity; [exact (DFT3_cmul_l inv n1 n2 n3 (x (a, b, c)) (fun q => let '(i, j, k) := q in g ((i - a) mod n1, (j - b) mod n2, (k - c) mod n3)%Z) (k1, k2, k3) H1 H2 H3)|].
  etransitivity; [exact (f_equal (cmul (x (a, b, c))) (DFT3_shift inv n1 n2 n3 a b c g k1 k2 k3 Ha Hb Hc))|]. apply cmul_swap.
Qed.
Lemma DFT2_conv inv n1 n2 x g p : (1 <= n1)%Z -> (1 <= n2)%Z ->
  DFT2 inv (n1, n2) (CONV2 (n1, n2) x g) p = cprod (DFT2 inv (n1, n2) x p) (DFT2 inv (n1, n2) g p).
Proof.
  intros H1 H2. destruct p as [k1 k2]. rewrite cprod_cmul.
  transitivity (DFT2 inv (n1, n2) (fun q => csum n2 (fun b => csum n1 (fun a =>
     cmul (x (a, b)) (let '(i, j) := q in g ((i - a) mod n1, (j - b) mod n2)%Z)))) (k1, k2)).
  { apply DFT2_ext; try assumption. intros i j _ _. apply CONV2_csum; assumption. }
  rewrite (DFT2_csum_in inv n1 n2 n2 (fun b q => csum n1 (fun a =>
     cmul (x (a, b)) (let '(i, j) := q in g ((i - a) mod n1, (j - b) mod n2)%Z)))) by assumption.
  rewrite (DFT2_csum inv n1 n2 x) by assumption. rewrite <- (csum_mul_r Rops Rlaws). apply (csum_ext Rops). intros b Hb.
  rewrite (DFT2_csum_in inv n1 n2 n1 (fun a q => cmul (x (a, b)) (let '(i, j) := q in g ((i - a) mod n1, (j - b) mod n2)%Z))) by assumption.
  rewrite <- (csum_mul_r Rops Rlaws). apply (csum_ext Rops). intros a Ha.
  etransitivity; [exact (DFT2_cmul_l inv n1 n2 (x (a, b)) (fun q => let '(i, j) := q in g ((i - a) mod n1, (j - b) mod n2)%Z) (k1, k2) H1 H2)|].
  etransitivity; [exact (f_equal (cmul (x (a, b))) (DFT2_shift inv n1 n2 a b g k1 k2 Ha Hb))|]. apply cmul_swap.
Qed.

(** back from the product *)
Lemma CONV3_back n1 n2 n3 x g i j k : (0 <= i < n1)%Z -> (0 <= j < n2)%Z -> (0 <= k < n3)%Z ->
  DFT3 true (n1, n2, n3) (fun p => cprod (DFT3 false (n1, n2, n3) x p) (DFT3 false (n1, n2, n3) g p)) (i, j, k) =
  rmulc (IZR (n1 * n2 * n3)) (CONV3 (n1, n2, n3) x g (i, j, k)).
Proof.
  intros Hi Hj Hk. rewrite <- (DFT3_inverse false n1 n2 n3 (CONV3 (n1, n2, n3) x g) i j k) by assumption. cbn [negb].
  apply DFT3_ext; try lia. intros a b c _ _ _. symmetry. apply DFT3_conv; lia.
Qed.
Lemma CONV2_back n1 n2 x g i j : (0 <= i < n1)%Z -> (0 <= j < n2)%Z ->
  DFT2 true (n1, n2) (fun p => cprod (DFT2 false (n1, n2) x p) (DFT2 false (n1, n2) g p)) (i, j) =
  rmulc (IZR (n1 * n2)) (CONV2 (n1, n2) x g (i, j)).
Proof.
  intros Hi Hj. rewrite <- (DFT2_inverse false n1 n2 (CONV2 (n1, n2) x g) i j) by assumption. cbn [negb].
  apply DFT2_ext; try lia. intros a b _ _. symmetry. apply DFT2_conv; lia.
Qed.

(** any multiplier is the transform of something *)
Lemma CONV3_any n1 n2 n3 x G i j k : (0 <= i < n1)%Z -> (0 <= j < n2)%Z -> (0 <= k < n3)%Z ->
  DFT3 true (n1, n2, n3) (fun p => cprod (DFT3 false (n1, n2, n3) x p) (G p)) (i, j, k) =
  CONV3 (n1, n2, n3) x (DFT3 true (n1, n2, n3) G) (i, j, k).
Proof.
  intros Hi Hj Hk. assert (HN : IZR (n1 * n2 * n3) <> 0) by (apply not_0_IZR; repeat (apply Z.neq_mul_0; split); lia).
  pose (g := fun p => rmulc (/ IZR (n1 * n2 * n3)) (DFT3 true (n1, n2, n3) G p)).
  transitivity (DFT3 true (n1, n2, n3) (fun p => cprod (DFT3 false (n1, n2, n3) x p) (DFT3 false (n1, n2, n3) g p)) (i, j, k)).
  - apply DFT3_ext; try lia. intros a b c Ha Hb Hc. f_equal. unfold g.
    rewrite (DFT3_scale false n1 n2 n3 (/ IZR (n1 * n2 * n3)) (DFT3 true (n1, n2, n3) G)) by lia.
    rewrite (DFT3_inverse true n1 n2 n3 G a b c Ha Hb Hc : DFT3 false _ _ _ = _), rmulc_mul, Rinv_l by exact HN.
    unfold rmulc. rewrite !Rmult_1_l. destruct (G (a, b, c)); reflexivity.
  - rewrite CONV3_back by assumption. rewrite !CONV3_csum by lia.
    transitivity (cmul (IZR (n1 * n2 * n3), 0) (csum n3 (fun c => csum n2 (fun b => csum n1 (fun a =>
      cmul (x (a, b, c)) (g ((i - a) mod n1, (j - b) mod n2, (k - c) mod n3)%Z)))))).
    { unfold rmulc, c_mul; cbn. f_equal; ring. }
    rewrite <- (csum_mul_l Rops Rlaws). apply (csum_ext Rops). intros c _.
    rewrite <- (csum_mul_l Rops Rlaws). apply (csum_ext Rops). intros b _.
    rewrite <- (csum_mul_l Rops Rlaws). apply (csum_ext Rops). intros a _.
    unfold g, rmulc, c_mul; cbn [fst snd smul sadd ssub Rops]. f_equal; field; exact HN.
Qed.
Lemma CONV2_any n1 n2 x G i j : (0 <= i < n1)%Z -> (0 <= j < n2)%Z ->
  DFT2 true (n1, n2) (fun p => cprod (DFT2 false (n1, n2) x p) (G p)) (i, j) =
  CONV2 (n1, n2) x (DFT2 true (n1, n2) G) (i, j).
Proof.
  intros Hi Hj. assert (HN : IZR (n1 * n2) <> 0) by (apply not_0_IZR; repeat (apply Z.neq_mul_0; split); lia).
  pose (g := fun p => rmulc (/ IZR (n1 * n2)) (DFT2 true (n1, n2) G p)).
  transitivity (DFT2 true (n1, n2) (fun p => cprod (DFT2 false (n1, n2) x p) (DFT2 false (n1, n2) g p)) (i, j)).
  - apply DFT2_ext; try lia. intros a b Ha Hb. f_equal. unfold g.
    rewrite (DFT2_scale false n1 n2 (/ IZR (n1 * n2)) (DFT2 true (n1, n2) G)) by lia.
    rewrite (DFT2_inverse true n1 n2 G a b Ha Hb : DFT2 false _ _ _ = _), rmulc_mul, Rinv_l by exact HN.
    unfold rmulc. rewrite !Rmult_1_l. destruct (G (a, b)); reflexivity.
  - rewrite CONV2_back by assumption. rewrite !CONV2_csum by lia.
    transitivity (cmul (IZR (n1 * n2), 0) (csum n2 (fun b => csum n1 (fun a =>
      cmul (x (a, b)) (g ((i - a) mod n1, (j - b) mod n2)%Z))))).
    { unfold rmulc, c_mul; cbn. f_equal; ring. }
    rewrite <- (csum_mul_l Rops Rlaws). apply (csum_ext Rops). intros b _.
    rewrite <- (csum_mul_l Rops Rlaws). apply (csum_ext Rops). intros a _.
    unfold g, rmulc, c_mul; cbn [fst snd smul sadd ssub Rops]. f_equal; field; exact HN.
Qed.
