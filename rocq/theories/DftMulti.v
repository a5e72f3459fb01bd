(** DftMulti.v : the 2d and 3d discrete Fourier transforms of real-number fields. *)

From Coq Require Import Reals Lra.
From Verif Require Import Base Spec Kiss KissAlg KissReal KissFinal.
Local Open Scope R_scope.

(** ** specification, only the standard library's sums, sin and cos *)

(** sum over all points of an n1 x n2 (x n3) grid *)
Definition sum1 (n : Z) (h : Z -> R) : R := sum_f_R0 (fun a => h (Z.of_nat a)) (Z.to_nat (n - 1)).
Definition sum2 (n1 n2 : Z) (h : Z -> Z -> R) : R := sum1 n2 (fun b => sum1 n1 (fun a => h a b)).
Definition sum3 (n1 n2 n3 : Z) (h : Z -> Z -> Z -> R) : R := sum1 n3 (fun c => sum2 n1 n2 (fun a b => h a b c)).

(** X(k) = sum over j of x(j) exp(-+ 2 pi i (j1 k1/n1 + j2 k2/n2 + j3 k3/n3)), + when [inv] *)
Definition DFT3 (inv : bool) (N : Z * Z * Z) (x : pt3 -> R * R) (p : pt3) : R * R :=
  let '(n1, n2, n3) := N in let '(k1, k2, k3) := p in
  let th := fun a b c => angle inv n1 a k1 + angle inv n2 b k2 + angle inv n3 c k3 in
  (sum3 n1 n2 n3 (fun a b c => fst (x (a, b, c)) * cos (th a b c) - snd (x (a, b, c)) * sin (th a b c)),
   sum3 n1 n2 n3 (fun a b c => fst (x (a, b, c)) * sin (th a b c) + snd (x (a, b, c)) * cos (th a b c))).

Definition DFT2 (inv : bool) (N : Z * Z) (x : pt2 -> R * R) (p : pt2) : R * R :=
  let '(n1, n2) := N in let '(k1, k2) := p in
  let th := fun a b => angle inv n1 a k1 + angle inv n2 b k2 in
  (sum2 n1 n2 (fun a b => fst (x (a, b)) * cos (th a b) - snd (x (a, b)) * sin (th a b)),
   sum2 n1 n2 (fun a b => fst (x (a, b)) * sin (th a b) + snd (x (a, b)) * cos (th a b))).

(** multiplication by a real *)
Definition rmulc (c : R) (z : R * R) : R * R := (c * fst z, c * snd z).

(** ** one dimension at a time *)
Local Notation csum := (csum Rops).
Local Notation cmul := (c_mul Rops).

Lemma csum_sum1 n f : (1 <= n)%Z -> csum n f = (sum1 n (fun a => fst (f a)), sum1 n (fun a => snd (f a))).
Proof. intros H. unfold KissAlg.csum. replace (Z.to_nat n) with (S (Z.to_nat (n - 1))) by lia. apply nsum_sums. Qed.

Lemma sum1_ext n f g : (forall a, (0 <= a)%Z -> f a = g a) -> sum1 n f = sum1 n g.
Proof. intros H. apply sum_eq. intros i _. apply H. lia. Qed.

Definition ee (inv : bool) (n a k : Z) : R * R := cexpR inv (a * k) n.

Lemma DFT_csum inv n x k : (1 <= n)%Z -> DFT inv n x k = csum n (fun j => cmul (x j) (ee inv n j k)).
Proof. intros H. rewrite <- (DFT_dft inv n x k H). reflexivity. Qed.

Lemma DFT_ext inv n x y k : (1 <= n)%Z -> (forall t, (0 <= t < n)%Z -> x t = y t) -> DFT inv n x k = DFT inv n y k.
Proof. intros H E. rewrite !DFT_csum by exact H. apply (csum_ext Rops). intros i Hi. rewrite E by exact Hi. reflexivity. Qed.

Lemma cmulA a b c : cmul (cmul a b) c = cmul a (cmul b c).
Proof. destruct a, b, c. unfold c_mul; cbn. f_equal; ring. Qed.
Lemma cmulC a b : cmul a b = cmul b a.
Proof. destruct a, b. unfold c_mul; cbn. f_equal; ring. Qed.

Lemma cmul_rev a b c : cmul a (cmul b c) = cmul c (cmul b a).
Proof. destruct a, b, c. unfold c_mul; cbn. f_equal; ring. Qed.

Lemma ee_angle inv n a k : ee inv n a k = (cos (angle inv n a k), sin (angle inv n a k)).
Proof. unfold ee, cexpR. rewrite angle_phase. reflexivity. Qed.

Lemma ee_mul u v : cmul (cos u, sin u) (cos v, sin v) = (cos (u + v), sin (u + v)).
Proof. unfold c_mul; cbn. rewrite cos_plus, sin_plus. f_equal; ring. Qed.

Lemma DFT2_csum inv n1 n2 x k1 k2 : (1 <= n1)%Z -> (1 <= n2)%Z ->
  DFT2 inv (n1, n2) x (k1, k2) = csum n2 (fun b => csum n1 (fun a => cmul (x (a, b)) (cmul (ee inv n1 a k1) (ee inv n2 b k2)))).
Proof.
  intros H1 H2. unfold DFT2, sum2. rewrite csum_sum1 by exact H2.
  f_equal; apply sum1_ext; intros b Hb; rewrite csum_sum1 by exact H1; cbn [fst snd]; apply sum1_ext; intros a Ha;
    rewrite !ee_angle, ee_mul; unfold c_mul; cbn; ring.
Qed.

Lemma DFT3_csum inv n1 n2 n3 x k1 k2 k3 : (1 <= n1)%Z -> (1 <= n2)%Z -> (1 <= n3)%Z ->
  DFT3 inv (n1, n2, n3) x (k1, k2, k3) = csum n3 (fun c => csum n2 (fun b => csum n1 (fun a =>
     cmul (x (a, b, c)) (cmul (cmul (ee inv n1 a k1) (ee inv n2 b k2)) (ee inv n3 c k3))))).
Proof.
  intros H1 H2 H3. unfold DFT3, sum3, sum2. rewrite csum_sum1 by exact H3.
  f_equal; apply sum1_ext; intros c Hc; rewrite csum_sum1 by exact H2; cbn [fst snd]; apply sum1_ext; intros b Hb;
    rewrite csum_sum1 by exact H1; cbn [fst snd]; apply sum1_ext; intros a Ha;
    rewrite !ee_angle, !ee_mul; unfold c_mul; cbn; ring.
Qed.

(** sum over the slow index outermost *)
Lemma DFT3_fwd inv n1 n2 n3 x k1 k2 k3 : (1 <= n1)%Z -> (1 <= n2)%Z -> (1 <= n3)%Z ->
  DFT inv n3 (fun c => DFT inv n2 (fun b => DFT inv n1 (fun a => x (a, b, c)) k1) k2) k3 = DFT3 inv (n1, n2, n3) x (k1, k2, k3).
Proof.
  intros H1 H2 H3. rewrite DFT3_csum by assumption. rewrite DFT_csum by exact H3.
  apply (csum_ext Rops). intros c _. rewrite DFT_csum by exact H2. rewrite <- (csum_mul_r Rops Rlaws).
  apply (csum_ext Rops). intros b _. rewrite DFT_csum by exact H1. rewrite cmulA. rewrite <- (csum_mul_r Rops Rlaws).
  apply (csum_ext Rops). intros a _. rewrite !cmulA. reflexivity.
Qed.
Lemma DFT3_bwd inv n1 n2 n3 x k1 k2 k3 : (1 <= n1)%Z -> (1 <= n2)%Z -> (1 <= n3)%Z ->
  DFT inv n1 (fun a => DFT inv n2 (fun b => DFT inv n3 (fun c => x (a, b, c)) k3) k2) k1 = DFT3 inv (n1, n2, n3) x (k1, k2, k3).
Proof.
  intros H1 H2 H3. rewrite DFT3_csum by assumption. rewrite DFT_csum by exact H1.
  transitivity (csum n1 (fun a => csum n2 (fun b => csum n3 (fun c =>
     cmul (x (a, b, c)) (cmul (cmul (ee inv n1 a k1) (ee inv n2 b k2)) (ee inv n3 c k3)))))).
  - apply (csum_ext Rops). intros a _. rewrite DFT_csum by exact H2. rewrite <- (csum_mul_r Rops Rlaws).
    apply (csum_ext Rops). intros b _. rewrite DFT_csum by exact H3. rewrite cmulA. rewrite <- (csum_mul_r Rops Rlaws).
    apply (csum_ext Rops). intros c _. rewrite !cmulA. f_equal.
    apply cmul_rev.
  - rewrite (csum_swap Rops Rlaws). 
    transitivity (csum n2 (fun b => csum n3 (fun c => csum n1 (fun a =>
     cmul (x (a, b, c)) (cmul (cmul (ee inv n1 a k1) (ee inv n2 b k2)) (ee inv n3 c k3)))))).
    + apply (csum_ext Rops). intros b _. apply (csum_swap Rops Rlaws).
    + apply (csum_swap Rops Rlaws).
Qed.
Lemma DFT2_fwd inv n1 n2 x k1 k2 : (1 <= n1)%Z -> (1 <= n2)%Z ->
  DFT inv n2 (fun b => DFT inv n1 (fun a => x (a, b)) k1) k2 = DFT2 inv (n1, n2) x (k1, k2).
Proof.
  intros H1 H2. rewrite DFT2_csum by assumption. rewrite DFT_csum by exact H2.
  apply (csum_ext Rops). intros b _. rewrite DFT_csum by exact H1. rewrite <- (csum_mul_r Rops Rlaws).
  apply (csum_ext Rops). intros a _. rewrite !cmulA. reflexivity.
Qed.
Lemma DFT2_bwd inv n1 n2 x k1 k2 : (1 <= n1)%Z -> (1 <= n2)%Z ->
  DFT inv n1 (fun a => DFT inv n2 (fun b => x (a, b)) k2) k1 = DFT2 inv (n1, n2) x (k1, k2).
Proof.
  intros H1 H2. rewrite DFT2_csum by assumption. rewrite DFT_csum by exact H1. rewrite (csum_swap Rops Rlaws).
  apply (csum_ext Rops). intros a _. rewrite DFT_csum by exact H2. rewrite <- (csum_mul_r Rops Rlaws).
  apply (csum_ext Rops). intros b _. rewrite !cmulA. f_equal. apply cmulC.
Qed.

(** ** inverses *)
Lemma DFT_scale inv n c x k : (1 <= n)%Z -> DFT inv n (fun t => rmulc c (x t)) k = rmulc c (DFT inv n x k).
Proof.
  intros H. rewrite !DFT_csum by exact H.
  transitivity (cmul (c, 0) (csum n (fun j => cmul (x j) (ee inv n j k)))).
  - rewrite <- (csum_mul_l Rops Rlaws). apply (csum_ext Rops). intros j _. rewrite <- cmulA. f_equal.
    unfold rmulc, c_mul; cbn. f_equal; ring.
  - unfold rmulc, c_mul; cbn. f_equal; ring.
Qed.

Lemma DFT_back inv n x l : (1 <= n)%Z -> (0 <= l < n)%Z -> DFT (negb inv) n (DFT inv n x) l = rmulc (IZR n) (x l).
Proof. intros H1 H2. exact (C22_inverse_proof inv n x l H1 H2). Qed.

Lemma rmulc_mul a b z : rmulc a (rmulc b z) = rmulc (a * b) z.
Proof. unfold rmulc; cbn. f_equal; ring. Qed.

(** the transform of the transform with the other sign is the number of points times the data *)
Lemma DFT3_inverse inv n1 n2 n3 x i j k : (0 <= i < n1)%Z -> (0 <= j < n2)%Z -> (0 <= k < n3)%Z ->
  DFT3 (negb inv) (n1, n2, n3) (DFT3 inv (n1, n2, n3) x) (i, j, k) = rmulc (IZR (n1 * n2 * n3)) (x (i, j, k)).
Proof.
  intros Hi Hj Hk. rewrite <- DFT3_bwd by lia.
  transitivity (DFT (negb inv) n1 (fun a => rmulc (IZR n3 * IZR n2) (DFT inv n1 (fun s => x (s, j, k)) a)) i).
  2:{ rewrite DFT_scale by lia. rewrite (DFT_back inv n1 (fun s => x (s, j, k))) by lia. rewrite rmulc_mul. f_equal. rewrite !mult_IZR. ring. }
  apply DFT_ext; [lia|]. intros a Ha.
  transitivity (DFT (negb inv) n2 (fun b => rmulc (IZR n3) (DFT inv n2 (fun t => DFT inv n1 (fun s => x (s, t, k)) a) b)) j).
  2:{ rewrite DFT_scale by lia. rewrite (DFT_back inv n2 (fun t => DFT inv n1 (fun s => x (s, t, k)) a)) by lia. apply rmulc_mul. }
  apply DFT_ext; [lia|]. intros b Hb.
  rewrite <- (DFT_back inv n3 (fun u => DFT inv n2 (fun t => DFT inv n1 (fun s => x (s, t, u)) a) b)) by lia.
  apply DFT_ext; [lia|]. intros c Hc. symmetry. apply DFT3_fwd; lia.
Qed.
Lemma DFT2_inverse inv n1 n2 x i j : (0 <= i < n1)%Z -> (0 <= j < n2)%Z ->
  DFT2 (negb inv) (n1, n2) (DFT2 inv (n1, n2) x) (i, j) = rmulc (IZR (n1 * n2)) (x (i, j)).
Proof.
  intros Hi Hj. rewrite <- DFT2_bwd by lia.
  transitivity (DFT (negb inv) n1 (fun a => rmulc (IZR n2) (DFT inv n1 (fun s => x (s, j)) a)) i).
  2:{ rewrite DFT_scale by lia. rewrite (DFT_back inv n1 (fun s => x (s, j))) by lia. rewrite rmulc_mul. f_equal. rewrite mult_IZR. ring. }
  apply DFT_ext; [lia|]. intros a Ha.
  rewrite <- (DFT_back inv n2 (fun t => DFT inv n1 (fun s => x (s, t)) a)) by lia.
  apply DFT_ext; [lia|]. intros b Hb. symmetry. apply DFT2_fwd; lia.
Qed.

Lemma DFT3_scale inv n1 n2 n3 c x p : (1 <= n1)%Z -> (1 <= n2)%Z -> (1 <= n3)%Z ->
  DFT3 inv (n1, n2, n3) (fun t => rmulc c (x t)) p = rmulc c (DFT3 inv (n1, n2, n3) x p).
Proof.
  intros H1 H2 H3. destruct p as [[i j] k]. rewrite <- !DFT3_fwd by assumption.
  rewrite <- DFT_scale by exact H3. apply DFT_ext; [lia|]. intros c' _. rewrite <- DFT_scale by exact H2.
  apply DFT_ext; [lia|]. intros b _. apply DFT_scale; lia.
Qed.
Lemma DFT2_scale inv n1 n2 c x p : (1 <= n1)%Z -> (1 <= n2)%Z ->
  DFT2 inv (n1, n2) (fun t => rmulc c (x t)) p = rmulc c (DFT2 inv (n1, n2) x p).
Proof.
  intros H1 H2. destruct p as [i j]. rewrite <- !DFT2_fwd by assumption.
  rewrite <- DFT_scale by exact H2. apply DFT_ext; [lia|]. intros c' _. apply DFT_scale; lia.
Qed.
Lemma DFT3_ext inv n1 n2 n3 x y p : (1 <= n1)%Z -> (1 <= n2)%Z -> (1 <= n3)%Z ->
  (forall a b c, (0 <= a < n1)%Z -> (0 <= b < n2)%Z -> (0 <= c < n3)%Z -> x (a, b, c) = y (a, b, c)) ->
  DFT3 inv (n1, n2, n3) x p = DFT3 inv (n1, n2, n3) y p.
Proof.
  intros H1 H2 H3 E. destruct p as [[i j] k]. rewrite <- !DFT3_fwd by assumption.
  apply DFT_ext; [lia|]. intros c Hc. apply DFT_ext; [lia|]. intros b Hb. apply DFT_ext; [lia|]. intros a Ha. apply E; assumption.
Qed.
Lemma DFT2_ext inv n1 n2 x y p : (1 <= n1)%Z -> (1 <= n2)%Z ->
  (forall a b, (0 <= a < n1)%Z -> (0 <= b < n2)%Z -> x (a, b) = y (a, b)) ->
  DFT2 inv (n1, n2) x p = DFT2 inv (n1, n2) y p.
Proof.
  intros H1 H2 E. destruct p as [i j]. rewrite <- !DFT2_fwd by assumption.
  apply DFT_ext; [lia|]. intros b Hb. apply DFT_ext; [lia|]. intros a Ha. apply E; assumption.
Qed.
