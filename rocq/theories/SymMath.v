(** SymMath.v : laws of the discrete Fourier transform of real and Hermitian fields, of sums and of shifts (C84). *)

From Coq Require Import Reals Lra.
From Verif Require Import Base Spec Kiss KissAlg KissReal KissFinal DftMulti ConvMath Fft3dTop Fft2dTop.
Local Open Scope R_scope.

(** ** specification *)
Definition conjc (z : R * R) : R * R := (fst z, - snd z).
Definition plusc (a b : R * R) : R * R := (fst a + fst b, snd a + snd b).
(** the wave vector -p *)
Definition opp3 (N : Z * Z * Z) (p : pt3) : pt3 :=
  let '(n1, n2, n3) := N in let '(i, j, k) := p in ((- i) mod n1, (- j) mod n2, (- k) mod n3)%Z.
Definition opp2 (N : Z * Z) (p : pt2) : pt2 := let '(n1, n2) := N in let '(i, j) := p in ((- i) mod n1, (- j) mod n2)%Z.
Definition real3 (N : Z * Z * Z) (x : pt3 -> R * R) : Prop := forall p, in_grid N p -> snd (x p) = 0.
Definition real2 (N : Z * Z) (x : pt2 -> R * R) : Prop := forall p, in_grid2 N p -> snd (x p) = 0.
Definition hermitian3 (N : Z * Z * Z) (x : pt3 -> R * R) : Prop := forall p, in_grid N p -> x (opp3 N p) = conjc (x p).
Definition hermitian2 (N : Z * Z) (x : pt2 -> R * R) : Prop := forall p, in_grid2 N p -> x (opp2 N p) = conjc (x p).
(** exp(i t) *)
Definition expi (t : R) : R * R := (cos t, sin t).
(** the field moved by d, around the grid *)
Definition shifted3 (N : Z * Z * Z) (d : pt3) (x : pt3 -> R * R) (p : pt3) : R * R :=
  let '(n1, n2, n3) := N in let '(a, b, c) := d in let '(i, j, k) := p in x ((i - a) mod n1, (j - b) mod n2, (k - c) mod n3)%Z.
Definition shifted2 (N : Z * Z) (d : pt2) (x : pt2 -> R * R) (p : pt2) : R * R :=
  let '(n1, n2) := N in let '(a, b) := d in let '(i, j) := p in x ((i - a) mod n1, (j - b) mod n2)%Z.
(** -+ 2 pi (a k1/n1 + b k2/n2 + c k3/n3) *)
Definition turn3 (inv : bool) (N : Z * Z * Z) (d p : pt3) : R :=
  let '(n1, n2, n3) := N in let '(a, b, c) := d in let '(k1, k2, k3) := p in angle inv n1 a k1 + angle inv n2 b k2 + angle inv n3 c k3.
Definition turn2 (inv : bool) (N : Z * Z) (d p : pt2) : R :=
  let '(n1, n2) := N in let '(a, b) := d in let '(k1, k2) := p in angle inv n1 a k1 + angle inv n2 b k2.

(** ** proofs *)
Local Notation csum := (csum Rops).
Local Notation cmul := (c_mul Rops).

Lemma conjc_c z : conjc z = c_conj Rops z.
Proof. reflexivity. Qed.
Lemma plusc_c a b : plusc a b = c_add Rops a b.
Proof. reflexivity. Qed.
Lemma conjc_conjc z : conjc (conjc z) = z.
Proof. destruct z. unfold conjc. cbn. f_equal. ring. Qed.
Lemma conjc_real z : conjc z = z <-> snd z = 0.
Proof. destruct z as [a b]. unfold conjc. cbn. split; intros H; [injection H; lra|subst b; f_equal; ring]. Qed.
Lemma conjc_cmul a b : conjc (cmul a b) = cmul (conjc a) (conjc b).
Proof. destruct a, b. unfold conjc, c_mul. cbn. f_equal; ring. Qed.
Lemma conjc_rmulc c z : conjc (rmulc c z) = rmulc c (conjc z).
Proof. destruct z. unfold conjc, rmulc. cbn. f_equal; ring. Qed.
Lemma sum1_opp n f : sum1 n (fun a => - f a) = - sum1 n f.
Proof. unfold sum1. induction (Z.to_nat (n - 1)) as [|m IH]; cbn [sum_f_R0]; [reflexivity|]. rewrite IH. ring. Qed.
Lemma conjc_csum n f : (1 <= n)%Z -> conjc (csum n f) = csum n (fun a => conjc (f a)).
Proof. intros H. rewrite !csum_sum1 by exact H. unfold conjc. cbn. f_equal. symmetry. apply sum1_opp. Qed.

Lemma ee_conj inv n j k : (1 <= n)%Z -> ee inv n j ((- k) mod n) = conjc (ee inv n j k).
Proof.
  intros H. unfold ee. pose proof (cexpR_roots inv n ltac:(lia)) as W.
  transitivity (cexpR inv (- (j * k)) n); [|exact (R_conj _ _ _ _ W (j * k)%Z)].
  apply (w_period Rops Rlaws inv n _ ltac:(lia) W). rewrite Z.mul_mod_idemp_r by lia. f_equal. ring.
Qed.

Lemma DFT_conj inv n x k : (1 <= n)%Z -> DFT inv n (fun t => conjc (x t)) ((- k) mod n) = conjc (DFT inv n x k).
Proof.
  intros H. rewrite !DFT_csum, conjc_csum by exact H. apply (csum_ext Rops). intros j _. rewrite conjc_cmul, ee_conj by exact H. reflexivity.
Qed.
Lemma DFT3_conj inv n1 n2 n3 x i j k : (1 <= n1)%Z -> (1 <= n2)%Z -> (1 <= n3)%Z ->
  DFT3 inv (n1, n2, n3) (fun t => conjc (x t)) (opp3 (n1, n2, n3) (i, j, k)) = conjc (DFT3 inv (n1, n2, n3) x (i, j, k)).
Proof.
  intros H1 H2 H3. unfold opp3. rewrite <- (DFT3_fwd inv n1 n2 n3 x), <- (DFT3_fwd inv n1 n2 n3 (fun t => conjc (x t))) by assumption. rewrite <- (DFT_conj inv n3) by exact H3.
  apply DFT_ext; [exact H3|]. intros c _. rewrite <- (DFT_conj inv n2) by exact H2. apply DFT_ext; [exact H2|]. intros b _. apply DFT_conj, H1.
Qed.
Lemma DFT2_conj inv n1 n2 x i j : (1 <= n1)%Z -> (1 <= n2)%Z ->
  DFT2 inv (n1, n2) (fun t => conjc (x t)) (opp2 (n1, n2) (i, j)) = conjc (DFT2 inv (n1, n2) x (i, j)).
Proof.
  intros H1 H2. unfold opp2. rewrite <- (DFT2_fwd inv n1 n2 x), <- (DFT2_fwd inv n1 n2 (fun t => conjc (x t))) by assumption. rewrite <- (DFT_conj inv n2) by exact H2.
  apply DFT_ext; [exact H2|]. intros b _. apply DFT_conj, H1.
Qed.

Lemma in_grid_xyz n1 n2 n3 i j k : in_grid (n1, n2, n3) (i, j, k) <-> (0 <= i < n1 /\ 0 <= j < n2 /\ 0 <= k < n3)%Z.
Proof. unfold in_grid, inb3, grid3. cbn. lia. Qed.
Lemma in_grid2_xy n1 n2 i j : in_grid2 (n1, n2) (i, j) <-> (0 <= i < n1 /\ 0 <= j < n2)%Z.
Proof. unfold in_grid2, inb2, grid2. cbn. lia. Qed.
Lemma opp_opp n i : (0 <= i < n)%Z -> ((- ((- i) mod n)) mod n = i)%Z.
Proof.
  intros H. destruct (Z.eq_dec i 0) as [->|Hi]; [change (- 0)%Z with 0%Z; rewrite (Z.mod_0_l n) by lia; change (- 0)%Z with 0%Z; apply (Z.mod_0_l n); lia|].
  rewrite (Z.mod_opp_l_nz i n) by (rewrite ?Z.mod_small; lia). rewrite (Z.mod_small i n) by lia.
  symmetry. apply (Z.mod_unique_pos _ _ (-1)); lia.
Qed.
Lemma opp3_in N p : in_grid N p -> in_grid N (opp3 N p).
Proof.
  destruct N as [[n1 n2] n3], p as [[i j] k]. intros H. apply in_grid_xyz in H. unfold opp3. apply in_grid_xyz.
  repeat split; apply Z.mod_pos_bound; lia.
Qed.
Lemma opp2_in N p : in_grid2 N p -> in_grid2 N (opp2 N p).
Proof.
  destruct N as [n1 n2], p as [i j]. intros H. apply in_grid2_xy in H. unfold opp2. apply in_grid2_xy.
  repeat split; apply Z.mod_pos_bound; lia.
Qed.
Lemma opp3_opp3 N p : in_grid N p -> opp3 N (opp3 N p) = p.
Proof.
  destruct N as [[n1 n2] n3], p as [[i j] k]. intros H. apply in_grid_xyz in H. unfold opp3. rewrite !opp_opp by lia. reflexivity.
Qed.
Lemma opp2_opp2 N p : in_grid2 N p -> opp2 N (opp2 N p) = p.
Proof.
  destruct N as [n1 n2], p as [i j]. intros H. apply in_grid2_xy in H. unfold opp2. rewrite !opp_opp by lia. reflexivity.
Qed.

(** real data has a Hermitian transform *)
Lemma DFT3_real inv N x p : in_grid N p -> real3 N x -> DFT3 inv N x (opp3 N p) = conjc (DFT3 inv N x p).
Proof.
  destruct N as [[n1 n2] n3], p as [[i j] k]. intros Hp Hx. apply in_grid_xyz in Hp. rewrite <- DFT3_conj by lia.
  unfold opp3. apply DFT3_ext; try lia. intros a b c Ha Hb Hc. symmetry. apply conjc_real, Hx. apply in_grid_xyz. lia.
Qed.
Lemma DFT2_real inv N x p : in_grid2 N p -> real2 N x -> DFT2 inv N x (opp2 N p) = conjc (DFT2 inv N x p).
Proof.
  destruct N as [n1 n2], p as [i j]. intros Hp Hx. apply in_grid2_xy in Hp. rewrite <- DFT2_conj by lia.
  unfold opp2. apply DFT2_ext; try lia. intros a b Ha Hb. symmetry. apply conjc_real, Hx. apply in_grid2_xy. lia.
Qed.
(** Hermitian data has a real transform *)
Lemma rmulc_cancel c a b : c <> 0 -> rmulc c a = rmulc c b -> a = b.
Proof. destruct a as [a1 a2], b as [b1 b2]. unfold rmulc. cbn. intros H E. injection E. intros E2 E1. f_equal; eapply Rmult_eq_reg_l; eauto. Qed.
Lemma DFT3_hermitian inv N x : hermitian3 N x -> real3 N (DFT3 inv N x).
Proof.
  destruct N as [[n1 n2] n3]. intros Hx [[i j] k] Hp. pose proof (proj1 (in_grid_xyz _ _ _ _ _ _) Hp) as B.
  apply conjc_real. set (N := (n1, n2, n3)) in *. pose (y := DFT3 inv N x).
  assert (E : forall a b c, (0 <= a < n1)%Z -> (0 <= b < n2)%Z -> (0 <= c < n3)%Z -> DFT3 (negb inv) N (fun t => conjc (y t)) (a, b, c) = DFT3 (negb inv) N y (a, b, c)).
  { intros a b c Ha Hb Hc. assert (Hq : in_grid N (a, b, c)) by (apply in_grid_xyz; lia).
    rewrite <- (opp3_opp3 N (a, b, c) Hq). pose proof (opp3_in N _ Hq) as Hq'. destruct (opp3 N (a, b, c)) as [[a' b'] c'] eqn:Eo.
    pose proof (proj1 (in_grid_xyz _ _ _ _ _ _) Hq') as B'. etransitivity; [exact (DFT3_conj (negb inv) n1 n2 n3 y a' b' c' ltac:(lia) ltac:(lia) ltac:(lia))|].
    etransitivity; [exact (f_equal conjc (DFT3_inverse inv n1 n2 n3 x a' b' c' ltac:(lia) ltac:(lia) ltac:(lia)))|]. rewrite conjc_rmulc, <- (Hx _ Hq').
    pose proof (opp3_in N _ Hq') as Hq2. destruct (opp3 N (a', b', c')) as [[a2 b2] c2]. apply in_grid_xyz in Hq2. symmetry. apply DFT3_inverse; lia. }
  apply (rmulc_cancel (IZR (n1 * n2 * n3))); [apply not_0_IZR; repeat (apply Z.neq_mul_0; split); lia|].
  pose proof (DFT3_inverse (negb inv) n1 n2 n3 y i j k ltac:(lia) ltac:(lia) ltac:(lia)) as E2.
  pose proof (DFT3_inverse (negb inv) n1 n2 n3 (fun t => conjc (y t)) i j k ltac:(lia) ltac:(lia) ltac:(lia)) as E1.
  change (rmulc (IZR (n1 * n2 * n3)) (conjc (y (i, j, k))) = rmulc (IZR (n1 * n2 * n3)) (y (i, j, k))).
  rewrite <- E1, <- E2. apply DFT3_ext; try lia. exact E.
Qed.
Lemma DFT2_hermitian inv N x : hermitian2 N x -> real2 N (DFT2 inv N x).
Proof.
  destruct N as [n1 n2]. intros Hx [i j] Hp. pose proof (proj1 (in_grid2_xy _ _ _ _) Hp) as B.
  apply conjc_real. set (N := (n1, n2)) in *. pose (y := DFT2 inv N x).
  assert (E : forall a b, (0 <= a < n1)%Z -> (0 <= b < n2)%Z -> DFT2 (negb inv) N (fun t => conjc (y t)) (a, b) = DFT2 (negb inv) N y (a, b)).
  { intros a b Ha Hb. assert (Hq : in_grid2 N (a, b)) by (apply in_grid2_xy; lia).
    rewrite <- (opp2_opp2 N (a, b) Hq). pose proof (opp2_in N _ Hq) as Hq'. destruct (opp2 N (a, b)) as [a' b'] eqn:Eo.
    pose proof (proj1 (in_grid2_xy _ _ _ _) Hq') as B'. etransitivity; [exact (DFT2_conj (negb inv) n1 n2 y a' b' ltac:(lia) ltac:(lia))|].
    etransitivity; [exact (f_equal conjc (DFT2_inverse inv n1 n2 x a' b' ltac:(lia) ltac:(lia)))|]. rewrite conjc_rmulc, <- (Hx _ Hq').
    pose proof (opp2_in N _ Hq') as Hq2. destruct (opp2 N (a', b')) as [a2 b2]. apply in_grid2_xy in Hq2. symmetry. apply DFT2_inverse; lia. }
  apply (rmulc_cancel (IZR (n1 * n2))); [apply not_0_IZR; repeat (apply Z.neq_mul_0; split); lia|].
  pose proof (DFT2_inverse (negb inv) n1 n2 y i j ltac:(lia) ltac:(lia)) as E2.
  pose proof (DFT2_inverse (negb inv) n1 n2 (fun t => conjc (y t)) i j ltac:(lia) ltac:(lia)) as E1.
  change (rmulc (IZR (n1 * n2)) (conjc (y (i, j))) = rmulc (IZR (n1 * n2)) (y (i, j))).
  rewrite <- E1, <- E2. apply DFT2_ext; try lia. exact E.
Qed.

(** sums and multiples *)
Lemma DFT3_plus inv n1 n2 n3 x y p : (1 <= n1)%Z -> (1 <= n2)%Z -> (1 <= n3)%Z ->
  DFT3 inv (n1, n2, n3) (fun t => plusc (x t) (y t)) p = plusc (DFT3 inv (n1, n2, n3) x p) (DFT3 inv (n1, n2, n3) y p).
Proof.
  intros H1 H2 H3. destruct p as [[i j] k]. rewrite <- !DFT3_fwd by assumption. rewrite plusc_c, <- DFT_add by exact H3.
  apply DFT_ext; [exact H3|]. intros c _. rewrite <- DFT_add by exact H2. apply DFT_ext; [exact H2|]. intros b _. apply DFT_add, H1.
Qed.
Lemma DFT2_plus inv n1 n2 x y p : (1 <= n1)%Z -> (1 <= n2)%Z ->
  DFT2 inv (n1, n2) (fun t => plusc (x t) (y t)) p = plusc (DFT2 inv (n1, n2) x p) (DFT2 inv (n1, n2) y p).
Proof.
  intros H1 H2. destruct p as [i j]. rewrite <- !DFT2_fwd by assumption. rewrite plusc_c, <- DFT_add by exact H2.
  apply DFT_ext; [exact H2|]. intros b _. apply DFT_add, H1.
Qed.
Lemma DFT3_lin inv n1 n2 n3 a x b y p : (1 <= n1)%Z -> (1 <= n2)%Z -> (1 <= n3)%Z ->
  DFT3 inv (n1, n2, n3) (fun t => plusc (cprod a (x t)) (cprod b (y t))) p = plusc (cprod a (DFT3 inv (n1, n2, n3) x p)) (cprod b (DFT3 inv (n1, n2, n3) y p)).
Proof.
  intros H1 H2 H3. rewrite (DFT3_plus inv n1 n2 n3 (fun t => cprod a (x t)) (fun t => cprod b (y t))) by assumption. f_equal.
  - rewrite cprod_cmul, <- DFT3_cmul_l by assumption. apply DFT3_ext; try assumption. intros. apply cprod_cmul.
  - rewrite cprod_cmul, <- DFT3_cmul_l by assumption. apply DFT3_ext; try assumption. intros. apply cprod_cmul.
Qed.
Lemma DFT2_lin inv n1 n2 a x b y p : (1 <= n1)%Z -> (1 <= n2)%Z ->
  DFT2 inv (n1, n2) (fun t => plusc (cprod a (x t)) (cprod b (y t))) p = plusc (cprod a (DFT2 inv (n1, n2) x p)) (cprod b (DFT2 inv (n1, n2) y p)).
Proof.
  intros H1 H2. rewrite (DFT2_plus inv n1 n2 (fun t => cprod a (x t)) (fun t => cprod b (y t))) by assumption. f_equal.
  - rewrite cprod_cmul, <- DFT2_cmul_l by assumption. apply DFT2_ext; try assumption. intros. apply cprod_cmul.
  - rewrite cprod_cmul, <- DFT2_cmul_l by assumption. apply DFT2_ext; try assumption. intros. apply cprod_cmul.
Qed.

(** shifts *)
Lemma DFT3_shifted inv N d x p : in_grid N d -> in_grid N p ->
  DFT3 inv N (shifted3 N d x) p = cprod (DFT3 inv N x p) (expi (turn3 inv N d p)).
Proof.
  destruct N as [[n1 n2] n3], d as [[a b] c], p as [[k1 k2] k3]. intros Hd Hp. apply in_grid_xyz in Hd, Hp. unfold turn3, shifted3.
  rewrite cprod_cmul. unfold expi. rewrite <- !ee_mul, <- !ee_angle. apply DFT3_shift; lia.
Qed.
Lemma DFT2_shifted inv N d x p : in_grid2 N d -> in_grid2 N p ->
  DFT2 inv N (shifted2 N d x) p = cprod (DFT2 inv N x p) (expi (turn2 inv N d p)).
Proof.
  destruct N as [n1 n2], d as [a b], p as [k1 k2]. intros Hd Hp. apply in_grid2_xy in Hd, Hp. unfold turn2, shifted2.
  rewrite cprod_cmul. unfold expi. rewrite <- !ee_mul, <- !ee_angle. apply DFT2_shift; lia.
Qed.
