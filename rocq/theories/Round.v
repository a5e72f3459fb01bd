(** Round.v : rounded arithmetic.  [rounding u mu om O val fin] says that the scalar operations [O] on numbers of type [F]
    are the exact ones up to a relative error [u], plus an absolute error [u * mu] where the result may underflow, as long as
    the operands are finite and the exact result does not exceed [om]; the result is then finite too.  [val] is the value of
    a number, [fin] says that it is finite.  IEEE binary64, rounding to nearest, has u = 2^-53, mu = 2^-1022 and om = the
    largest finite number; RoundDouble.v proves it of the standard library's definition of binary64, where each operation of
    the source is one rounded operation.  A sum or difference of two binary64 numbers has no underflow error; one that is
    fused with a product can have it, and Fma.v proves [rounding] of the arithmetic of a compiler that fuses.  Extended
    registers are not covered.

    [near k B y z] is the invariant of the error analysis: y is finite, and is z up to the error of k successive roundings
    of quantities of size B.  [cnear k B y z] says the same and that the error is not quite as large; the difference pays
    for the underflow of the sums inside a butterfly. *)

From Coq Require Import Reals Lra Psatz.
From Verif Require Import Base Kiss KissPure KissAlg KissReal.
Local Open Scope R_scope.

(** ** specification *)
(** modulus and distance of complex numbers *)
Definition cmod (z : R * R) : R := sqrt (fst z * fst z + snd z * snd z).
Definition cdist (a b : R * R) : R := cmod (fst a - fst b, snd a - snd b).

Record rounding {F : Type} (u mu om : R) (O : sops F) (val : F -> R) (fin : F -> Prop) : Prop := mkrounding {
  r_u : 0 <= u;
  r_mu : 0 <= mu;
  r_add : forall a b, fin a -> fin b -> Rabs (val a + val b) <= om ->
    fin (sadd O a b) /\ Rabs (val (sadd O a b) - (val a + val b)) <= u * (Rabs (val a + val b) + mu);
  r_sub : forall a b, fin a -> fin b -> Rabs (val a - val b) <= om ->
    fin (ssub O a b) /\ Rabs (val (ssub O a b) - (val a - val b)) <= u * (Rabs (val a - val b) + mu);
  r_mul : forall a b, fin a -> fin b -> Rabs (val a * val b) <= om ->
    fin (smul O a b) /\ Rabs (val (smul O a b) - val a * val b) <= u * (Rabs (val a * val b) + mu);
  r_half : forall a, fin a -> Rabs (val a / 2) <= om ->
    fin (shalf O a) /\ Rabs (val (shalf O a) - val a / 2) <= u * (Rabs (val a / 2) + mu);
  r_opp : forall a, fin a -> fin (sopp O a) /\ val (sopp O a) = - val a }.

(** complex numbers made of two [F] *)
Definition cval {F : Type} (val : F -> R) (z : F * F) : R * R := (val (fst z), val (snd z)).
Definition cfin {F : Type} (fin : F -> Prop) (z : F * F) : Prop := fin (fst z) /\ fin (snd z).

(** ** modulus *)
Lemma cmod_nonneg z : 0 <= cmod z.
Proof. apply sqrt_pos. Qed.

Lemma cmod_sq z : cmod z * cmod z = fst z * fst z + snd z * snd z.
Proof. apply sqrt_sqrt. nra. Qed.

Lemma cmod_le z b : 0 <= b -> fst z * fst z + snd z * snd z <= b * b -> cmod z <= b.
Proof. intros Hb H. unfold cmod. rewrite <- (sqrt_square b Hb). apply sqrt_le_1_alt. exact H. Qed.

Lemma cmod_fst z : Rabs (fst z) <= cmod z.
Proof. apply Rsqr_incr_0_var; [|apply cmod_nonneg]. unfold Rsqr. rewrite cmod_sq, <- Rabs_mult, Rabs_right by nra. nra. Qed.
Lemma cmod_snd z : Rabs (snd z) <= cmod z.
Proof. apply Rsqr_incr_0_var; [|apply cmod_nonneg]. unfold Rsqr. rewrite cmod_sq, <- Rabs_mult, Rabs_right by nra. nra. Qed.

Lemma cauchy a b c d : (a * c + b * d) * (a * c + b * d) <= (a * a + b * b) * (c * c + d * d).
Proof. pose proof (Rle_0_sqr (a * d - b * c)) as H. unfold Rsqr in H. lra. Qed.

Lemma cmod_tri a b : cmod (fst a + fst b, snd a + snd b) <= cmod a + cmod b.
Proof.
  pose proof (cmod_nonneg a). pose proof (cmod_nonneg b).
  apply cmod_le; [lra|]. cbn [fst snd].
  assert (H1 : fst a * fst b + snd a * snd b <= cmod a * cmod b).
  { apply Rsqr_incr_0_var; [|nra]. unfold Rsqr.
    replace (cmod a * cmod b * (cmod a * cmod b)) with ((cmod a * cmod a) * (cmod b * cmod b)) by ring.
    rewrite !cmod_sq. apply cauchy. }
  pose proof (cmod_sq a). pose proof (cmod_sq b). nra.
Qed.

Lemma cmod_mul a b : cmod (c_mul Rops a b) = cmod a * cmod b.
Proof.
  apply Rsqr_inj; [apply cmod_nonneg|apply Rmult_le_pos; apply cmod_nonneg|]. unfold Rsqr.
  replace (cmod a * cmod b * (cmod a * cmod b)) with ((cmod a * cmod a) * (cmod b * cmod b)) by ring.
  rewrite !cmod_sq. cbn. ring.
Qed.

Lemma cmod_scale a s : cmod (c_scale Rops a s) = cmod a * Rabs s.
Proof.
  apply Rsqr_inj; [apply cmod_nonneg|apply Rmult_le_pos; [apply cmod_nonneg|apply Rabs_pos]|]. unfold Rsqr.
  replace (cmod a * Rabs s * (cmod a * Rabs s)) with ((cmod a * cmod a) * (Rabs s * Rabs s)) by ring.
  rewrite !cmod_sq. rewrite <- Rabs_mult, (Rabs_right (s * s)) by nra. cbn. ring.
Qed.

(** components of size e1 give modulus at most 3/2 e1 (17/12 > sqrt 2) *)
Lemma cmod_box z e : Rabs (fst z) <= e -> Rabs (snd z) <= e -> cmod z <= 17 / 12 * e.
Proof.
  intros H1 H2. pose proof (Rabs_pos (fst z)). pose proof (Rabs_pos (snd z)). apply cmod_le; [lra|].
  assert (A : fst z * fst z <= e * e) by (rewrite <- (Rabs_right (fst z * fst z)) by nra; rewrite Rabs_mult; nra).
  assert (B : snd z * snd z <= e * e) by (rewrite <- (Rabs_right (snd z * snd z)) by nra; rewrite Rabs_mult; nra).
  nra.
Qed.

Lemma cdist_nonneg a b : 0 <= cdist a b.
Proof. apply cmod_nonneg. Qed.
Lemma cdist_refl a : cdist a a = 0.
Proof.
  unfold cdist. apply Rle_antisym; [|apply cmod_nonneg]. apply cmod_le; [lra|]. cbn. nra.
Qed.
Lemma cdist_tri a b c : cdist a c <= cdist a b + cdist b c.
Proof.
  unfold cdist. eapply Rle_trans; [|apply (cmod_tri (fst a - fst b, snd a - snd b) (fst b - fst c, snd b - snd c))].
  apply Req_le. f_equal. cbn. f_equal; ring.
Qed.
Lemma cmod_dist a b : cmod a <= cmod b + cdist a b.
Proof.
  pose proof (cmod_tri b (fst a - fst b, snd a - snd b)) as H. cbn [fst snd] in H. unfold cdist.
  replace (fst b + (fst a - fst b), snd b + (snd a - snd b)) with a in H; [exact H|].
  rewrite (surjective_pairing a) at 1. f_equal; ring.
Qed.

(** multiplication by i and by -1, exactly *)
Definition cmuli (z : R * R) : R * R := (- snd z, fst z).
Definition cneg (z : R * R) : R * R := (- fst z, - snd z).
Lemma cmod_muli z : cmod (cmuli z) = cmod z.
Proof. unfold cmod, cmuli. cbn. f_equal. ring. Qed.
Lemma cmod_neg z : cmod (cneg z) = cmod z.
Proof. unfold cmod, cneg. cbn. f_equal. ring. Qed.

Section Near.
Context {F : Type}.
Variables u mu om : R.
Variable O : sops F.
Variable val : F -> R.
Variable fin : F -> Prop.
Hypothesis RO : rounding u mu om O val fin.
Local Notation Hu := (r_u _ _ _ _ _ _ RO).
Local Notation Hmu := (r_mu _ _ _ _ _ _ RO).
Local Notation cval := (cval val).
Local Notation cfin := (cfin fin).

Local Notation pw k := ((1 + u) ^ k).

Lemma pw_1 k : 1 <= pw k.
Proof. apply pow_R1_Rle. pose proof Hu. lra. Qed.
Lemma pw_S k : pw (S k) = pw k * (1 + u).
Proof. cbn. ring. Qed.
Lemma pw_le k l : (k <= l)%nat -> pw k <= pw l.
Proof. intros. apply Rle_pow; [pose proof Hu; lra|exact H]. Qed.
Lemma pw_add k l : pw (k + l) = pw k * pw l.
Proof. apply pow_add. Qed.

Definition rnear (k : nat) (B : R) (y z : R * R) : Prop :=
  cdist y z <= (pw k - 1) * B /\ cmod z <= B.

Lemma rnear_B k B y z : rnear k B y z -> 0 <= B.
Proof. intros (_ & H). pose proof (cmod_nonneg z). lra. Qed.

Lemma rnear_size k B y z : rnear k B y z -> cmod y <= pw k * B.
Proof. intros (H1 & H2). pose proof (cmod_dist y z). lra. Qed.

Lemma rnear_0 z B : cmod z <= B -> rnear 0 B z z.
Proof. intros H. split; [|exact H]. rewrite cdist_refl. cbn. lra. Qed.

Lemma rnear_mono k k' B B' y z : (k <= k')%nat -> B <= B' -> rnear k B y z -> rnear k' B' y z.
Proof.
  intros Hk HB Hn. pose proof (rnear_B _ _ _ _ Hn). destruct Hn as (H1 & H2). split; [|lra].
  pose proof (pw_le _ _ Hk). pose proof (pw_1 k). nra.
Qed.

(** one more rounding of both components, with an underflow error: counts as two *)
Lemma rnear_round_abs k B v z y : 2 * mu <= B -> rnear k B v z ->
  Rabs (fst y - fst v) <= u * (Rabs (fst v) + mu) -> Rabs (snd y - snd v) <= u * (Rabs (snd v) + mu) -> rnear (S (S k)) B y z.
Proof.
  intros HB Hn H1 H2. pose proof (rnear_size _ _ _ _ Hn) as Hs. pose proof (rnear_B _ _ _ _ Hn) as HB0.
  destruct Hn as (Hd & Hb). split; [|exact Hb].
  pose proof Hu. pose proof Hmu. pose proof (pw_1 k).
  assert (E : cdist y v <= u * (2 * (pw k * B))).
  { unfold cdist. set (d := (fst y - fst v, snd y - snd v)).
    assert (Ed : forall e1 e2 m1 m2 , Rabs e1 <= u * (m1 + mu) -> Rabs e2 <= u * (m2 + mu) -> 0 <= m1 -> 0 <= m2 ->
       sqrt (m1 * m1 + m2 * m2) <= pw k * B -> cmod (e1, e2) <= u * (2 * (pw k * B))).
    { intros e1 e2 m1 m2 K1 K2 P1 P2 Q. set (c := pw k * B) in *.
      assert (Hc : 2 * mu <= c) by (subst c; nra).
      assert (Q2 : m1 * m1 + m2 * m2 <= c * c).
      { rewrite <- (sqrt_sqrt (m1 * m1 + m2 * m2)) by nra. pose proof (sqrt_pos (m1 * m1 + m2 * m2)). nra. }
      apply cmod_le; [nra|]. cbn [fst snd].
      assert (K : forall x m, Rabs x <= u * (m + mu) -> 0 <= m -> x * x <= u * u * ((m + mu) * (m + mu))).
      { intros x m Hx Hm. pose proof (Rabs_pos x). rewrite <- (Rabs_right (x * x)) by nra. rewrite Rabs_mult. nra. }
      apply K in K1; [|exact P1]. apply K in K2; [|exact P2].
      apply Rle_trans with (u * u * ((m1 + mu) * (m1 + mu) + (m2 + mu) * (m2 + mu))); [lra|].
      replace (u * (2 * c) * (u * (2 * c))) with (u * u * (4 * (c * c))) by ring.
      apply Rmult_le_compat_l; [nra|].
      (* (m1+mu)^2 + (m2+mu)^2 <= 2 (m1^2+m2^2) + 4 mu^2 <= 2c^2 + c^2 *)
      pose proof (Rle_0_sqr (m1 - mu)) as S1. pose proof (Rle_0_sqr (m2 - mu)) as S2. unfold Rsqr in S1, S2.
      assert (4 * (mu * mu) <= c * c) by nra. assert (0 <= c * c) by nra. lra. }
    apply (Ed _ _ (Rabs (fst v)) (Rabs (snd v)) H1 H2); try apply Rabs_pos.
    eapply Rle_trans; [|exact Hs]. apply Req_le. unfold cmod. f_equal.
    rewrite <- !Rabs_mult, !Rabs_right by nra. reflexivity. }
  pose proof (cdist_tri y v z). rewrite !pw_S.
  assert (0 <= u * (pw k * B)) by (apply Rmult_le_pos; nra). nra.
Qed.

(** ** numbers of the code *)
Definition near (k : nat) (B : R) (y : F * F) (z : R * R) : Prop := cfin y /\ rnear k B (cval y) z.

Lemma near_B k B y z : near k B y z -> 0 <= B.
Proof. intros (_ & H). exact (rnear_B _ _ _ _ H). Qed.
Lemma near_size k B y z : near k B y z -> cmod (cval y) <= pw k * B.
Proof. intros (_ & H). exact (rnear_size _ _ _ _ H). Qed.
Lemma near_0 y B : cfin y -> cmod (cval y) <= B -> near 0 B y (cval y).
Proof. intros Hy H. split; [exact Hy|apply rnear_0, H]. Qed.
Lemma near_mono k k' B B' y z : (k <= k')%nat -> B <= B' -> near k B y z -> near k' B' y z.
Proof. intros H1 H2 (Hy & H). split; [exact Hy|exact (rnear_mono _ _ _ _ _ _ H1 H2 H)]. Qed.

Lemma near_round_abs k B v z y : 2 * mu <= B -> rnear k B v z ->
  fin (fst y) /\ Rabs (val (fst y) - fst v) <= u * (Rabs (fst v) + mu) -> fin (snd y) /\ Rabs (val (snd y) - snd v) <= u * (Rabs (snd v) + mu) -> near (S (S k)) B y z.
Proof. intros HB Hv (F1 & E1) (F2 & E2). split; [split; assumption|]. exact (rnear_round_abs _ _ _ _ (cval y) HB Hv E1 E2). Qed.

(** ** numbers inside a butterfly: the error leaves room for 2 u mu *)
Definition rcnear (k : nat) (B : R) (y z : R * R) : Prop :=
  cdist y z <= (pw k - 1) * B - 2 * (u * mu) /\ cmod z <= B.
Definition cnear (k : nat) (B : R) (y : F * F) (z : R * R) : Prop := cfin y /\ rcnear k B (cval y) z.

Lemma umu_pos : 0 <= u * mu.
Proof. apply Rmult_le_pos; [apply Hu|apply Hmu]. Qed.
Lemma rcnear_near k B y z : rcnear k B y z -> rnear k B y z.
Proof. intros (H1 & H2). pose proof umu_pos. split; [lra|exact H2]. Qed.
Lemma cnear_near k B y z : cnear k B y z -> near k B y z.
Proof. intros (H1 & H2). split; [exact H1|apply rcnear_near, H2]. Qed.
Lemma cnear_B k B y z : cnear k B y z -> 0 <= B.
Proof. intros H. exact (near_B _ _ _ _ (cnear_near _ _ _ _ H)). Qed.
Lemma cnear_mono k k' B B' y z : (k <= k')%nat -> B <= B' -> cnear k B y z -> cnear k' B' y z.
Proof.
  intros Hk HB Hc. pose proof (cnear_B _ _ _ _ Hc). destruct Hc as (Hy & H1 & H2). split; [exact Hy|]. split; [|lra].
  pose proof (pw_le _ _ Hk). pose proof (pw_1 k). nra.
Qed.
(** an exact number has all the room *)
Lemma cnear_start y z B : 2 * mu <= B -> near 0 B y z -> cnear 1 B y z.
Proof.
  intros HB (Hy & H1 & H2). split; [exact Hy|]. split; [|exact H2]. cbn [pow] in *. pose proof Hu. nra.
Qed.

(** the error of two components of size e off by u (. + mu) each *)
Lemma round_vec y v : Rabs (fst y - fst v) <= u * (Rabs (fst v) + mu) -> Rabs (snd y - snd v) <= u * (Rabs (snd v) + mu) ->
  cdist y v <= u * (cmod v + 17 / 12 * mu).
Proof.
  intros H1 H2. pose proof Hu as U0. pose proof Hmu as M0. pose proof (Rabs_pos (fst v)). pose proof (Rabs_pos (snd v)).
  apply Rle_trans with (cmod (u * Rabs (fst v) + u * mu, u * Rabs (snd v) + u * mu)).
  - unfold cdist. apply cmod_le; [apply cmod_nonneg|]. rewrite cmod_sq. cbn [fst snd].
    assert (K : forall x m, Rabs x <= u * (m + mu) -> 0 <= m -> x * x <= (u * m + u * mu) * (u * m + u * mu)).
    { intros x m Hx Hm. pose proof (Rabs_pos x). rewrite <- (Rabs_right (x * x)) by nra. rewrite Rabs_mult.
      replace (u * m + u * mu) with (u * (m + mu)) by ring. apply Rmult_le_compat; assumption. }
    apply K in H1; [|assumption]. apply K in H2; [|assumption]. lra.
  - eapply Rle_trans; [apply (cmod_tri (u * Rabs (fst v), u * Rabs (snd v)) (u * mu, u * mu))|].
    assert (E1 : cmod (u * Rabs (fst v), u * Rabs (snd v)) <= u * cmod v).
    { apply cmod_le; [apply Rmult_le_pos; [exact U0|apply cmod_nonneg]|].
      replace (u * cmod v * (u * cmod v)) with (u * u * (cmod v * cmod v)) by ring. rewrite cmod_sq. cbn [fst snd].
      apply Req_le. replace (u * Rabs (fst v) * (u * Rabs (fst v))) with (u * u * (Rabs (fst v) * Rabs (fst v))) by ring.
      replace (u * Rabs (snd v) * (u * Rabs (snd v))) with (u * u * (Rabs (snd v) * Rabs (snd v))) by ring.
      rewrite <- !Rabs_mult, !Rabs_right by nra. ring. }
    assert (E2 : cmod (u * mu, u * mu) <= 17 / 12 * (u * mu)).
    { pose proof umu_pos. apply cmod_box; cbn [fst snd]; rewrite Rabs_right by lra; lra. }
    lra.
Qed.

(** one more rounding of both components of a sum of two such numbers *)
Lemma cnear_round k B v z y : cdist v z <= (pw k - 1) * B - 4 * (u * mu) -> cmod z <= B ->
  fin (fst y) /\ Rabs (val (fst y) - fst v) <= u * (Rabs (fst v) + mu) -> fin (snd y) /\ Rabs (val (snd y) - snd v) <= u * (Rabs (snd v) + mu) ->
  cnear (S k) B y z.
Proof.
  intros Hd Hb (F1 & E1) (F2 & E2). split; [split; assumption|]. split; [|exact Hb].
  pose proof (round_vec (cval y) v E1 E2) as D. pose proof (cdist_tri (cval y) v z) as T. pose proof umu_pos as P.
  assert (Hs : cmod v <= pw k * B) by (pose proof (cmod_dist v z); lra).
  pose proof Hu as U0. assert (u * cmod v <= u * (pw k * B)) by (apply Rmult_le_compat_l; assumption).
  rewrite pw_S. lra.
Qed.

Lemma rcnear_plus k B C a a' b b' : rcnear k B a a' -> rcnear k C b b' ->
  cdist (fst a + fst b, snd a + snd b) (fst a' + fst b', snd a' + snd b') <= (pw k - 1) * (B + C) - 4 * (u * mu) /\
  cmod (fst a' + fst b', snd a' + snd b') <= B + C.
Proof.
  intros (H1 & H2) (H3 & H4). split.
  - eapply Rle_trans; [|apply Rle_trans with (cdist a a' + cdist b b'); [apply cmod_tri|lra]].
    apply Req_le. unfold cdist. cbn [fst snd]. f_equal. f_equal; ring.
  - pose proof (cmod_tri a' b'). lra.
Qed.
Lemma rcnear_muli k B a a' : rcnear k B a a' -> rcnear k B (cmuli a) (cmuli a').
Proof.
  intros (H1 & H2). split; [|now rewrite cmod_muli].
  replace (cdist (cmuli a) (cmuli a')) with (cdist a a'); [exact H1|].
  unfold cdist. rewrite <- cmod_muli. unfold cmuli. cbn. f_equal. f_equal; ring.
Qed.
Lemma rcnear_neg k B a a' : rcnear k B a a' -> rcnear k B (cneg a) (cneg a').
Proof.
  intros (H1 & H2). split; [|now rewrite cmod_neg].
  replace (cdist (cneg a) (cneg a')) with (cdist a a'); [exact H1|].
  unfold cdist. rewrite <- cmod_neg. unfold cneg. cbn. f_equal. f_equal; ring.
Qed.

(** ** the operations of the code *)
Lemma size_re k B v z : rnear k B v z -> pw k * B <= om -> Rabs (fst v) <= om.
Proof. intros Hn H. pose proof (rnear_size _ _ _ _ Hn). pose proof (cmod_fst v). lra. Qed.
Lemma size_im k B v z : rnear k B v z -> pw k * B <= om -> Rabs (snd v) <= om.
Proof. intros Hn H. pose proof (rnear_size _ _ _ _ Hn). pose proof (cmod_snd v). lra. Qed.

(** a sum of two such numbers *)
Lemma cnear_sum k B C a a' b b' y : rcnear k B a a' -> rcnear k C b b' -> pw k * (B + C) <= om ->
  (Rabs (fst a + fst b) <= om -> fin (fst y) /\ Rabs (val (fst y) - (fst a + fst b)) <= u * (Rabs (fst a + fst b) + mu)) ->
  (Rabs (snd a + snd b) <= om -> fin (snd y) /\ Rabs (val (snd y) - (snd a + snd b)) <= u * (Rabs (snd a + snd b) + mu)) ->
  cnear (S k) (B + C) y (fst a' + fst b', snd a' + snd b').
Proof.
  intros Ha Hb Hf H1 H2. destruct (rcnear_plus _ _ _ _ _ _ _ Ha Hb) as (D & M).
  assert (Hv : rnear k (B + C) (fst a + fst b, snd a + snd b) (fst a' + fst b', snd a' + snd b')).
  { split; [|exact M]. pose proof umu_pos. lra. }
  apply (cnear_round _ _ _ _ _ D M); cbn [fst snd].
  - apply H1. exact (size_re _ _ _ _ Hv Hf).
  - apply H2. exact (size_im _ _ _ _ Hv Hf).
Qed.

Lemma cnear_add k B C a a' b b' : cnear k B a a' -> cnear k C b b' -> pw k * (B + C) <= om ->
  cnear (S k) (B + C) (c_add O a b) (c_add Rops a' b').
Proof.
  intros (Fa & Ha) (Fb & Hb) Hf. apply (cnear_sum _ _ _ _ _ _ _ _ Ha Hb Hf).
  - intros L. apply (r_add _ _ _ _ _ _ RO); [apply Fa|apply Fb|exact L].
  - intros L. apply (r_add _ _ _ _ _ _ RO); [apply Fa|apply Fb|exact L].
Qed.

Lemma cnear_sub k B C a a' b b' : cnear k B a a' -> cnear k C b b' -> pw k * (B + C) <= om ->
  cnear (S k) (B + C) (c_sub O a b) (c_sub Rops a' b').
Proof.
  intros (Fa & Ha) (Fb & Hb) Hf. apply (cnear_sum _ _ _ _ _ _ _ _ Ha (rcnear_neg _ _ _ _ Hb) Hf).
  - intros L. apply (r_sub _ _ _ _ _ _ RO); [apply Fa|apply Fb|exact L].
  - intros L. apply (r_sub _ _ _ _ _ _ RO); [apply Fa|apply Fb|exact L].
Qed.

(** a + i b and a - i b, as the radix 3 and 4 butterflies write them *)
Lemma cnear_addi k B C a a' b b' : cnear k B a a' -> cnear k C b b' -> pw k * (B + C) <= om ->
  cnear (S k) (B + C) (ssub O (fst a) (snd b), sadd O (snd a) (fst b)) (fst a' - snd b', snd a' + fst b').
Proof.
  intros (Fa & Ha) (Fb & Hb) Hf. apply (cnear_sum _ _ _ _ _ _ _ _ Ha (rcnear_muli _ _ _ _ Hb) Hf).
  - intros L. apply (r_sub _ _ _ _ _ _ RO); [apply Fa|apply Fb|exact L].
  - intros L. apply (r_add _ _ _ _ _ _ RO); [apply Fa|apply Fb|exact L].
Qed.

Lemma cnear_subi k B C a a' b b' : cnear k B a a' -> cnear k C b b' -> pw k * (B + C) <= om ->
  cnear (S k) (B + C) (sadd O (fst a) (snd b), ssub O (snd a) (fst b)) (fst a' + snd b', snd a' - fst b').
Proof.
  intros (Fa & Ha) (Fb & Hb) Hf. pose proof (rcnear_neg _ _ _ _ (rcnear_muli _ _ _ _ Hb)) as Hb'.
  unfold cneg, cmuli in Hb'. cbn [fst snd] in Hb'. rewrite !Ropp_involutive in Hb'.
  apply (cnear_sum _ _ _ _ _ _ _ _ Ha Hb' Hf); cbn [fst snd].
  - intros L. apply (r_add _ _ _ _ _ _ RO); [apply Fa|apply Fb|exact L].
  - intros L. apply (r_sub _ _ _ _ _ _ RO); [apply Fa|apply Fb|exact L].
Qed.

(** -i (a + b) and i (a - b) of the radix 5 butterfly *)
Lemma cnear_t6 k B C a a' b b' : cnear k B a a' -> cnear k C b b' -> pw k * (B + C) <= om ->
  cnear (S k) (B + C) (sadd O (snd a) (snd b), ssub O (sopp O (fst a)) (fst b)) (snd a' + snd b', - fst a' - fst b').
Proof.
  intros (Fa & Ha) (Fb & Hb) Hf.
  pose proof (rcnear_neg _ _ _ _ (rcnear_muli _ _ _ _ Ha)) as Ha'. pose proof (rcnear_neg _ _ _ _ (rcnear_muli _ _ _ _ Hb)) as Hb'.
  unfold cneg, cmuli in Ha', Hb'. cbn [fst snd Round.cval] in Ha', Hb'. rewrite !Ropp_involutive in Ha', Hb'.
  destruct (r_opp _ _ _ _ _ _ RO (fst a) (proj1 Fa)) as (Fo & Eo).
  apply (cnear_sum _ _ _ _ _ _ _ _ Ha' Hb' Hf); cbn [fst snd].
  - intros L. apply (r_add _ _ _ _ _ _ RO); [apply Fa|apply Fb|exact L].
  - intros L. rewrite <- Eo in *. apply (r_sub _ _ _ _ _ _ RO); [exact Fo|apply Fb|exact L].
Qed.

Lemma cnear_t12 k B C a a' b b' : cnear k B a a' -> cnear k C b b' -> pw k * (B + C) <= om ->
  cnear (S k) (B + C) (sadd O (sopp O (snd a)) (snd b), ssub O (fst a) (fst b)) (- snd a' + snd b', fst a' - fst b').
Proof.
  intros (Fa & Ha) (Fb & Hb) Hf.
  pose proof (rcnear_muli _ _ _ _ Ha) as Ha'. pose proof (rcnear_muli _ _ _ _ (rcnear_neg _ _ _ _ Hb)) as Hb'.
  unfold cneg, cmuli in Ha', Hb'. cbn [fst snd Round.cval] in Ha', Hb'. rewrite !Ropp_involutive in Hb'.
  destruct (r_opp _ _ _ _ _ _ RO (snd a) (proj2 Fa)) as (Fo & Eo).
  apply (cnear_sum _ _ _ _ _ _ _ _ Ha' Hb' Hf); cbn [fst snd].
  - intros L. rewrite <- Eo in *. apply (r_add _ _ _ _ _ _ RO); [exact Fo|apply Fb|exact L].
  - intros L. apply (r_sub _ _ _ _ _ _ RO); [apply Fa|apply Fb|exact L].
Qed.

(** exact products *)
Lemma rnear_times k l B C a a' b b' : rnear k B a a' -> rnear l C b b' ->
  rnear (k + l) (B * C) (c_mul Rops a b) (c_mul Rops a' b').
Proof.
  intros Ha Hb. pose proof (rnear_size _ _ _ _ Ha) as Sa.
  pose proof (rnear_B _ _ _ _ Ha). pose proof (rnear_B _ _ _ _ Hb). destruct Ha as (A1 & A2), Hb as (B1 & B2).
  pose proof (cmod_nonneg a). pose proof (cmod_nonneg a'). pose proof (cmod_nonneg b').
  split; [|rewrite cmod_mul; apply Rmult_le_compat; assumption].
  assert (E1 : cdist (c_mul Rops a b) (c_mul Rops a b') = cmod a * cdist b b').
  { unfold cdist. rewrite <- cmod_mul. unfold c_mul. cbn [fst snd Rops sadd ssub smul]. f_equal. f_equal; ring. }
  assert (E2 : cdist (c_mul Rops a b') (c_mul Rops a' b') = cdist a a' * cmod b').
  { unfold cdist. rewrite <- cmod_mul. unfold c_mul. cbn [fst snd Rops sadd ssub smul]. f_equal. f_equal; ring. }
  pose proof (cdist_tri (c_mul Rops a b) (c_mul Rops a b') (c_mul Rops a' b')) as T. rewrite E1, E2 in T.
  assert (Q1 : cmod a * cdist b b' <= (pw k * B) * ((pw l - 1) * C)).
  { apply Rmult_le_compat; auto using cdist_nonneg. }
  assert (Q2 : cdist a a' * cmod b' <= (pw k - 1) * B * C).
  { apply Rmult_le_compat; auto using cdist_nonneg. }
  rewrite pw_add. nra.
Qed.

(** a product of complex numbers *)
Lemma cnear_mul k l B C a a' b b' : 32 * mu <= B * C -> near k B a a' -> near l C b b' ->
  pw (k + l + 2) * (2 * (B * C)) <= om ->
  cnear (k + l + 3) (B * C) (c_mul O a b) (c_mul Rops a' b').
Proof.
  intros Hm (Fa & Ha) (Fb & Hb) Hf. pose proof (rnear_times _ _ _ _ _ _ _ _ Ha Hb) as Hv.
  pose proof (rnear_size _ _ _ _ Ha) as Sa. pose proof (rnear_size _ _ _ _ Hb) as Sb.
  pose proof (rnear_B _ _ _ _ Ha) as B0. pose proof (rnear_B _ _ _ _ Hb) as C0.
  pose proof Hu as U0. pose proof Hmu as M0. pose proof (pw_1 (k + l)) as P1.
  set (P := pw (k + l) * (B * C)).
  assert (HP : cmod (cval a) * cmod (cval b) <= P).
  { unfold P. rewrite pw_add. replace (pw k * pw l * (B * C)) with ((pw k * B) * (pw l * C)) by ring.
    apply Rmult_le_compat; auto using cmod_nonneg. }
  assert (BC0 : 0 <= B * C) by (apply Rmult_le_pos; assumption).
  assert (HmP : 32 * mu <= P) by (unfold P; nra).
  assert (HPom : P * (1 + u) * (1 + u) * 2 <= om).
  { unfold P. replace (k + l + 2)%nat with (S (S (k + l))) in Hf by lia. rewrite !pw_S in Hf. nra. }
  (* the modulus of each partial product sum *)
  assert (CS : forall p q r s : R, Rabs p * Rabs p + Rabs q * Rabs q = cmod (cval a) * cmod (cval a) -> Rabs r * Rabs r + Rabs s * Rabs s = cmod (cval b) * cmod (cval b) ->
     Rabs (p * r) + Rabs (q * s) <= P).
  { intros p q r s E1 E2. apply Rle_trans with (cmod (cval a) * cmod (cval b)); [|exact HP]. rewrite !Rabs_mult.
    apply Rsqr_incr_0_var; [|apply Rmult_le_pos; apply cmod_nonneg]. unfold Rsqr.
    replace (cmod (cval a) * cmod (cval b) * (cmod (cval a) * cmod (cval b))) with ((cmod (cval a) * cmod (cval a)) * (cmod (cval b) * cmod (cval b))) by ring.
    rewrite <- E1, <- E2. apply cauchy. }
  assert (SQ : forall x, Rabs x * Rabs x = x * x) by (intros x; rewrite <- Rabs_mult, Rabs_right; nra).
  assert (P0 : 0 <= P) by lra. assert (UP : 0 <= u * P) by nra. assert (UM : 0 <= u * mu) by nra.
  assert (UUP : 0 <= u * (u * P)) by nra. assert (UUUP : 0 <= u * (u * (u * P))) by nra. assert (UUM : 0 <= u * (u * mu)) by nra.
  assert (K : forall x y m m', Rabs x + Rabs y <= P -> Rabs (m - x) <= u * (Rabs x + mu) -> Rabs (m' - y) <= u * (Rabs y + mu) ->
     Rabs ((m + m') - (x + y)) <= u * (P + 2 * mu) /\ Rabs (m + m') <= om).
  { intros x y m m' Hxy Hm1 Hm2.
    assert (T1 : Rabs ((m + m') - (x + y)) <= u * (P + 2 * mu)).
    { replace (m + m' - (x + y)) with ((m - x) + (m' - y)) by ring. eapply Rle_trans; [apply Rabs_triang|]. nra. }
    split; [exact T1|].
    replace (m + m') with ((x + y) + ((m + m') - (x + y))) by ring. eapply Rle_trans; [apply Rabs_triang|].
    pose proof (Rabs_triang x y). assert (u * (P + 2 * mu) <= 2 * (u * P)) by nra. nra. }
  assert (LT : forall x y, Rabs x + Rabs y <= P -> Rabs x <= om /\ Rabs y <= om).
  { intros x y Hxy. pose proof (Rabs_pos x). pose proof (Rabs_pos y). assert (P <= om) by nra. lra. }
  destruct a as [xr xi], b as [yr yi]. destruct Fa as (Far & Fai), Fb as (Fbr & Fbi). cbn [fst snd] in Far, Fai, Fbr, Fbi.
  unfold Round.cval in *. cbn [fst snd] in *. set (ar := val xr) in *. set (ai := val xi) in *. set (br := val yr) in *. set (bi := val yi) in *.
  pose proof (cmod_sq (ar, ai)) as Ea. pose proof (cmod_sq (br, bi)) as Eb. cbn [fst snd] in Ea, Eb.
  pose proof (CS ar ai br bi) as C1. pose proof (CS ar ai bi br) as C2. rewrite !SQ in C1, C2.
  specialize (C1 ltac:(lra) ltac:(lra)). specialize (C2 ltac:(lra) ltac:(lra)).
  destruct (LT _ _ C1) as (L1 & L2). destruct (LT _ _ C2) as (L3 & L4).
  destruct (r_mul _ _ _ _ _ _ RO xr yr Far Fbr L1) as (F1 & M1). destruct (r_mul _ _ _ _ _ _ RO xi yi Fai Fbi L2) as (F2 & M2).
  destruct (r_mul _ _ _ _ _ _ RO xr yi Far Fbi L3) as (F3 & M3). destruct (r_mul _ _ _ _ _ _ RO xi yr Fai Fbr L4) as (F4 & M4).
  fold ar ai br bi in M1, M2, M3, M4.
  assert (C1' : Rabs (ar * br) + Rabs (- (ai * bi)) <= P) by (rewrite Rabs_Ropp; exact C1).
  assert (M2' : Rabs (- val (smul O xi yi) - - (ai * bi)) <= u * (Rabs (- (ai * bi)) + mu)).
  { replace (- val (smul O xi yi) - - (ai * bi)) with (- (val (smul O xi yi) - ai * bi)) by ring. rewrite !Rabs_Ropp. exact M2. }
  destruct (K _ _ _ _ C1' M1 M2') as (DR & OR). destruct (K _ _ _ _ C2 M3 M4) as (DI & OI).
  destruct (r_sub _ _ _ _ _ _ RO _ _ F1 F2 OR) as (Fre & ER). destruct (r_add _ _ _ _ _ _ RO _ _ F3 F4 OI) as (Fim & EI).
  split; [split; assumption|].
  destruct Hv as (V1 & V2). split; [|exact V2]. unfold c_mul at 1. cbn [fst snd].
  set (y := (val (ssub O (smul O xr yr) (smul O xi yi)), val (sadd O (smul O xr yi) (smul O xi yr)))).
  set (v := (val (smul O xr yr) - val (smul O xi yi), val (smul O xr yi) + val (smul O xi yr))).
  set (z := c_mul Rops (ar, ai) (br, bi)).
  assert (D1 : cdist y v <= u * (cmod v + 17 / 12 * mu)) by (apply round_vec; [exact ER|exact EI]).
  assert (D2 : cdist v z <= 17 / 12 * (u * (P + 2 * mu))) by (apply cmod_box; [exact DR|exact DI]).
  assert (Z1 : cmod z <= P) by (unfold z; rewrite cmod_mul; exact HP).
  pose proof (cmod_dist v z) as D3.
  pose proof (cdist_tri y v (c_mul Rops a' b')) as T1. pose proof (cdist_tri v z (c_mul Rops a' b')) as T2.
  eapply Rle_trans; [exact T1|].
  replace (k + l + 3)%nat with (S (S (S (k + l)))) by lia. rewrite !pw_S.
  fold z in V1. assert (EP : pw (k + l) * (B * C) = P) by reflexivity.
  replace ((pw (k + l) * (1 + u) * (1 + u) * (1 + u) - 1) * (B * C))
    with ((pw (k + l) - 1) * (B * C) + (3 * (u * P) + 3 * (u * (u * P)) + u * (u * (u * P)))) by (rewrite <- EP; ring).
  assert (D4 : u * cmod v <= u * P + 17 / 12 * (u * (u * P) + 2 * (u * (u * mu)))).
  { apply Rle_trans with (u * (P + 17 / 12 * (u * (P + 2 * mu)))); [apply Rmult_le_compat_l; lra|]. lra. }
  assert (Q1 : 32 * (u * mu) <= u * P) by nra. assert (Q2 : 32 * (u * (u * mu)) <= u * (u * P)) by nra.
  lra.
Qed.

(** one more rounding of a product, counted as two *)
Lemma cnear_prod k B v z y : 4 * mu <= B -> rnear k B v z ->
  fin (fst y) /\ Rabs (val (fst y) - fst v) <= u * (Rabs (fst v) + mu) -> fin (snd y) /\ Rabs (val (snd y) - snd v) <= u * (Rabs (snd v) + mu) ->
  cnear (S (S k)) B y z.
Proof.
  intros HB Hn (F1 & E1) (F2 & E2). pose proof (rnear_size _ _ _ _ Hn) as Hs. pose proof (rnear_B _ _ _ _ Hn) as HB0.
  destruct Hn as (Hd & Hb). split; [split; assumption|]. split; [|exact Hb].
  pose proof (round_vec (cval y) v E1 E2) as D. pose proof (cdist_tri (cval y) v z) as T. pose proof umu_pos as P.
  pose proof Hu as U0. pose proof (pw_1 k) as P1. assert (u * cmod v <= u * (pw k * B)) by (apply Rmult_le_compat_l; assumption).
  assert (4 * (u * mu) <= u * (pw k * B)).
  { replace (4 * (u * mu)) with (u * (4 * mu)) by ring. apply Rmult_le_compat_l; [exact U0|]. nra. }
  assert (0 <= u * (u * (pw k * B))) by (apply Rmult_le_pos; [|apply Rmult_le_pos]; nra).
  rewrite !pw_S. lra.
Qed.

(** product with a real number *)
Lemma cnear_scale k l B a a' s s' : 4 * mu <= B -> cnear k B a a' -> fin s -> Rabs s' <= 1 -> Rabs (val s - s') <= pw l - 1 ->
  pw (k + l) * B <= om ->
  cnear (k + l + 2) B (c_scale O a s) (c_scale Rops a' s').
Proof.
  intros Hm (Fa & Ha0) Fs Hs Hd Hf. pose proof (rcnear_near _ _ _ _ Ha0) as Ha. clear Ha0.
  assert (Hb : rnear l 1 (val s, 0) (s', 0)).
  { split.
    - eapply Rle_trans; [|rewrite Rmult_1_r; exact Hd]. unfold cdist. apply cmod_le; [apply Rabs_pos|]. cbn [fst snd].
      rewrite <- Rabs_mult, Rabs_right by (apply Rle_ge, Rle_0_sqr). nra.
    - apply cmod_le; [lra|]. cbn [fst snd]. rewrite <- (Rabs_right (s' * s')) by nra. rewrite Rabs_mult.
      pose proof (Rabs_pos s'). nra. }
  pose proof (rnear_times _ _ _ _ _ _ _ _ Ha Hb) as Hv. rewrite Rmult_1_r in Hv.
  assert (E : forall z x, c_mul Rops z (x, 0) = c_scale Rops z x).
  { intros z x. unfold c_mul, c_scale. cbn. f_equal; ring. }
  rewrite !E in Hv. replace (k + l + 2)%nat with (S (S (k + l))) by lia.
  apply (cnear_prod _ _ _ _ _ Hm Hv).
  - apply (r_mul _ _ _ _ _ _ RO); [apply Fa|exact Fs|]. exact (size_re _ _ _ _ Hv Hf).
  - apply (r_mul _ _ _ _ _ _ RO); [apply Fa|exact Fs|]. exact (size_im _ _ _ _ Hv Hf).
Qed.

Lemma cnear_half k B a a' : 8 * mu <= B -> cnear k B a a' -> pw k * B <= om ->
  cnear (k + 2) (B / 2) (shalf O (fst a), shalf O (snd a)) (fst a' * / 2, snd a' * / 2).
Proof.
  intros Hm (Fa & Ha0) Hf. destruct (rcnear_near _ _ _ _ Ha0) as (H1 & H2). clear Ha0.
  assert (Hv : rnear k (B / 2) (val (fst a) / 2, val (snd a) / 2) (fst a' * / 2, snd a' * / 2)).
  { assert (E : forall z : R * R, cmod (fst z * / 2, snd z * / 2) = cmod z / 2).
    { intros z. pose proof (cmod_scale z (/ 2)) as E. rewrite (Rabs_right (/ 2)) in E by lra. exact E. }
    split.
    - unfold cdist. cbn [fst snd]. replace (val (fst a) / 2 - fst a' * / 2, val (snd a) / 2 - snd a' * / 2)
        with (fst (val (fst a) - fst a', val (snd a) - snd a') * / 2, snd (val (fst a) - fst a', val (snd a) - snd a') * / 2) by (cbn; f_equal; field).
      rewrite E. unfold cdist, Round.cval in H1. cbn [fst snd] in H1. lra.
    - rewrite E. lra. }
  assert (B0 : 0 <= B) by (pose proof (cmod_nonneg a'); lra).
  assert (Hf' : pw k * (B / 2) <= om) by (pose proof (pw_1 k); assert (0 <= pw k * B) by (apply Rmult_le_pos; lra); lra).
  replace (k + 2)%nat with (S (S k)) by lia.
  assert (HB2 : 4 * mu <= B / 2) by lra. apply (cnear_prod _ _ _ _ _ HB2 Hv).
  - apply (r_half _ _ _ _ _ _ RO); [apply Fa|]. exact (size_re _ _ _ _ Hv Hf').
  - apply (r_half _ _ _ _ _ _ RO); [apply Fa|]. exact (size_im _ _ _ _ Hv Hf').
Qed.
End Near.
