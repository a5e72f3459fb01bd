(** KissAlg.v : in exact arithmetic the 1d transform is the DFT.

    The scalars are any commutative ring with a half of one; [w] is any family
    of "roots of unity" with the laws of exp(-+ 2 pi i a / n). *)

From Coq Require Import Ring_theory Ring.
From Verif Require Import Base Kiss KissPure.

Section Sums.
Context {F : Type} (O : sops F).
Local Notation C := (@cpx F).

Definition c_one : C := (s1 O, s0 O).
Definition c_opp (a : C) : C := (sopp O (fst a), sopp O (snd a)).
Definition c_conj (a : C) : C := (fst a, sopp O (snd a)).

Fixpoint nsum (n : nat) (f : Z -> C) : C :=
  match n with
  | Datatypes.O => czero O
  | S n' => c_add O (nsum n' f) (f (Z.of_nat n'))
  end.

(** f 0 + f 1 + ... + f (n-1) *)
Definition csum (n : Z) (f : Z -> C) : C := nsum (Z.to_nat n) f.

(** discrete Fourier transform of x(0..n-1) with root w *)
Definition dft (w : Z -> C) (n : Z) (x : Z -> C) (k : Z) : C :=
  csum n (fun j => c_mul O (x j) (w (j * k))).

End Sums.

(** the laws of the scalars: a commutative ring in which 1 has a half and
    HALF_OF multiplies by it *)
Record slaws {F} (O : sops F) : Prop := mkslaws {
  L_ring : ring_theory (s0 O) (s1 O) (sadd O) (smul O) (ssub O) (sopp O) eq;
  L_half : forall x, shalf O x = smul O (shalf O (s1 O)) x;
  L_half2 : sadd O (shalf O (s1 O)) (shalf O (s1 O)) = s1 O }.

(** the laws of a |-> exp(-+ 2 pi i a / n); + sign (inverse) when [inv] *)
Record rootlaws {F} (O : sops F) (inv : bool) (n : Z) (w : Z -> @cpx F) : Prop := mkroot {
  R_add : forall a b, w (a + b) = c_mul O (w a) (w b);
  R_0 : w 0 = c_one O;
  R_n : w n = c_one O;
  R_conj : forall a, w (- a) = c_conj O (w a);
  R_2 : forall h, 2 * h = n -> w h = c_opp O (c_one O);
  R_3 : forall h, 3 * h = n -> fst (w h) = sopp O (shalf O (s1 O));
  R_4 : forall h, 4 * h = n -> w h = (s0 O, if inv then s1 O else sopp O (s1 O)) }.

Section Alg.
Context {F : Type} (O : sops F) (SL : slaws O).
Local Notation C := (@cpx F).

Let FR := L_ring O SL.
Add Ring Fring : FR.

Local Notation "a +. b" := (sadd O a b) (at level 50, left associativity).
Local Notation "a -. b" := (ssub O a b) (at level 50, left associativity).
Local Notation "a *. b" := (smul O a b) (at level 40, left associativity).
Local Notation c_mul := (c_mul O).
Local Notation c_add := (c_add O).
Local Notation c_sub := (c_sub O).
Local Notation c_opp := (c_opp O).
Local Notation c_one := (c_one O).
Local Notation c_zero := (czero O).
Local Notation c_conj := (c_conj O).
Local Notation csum := (csum O).

Lemma cpx_ring : ring_theory c_zero c_one c_add c_mul c_sub c_opp eq.
Proof.
  constructor; intros; unfold c_add, c_mul, c_sub, c_opp, Kiss.c_add, Kiss.c_mul, Kiss.c_sub, KissAlg.c_opp, KissAlg.c_one, czero;
    repeat match goal with x : C |- _ => destruct x end; cbn [fst snd]; f_equal; ring.
Qed.
Add Ring Cring : cpx_ring.

(** ** finite sums *)

Lemma nsum_ext n f g : (forall i, 0 <= i < Z.of_nat n -> f i = g i) -> nsum O n f = nsum O n g.
Proof.
  induction n as [|n IH]; intros H; cbn [nsum]; [reflexivity|].
  rewrite IH by (intros; apply H; lia). rewrite H by lia. reflexivity.
Qed.

Lemma csum_ext n f g : (forall i, 0 <= i < n -> f i = g i) -> csum n f = csum n g.
Proof. intros H. apply nsum_ext. intros; apply H; lia. Qed.

Lemma csum_0 f : csum 0 f = c_zero.
Proof. reflexivity. Qed.

Lemma csum_S n f : 0 <= n -> csum (n + 1) f = c_add (csum n f) (f n).
Proof.
  intros Hn. unfold csum, KissAlg.csum. replace (Z.to_nat (n + 1)) with (S (Z.to_nat n)) by lia.
  cbn [nsum]. rewrite Z2Nat.id by lia. reflexivity.
Qed.

Lemma csum_add n f g : csum n (fun i => c_add (f i) (g i)) = c_add (csum n f) (csum n g).
Proof.
  unfold csum, KissAlg.csum. induction (Z.to_nat n) as [|k IH]; cbn [nsum]; [ring|]. rewrite IH. ring.
Qed.

Lemma csum_mul_r n f a : csum n (fun i => c_mul (f i) a) = c_mul (csum n f) a.
Proof.
  unfold csum, KissAlg.csum. induction (Z.to_nat n) as [|k IH]; cbn [nsum]; [ring|]. rewrite IH. ring.
Qed.

Lemma csum_mul_l n f a : csum n (fun i => c_mul a (f i)) = c_mul a (csum n f).
Proof.
  unfold csum, KissAlg.csum. induction (Z.to_nat n) as [|k IH]; cbn [nsum]; [ring|]. rewrite IH. ring.
Qed.

Lemma csum_zero n : csum n (fun _ => c_zero) = c_zero.
Proof.
  unfold csum, KissAlg.csum. induction (Z.to_nat n) as [|k IH]; cbn [nsum]; [ring|]. rewrite IH. ring.
Qed.

Lemma csum_swap n m f : csum n (fun i => csum m (fun j => f i j)) = csum m (fun j => csum n (fun i => f i j)).
Proof.
  unfold csum, KissAlg.csum. induction (Z.to_nat n) as [|k IH]; cbn [nsum].
  - symmetry. exact (csum_zero m).
  - rewrite IH. symmetry. exact (csum_add m (fun j => nsum O k (fun i => f i j)) (fun j => f (Z.of_nat k) j)).
Qed.

Lemma csum_app a b f : 0 <= a -> 0 <= b -> csum (a + b) f = c_add (csum a f) (csum b (fun i => f (a + i))).
Proof.
  intros Ha Hb. revert b Hb. apply natlike_ind.
  - rewrite Z.add_0_r, csum_0. ring.
  - intros b Hb IH. unfold Z.succ. rewrite Z.add_assoc, !csum_S by lia. rewrite IH. ring.
Qed.

Lemma csum_split p m f : 0 <= p -> 0 <= m ->
  csum (p * m) f = csum p (fun q => csum m (fun i => f (q + p * i))).
Proof.
  intros Hp Hm. revert m Hm. apply natlike_ind.
  - rewrite Z.mul_0_r, csum_0. symmetry. rewrite <- (csum_zero p). apply csum_ext. reflexivity.
  - intros m Hm IH. unfold Z.succ. rewrite Z.mul_add_distr_l, Z.mul_1_r.
    rewrite csum_app by nia. rewrite IH, <- csum_add. apply csum_ext. intros q Hq.
    rewrite csum_S by lia. do 2 f_equal. lia.
Qed.

(** ** roots *)

Section Roots.
Variable inv : bool.
Variable n : Z.
Variable w : Z -> C.
Hypothesis Hn : 0 < n.
Hypothesis W : rootlaws O inv n w.

Local Notation w_add := (R_add O inv n w W).
Local Notation w_0 := (R_0 O inv n w W).
Local Notation w_n := (R_n O inv n w W).
Local Notation w_conj := (R_conj O inv n w W).

Lemma w_add_n a : w (a + n) = w a.
Proof. rewrite w_add, w_n. ring. Qed.

Lemma w_mul_n_nat a (k : nat) : w (a + Z.of_nat k * n) = w a.
Proof.
  induction k as [|k IH]; [f_equal; lia|].
  replace (a + Z.of_nat (S k) * n) with ((a + Z.of_nat k * n) + n) by lia.
  rewrite w_add_n. exact IH.
Qed.

Lemma w_mul_n a k : w (a + k * n) = w a.
Proof.
  destruct (Z_lt_ge_dec k 0).
  - rewrite <- (w_mul_n_nat (a + k * n) (Z.to_nat (- k))). f_equal. lia.
  - rewrite <- (w_mul_n_nat a (Z.to_nat k)). f_equal. lia.
Qed.

Lemma w_mod a : w (a mod n) = w a.
Proof.
  rewrite <- (w_mul_n (a mod n) (a / n)). f_equal. pose proof (Z.div_mod a n). lia.
Qed.

Lemma w_period a b : a mod n = b mod n -> w a = w b.
Proof. intros H. rewrite <- (w_mod a), <- (w_mod b), H. reflexivity. Qed.

(** the table agrees with w *)
Variable st : @cfg F.
Hypothesis Hnf : k_nfft st = n.
Hypothesis Hinv : k_inverse st = inv.
Hypothesis Htw : forall i, 0 <= i < n -> twf O st i = w i.

Ltac cs := unfold csum, KissAlg.csum, Z.to_nat, Pos.to_nat; cbn [Pos.iter_op Nat.add nsum Z.of_nat Pos.of_succ_nat Pos.succ].

(** unfolding small sums *)
Lemma csum_2 f : csum 2 f = c_add (f 0) (f 1).
Proof. cs. ring. Qed.
Lemma csum_3 f : csum 3 f = c_add (c_add (f 0) (f 1)) (f 2).
Proof. cs. ring. Qed.
Lemma csum_4 f : csum 4 f = c_add (c_add (c_add (f 0) (f 1)) (f 2)) (f 3).
Proof. cs. ring. Qed.
Lemma csum_5 f : csum 5 f = c_add (c_add (c_add (c_add (f 0) (f 1)) (f 2)) (f 3)) (f 4).
Proof. cs. ring. Qed.

Lemma w_split fs q k q1 m :
  w (fs * q * (k + q1 * m)) = c_mul (w (q * k * fs)) (w (q * q1 * (fs * m))).
Proof. rewrite <- w_add. f_equal. ring. Qed.

Lemma zz_red e r p h : p * h = n -> (e - r) mod p = 0 -> p <> 0 -> w (e * h) = w (r * h).
Proof.
  intros Hp Hm Hp0. apply Z.mod_divide in Hm as [k Hk]; [|exact Hp0].
  rewrite <- (w_mul_n (r * h) k). f_equal. rewrite <- Hp. replace e with (r + k * p) by lia. ring.
Qed.

Ltac fin := apply f_equal2; cbn [fst snd]; ring.

Lemma bfly_dft fs m p k g q1 : 0 < fs -> 0 < m -> 1 <= p -> fs * (p * m) = n ->
  0 <= k < m -> 0 <= q1 < p ->
  bfly O st fs m p k g q1 = csum p (fun q => c_mul (g q) (w (fs * q * (k + q1 * m)))).
Proof.
  intros Hfs Hm Hp HN Hk Hq1. unfold bfly.
  assert (Hz : forall q, q * k * fs = q * k * fs) by reflexivity.
  destruct (Z.eqb_spec p 2) as [->|].
  { rewrite csum_2. unfold b2. rewrite Htw by nia. rewrite !w_split.
    rewrite (zz_red (0 * q1) 0 2 (fs * m)) by (try lia; apply Z.mod_0_l; lia).
    replace (0 * k * fs) with 0 by ring. replace (0 * (fs * m)) with 0 by ring.
    replace (1 * k * fs) with (k * fs) by ring. rewrite w_0.
    assert (q1 = 0 \/ q1 = 1) as [->| ->] by lia.
    - simpl (0 =? 0). cbv iota zeta. replace (1 * 0 * (fs * m)) with 0 by ring. rewrite w_0. ring.
    - simpl (1 =? 0). cbv iota zeta. replace (1 * 1 * (fs * m)) with (fs * m) by ring.
      rewrite (R_2 O inv n w W (fs * m)) by lia. ring. }
  destruct (Z.eqb_spec p 3) as [->|].
  { rewrite csum_3. unfold b3. rewrite !Htw by nia. rewrite !w_split.
    replace (0 * k * fs) with 0 by ring. replace (0 * q1 * (fs * m)) with 0 by ring.
    replace (k * (fs * 2)) with (2 * k * fs) by ring. replace (1 * k * fs) with (k * fs) by ring. rewrite w_0.
    assert (Z0 : w (0 * (fs * m)) = c_one) by (rewrite Z.mul_0_l; exact w_0).
    assert (Z1 : fst (w (1 * (fs * m))) = sopp O (shalf O (s1 O))).
    { rewrite Z.mul_1_l. apply (R_3 O inv n w W). lia. }
    assert (Z2 : w (2 * (fs * m)) = c_conj (w (1 * (fs * m)))).
    { rewrite <- w_conj. rewrite (zz_red 2 (-1) 3 (fs * m)) by (try lia; reflexivity). f_equal. ring. }
    replace (w (fs * m)) with (w (1 * (fs * m))) by (f_equal; ring).
    set (z := w (1 * (fs * m))) in * .
    assert (Hz1 : z = (sopp O (shalf O (s1 O)), snd z)) by (rewrite <- Z1; apply surjective_pairing).
    set (zi := snd z) in * . clearbody zi.
    generalize (w (k * fs)) (w (2 * k * fs)) (g 0) (g 1) (g 2). intros w1 w2 g0 g1 g2.
    pose proof (L_half2 O SL) as HH.
    assert (q1 = 0 \/ q1 = 1 \/ q1 = 2) as [->|[->| ->]] by lia; simpl (_ =? 0); simpl (_ =? 1); cbv iota zeta.
    - replace (1 * 0 * (fs * m)) with (0 * (fs * m)) by ring. replace (2 * 0 * (fs * m)) with (0 * (fs * m)) by ring.
      rewrite Z0. ring.
    - replace (1 * 1 * (fs * m)) with (1 * (fs * m)) by ring. replace (2 * 1 * (fs * m)) with (2 * (fs * m)) by ring.
      rewrite Z2. fold z. rewrite Hz1. rewrite !(L_half O SL (fst _)), !(L_half O SL (snd _)).
      generalize (shalf O (s1 O)). intros h.
      unfold KissAlg.c_one, KissAlg.c_conj, Kiss.c_add, Kiss.c_sub, Kiss.c_mul, c_scale; fin.
    - replace (1 * 2 * (fs * m)) with (2 * (fs * m)) by ring. rewrite (zz_red (2 * 2) 1 3 (fs * m)) by (try lia; reflexivity).
      rewrite Z2. fold z. rewrite Hz1. rewrite !(L_half O SL (fst _)), !(L_half O SL (snd _)).
      generalize (shalf O (s1 O)). intros h.
      unfold KissAlg.c_one, KissAlg.c_conj, Kiss.c_add, Kiss.c_sub, Kiss.c_mul, c_scale; fin. }
  destruct (Z.eqb_spec p 4) as [->|].
  { rewrite csum_4. unfold b4. rewrite !Htw by nia. rewrite !w_split.
    replace (0 * k * fs) with 0 by ring. replace (0 * q1 * (fs * m)) with 0 by ring.
    replace (k * (fs * 2)) with (2 * k * fs) by ring. replace (k * (fs * 3)) with (3 * k * fs) by ring.
    replace (1 * k * fs) with (k * fs) by ring. rewrite w_0.
    assert (Z0 : w (0 * (fs * m)) = c_one) by (rewrite Z.mul_0_l; exact w_0).
    assert (Z1 : w (1 * (fs * m)) = (s0 O, if inv then s1 O else sopp O (s1 O))).
    { rewrite Z.mul_1_l. apply (R_4 O inv n w W). lia. }
    assert (Z2 : w (2 * (fs * m)) = c_mul (w (1 * (fs * m))) (w (1 * (fs * m)))).
    { rewrite <- w_add. f_equal. ring. }
    assert (Z3 : w (3 * (fs * m)) = c_mul (w (2 * (fs * m))) (w (1 * (fs * m)))).
    { rewrite <- w_add. f_equal. ring. }
    rewrite Z1 in Z2, Z3. rewrite Z2 in Z3. rewrite Hinv.
    assert (Hred : forall e r, (e - r) mod 4 = 0 -> w (e * (fs * m)) = w (r * (fs * m))).
    { intros e r He. apply (zz_red e r 4); auto; lia. }
    generalize (w (k * fs)) (w (2 * k * fs)) (w (3 * k * fs)) (g 0) (g 1) (g 2) (g 3). intros w1 w2 w3 g0 g1 g2 g3.
    assert (q1 = 0 \/ q1 = 1 \/ q1 = 2 \/ q1 = 3) as [->|[->|[->| ->]]] by lia;
      simpl (_ =? 0); simpl (_ =? 1); simpl (_ =? 2); cbv iota zeta.
    - rewrite (Hred (1 * 0) 0), (Hred (2 * 0) 0), (Hred (3 * 0) 0) by reflexivity. rewrite Z0. ring.
    - rewrite (Hred (1 * 1) 1), (Hred (2 * 1) 2), (Hred (3 * 1) 3) by reflexivity. rewrite Z3, Z2, Z1.
      destruct inv; unfold KissAlg.c_one, Kiss.c_add, Kiss.c_sub, Kiss.c_mul; fin.
    - rewrite (Hred (1 * 2) 2), (Hred (2 * 2) 0), (Hred (3 * 2) 2) by reflexivity. rewrite Z2, Z0.
      destruct inv; unfold KissAlg.c_one, Kiss.c_add, Kiss.c_sub, Kiss.c_mul; fin.
    - rewrite (Hred (1 * 3) 3), (Hred (2 * 3) 2), (Hred (3 * 3) 1) by reflexivity. rewrite Z3, Z2, Z1.
      destruct inv; unfold KissAlg.c_one, Kiss.c_add, Kiss.c_sub, Kiss.c_mul; fin. }
  destruct (Z.eqb_spec p 5) as [->|].
  { rewrite csum_5. unfold b5. rewrite !Htw by nia. rewrite !w_split.
    replace (0 * k * fs) with 0 by ring. replace (0 * q1 * (fs * m)) with 0 by ring.
    replace (1 * k * fs) with (k * fs) by ring. rewrite w_0.
    replace (fs * 2 * m) with (2 * (fs * m)) by ring.
    assert (Z0 : w (0 * (fs * m)) = c_one) by (rewrite Z.mul_0_l; exact w_0).
    assert (Z3 : w (3 * (fs * m)) = c_conj (w (2 * (fs * m)))).
    { rewrite <- w_conj. rewrite (zz_red 3 (-2) 5 (fs * m)) by (try lia; reflexivity). f_equal. ring. }
    assert (Z4 : w (4 * (fs * m)) = c_conj (w (1 * (fs * m)))).
    { rewrite <- w_conj. rewrite (zz_red 4 (-1) 5 (fs * m)) by (try lia; reflexivity). f_equal. ring. }
    assert (Hred : forall e r, (e - r) mod 5 = 0 -> w (e * (fs * m)) = w (r * (fs * m))).
    { intros e r He. apply (zz_red e r 5); auto; lia. }
    replace (w (fs * m)) with (w (1 * (fs * m))) by (f_equal; ring).
    generalize (w (k * fs)) (w (2 * k * fs)) (w (3 * k * fs)) (w (4 * k * fs)) (g 0) (g 1) (g 2) (g 3) (g 4).
    intros w1 w2 w3 w4 g0 g1 g2 g3 g4.
    assert (q1 = 0 \/ q1 = 1 \/ q1 = 2 \/ q1 = 3 \/ q1 = 4) as [->|[->|[->|[->| ->]]]] by lia;
      simpl (_ =? 0); simpl (_ =? 1); simpl (_ =? 2); simpl (_ =? 3); cbv iota zeta.
    - rewrite (Hred (1 * 0) 0), (Hred (2 * 0) 0), (Hred (3 * 0) 0), (Hred (4 * 0) 0) by reflexivity. rewrite Z0.
      unfold KissAlg.c_one, Kiss.c_add, Kiss.c_sub, Kiss.c_mul; fin.
    - rewrite (Hred (1 * 1) 1), (Hred (2 * 1) 2), (Hred (3 * 1) 3), (Hred (4 * 1) 4) by reflexivity.
      rewrite Z3, Z4. generalize (w (1 * (fs * m))) (w (2 * (fs * m))). intros ya yb.
      unfold KissAlg.c_one, KissAlg.c_conj, Kiss.c_add, Kiss.c_sub, Kiss.c_mul; fin.
    - rewrite (Hred (1 * 2) 2), (Hred (2 * 2) 4), (Hred (3 * 2) 1), (Hred (4 * 2) 3) by reflexivity.
      rewrite Z3, Z4. generalize (w (1 * (fs * m))) (w (2 * (fs * m))). intros ya yb.
      unfold KissAlg.c_one, KissAlg.c_conj, Kiss.c_add, Kiss.c_sub, Kiss.c_mul; fin.
    - rewrite (Hred (1 * 3) 3), (Hred (2 * 3) 1), (Hred (3 * 3) 4), (Hred (4 * 3) 2) by reflexivity.
      rewrite Z3, Z4. generalize (w (1 * (fs * m))) (w (2 * (fs * m))). intros ya yb.
      unfold KissAlg.c_one, KissAlg.c_conj, Kiss.c_add, Kiss.c_sub, Kiss.c_mul; fin.
    - rewrite (Hred (1 * 4) 4), (Hred (2 * 4) 3), (Hred (3 * 4) 2), (Hred (4 * 4) 1) by reflexivity.
      rewrite Z3, Z4. generalize (w (1 * (fs * m))) (w (2 * (fs * m))). intros ya yb.
      unfold KissAlg.c_one, KissAlg.c_conj, Kiss.c_add, Kiss.c_sub, Kiss.c_mul; fin. }
  unfold bgen. rewrite Hnf.
  set (step := fs * (k + q1 * m)).
  assert (Hstep : 0 <= step < n) by (subst step; assert (0 <= k + q1 * m < p * m) by nia; nia).
  assert (HG : forall c, fst (gacc O (twf O st) n step g c) mod n = (Z.of_nat c * step) mod n /\
     snd (gacc O (twf O st) n step g c) = csum (Z.of_nat c + 1) (fun q => c_mul (g q) (w (q * step)))).
  { induction c as [|c [IH1 IH2]].
    - cbn [gacc fst snd]. split; [reflexivity|]. change (Z.of_nat 0 + 1) with (0 + 1).
      rewrite csum_S, csum_0 by lia. rewrite Z.mul_0_l, w_0. ring.
    - pose proof (gacc_range O (twf O st) n step g c Hstep) as HR.
      assert (H1 : fst (gacc O (twf O st) n step g (S c)) mod n = (Z.of_nat (S c) * step) mod n).
      { cbn [gacc]. cbv zeta. cbn [fst].
        replace (Z.of_nat (S c) * step) with (Z.of_nat c * step + step) by lia.
        rewrite (Z.add_mod (Z.of_nat c * step)), <- IH1, <- Z.add_mod by lia.
        destruct (Z.leb_spec n (fst (gacc O (twf O st) n step g c) + step)); [|reflexivity].
        replace (fst (gacc O (twf O st) n step g c) + step) with (fst (gacc O (twf O st) n step g c) + step - n + 1 * n) at 2 by ring.
        rewrite Z.mod_add by lia. reflexivity. }
      split; [exact H1|].
      pose proof (gacc_range O (twf O st) n step g (S c) Hstep) as HR'.
      replace (Z.of_nat (S c) + 1) with ((Z.of_nat c + 1) + 1) by lia. rewrite csum_S by lia.
      rewrite <- IH2. replace (Z.of_nat c + 1) with (Z.of_nat (S c)) by lia.
      rewrite <- (w_period _ _ H1), <- Htw by exact HR'.
      cbn [gacc]. cbv zeta. cbn [snd fst]. replace (Z.of_nat c + 1) with (Z.of_nat (S c)) by lia. reflexivity. }
  destruct (HG (Z.to_nat (p - 1))) as [_ ->].
  replace (Z.of_nat (Z.to_nat (p - 1)) + 1) with p by lia.
  apply csum_ext. intros q Hq. do 2 f_equal. unfold step. ring.
Qed.

Lemma wk_dft facs : forall fs x L j, 0 < fs -> chain facs L -> fs * L = n -> 0 <= j < L ->
  wk O st facs fs x j = csum L (fun i => c_mul (x i) (w (fs * i * j))).
Proof.
  induction facs as [|[p m] rest IH]; intros fs x L j Hfs Hch HL Hj; [contradiction|].
  cbn [chain] in Hch. destruct Hch as (Hp & Hm & HpmL & Hrest). cbn [wk].
  pose proof (Z.mod_pos_bound j m ltac:(lia)) as Hmod.
  pose proof (Z.div_mod j m ltac:(lia)) as Hdm.
  assert (Hdiv : 0 <= j / m < p).
  { split; [apply Z.div_pos; lia|]. apply Z.div_lt_upper_bound; lia. }
  rewrite bfly_dft; auto; try lia.
  rewrite <- HpmL, csum_split by lia. apply csum_ext. intros q Hq.
  assert (HG : (if m =? 1 then x q else wk O st rest (fs * p) (fun i => x (q + p * i)) (j mod m))
     = csum m (fun i => c_mul (x (q + p * i)) (w (fs * p * i * (j mod m))))).
  { destruct (Z.eqb_spec m 1) as [->|].
    - change 1 with (0 + 1) at 1. rewrite csum_S, csum_0 by lia.
      replace (q + p * 0) with q by ring. replace (fs * p * 0 * (j mod 1)) with 0 by ring.
      rewrite w_0. ring.
    - destruct Hrest as [|[Hm2 Hr]]; [lia|]. rewrite (IH _ _ m); auto; try nia. }
  rewrite HG, <- csum_mul_r. apply csum_ext. intros i Hi.
  assert (Hw : w (fs * (q + p * i) * j) = c_mul (w (fs * p * i * (j mod m))) (w (fs * q * (j mod m + j / m * m)))).
  { rewrite <- w_add.
    rewrite <- (w_mul_n (fs * p * i * (j mod m) + fs * q * (j mod m + j / m * m)) (i * (j / m))). f_equal.
    rewrite <- HL, <- HpmL. rewrite Hdm at 1.
    generalize (j / m) (j mod m). intros b a. ring. }
  rewrite Hw. ring.
Qed.

End Roots.
End Alg.
