(** KissReal.v : the 1d transform over the real numbers of the standard library. *)

From Coq Require Import Reals Lra.
From Verif Require Import Base Kiss KissPure KissAlg KissFactor.
Local Open Scope R_scope.

(** real scalars; HALF_OF(x) = x*.5 *)
Definition Rops : sops R := mksops R 0 1 Rplus Rminus Rmult Ropp (fun x => x * / 2).

Lemma Rlaws : slaws Rops.
Proof.
  constructor; cbn.
  - exact RTheory.
  - intros x. lra.
  - lra.
Qed.

(** phase of kiss_fft_alloc, kissfft.h:455 *)
Definition phase (inv : bool) (a n : Z) : R :=
  (if inv then 2 * PI else - (2 * PI)) * IZR a / IZR n.

(** kf_cexp of the phase, kissfft.h:162-166 *)
Definition cexpR (inv : bool) (a n : Z) : @cpx R := (cos (phase inv a n), sin (phase inv a n)).

Lemma phase_add inv a b n : phase inv (a + b) n = phase inv a n + phase inv b n.
Proof. unfold phase. rewrite plus_IZR. destruct inv; unfold Rdiv; ring. Qed.

Lemma phase_opp inv a n : phase inv (- a) n = - phase inv a n.
Proof. unfold phase. rewrite opp_IZR. destruct inv; unfold Rdiv; ring. Qed.

Lemma phase_frac inv h n c : (0 < c)%Z -> (0 < n)%Z -> (c * h = n)%Z ->
  phase inv h n = (if inv then 2 * PI else - (2 * PI)) / IZR c.
Proof.
  intros Hc Hn H. unfold phase. rewrite <- H, mult_IZR.
  assert (IZR h <> 0) by (apply not_0_IZR; nia).
  assert (IZR c <> 0) by (apply not_0_IZR; lia).
  destruct inv; field; auto.
Qed.

Lemma cexpR_roots inv n : (0 < n)%Z -> rootlaws Rops inv n (fun a => cexpR inv a n).
Proof.
  intros Hn. constructor.
  - intros a b. unfold cexpR. rewrite phase_add, cos_plus, sin_plus. unfold c_mul; cbn. f_equal; ring.
  - unfold cexpR, phase, c_one; cbn. replace ((if inv then 2 * PI else - (2 * PI)) * 0 / IZR n) with 0 by (unfold Rdiv; ring).
    rewrite cos_0, sin_0. reflexivity.
  - unfold cexpR. rewrite (phase_frac inv n n 1) by lia. unfold c_one; cbn. destruct inv.
    + replace (2 * PI / 1) with (2 * PI) by field. rewrite cos_2PI, sin_2PI. reflexivity.
    + replace (- (2 * PI) / 1) with (- (2 * PI)) by field. rewrite cos_neg, sin_neg, cos_2PI, sin_2PI. f_equal. ring.
  - intros a. unfold cexpR, c_conj; cbn. rewrite phase_opp, cos_neg, sin_neg. reflexivity.
  - intros h Hh. unfold cexpR. rewrite (phase_frac inv h n 2) by lia. unfold c_opp, c_one; cbn. destruct inv.
    + replace (2 * PI / 2) with PI by field. rewrite cos_PI, sin_PI. f_equal; ring.
    + replace (- (2 * PI) / 2) with (- PI) by field. rewrite cos_neg, sin_neg, cos_PI, sin_PI. f_equal; ring.
  - intros h Hh. unfold cexpR; cbn. rewrite (phase_frac inv h n 3) by lia. destruct inv.
    + replace (2 * PI / 3) with (2 * (PI / 3)) by field. rewrite cos_2PI3. field.
    + replace (- (2 * PI) / 3) with (- (2 * (PI / 3))) by field. rewrite cos_neg, cos_2PI3. field.
  - intros h Hh. unfold cexpR; cbn. rewrite (phase_frac inv h n 4) by lia. destruct inv.
    + replace (2 * PI / 4) with (PI / 2) by field. rewrite cos_PI2, sin_PI2. reflexivity.
    + replace (- (2 * PI) / 4) with (- (PI / 2)) by field. rewrite cos_neg, sin_neg, cos_PI2, sin_PI2. reflexivity.
Qed.

(** conjugate roots *)
Lemma cexpR_neg inv a n : cexpR inv (- a) n = cexpR (negb inv) a n.
Proof.
  assert (H : phase inv (- a) n = phase (negb inv) a n).
  { unfold phase. rewrite opp_IZR. destruct inv; cbn; unfold Rdiv; ring. }
  unfold cexpR. rewrite H. reflexivity.
Qed.

(** ** orthogonality of the roots *)

Local Notation csum := (csum Rops).
Local Notation cmul := (c_mul Rops).
Local Notation cadd := (c_add Rops).

(** exp(2 pi i d / n) = 1 only when n divides d (0 < d < n here) *)
Lemma cexpR_not1 inv d n : (0 < d < n)%Z -> cexpR inv d n <> (1, 0).
Proof.
  intros Hd H. unfold cexpR in H.
  assert (Hn0 : 0 < IZR n) by (apply IZR_lt; lia).
  assert (Hd0 : 0 < IZR d) by (apply IZR_lt; lia).
  assert (Hdn : IZR d < IZR n) by (apply IZR_lt; lia).
  set (x := PI * (IZR d / IZR n)).
  assert (Hfr : 0 < IZR d / IZR n < 1).
  { split; [apply Rdiv_lt_0_compat; auto|]. apply (Rmult_lt_reg_r (IZR n)); [auto|].
    unfold Rdiv. rewrite Rmult_assoc, Rinv_l by lra. lra. }
  pose proof PI_RGT_0 as HPI.
  assert (Hx : 0 < x < PI).
  { unfold x. split; [apply Rmult_lt_0_compat; lra|]. rewrite <- (Rmult_1_r PI) at 2. apply Rmult_lt_compat_l; lra. }
  assert (Hc : cos (2 * x) = 1).
  { assert (Hp : phase inv d n = 2 * x \/ phase inv d n = - (2 * x)).
    { unfold phase, x. destruct inv; [left|right]; field; lra. }
    pose proof (f_equal fst H) as H1; cbn [fst] in H1. destruct Hp as [Hp|Hp]; rewrite Hp in H1; [|rewrite cos_neg in H1]; exact H1. }
  rewrite cos_2a_sin in Hc. pose proof (sin_gt_0 x (proj1 Hx) (proj2 Hx)). nra.
Qed.

Lemma cdomain (a b c : @cpx R) : cmul a b = cmul c b -> b <> (0, 0) -> a = c.
Proof.
  destruct a as [a1 a2], b as [b1 b2], c as [c1 c2]. unfold c_mul; cbn. intros H Hb. injection H as H1 H2.
  assert (Hs : b1 * b1 + b2 * b2 <> 0).
  { intros Hs. apply Hb. apply Rplus_sqr_eq_0 in Hs as [-> ->]. reflexivity. }
  assert (E1 : (a1 - c1) * (b1 * b1 + b2 * b2) = 0).
  { replace ((a1 - c1) * (b1 * b1 + b2 * b2))
      with ((a1 * b1 - a2 * b2) * b1 + (a1 * b2 + a2 * b1) * b2 - ((c1 * b1 - c2 * b2) * b1 + (c1 * b2 + c2 * b1) * b2)) by ring.
    rewrite H1, H2. ring. }
  assert (E2 : (a2 - c2) * (b1 * b1 + b2 * b2) = 0).
  { replace ((a2 - c2) * (b1 * b1 + b2 * b2))
      with ((a1 * b2 + a2 * b1) * b1 - (a1 * b1 - a2 * b2) * b2 - ((c1 * b2 + c2 * b1) * b1 - (c1 * b1 - c2 * b2) * b2)) by ring.
    rewrite H1, H2. ring. }
  apply Rmult_integral in E1 as [E1|E1]; [|contradiction].
  apply Rmult_integral in E2 as [E2|E2]; [|contradiction].
  f_equal; lra.
Qed.

Lemma cexpR_sum inv n d : (0 < n)%Z -> (d mod n <> 0)%Z ->
  csum n (fun k => cexpR inv (k * d) n) = (0, 0).
Proof.
  intros Hn Hd. pose proof (cexpR_roots inv n Hn) as W.
  pose proof (Z.mod_pos_bound d n Hn) as Hb.
  set (w := fun a => cexpR inv a n) in *.
  set (S := csum n (fun k => w (k * d)%Z)). change (S = (0, 0)).
  (* multiplying by w d permutes the terms *)
  assert (HS : cmul S (w d) = S).
  { unfold S at 1. rewrite <- (csum_mul_r Rops Rlaws).
    assert (E : csum (n + 1) (fun k => w (k * d)%Z) = cadd S (w (n * d)%Z)).
    { exact (csum_S Rops n (fun k => w (k * d)%Z) ltac:(lia)). }
    rewrite Z.add_comm in E. rewrite (csum_app Rops Rlaws 1 n) in E by lia.
    assert (E1 : csum 1 (fun k => w (k * d)%Z) = w 0%Z).
    { change (cadd (czero Rops) (w (0 * d)%Z) = w 0%Z). rewrite Z.mul_0_l. generalize (w 0%Z). intros [a b].
      unfold c_add, czero; cbn. f_equal; ring. }
    rewrite E1 in E.
    assert (E2 : w (n * d)%Z = w 0%Z).
    { rewrite <- (w_mul_n Rops Rlaws inv n w Hn W 0 d). f_equal. ring. }
    rewrite E2 in E.
    rewrite (csum_ext Rops n (fun i => cmul (w (i * d)%Z) (w d)) (fun i => w ((1 + i) * d)%Z)).
    2:{ intros i _. rewrite <- (R_add _ _ _ _ W). f_equal. ring. }
    revert E. generalize (csum n (fun i => w ((1 + i) * d)%Z)) S (w 0%Z).
    intros [a1 a2] [b1 b2] [c1 c2] E. unfold c_add in E; cbn in E. injection E as EE1 EE2. f_equal; lra. }
  destruct (Req_dec (fst S) 0) as [F0|F0]; destruct (Req_dec (snd S) 0) as [F1|F1].
  { rewrite (surjective_pairing S), F0, F1. reflexivity. }
  all: exfalso; apply (cexpR_not1 inv (d mod n) n); [lia|];
    change (w (d mod n)%Z = (1, 0)); rewrite (w_mod Rops Rlaws inv n w Hn W);
    apply (cdomain _ S);
    [ destruct S as [s1' s2']; unfold c_mul in *; cbn in *; injection HS as HS1 HS2; f_equal; lra
    | intros HZ; rewrite HZ in *; cbn in *; lra ].
Qed.

(** the inverse DFT theorem in 1d: the conjugate transform of the transform is n times the data *)
Lemma nsum_const (c : @cpx R) k : nsum Rops k (fun _ => c) = (INR k * fst c, INR k * snd c).
Proof.
  induction k as [|k IH]; cbn [nsum].
  - unfold czero; cbn. f_equal; ring.
  - rewrite IH, S_INR. unfold c_add; cbn. f_equal; ring.
Qed.

Lemma csum_single n (f : Z -> @cpx R) l : (0 <= l < n)%Z ->
  (forall j, (0 <= j < n)%Z -> j <> l -> f j = (0, 0)) -> csum n f = f l.
Proof.
  intros Hl H. replace n with (l + (1 + (n - l - 1)))%Z by ring.
  rewrite (csum_app Rops Rlaws l) by lia. rewrite (csum_app Rops Rlaws 1) by lia.
  rewrite (csum_ext Rops l f (fun _ => czero Rops)) by (intros; apply H; lia).
  rewrite (csum_ext Rops (n - l - 1) _ (fun _ => czero Rops)) by (intros; apply H; lia).
  rewrite !(csum_zero Rops Rlaws).
  change (csum 1 (fun i => f (l + i)%Z)) with (cadd (czero Rops) (f (l + 0)%Z)). rewrite Z.add_0_r.
  unfold c_add, czero; cbn. destruct (f l); cbn. f_equal; ring.
Qed.

Lemma dft_inverse inv n x l : (0 < n)%Z -> (0 <= l < n)%Z ->
  dft Rops (fun a => cexpR (negb inv) a n) n (dft Rops (fun a => cexpR inv a n) n x) l
  = (IZR n * fst (x l), IZR n * snd (x l)).
Proof.
  intros Hn Hl. pose proof (cexpR_roots inv n Hn) as W. unfold dft.
  transitivity (csum n (fun j => cmul (x j) (csum n (fun k => cexpR inv (k * (j - l)) n)))).
  { transitivity (csum n (fun k => csum n (fun j => cmul (cmul (x j) (cexpR inv (j * k) n)) (cexpR (negb inv) (k * l) n)))).
    { apply (csum_ext Rops). intros k _. symmetry. apply (csum_mul_r Rops Rlaws). }
    rewrite (csum_swap Rops Rlaws). apply (csum_ext Rops). intros j _.
    rewrite <- (csum_mul_l Rops Rlaws). apply (csum_ext Rops). intros k _.
    replace (k * (j - l))%Z with (j * k + - (k * l))%Z by ring.
    pose proof (R_add _ _ _ _ W (j * k) (- (k * l))) as HA. cbv beta in HA. rewrite HA.
    rewrite cexpR_neg. generalize (x j) (cexpR inv (j * k) n) (cexpR (negb inv) (k * l) n).
    intros [a1 a2] [b1 b2] [c1 c2]. unfold c_mul; cbn. f_equal; ring. }
  rewrite (csum_single n _ l Hl).
  2:{ intros j Hj Hne. rewrite cexpR_sum; [unfold c_mul; cbn; f_equal; ring|exact Hn|].
      intros HM. apply Z.mod_divide in HM; [|lia]. destruct HM as [q Hq]. apply Hne. assert (q = 0)%Z by nia. subst q. lia. }
  rewrite (csum_ext Rops n (fun k => cexpR inv (k * (l - l)) n) (fun _ => c_one Rops)).
  2:{ intros k _. replace (k * (l - l))%Z with 0%Z by ring. exact (R_0 _ _ _ _ W). }
  unfold KissAlg.csum. rewrite nsum_const. rewrite INR_IZR_INZ, Z2Nat.id by lia.
  unfold c_mul, c_one; cbn. destruct (x l); cbn. f_equal; ring.
Qed.

(** ** kiss_fft over the reals is the DFT *)

Lemma alloc_ok {F} (O : sops F) cexp n inv : (1 <= n < 2 ^ 31)%Z ->
  exists st, kiss_fft_alloc (F:=F) cexp n inv = Some st /\ k_nfft st = n /\ k_inverse st = inv /\
    chain (k_factors st) n /\ zlen (k_tw st) = n /\
    (forall i, (0 <= i < n)%Z -> twf O st i = cexp inv i n).
Proof.
  intros Hn. destruct (kf_factor_chain n Hn) as (facs & E & Hc & _).
  unfold kiss_fft_alloc. rewrite E. cbn [bind]. eexists. split; [reflexivity|]. cbn [k_nfft k_inverse k_factors k_tw].
  repeat (split; [auto; fail|]). split; [rewrite zlen_map, zlen_zrange; lia|].
  intros i Hi. unfold twf. cbn [k_tw]. rewrite zget_map. unfold zrange. rewrite zget_zseq.
  destruct (Z.leb_spec 0 i); [|lia]. destruct (Z.ltb_spec i (Z.of_nat (Z.to_nat n))); [|lia].
  cbn. do 2 f_equal.
Qed.

Lemma wk_real n inv st x j : (1 <= n)%Z -> k_nfft st = n -> k_inverse st = inv ->
  chain (k_factors st) n -> (forall i, (0 <= i < n)%Z -> twf Rops st i = cexpR inv i n) ->
  (0 <= j < n)%Z ->
  wk Rops st (k_factors st) 1 x j = dft Rops (fun a => cexpR inv a n) n x j.
Proof.
  intros Hn H1 H2 H3 H4 Hj.
  rewrite (wk_dft Rops Rlaws inv n (fun a => cexpR inv a n) ltac:(lia) (cexpR_roots inv n ltac:(lia)) st H1 H2 H4
     (k_factors st) 1 x n j) by (auto; lia).
  unfold dft. apply (csum_ext Rops). intros i _. do 2 f_equal. ring.
Qed.
