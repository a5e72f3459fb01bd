(** KissFactor.v : the 1d plan factorisation (kf_factor) is complete. *)

From Coq Require Import Znumtheory.
From Verif Require Import Base Kiss KissPure.

(** ** Specification, independent of the search order *)

(** [stages n facs]: the stages p1,m1,p2,m2,... of a transform of length n:
    p1*m1 = n, p2*m2 = m1, ..., the last m is 1 and only the last. *)
Inductive stages : Z -> list (Z * Z) -> Prop :=
| stages_last n : stages n [(n, 1)]
| stages_more n p m rest : n = p * m -> 1 < m -> stages m rest -> stages n ((p, m) :: rest).

(** a radix of a fully factored plan: 4 or a prime *)
Definition radix (p : Z) : Prop := p = 4 \/ prime p.

(** the product of the radices *)
Definition radices (facs : list (Z * Z)) : Z := fold_right (fun pm acc => fst pm * acc) 1 facs.

Lemma radix_ge2 p : radix p -> 2 <= p.
Proof. intros [->|H]; [lia|]. pose proof (prime_ge_2 p H). lia. Qed.

Lemma stages_product n facs : stages n facs -> radices facs = n.
Proof.
  unfold radices. induction 1 as [n|n p m rest Hn Hm Hs IH]; cbn [fold_right fst]; [lia|].
  rewrite IH; auto.
Qed.

Lemma stages_length n facs : stages n facs -> Forall (fun pm => radix (fst pm)) facs ->
  2 ^ zlen facs <= n.
Proof.
  induction 1 as [n|n p m rest Hn Hm Hs IH]; intros HF; inversion HF; subst; cbn [fst] in *.
  - change (zlen [(n, 1)]) with 1. pose proof (radix_ge2 n ltac:(auto)). lia.
  - rewrite zlen_cons, Z.pow_add_r by (try lia; apply zlen_nonneg).
    specialize (IH ltac:(auto)). pose proof (radix_ge2 p ltac:(auto)). nia.
Qed.

Lemma stages_chain n facs : 1 <= n -> stages n facs ->
  Forall (fun pm => radix (fst pm)) facs -> chain facs n.
Proof.
  intros Hn H. revert Hn. induction H as [n|n p m rest Hn' Hm Hs IH]; intros Hn HF; cbn [chain].
  - repeat split; lia.
  - inversion HF; subst; cbn [fst] in *. pose proof (radix_ge2 p ltac:(auto)).
    repeat split; try lia. right. split; [lia|]. apply IH; [lia|auto].
Qed.

(** ** The search *)

Definition nod (n p : Z) : Prop := forall d, 2 <= d < p -> ~ (d | n).

Definition pinv (n p : Z) : Prop := p = 4 \/ p = 2 \/ (3 <= p /\ Z.odd p = true /\ nod n p).

Lemma nod_prime n p : 1 < n -> nod n p -> n < p * p -> 0 < p -> prime n.
Proof.
  intros Hn Hd Hlt Hp. apply prime_alt. split; [exact Hn|].
  intros d Hdn [e He]. assert (2 <= e) by nia.
  destruct (Z_lt_ge_dec d p).
  - apply (Hd d); [lia|]. exists e; auto.
  - destruct (Z_lt_ge_dec e p).
    + apply (Hd e); [lia|]. exists d; lia.
    + nia.
Qed.

Lemma nod_radix n p : 3 <= p -> nod n p -> (p | n) -> prime p.
Proof.
  intros Hp Hd Hdv. apply prime_alt. split; [lia|].
  intros d Hdn Hdp. apply (Hd d); [lia|]. eapply Z.divide_trans; eauto.
Qed.

Lemma nod_div n p q : nod n p -> (q | n) -> 0 < q -> nod (n / q) p.
Proof.
  intros H [k Hk] Hq d Hd [e He]. apply (H d Hd). subst n.
  rewrite Z.div_mul in He by lia. subst k. exists (e * q). ring.
Qed.

Lemma pinv_next n p : pinv n p -> n mod p <> 0 ->
  let p' := if p =? 4 then 2 else if p =? 2 then 3 else p + 2 in
  2 <= p' /\ nod n p' /\ pinv n p'.
Proof.
  intros [->|[->|(Hp & Ho & Hd)]] Hm; cbv zeta.
  - change (4 =? 4) with true. cbv iota. repeat split; try lia. intros d Hd; lia. right; left; reflexivity.
  - change (2 =? 4) with false. change (2 =? 2) with true. cbv iota.
    assert (Hnd : nod n 3).
    { intros d Hd Hdv. assert (d = 2) by lia. subst d. apply Hm. apply Z.mod_divide; [lia|auto]. }
    split; [lia|]. split; [exact Hnd|]. right; right. split; [lia|]. split; [reflexivity|exact Hnd].
  - destruct (Z.eqb_spec p 4) as [->|_]; [discriminate|]. destruct (Z.eqb_spec p 2); [lia|].
    assert (Hnd : nod n (p + 2)).
    { intros d Hd' Hdv. destruct (Z.eq_dec d p) as [->|].
      - apply Hm. apply Z.mod_divide; [lia|auto].
      - destruct (Z.eq_dec d (p + 1)) as [->|].
        + apply (Hd 2); [lia|]. eapply Z.divide_trans; [|exact Hdv].
          rewrite Zodd_bool_iff in Ho. apply Zodd_ex_iff in Ho as [k Hk]. exists (k + 1). lia.
        + apply (Hd d); [lia|auto]. }
    split; [lia|]. split; [exact Hnd|]. right; right. split; [lia|].
    split; [|exact Hnd]. rewrite Z.odd_add. rewrite Ho. reflexivity.
Qed.

(** result of the inner while loop *)
Definition found (n fsq p : Z) : Prop :=
  n mod p = 0 /\ radix p /\ (n / p = 1 \/ (pinv (n / p) p /\ (p = 4 \/ p <= fsq))).

Lemma find_done fuel n fsq p : 0 < p -> n mod p = 0 -> find_p fuel n fsq p = Some p.
Proof.
  intros Hp Hm. destruct fuel; cbn [find_p]; destruct (Z.eqb_spec p 0); try lia; rewrite Hm; reflexivity.
Qed.

Lemma found_now n fsq p : 1 < n -> pinv n p -> (p = 4 \/ p <= fsq) -> n mod p = 0 -> found n fsq p.
Proof.
  intros Hn Hi Hle Hm. 
  assert (Hp : 0 < p) by (destruct Hi as [->|[->|(?&_)]]; lia).
  assert (Hdv : (p | n)) by (apply Z.mod_divide; lia).
  split; [exact Hm|]. split.
  - destruct Hi as [->|[->|(H3 & Ho & Hd)]]; [left; reflexivity|right; apply prime_2|right].
    eapply nod_radix; eauto.
  - right. split; [|exact Hle].
    destruct Hi as [->|[->|(H3 & Ho & Hd)]]; [left; reflexivity|right; left; reflexivity|right; right].
    split; [exact H3|]. split; [exact Ho|]. apply nod_div; auto.
Qed.

Lemma find_p_ok fuel : forall n n0 fsq p, 1 < n -> n <= n0 -> fsq = Z.sqrt n0 ->
  pinv n p -> (p = 4 \/ p <= fsq) ->
  (if p =? 4 then fsq + 3 else if p =? 2 then fsq + 2 else fsq + 4 - p) <= Z.of_nat fuel ->
  exists p', find_p fuel n fsq p = Some p' /\ found n fsq p'.
Proof.
  induction fuel as [|fuel IH]; intros n n0 fsq p Hn Hn0 Hf Hi Hle Hfuel.
  - exfalso. assert (1 <= fsq) by (subst; apply Z.sqrt_le_square; lia).
    destruct (Z.eqb_spec p 4); [lia|]. destruct (Z.eqb_spec p 2); [lia|]. lia.
  - assert (Hp : 0 < p) by (destruct Hi as [->|[->|(?&_)]]; lia).
    assert (1 <= fsq) by (subst; apply Z.sqrt_le_square; lia).
    destruct (Z.eq_dec (n mod p) 0) as [Hm|Hm].
    + exists p. split; [apply find_done; auto|apply found_now; auto].
    + cbn [find_p]. destruct (Z.eqb_spec p 0); [lia|].
      destruct (Z.eqb_spec (n mod p) 0); [lia|].
      pose proof (pinv_next n p Hi Hm) as HN. unfold next_p. cbv zeta in HN |- *.
      set (p' := if p =? 4 then 2 else if p =? 2 then 3 else p + 2) in *.
      destruct HN as (H2 & Hnd & Hi').
      destruct (Z.ltb_spec fsq p').
      * exists n. rewrite find_done by (try lia; apply Z.mod_same; lia). split; [reflexivity|].
        split; [apply Z.mod_same; lia|]. split; [|left; apply Z.div_same; lia].
        right. apply (nod_prime n p'); auto; try lia.
        subst fsq. pose proof (Z.sqrt_spec n0 ltac:(lia)) as [_ Hs].
        assert (Z.succ (Z.sqrt n0) <= p') by lia.
        assert (Z.succ (Z.sqrt n0) * Z.succ (Z.sqrt n0) <= p' * p').
        { apply Z.mul_le_mono_nonneg; lia. }
        lia.
      * apply (IH n n0 fsq p'); auto.
        subst p'. destruct (Z.eqb_spec p 4) as [->|].
        -- change (2 =? 4) with false. change (2 =? 2) with true. cbv iota. lia.
        -- destruct (Z.eqb_spec p 2) as [->|].
           ++ change (3 =? 4) with false. change (3 =? 2) with false. cbv iota. lia.
           ++ destruct (Z.eqb_spec (p + 2) 4); [lia|]. destruct (Z.eqb_spec (p + 2) 2); lia.
Qed.

Lemma kf_factor_loop_ok fuel : forall nf n n0 fsq p,
  1 < n -> n <= n0 -> fsq = Z.sqrt n0 -> pinv n p -> (p = 4 \/ p <= fsq) ->
  n < 2 ^ (32 - Z.of_nat nf) -> (nf < 32)%nat -> (32 <= nf + fuel)%nat ->
  exists facs, kf_factor_loop fuel nf n fsq p = Some facs /\ stages n facs /\
    Forall (fun pm => radix (fst pm)) facs.
Proof.
  induction fuel as [|fuel IH]; intros nf n n0 fsq p Hn Hn0 Hf Hi Hle Hb Hnf Hfu; [lia|].
  cbn [kf_factor_loop]. unfold maxfactors.
  destruct (Nat.eqb_spec nf 32); [lia|]. cbv zeta.
  assert (1 <= fsq) by (subst; apply Z.sqrt_le_square; lia).
  destruct (find_p_ok (Z.to_nat (fsq + 3)) n n0 fsq p) as (p' & E & Hm & Hr & Hc); auto.
  { destruct Hi as [->|[->|(H3 & Ho & _)]].
    - change (4 =? 4) with true. cbv iota. lia.
    - change (2 =? 4) with false. change (2 =? 2) with true. cbv iota. lia.
    - destruct (Z.eqb_spec p 4); [lia|]. destruct (Z.eqb_spec p 2); lia. }
  rewrite E. cbn [bind]. destruct (Nat.leb_spec 32 nf); [lia|].
  pose proof (radix_ge2 p' Hr) as Hp2.
  assert (Hmul : n = p' * (n / p')) by (apply Z_div_exact_full_2; lia).
  assert (0 < n / p') by nia.
  destruct (Z.ltb_spec 1 (n / p')).
  - destruct Hc as [|[Hi' Hle']]; [lia|].
    assert (Hlt : n / p' < 2 ^ (32 - Z.of_nat (S nf))).
    { replace (32 - Z.of_nat nf) with (1 + (32 - Z.of_nat (S nf))) in Hb by lia.
      rewrite Z.pow_add_r in Hb by lia. change (2 ^ 1) with 2 in Hb. nia. }
    destruct (IH (S nf) (n / p') n0 fsq p') as (facs & E2 & HS & HF); auto; try lia.
    { nia. }
    { destruct (Nat.eq_dec nf 31); [|lia]. subst nf. change (2 ^ (32 - Z.of_nat 32)) with 1 in Hlt. lia. }
    rewrite E2. cbn [bind]. eexists. split; [reflexivity|]. split.
    + apply stages_more; auto.
    + constructor; auto.
  - assert (Hone : n / p' = 1) by lia. rewrite Hone. eexists. split; [reflexivity|].
    assert (p' = n) by nia. subst p'. split; [apply stages_last|]. constructor; auto.
Qed.

Theorem kf_factor_ok n : 1 < n < 2 ^ 32 ->
  exists facs, kf_factor n = Some facs /\ stages n facs /\ Forall (fun pm => radix (fst pm)) facs.
Proof.
  intros Hn. unfold kf_factor. apply (kf_factor_loop_ok 34 0 n n (Z.sqrt n) 4); auto; try lia.
  left; reflexivity.
Qed.

Lemma kf_factor_1 : kf_factor 1 = Some [(1, 1)].
Proof. reflexivity. Qed.

(** every length of a 32-bit int has a plan, with at most 30 stages *)
Lemma kf_factor_chain n : 1 <= n < 2 ^ 31 ->
  exists facs, kf_factor n = Some facs /\ chain facs n /\ stages n facs /\ zlen facs <= 30.
Proof.
  intros Hn. destruct (Z.eq_dec n 1) as [->|].
  - rewrite kf_factor_1. eexists. split; [reflexivity|]. split; [cbn [chain]; lia|].
    split; [constructor|]. unfold zlen; cbn [length]; lia.
  - destruct (kf_factor_ok n) as (facs & E & HS & HF); [lia|].
    exists facs. split; [exact E|]. split; [apply stages_chain; auto; lia|]. split; [exact HS|].
    pose proof (stages_length n facs HS HF) as HL.
    apply Z.lt_succ_r. change (Z.succ 30) with 31. apply (Z.pow_lt_mono_r_iff 2); [lia|lia|].
    lia.
Qed.

(** radices of a length accepted by FFT3d::setup (2^a 3^b 5^c) are 2, 3, 4 or 5 *)
Lemma smooth_radices n facs a b c : 0 <= a -> 0 <= b -> 0 <= c ->
  n = 2 ^ a * 3 ^ b * 5 ^ c -> stages n facs ->
  Forall (fun pm => radix (fst pm)) facs -> Forall (fun pm => 2 <= fst pm <= 5) facs.
Proof.
  intros Ha Hb Hc Hn HS HF.
  assert (Hdv : forall p, prime p -> (p | n) -> p = 2 \/ p = 3 \/ p = 5).
  { intros p Hp Hd. rewrite Hn in Hd.
    assert (P2 : prime 2) by apply prime_2. assert (P3 : prime 3) by apply prime_3.
    assert (P5 : prime 5).
    { apply (nod_prime 5 3); try lia. intros d Hd' Hdv'. assert (d = 2) by lia. subst d.
      apply Z.mod_divide in Hdv'; [discriminate|lia]. }
    assert (Hpow : forall q e, 0 <= e -> prime q -> (p | q ^ e) -> p = q).
    { intros q e He Hq. revert e He. apply (natlike_ind (fun e => (p | q ^ e) -> p = q)).
      - intros Hd'. change (q ^ 0) with 1 in Hd'.
        apply Z.divide_1_r in Hd' as [H|H]; pose proof (prime_ge_2 p Hp); lia.
      - intros e He IHe Hd'. rewrite Z.pow_succ_r in Hd' by exact He.
        apply prime_mult in Hd' as [Hd'|Hd']; auto. apply prime_div_prime; auto. }
    apply prime_mult in Hd as [Hd|Hd]; auto; [apply prime_mult in Hd as [Hd|Hd]; auto|].
    - left; exact (Hpow 2 a Ha P2 Hd).
    - right; left; exact (Hpow 3 b Hb P3 Hd).
    - right; right; exact (Hpow 5 c Hc P5 Hd). }
  clear Hn Ha Hb Hc. revert HF. induction HS as [n|n p m rest Hn' Hm Hs IH]; intros HF;
    inversion HF as [|? ? Hr HF']; subst; cbn [fst] in *; constructor; cbn [fst]; auto.
  - destruct Hr as [->|Hr]; [lia|]. destruct (Hdv n Hr (Z.divide_refl n)) as [->|[->| ->]]; lia.
  - destruct Hr as [->|Hr]; [lia|]. destruct (Hdv p Hr) as [->|[->| ->]]; try lia. exists m; ring.
  - apply IH; [|exact HF']. intros q Hq Hqd. apply Hdv; [exact Hq|]. apply Z.divide_mul_r; exact Hqd.
Qed.
