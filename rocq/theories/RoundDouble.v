(** RoundDouble.v : the binary arithmetic of Binary.v satisfies [rounding]; conversions and division. *)

From Coq Require Import Reals Lra Psatz Floats.SpecFloat.
From Verif Require Import Base Kiss Round Binary.
Local Open Scope Z_scope.

(** ** digits *)
Lemma digits_spec m : 2 ^ (Zpos (digits2_pos m) - 1) <= Zpos m < 2 ^ Zpos (digits2_pos m).
Proof.
  induction m as [p IH|p IH|]; cbn [digits2_pos]; [| |cbn; lia];
    rewrite Pos2Z.inj_succ; replace (Z.succ (Zpos (digits2_pos p)) - 1) with (Zpos (digits2_pos p)) by lia;
    rewrite Z.pow_succ_r by lia;
    replace (2 ^ Zpos (digits2_pos p)) with (2 * 2 ^ (Zpos (digits2_pos p) - 1)) in * by (rewrite <- Z.pow_succ_r by lia; f_equal; lia); lia.
Qed.

Lemma digits_unique m k : 0 < k -> 2 ^ (k - 1) <= Zpos m < 2 ^ k -> Zpos (digits2_pos m) = k.
Proof.
  intros Hk [H1 H2]. pose proof (digits_spec m) as [H3 H4].
  destruct (Z.lt_total (Zpos (digits2_pos m)) k) as [H|[H|H]]; [|exact H|].
  - assert (2 ^ Zpos (digits2_pos m) <= 2 ^ (k - 1)) by (apply Z.pow_le_mono_r; lia). lia.
  - assert (2 ^ k <= 2 ^ (Zpos (digits2_pos m) - 1)) by (apply Z.pow_le_mono_r; lia). lia.
Qed.

Lemma digits_le m k : 0 <= k -> Zpos m < 2 ^ k -> Zpos (digits2_pos m) <= k.
Proof.
  intros Hk H. pose proof (digits_spec m) as [H3 _]. apply Z.nlt_ge. intros C.
  assert (2 ^ k <= 2 ^ (Zpos (digits2_pos m) - 1)) by (apply Z.pow_le_mono_r; lia). lia.
Qed.

(** ** shifting right with round and sticky bits *)
(** [rep mrs num W] : [mrs] is num / W, cut to an integer, with its round and sticky bits *)
Definition rep (mrs : shr_record) (num W : Z) : Prop :=
  exists rem, num = shr_m mrs * W + rem /\ 0 <= rem < W /\ 0 <= shr_m mrs /\
  match shr_r mrs, shr_s mrs with
  | false, false => rem = 0
  | false, true => 0 < rem /\ 2 * rem < W
  | true, false => 2 * rem = W
  | true, true => W < 2 * rem
  end.

Lemma rep_step mrs m W : rep mrs m W -> rep (shr_1 mrs) m (2 * W).
Proof.
  intros (rem & E & H1 & H2 & H3). destruct mrs as [q r s]. cbn [shr_m shr_r shr_s] in *. unfold rep.
  destruct q as [|[p|p|]|p]; [| | | |lia]; cbn [shr_1 shr_m shr_r shr_s].
  - exists rem. destruct r, s; cbn [orb] in *; lia.
  - exists (W + rem). replace (Zpos p~1) with (2 * Zpos p + 1) in E by lia. destruct r, s; cbn [orb] in *; nia.
  - exists rem. replace (Zpos p~0) with (2 * Zpos p) in E by lia. destruct r, s; cbn [orb] in *; nia.
  - exists (W + rem). destruct r, s; cbn [orb] in *; nia.
Qed.

Lemma rep_iter p : forall mrs m W, rep mrs m W -> rep (SpecFloat.iter_pos shr_1 p mrs) m (2 ^ Zpos p * W).
Proof.
  induction p as [p IH|p IH|]; intros mrs m W H; cbn [SpecFloat.iter_pos].
  - replace (2 ^ Zpos p~1 * W) with (2 ^ Zpos p * (2 ^ Zpos p * (2 * W))).
    + apply IH, IH, rep_step, H.
    + replace (Zpos p~1) with (Zpos p + Zpos p + 1) by lia. rewrite !Z.pow_add_r, Z.pow_1_r by lia. ring.
  - replace (2 ^ Zpos p~0 * W) with (2 ^ Zpos p * (2 ^ Zpos p * W)).
    + apply IH, IH, H.
    + replace (Zpos p~0) with (Zpos p + Zpos p) by lia. rewrite !Z.pow_add_r by lia. ring.
  - rewrite Z.pow_1_r. apply rep_step, H.
Qed.

Lemma shr_rep mrs m W e n : 0 <= n -> rep mrs m W -> rep (fst (shr mrs e n)) m (2 ^ n * W) /\ snd (shr mrs e n) = e + n.
Proof.
  intros Hn H. destruct n as [|p|p]; [| |lia]; cbn [shr fst snd].
  - rewrite Z.pow_0_r, Z.mul_1_l, Z.add_0_r. auto.
  - split; [|reflexivity]. apply rep_iter; auto.
Qed.

(** rounding to nearest: off by at most half a unit, and between the two neighbours *)
Lemma rne_spec mrs num W : rep mrs num W ->
  let q := round_nearest_even (shr_m mrs) (loc_of_shr_record mrs) in
  2 * Z.abs (q * W - num) <= W /\ num / W <= q <= num / W + 1.
Proof.
  intros (rem & E & H1 & H2 & H3). destruct mrs as [q r s]. cbn [shr_m shr_r shr_s] in *.
  assert (D : num / W = q) by (symmetry; apply (Z.div_unique num W q rem); [left; exact H1|lia]).
  rewrite D. destruct r, s; cbn [loc_of_shr_record round_nearest_even]; cbv zeta.
  - split; [nia|lia].
  - destruct (Z.even q); (split; [nia|lia]).
  - split; [nia|lia].
  - split; [nia|lia].
Qed.

(** ** rounding the quotient of two integers times a power of two *)
Section Rnd.
Variables prec emax : Z.
Hypothesis Hprec : 2 <= prec.
Hypothesis Hemax : prec < emax.
Local Notation em := (3 - emax - prec).
Local Notation fexp := (fexp prec emax).

Lemma fexp_max e : fexp e = Z.max (e - prec) em.
Proof. reflexivity. Qed.

(** the mantissa and exponent the rounding ends with *)
Lemma round_int m e l num W : 0 < W -> rep (shr_record_of_loc m l) num W -> e <= fexp (Zdigits2 m + e) ->
  exists q : Z, let e1 := fexp (Zdigits2 m + e) in
    0 <= q <= 2 ^ prec /\ 2 * Z.abs (q * 2 ^ (e1 - e) * W - num) <= 2 ^ (e1 - e) * W /\
    (e1 = e -> l = loc_Exact -> q = m) /\ (em < e1 -> 2 ^ (prec - 1) <= q) /\
    forall s, binary_round_aux prec emax s m e l =
      (let '(mrs, e2) := shr_fexp prec emax q e1 loc_Exact in
       match shr_m mrs with
       | Z0 => S754_zero s
       | Zpos m => if Zle_bool e2 (emax - prec) then S754_finite s m e2 else S754_infinity s
       | _ => S754_nan
       end).
Proof.
  intros HW R0 He. set (e1 := fexp (Zdigits2 m + e)) in *.
  assert (Sm : shr_m (shr_record_of_loc m l) = m) by (destruct l as [|[| |]]; reflexivity).
  assert (Hm : 0 <= m /\ m * W <= num < (m + 1) * W).
  { destruct R0 as (rem & E & H1 & H2 & _). rewrite Sm in *. nia. }
  assert (E1 : e1 = Z.max (Zdigits2 m + e - prec) em) by reflexivity.
  assert (Hd : m < 2 ^ Zdigits2 m /\ 0 <= Zdigits2 m /\ (em < e1 -> 2 ^ (Zdigits2 m - 1) <= m /\ 1 <= Zdigits2 m)).
  { destruct m as [|p|p]; [|cbn [Zdigits2]|lia].
    - cbn [Zdigits2] in *. rewrite Z.pow_0_r. lia.
    - pose proof (digits_spec p). lia. }
  destruct (shr_rep _ _ _ e (e1 - e) ltac:(lia) R0) as [R1 R2].
  pose proof (rne_spec _ _ _ R1) as H. cbv zeta in H.
  exists (round_nearest_even (shr_m (fst (shr (shr_record_of_loc m l) e (e1 - e))))
            (loc_of_shr_record (fst (shr (shr_record_of_loc m l) e (e1 - e))))).
  cbv zeta. destruct H as (H1 & H3 & H4).
  set (q := round_nearest_even _ _) in *.
  assert (P : 0 < 2 ^ (e1 - e)) by (apply Z.pow_pos_nonneg; lia).
  assert (PW : 0 < 2 ^ (e1 - e) * W) by nia.
  assert (Q : num / (2 ^ (e1 - e) * W) < 2 ^ prec).
  { apply Z.div_lt_upper_bound; [exact PW|].
    assert (m + 1 <= 2 ^ (e1 - e) * 2 ^ prec); [|nia].
    rewrite <- Z.pow_add_r by lia.
    assert (2 ^ Zdigits2 m <= 2 ^ (e1 - e + prec)) by (apply Z.pow_le_mono_r; lia). lia. }
  split; [split|split; [|split; [|split]]].
  - eapply Z.le_trans; [|exact H3]. apply Z.div_pos; [|exact PW]. nia.
  - lia.
  - replace (q * 2 ^ (e1 - e) * W) with (q * (2 ^ (e1 - e) * W)) by ring. exact H1.
  - intros E ->. unfold q. replace (e1 - e) with 0 by lia. reflexivity.
  - intros E. destruct Hd as (_ & _ & Hd). destruct (Hd E) as [Hd1 Hd2].
    eapply Z.le_trans; [|exact H3]. apply Z.div_le_lower_bound; [exact PW|].
    assert (2 ^ (e1 - e) * 2 ^ (prec - 1) <= m); [|nia].
    rewrite <- Z.pow_add_r by lia. replace (e1 - e + (prec - 1)) with (Zdigits2 m - 1) by lia. exact Hd1.
  - intros s. unfold binary_round_aux, shr_fexp at 1. fold e1.
    destruct (shr (shr_record_of_loc m l) e (e1 - e)) as [mrs e'] eqn:Es. cbn [fst snd] in *. subst q.
    rewrite R2. replace (e + (e1 - e)) with e1 by lia. reflexivity.
Qed.

(** the second alignment only acts when the rounding has reached 2^prec *)
Lemma second_shift q e1 : 0 <= q < 2 ^ prec -> em <= e1 -> shr_fexp prec emax q e1 loc_Exact = (Build_shr_record q false false, e1).
Proof.
  intros Hq He. unfold shr_fexp. cbn [shr_record_of_loc].
  assert (L : fexp (Zdigits2 q + e1) - e1 <= 0).
  { rewrite fexp_max. destruct q as [|p|p]; [cbn [Zdigits2]; lia| |lia]. cbn [Zdigits2].
    pose proof (digits_le p prec ltac:(lia) (proj2 Hq)). lia. }
  unfold shr. destruct (fexp (Zdigits2 q + e1) - e1); [reflexivity|lia|reflexivity].
Qed.

Lemma second_shift_top e1 : em <= e1 ->
  shr_fexp prec emax (2 ^ prec) e1 loc_Exact = (Build_shr_record (2 ^ (prec - 1)) false false, e1 + 1).
Proof.
  intros He. unfold shr_fexp. cbn [shr_record_of_loc].
  assert (W : 0 < 2 ^ (prec - 1)) by (apply Z.pow_pos_nonneg; lia).
  assert (E : 2 ^ prec = 2 * 2 ^ (prec - 1)) by (rewrite <- Z.pow_succ_r by lia; f_equal; lia).
  destruct (2 ^ (prec - 1)) as [|w|w] eqn:Ew; [lia| |lia].
  rewrite E. change (2 * Zpos w) with (Zpos w~0). cbn [Zdigits2].
  rewrite (digits_unique w~0 (prec + 1)).
  - rewrite fexp_max. replace (Z.max (prec + 1 + e1 - prec) em - e1) with 1 by lia. reflexivity.
  - lia.
  - replace (prec + 1 - 1) with prec by lia. rewrite Z.pow_add_r by lia. rewrite E. lia.
Qed.

Definition bpow (e : Z) : R := powerRZ 2 e.
Lemma bpow_pos e : (0 < bpow e)%R.
Proof. apply powerRZ_lt. lra. Qed.
Lemma bpow_add a b : bpow (a + b) = (bpow a * bpow b)%R.
Proof. apply powerRZ_add. lra. Qed.
Lemma bpow_IZR n : 0 <= n -> bpow n = IZR (2 ^ n).
Proof. intros Hn. unfold bpow. rewrite <- (Z2Nat.id n Hn). rewrite <- pow_powerRZ. rewrite <- pow_IZR. reflexivity. Qed.
Lemma bpow_mono a b : a <= b -> (bpow a <= bpow b)%R.
Proof.
  intros H. replace b with (a + (b - a)) by lia. rewrite bpow_add, (bpow_IZR (b - a)) by lia.
  pose proof (bpow_pos a). assert (1 <= IZR (2 ^ (b - a)))%R; [|nra]. apply IZR_le.
  assert (0 < 2 ^ (b - a)) by (apply Z.pow_pos_nonneg; lia). lia.
Qed.
Lemma bpow_1 : bpow 1 = 2%R.
Proof. apply powerRZ_1. Qed.
Lemma bpow_half e : (bpow (e - 1) = bpow e / 2)%R.
Proof.
  assert (E : bpow (1 + (e - 1)) = (2 * bpow (e - 1))%R) by (rewrite bpow_add, bpow_1; reflexivity).
  replace (1 + (e - 1)) with e in E by lia. lra.
Qed.

Local Notation u := (SFu prec).
Local Notation mu := (SFmu emax).
Local Notation om := (SFom prec emax).
Local Notation fin := (SFfin prec emax).
Local Notation sgn s := (if s : bool then (-1)%R else 1%R).

Lemma sgn_abs (s : bool) x : Rabs (sgn s * x) = Rabs x.
Proof. rewrite Rabs_mult. destruct s; [rewrite Rabs_left|rewrite Rabs_right]; lra. Qed.

Lemma bounded_intro m e : fexp (Zpos (digits2_pos m) + e) = e -> e <= emax - prec -> bounded prec emax m e = true.
Proof.
  intros H1 H2. unfold bounded, canonical_mantissa. rewrite H1. apply andb_true_intro. split.
  - apply Zeq_is_eq_bool. reflexivity.
  - apply Zle_is_le_bool. exact H2.
Qed.
Lemma bounded_elim m e : bounded prec emax m e = true -> fexp (Zpos (digits2_pos m) + e) = e /\ e <= emax - prec /\ em <= e.
Proof.
  unfold bounded, canonical_mantissa. intros H. apply andb_prop in H. destruct H as [H1 H2].
  apply Zeq_bool_eq in H1. apply Zle_is_le_bool in H2. split; [exact H1|]. split; [exact H2|].
  pose proof (fexp_max (Zpos (digits2_pos m) + e)). lia.
Qed.

Theorem round_aux_gen s m e l num W : 0 < W -> 0 < num -> rep (shr_record_of_loc m l) num W -> e <= fexp (Zdigits2 m + e) ->
  let v := (IZR num / IZR W * bpow e)%R in (v <= om)%R ->
  let y := binary_round_aux prec emax s m e l in
  fin y /\ ((Rabs (SFval y - sgn s * v) <= u * v)%R \/ ((e < em \/ l <> loc_Exact) /\ (Rabs (SFval y - sgn s * v) <= u * mu)%R)) /\
  (fexp (Zdigits2 m + e) = e -> l = loc_Exact -> SFval y = (sgn s * v)%R).
Proof.
  intros HW Hnum R0 He v Hom y. destruct (round_int m e l num W HW R0 He) as (q & Hq). cbv zeta in Hq. unfold y.
  set (e1 := fexp (Zdigits2 m + e)) in *. destruct Hq as (Hq & Hr & Hx & Hn & Hy). rewrite (Hy s). clear y Hy.
  assert (Sm : shr_m (shr_record_of_loc m l) = m) by (destruct l as [|[| |]]; reflexivity).
  assert (Hm : 0 <= m /\ m * W <= num /\ (l = loc_Exact -> num = m * W)).
  { destruct R0 as (rem & E & H1 & H2 & H3). rewrite Sm in *. split; [lia|]. split; [nia|]. intros ->. cbn [shr_record_of_loc shr_r shr_s] in H3. lia. }
  assert (E1 : e1 = Z.max (Zdigits2 m + e - prec) em) by reflexivity.
  assert (Hd : em < e1 -> 2 ^ (Zdigits2 m - 1) <= m /\ 1 <= Zdigits2 m).
  { destruct m as [|p|p]; [|cbn [Zdigits2]|lia].
    - cbn [Zdigits2] in *. lia.
    - pose proof (digits_spec p). lia. }
  assert (Hem : em <= e1) by lia.
  assert (RW : (0 < IZR W)%R) by (apply IZR_lt; lia).
  assert (Rn : (0 < IZR num / IZR W)%R) by (apply Rdiv_lt_0_compat; [apply IZR_lt; lia|exact RW]).
  assert (Hv0 : (0 < v)%R) by (apply Rmult_lt_0_compat; [exact Rn|apply bpow_pos]).
  (* the rounding error *)
  assert (Herr : (Rabs (IZR q * bpow e1 - v) <= bpow e1 / 2)%R).
  { replace (IZR q * bpow e1 - v)%R with (IZR (q * 2 ^ (e1 - e) * W - num) * (bpow e / IZR W))%R.
    - assert (Pb : (0 < bpow e / IZR W)%R) by (apply Rdiv_lt_0_compat; [apply bpow_pos|exact RW]).
      rewrite Rabs_mult, (Rabs_right (bpow e / IZR W)) by lra. rewrite <- abs_IZR.
      assert (E : bpow e1 = (IZR (2 ^ (e1 - e) * W) * (bpow e / IZR W))%R).
      { rewrite mult_IZR, <- bpow_IZR by lia. replace e1 with (e1 - e + e) at 1 by lia. rewrite bpow_add. field. lra. }
      rewrite E. apply IZR_le in Hr. rewrite mult_IZR in Hr. nra.
    - rewrite minus_IZR, !mult_IZR. unfold v. replace e1 with (e1 - e + e) at 2 by lia. rewrite bpow_add, (bpow_IZR (e1 - e)) by lia. field. lra. }
  assert (Hmv : (IZR m * bpow e <= v)%R).
  { unfold v. apply Rmult_le_compat_r; [left; apply bpow_pos|]. apply Rmult_le_reg_r with (IZR W); [exact RW|].
    replace (IZR num / IZR W * IZR W)%R with (IZR num) by (field; lra). rewrite <- mult_IZR. apply IZR_le. lia. }
  assert (Hbig : em < e1 -> (bpow (e1 + prec - 1) <= v)%R).
  { intros H. destruct (Hd H) as [Hd1 Hd2]. eapply Rle_trans; [|exact Hmv].
    replace (e1 + prec - 1) with (Zdigits2 m - 1 + e) by lia. rewrite bpow_add, bpow_IZR by lia.
    apply Rmult_le_compat_r; [left; apply bpow_pos|]. apply IZR_le. exact Hd1. }
  assert (Hfit : em < e1 -> e1 <= emax - prec).
  { intros H. apply Z.nlt_ge. intros C. specialize (Hbig H).
    assert (H1 : (bpow emax <= bpow (e1 + prec - 1))%R) by (apply bpow_mono; lia).
    replace emax with (prec + (emax - prec)) in H1 at 1 by lia. rewrite bpow_add, (bpow_IZR prec) in H1 by lia.
    unfold SFom in Hom. fold (bpow (emax - prec)) in Hom. rewrite minus_IZR in Hom. pose proof (bpow_pos (emax - prec)). nra. }
  assert (Hfit' : e1 <= emax - prec) by (destruct (Z.eq_dec e1 em); [lia|apply Hfit; lia]).
  assert (Hrel : (Rabs (IZR q * bpow e1 - v) <= u * v)%R \/ ((e < em \/ l <> loc_Exact) /\ (Rabs (IZR q * bpow e1 - v) <= u * mu)%R)).
  { destruct (Z.eq_dec e1 em) as [E|E].
    - assert (C : (em <= e /\ l = loc_Exact) \/ (e < em \/ l <> loc_Exact)).
      { destruct l as [|c]; [destruct (Z_lt_le_dec e em); [right; left; assumption|left; auto]|right; right; discriminate]. }
      destruct C as [[C1 C2]|C].
      + left. rewrite Hx by (auto; lia). destruct Hm as (Hm0 & _ & Hm). unfold v. rewrite (Hm C2). replace e1 with e by lia.
        rewrite mult_IZR. replace (IZR m * IZR W / IZR W)%R with (IZR m) by (field; lra).
        rewrite Rminus_diag_eq by reflexivity. rewrite Rabs_R0.
        apply Rmult_le_pos; [left; apply bpow_pos|]. apply Rmult_le_pos; [apply IZR_le; lia|left; apply bpow_pos].
      + right. split; [exact C|]. eapply Rle_trans; [exact Herr|]. right.
        unfold SFu, SFmu. fold (bpow (- prec)) (bpow (2 - emax)). rewrite <- bpow_add, <- bpow_half. f_equal. lia.
    - left. specialize (Hbig ltac:(lia)). eapply Rle_trans; [exact Herr|].
      apply Rle_trans with (u * bpow (e1 + prec - 1))%R; [|apply Rmult_le_compat_l; [left; apply bpow_pos|exact Hbig]].
      unfold SFu. fold (bpow (- prec)). rewrite <- bpow_add. rewrite <- bpow_half. right. f_equal. lia. }
  assert (Fin : forall z, SFval z = (sgn s * (IZR q * bpow e1))%R ->
     ((Rabs (SFval z - sgn s * v) <= u * v)%R \/ ((e < em \/ l <> loc_Exact) /\ (Rabs (SFval z - sgn s * v) <= u * mu)%R)) /\
     (e1 = e -> l = loc_Exact -> SFval z = (sgn s * v)%R)).
  { intros z Ez. split.
    2:{ intros C1 C2. rewrite Ez. f_equal. rewrite Hx by auto. destruct Hm as (_ & _ & Hm). unfold v. rewrite (Hm C2), C1, mult_IZR. field. lra. }
    rewrite Ez. replace (sgn s * (IZR q * bpow e1) - sgn s * v)%R with (sgn s * (IZR q * bpow e1 - v))%R by ring. rewrite sgn_abs. exact Hrel. }
  destruct (Z.eq_dec q (2 ^ prec)) as [Eq|Nq].
  - rewrite Eq. rewrite second_shift_top by exact Hem. cbn [shr_m].
    assert (W0 : 0 < 2 ^ (prec - 1)) by (apply Z.pow_pos_nonneg; lia).
    assert (E : 2 ^ prec = 2 * 2 ^ (prec - 1)) by (rewrite <- Z.pow_succ_r by lia; f_equal; lia).
    destruct (2 ^ (prec - 1)) as [|w|w] eqn:Ew; [lia| |lia].
    assert (Dw : Zpos (digits2_pos w) = prec) by (apply digits_unique; [lia|rewrite Ew; lia]).
    assert (Hlt : e1 + 1 <= emax - prec).
    { apply Z.nlt_ge. intros C. assert (E2 : e1 = emax - prec) by lia.
      assert (H1 : (IZR q * bpow e1 - bpow e1 / 2 <= v)%R).
      { pose proof (Rle_abs (IZR q * bpow e1 - v)). lra. }
      unfold SFom in Hom. fold (bpow (emax - prec)) in Hom. rewrite <- E2, minus_IZR, <- Eq in Hom. pose proof (bpow_pos e1). lra. }
    rewrite (proj1 (Zle_is_le_bool _ _) Hlt). split.
    + cbn [SFfin]. apply bounded_intro; [|exact Hlt]. rewrite fexp_max, Dw. lia.
    + apply Fin. cbn [SFval]. fold (bpow (e1 + 1)). rewrite Eq, E, mult_IZR, bpow_add, bpow_1. ring.
  - rewrite second_shift by lia. cbn [shr_m]. destruct q as [|w|w]; [| |lia].
    + split; [exact I|]. apply Fin. cbn [SFval]. ring.
    + rewrite (proj1 (Zle_is_le_bool _ _) Hfit'). split.
      * cbn [SFfin]. apply bounded_intro; [|exact Hfit']. rewrite fexp_max.
        pose proof (digits_le w prec ltac:(lia) ltac:(lia)).
        destruct (Z.eq_dec e1 em) as [E|E]; [lia|].
        rewrite (digits_unique w prec); [lia|lia|]. split; [apply Hn; lia|lia].
      * apply Fin. cbn [SFval]. fold (bpow e1). ring.
Qed.

Theorem round_aux_spec s m e : e <= fexp (Zpos (digits2_pos m) + e) -> (IZR (Zpos m) * bpow e <= om)%R ->
  let y := binary_round_aux prec emax s (Zpos m) e loc_Exact in
  fin y /\ (Rabs (SFval y - sgn s * (IZR (Zpos m) * bpow e)) <= u * (IZR (Zpos m) * bpow e + (if Z.leb em e then 0 else mu)))%R /\
  (fexp (Zpos (digits2_pos m) + e) = e -> SFval y = (sgn s * (IZR (Zpos m) * bpow e))%R).
Proof.
  intros He Hom y.
  assert (R0 : rep (shr_record_of_loc (Zpos m) loc_Exact) (Zpos m) 1).
  { exists 0. cbn [shr_record_of_loc shr_m shr_r shr_s]. lia. }
  destruct (round_aux_gen s (Zpos m) e loc_Exact (Zpos m) 1 ltac:(lia) ltac:(lia) R0 He) as (H1 & H2 & H3).
  { unfold Rdiv. rewrite Rinv_1, Rmult_1_r. exact Hom. }
  unfold Rdiv in H2, H3. rewrite Rinv_1, Rmult_1_r in H2, H3. fold y in H1, H2, H3. split; [exact H1|]. split; [|intros C; apply H3; auto].
  assert (V0 : (0 <= IZR (Zpos m) * bpow e)%R) by (apply Rmult_le_pos; [apply IZR_le; lia|left; apply bpow_pos]).
  assert (U0 : (0 < u)%R) by apply bpow_pos. assert (M0 : (0 < mu)%R) by apply bpow_pos.
  destruct H2 as [H2|[C H2]].
  - eapply Rle_trans; [exact H2|]. apply Rmult_le_compat_l; [lra|]. destruct (em <=? e); lra.
  - destruct C as [C|C]; [|contradiction C; reflexivity]. destruct (Z.leb_spec em e); [lia|].
    eapply Rle_trans; [exact H2|]. apply Rmult_le_compat_l; lra.
Qed.

(** ** the operations *)
Lemma val_abs s m e : (Rabs (SFval (S754_finite s m e)) = IZR (Zpos m) * bpow e)%R.
Proof.
  cbn [SFval]. fold (bpow e). rewrite Rmult_assoc, sgn_abs. apply Rabs_right. left.
  apply Rmult_lt_0_compat; [apply IZR_lt; lia|apply bpow_pos].
Qed.
Lemma u_pos : (0 < u)%R.
Proof. apply bpow_pos. Qed.
Lemma mu_pos : (0 < mu)%R.
Proof. apply bpow_pos. Qed.

Lemma digits_mul a b : Zpos (digits2_pos a) + Zpos (digits2_pos b) - 1 <= Zpos (digits2_pos (a * b)).
Proof.
  pose proof (digits_spec a) as [A _]. pose proof (digits_spec b) as [B _]. pose proof (digits_spec (a * b)) as [_ C].
  apply Z.nlt_ge. intros D.
  assert (H : 2 ^ Zpos (digits2_pos (a * b)) <= 2 ^ (Zpos (digits2_pos a) - 1 + (Zpos (digits2_pos b) - 1))) by (apply Z.pow_le_mono_r; lia).
  rewrite Z.pow_add_r in H by lia. rewrite Pos2Z.inj_mul in C.
  assert (2 ^ (Zpos (digits2_pos a) - 1) * 2 ^ (Zpos (digits2_pos b) - 1) <= Zpos a * Zpos b); [|lia].
  apply Z.mul_le_mono_nonneg; auto; apply Z.pow_nonneg; lia.
Qed.

Lemma SFmul_spec a b : fin a -> fin b -> (Rabs (SFval a * SFval b) <= om)%R ->
  fin (SFmul prec emax a b) /\ (Rabs (SFval (SFmul prec emax a b) - SFval a * SFval b) <= u * (Rabs (SFval a * SFval b) + mu))%R.
Proof.
  assert (Z0 : forall r, (r = 0)%R -> (Rabs (0 - r) <= u * (Rabs r + mu))%R).
  { intros r ->. rewrite Rminus_0_r, Rabs_R0. apply Rmult_le_pos; [left; apply u_pos|]. pose proof mu_pos. lra. }
  intros Ha Hb Hom. destruct a as [sa|sa| |sa ma ea], b as [sb|sb| |sb mb eb]; try contradiction; cbn [SFmul];
    try (split; [exact I|]; cbn [SFval]; apply Z0; ring).
  cbn [SFfin] in Ha, Hb. apply bounded_elim in Ha. apply bounded_elim in Hb. destruct Ha as (A1 & A2 & A3), Hb as (B1 & B2 & B3).
  pose proof (digits_mul ma mb) as Hd.
  assert (He : ea + eb <= fexp (Zpos (digits2_pos (ma * mb)) + (ea + eb))).
  { rewrite fexp_max in *. lia. }
  assert (Ev : (SFval (S754_finite sa ma ea) * SFval (S754_finite sb mb eb) =
                sgn (xorb sa sb) * (IZR (Zpos (ma * mb)) * bpow (ea + eb)))%R).
  { cbn [SFval]. fold (bpow ea) (bpow eb). rewrite bpow_add, Pos2Z.inj_mul, mult_IZR. destruct sa, sb; cbn [xorb]; ring. }
  assert (Ea : (Rabs (SFval (S754_finite sa ma ea) * SFval (S754_finite sb mb eb)) = IZR (Zpos (ma * mb)) * bpow (ea + eb))%R).
  { rewrite Ev, sgn_abs. apply Rabs_right. left. apply Rmult_lt_0_compat; [apply IZR_lt; lia|apply bpow_pos]. }
  rewrite Ea in *. rewrite Ev.
  destruct (round_aux_spec (xorb sa sb) (ma * mb) (ea + eb) He Hom) as (H1 & H2 & _). split; [exact H1|].
  eapply Rle_trans; [exact H2|]. apply Rmult_le_compat_l; [left; apply u_pos|]. apply Rplus_le_compat_l.
  pose proof mu_pos. destruct (em <=? ea + eb); lra.
Qed.

Lemma shl_spec m e e' : let r := shl_align m e e' in
  (IZR (Zpos (fst r)) * bpow (snd r) = IZR (Zpos m) * bpow e)%R /\ snd r = Z.min e e' /\
  Zpos (digits2_pos (fst r)) + snd r = Zpos (digits2_pos m) + e /\ Zpos (fst r) = Zpos m * 2 ^ (e - snd r).
Proof.
  unfold shl_align. destruct (e' - e) as [|d|d] eqn:E; cbn [fst snd]; cbv zeta.
  1,2: rewrite Z.sub_diag, Z.pow_0_r; repeat split; lia.
  assert (P : Zpos (shift_pos d m) = Zpos m * 2 ^ Zpos d) by (rewrite shift_pos_correct, Z.mul_comm; reflexivity).
  replace (e - e') with (Zpos d) by lia. split; [|split; [lia|split; [|exact P]]].
  - rewrite P, mult_IZR, <- bpow_IZR by lia. rewrite Rmult_assoc, <- bpow_add. f_equal. f_equal. lia.
  - rewrite (digits_unique _ (Zpos (digits2_pos m) + Zpos d)); [lia|lia|]. rewrite P. pose proof (digits_spec m) as [H1 H2].
    replace (Zpos (digits2_pos m) + Zpos d - 1) with (Zpos (digits2_pos m) - 1 + Zpos d) by lia.
    rewrite !Z.pow_add_r by lia. assert (0 < 2 ^ Zpos d) by (apply Z.pow_pos_nonneg; lia). nia.
Qed.

Lemma binary_round_gen s m e : (IZR (Zpos m) * bpow e <= om)%R ->
  let y := binary_round prec emax s m e in
  fin y /\ (Rabs (SFval y - sgn s * (IZR (Zpos m) * bpow e)) <= u * (IZR (Zpos m) * bpow e + (if Z.leb em e then 0 else mu)))%R /\
  (fexp (Zpos (digits2_pos m) + e) <= e -> SFval y = (sgn s * (IZR (Zpos m) * bpow e))%R).
Proof.
  intros Hom. unfold binary_round. pose proof (shl_spec m e (fexp (Zpos (digits2_pos m) + e))) as H. cbv zeta in H.
  destruct (shl_align m e (fexp (Zpos (digits2_pos m) + e))) as [mz ez]. cbn [fst snd] in H. destruct H as (H1 & H2 & H3 & _).
  cbv zeta. pose proof (fexp_max (Zpos (digits2_pos m) + e)) as Fm.
  destruct (round_aux_spec s mz ez) as (K1 & K2 & K3).
  - rewrite H3. lia.
  - rewrite H1. exact Hom.
  - split; [exact K1|]. rewrite H1 in K2, K3. split.
    + eapply Rle_trans; [exact K2|]. apply Rmult_le_compat_l; [left; apply bpow_pos|]. apply Rplus_le_compat_l.
      assert (0 < mu)%R by apply bpow_pos. destruct (Z.leb_spec em ez), (Z.leb_spec em e); try lra; lia.
    + intros C. apply K3. rewrite H3. lia.
Qed.

Lemma binary_round_spec s m e : em <= e -> (IZR (Zpos m) * bpow e <= om)%R ->
  let y := binary_round prec emax s m e in
  fin y /\ (Rabs (SFval y - sgn s * (IZR (Zpos m) * bpow e)) <= u * (IZR (Zpos m) * bpow e))%R.
Proof.
  intros He Hom y. destruct (binary_round_gen s m e Hom) as (H1 & H2 & _). split; [exact H1|].
  replace (em <=? e) with true in H2 by (symmetry; apply Z.leb_le; lia). rewrite Rplus_0_r in H2. exact H2.
Qed.

Lemma normalize_spec M e z : em <= e -> (Rabs (IZR M * bpow e) <= om)%R ->
  let y := binary_normalize prec emax M e z in
  fin y /\ (Rabs (SFval y - IZR M * bpow e) <= u * Rabs (IZR M * bpow e))%R.
Proof.
  intros He Hom. pose proof (bpow_pos e) as Pe. destruct M as [|m|m]; cbn [binary_normalize]; cbv zeta.
  - split; [exact I|]. cbn [SFval]. rewrite Rmult_0_l, Rminus_0_r, Rabs_R0. lra.
  - assert (E : (Rabs (IZR (Zpos m) * bpow e) = IZR (Zpos m) * bpow e)%R).
    { apply Rabs_right. left. apply Rmult_lt_0_compat; [apply IZR_lt; lia|exact Pe]. }
    rewrite E in *. pose proof (binary_round_spec false m e He Hom) as [H1 H2]. split; [exact H1|]. rewrite Rmult_1_l in H2. exact H2.
  - change (Zneg m) with (- Zpos m) in *. rewrite opp_IZR in *.
    assert (E : (Rabs (- IZR (Zpos m) * bpow e) = IZR (Zpos m) * bpow e)%R).
    { rewrite Ropp_mult_distr_l_reverse, Rabs_Ropp. apply Rabs_right. left. apply Rmult_lt_0_compat; [apply IZR_lt; lia|exact Pe]. }
    rewrite E in *. pose proof (binary_round_spec true m e He Hom) as [H1 H2]. split; [exact H1|].
    replace (- IZR (Zpos m) * bpow e)%R with (-1 * (IZR (Zpos m) * bpow e))%R by ring. exact H2.
Qed.

Lemma SFopp_spec a : fin a -> fin (SFopp a) /\ (SFval (SFopp a) = - SFval a)%R.
Proof.
  destruct a as [s|s| |s m e]; cbn [SFfin SFopp SFval]; intros H; try contradiction; (split; [exact H|]); [ring|].
  destruct s; cbn [negb]; ring.
Qed.

Lemma opp_opp_abs x y r : (x = r)%R -> (y = r)%R -> (0 <= u * Rabs r)%R -> (Rabs (x - y) <= u * Rabs r)%R.
Proof. intros -> -> H. rewrite Rminus_diag_eq by reflexivity. rewrite Rabs_R0. exact H. Qed.

(** the aligned mantissas *)
Lemma aligned (s : bool) m e e' : e' <= e -> (IZR (cond_Zopp s (Zpos (fst (shl_align m e e')))) * bpow e' = SFval (S754_finite s m e))%R.
Proof.
  intros H. pose proof (shl_spec m e e') as K. cbv zeta in K. destruct K as (K1 & K2 & _).
  rewrite Z.min_r in K2 by lia. rewrite K2 in K1. cbn [SFval]. fold (bpow e).
  unfold cond_Zopp. destruct s; [rewrite opp_IZR|]; rewrite Rmult_assoc, <- K1; ring.
Qed.

Lemma SFadd_spec a b : fin a -> fin b -> (Rabs (SFval a + SFval b) <= om)%R ->
  fin (SFadd prec emax a b) /\ (Rabs (SFval (SFadd prec emax a b) - (SFval a + SFval b)) <= u * Rabs (SFval a + SFval b))%R.
Proof.
  intros Ha Hb Hom. assert (U : forall r, (0 <= u * Rabs r)%R) by (intros; apply Rmult_le_pos; [left; apply u_pos|apply Rabs_pos]).
  destruct a as [sa|sa| |sa ma ea], b as [sb|sb| |sb mb eb]; try contradiction; cbn [SFadd].
  - destruct (Bool.eqb sa sb); (split; [exact I|]); apply opp_opp_abs; auto; cbn [SFval]; ring.
  - split; [exact Hb|]. apply opp_opp_abs; auto. cbn [SFval]; ring.
  - split; [exact Ha|]. apply opp_opp_abs; auto. cbn [SFval]; ring.
  - cbn [SFfin] in Ha, Hb. apply bounded_elim in Ha. apply bounded_elim in Hb. destruct Ha as (A1 & A2 & A3), Hb as (B1 & B2 & B3).
    rewrite <- (aligned sa ma ea (Z.min ea eb)), <- (aligned sb mb eb (Z.min ea eb)), <- Rmult_plus_distr_r, <- plus_IZR in * by lia.
    apply normalize_spec; [lia|exact Hom].
Qed.

Lemma SFsub_spec a b : fin a -> fin b -> (Rabs (SFval a - SFval b) <= om)%R ->
  fin (SFsub prec emax a b) /\ (Rabs (SFval (SFsub prec emax a b) - (SFval a - SFval b)) <= u * Rabs (SFval a - SFval b))%R.
Proof.
  intros Ha Hb Hom. assert (U : forall r, (0 <= u * Rabs r)%R) by (intros; apply Rmult_le_pos; [left; apply u_pos|apply Rabs_pos]).
  destruct a as [sa|sa| |sa ma ea], b as [sb|sb| |sb mb eb]; try contradiction; cbn [SFsub].
  - destruct (Bool.eqb sa (negb sb)); (split; [exact I|]); apply opp_opp_abs; auto; cbn [SFval]; ring.
  - split; [exact Hb|]. apply opp_opp_abs; auto. destruct (SFopp_spec (S754_finite sb mb eb) Hb) as [_ E]. cbn [SFopp] in E. rewrite E. cbn [SFval]. ring.
  - split; [exact Ha|]. apply opp_opp_abs; auto. cbn [SFval]; ring.
  - cbn [SFfin] in Ha, Hb. apply bounded_elim in Ha. apply bounded_elim in Hb. destruct Ha as (A1 & A2 & A3), Hb as (B1 & B2 & B3).
    rewrite <- (aligned sa ma ea (Z.min ea eb)), <- (aligned sb mb eb (Z.min ea eb)), <- Rmult_minus_distr_r, <- minus_IZR in * by lia.
    apply normalize_spec; [lia|exact Hom].
Qed.

(** division *)
Lemma new_location_rep q r W : 0 < W -> 0 <= r < W -> 0 <= q -> rep (shr_record_of_loc q (new_location W r)) (q * W + r) W.
Proof.
  intros HW Hr Hq. exists r. unfold new_location, new_location_even, new_location_odd.
  destruct (Z.even W) eqn:Ev.
  - destruct (Zeq_bool r 0) eqn:Er; [apply Zeq_bool_eq in Er|apply Zeq_bool_neq in Er]; cbn [shr_record_of_loc shr_m shr_r shr_s]; [lia|].
    destruct (Z.compare_spec (2 * r) W); cbn [shr_record_of_loc shr_m shr_r shr_s]; lia.
  - assert (Od : exists k, W = 2 * k + 1).
    { exists (W / 2). pose proof (Z.div_mod W 2 ltac:(lia)) as D. rewrite Zmod_even, Ev in D. lia. }
    destruct Od as (k & Ek).
    destruct (Zeq_bool r 0) eqn:Er; [apply Zeq_bool_eq in Er|apply Zeq_bool_neq in Er]; cbn [shr_record_of_loc shr_m shr_r shr_s]; [lia|].
    destruct (Z.compare_spec (2 * r + 1) W); cbn [shr_record_of_loc shr_m shr_r shr_s]; lia.
Qed.

Lemma SFdiv_spec a b : fin a -> fin b -> SFval b <> 0%R -> (Rabs (SFval a / SFval b) <= om)%R ->
  fin (SFdiv prec emax a b) /\
  ((Rabs (SFval (SFdiv prec emax a b) - SFval a / SFval b) <= u * Rabs (SFval a / SFval b))%R \/
   (Rabs (SFval (SFdiv prec emax a b) - SFval a / SFval b) <= u * mu)%R).
Proof.
  intros Ha Hb Nz Hom. destruct b as [sb|sb| |sb mb eb]; try contradiction.
  destruct a as [sa|sa| |sa ma ea]; try contradiction; cbn [SFdiv].
  - split; [exact I|]. left. cbn [SFval]. unfold Rdiv. rewrite Rmult_0_l, Rminus_0_r, Rabs_R0. lra.
  - unfold SFdiv_core_binary. cbn [Zdigits2].
    set (d1 := Zpos (digits2_pos ma)). set (d2 := Zpos (digits2_pos mb)).
    set (e' := Z.min (fexp (d1 + ea - (d2 + eb))) (ea - eb)).
    set (s := ea - eb - e'). assert (Hs : 0 <= s) by lia.
    replace (match s with 0 => Zpos ma | Zpos _ => Z.shiftl (Zpos ma) s | Zneg _ => 0 end) with (Zpos ma * 2 ^ s)
      by (destruct s; [rewrite Z.pow_0_r; ring|rewrite Z.shiftl_mul_pow2 by lia; reflexivity|lia]).
    set (num := Zpos ma * 2 ^ s). assert (Hnum : 0 < num) by (apply Z.mul_pos_pos; [lia|apply Z.pow_pos_nonneg; lia]).
    pose proof (Z_div_mod num (Zpos mb) ltac:(lia)) as Hdm.
    destruct (Z.div_eucl num (Zpos mb)) as [q r]. destruct Hdm as [Enum Hr].
    assert (Hq : 0 <= q) by nia.
    assert (Hdq : q + 1 <= 2 ^ Zdigits2 q /\ 0 <= Zdigits2 q).
    { destruct q as [|p|p]; [cbn [Zdigits2]; rewrite Z.pow_0_r; lia| |lia]. cbn [Zdigits2]. pose proof (digits_spec p). lia. }
    assert (He : e' <= fexp (Zdigits2 q + e')).
    { assert (E' : e' <= Z.max (d1 + ea - (d2 + eb) - prec) em) by (unfold e'; rewrite fexp_max; lia).
      enough (d1 + s - d2 <= Zdigits2 q) by (rewrite fexp_max; unfold s in *; lia).
      pose proof (digits_spec ma) as [A _]. pose proof (digits_spec mb) as [_ B]. fold d1 in A. fold d2 in B.
      apply Z.nlt_ge. intros C.
      assert (H : 2 ^ (Zdigits2 q + d2) <= 2 ^ (d1 - 1 + s)) by (apply Z.pow_le_mono_r; lia).
      rewrite !Z.pow_add_r in H by lia.
      assert (2 ^ (d1 - 1) * 2 ^ s <= num) by (apply Z.mul_le_mono_nonneg_r; [apply Z.pow_nonneg; lia|exact A]).
      assert (num < (q + 1) * Zpos mb) by lia.
      assert ((q + 1) * Zpos mb <= 2 ^ Zdigits2 q * 2 ^ d2) by (apply Z.mul_le_mono_nonneg; lia). lia. }
    pose proof (new_location_rep q r (Zpos mb) ltac:(lia) ltac:(lia) Hq) as R0.
    replace (q * Zpos mb + r) with num in R0 by lia.
    assert (Rb : (0 < IZR (Zpos mb))%R) by (apply IZR_lt; lia). pose proof (bpow_pos eb) as Pb.
    assert (Ev : (SFval (S754_finite sa ma ea) / SFval (S754_finite sb mb eb) = sgn (xorb sa sb) * (IZR num / IZR (Zpos mb) * bpow e'))%R).
    { cbn [SFval]. fold (bpow ea) (bpow eb). unfold num. rewrite mult_IZR, <- bpow_IZR by exact Hs.
      replace ea with (s + e' + eb) by (unfold s; lia). rewrite !bpow_add.
      destruct sa, sb; cbn [xorb]; field; lra. }
    assert (Ea : (Rabs (SFval (S754_finite sa ma ea) / SFval (S754_finite sb mb eb)) = IZR num / IZR (Zpos mb) * bpow e')%R).
    { rewrite Ev, sgn_abs. apply Rabs_right. left. apply Rmult_lt_0_compat; [|apply bpow_pos]. apply Rdiv_lt_0_compat; [apply IZR_lt; lia|exact Rb]. }
    rewrite Ea in *. rewrite Ev.
    destruct (round_aux_gen (xorb sa sb) q e' (new_location (Zpos mb) r) num (Zpos mb) ltac:(lia) Hnum R0 He Hom) as (H1 & [H2|[_ H2]] & _); split; auto.
Qed.

(** an integer that fits is converted without error *)
Lemma SFofZ_exact k : 0 <= k -> k < 2 ^ prec -> fin (SFofZ prec emax k) /\ SFval (SFofZ prec emax k) = IZR k.
Proof.
  intros H0 Hk. unfold SFofZ. destruct k as [|m|m]; [split; [exact I|reflexivity]| |lia]. cbn [binary_normalize].
  assert (E : (IZR (Zpos m) * bpow 0 = IZR (Zpos m))%R) by (unfold bpow; cbn [powerRZ]; ring).
  pose proof (digits_le m prec ltac:(lia) Hk) as Hd.
  destruct (binary_round_gen false m 0) as (H1 & _ & H3).
  - rewrite E. unfold SFom. fold (bpow (emax - prec)). rewrite bpow_IZR, <- mult_IZR by lia. apply IZR_le.
    assert (0 < 2 ^ (emax - prec)) by (apply Z.pow_pos_nonneg; lia). nia.
  - split; [exact H1|]. rewrite H3, E; [ring|]. rewrite fexp_max. lia.
Qed.

Lemma SFofZ_spec k : (Rabs (IZR k) <= om)%R ->
  fin (SFofZ prec emax k) /\ (Rabs (SFval (SFofZ prec emax k) - IZR k) <= u * Rabs (IZR k))%R.
Proof.
  intros H. assert (E : (IZR k * bpow 0 = IZR k)%R) by (unfold bpow; cbn [powerRZ]; ring).
  pose proof (normalize_spec k 0 false ltac:(lia)) as K. rewrite E in K. apply K, H.
Qed.

(** conversion from another format *)
Lemma SFconv_spec p' x' x : SFfin p' x' x -> (Rabs (SFval x) <= om)%R ->
  fin (SFconv prec emax x) /\ (Rabs (SFval (SFconv prec emax x) - SFval x) <= u * (Rabs (SFval x) + mu))%R.
Proof.
  assert (Up : (0 < u)%R) by apply bpow_pos. assert (Mp : (0 < mu)%R) by apply bpow_pos.
  destruct x as [s|s| |s m e]; cbn [SFfin]; intros Hx Hom; try contradiction.
  - split; [exact I|]. cbn [SFconv SFval]. rewrite Rminus_0_r, Rabs_R0. nra.
  - rewrite val_abs in *. cbn [SFconv].
    assert (E : binary_normalize prec emax (cond_Zopp s (Zpos m)) e s = binary_round prec emax s m e) by (destruct s; reflexivity).
    rewrite E. destruct (binary_round_gen s m e Hom) as (H1 & H2 & _). split; [exact H1|].
    replace (SFval (S754_finite s m e)) with (sgn s * (IZR (Zpos m) * bpow e))%R by (cbn [SFval]; fold (bpow e); ring).
    eapply Rle_trans; [exact H2|]. apply Rmult_le_compat_l; [lra|]. destruct (em <=? e); lra.
Qed.

(** the constants *)
Lemma top_digits : Zpos (digits2_pos (Z.to_pos (2 ^ (prec - 1)))) = prec /\ Zpos (Z.to_pos (2 ^ (prec - 1))) = 2 ^ (prec - 1).
Proof.
  assert (W : 0 < 2 ^ (prec - 1)) by (apply Z.pow_pos_nonneg; lia).
  assert (E : 2 ^ prec = 2 * 2 ^ (prec - 1)) by (rewrite <- Z.pow_succ_r by lia; f_equal; lia).
  rewrite Z2Pos.id by exact W. split; [|reflexivity]. apply digits_unique; [lia|]. rewrite Z2Pos.id by exact W. lia.
Qed.
Lemma SFhalf_spec : fin (SFhalf prec) /\ SFval (SFhalf prec) = (/ 2)%R.
Proof.
  destruct top_digits as [E1 E2]. unfold SFhalf. cbn [SFfin SFval]. split.
  - apply bounded_intro; [rewrite fexp_max, E1|]; lia.
  - rewrite E2, <- bpow_IZR by lia. fold (bpow (- prec)). rewrite Rmult_1_l, <- bpow_add.
    replace (prec - 1 + - prec) with (0 - 1) by lia. rewrite bpow_half. unfold bpow. cbn [powerRZ]. lra.
Qed.
Lemma SFone_spec : fin (SFone prec) /\ SFval (SFone prec) = 1%R.
Proof.
  destruct top_digits as [E1 E2]. unfold SFone. cbn [SFfin SFval]. split.
  - apply bounded_intro; [rewrite fexp_max, E1|]; lia.
  - rewrite E2, <- bpow_IZR by lia. fold (bpow (1 - prec)). rewrite Rmult_1_l, <- bpow_add.
    replace (prec - 1 + (1 - prec)) with 0 by lia. reflexivity.
Qed.

(** the format satisfies [rounding] *)
Theorem SFrounding : rounding u mu om (SFops prec emax) SFval fin.
Proof.
  constructor.
  - left. apply u_pos.
  - left. apply mu_pos.
  - intros a b Ha Hb Hom. destruct (SFadd_spec a b Ha Hb Hom) as [H1 H2]. split; [exact H1|]. eapply Rle_trans; [exact H2|].
    apply Rmult_le_compat_l; [left; apply u_pos|]. pose proof mu_pos. lra.
  - intros a b Ha Hb Hom. destruct (SFsub_spec a b Ha Hb Hom) as [H1 H2]. split; [exact H1|]. eapply Rle_trans; [exact H2|].
    apply Rmult_le_compat_l; [left; apply u_pos|]. pose proof mu_pos. lra.
  - intros a b. apply SFmul_spec.
  - intros a Ha Hom. cbn [SFops shalf]. destruct SFhalf_spec as [H1 H2].
    pose proof (SFmul_spec a (SFhalf prec) Ha H1) as H. rewrite H2 in H. apply H. exact Hom.
  - intros a. apply SFopp_spec.
Qed.
End Rnd.
