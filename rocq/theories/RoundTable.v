(** RoundTable.v : the twiddle table and the normalisation factor as the code computes them (Binary.v) satisfy the hypotheses
    of the error bounds, given the accuracy of the C library's cos and sin. *)

From Coq Require Import Reals Lra Psatz Floats.SpecFloat Ratan Machin QArith Qreals.
From Verif Require Import Base Kiss KissFinal Round RoundFft RoundThms Binary RoundDouble.
Local Open Scope R_scope.

(** ** specification: the C library's cos and sin err by at most c * 2^-53 on the phases of a table *)
Definition libm_ok (c : R) (cosd sind : spec_float -> spec_float) : Prop :=
  forall x, SFfin 53 1024 x -> Rabs (SFval x) <= 7 ->
    (SFfin 53 1024 (cosd x) /\ Rabs (SFval (cosd x) - cos (SFval x)) <= c * SFu 53) /\
    (SFfin 53 1024 (sind x) /\ Rabs (SFval (sind x) - sin (SFval x)) <= c * SFu 53).

(** ** a bound on PI *)
Section PiBound.
Local Open Scope Q_scope.
Fixpoint qpow (x : Q) (n : nat) : Q := match n with O => 1 | S k => Qred (x * qpow x k) end.
Definition qterm (n : nat) : Q :=
  let d := inject_Z (Z.of_nat (2 * n + 1)) in
  Qred ((if Nat.even n then 1 else - 1) * (2 * (qpow (1 # 3) (2 * n + 1) / d) + qpow (1 # 7) (2 * n + 1) / d)).
Fixpoint qsum (n : nat) : Q := match n with O => qterm 0 | S k => Qred (qsum k + qterm (S k)) end.
End PiBound.

Lemma Q2R_red q : Q2R (Qred q) = Q2R q.
Proof. apply Qeq_eqR, Qred_correct. Qed.
Lemma Q2R_pow x n : Q2R (qpow x n) = Q2R x ^ n.
Proof. induction n as [|n IH]; cbn [qpow pow]; [unfold Q2R; cbn; lra|]. rewrite Q2R_red, Q2R_mult, IH. reflexivity. Qed.
Lemma Q2R_Z z : Q2R (inject_Z z) = IZR z.
Proof. unfold Q2R. cbn. lra. Qed.
Lemma pow_m1 n : (-1) ^ n = if Nat.even n then 1 else -1.
Proof.
  induction n as [|n IH]; [reflexivity|]. cbn [pow]. rewrite IH, Nat.even_succ, <- Nat.negb_even. destruct (Nat.even n); cbn [negb]; ring.
Qed.
Lemma Q2R_term n : Q2R (qterm n) = tg_alt PI_2_3_7_tg n.
Proof.
  unfold qterm, tg_alt, PI_2_3_7_tg, Ratan_seq. rewrite Q2R_red, Q2R_mult, Q2R_plus, Q2R_mult.
  assert (D : INR (2 * n + 1) = IZR (Z.of_nat (2 * n + 1))) by apply INR_IZR_INZ.
  assert (Dn : IZR (Z.of_nat (2 * n + 1)) <> 0) by (apply not_0_IZR; lia).
  assert (Di : ~ (inject_Z (Z.of_nat (2 * n + 1)) == 0)%Q).
  { intros C. apply Qeq_eqR in C. rewrite Q2R_Z in C. replace (Q2R 0) with 0 in C by (unfold Q2R; cbn; lra). contradiction. }
  rewrite !Q2R_div by exact Di. rewrite !Q2R_pow, Q2R_Z, D, pow_m1.
  replace (Q2R (1 # 3)) with (/ 3) by (unfold Q2R; cbn; lra). replace (Q2R (1 # 7)) with (/ 7) by (unfold Q2R; cbn; lra).
  replace (Q2R 2) with 2 by (unfold Q2R; cbn; lra).
  f_equal. destruct (Nat.even n); unfold Q2R; cbn; lra.
Qed.
Lemma Q2R_sum n : Q2R (qsum n) = sum_f_R0 (tg_alt PI_2_3_7_tg) n.
Proof.
  induction n as [|n IH]; cbn [qsum sum_f_R0]; [apply Q2R_term|]. rewrite Q2R_red, Q2R_plus, IH, Q2R_term. reflexivity.
Qed.

(** twice the double M_PI is 2 PI up to 2.3 units of 2^-53 *)
Definition pihat : R := 7074237752028440 / 1125899906842624.
Lemma pi_close : Rabs (pihat - 2 * PI) <= 9 / 4 / 9007199254740992.
Proof.
  destruct (PI_2_3_7_ineq 11) as [H1 H2]. rewrite <- Q2R_sum in H1, H2.
  assert (L : Qle (884279719003555 # 1125899906842624) (qsum (S (2 * 11)))) by (vm_compute; discriminate).
  assert (U : Qle (qsum (2 * 11)) ((884279719003555 # 1125899906842624) + (2245 # 72057594037927936000))) by (vm_compute; discriminate).
  apply Qle_Rle in L. apply Qle_Rle in U.
  set (A := Q2R (qsum (S (2 * 11)))) in *. set (B := Q2R (qsum (2 * 11))) in *. clearbody A B. rewrite Q2R_plus in U. unfold Q2R in L, U. cbn [Qnum Qden] in L, U.
  unfold pihat. apply Rabs_le. split; lra.
Qed.

(** ** the phase *)
Local Notation u := (SFu 53).
Local Notation mu := (SFmu 1024).
Lemma u_val : u = / 9007199254740992.
Proof.
  change (SFu 53) with (bpow (-53)). assert (E : bpow (-53) * bpow 53 = 1) by (rewrite <- bpow_add; reflexivity).
  rewrite (bpow_IZR 53) in E by lia. change (2 ^ 53)%Z with 9007199254740992%Z in E. lra.
Qed.
Lemma mu_small : 0 < mu <= u.
Proof. split; [apply bpow_pos|]. apply bpow_mono. lia. Qed.

Lemma om_big : bpow 100 <= SFom 53 1024.
Proof.
  unfold SFom. fold (bpow (1024 - 53)). apply Rle_trans with (1 * bpow (1024 - 53)).
  - rewrite Rmult_1_l. apply bpow_mono. lia.
  - apply Rmult_le_compat_r; [left; apply bpow_pos|]. apply IZR_le. lia.
Qed.
Lemma om_ge x : Rabs x <= 1000000000000000000000 -> Rabs x <= SFom 53 1024.
Proof.
  intros H. eapply Rle_trans; [exact H|]. eapply Rle_trans; [|exact om_big]. rewrite bpow_IZR by lia. apply IZR_le. vm_compute. discriminate.
Qed.

Lemma two_pi (inv : bool) : SFfin 53 1024 (SFmul 53 1024 (if inv then dtwo else SFopp dtwo) M_PI) /\
  SFval (SFmul 53 1024 (if inv then dtwo else SFopp dtwo) M_PI) = (if inv then 1 else -1) * pihat.
Proof.
  assert (E : SFmul 53 1024 (if inv then dtwo else SFopp dtwo) M_PI = S754_finite (negb inv) 7074237752028440 (-50)).
  { destruct inv; vm_compute; reflexivity. }
  rewrite E. split; [reflexivity|]. cbn [SFval]. fold (bpow (-50)).
  assert (E2 : bpow (-50) * bpow 50 = 1) by (rewrite <- bpow_add; reflexivity).
  rewrite (bpow_IZR 50) in E2 by lia. change (2 ^ 50)%Z with 1125899906842624%Z in E2.
  assert (E3 : bpow (-50) = / 1125899906842624) by lra. rewrite E3. unfold pihat. destruct inv; cbn [negb]; lra.
Qed.

Lemma phase_near inv i n : (0 <= i < n)%Z -> (n < 2 ^ 31)%Z ->
  SFfin 53 1024 (phaseD inv i n) /\ Rabs (SFval (phaseD inv i n) - angle inv n i 1) <= 149 / 10 * u /\ Rabs (SFval (phaseD inv i n)) <= 7.
Proof.
  intros Hi Hn. change (2 ^ 31)%Z with 2147483648%Z in Hn.
  assert (Pr : (2 <= 53)%Z) by lia. assert (Em : (53 < 1024)%Z) by lia.
  destruct (SFofZ_exact 53 1024 Pr Em i) as [I1 I2]; [lia|change (2 ^ 53)%Z with 9007199254740992%Z; lia|].
  destruct (SFofZ_exact 53 1024 Pr Em n) as [N1 N2]; [lia|change (2 ^ 53)%Z with 9007199254740992%Z; lia|].
  destruct (two_pi inv) as [P1 P2]. unfold phaseD. set (w := SFmul 53 1024 (if inv then dtwo else SFopp dtwo) M_PI) in *.
  assert (Ri : 0 <= IZR i) by (apply IZR_le; lia). assert (Rn : 1 <= IZR n) by (apply IZR_le; lia).
  assert (Rin : IZR i <= IZR n) by (apply IZR_le; lia). assert (Rn2 : IZR n <= 2147483648) by (apply IZR_le; lia).
  pose proof u_val as Uv. pose proof mu_small as [Mp Mu].
  assert (Ph : 6 <= pihat <= 62832 / 10000) by (unfold pihat; lra).
  set (sg := if inv then 1 else -1) in *. assert (Sg : sg = 1 \/ sg = -1) by (unfold sg; destruct inv; auto).
  (* the product *)
  destruct (SFmul_spec 53 1024 Pr Em w (SFofZ 53 1024 i) P1 I1) as [A1 A2].
  { rewrite P2, I2. apply om_ge. apply Rabs_le. destruct Sg as [-> | ->]; split; nra. }
  set (a := SFmul 53 1024 w (SFofZ 53 1024 i)) in *. rewrite P2, I2 in A2.
  assert (Ab : Rabs (sg * pihat * IZR i) = pihat * IZR i).
  { destruct Sg as [-> | ->]; [rewrite Rabs_right by nra|rewrite Rabs_left1 by nra]; ring. }
  rewrite Ab in A2.
  (* x = pihat i / n *)
  set (q := IZR i / IZR n). assert (Q : 0 <= q <= 1).
  { unfold q. split; [apply Rmult_le_pos; [lra|left; apply Rinv_0_lt_compat; lra]|]. apply Rmult_le_reg_r with (IZR n); [lra|]. replace (IZR i / IZR n * IZR n) with (IZR i) by (field; lra). lra. }
  assert (B1 : Rabs (SFval a / IZR n - sg * (pihat * q)) <= u * (pihat * q + mu)).
  { replace (SFval a / IZR n - sg * (pihat * q)) with ((SFval a - sg * pihat * IZR i) * / IZR n) by (unfold q; field; lra).
    rewrite Rabs_mult, (Rabs_right (/ IZR n)) by (left; apply Rinv_0_lt_compat; lra).
    apply Rmult_le_reg_r with (IZR n); [lra|]. rewrite Rmult_assoc, Rinv_l, Rmult_1_r by lra.
    eapply Rle_trans; [exact A2|]. rewrite Rmult_assoc. apply Rmult_le_compat_l; [lra|].
    replace ((pihat * q + mu) * IZR n) with (pihat * IZR i + mu * IZR n) by (unfold q; field; lra). nra. }
  assert (Xb : 0 <= pihat * q <= 62832 / 10000) by nra.
  assert (B2 : Rabs (SFval a / IZR n) <= 63 / 10).
  { replace (SFval a / IZR n) with ((SFval a / IZR n - sg * (pihat * q)) + sg * (pihat * q)) by ring.
    eapply Rle_trans; [apply Rabs_triang|].
    assert (Rabs (sg * (pihat * q)) <= 62832 / 10000) by (apply Rabs_le; destruct Sg as [-> | ->]; lra).
    assert (u * (pihat * q + mu) <= 1 / 1000) by (rewrite Uv in *; lra). lra. }
  destruct (SFdiv_spec 53 1024 Pr Em a (SFofZ 53 1024 n) A1 N1) as [D1 D2].
  { rewrite N2. lra. }
  { rewrite N2. apply om_ge. lra. }
  split; [exact D1|]. set (y := SFdiv 53 1024 a (SFofZ 53 1024 n)) in *. rewrite N2 in D2.
  assert (D3 : Rabs (SFval y - SFval a / IZR n) <= u * (pihat * q + 1 / 1000)).
  { assert (Rabs (SFval a / IZR n) <= pihat * q + 1 / 10000).
    { replace (SFval a / IZR n) with ((SFval a / IZR n - sg * (pihat * q)) + sg * (pihat * q)) by ring.
      eapply Rle_trans; [apply Rabs_triang|].
      assert (Rabs (sg * (pihat * q)) <= pihat * q) by (apply Rabs_le; destruct Sg as [-> | ->]; lra).
      assert (u * (pihat * q + mu) <= 1 / 10000) by (rewrite Uv in *; lra). lra. }
    destruct D2 as [D2|D2]; (eapply Rle_trans; [exact D2|]); rewrite Uv in *; lra. }
  assert (An : angle inv n i 1 = sg * (2 * PI * q)).
  { unfold angle, q, sg. rewrite Z.mul_1_r. destruct inv; field; lra. }
  assert (Pe : Rabs (sg * (pihat * q) - sg * (2 * PI * q)) <= 9 / 4 * u).
  { replace (sg * (pihat * q) - sg * (2 * PI * q)) with (sg * q * (pihat - 2 * PI)) by ring.
    rewrite Rabs_mult. pose proof pi_close as Pc. rewrite Uv. pose proof (Rabs_pos (pihat - 2 * PI)).
    assert (Rabs (sg * q) <= 1) by (apply Rabs_le; destruct Sg as [-> | ->]; lra). pose proof (Rabs_pos (sg * q)). nra. }
  assert (Tot : Rabs (SFval y - angle inv n i 1) <= 149 / 10 * u).
  { rewrite An. replace (SFval y - sg * (2 * PI * q)) with
      ((SFval y - SFval a / IZR n) + ((SFval a / IZR n - sg * (pihat * q)) + (sg * (pihat * q) - sg * (2 * PI * q)))) by ring.
    eapply Rle_trans; [apply Rabs_triang|].
    pose proof (Rabs_triang (SFval a / IZR n - sg * (pihat * q)) (sg * (pihat * q) - sg * (2 * PI * q))).
    assert (Mm : mu <= 1 / 1000) by (rewrite Uv in *; lra).
    assert (u * (pihat * q + 1 / 1000) <= u * (62842 / 10000)) by (apply Rmult_le_compat_l; lra).
    assert (u * (pihat * q + mu) <= u * (62842 / 10000)) by (apply Rmult_le_compat_l; lra). lra. }
  split; [exact Tot|].
  replace (SFval y) with ((SFval y - SFval a / IZR n) + SFval a / IZR n) by ring.
  eapply Rle_trans; [apply Rabs_triang|]. assert (u * (pihat * q + 1 / 1000) <= 1 / 10) by (rewrite Uv; lra). lra.
Qed.

(** ** chords are shorter than arcs *)
Lemma sin_abs_le x : Rabs (sin x) <= Rabs x.
Proof.
  assert (P : forall z, 0 < z -> Rabs (sin z) <= z).
  { intros z Hz. apply Rabs_le. pose proof (sin_lt_x z Hz). split; [|lra].
    destruct (Rle_or_lt z 1) as [H1|H1].
    - assert (0 < sin z); [|lra]. apply sin_gt_0; [lra|]. pose proof PI2_1. lra.
    - pose proof (SIN_bound z). lra. }
  destruct (Rtotal_order x 0) as [H|[-> |H]].
  - rewrite <- (Ropp_involutive x) at 1. rewrite sin_neg, Rabs_Ropp, (Rabs_left x) by lra. apply P. lra.
  - rewrite sin_0, Rabs_R0. lra.
  - rewrite (Rabs_right x) by lra. apply P, H.
Qed.
Lemma chord a b : cdist (cos a, sin a) (cos b, sin b) <= Rabs (a - b).
Proof.
  unfold cdist. cbn [fst snd]. apply cmod_le; [apply Rabs_pos|]. cbn [fst snd].
  set (h := (a - b) / 2). pose proof (sin_abs_le h) as Hs.
  assert (E : (cos a - cos b) * (cos a - cos b) + (sin a - sin b) * (sin a - sin b) = 4 * (sin h * sin h)).
  { replace (sin h * sin h) with ((1 - cos (a - b)) / 2).
    - rewrite cos_minus. pose proof (sin2_cos2 a) as S1. pose proof (sin2_cos2 b) as S2. unfold Rsqr in *. lra.
    - replace (a - b) with (2 * h) by (unfold h; field). rewrite cos_2a_sin. unfold Rsqr. lra. }
  rewrite E. assert (E2 : Rabs (a - b) = 2 * Rabs h).
  { unfold h. unfold Rdiv. rewrite Rabs_mult, (Rabs_right (/ 2)) by lra. lra. }
  rewrite E2. assert (sin h * sin h <= Rabs h * Rabs h); [|lra].
  rewrite <- (Rabs_right (sin h * sin h)) by (pose proof (Rle_0_sqr (sin h)) as K; unfold Rsqr in K; lra).
  rewrite Rabs_mult. pose proof (Rabs_pos (sin h)). nra.
Qed.

(** ** the table *)
Lemma libm_dist c cosd sind inv i n : 0 <= c -> libm_ok c cosd sind -> (0 <= i < n)%Z -> (n < 2 ^ 31)%Z ->
  let z := twiddleD cosd sind inv i n in
  cfin (SFfin 53 1024) z /\ cdist (cval SFval z) (cos (angle inv n i 1), sin (angle inv n i 1)) <= (149 / 10 + 17 / 12 * c) * u /\
  Rabs (SFval (fst z)) <= 1 + c * u /\ Rabs (SFval (snd z)) <= 1 + c * u.
Proof.
  intros Hc Hl Hi Hn z. destruct (phase_near inv i n Hi Hn) as (F1 & F2 & F3). unfold z, twiddleD. cbn [fst snd].
  set (p := phaseD inv i n) in *. destruct (Hl p F1 F3) as ((C1 & C2) & (S1 & S2)).
  split; [split; assumption|]. split; [|split].
  - eapply Rle_trans; [apply (cdist_tri _ (cos (SFval p), sin (SFval p)))|].
    pose proof (chord (SFval p) (angle inv n i 1)) as Ch.
    assert (cdist (cval SFval (cosd p, sind p)) (cos (SFval p), sin (SFval p)) <= 17 / 12 * (c * u)).
    { unfold cdist, cval. cbn [fst snd]. apply cmod_box; assumption. }
    lra.
  - replace (SFval (cosd p)) with ((SFval (cosd p) - cos (SFval p)) + cos (SFval p)) by ring.
    eapply Rle_trans; [apply Rabs_triang|]. assert (Rabs (cos (SFval p)) <= 1) by (apply Rabs_le; pose proof (COS_bound (SFval p)); lra). lra.
  - replace (SFval (sind p)) with ((SFval (sind p) - sin (SFval p)) + sin (SFval p)) by ring.
    eapply Rle_trans; [apply Rabs_triang|]. assert (Rabs (sin (SFval p)) <= 1) by (apply Rabs_le; pose proof (SIN_bound (SFval p)); lra). lra.
Qed.

Lemma bernoulli v t : 0 < v -> INR t * v <= (1 + v) ^ t - 1.
Proof. intros Hv. pose proof (poly t v Hv). lra. Qed.

Lemma tableD_ok c cosd sind t inv L : 0 <= c -> 15 + 2 * c <= INR t -> libm_ok c cosd sind -> (L < 2 ^ 31)%Z ->
  table_ok (SFu 53) SFval (SFfin 53 1024) t (twiddleD cosd sind) inv L.
Proof.
  intros Hc Ht Hl HL i Hi. destruct (libm_dist c cosd sind inv i L Hc Hl Hi HL) as (H1 & H2 & _). split; [exact H1|].
  assert (Hu : 0 < u) by (rewrite u_val; lra). eapply Rle_trans; [exact H2|]. eapply Rle_trans; [|apply bernoulli, Hu]. nra.
Qed.

Lemma uF_val : SFu 24 = / 16777216.
Proof.
  change (SFu 24) with (bpow (-24)). assert (E : bpow (-24) * bpow 24 = 1) by (rewrite <- bpow_add; reflexivity).
  rewrite (bpow_IZR 24) in E by lia. change (2 ^ 24)%Z with 16777216%Z in E. lra.
Qed.
Lemma muF_small : 0 < SFmu 128 <= bpow (-100).
Proof. split; [apply bpow_pos|]. apply bpow_mono. lia. Qed.
Lemma bpow_m100 : bpow (-100) * 1000000000000000000000000000000 <= 1.
Proof.
  assert (E : bpow (-100) * bpow 100 = 1) by (rewrite <- bpow_add; reflexivity). rewrite <- E.
  apply Rmult_le_compat_l; [left; apply bpow_pos|]. rewrite bpow_IZR by lia. apply IZR_le. vm_compute. discriminate.
Qed.
Lemma omF_big : 2 <= SFom 24 128.
Proof.
  unfold SFom. fold (bpow (128 - 24)). apply Rle_trans with (1 * bpow (128 - 24)).
  - rewrite Rmult_1_l. rewrite bpow_IZR by lia. apply IZR_le. vm_compute. discriminate.
  - apply Rmult_le_compat_r; [left; apply bpow_pos|]. apply IZR_le. lia.
Qed.

Lemma tableF_ok c cosd sind t inv L : 0 <= c <= 1000000 -> (2 <= t)%nat -> libm_ok c cosd sind -> (L < 2 ^ 31)%Z ->
  table_ok (SFu 24) SFval (SFfin 24 128) t (twiddleF cosd sind) inv L.
Proof.
  intros Hc Ht Hl HL i Hi. destruct (libm_dist c cosd sind inv i L (proj1 Hc) Hl Hi HL) as ((F1 & F2) & H2 & H3 & H4).
  unfold twiddleD in *. unfold twiddleF. cbn [fst snd] in *. set (C := cosd (phaseD inv i L)) in *. set (S := sind (phaseD inv i L)) in *.
  pose proof u_val as Uv. pose proof uF_val as Uf. pose proof muF_small as [M1 M2]. pose proof bpow_m100 as M3. pose proof omF_big as OB.
  assert (Cu : 0 <= c * u <= 1 / 1000) by (rewrite Uv; lra).
  assert (Cu2 : c * u <= 1 / 500 * SFu 24) by (rewrite Uv, Uf; lra).
  assert (P24 : (2 <= 24)%Z) by lia. assert (E24 : (24 < 128)%Z) by lia.
  destruct (SFconv_spec 24 128 P24 E24 53 1024 C F1) as [A1 A2]; [lra|].
  destruct (SFconv_spec 24 128 P24 E24 53 1024 S F2) as [B1 B2]; [lra|].
  split; [split; assumption|].
  assert (K : forall x, Rabs x <= 1 + c * u -> SFu 24 * (Rabs x + SFmu 128) <= 1002 / 1000 * SFu 24).
  { intros x Hx. rewrite (Rmult_comm (1002 / 1000)). apply Rmult_le_compat_l; [rewrite Uf; lra|]. lra. }
  assert (D : cdist (cval SFval (SFconv 24 128 C, SFconv 24 128 S)) (cval SFval (C, S)) <= 17 / 12 * (1002 / 1000 * SFu 24)).
  { unfold cdist, cval. cbn [fst snd]. apply cmod_box; eapply Rle_trans; eauto. }
  eapply Rle_trans; [apply (cdist_tri _ (cval SFval (C, S)))|].
  assert (T : 2 * SFu 24 <= (1 + SFu 24) ^ t - 1).
  { eapply Rle_trans; [|apply bernoulli; rewrite Uf; lra]. apply Rmult_le_compat_r; [rewrite Uf; lra|]. apply (le_INR 2 t Ht). }
  rewrite Uv, Uf in *. lra.
Qed.

(** ** the normalisation factor *)
Lemma normD_near k : (1 <= k < 2 ^ 63)%Z ->
  SFfin 53 1024 (normD k) /\ Rabs (SFval (normD k) - / IZR k) <= 3 * u * / IZR k.
Proof.
  intros Hk. assert (Pr : (2 <= 53)%Z) by lia. assert (Em : (53 < 1024)%Z) by lia.
  assert (K1 : 1 <= IZR k) by (apply IZR_le; lia).
  assert (K2 : IZR k <= 9223372036854775808) by (apply IZR_le; change (2 ^ 63)%Z with 9223372036854775808%Z in Hk; lia).
  pose proof u_val as Uv. assert (Hu : 0 < u) by (rewrite Uv; lra).
  destruct (SFofZ_spec 53 1024 Pr Em k) as [A1 A2].
  { apply om_ge. rewrite Rabs_right by lra. lra. }
  rewrite (Rabs_right (IZR k)) in A2 by lra. unfold normD. set (b := SFofZ 53 1024 k) in *. set (v := SFval b) in *.
  assert (B : IZR k * (1 - u) <= v <= IZR k * (1 + u)).
  { assert (- (u * IZR k) <= v - IZR k <= u * IZR k) by (split; [pose proof (Rle_abs (- (v - IZR k))) as Q; rewrite Rabs_Ropp in Q; lra|pose proof (Rle_abs (v - IZR k)); lra]). lra. }
  assert (V0 : 1 / 2 <= v <= 20000000000000000000) by (rewrite Uv in B; lra).
  destruct (SFone_spec 53 1024 Pr Em) as [O1 O2].
  destruct (SFdiv_spec 53 1024 Pr Em (SFone 53) b O1 A1) as [D1 D2].
  { fold v. lra. }
  { rewrite O2. fold v. apply om_ge. unfold Rdiv. rewrite Rmult_1_l, Rabs_right by (left; apply Rinv_0_lt_compat; lra).
    apply Rmult_le_reg_r with v; [lra|]. rewrite Rinv_l by lra. lra. }
  split; [exact D1|]. fold v in D2. rewrite O2 in D2. set (y := SFval (SFdiv 53 1024 (SFone 53) b)) in *.
  assert (Vi : 0 < / v) by (apply Rinv_0_lt_compat; lra). assert (Vv : / v * v = 1) by (apply Rinv_l; lra).
  assert (D3 : Rabs (y - / v) <= u * / v).
  { unfold Rdiv in D2. rewrite Rmult_1_l, (Rabs_right (/ v)) in D2 by lra. destruct D2 as [D2|D2]; [exact D2|].
    eapply Rle_trans; [exact D2|]. apply Rmult_le_compat_l; [lra|].
    assert (mu <= bpow (-100)) by (apply bpow_mono; lia). pose proof bpow_m100.
    apply Rmult_le_reg_r with v; [lra|]. rewrite Vv. assert (0 < mu) by apply bpow_pos. nra. }
  assert (Ki : 0 < / IZR k) by (apply Rinv_0_lt_compat; lra). assert (Kk : / IZR k * IZR k = 1) by (apply Rinv_l; lra).
  replace (y - / IZR k) with ((y - / v) + (/ v - / IZR k)) by ring. eapply Rle_trans; [apply Rabs_triang|].
  assert (E : Rabs (/ v - / IZR k) <= u * / v).
  { replace (/ v - / IZR k) with ((IZR k - v) * (/ v * / IZR k)) by (field; lra).
    rewrite Rabs_mult, (Rabs_right (/ v * / IZR k)) by nra. rewrite Rabs_minus_sym.
    apply Rle_trans with (u * IZR k * (/ v * / IZR k)); [apply Rmult_le_compat_r; [nra|exact A2]|]. right. field. lra. }
  assert (G : / v <= 3 / 2 * / IZR k).
  { apply Rmult_le_reg_r with v; [lra|]. rewrite Vv. apply Rmult_le_reg_r with (IZR k); [lra|].
    replace (3 / 2 * / IZR k * v * IZR k) with (3 / 2 * v * (/ IZR k * IZR k)) by ring. rewrite Kk. rewrite Uv in B. lra. }
  nra.
Qed.

Lemma normD_ok k : (1 <= k < 2 ^ 63)%Z -> norm_ok (SFu 53) SFval (SFfin 53 1024) 3 normD k.
Proof.
  intros Hk. destruct (normD_near k Hk) as [H1 H2]. split; [exact H1|]. eapply Rle_trans; [exact H2|].
  assert (0 < / IZR k) by (apply Rinv_0_lt_compat, IZR_lt; lia). apply Rmult_le_compat_r; [lra|].
  eapply Rle_trans; [|apply bernoulli; rewrite u_val; lra]. right. cbn [INR]. ring.
Qed.

Lemma normF_ok k : (1 <= k < 2 ^ 63)%Z -> norm_ok (SFu 24) SFval (SFfin 24 128) 2 normF k.
Proof.
  intros Hk. destruct (normD_near k Hk) as [H1 H2].
  assert (K1 : 1 <= IZR k) by (apply IZR_le; lia).
  assert (K2 : IZR k <= 9223372036854775808) by (apply IZR_le; change (2 ^ 63)%Z with 9223372036854775808%Z in Hk; lia).
  assert (Ki : 0 < / IZR k) by (apply Rinv_0_lt_compat; lra). assert (Kk : / IZR k * IZR k = 1) by (apply Rinv_l; lra).
  assert (Ki1 : / IZR k <= 1) by nra.
  pose proof u_val as Uv. pose proof uF_val as Uf. pose proof muF_small as [M1 M2]. pose proof bpow_m100 as M3. pose proof omF_big as OB.
  set (y := SFval (normD k)) in *.
  assert (Y : Rabs y <= 1001 / 1000 * / IZR k).
  { replace y with ((y - / IZR k) + / IZR k) by ring. eapply Rle_trans; [apply Rabs_triang|]. rewrite (Rabs_right (/ IZR k)) by lra.
    rewrite Uv in H2. nra. }
  assert (P24 : (2 <= 24)%Z) by lia. assert (E24 : (24 < 128)%Z) by lia.
  destruct (SFconv_spec 24 128 P24 E24 53 1024 (normD k) H1) as [A1 A2]; [fold y; lra|].
  fold (normF k) in A1, A2. split; [exact A1|]. fold y in A2. set (z := SFval (normF k)) in *.
  replace (z - / IZR k) with ((z - y) + (y - / IZR k)) by ring. eapply Rle_trans; [apply Rabs_triang|].
  assert (M4 : SFmu 128 <= 1 / 1000 * / IZR k).
  { apply Rmult_le_reg_r with (IZR k); [lra|]. rewrite Rmult_assoc, Kk. nra. }
  assert (T : 2 * SFu 24 <= (1 + SFu 24) ^ 2 - 1) by (rewrite Uf; lra).
  apply Rle_trans with (2 * SFu 24 * / IZR k); [|apply Rmult_le_compat_r; lra].
  assert (SFu 24 * (Rabs y + SFmu 128) <= SFu 24 * (1002 / 1000 * / IZR k)) by (apply Rmult_le_compat_l; [rewrite Uf|]; lra).
  rewrite Uv, Uf in *. lra.
Qed.
