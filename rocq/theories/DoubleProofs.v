(** DoubleProofs.v : rounding is monotone, exact on powers of two and small integers, and has relative error at most
    2^-53; hence the laws of Layout.area_laws hold for the double arithmetic of the source. *)

From Coq Require Import QArith Qround Qpower Qabs Zpow_facts Lia Lqa.
From Verif Require Import Base Layout LayoutProofs Double.
Local Open Scope Z_scope.

(** ** rounding to an integer *)
Lemma floor_bounds q : (inject_Z (Qfloor q) <= q)%Q /\ (q < inject_Z (Qfloor q) + 1)%Q.
Proof.
  split; [apply Qfloor_le|]. pose proof (Qlt_floor q) as H. rewrite inject_Z_plus in H. exact H.
Qed.
Lemma inj_succ z : (inject_Z (z + 1) == inject_Z z + 1)%Q.
Proof. rewrite inject_Z_plus. reflexivity. Qed.

Lemma qround_near q : (inject_Z (qround q) <= q + (1 # 2))%Q /\ (q - (1 # 2) <= inject_Z (qround q))%Q.
Proof.
  destruct (floor_bounds q) as [A B]. unfold qround. cbv zeta.
  destruct (Qcompare (2 * (q - inject_Z (Qfloor q))) 1) eqn:E.
  - apply Qeq_alt in E. destruct (Z.even _); rewrite ?inj_succ; lra.
  - apply Qlt_alt in E. lra.
  - apply Qgt_alt in E. rewrite inj_succ. lra.
Qed.

Lemma qround_range q : Qfloor q <= qround q <= Qfloor q + 1.
Proof. unfold qround. cbv zeta. destruct (Qcompare _ _); [destruct (Z.even _)| |]; lia. Qed.

Lemma qround_comp a b : (a == b)%Q -> qround a = qround b.
Proof.
  intros E. unfold qround. cbv zeta. rewrite (Qfloor_comp _ _ E).
  replace (Qcompare (2 * (b - inject_Z (Qfloor b))) 1) with (Qcompare (2 * (a - inject_Z (Qfloor b))) 1); [reflexivity|].
  apply Qcompare_comp; [now rewrite E|reflexivity].
Qed.

Lemma qround_mono a b : (a <= b)%Q -> qround a <= qround b.
Proof.
  intros H. pose proof (Qfloor_resp_le _ _ H) as F.
  destruct (Z.eq_dec (Qfloor a) (Qfloor b)) as [E|NE].
  - unfold qround. cbv zeta. rewrite E.
    destruct (Qcompare (2 * (a - inject_Z (Qfloor b))) 1) eqn:Ea,
             (Qcompare (2 * (b - inject_Z (Qfloor b))) 1) eqn:Eb; try lia;
      try (destruct (Z.even _); lia); exfalso;
      rewrite <- ?Qeq_alt, <- ?Qlt_alt, <- ?Qgt_alt in Ea; rewrite <- ?Qeq_alt, <- ?Qlt_alt, <- ?Qgt_alt in Eb; lra.
  - pose proof (qround_range a). pose proof (qround_range b). lia.
Qed.

Lemma qround_int z : qround (inject_Z z) = z.
Proof.
  unfold qround. cbv zeta. rewrite Qfloor_Z.
  destruct (Qcompare _ _) eqn:E; auto; exfalso; rewrite <- ?Qeq_alt, <- ?Qgt_alt in E; lra.
Qed.

(** ** powers of two *)
Lemma p2_pos z : (0 < 2 ^ z)%Q.
Proof. apply Qpower_0_lt. lra. Qed.
Lemma p2_plus a b : (2 ^ (a + b) == 2 ^ a * 2 ^ b)%Q.
Proof. apply Qpower_plus. discriminate. Qed.
Lemma p2_opp z : (2 ^ z * 2 ^ (- z) == 1)%Q.
Proof. rewrite <- p2_plus, Z.add_opp_diag_r. reflexivity. Qed.
Lemma p2_le a b : a <= b -> (2 ^ a <= 2 ^ b)%Q.
Proof. intros. apply Qpower_le_compat_l; auto. lra. Qed.
Lemma p2_inject z : 0 <= z -> (2 ^ z == inject_Z (2 ^ z))%Q.
Proof.
  intros H. pattern z. apply natlike_ind; auto.
  - reflexivity.
  - intros x Hx IH. unfold Z.succ. rewrite p2_plus, IH, Z.pow_add_r, inject_Z_mult by lia. reflexivity.
Qed.

(** ** the exponent *)
Lemma log2_le z : 0 < z -> (2 ^ Z.log2 z <= inject_Z z)%Q /\ (inject_Z z < 2 ^ (Z.log2 z + 1))%Q.
Proof.
  intros H. pose proof (Z.log2_spec z H) as [A B]. pose proof (Z.log2_nonneg z).
  rewrite !p2_inject by lia. rewrite <- Zle_Qle, <- Zlt_Qlt. lia.
Qed.

Lemma q_as_div q : (q * inject_Z (Zpos (Qden q)) == inject_Z (Qnum q))%Q.
Proof. destruct q as [a b]. unfold Qeq, inject_Z. cbn. lia. Qed.

Lemma pmul_lt a b c : (0 < c)%Q -> (a * c < b * c)%Q <-> (a < b)%Q.
Proof. intros. apply Qmult_lt_r. auto. Qed.

Lemma qlog2_spec q : (0 < q)%Q -> (2 ^ qlog2 q <= q)%Q /\ (q < 2 ^ (qlog2 q + 1))%Q.
Proof.
  intros Hq. assert (Ha : 0 < Qnum q) by (unfold Qlt in Hq; cbn in Hq; lia).
  set (a := Qnum q) in *. set (b := Zpos (Qden q)).
  pose proof (q_as_div q) as E. fold a b in E.
  destruct (log2_le a Ha) as [A1 A2]. destruct (log2_le b ltac:(lia)) as [B1 B2].
  unfold qlog2. fold a b. cbv zeta.
  set (d := Z.log2 a - Z.log2 b).
  assert (U : (q < 2 ^ (d + 1))%Q).
  { apply (pmul_lt q (2 ^ (d + 1)) (inject_Z b)); [change 0%Q with (inject_Z 0); rewrite <- Zlt_Qlt; lia|].
    rewrite E. eapply Qlt_le_trans; [exact A2|].
    replace (Z.log2 a + 1) with ((d + 1) + Z.log2 b) by lia. rewrite p2_plus.
    rewrite Qmult_comm, (Qmult_comm _ (inject_Z b)). apply Qmult_le_compat_r; auto. apply Qlt_le_weak, p2_pos. }
  assert (L : (2 ^ (d - 1) <= q)%Q).
  { apply Qlt_le_weak. apply (pmul_lt _ _ (inject_Z b)); [change 0%Q with (inject_Z 0); rewrite <- Zlt_Qlt; lia|].
    rewrite E. eapply Qlt_le_trans; [|exact A1].
    replace (Z.log2 a) with ((d - 1) + (Z.log2 b + 1)) by lia. rewrite p2_plus.
    rewrite Qmult_comm, (Qmult_comm (2 ^ (d - 1)) (2 ^ (Z.log2 b + 1))). apply pmul_lt; auto. apply p2_pos. }
  destruct (Qle_bool (2 ^ d) q) eqn:T.
  - apply Qle_bool_iff in T. split; auto.
  - split; auto. replace (d - 1 + 1) with d by lia. apply Qnot_le_lt. intros N. apply Qle_bool_iff in N. congruence.
Qed.

Lemma p2_lt_inv a b : (2 ^ a < 2 ^ b)%Q -> a < b.
Proof. intros. apply (Qpower_lt_compat_l_inv 2); auto. lra. Qed.

Lemma qlog2_mono a b : (0 < a)%Q -> (a <= b)%Q -> qlog2 a <= qlog2 b.
Proof.
  intros Ha Hab. destruct (qlog2_spec a Ha) as [A1 A2]. destruct (qlog2_spec b ltac:(lra)) as [B1 B2].
  enough (qlog2 a < qlog2 b + 1) by lia. apply p2_lt_inv. lra.
Qed.
Lemma qlog2_eq q e : (2 ^ e <= q)%Q -> (q < 2 ^ (e + 1))%Q -> qlog2 q = e.
Proof.
  intros A B. pose proof (p2_pos e). destruct (qlog2_spec q ltac:(lra)) as [C D].
  assert (e < qlog2 q + 1) by (apply p2_lt_inv; lra). assert (qlog2 q < e + 1) by (apply p2_lt_inv; lra). lia.
Qed.
Lemma qlog2_comp a b : (0 < a)%Q -> (a == b)%Q -> qlog2 a = qlog2 b.
Proof. intros H E. apply Z.le_antisymm; apply qlog2_mono; lra. Qed.

(** ** rounding to 53 bits *)
Lemma flp_comp a b : (0 < a)%Q -> (a == b)%Q -> (flp a == flp b)%Q.
Proof.
  intros H E. unfold flp. cbv zeta. rewrite (qlog2_comp _ _ H E).
  rewrite (qround_comp (a * 2 ^ (52 - qlog2 b)) (b * 2 ^ (52 - qlog2 b))) by now rewrite E. reflexivity.
Qed.

(** the scaled number lies in [2^52, 2^53) *)
Lemma scaled q : (0 < q)%Q -> let s := 52 - qlog2 q in (2 ^ 52 <= q * 2 ^ s)%Q /\ (q * 2 ^ s < 2 ^ 53)%Q.
Proof.
  intros H s. destruct (qlog2_spec q H) as [A B]. split.
  - replace 52%Z with (qlog2 q + s) by lia. rewrite p2_plus. apply Qmult_le_compat_r; auto. apply Qlt_le_weak, p2_pos.
  - replace 53%Z with ((qlog2 q + 1) + s) by lia. rewrite p2_plus. apply pmul_lt; auto. apply p2_pos.
Qed.

(** an exact multiple of the last bit is not changed *)
Lemma flp_exact q : (0 < q)%Q -> (exists z, q * 2 ^ (52 - qlog2 q) == inject_Z z)%Q -> (flp q == q)%Q.
Proof.
  intros H [z E]. unfold flp. cbv zeta. rewrite (qround_comp _ _ E), qround_int, <- E.
  rewrite <- Qmult_assoc, p2_opp. ring.
Qed.
Lemma flp_p2 e : (flp (2 ^ e) == 2 ^ e)%Q.
Proof.
  apply flp_exact; [apply p2_pos|]. exists (2 ^ 52).
  assert (E : qlog2 (2 ^ e) = e).
  { apply qlog2_eq; [apply Qle_refl|]. rewrite p2_plus. pose proof (p2_pos e). change (2 ^ 1)%Q with 2%Q. lra. }
  rewrite E, <- p2_plus. replace (e + (52 - e)) with 52 by lia. rewrite p2_inject by lia. reflexivity.
Qed.
Lemma flp_int z : 0 < z <= 2 ^ 53 -> (flp (inject_Z z) == inject_Z z)%Q.
Proof.
  intros H. assert (P : (0 < inject_Z z)%Q) by (change 0%Q with (inject_Z 0); rewrite <- Zlt_Qlt; lia).
  destruct (Z.eq_dec z (2 ^ 53)) as [->|NE].
  - rewrite (flp_comp (inject_Z (2 ^ 53)) (2 ^ 53)); [|exact P|now rewrite p2_inject by lia].
    rewrite flp_p2. now rewrite p2_inject by lia.
  - apply flp_exact; auto. destruct (qlog2_spec _ P) as [A _].
    assert (L : qlog2 (inject_Z z) < 53).
    { apply p2_lt_inv. eapply Qle_lt_trans; [exact A|]. rewrite p2_inject by lia. rewrite <- Zlt_Qlt. lia. }
    exists (z * 2 ^ (52 - qlog2 (inject_Z z))). rewrite inject_Z_mult, <- p2_inject by lia. reflexivity.
Qed.

Lemma flp_mono a b : (0 < a)%Q -> (a <= b)%Q -> (flp a <= flp b)%Q.
Proof.
  intros Ha Hab. assert (Hb : (0 < b)%Q) by lra. pose proof (qlog2_mono _ _ Ha Hab) as M.
  destruct (Z.eq_dec (qlog2 a) (qlog2 b)) as [E|NE].
  - unfold flp. cbv zeta. rewrite E. apply Qmult_le_compat_r; [|apply Qlt_le_weak, p2_pos].
    rewrite <- Zle_Qle. apply qround_mono. apply Qmult_le_compat_r; auto. apply Qlt_le_weak, p2_pos.
  - destruct (scaled a Ha) as [_ A]. destruct (scaled b Hb) as [B _]. cbv zeta in A, B.
    apply Qle_trans with (2 ^ (qlog2 a + 1))%Q.
    + unfold flp. cbv zeta. set (s := 52 - qlog2 a) in *.
      replace (qlog2 a + 1) with (53 + - s) by lia. rewrite p2_plus.
      apply Qmult_le_compat_r; [|apply Qlt_le_weak, p2_pos].
      rewrite (p2_inject 53) by lia. rewrite <- Zle_Qle. rewrite <- (qround_int (2 ^ 53)). apply qround_mono.
      rewrite <- (p2_inject 53) by lia. apply Qlt_le_weak, A.
    + apply Qle_trans with (2 ^ qlog2 b)%Q; [apply p2_le; lia|].
      unfold flp. cbv zeta. set (s := 52 - qlog2 b) in *.
      replace (qlog2 b) with (52 + - s) by lia. rewrite p2_plus.
      apply Qmult_le_compat_r; [|apply Qlt_le_weak, p2_pos].
      rewrite (p2_inject 52) by lia. rewrite <- Zle_Qle. rewrite <- (qround_int (2 ^ 52)). apply qround_mono.
      rewrite <- (p2_inject 52) by lia. exact B.
Qed.

Lemma flp_double a : (0 < a)%Q -> (flp (2 * a) == 2 * flp a)%Q.
Proof.
  intros Ha. assert (E : qlog2 (2 * a) = qlog2 a + 1).
  { destruct (qlog2_spec a Ha) as [A B]. apply qlog2_eq; rewrite !p2_plus; change (2 ^ 1)%Q with 2%Q;
      rewrite ?p2_plus in B; change (2 ^ 1)%Q with 2%Q in B; lra. }
  unfold flp. cbv zeta. rewrite E. set (s := 52 - qlog2 a).
  replace (52 - (qlog2 a + 1)) with (s + -1) by lia.
  rewrite (qround_comp (2 * a * 2 ^ (s + -1)) (a * 2 ^ s)).
  - replace (- (s + -1)) with (- s + 1) by lia. rewrite p2_plus. change (2 ^ 1)%Q with 2%Q. ring.
  - rewrite p2_plus. change (2 ^ (-1))%Q with (1 # 2)%Q. ring.
Qed.

(** relative error *)
Definition u : Q := (1 # 2 ^ 53)%Q.
Lemma flp_error q : (0 < q)%Q -> ((1 - u) * q <= flp q)%Q /\ (flp q <= (1 + u) * q)%Q.
Proof.
  intros H. destruct (scaled q H) as [A _]. cbv zeta in A. unfold flp. cbv zeta.
  set (s := 52 - qlog2 q) in *. set (t := (q * 2 ^ s)%Q) in *.
  destruct (qround_near t) as [U L]. set (r := inject_Z (qround t)) in *.
  assert (E : (q == t * 2 ^ (- s))%Q) by (unfold t; rewrite <- Qmult_assoc, p2_opp; ring).
  pose proof (p2_pos (- s)) as P. set (p := (2 ^ (- s))%Q) in *.
  change (2 ^ 52)%Q with (inject_Z 4503599627370496) in A.
  assert (HU : ((1 # 2) <= u * t)%Q).
  { unfold u. assert ((1 # 2 ^ 53) * inject_Z 4503599627370496 <= (1 # 2 ^ 53) * t)%Q.
    { rewrite (Qmult_comm _ (inject_Z _)), (Qmult_comm _ t). apply Qmult_le_compat_r; auto. discriminate. }
    assert (((1 # 2 ^ 53) * inject_Z 4503599627370496 == 1 # 2)%Q) by reflexivity. lra. }
  split.
  - setoid_replace ((1 - u) * q)%Q with ((t - u * t) * p)%Q by (rewrite E; ring).
    apply Qmult_le_compat_r; [lra|apply Qlt_le_weak, P].
  - setoid_replace ((1 + u) * q)%Q with ((t + u * t) * p)%Q by (rewrite E; ring).
    apply Qmult_le_compat_r; [lra|apply Qlt_le_weak, P].
Qed.

(** ** the same for [fl] on positive numbers *)
Lemma fl_pos q : (0 < q)%Q -> (fl q == flp q)%Q.
Proof.
  intros H. unfold fl. destruct (Qnum q) eqn:E; unfold Qlt in H; rewrite ?E in H; cbn in H; try lia. apply Qred_correct.
Qed.
Lemma fl_mono a b : (0 < a)%Q -> (a <= b)%Q -> (fl a <= fl b)%Q.
Proof. intros Ha H. rewrite (fl_pos a), (fl_pos b) by lra. now apply flp_mono. Qed.
Lemma fl_comp a b : (0 < a)%Q -> (a == b)%Q -> (fl a == fl b)%Q.
Proof. intros Ha H. rewrite (fl_pos a), (fl_pos b) by lra. now apply flp_comp. Qed.
Lemma fl_double a : (0 < a)%Q -> (fl (2 * a) == 2 * fl a)%Q.
Proof. intros Ha. rewrite !fl_pos by lra. now apply flp_double. Qed.
Lemma fl_int z : 0 < z <= 2 ^ 53 -> (fl (inject_Z z) == inject_Z z)%Q.
Proof. intros. rewrite fl_pos by (change 0%Q with (inject_Z 0); rewrite <- Zlt_Qlt; lia). now apply flp_int. Qed.
Lemma fl_p2 e : (fl (2 ^ e) == 2 ^ e)%Q.
Proof. rewrite fl_pos by apply p2_pos. apply flp_p2. Qed.
Lemma fl_error q : (0 < q)%Q -> ((1 - u) * q <= fl q)%Q /\ (fl q <= (1 + u) * q)%Q.
Proof. intros H. rewrite fl_pos by auto. now apply flp_error. Qed.
Lemma fl_gt0 q : (0 < q)%Q -> (0 < fl q)%Q.
Proof.
  intros H. destruct (fl_error q H) as [A _]. assert (0 < (1 - u) * q)%Q; [|lra].
  apply Qmult_lt_0_compat; auto. reflexivity.
Qed.

(** ** the laws *)
Lemma inj_pos z : 0 < z -> (0 < inject_Z z)%Q.
Proof. intros. change 0%Q with (inject_Z 0). rewrite <- Zlt_Qlt. lia. Qed.
Lemma mul_pos a b : (0 < a)%Q -> (0 < b)%Q -> (0 < a * b)%Q.
Proof. apply Qmult_lt_0_compat. Qed.
Lemma mul_le a b c d : (0 < a)%Q -> (a <= c)%Q -> (0 < b)%Q -> (b <= d)%Q -> (a * b <= c * d)%Q.
Proof. intros. apply Qmult_le_compat_nonneg; split; lra. Qed.

(** 1.0*n/i *)
Definition width (n i : Z) : Q := fl (fl (1 * inject_Z n) / inject_Z i).
Lemma one_mul n : in_int n -> (fl (1 * inject_Z n) == inject_Z n)%Q.
Proof.
  intros [H1 H2]. rewrite (fl_comp (1 * inject_Z n) (inject_Z n)).
  - apply fl_int. unfold INT_MAX in H2. lia.
  - apply mul_pos; [reflexivity|]. apply inj_pos. lia.
  - ring.
Qed.
Lemma quot_pos n i : in_int n -> 1 <= i -> (0 < fl (1 * inject_Z n) / inject_Z i)%Q.
Proof.
  intros H Hi. rewrite one_mul by auto. apply mul_pos; [apply inj_pos; unfold in_int in H; lia|].
  apply Qinv_lt_0_compat. apply inj_pos. lia.
Qed.
Lemma quot_eq n i : in_int n -> (fl (1 * inject_Z n) / inject_Z i == qdiv n i)%Q.
Proof. intros H. rewrite one_mul by auto. reflexivity. Qed.
Lemma qdiv_le n i : 0 <= n -> 1 <= i -> (qdiv n i <= inject_Z n)%Q.
Proof.
  intros Hn Hi. unfold qdiv. apply Qle_shift_div_r; [apply inj_pos; lia|].
  rewrite <- inject_Z_mult, <- Zle_Qle. nia.
Qed.
Lemma width_le n i : in_int n -> 1 <= i -> (0 < width n i)%Q /\ (width n i <= inject_Z n)%Q.
Proof.
  intros H Hi. pose proof (quot_pos n i H Hi) as P. split; [apply fl_gt0; exact P|]. unfold width.
  apply Qle_trans with (fl (inject_Z n)).
  - apply fl_mono; auto. rewrite quot_eq by auto. unfold in_int in H. apply qdiv_le; lia.
  - unfold in_int, INT_MAX in H. rewrite fl_int by lia. apply Qle_refl.
Qed.

(** the rounded surface of a box with the given sides *)
Definition surf (a b c : Q) : Q := fl (fl (fl (a * b) + fl (b * c)) + fl (a * c)).
Lemma flmul_pos a b : (0 < a)%Q -> (0 < b)%Q -> (0 < fl (a * b))%Q.
Proof. intros. apply fl_gt0. now apply mul_pos. Qed.
Lemma fladd_pos a b : (0 < a)%Q -> (0 < b)%Q -> (0 < fl (a + b))%Q.
Proof. intros. apply fl_gt0. lra. Qed.
Lemma surf_pos a b c : (0 < a)%Q -> (0 < b)%Q -> (0 < c)%Q -> (0 < surf a b c)%Q.
Proof. intros. unfold surf. apply fladd_pos; [apply fladd_pos|]; now apply flmul_pos. Qed.
Lemma flmul_le a b c d : (0 < a)%Q -> (a <= c)%Q -> (0 < b)%Q -> (b <= d)%Q -> (fl (a * b) <= fl (c * d))%Q.
Proof. intros. apply fl_mono; [now apply mul_pos|now apply mul_le]. Qed.
Lemma fladd_le a b c d : (0 < a)%Q -> (a <= c)%Q -> (0 < b)%Q -> (b <= d)%Q -> (fl (a + b) <= fl (c + d))%Q.
Proof. intros. apply fl_mono; lra. Qed.
Lemma surf_le a b c x y z : (0 < a)%Q -> (0 < b)%Q -> (0 < c)%Q -> (a <= x)%Q -> (b <= y)%Q -> (c <= z)%Q ->
  (surf a b c <= surf x y z)%Q.
Proof.
  intros. unfold surf.
  apply fladd_le; [apply fladd_pos; now apply flmul_pos| |now apply flmul_pos|now apply flmul_le].
  apply fladd_le; try (now apply flmul_pos); now apply flmul_le.
Qed.

Lemma two_mul n (y : Q) : in_int n -> (0 < y)%Q -> (fl (fl (2 * inject_Z n) * y) == 2 * fl (inject_Z n * y))%Q.
Proof.
  intros H Hy. assert (P : (0 < inject_Z n)%Q) by (apply inj_pos; unfold in_int in H; lia).
  rewrite <- fl_double by now apply mul_pos.
  apply fl_comp.
  - apply mul_pos; auto. apply fl_gt0. apply mul_pos; auto. reflexivity.
  - assert (E : (fl (2 * inject_Z n) == 2 * inject_Z n)%Q).
    { rewrite fl_double by auto. unfold in_int, INT_MAX in H. rewrite fl_int by lia. reflexivity. }
    rewrite E. ring.
Qed.
Lemma fladd2 a b c d : (0 < c)%Q -> (0 < d)%Q -> (a == 2 * c)%Q -> (b == 2 * d)%Q -> (fl (a + b) == 2 * fl (c + d))%Q.
Proof.
  intros Hc Hd Ea Eb. rewrite <- fl_double by lra. apply fl_comp; [rewrite Ea, Eb; lra|]. rewrite Ea, Eb. ring.
Qed.
Lemma start3_eq nx ny nz : in_int nx -> in_int ny -> in_int nz ->
  (astart3 double_areas nx ny nz == 2 * surf (inject_Z nx) (inject_Z ny) (inject_Z nz))%Q.
Proof.
  intros Hx Hy Hz. cbn [astart3 double_areas]. cbv zeta.
  assert (Px : (0 < inject_Z nx)%Q) by (apply inj_pos; unfold in_int in Hx; lia).
  assert (Py : (0 < inject_Z ny)%Q) by (apply inj_pos; unfold in_int in Hy; lia).
  assert (Pz : (0 < inject_Z nz)%Q) by (apply inj_pos; unfold in_int in Hz; lia).
  unfold surf. apply fladd2; [apply fladd_pos; now apply flmul_pos|now apply flmul_pos| |now apply two_mul].
  apply fladd2; try (now apply flmul_pos); now apply two_mul.
Qed.

(** everything stays below 2^65 < 10^20 *)
Lemma fl_le_p2 q e : (0 < q)%Q -> (q <= 2 ^ e)%Q -> (fl q <= 2 ^ e)%Q.
Proof. intros H L. rewrite <- fl_p2. now apply fl_mono. Qed.
Lemma int_le_p2 n : in_int n -> (inject_Z n <= 2 ^ 31)%Q.
Proof. intros [_ H]. rewrite p2_inject by lia. rewrite <- Zle_Qle. unfold INT_MAX in H. lia. Qed.
Lemma flmul_p2 a b i j : (0 < a)%Q -> (0 < b)%Q -> (a <= 2 ^ i)%Q -> (b <= 2 ^ j)%Q -> (fl (a * b) <= 2 ^ (i + j))%Q.
Proof. intros. apply fl_le_p2; [now apply mul_pos|]. rewrite p2_plus. now apply mul_le. Qed.
Lemma fladd_p2 a b i : (0 < a)%Q -> (0 < b)%Q -> (a <= 2 ^ i)%Q -> (b <= 2 ^ i)%Q -> (fl (a + b) <= 2 ^ (i + 1))%Q.
Proof. intros. apply fl_le_p2; [lra|]. rewrite p2_plus. change (2 ^ 1)%Q with 2%Q. lra. Qed.
Lemma surf_p2 nx ny nz : in_int nx -> in_int ny -> in_int nz ->
  (surf (inject_Z nx) (inject_Z ny) (inject_Z nz) <= 2 ^ 64)%Q.
Proof.
  intros Hx Hy Hz. pose proof (int_le_p2 _ Hx). pose proof (int_le_p2 _ Hy). pose proof (int_le_p2 _ Hz).
  assert (Px : (0 < inject_Z nx)%Q) by (apply inj_pos; unfold in_int in Hx; lia).
  assert (Py : (0 < inject_Z ny)%Q) by (apply inj_pos; unfold in_int in Hy; lia).
  assert (Pz : (0 < inject_Z nz)%Q) by (apply inj_pos; unfold in_int in Hz; lia).
  pose proof (flmul_p2 _ _ 31 31 Px Py H H0) as A. pose proof (flmul_p2 _ _ 31 31 Py Pz H0 H1) as B.
  pose proof (flmul_p2 _ _ 31 31 Px Pz H H1) as C.
  change (31 + 31) with 62 in *.
  unfold surf. change 64 with (63 + 1).
  apply fladd_p2; [apply fladd_pos; now apply flmul_pos|now apply flmul_pos| |].
  - change 63 with (62 + 1). apply fladd_p2; auto; now apply flmul_pos.
  - eapply Qle_trans; [exact C|]. apply p2_le. lia.
Qed.
Lemma big_eq : (fl (inject_Z (10 ^ 20)) == inject_Z (10 ^ 20))%Q.
Proof. vm_compute. reflexivity. Qed.

Lemma Qltb_trans a b c : Qltb a b = true -> Qltb b c = true -> Qltb a c = true.
Proof. rewrite !Qltb_lt. apply Qlt_trans. Qed.

Lemma double_laws : area_laws double_areas.
Proof.
  unfold area_laws. split; [exact Qltb_trans|]. split; [|split; [|split]].
  - intros nx ny nz Hx Hy Hz. apply Qltb_ge. rewrite start3_eq by auto.
    pose proof (surf_p2 nx ny nz Hx Hy Hz) as H. cbn [abig double_areas]. rewrite big_eq.
    change (2 ^ 64)%Q with (inject_Z 18446744073709551616) in H.
    apply Qle_trans with (2 * inject_Z 18446744073709551616)%Q; [lra|]. apply Qle_bool_iff. vm_compute. reflexivity.
  - intros i j k nx ny nz Hi Hj Hk Hx Hy Hz. apply Qltb_lt. rewrite start3_eq by auto.
    destruct (width_le nx i Hx Hi) as [A1 A2]. destruct (width_le ny j Hy Hj) as [B1 B2]. destruct (width_le nz k Hz Hk) as [C1 C2].
    change (asurf3 double_areas i j k nx ny nz) with (surf (width nx i) (width ny j) (width nz k)).
    pose proof (surf_le _ _ _ _ _ _ A1 B1 C1 A2 B2 C2). pose proof (surf_pos _ _ _ A1 B1 C1). lra.
  - intros nx ny Hx Hy. apply Qltb_ge. cbn [astart2 abig double_areas]. rewrite big_eq.
    assert (Px : (0 < inject_Z nx)%Q) by (apply inj_pos; unfold in_int in Hx; lia).
    assert (Py : (0 < inject_Z ny)%Q) by (apply inj_pos; unfold in_int in Hy; lia).
    rewrite two_mul by auto. pose proof (flmul_p2 _ _ 31 31 Px Py (int_le_p2 _ Hx) (int_le_p2 _ Hy)) as A.
    change (31 + 31) with 62 in A. change (2 ^ 62)%Q with (inject_Z 4611686018427387904) in A.
    apply Qle_trans with (2 * inject_Z 4611686018427387904)%Q; [lra|]. apply Qle_bool_iff. vm_compute. reflexivity.
  - intros i j nx ny Hi Hj Hx Hy. apply Qltb_lt. cbn [astart2 double_areas].
    assert (Py : (0 < inject_Z ny)%Q) by (apply inj_pos; unfold in_int in Hy; lia).
    rewrite two_mul by auto.
    destruct (width_le nx i Hx Hi) as [A1 A2]. destruct (width_le ny j Hy Hj) as [B1 B2].
    change (asurf2 double_areas i j nx ny) with (fl (width nx i * width ny j)).
    pose proof (flmul_le _ _ _ _ A1 A2 B1 B2). pose proof (flmul_pos _ _ A1 B1). lra.
Qed.

(** ** how far the computed surfaces are from the exact ones *)
Definition near (l h a A : Q) : Prop := (l * A <= a)%Q /\ (a <= h * A)%Q.
Lemma near_fl l h a A : (0 < l)%Q -> (0 < A)%Q -> near l h a A -> near ((1 - u) * l) ((1 + u) * h) (fl a) A.
Proof.
  intros Hl HA [H1 H2]. assert (0 < l * A)%Q by now apply mul_pos.
  destruct (fl_error a) as [E1 E2]; [lra|]. split.
  - eapply Qle_trans; [|exact E1]. rewrite <- Qmult_assoc. apply mul_le; try (apply Qle_refl); auto. reflexivity.
  - eapply Qle_trans; [exact E2|]. rewrite <- Qmult_assoc. apply mul_le; try (apply Qle_refl); auto; [reflexivity|lra].
Qed.
Lemma near_mul l h l' h' a A b B : (0 < l)%Q -> (0 < l')%Q -> (0 < A)%Q -> (0 < B)%Q ->
  near l h a A -> near l' h' b B -> near (l * l') (h * h') (a * b) (A * B).
Proof.
  intros Hl Hl' HA HB [H1 H2] [H3 H4]. assert (0 < l * A)%Q by now apply mul_pos. assert (0 < l' * B)%Q by now apply mul_pos.
  split.
  - setoid_replace (l * l' * (A * B))%Q with ((l * A) * (l' * B))%Q by ring. now apply mul_le.
  - setoid_replace (h * h' * (A * B))%Q with ((h * A) * (h' * B))%Q by ring. apply mul_le; auto; lra.
Qed.
Lemma near_add l h a A b B : near l h a A -> near l h b B -> near l h (a + b) (A + B).
Proof. intros [H1 H2] [H3 H4]. split; rewrite Qmult_plus_distr_r; lra. Qed.
Lemma near_weak l h l' h' a A : (l' <= l)%Q -> (h <= h')%Q -> (0 < A)%Q -> near l h a A -> near l' h' a A.
Proof.
  intros Hl Hh HA [H1 H2]. split.
  - eapply Qle_trans; [|exact H1]. apply Qmult_le_compat_r; lra.
  - eapply Qle_trans; [exact H2|]. apply Qmult_le_compat_r; lra.
Qed.
Lemma qdiv_pos n i : 1 <= n -> 1 <= i -> (0 < qdiv n i)%Q.
Proof. intros. unfold qdiv. apply mul_pos; [apply inj_pos; lia|]. apply Qinv_lt_0_compat. apply inj_pos. lia. Qed.
Lemma width_near n i : in_int n -> 1 <= i -> near (1 - u) (1 + u) (width n i) (qdiv n i).
Proof.
  intros Hn Hi. unfold width, near. assert (E : (fl (fl (1 * inject_Z n) / inject_Z i) == fl (qdiv n i))%Q).
  { apply fl_comp; [now apply quot_pos|now apply quot_eq]. }
  assert (Pq : (0 < qdiv n i)%Q) by (unfold in_int in Hn; apply qdiv_pos; lia).
  destruct (fl_error _ Pq). split; rewrite E; auto.
Qed.

Local Notation lo := (1 - u)%Q.
Local Notation hi := (1 + u)%Q.
Lemma prod_near n i m j : in_int n -> 1 <= i -> in_int m -> 1 <= j ->
  near (lo * (lo * lo)) (hi * (hi * hi)) (fl (width n i * width m j)) (qdiv n i * qdiv m j).
Proof.
  intros Hn Hi Hm Hj. pose proof (width_near n i Hn Hi). pose proof (width_near m j Hm Hj). unfold in_int in *.
  assert (0 < qdiv n i)%Q by (apply qdiv_pos; lia). assert (0 < qdiv m j)%Q by (apply qdiv_pos; lia).
  apply near_fl; [reflexivity|now apply mul_pos|]. apply near_mul; auto; reflexivity.
Qed.
Lemma surf_near i j k nx ny nz : 1 <= i -> 1 <= j -> 1 <= k -> in_int nx -> in_int ny -> in_int nz ->
  near (lo * (lo * (lo * (lo * lo)))) (hi * (hi * (hi * (hi * hi)))) (asurf3 double_areas i j k nx ny nz) (surface3 nx ny nz (i, j, k)).
Proof.
  intros Hi Hj Hk Hx Hy Hz.
  change (asurf3 double_areas i j k nx ny nz) with (surf (width nx i) (width ny j) (width nz k)). unfold surf. cbn [surface3].
  pose proof (prod_near nx i ny j Hx Hi Hy Hj) as A. pose proof (prod_near ny j nz k Hy Hj Hz Hk) as B. pose proof (prod_near nx i nz k Hx Hi Hz Hk) as C.
  unfold in_int in *.
  assert (Pa : (0 < qdiv nx i * qdiv ny j)%Q) by (apply mul_pos; apply qdiv_pos; lia).
  assert (Pb : (0 < qdiv ny j * qdiv nz k)%Q) by (apply mul_pos; apply qdiv_pos; lia).
  assert (Pc : (0 < qdiv nx i * qdiv nz k)%Q) by (apply mul_pos; apply qdiv_pos; lia).
  apply near_fl; [reflexivity|lra|]. apply near_add.
  - apply near_fl; [reflexivity|lra|]. now apply near_add.
  - eapply near_weak; [| |exact Pc|exact C]; apply Qle_bool_iff; vm_compute; reflexivity.
Qed.

Lemma double_min P nx ny nz g t : 1 <= P -> in_int nx -> in_int ny -> in_int nz -> (length (small_divisors P) <= NFACTOR)%nat ->
  procfactors double_areas P nx ny nz = Some g -> good_grid3 P nx ny nz t ->
  (surface3 nx ny nz g <= (1 + (1 # 2 ^ 49)) * surface3 nx ny nz t)%Q.
Proof.
  intros HP Hx Hy Hz Hl Hg Ht.
  assert (H := procfactors_min double_areas double_laws
    ltac:(cbn [alt double_areas]; intros a b c A B; apply Qltb_ge in A, B; apply Qltb_ge; eapply Qle_trans; eassumption)
    ltac:(cbn [alt double_areas]; intros a b A; apply Qltb_lt in A; apply Qltb_ge; now apply Qlt_le_weak)
    P nx ny nz HP Hx Hy Hz g Hl Hg t Ht).
  assert (Gg : good_grid3 P nx ny nz g) by (eapply procfactors_some; eauto using double_laws).
  destruct g as [[i j] k], t as [[x y] z]. destruct Gg as (G1 & G2 & G3 & _). destruct Ht as (T1 & T2 & T3 & _).
  cbn [fst snd] in H. apply Qltb_ge in H.
  destruct (surf_near i j k nx ny nz G1 G2 G3 Hx Hy Hz) as [A _]. destruct (surf_near x y z nx ny nz T1 T2 T3 Hx Hy Hz) as [_ B].
  set (S := surface3 nx ny nz (i, j, k)) in *. set (T := surface3 nx ny nz (x, y, z)) in *.
  assert (PT : (0 < T)%Q).
  { unfold T. cbn [surface3]. unfold in_int in *.
    assert (0 < qdiv nx x * qdiv ny y)%Q by (apply mul_pos; apply qdiv_pos; lia).
    assert (0 < qdiv ny y * qdiv nz z)%Q by (apply mul_pos; apply qdiv_pos; lia).
    assert (0 < qdiv nx x * qdiv nz z)%Q by (apply mul_pos; apply qdiv_pos; lia). lra. }
  assert (C : (lo * (lo * (lo * (lo * lo))) * S <= hi * (hi * (hi * (hi * hi))) * T)%Q) by (eapply Qle_trans; [exact A|eapply Qle_trans; [exact H|exact B]]).
  assert (D : (hi * (hi * (hi * (hi * hi))) <= lo * (lo * (lo * (lo * lo))) * (1 + (1 # 2 ^ 49)))%Q)
    by (apply Qle_bool_iff; vm_compute; reflexivity).
  assert (E : (lo * (lo * (lo * (lo * lo))) * S <= lo * (lo * (lo * (lo * lo))) * ((1 + (1 # 2 ^ 49)) * T))%Q).
  { eapply Qle_trans; [exact C|]. rewrite (Qmult_assoc (lo * (lo * (lo * (lo * lo)))) (1 + (1 # 2 ^ 49)) T). apply Qmult_le_compat_r; [exact D|now apply Qlt_le_weak]. }
  apply Qmult_le_l in E; [exact E|reflexivity].
Qed.

(** ** 2d grids on a power of two of processors *)
Lemma fl_scale a q : 0 <= a -> (0 < q)%Q -> (fl (2 ^ a * q) == 2 ^ a * fl q)%Q.
Proof.
  intros Ha Hq. revert a Ha. apply natlike_ind.
  - transitivity (fl q); [|ring]. apply fl_comp; [apply mul_pos; [reflexivity|auto]|ring].
  - intros a Ha IH. pose proof (p2_pos a).
    assert (E : (2 ^ Z.succ a == 2 * 2 ^ a)%Q) by (unfold Z.succ; rewrite p2_plus; change (2 ^ 1)%Q with 2%Q; ring).
    transitivity (fl (2 * (2 ^ a * q))).
    + apply fl_comp; [apply mul_pos; [apply p2_pos|auto]|]. rewrite E. ring.
    + rewrite fl_double by now apply mul_pos. rewrite IH, E. ring.
Qed.
Lemma width_exact n a : in_int n -> 0 <= a -> (width n (2 ^ a) == qdiv n (2 ^ a))%Q.
Proof.
  intros Hn Ha. unfold width.
  assert (Pa : 0 < 2 ^ a) by now apply Z.pow_pos_nonneg.
  assert (Pq : (0 < qdiv n (2 ^ a))%Q) by (unfold in_int in Hn; apply qdiv_pos; lia).
  rewrite (fl_comp _ (qdiv n (2 ^ a)) (quot_pos n (2 ^ a) Hn ltac:(lia)) (quot_eq n (2 ^ a) Hn)).
  assert (Nz : ~ (inject_Z (2 ^ a) == 0)%Q) by (intros N; apply inj_pos in Pa; rewrite N in Pa; discriminate Pa).
  assert (E : (2 ^ a * qdiv n (2 ^ a) == inject_Z n)%Q) by (rewrite p2_inject by auto; unfold qdiv; field; exact Nz).
  assert (F : (2 ^ a * fl (qdiv n (2 ^ a)) == 2 ^ a * qdiv n (2 ^ a))%Q).
  { rewrite <- fl_scale by auto.
    rewrite (fl_comp (2 ^ a * qdiv n (2 ^ a)) (inject_Z n)); [|apply mul_pos; [apply p2_pos|auto]|exact E].
    rewrite E. unfold in_int, INT_MAX in Hn. apply fl_int. lia. }
  apply Qmult_inj_l in F; [exact F|]. intros N. pose proof (p2_pos a) as C. rewrite N in C. discriminate C.
Qed.
Lemma double_flat k nx ny : 0 <= k -> 2 <= nx <= INT_MAX -> 2 <= ny <= INT_MAX ->
  procfactors2 double_areas (2 ^ k) nx ny = Some (1, 2 ^ k).
Proof.
  intros Hk Hx Hy. assert (Pk : 0 < 2 ^ k) by now apply Z.pow_pos_nonneg.
  assert (Ix : in_int nx) by (unfold in_int; lia). assert (Iy : in_int ny) by (unfold in_int; lia).
  apply procfactors2_flat; auto using double_laws; try lia.
  assert (G : forall i j, 1 <= i -> 1 <= j -> i * j = 2 ^ k -> (asurf2 double_areas i j nx ny == fl (qdiv (nx * ny) (2 ^ k)))%Q).
  { intros i j Hi Hj E.
    destruct (Zdivide_power_2 i 2 k) as [a Ea]; try lia; [apply Znumtheory.prime_2|exists j; lia|].
    destruct (Zdivide_power_2 j 2 k) as [b Eb]; try lia; [apply Znumtheory.prime_2|exists i; lia|].
    assert (Ha : 0 <= a) by (destruct (Z.neg_nonneg_cases a); auto; rewrite Z.pow_neg_r in Ea by auto; lia).
    assert (Hb : 0 <= b) by (destruct (Z.neg_nonneg_cases b); auto; rewrite Z.pow_neg_r in Eb by auto; lia).
    change (asurf2 double_areas i j nx ny) with (fl (width nx i * width ny j)).
    apply fl_comp; [apply mul_pos; apply width_le; auto|].
    subst i j. rewrite !width_exact by auto. rewrite <- E. apply surf2_const; auto. }
  intros i j Hi Hj E. apply Qltb_ge. rewrite (G i j), (G 1 (2 ^ k)) by lia. apply Qle_refl.
Qed.
Lemma double_not_flat : exists P nx ny, 1 <= P /\ 2 <= nx <= INT_MAX /\ 2 <= ny <= INT_MAX /\
  procfactors2 double_areas P nx ny = Some (P, 1) /\ P <> 1.
Proof. exists 3, 2, 5. unfold INT_MAX. repeat (split; [lia|]). split; [vm_compute; reflexivity|lia]. Qed.
