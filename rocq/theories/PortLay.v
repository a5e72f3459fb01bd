(** PortLay.v : layouts of the Fortran and Python test programs. *)

From Coq Require Import QArith Qround Qpower Qabs Lia Lqa.
From Verif Require Import Base Spec Sched Layout LayoutProofs Double DoubleProofs TestProg TestLayProofs TestFinal Port.
Local Open Scope Z_scope.

(** ** rounding to 24 bits *)
Lemma flp24_comp a b : (0 < a)%Q -> (a == b)%Q -> (flp24 a == flp24 b)%Q.
Proof.
  intros H E. unfold flp24. cbv zeta. rewrite (qlog2_comp _ _ H E).
  rewrite (qround_comp (a * 2 ^ (23 - qlog2 b)) (b * 2 ^ (23 - qlog2 b))) by now rewrite E. reflexivity.
Qed.

(** the scaled24 number lies in [2^23, 2^24) *)
Lemma scaled24 q : (0 < q)%Q -> let s := 23 - qlog2 q in (2 ^ 23 <= q * 2 ^ s)%Q /\ (q * 2 ^ s < 2 ^ 24)%Q.
Proof.
  intros H s. destruct (qlog2_spec q H) as [A B]. split.
  - replace 23%Z with (qlog2 q + s) by lia. rewrite p2_plus. apply Qmult_le_compat_r; auto. apply Qlt_le_weak, p2_pos.
  - replace 24%Z with ((qlog2 q + 1) + s) by lia. rewrite p2_plus. apply pmul_lt; auto. apply p2_pos.
Qed.

(** an exact multiple of the last bit is not changed *)
Lemma flp24_exact q : (0 < q)%Q -> (exists z, q * 2 ^ (23 - qlog2 q) == inject_Z z)%Q -> (flp24 q == q)%Q.
Proof.
  intros H [z E]. unfold flp24. cbv zeta. rewrite (qround_comp _ _ E), qround_int, <- E.
  rewrite <- Qmult_assoc, p2_opp. ring.
Qed.
Lemma flp24_p2 e : (flp24 (2 ^ e) == 2 ^ e)%Q.
Proof.
  apply flp24_exact; [apply p2_pos|]. exists (2 ^ 23).
  assert (E : qlog2 (2 ^ e) = e).
  { apply qlog2_eq; [apply Qle_refl|]. rewrite p2_plus. pose proof (p2_pos e). change (2 ^ 1)%Q with 2%Q. lra. }
  rewrite E, <- p2_plus. replace (e + (23 - e)) with 23 by lia. rewrite p2_inject by lia. reflexivity.
Qed.
Lemma flp24_int z : 0 < z <= 2 ^ 24 -> (flp24 (inject_Z z) == inject_Z z)%Q.
Proof.
  intros H. assert (P : (0 < inject_Z z)%Q) by (change 0%Q with (inject_Z 0); rewrite <- Zlt_Qlt; lia).
  destruct (Z.eq_dec z (2 ^ 24)) as [->|NE].
  - rewrite (flp24_comp (inject_Z (2 ^ 24)) (2 ^ 24)); [|exact P|now rewrite p2_inject by lia].
    rewrite flp24_p2. now rewrite p2_inject by lia.
  - apply flp24_exact; auto. destruct (qlog2_spec _ P) as [A _].
    assert (L : qlog2 (inject_Z z) < 24).
    { apply p2_lt_inv. eapply Qle_lt_trans; [exact A|]. rewrite p2_inject by lia. rewrite <- Zlt_Qlt. lia. }
    exists (z * 2 ^ (23 - qlog2 (inject_Z z))). rewrite inject_Z_mult, <- p2_inject by lia. reflexivity.
Qed.

Lemma flp24_mono a b : (0 < a)%Q -> (a <= b)%Q -> (flp24 a <= flp24 b)%Q.
Proof.
  intros Ha Hab. assert (Hb : (0 < b)%Q) by lra. pose proof (qlog2_mono _ _ Ha Hab) as M.
  destruct (Z.eq_dec (qlog2 a) (qlog2 b)) as [E|NE].
  - unfold flp24. cbv zeta. rewrite E. apply Qmult_le_compat_r; [|apply Qlt_le_weak, p2_pos].
    rewrite <- Zle_Qle. apply qround_mono. apply Qmult_le_compat_r; auto. apply Qlt_le_weak, p2_pos.
  - destruct (scaled24 a Ha) as [_ A]. destruct (scaled24 b Hb) as [B _]. cbv zeta in A, B.
    apply Qle_trans with (2 ^ (qlog2 a + 1))%Q.
    + unfold flp24. cbv zeta. set (s := 23 - qlog2 a) in *.
      replace (qlog2 a + 1) with (24 + - s) by lia. rewrite p2_plus.
      apply Qmult_le_compat_r; [|apply Qlt_le_weak, p2_pos].
      rewrite (p2_inject 24) by lia. rewrite <- Zle_Qle. rewrite <- (qround_int (2 ^ 24)). apply qround_mono.
      rewrite <- (p2_inject 24) by lia. apply Qlt_le_weak, A.
    + apply Qle_trans with (2 ^ qlog2 b)%Q; [apply p2_le; lia|].
      unfold flp24. cbv zeta. set (s := 23 - qlog2 b) in *.
      replace (qlog2 b) with (23 + - s) by lia. rewrite p2_plus.
      apply Qmult_le_compat_r; [|apply Qlt_le_weak, p2_pos].
      rewrite (p2_inject 23) by lia. rewrite <- Zle_Qle. rewrite <- (qround_int (2 ^ 23)). apply qround_mono.
      rewrite <- (p2_inject 23) by lia. exact B.
Qed.

Lemma flp24_double a : (0 < a)%Q -> (flp24 (2 * a) == 2 * flp24 a)%Q.
Proof.
  intros Ha. assert (E : qlog2 (2 * a) = qlog2 a + 1).
  { destruct (qlog2_spec a Ha) as [A B]. apply qlog2_eq; rewrite !p2_plus; change (2 ^ 1)%Q with 2%Q;
      rewrite ?p2_plus in B; change (2 ^ 1)%Q with 2%Q in B; lra. }
  unfold flp24. cbv zeta. rewrite E. set (s := 23 - qlog2 a).
  replace (23 - (qlog2 a + 1)) with (s + -1) by lia.
  rewrite (qround_comp (2 * a * 2 ^ (s + -1)) (a * 2 ^ s)).
  - replace (- (s + -1)) with (- s + 1) by lia. rewrite p2_plus. change (2 ^ 1)%Q with 2%Q. ring.
  - rewrite p2_plus. change (2 ^ (-1))%Q with (1 # 2)%Q. ring.
Qed.

(** relative error *)
Definition v24 : Q := (1 # 2 ^ 24)%Q.
Lemma flp24_error q : (0 < q)%Q -> ((1 - v24) * q <= flp24 q)%Q /\ (flp24 q <= (1 + v24) * q)%Q.
Proof.
  intros H. destruct (scaled24 q H) as [A _]. cbv zeta in A. unfold flp24. cbv zeta.
  set (s := 23 - qlog2 q) in *. set (t := (q * 2 ^ s)%Q) in *.
  destruct (qround_near t) as [U L]. set (r := inject_Z (qround t)) in *.
  assert (E : (q == t * 2 ^ (- s))%Q) by (unfold t; rewrite <- Qmult_assoc, p2_opp; ring).
  pose proof (p2_pos (- s)) as P. set (p := (2 ^ (- s))%Q) in *.
  change (2 ^ 23)%Q with (inject_Z 8388608) in A.
  assert (HU : ((1 # 2) <= v24 * t)%Q).
  { unfold v24. assert ((1 # 2 ^ 24) * inject_Z 8388608 <= (1 # 2 ^ 24) * t)%Q.
    { rewrite (Qmult_comm _ (inject_Z _)), (Qmult_comm _ t). apply Qmult_le_compat_r; auto. discriminate. }
    assert (((1 # 2 ^ 24) * inject_Z 8388608 == 1 # 2)%Q) by reflexivity. lra. }
  split.
  - setoid_replace ((1 - v24) * q)%Q with ((t - v24 * t) * p)%Q by (rewrite E; ring).
    apply Qmult_le_compat_r; [lra|apply Qlt_le_weak, P].
  - setoid_replace ((1 + v24) * q)%Q with ((t + v24 * t) * p)%Q by (rewrite E; ring).
    apply Qmult_le_compat_r; [lra|apply Qlt_le_weak, P].
Qed.

(** ** the same for [fl] on positive numbers *)
Lemma fl24_pos q : (0 < q)%Q -> (fl24 q == flp24 q)%Q.
Proof.
  intros H. unfold fl24. destruct (Qnum q) eqn:E; unfold Qlt in H; rewrite ?E in H; cbn in H; try lia. apply Qred_correct.
Qed.

(** what is needed of single precision *)
Definition sp_laws (rd : Q -> Q) : Prop :=
  (forall a b, 0 < a -> a <= b -> rd a <= rd b)%Q /\
  (forall z, (0 < z <= 2 ^ 24)%Z -> rd (inject_Z z) == inject_Z z)%Q /\
  (forall q, 0 < q -> (1 - v24) * q <= rd q /\ rd q <= (1 + v24) * q)%Q /\
  (forall q, q == 0 -> rd q == 0)%Q.
Lemma v24_bounds : (0 < v24)%Q /\ (v24 <= 1 # 4)%Q.
Proof. unfold v24. split; vm_compute; [reflexivity|discriminate]. Qed.
Lemma id_sp : sp_laws (fun q => q).
Proof.
  pose proof v24_bounds as (U1 & U2). unfold sp_laws. split; [|split; [|split]]; intros; try lra; try reflexivity; auto. split; nra.
Qed.
Lemma fl24_sp : sp_laws fl24.
Proof.
  split; [|split; [|split]].
  - intros a b Ha H. rewrite (fl24_pos a), (fl24_pos b) by lra. now apply flp24_mono.
  - intros z H. rewrite fl24_pos by (apply inj_pos; lia). now apply flp24_int.
  - intros q H. rewrite fl24_pos by auto. now apply flp24_error.
  - intros q H. unfold Qeq in H. cbn in H. unfold fl24. assert (E : Qnum q = 0) by lia. rewrite E. reflexivity.
Qed.

Section Sp.
Variable rd : Q -> Q.
Hypothesis L : sp_laws rd.
Let rmono := proj1 L.
Let rint := proj1 (proj2 L).
Let rerr := proj1 (proj2 (proj2 L)).
Let rzero := proj2 (proj2 (proj2 L)).
Local Notation "x == y" := (Qeq x y) : Q_scope.

Lemma sp_comp a b : (0 <= a)%Q -> (a == b)%Q -> (rd a == rd b)%Q.
Proof.
  intros H E. destruct (Qlt_le_dec 0 a) as [P|Z].
  - apply Qle_antisym; apply rmono; lra.
  - rewrite !rzero by lra. reflexivity.
Qed.
Lemma sp_int z : 0 <= z <= 2 ^ 24 -> (rd (inject_Z z) == inject_Z z)%Q.
Proof. intros H. destruct (Z.eq_dec z 0) as [-> | Hz]; [apply rzero; reflexivity|apply rint; lia]. Qed.
Lemma inj_nonneg z : 0 <= z -> (0 <= inject_Z z)%Q.
Proof. intros. change 0%Q with (inject_Z 0). rewrite <- Zle_Qle. assumption. Qed.

Lemma fo_cut_eq ip n np : 0 <= ip -> 1 <= n -> 1 <= np <= 2 ^ 24 -> n <= 2 ^ 24 -> ip <= 2 ^ 24 -> ip * n <= 2 ^ 24 ->
  (fo_cut rd ip n np == rd (inject_Z (ip * n) / inject_Z np))%Q.
Proof.
  intros Hi Hn Hp Hn2 Hi2 Hb. unfold fo_cut.
  assert (P3 : (0 < inject_Z np)%Q) by (apply inj_pos; lia).
  assert (Ei : (rd (inject_Z ip) == inject_Z ip)%Q) by (apply sp_int; lia).
  assert (En : (rd (inject_Z n) == inject_Z n)%Q) by (apply sp_int; lia).
  assert (Ep : (rd (inject_Z np) == inject_Z np)%Q) by (apply sp_int; lia).
  assert (E1 : (rd (1 * rd (inject_Z ip)) == inject_Z ip)%Q).
  { rewrite (sp_comp _ (inject_Z ip)); [exact Ei| |]; rewrite Ei; [pose proof (inj_nonneg ip Hi); lra|ring]. }
  assert (E2 : (rd (rd (1 * rd (inject_Z ip)) * rd (inject_Z n)) == inject_Z (ip * n))%Q).
  { rewrite (sp_comp _ (inject_Z (ip * n))); [apply sp_int; nia| |]; rewrite E1, En, <- inject_Z_mult; [apply inj_nonneg; nia|reflexivity]. }
  assert (Hq : (0 <= inject_Z (ip * n) / inject_Z np)%Q) by (apply Qle_shift_div_l; [exact P3|]; rewrite Qmult_0_l; apply inj_nonneg; nia).
  apply sp_comp; rewrite E2, Ep; [exact Hq|reflexivity].
Qed.

(** the rounded quotient stays in the unit interval of the true one *)
Lemma sp_quot a np : 0 <= a <= 2 ^ 24 -> 1 <= np -> let k := a / np in
  (inject_Z k <= rd (inject_Z a / inject_Z np))%Q /\ (rd (inject_Z a / inject_Z np) * inject_Z np <= (1 + v24) * inject_Z a)%Q.
Proof.
  intros Ha Hp k. assert (P3 : (0 < inject_Z np)%Q) by (apply inj_pos; lia).
  assert (Eq : (inject_Z a / inject_Z np * inject_Z np == inject_Z a)%Q) by (field; intro Hz; rewrite Hz in P3; discriminate P3).
  destruct (Z.eq_dec a 0) as [E|Ha0].
  - subst a. unfold k. rewrite Z.div_0_l by lia.
    assert (E3 : (rd (inject_Z 0 / inject_Z np) == 0)%Q) by (apply rzero; unfold Qdiv; ring). rewrite E3. split; [apply Qle_refl|]. change (inject_Z 0) with 0%Q. lra.
  - assert (Pq : (0 < inject_Z a / inject_Z np)%Q) by (apply part_pos; lia). split.
    + destruct (Z.eq_dec k 0) as [Hk | Hk].
      * rewrite Hk. change (inject_Z 0) with 0%Q. destruct (rerr _ Pq) as (E & _). pose proof v24_bounds as (U1 & U2). nra.
      * assert (Hk1 : 0 < k <= 2 ^ 24).
        { assert (0 <= k) by (apply Z.div_pos; lia). split; [lia|]. unfold k. apply Z.div_le_upper_bound; nia. }
        rewrite <- (rint k Hk1). apply rmono; [apply inj_pos; lia|]. apply Qle_shift_div_l; [exact P3|].
        rewrite <- inject_Z_mult, <- Zle_Qle, Z.mul_comm. apply Z.mul_div_le. lia.
    + destruct (rerr _ Pq) as (_ & E). rewrite <- Eq at 2. rewrite Qmult_assoc. apply Qmult_le_compat_r; [exact E|lra].
Qed.
Lemma floor_is q k : (inject_Z k <= q)%Q -> (q < inject_Z k + 1)%Q -> Qfloor q = k.
Proof.
  intros H1 H2. pose proof (Qfloor_le q) as F1. pose proof (Qlt_floor q) as F2. rewrite inject_Z_plus in F2. change (inject_Z 1) with 1%Q in F2.
  assert (G1 : (inject_Z (Qfloor q) < inject_Z (k + 1))%Q) by (rewrite inject_Z_plus; change (inject_Z 1) with 1%Q; lra).
  assert (G2 : (inject_Z k < inject_Z (Qfloor q + 1))%Q) by (rewrite inject_Z_plus; change (inject_Z 1) with 1%Q; lra).
  rewrite <- Zlt_Qlt in G1, G2. lia.
Qed.
Lemma v24_small a : a < 2 ^ 24 -> (v24 * inject_Z a < 1)%Q.
Proof.
  intros H. unfold v24. apply Qlt_le_trans with ((1 # 2 ^ 24) * inject_Z (2 ^ 24))%Q.
  - rewrite (Qmult_comm _ (inject_Z a)), (Qmult_comm _ (inject_Z (2 ^ 24))). apply Qmult_lt_r; [reflexivity|]. rewrite <- Zlt_Qlt. lia.
  - vm_compute. discriminate.
Qed.

Theorem fo_hi_spec ip n np : 0 <= ip -> 1 <= n -> 1 <= np -> np <= 2 ^ 24 -> (ip + 1) * n < 2 ^ 24 -> fo_hi rd ip n np = Some ((ip + 1) * n / np).
Proof.
  intros Hi Hn Hp Hp2 Hb. unfold fo_hi. destruct (Z.eqb_spec np 0); [lia|]. f_equal.
  set (a := (ip + 1) * n) in *. assert (Ha : 0 <= a < 2 ^ 24) by (unfold a in *; nia).
  pose proof (fo_cut_eq (ip + 1) n np ltac:(lia) Hn ltac:(lia) ltac:(nia) ltac:(nia) ltac:(unfold a in *; lia)) as E. fold a in E. rewrite E. clear E.
  assert (P3 : (0 < inject_Z np)%Q) by (apply inj_pos; lia).
  destruct (sp_quot a np ltac:(lia) Hp) as (B1 & B2). apply floor_is; [exact B1|].
  apply (Qmult_lt_r _ _ (inject_Z np) P3). eapply Qle_lt_trans; [exact B2|].
  pose proof (v24_small a ltac:(lia)) as V.
  pose proof (Z.div_mod a np ltac:(lia)) as Dm. pose proof (Z.mod_pos_bound a np ltac:(lia)) as Db.
  assert (H : (inject_Z a + 1 <= inject_Z ((a / np + 1) * np))%Q).
  { change 1%Q with (inject_Z 1). rewrite <- inject_Z_plus, <- Zle_Qle. lia. }
  rewrite inject_Z_mult, inject_Z_plus in H. change (inject_Z 1) with 1%Q in H. lra.
Qed.
Theorem fo_lo_spec ip n np : 0 <= ip -> 1 <= n -> 1 <= np -> 2 * (ip * n) + np + 1 < 2 ^ 24 -> n <= 2 ^ 24 -> fo_lo rd ip n np = Some (ip * n / np + 1).
Proof.
  intros Hi Hn Hp Hb Hn2. unfold fo_lo. destruct (Z.eqb_spec np 0); [lia|]. f_equal.
  set (a := ip * n) in *. assert (Ha : 0 <= a < 2 ^ 24) by (unfold a in *; nia).
  pose proof (fo_cut_eq ip n np ltac:(lia) Hn ltac:(lia) ltac:(lia) ltac:(unfold a in *; nia) ltac:(unfold a in *; lia)) as E. fold a in E.
  assert (P3 : (0 < inject_Z np)%Q) by (apply inj_pos; lia).
  destruct (sp_quot a np ltac:(lia) Hp) as (B1 & B2). set (k := a / np) in *.
  assert (K0 : 0 <= k) by (apply Z.div_pos; lia). pose proof (inj_nonneg k K0) as K0'.
  set (y := rd (inject_Z a / inject_Z np)) in *. clearbody y.
  assert (Ey : (rd (fo_cut rd ip n np + 1) == rd (y + 1))%Q) by (apply sp_comp; rewrite E; [lra|reflexivity]).
  rewrite Ey. assert (Py : (0 < y + 1)%Q) by lra. apply floor_is.
  - assert (K1 : 0 < k + 1 <= 2 ^ 24).
    { split; [lia|]. assert (k <= a) by (apply Z.div_le_upper_bound; nia). lia. }
    rewrite <- (rint (k + 1) K1). apply rmono; [apply inj_pos; lia|]. rewrite inject_Z_plus. change (inject_Z 1) with 1%Q. lra.
  - destruct (rerr _ Py) as (_ & B3). apply (Qmult_lt_r _ _ (inject_Z np) P3).
    apply Qle_lt_trans with ((1 + v24) * (y + 1) * inject_Z np)%Q; [apply Qmult_le_compat_r; [exact B3|lra]|].
    pose proof v24_bounds as (U1 & U2). pose proof (v24_small (2 * a + np + 1) Hb) as V.
    pose proof (v24_small a ltac:(lia)) as Va. pose proof (inj_nonneg a ltac:(lia)) as A0.
    rewrite !inject_Z_plus, inject_Z_mult in V. change (inject_Z 1) with 1%Q in V. change (inject_Z 2) with 2%Q in V.
    pose proof (Z.div_mod a np ltac:(lia)) as Dm. pose proof (Z.mod_pos_bound a np ltac:(lia)) as Db. fold k in Dm.
    assert (H : (inject_Z a + inject_Z np + 1 <= inject_Z ((k + 1 + 1) * np))%Q).
    { change 1%Q with (inject_Z 1). rewrite <- !inject_Z_plus, <- Zle_Qle. lia. }
    rewrite inject_Z_mult, !inject_Z_plus in H. rewrite inject_Z_plus. change (inject_Z 1) with 1%Q in *.
    eapply Qlt_le_trans; [|exact H].
    setoid_replace ((1 + v24) * (y + 1) * inject_Z np)%Q with (y * inject_Z np * (1 + v24) + (1 + v24) * inject_Z np)%Q by ring.
    set (A := inject_Z a) in *. set (NP := inject_Z np) in *.
    assert (M : (y * NP * (1 + v24) <= (1 + v24) * A * (1 + v24))%Q) by (apply Qmult_le_compat_r; [exact B2|lra]).
    assert (M2 : (v24 * A * v24 <= 1 * v24)%Q) by (apply Qmult_le_compat_r; lra).
    setoid_replace ((1 + v24) * A * (1 + v24))%Q with (A + 2 * (v24 * A) + v24 * A * v24)%Q in M by ring.
    setoid_replace (v24 * (2 * A + NP + 1))%Q with (2 * (v24 * A) + v24 * NP + v24)%Q in V by ring. lra.
Qed.
End Sp.

(** ** boxes *)
Definition single3 (P : Z) (N : Z * Z * Z) : Prop :=
  let '(x, y, z) := N in 2 * (P * x) + P + 1 < 2 ^ 24 /\ 2 * (P * y) + P + 1 < 2 ^ 24 /\ 2 * (P * z) + P + 1 < 2 ^ 24.
Definition single2 (P : Z) (N : Z * Z) : Prop := let '(x, y) := N in 2 * (P * x) + P + 1 < 2 ^ 24 /\ 2 * (P * y) + P + 1 < 2 ^ 24.
(** what the Fortran interface hands on: every bound less one *)
Definition off3 (b b' : box3) : Prop :=
  ilo b = ilo b' + 1 /\ ihi b = ihi b' + 1 /\ jlo b = jlo b' + 1 /\ jhi b = jhi b' + 1 /\ klo b = klo b' + 1 /\ khi b = khi b' + 1.
Definition off2 (b b' : box2) : Prop := ilo2 b = ilo2 b' + 1 /\ ihi2 b = ihi2 b' + 1 /\ jlo2 b = jlo2 b' + 1 /\ jhi2 b = jhi2 b' + 1.

Theorem fo_box3_spec rd P N g me : sp_laws rd -> pos3d N -> factors3 P g -> single3 P N -> 0 <= me < P ->
  exists b, fo_box3 rd N g me = Some b /\ off3 b (gbox3 N g me).
Proof.
  intros L. destruct N as [[nx ny] nz], g as [[x y] z]. intros (N1 & N2 & N3) (X & Y & Z' & E) (S1 & S2 & S3) Hm. unfold fo_box3.
  pose proof (ploc_range x y z me X Y Z' ltac:(lia)) as HL. unfold ploc in HL. destruct HL as (L1 & L2 & L3 & _).
  assert (0 <= me / x) by (apply Z.div_pos; lia). assert (1 <= x * y) by nia.
  rewrite !cmod_pos, !cdiv_pos by lia. cbn [bind]. rewrite cmod_pos by lia. cbn [bind].
  unfold gbox3, ploc. set (a := me mod x) in *. set (b := (me / x) mod y) in *. set (c := me / (x * y)) in *.
  assert (1 <= y * z /\ 1 <= x * z) by nia. assert (x <= P /\ y <= P /\ z <= P) by nia. clear E.
  assert (a * nx <= P * nx /\ (a + 1) * nx <= P * nx) by nia. assert (b * ny <= P * ny /\ (b + 1) * ny <= P * ny) by nia.
  assert (c * nz <= P * nz /\ (c + 1) * nz <= P * nz) by nia. assert (nx <= P * nx /\ ny <= P * ny /\ nz <= P * nz) by nia.
  rewrite !fo_lo_spec, !fo_hi_spec by (assumption || lia). cbn [bind]. eexists. split; [reflexivity|].
  unfold off3, part_lo, part_hi. cbn. lia.
Qed.
Theorem fo_box2_spec rd P N g me : sp_laws rd -> pos2d N -> factors2 P g -> single2 P N -> 0 <= me < P ->
  exists b, fo_box2 rd N g me = Some b /\ off2 b (gbox2 N g me).
Proof.
  intros L. destruct N as [nx ny], g as [x y]. intros (N1 & N2) (X & Y & E) (S1 & S2) Hm. unfold fo_box2.
  assert (0 <= me / x) by (apply Z.div_pos; lia). assert (me / x < y) by (apply Z.div_lt_upper_bound; lia).
  pose proof (Z.mod_pos_bound me x ltac:(lia)). rewrite !cmod_pos, !cdiv_pos by lia. cbn [bind].
  unfold gbox2, ploc2. set (a := me mod x) in *. set (b := me / x) in *.
  assert (x <= P /\ y <= P) by nia. clear E.
  assert (a * nx <= P * nx /\ (a + 1) * nx <= P * nx) by nia. assert (b * ny <= P * ny /\ (b + 1) * ny <= P * ny) by nia.
  assert (nx <= P * nx /\ ny <= P * ny) by nia.
  rewrite !fo_lo_spec, !fo_hi_spec by (assumption || lia). cbn [bind]. eexists. split; [reflexivity|].
  unfold off2, part_lo, part_hi. cbn. lia.
Qed.

(** beyond single precision the last point is lost *)
Example fo_cut_lost : fo_box3 fl24 (2 ^ 24 + 1, 1, 1) (1, 1, 1) 0 = Some (mkbox3 1 (2 ^ 24) 1 1 1 1).
Proof. vm_compute. reflexivity. Qed.

(** ** Python: searching *)
Section PyPick.
Context {T : Type} (area : T -> Q).
Definition opick (st : Q * option T) (g : T) : Q * option T := if Qltb (area g) (fst st) then (area g, Some g) else st.
Lemma opick_spec l : forall s d, let r := fold_left opick l (s, d) in
  (r = (s, d) /\ forall c, In c l -> (s <= area c)%Q) \/
  (exists g, snd r = Some g /\ In g l /\ fst r = area g /\ (fst r < s)%Q /\ forall c, In c l -> (fst r <= area c)%Q).
Proof.
  induction l as [|g l IH]; intros s d; cbn [fold_left].
  - left. split; [reflexivity|]. intros c [].
  - set (s' := opick (s, d) g). unfold opick in s'. cbn [fst] in s'. subst s'. destruct (Qltb (area g) s) eqn:E.
    + apply Qltb_lt in E. right. destruct (IH (area g) (Some g)) as [(H1 & H2) | (h & H0 & H1 & H2 & H3 & H4)].
      * exists g. rewrite H1. cbn [fst snd]. split; [reflexivity|]. split; [left; reflexivity|]. split; [reflexivity|]. split; [exact E|].
        intros c [<- | Hc]; [apply Qle_refl|apply H2, Hc].
      * exists h. split; [exact H0|]. split; [right; exact H1|]. split; [exact H2|]. split; [lra|]. intros c [<- | Hc]; [lra|apply H4, Hc].
    + apply Qltb_ge in E. destruct (IH s d) as [(H1 & H2) | (h & H0 & H1 & H2 & H3 & H4)].
      * left. split; [exact H1|]. intros c [<- | Hc]; [exact E|apply H2, Hc].
      * right. exists h. split; [exact H0|]. split; [right; exact H1|]. split; [exact H2|]. split; [exact H3|]. intros c [<- | Hc]; [lra|apply H4, Hc].
Qed.
End PyPick.

Section PyRd.
Variable rd : Q -> Q.
Hypothesis L : rd_laws rd.
Local Notation sq N := (fun g => inject_Z (py_surf3 N g)).
Local Notation sq2 N := (fun g => inject_Z (py_surf2 N g)).
Lemma py_search3_pick P N : py_search3 rd P N = fold_left (opick (sq N)) (cands3 P) (py_best3 rd N, None).
Proof.
  unfold py_search3, cands3. rewrite fold_flat.
  etransitivity; [apply (fold_filter (fun ipx => P mod ipx =? 0) (fun x => x)
    (fun s a => fold_left (fun st ipy => if (P / a) mod ipy =? 0 then opick (sq N) st (a, ipy, P / a / ipy) else st) (upto (P / a)) s))|].
  rewrite map_id. apply fold_ext. intros s a _.
  rewrite (fold_filter (fun ipy => (P / a) mod ipy =? 0) (fun ipy => (a, ipy, P / a / ipy)) (opick (sq N))). reflexivity.
Qed.
Lemma py_search2_pick P N : py_search2 rd P N = fold_left (opick (sq2 N)) (cands2 P) (py_best2 rd N, None).
Proof.
  unfold py_search2, cands2.
  rewrite <- (fold_filter (fun ipx => P mod ipx =? 0) (fun ipx => (ipx, P / ipx)) (opick (sq2 N))). reflexivity.
Qed.
Lemma twice_above z : 1 <= z -> (inject_Z z < rd (2 * rd (inject_Z z)))%Q.
Proof.
  intros H. assert (P : (0 < inject_Z z)%Q) by (apply inj_pos; lia). pose proof (rpos rd L _ P) as R.
  pose proof u_bounds as (U1 & U2). pose proof (proj1 (proj2 (proj2 (proj2 L)))) as rerr. pose proof (proj1 (proj2 L)) as rdouble.
  rewrite (rdouble _ R). destruct (rerr _ R) as (E1 & _). destruct (rerr _ P) as (E2 & _).
  set (q := rd (inject_Z z)) in *. clearbody q. set (q' := rd q) in *. clearbody q'. set (Z' := inject_Z z) in *. clearbody Z'.
  assert ((3 # 4) * Z' <= q)%Q by nra. assert ((3 # 4) * q <= q')%Q by nra. lra.
Qed.
Lemma int_part_le n p : 0 <= n -> 1 <= p -> 0 <= n / p <= n.
Proof. intros. split; [apply Z.div_pos; lia|]. apply Z.div_le_upper_bound; nia. Qed.
Lemma py_surf3_below N g : pos3d N -> (let '(x, y, z) := g in 1 <= x /\ 1 <= y /\ 1 <= z) -> (inject_Z (py_surf3 N g) < py_best3 rd N)%Q.
Proof.
  destruct N as [[nx ny] nz], g as [[px py] pz]. intros (X & Y & Z') (GX & GY & GZ). unfold py_surf3, py_best3.
  eapply Qle_lt_trans; [|apply twice_above; nia]. rewrite <- Zle_Qle.
  pose proof (int_part_le nx px ltac:(lia) GX). pose proof (int_part_le ny py ltac:(lia) GY). pose proof (int_part_le nz pz ltac:(lia) GZ).
  set (a := nx / px) in *. set (b := ny / py) in *. set (c := nz / pz) in *. clearbody a b c.
  assert (a * b <= nx * ny) by nia. assert (b * c <= ny * nz) by nia. assert (c * a <= nz * nx) by nia. lia.
Qed.
Lemma py_surf2_below N g : pos2d N -> (let '(x, y) := g in 1 <= x /\ 1 <= y) -> (inject_Z (py_surf2 N g) < py_best2 rd N)%Q.
Proof.
  destruct N as [nx ny], g as [px py]. intros (X & Y) (GX & GY). unfold py_surf2, py_best2.
  eapply Qle_lt_trans; [|apply twice_above; lia]. rewrite <- Zle_Qle.
  pose proof (int_part_le nx px ltac:(lia) GX). pose proof (int_part_le ny py ltac:(lia) GY). lia.
Qed.
(** among all factorisations the one with the least surface of the boxes rounded down *)
Definition whole3 (N g : Z * Z * Z) : Z :=
  let '(nx, ny, nz) := N in let '(i, j, k) := g in (nx / i) * (ny / j) + (ny / j) * (nz / k) + (nz / k) * (nx / i).
Definition whole2 (N g : Z * Z) : Z := let '(nx, ny) := N in let '(i, j) := g in nx / i + ny / j.
Definition py_smallest3 (P : Z) (N g : Z * Z * Z) : Prop := forall g', factors3 P g' -> whole3 N g <= whole3 N g'.
Definition py_smallest2 (P : Z) (N g : Z * Z) : Prop := forall g', factors2 P g' -> whole2 N g <= whole2 N g'.
Theorem py_proc3d_spec P N : 1 <= P -> pos3d N -> exists g, py_proc3d rd P N = Some g /\ factors3 P g /\ py_smallest3 P N g.
Proof.
  intros HP HN. unfold py_proc3d. rewrite py_search3_pick.
  destruct (opick_spec (sq N) (cands3 P) (py_best3 rd N) None) as [(E & H) | (g & H0 & H1 & H2 & H3 & H4)].
  - exfalso. assert (F : factors3 P (1, 1, P)) by (unfold factors3; lia). apply (cands3_spec P _ HP) in F. specialize (H _ F).
    pose proof (py_surf3_below N (1, 1, P) HN ltac:(cbn; lia)). cbn beta in *. lra.
  - rewrite H0. cbn [bind]. apply (cands3_spec P g HP) in H1. destruct g as [[x y] z]. exists (x, y, z).
    pose proof H1 as (X & Y & Z' & E). rewrite E, Z.eqb_refl. split; [reflexivity|]. split; [exact H1|].
    intros g' Hg. apply (cands3_spec P g' HP) in Hg. specialize (H4 g' Hg). rewrite H2, <- Zle_Qle in H4. exact H4.
Qed.
Lemma py_search2_spec P N : 1 <= P -> pos2d N -> exists g, snd (py_search2 rd P N) = Some g /\ factors2 P g /\ py_smallest2 P N g.
Proof.
  intros HP HN. rewrite py_search2_pick.
  destruct (opick_spec (sq2 N) (cands2 P) (py_best2 rd N) None) as [(E & H) | (g & H0 & H1 & H2 & H3 & H4)].
  - exfalso. assert (F : factors2 P (1, P)) by (unfold factors2; lia). apply (cands2_spec P _ HP) in F. specialize (H _ F).
    pose proof (py_surf2_below N (1, P) HN ltac:(cbn; lia)). cbn beta in *. lra.
  - exists g. split; [exact H0|]. apply (cands2_spec P g HP) in H1. split; [exact H1|].
    intros g' Hg. apply (cands2_spec P g' HP) in Hg. specialize (H4 g' Hg). rewrite H2, <- Zle_Qle in H4. exact H4.
Qed.
Theorem py_proc2d_spec P N : 1 <= P -> pos2d N -> exists g, py_proc2d rd P N = Some g /\ factors2 P g /\ py_smallest2 P N g.
Proof.
  intros HP HN. destruct (py_search2_spec P N HP HN) as (g & E & F & M). unfold py_proc2d. rewrite E. cbn [bind]. exists g. destruct g as [x y].
  pose proof F as (X & Y & E'). rewrite E', Z.eqb_refl. auto.
Qed.
Theorem py_proc2d_of3_spec P N : 1 <= P -> pos3d N ->
  exists g, py_proc2d_of3 rd P N = Some g /\ factors3 P g /\ snd g = 1 /\ py_smallest2 P (fst N) (fst g).
Proof.
  intros HP HN. destruct N as [[nx ny] nz]. destruct HN as (X & Y & _).
  destruct (py_search2_spec P (nx, ny) HP (conj X Y)) as (g & E & F & M). unfold py_proc2d_of3. rewrite E. cbn [bind]. destruct g as [x y].
  pose proof F as (Hx & Hy & E'). exists (x, y, 1). rewrite Z.mul_1_r, E', Z.eqb_refl. cbn [snd fst].
  split; [reflexivity|]. split; [unfold factors3; lia|]. auto.
Qed.

(** the boxes of all ranks tile the grid, whatever grid of processors is chosen *)
Theorem py_layout3 (n : nat) mode N pin pout : (1 <= n)%nat -> pos3d N -> small3 (Z.of_nat n) N -> 0 <= mode <= 3 ->
  given3 (Z.of_nat n) pin -> given3 (Z.of_nat n) pout ->
  exists gi go, py_proc_setup3 rd (Z.of_nat n) mode N pin pout = Some (gi, go) /\
    factors3 (Z.of_nat n) gi /\ factors3 (Z.of_nat n) go /\
    (pin <> (0, 0, 0) -> gi = pin) /\ (pin = (0, 0, 0) -> py_smallest3 (Z.of_nat n) N gi) /\
    (pout <> (0, 0, 0) -> go = pout) /\
    (pout = (0, 0, 0) -> mode = 0 \/ mode = 2 -> py_smallest3 (Z.of_nat n) N go) /\
    (pout = (0, 0, 0) -> mode = 1 \/ mode = 3 -> snd go = 1 /\ py_smallest2 (Z.of_nat n) (fst N) (fst go)) /\
    (forall r, (r < n)%nat -> tbox3 rd N gi (Z.of_nat r) = Some (tiles3 N gi r) /\ tbox3 rd N go (Z.of_nat r) = Some (tiles3 N go r)) /\
    tiling3 n N (tiles3 N gi) /\ tiling3 n N (tiles3 N go).
Proof.
  intros Hn HN Hs Hm Hi Ho. set (P := Z.of_nat n) in *. assert (HP : 1 <= P) by (unfold P; lia).
  assert (A : exists gi, (if unset3 pin then py_proc3d rd P N else Some pin) = Some gi /\ factors3 P gi /\ (pin <> (0, 0, 0) -> gi = pin) /\ (pin = (0, 0, 0) -> py_smallest3 P N gi)).
  { destruct Hi as [-> | Hi].
    - destruct (py_proc3d_spec P N HP HN) as (g & E & F & M). exists g. cbn [unset3 Z.eqb andb]. split; [exact E|]. split; [exact F|]. split; [congruence|auto].
    - rewrite (unset3_factors P pin Hi). exists pin. split; [reflexivity|]. split; [exact Hi|]. split; [reflexivity|]. intros ->. destruct Hi; lia. }
  assert (B : exists go, (if unset3 pout then if (mode =? 0) || (mode =? 2) then py_proc3d rd P N else if (mode =? 1) || (mode =? 3) then py_proc2d_of3 rd P N else Some pout else Some pout) = Some go /\
     factors3 P go /\ (pout <> (0, 0, 0) -> go = pout) /\ (pout = (0, 0, 0) -> mode = 0 \/ mode = 2 -> py_smallest3 P N go) /\
     (pout = (0, 0, 0) -> mode = 1 \/ mode = 3 -> snd go = 1 /\ py_smallest2 P (fst N) (fst go))).
  { destruct Ho as [-> | Ho].
    - cbn [unset3 Z.eqb andb]. destruct ((mode =? 0) || (mode =? 2)) eqn:E02.
      + destruct (py_proc3d_spec P N HP HN) as (g & E & F & M). exists g. split; [exact E|]. split; [exact F|]. split; [congruence|]. split; [auto|].
        intros _ H. apply orb_true_iff in E02. rewrite !Z.eqb_eq in E02. lia.
      + destruct ((mode =? 1) || (mode =? 3)) eqn:E13.
        * destruct (py_proc2d_of3_spec P N HP HN) as (g & E & F & S1 & M). exists g.
          split; [exact E|]. split; [exact F|]. split; [congruence|]. split; [|auto].
          intros _ H. apply orb_false_iff in E02. rewrite !Z.eqb_neq in E02. lia.
        * apply orb_false_iff in E02, E13. rewrite !Z.eqb_neq in E02, E13. lia.
    - rewrite (unset3_factors P pout Ho). exists pout. split; [reflexivity|]. split; [exact Ho|]. split; [reflexivity|].
      split; intros ->; destruct Ho; lia. }
  destruct A as (gi & A1 & A2 & A3 & A4). destruct B as (go & B1 & B2 & B3 & B4 & B5). exists gi, go.
  split. { unfold py_proc_setup3. rewrite A1. cbn [bind]. rewrite B1. reflexivity. }
  split; [exact A2|]. split; [exact B2|]. split; [exact A3|]. split; [exact A4|]. split; [exact B3|]. split; [exact B4|]. split; [exact B5|].
  split. { intros r Hr. split; apply (tbox3_spec rd L P); auto; unfold P; lia. }
  split; apply tiles3_tiling; assumption.
Qed.
Theorem py_layout2 (n : nat) N pin pout : (1 <= n)%nat -> pos2d N -> small2 (Z.of_nat n) N ->
  given2 (Z.of_nat n) pin -> given2 (Z.of_nat n) pout ->
  exists gi go, py_proc_setup2 rd (Z.of_nat n) N pin pout = Some (gi, go) /\
    factors2 (Z.of_nat n) gi /\ factors2 (Z.of_nat n) go /\
    (pin <> (0, 0) -> gi = pin) /\ (pin = (0, 0) -> py_smallest2 (Z.of_nat n) N gi) /\
    (pout <> (0, 0) -> go = pout) /\ (pout = (0, 0) -> go = (Z.of_nat n, 1)) /\
    (forall r, (r < n)%nat -> tbox2 rd N gi (Z.of_nat r) = Some (tiles2 N gi r) /\ tbox2 rd N go (Z.of_nat r) = Some (tiles2 N go r)) /\
    tiling2 n N (tiles2 N gi) /\ tiling2 n N (tiles2 N go).
Proof.
  intros Hn HN Hs Hi Ho. set (P := Z.of_nat n) in *. assert (HP : 1 <= P) by (unfold P; lia).
  assert (A : exists gi, (if unset2 pin then py_proc2d rd P N else Some pin) = Some gi /\ factors2 P gi /\ (pin <> (0, 0) -> gi = pin) /\ (pin = (0, 0) -> py_smallest2 P N gi)).
  { destruct Hi as [-> | Hi].
    - destruct (py_proc2d_spec P N HP HN) as (g & E & F & M). exists g. cbn [unset2 Z.eqb andb]. split; [exact E|]. split; [exact F|]. split; [congruence|auto].
    - rewrite (unset2_factors P pin Hi). exists pin. split; [reflexivity|]. split; [exact Hi|]. split; [reflexivity|]. intros ->. destruct Hi; lia. }
  destruct A as (gi & A1 & A2 & A3 & A4). exists gi, (if unset2 pout then (P, 1) else pout).
  assert (B : factors2 P (if unset2 pout then (P, 1) else pout) /\ (pout <> (0, 0) -> (if unset2 pout then (P, 1) else pout) = pout) /\ (pout = (0, 0) -> (if unset2 pout then (P, 1) else pout) = (P, 1))).
  { destruct Ho as [-> | Ho].
    - cbn [unset2 Z.eqb andb]. split; [unfold factors2; lia|]. split; [congruence|reflexivity].
    - rewrite (unset2_factors P pout Ho). split; [exact Ho|]. split; [reflexivity|]. intros ->. destruct Ho; lia. }
  destruct B as (B1 & B2 & B3).
  split. { unfold py_proc_setup2. rewrite A1. reflexivity. }
  split; [exact A2|]. split; [exact B1|]. split; [exact A3|]. split; [exact A4|]. split; [exact B2|]. split; [exact B3|].
  split. { intros r Hr. split; apply (tbox2_spec rd L P); auto; unfold P; lia. }
  split; apply tiles2_tiling; assumption.
Qed.
End PyRd.

(** 4 x 4 x 4 points on 64 ranks: 1 x 8 x 8 processors although 4 x 4 x 4 have the least true surface; half of the ranks of a
    line have no point *)
Example py_bad_grid : py_proc3d fl 64 (4, 4, 4) = Some (1, 8, 8) /\ proc3d fl 64 (4, 4, 4) = Some (4, 4, 4) /\
  tbox3 fl (4, 4, 4) (1, 8, 8) 0 = Some (mkbox3 0 3 0 (-1) 0 (-1)).
Proof. vm_compute. auto. Qed.
