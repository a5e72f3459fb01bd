(** DoubleFma.v : procfactors and surfarea (src/fft3d.cpp:1766-1864) where the compiler fuses products with sums: a product
    that is an operand of a sum may be kept exact.  Which ones are is a parameter, for the two expressions separately and for
    every processor grid (a compiler may expand the function six times).  In 2d (src/fft2d.cpp:1558-1614) no sum occurs. *)

From Coq Require Import QArith Qround Qpower Qabs Lia Lqa.
From Verif Require Import Base Layout LayoutProofs Double DoubleProofs.
Local Open Scope Z_scope.

(** a product: exact, or rounded *)
Definition kept (b : bool) (q : Q) : Q := if b then q else fl q.

(** src/fft3d.cpp:48, 1776, 1860-1863; src/fft2d.cpp:48, 1566, 1611-1613 *)
Definition fused_areas (k0 : nat -> bool) (ks : Z * Z * Z -> nat -> bool) : areas := {|
  aD := Q;
  alt := Qltb;
  abig := fl (inject_Z (10 ^ 20));
  astart3 nx ny nz :=
    let nx := inject_Z nx in let ny := inject_Z ny in let nz := inject_Z nz in
    fl (fl (kept (k0 0%nat) (fl (2 * nx) * ny) + kept (k0 1%nat) (fl (2 * ny) * nz)) + kept (k0 2%nat) (fl (2 * nx) * nz));
  asurf3 i j k nx ny nz :=
    let dx := fl (fl (1 * inject_Z nx) / inject_Z i) in
    let dy := fl (fl (1 * inject_Z ny) / inject_Z j) in
    let dz := fl (fl (1 * inject_Z nz) / inject_Z k) in
    fl (fl (kept (ks (i, j, k) 0%nat) (dx * dy) + kept (ks (i, j, k) 1%nat) (dy * dz)) + kept (ks (i, j, k) 2%nat) (dx * dz));
  astart2 := astart2 double_areas;
  asurf2 := asurf2 double_areas |}.

Local Notation lo := (1 - u)%Q.
Local Notation hi := (1 + u)%Q.
Local Notation lo3 := (lo * (lo * lo))%Q.
Local Notation hi3 := (hi * (hi * hi))%Q.
Local Notation lo5 := (lo * (lo * lo3))%Q.
Local Notation hi5 := (hi * (hi * hi3))%Q.

Lemma near_kept b l h a A : (0 < l)%Q -> (0 < A)%Q -> near l h a A -> (0 <= h)%Q -> near (lo * l) (hi * h) (kept b a) A.
Proof.
  intros Hl HA H Hh. destruct b; cbn [kept]; [|now apply near_fl].
  apply near_weak with l h; auto.
  - setoid_replace l with (1 * l)%Q at 2 by ring. apply Qmult_le_compat_r; [|lra]. apply Qle_bool_iff. vm_compute. reflexivity.
  - setoid_replace h with (1 * h)%Q at 1 by ring. apply Qmult_le_compat_r; [|lra]. apply Qle_bool_iff. vm_compute. reflexivity.
Qed.

(** three products and two sums *)
Lemma three_near b0 b1 b2 a b c A B C : (0 < A)%Q -> (0 < B)%Q -> (0 < C)%Q ->
  near (lo * lo) (hi * hi) a A -> near (lo * lo) (hi * hi) b B -> near (lo * lo) (hi * hi) c C ->
  near lo5 hi5 (fl (fl (kept b0 a + kept b1 b) + kept b2 c)) (A + B + C).
Proof.
  intros HA HB HC Na Nb Nc. assert (P : (0 < lo * lo)%Q) by reflexivity. assert (P' : (0 <= hi * hi)%Q) by discriminate.
  pose proof (near_kept b0 _ _ _ _ P HA Na P') as A1. pose proof (near_kept b1 _ _ _ _ P HB Nb P') as B1. pose proof (near_kept b2 _ _ _ _ P HC Nc P') as C1.
  apply near_fl; [reflexivity|lra|]. apply near_add.
  - apply near_fl; [reflexivity|lra|]. now apply near_add.
  - eapply near_weak; [| |exact HC|exact C1]; apply Qle_bool_iff; vm_compute; reflexivity.
Qed.

Lemma surf_near_fused k0 ks i j k nx ny nz : 1 <= i -> 1 <= j -> 1 <= k -> in_int nx -> in_int ny -> in_int nz ->
  near lo5 hi5 (asurf3 (fused_areas k0 ks) i j k nx ny nz) (surface3 nx ny nz (i, j, k)).
Proof.
  intros Hi Hj Hk Hx Hy Hz. cbn [asurf3 fused_areas surface3]. cbv zeta.
  pose proof (width_near nx i Hx Hi) as A. pose proof (width_near ny j Hy Hj) as B. pose proof (width_near nz k Hz Hk) as C.
  unfold width in A, B, C. unfold in_int in *.
  assert (Pa : (0 < qdiv nx i)%Q) by (apply qdiv_pos; lia). assert (Pb : (0 < qdiv ny j)%Q) by (apply qdiv_pos; lia). assert (Pc : (0 < qdiv nz k)%Q) by (apply qdiv_pos; lia).
  apply three_near; try (now apply mul_pos); apply near_mul; auto; reflexivity.
Qed.

Lemma start_near_fused k0 ks nx ny nz : in_int nx -> in_int ny -> in_int nz ->
  near lo5 hi5 (astart3 (fused_areas k0 ks) nx ny nz) (2 * surface3 nx ny nz (1, 1, 1)%Z).
Proof.
  intros Hx Hy Hz. cbn [astart3 fused_areas surface3]. cbv zeta.
  assert (W : forall n, in_int n -> (0 < inject_Z n)%Q /\ (qdiv n 1 == inject_Z n)%Q /\ near (lo * lo) (hi * hi) (fl (2 * inject_Z n)) (2 * inject_Z n)).
  { intros n Hn. unfold in_int, INT_MAX in Hn. assert (Pn : (0 < inject_Z n)%Q) by (apply inj_pos; lia). split; [exact Pn|].
    split; [unfold qdiv; setoid_replace (inject_Z n / inject_Z 1)%Q with (inject_Z n)%Q by (field; discriminate); reflexivity|].
    assert (E : (fl (2 * inject_Z n) == 2 * inject_Z n)%Q) by (rewrite fl_double by exact Pn; rewrite fl_int by lia; reflexivity).
    split; rewrite E; [setoid_replace (2 * inject_Z n)%Q with (1 * (2 * inject_Z n))%Q at 2 by ring|setoid_replace (2 * inject_Z n)%Q with (1 * (2 * inject_Z n))%Q at 1 by ring];
      (apply Qmult_le_compat_r; [|lra]); apply Qle_bool_iff; vm_compute; reflexivity. }
  destruct (W nx Hx) as (Px & Ex & Nx), (W ny Hy) as (Py & Ey & Ny), (W nz Hz) as (Pz & Ez & _).
  assert (S : forall a b, (0 < a)%Q -> (0 < b)%Q -> near (lo * lo) (hi * hi) (fl (2 * a)) (2 * a) -> near (lo * lo) (hi * hi) (fl (2 * a) * b) (2 * (a * b))).
  { intros a b Pa Pb (N1 & N2). split.
    - setoid_replace (lo * lo * (2 * (a * b)))%Q with (lo * lo * (2 * a) * b)%Q by ring. apply Qmult_le_compat_r; [exact N1|lra].
    - setoid_replace (hi * hi * (2 * (a * b)))%Q with (hi * hi * (2 * a) * b)%Q by ring. apply Qmult_le_compat_r; [exact N2|lra]. }
  assert (Pm : forall a b, (0 < a)%Q -> (0 < b)%Q -> (0 < 2 * (a * b))%Q) by (intros a b Pa Pb; pose proof (mul_pos a b Pa Pb); lra).
  pose proof (three_near (k0 0%nat) (k0 1%nat) (k0 2%nat) _ _ _ _ _ _ (Pm _ _ Px Py) (Pm _ _ Py Pz) (Pm _ _ Px Pz) (S _ _ Px Py Nx) (S _ _ Py Pz Ny) (S _ _ Px Pz Nx)) as (T1 & T2).
  assert (E : (2 * (qdiv nx 1 * qdiv ny 1 + qdiv ny 1 * qdiv nz 1 + qdiv nx 1 * qdiv nz 1) ==
               2 * (inject_Z nx * inject_Z ny) + 2 * (inject_Z ny * inject_Z nz) + 2 * (inject_Z nx * inject_Z nz))%Q) by (rewrite Ex, Ey, Ez; ring).
  split; rewrite E; assumption.
Qed.

Lemma surface_le nx ny nz i j k : in_int nx -> in_int ny -> in_int nz -> 1 <= i -> 1 <= j -> 1 <= k ->
  (surface3 nx ny nz (i, j, k) <= surface3 nx ny nz (1, 1, 1)%Z)%Q.
Proof.
  intros Hx Hy Hz Hi Hj Hk. cbn [surface3]. unfold in_int in *.
  assert (W : forall n i, 1 <= n -> 1 <= i -> (0 < qdiv n i)%Q /\ (qdiv n i <= qdiv n 1)%Q).
  { intros n a Hn Ha. split; [now apply qdiv_pos|]. unfold qdiv. setoid_replace (inject_Z n / inject_Z 1)%Q with (inject_Z n)%Q by (field; discriminate).
    apply Qle_shift_div_r; [apply inj_pos; lia|]. rewrite <- inject_Z_mult, <- Zle_Qle. nia. }
  destruct (W nx i) as (A1 & A2), (W ny j) as (B1 & B2), (W nz k) as (C1 & C2); try lia.
  pose proof (mul_le _ _ _ _ A1 A2 B1 B2). pose proof (mul_le _ _ _ _ B1 B2 C1 C2). pose proof (mul_le _ _ _ _ A1 A2 C1 C2). lra.
Qed.

Lemma fused_laws k0 ks : area_laws (fused_areas k0 ks).
Proof.
  destruct double_laws as (_ & _ & _ & L4 & L5).
  unfold area_laws. split; [exact Qltb_trans|]. split; [|split; [|split; [exact L4|exact L5]]].
  - intros nx ny nz Hx Hy Hz. apply Qltb_ge. destruct (start_near_fused k0 ks nx ny nz Hx Hy Hz) as (_ & H).
    eapply Qle_trans; [exact H|]. cbn [abig fused_areas]. rewrite big_eq. cbn [surface3].
    assert (W : forall n, in_int n -> (0 < qdiv n 1)%Q /\ (qdiv n 1 <= 2 ^ 31)%Q).
    { intros n Hn. split; [unfold in_int in Hn; apply qdiv_pos; lia|]. unfold qdiv. setoid_replace (inject_Z n / inject_Z 1)%Q with (inject_Z n)%Q by (field; discriminate). now apply int_le_p2. }
    destruct (W nx Hx) as (A1 & A2), (W ny Hy) as (B1 & B2), (W nz Hz) as (C1 & C2).
    pose proof (mul_le _ _ _ _ A1 A2 B1 B2). pose proof (mul_le _ _ _ _ B1 B2 C1 C2). pose proof (mul_le _ _ _ _ A1 A2 C1 C2).
    change (2 ^ 31 * 2 ^ 31)%Q with (inject_Z 4611686018427387904) in *.
    apply Qle_trans with (hi5 * (6 * inject_Z 4611686018427387904))%Q; [|apply Qle_bool_iff; vm_compute; reflexivity].
    rewrite (Qmult_comm hi5), (Qmult_comm hi5). apply Qmult_le_compat_r; [lra|discriminate].
  - intros i j k nx ny nz Hi Hj Hk Hx Hy Hz. apply Qltb_lt.
    destruct (start_near_fused k0 ks nx ny nz Hx Hy Hz) as (H1 & _). destruct (surf_near_fused k0 ks i j k nx ny nz Hi Hj Hk Hx Hy Hz) as (_ & H2).
    pose proof (surface_le nx ny nz i j k Hx Hy Hz Hi Hj Hk) as H3. eapply Qle_lt_trans; [exact H2|]. eapply Qlt_le_trans; [|exact H1].
    set (S := surface3 nx ny nz (i, j, k)) in *. set (T := surface3 nx ny nz (1, 1, 1)%Z) in *.
    assert (PT : (0 < T)%Q).
    { unfold T. cbn [surface3]. unfold in_int in *.
      assert (0 < qdiv nx 1 * qdiv ny 1)%Q by (apply mul_pos; apply qdiv_pos; lia).
      assert (0 < qdiv ny 1 * qdiv nz 1)%Q by (apply mul_pos; apply qdiv_pos; lia).
      assert (0 < qdiv nx 1 * qdiv nz 1)%Q by (apply mul_pos; apply qdiv_pos; lia). lra. }
    clearbody S T. apply Qle_lt_trans with (hi5 * T)%Q.
    + rewrite (Qmult_comm hi5), (Qmult_comm hi5). apply Qmult_le_compat_r; [exact H3|discriminate].
    + setoid_replace (lo5 * (2 * T))%Q with (lo5 * 2 * T)%Q by ring. apply Qmult_lt_compat_r; [exact PT|reflexivity].
Qed.

(** the chosen grid is the best one up to rounding, as in C15 *)
Lemma fused_min k0 ks P nx ny nz g t : 1 <= P -> in_int nx -> in_int ny -> in_int nz -> (length (small_divisors P) <= NFACTOR)%nat ->
  procfactors (fused_areas k0 ks) P nx ny nz = Some g -> good_grid3 P nx ny nz t ->
  (surface3 nx ny nz g <= (1 + (1 # 2 ^ 49)) * surface3 nx ny nz t)%Q.
Proof.
  intros HP Hx Hy Hz Hl Hg Ht.
  assert (H := procfactors_min (fused_areas k0 ks) (fused_laws k0 ks)
    ltac:(cbn [alt fused_areas]; intros a b c A B; apply Qltb_ge in A, B; apply Qltb_ge; eapply Qle_trans; eassumption)
    ltac:(cbn [alt fused_areas]; intros a b A; apply Qltb_lt in A; apply Qltb_ge; now apply Qlt_le_weak)
    P nx ny nz HP Hx Hy Hz g Hl Hg t Ht).
  assert (Gg : good_grid3 P nx ny nz g) by (eapply procfactors_some; eauto using fused_laws).
  destruct g as [[i j] k], t as [[x y] z]. destruct Gg as (G1 & G2 & G3 & _). destruct Ht as (T1 & T2 & T3 & _).
  cbn [fst snd] in H. apply Qltb_ge in H.
  destruct (surf_near_fused k0 ks i j k nx ny nz G1 G2 G3 Hx Hy Hz) as [A _]. destruct (surf_near_fused k0 ks x y z nx ny nz T1 T2 T3 Hx Hy Hz) as [_ B].
  set (S := surface3 nx ny nz (i, j, k)) in *. set (T := surface3 nx ny nz (x, y, z)) in *.
  assert (PT : (0 < T)%Q).
  { unfold T. cbn [surface3]. unfold in_int in *.
    assert (0 < qdiv nx x * qdiv ny y)%Q by (apply mul_pos; apply qdiv_pos; lia).
    assert (0 < qdiv ny y * qdiv nz z)%Q by (apply mul_pos; apply qdiv_pos; lia).
    assert (0 < qdiv nx x * qdiv nz z)%Q by (apply mul_pos; apply qdiv_pos; lia). lra. }
  assert (C : (lo5 * S <= hi5 * T)%Q) by (eapply Qle_trans; [exact A|eapply Qle_trans; [exact H|exact B]]).
  assert (D : (hi5 <= lo5 * (1 + (1 # 2 ^ 49)))%Q) by (apply Qle_bool_iff; vm_compute; reflexivity).
  assert (E : (lo5 * S <= lo5 * ((1 + (1 # 2 ^ 49)) * T))%Q).
  { eapply Qle_trans; [exact C|]. rewrite (Qmult_assoc lo5 (1 + (1 # 2 ^ 49)) T). apply Qmult_le_compat_r; [exact D|now apply Qlt_le_weak]. }
  apply Qmult_le_l in E; [exact E|reflexivity].
Qed.

(** without fusing it is the arithmetic of Double.v *)
Lemma fused_none i j k nx ny nz : astart3 (fused_areas (fun _ => false) (fun _ _ => false)) nx ny nz = astart3 double_areas nx ny nz /\
  asurf3 (fused_areas (fun _ => false) (fun _ _ => false)) i j k nx ny nz = asurf3 double_areas i j k nx ny nz.
Proof. split; reflexivity. Qed.

(** 18 processes, a 16x16x16 grid: the processes share out the yz plane as 3x6 without fusing, and as 6x3 if the second and the
    third product are fused.  Processes 1 and 2 of a job whose processes run differently compiled programs would both claim the
    points with y = 5, z = 0 *)
Definition fused23 : areas := fused_areas (fun _ => false) (fun _ i => negb (Nat.eqb i 0)).
Lemma fused_grids : exists g g' r r' p, procfactors double_areas 18 1 16 16 = Some g /\ procfactors fused23 18 1 16 16 = Some g' /\
  0 <= r < 18 /\ 0 <= r' < 18 /\ r <> r' /\ Spec.inb3 p (fast_box3 (16, 16, 16) g r) /\ Spec.inb3 p (fast_box3 (16, 16, 16) g' r').
Proof.
  exists (1, 3, 6), (1, 6, 3), 1, 2, (0, 5, 0). split; [vm_compute; reflexivity|]. split; [vm_compute; reflexivity|].
  split; [lia|]. split; [lia|]. split; [lia|]. split; vm_compute; repeat split; discriminate.
Qed.
