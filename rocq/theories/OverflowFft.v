(** OverflowFft.v : the int arithmetic of FFT3d::setup and FFT2d::setup. *)

From Verif Require Import Base Spec Pack3d Pack2d Sched Remap Remap3d Remap2d RemapPlan RemapTriple RemapMain RemapInst RemapThms RemapTop.
From Verif Require Import Layout LayoutProofs Count Setup3d Setup3dProofs Setup2d Setup2dProofs Wrap Overflow OverflowProofs.
Local Open Scope Z_scope.

Ltac ap := repeat match goal with |- all_safe (_ ++ _) => apply safe_app end.

(** ** processor grids *)
Lemma BMX : BIG_MAX = 9223372036854775807. Proof. reflexivity. Qed.
Lemma BMN : BIG_MIN = -9223372036854775808. Proof. reflexivity. Qed.

Section Grid.
Variable P : Z.
Hypothesis HP : 1 <= P.
Hypothesis HP7 : 7 * P <= INT_MAX.

Lemma sqrt_facts : 1 <= Z.sqrt P <= P /\ Z.sqrt P * Z.sqrt P <= P.
Proof.
  pose proof (Z.sqrt_spec P ltac:(lia)) as H. cbv beta zeta in H.
  assert (1 <= Z.sqrt P) by (apply (Z.sqrt_le_mono 1 P); lia). nia.
Qed.
Lemma sqroot_ints_safe : all_safe (sqroot_ints P).
Proof.
  pose proof sqrt_facts as (H1 & H2). unfold sqroot_ints. sc; sf; rewrite ?IMX, ?IMN in *; unfold int_ok; rewrite IMX, IMN; nia.
Qed.
Lemma count_factor_safe : all_safe (count_to (zlen (factor P))).
Proof. apply safe_count. pose proof (factor_length P). unfold zlen, NFACTOR in *. rewrite IMX. lia. Qed.
Lemma factor_ints_safe : all_safe (factor_ints P).
Proof.
  pose proof sqrt_facts as (H1 & H2). unfold factor_ints. repeat apply safe_app.
  - apply sqroot_ints_safe.
  - apply safe_flat. intros i Hi. apply In_zrange in Hi. rewrite sqroot_eq in Hi by lia. unfold incr.
    sc; sf; spl; try lia; try iok. rewrite Z.rem_mod_nonneg by lia. pose proof (Z.mod_pos_bound P (i + 1) ltac:(lia)). iok.
  - apply count_factor_safe.
Qed.
Lemma factor_le d : In d (factor P) -> 1 <= d <= P /\ d * d <= P.
Proof. intros H. apply factor_In in H; [|lia]. nia. Qed.
Lemma div_le a b : 0 <= a -> 1 <= b -> 0 <= a / b <= a.
Proof. intros. split; [apply Z.div_pos; lia|apply Z.div_le_upper_bound; nia]. Qed.

Lemma pf_ints_safe fs : (forall d, In d fs -> 1 <= d <= P /\ d * d <= P) -> all_safe (pf_ints P fs).
Proof.
  induction fs as [|i fs IH]; intros H; cbn [pf_ints]; [apply safe_nil|].
  assert (Hi : 1 <= i <= P /\ i * i <= P) by (apply H; now left).
  assert (IH' : all_safe (pf_ints P fs)) by (apply IH; intros; apply H; now right).
  assert (D1 : 0 <= P / i <= P) by (apply div_le; lia).
  apply safe_cons.
  - sf. rewrite Z.quot_div_nonneg by lia. iok.
  - apply safe_app; [|exact IH']. apply safe_flat. intros j Hj. apply H in Hj. cbv zeta.
    assert (D2 : 0 <= P / i / j <= P / i) by (apply div_le; lia).
    assert (D3 : 0 <= i * j <= P) by nia.
    assert (D4 : 0 <= i * j * (P / i / j) <= P).
    { rewrite Z.div_div by lia. split; [apply Z.mul_nonneg_nonneg; [lia|apply Z.div_pos; nia]|]. apply Z.mul_div_le. nia. }
    sc; sf; rewrite ?Z.quot_div_nonneg by lia; spl; try lia; unfold int_ok; rewrite IMN in *; rewrite IMX in *; lia.
Qed.
Lemma procfactors_ints_safe me a b c : 1 <= a -> 1 <= b -> 1 <= c -> a * b * c = P -> 0 <= me < P ->
  all_safe (procfactors_ints P me (a, b, c)).
Proof.
  intros A B C E Hm. unfold procfactors_ints. repeat apply safe_app.
  - apply sqroot_ints_safe.
  - apply count_factor_safe.
  - apply pf_ints_safe. apply factor_le.
  - assert (Hab : 1 <= a * b) by nia. assert (a * b <= P) by nia. assert (a <= P) by nia. assert (b <= P) by nia.
    assert (D1 : 0 <= me / a <= me) by (apply div_le; lia). assert (D2 : 0 <= me / (a * b) <= me) by (apply div_le; lia).
    pose proof (Z.mod_pos_bound me a ltac:(lia)). pose proof (Z.mod_pos_bound (me / a) b ltac:(lia)).
    sc; sf; rewrite ?Z.quot_div_nonneg, ?Z.rem_mod_nonneg by lia; spl; try lia; unfold int_ok; rewrite IMN in *; rewrite IMX in *; lia.
Qed.
Lemma pf_ints2_safe fs : (forall d, In d fs -> 1 <= d <= P /\ d * d <= P) -> all_safe (pf_ints2 P fs).
Proof.
  induction fs as [|i fs IH]; intros H; cbn [pf_ints2]; [apply safe_nil|].
  assert (Hi : 1 <= i <= P /\ i * i <= P) by (apply H; now left).
  assert (IH' : all_safe (pf_ints2 P fs)) by (apply IH; intros; apply H; now right).
  assert (D1 : 0 <= P / i <= P) by (apply div_le; lia).
  apply safe_app; [|exact IH']. apply safe_flat. intros j Hj. cbv zeta.
  pose proof (Z.mul_div_le P i ltac:(lia)).
  assert (0 <= i * (P / i)) by (apply Z.mul_nonneg_nonneg; lia).
  sc; sf; rewrite ?Z.quot_div_nonneg by lia; spl; try lia; unfold int_ok; rewrite IMN in *; rewrite IMX in *; lia.
Qed.
Lemma procfactors_ints2_safe me a b : 1 <= a -> 1 <= b -> a * b = P -> 0 <= me < P -> all_safe (procfactors_ints2 P me (a, b)).
Proof.
  intros A B E Hm. unfold procfactors_ints2. repeat apply safe_app.
  - apply sqroot_ints_safe.
  - apply count_factor_safe.
  - apply pf_ints2_safe. apply factor_le.
  - assert (a <= P) by nia.
    assert (D1 : 0 <= me / a <= me) by (apply div_le; lia). pose proof (Z.mod_pos_bound me a ltac:(lia)).
    sc; sf; rewrite ?Z.quot_div_nonneg, ?Z.rem_mod_nonneg by lia; spl; try lia; unfold int_ok; rewrite IMN in *; rewrite IMX in *; lia.
Qed.
End Grid.

(** ** index ranges *)
Lemma part_ints_safe ip n np : 0 <= ip < np -> 0 <= n <= INT_MAX -> np <= INT_MAX -> np * n <= INT_MAX -> all_safe (part_ints ip n np).
Proof.
  intros Hi Hn Hp H.
  assert (H1 : 0 <= ip * n <= np * n) by (apply mul_mono; lia). assert (H2 : 0 <= (ip + 1) * n <= np * n) by (apply mul_mono; lia).
  pose proof (div_le (ip * n) np ltac:(lia) ltac:(lia)). pose proof (div_le ((ip + 1) * n) np ltac:(lia) ltac:(lia)).
  unfold part_ints, part_lo_e, part_hi_e. sc; sf; rewrite ?Z.quot_div_nonneg by lia; spl; try lia; unfold int_ok; rewrite IMN in *; rewrite IMX in *; lia.
Qed.
(** the last part multiplies the number of parts with the size *)
Lemma part_ints_last n np : all_safe (part_ints (np - 1) n np) -> 0 <= n -> np * n <= INT_MAX.
Proof.
  intros H Hn. specialize (H (part_hi_e (np - 1) n np) ltac:(right; left; reflexivity)). revert H. unfold part_hi_e. sf.
  intros H. destruct H as (((_ & _ & H) & _) & _). unfold int_ok in H. replace (np - 1 + 1) with np in H by lia. lia.
Qed.

Lemma part_bounds ip n np : 0 <= n -> 0 <= ip < np -> 0 <= part_lo ip n np /\ part_hi ip n np < n.
Proof.
  intros Hn Hi. unfold part_lo, part_hi. split; [apply Z.div_pos; nia|].
  assert ((ip + 1) * n / np <= n) by (apply Z.div_le_upper_bound; nia). lia.
Qed.
Lemma gbox3_inside x y z g me : 1 <= x -> 1 <= y -> 1 <= z ->
  (let '(a, b, c) := g in 1 <= a /\ 1 <= b /\ 1 <= c /\ 0 <= me < a * b * c) -> inside3 (x, y, z) (gbox3 (x, y, z) g me).
Proof.
  intros X Y Z' H. destruct g as [[a b] c]. destruct H as (A & B & C & Hm).
  split; [apply gbox3_legal; lia|].
  pose proof (ploc_range a b c me A B C Hm) as R. unfold gbox3. destruct (ploc (a, b, c) me) as [[i j] k]. destruct R as (R1 & R2 & R3 & _).
  pose proof (part_bounds i x a ltac:(lia) R1). pose proof (part_bounds j y b ltac:(lia) R2). pose proof (part_bounds k z c ltac:(lia) R3).
  cbn [ilo ihi jlo jhi klo khi]. lia.
Qed.
Lemma gbox2_inside x y g me : 1 <= x -> 1 <= y ->
  (let '(a, b) := g in 1 <= a /\ 1 <= b /\ 0 <= me < a * b) -> inside2 (x, y) (gbox2 (x, y) g me).
Proof.
  intros X Y H. destruct g as [a b]. destruct H as (A & B & Hm). unfold gbox2. cbn [ploc2].
  pose proof (Z.mod_pos_bound me a ltac:(lia)) as R1.
  assert (R2 : 0 <= me / a < b) by (split; [apply Z.div_pos; lia|apply Z.div_lt_upper_bound; lia]).
  pose proof (part_bounds _ x a ltac:(lia) R1). pose proof (part_bounds _ y b ltac:(lia) R2).
  pose proof (part_legal (me mod a) x a ltac:(lia) ltac:(lia)). pose proof (part_legal (me / a) y b ltac:(lia) ltac:(lia)).
  unfold inside2, legal2, ni2, nj2. cbn [ilo2 ihi2 jlo2 jhi2]. lia.
Qed.

(** ** FFT3d::setup *)

(** number of processors times number of grid points, in every dimension *)
Definition grid_fits3 (N g : Z * Z * Z) : Prop :=
  let '(x, y, z) := N in let '(a, b, c) := g in a * x <= INT_MAX /\ b * y <= INT_MAX /\ c * z <= INT_MAX.
(** ... for the processor grids that this setup uses *)
Definition grids_fit3 (ar : areas) (f : fft3) : Prop :=
  let '(x, y, z) := f_N f in let P := Z.of_nat (f_n f) in
  (f_pre f = true -> grid_fits3 (f_N f) (og (procfactors ar P 1 y z))) /\
  grid_fits3 (f_N f) (og (procfactors ar P x 1 z)) /\
  (f_post f = true -> grid_fits3 (f_N f) (og (procfactors ar P x y 1))) /\
  (f_exch f = true -> grid_fits3 (f_N f) (og (procfactors ar P x y z))).
(** two values per point of every tile of every layout can be counted in an int *)
Definition tiles_fit3 (f : fft3) : Prop :=
  forall t r, layout3 f t -> (r < f_n f)%nat -> 2 * room3 (t r) <= INT_MAX.

Lemma room_pos b : 1 <= room3 b.
Proof. unfold room3. assert (1 <= Z.max 1 (ni b) * Z.max 1 (nj b)) by nia. nia. Qed.

Lemma rot_room rot b : perm_ok3 rot -> room3 (rotb3 rot b) = room3 b.
Proof. intros [-> | [-> | ->]]; unfold room3, ni, nj, nk; cbn; ring. Qed.
Lemma rot_legal rot b : legal3 b -> legal3 (rotb3 rot b).
Proof. intros (H1 & H2 & H3). unfold rotb3. destruct (rot =? 0); [|destruct (rot =? 1)]; repeat split; assumption. Qed.

Lemma inside_room3 x y z b : 1 <= x -> 1 <= y -> 1 <= z -> inside3 (x, y, z) b -> room3 b <= x * y * z.
Proof.
  intros X Y Z' (_ & H). unfold room3. assert (ni b <= x /\ nj b <= y /\ nk b <= z) by (unfold ni, nj, nk; lia).
  apply mul_mono; [|lia]. split; [nia|]. apply mul_mono; lia.
Qed.

(** the last rank multiplies number of processors and number of points *)
Lemma last_ploc a b c : 1 <= a -> 1 <= b -> 1 <= c -> ploc (a, b, c) (a * b * c - 1) = (a - 1, b - 1, c - 1).
Proof.
  intros A B C. replace (a * b * c - 1) with ((a - 1) + a * ((b - 1) + b * (c - 1))) by ring. apply ploc_of; lia.
Qed.

Section Fft3.
Variables (ar : areas) (n : nat) (st : settings) (x y z permute : Z) (ins outs : nat -> box3) (f : fft3).
Local Notation N := (x, y, z).
Hypothesis L : area_laws ar.
Hypothesis Hn : (1 <= n)%nat.
Hypothesis HI : ints3 N.
Hypothesis HS : setup3d ar n st N permute ins outs = SOk f.
Hypothesis Hout : forall r, (r < n)%nat -> inside3 N (outs r).

Lemma F3 : facts3 n st N permute ins outs f.
Proof. apply (setup3d_facts ar n st N permute ins outs f L Hn HI HS). Qed.

Lemma layout_inside t r : layout3 f t -> (r < n)%nat -> inside3 N (t r).
Proof.
  intros Ht Hr.
  destruct (setup3d_cases ar n st N permute ins outs L Hn HI) as [(msg & E & H)|(H1 & H2 & H3 & [(Hp & E)|(Hp & f' & gf & gm & gs & gb & E & Hg & H)])]; rewrite E in HS; try discriminate.
  injection HS as ->. cbv zeta in H.
  destruct H as (_ & _ & _ & _ & E5 & E6 & E7 & E8 & E9 & E10 & E11 & _).
  pose proof H1 as ((X & SX) & (Y & SY) & (Z' & SZ)). destruct Hg as (Gf & Gm & Gs & Gb).
  destruct Ht as [-> | [-> | [-> | [-> | [-> | (He & ->)]]]]].
  - rewrite E6. auto.
  - rewrite E7. auto.
  - rewrite E8. destruct (preflag n N ins); [|auto]. destruct (good_unit1 _ _ _ _ Gf) as (b & c & -> & B & C & Ep). rewrite fast_box3_eq. apply gbox3_inside; lia.
  - rewrite E9. destruct (good_unit2 _ _ _ _ Gm) as (a & c & -> & B & C & Ep). rewrite mid_box3_eq. apply gbox3_inside; lia.
  - rewrite E10. destruct (slow_internal n N permute outs); [|auto]. destruct (good_unit3 _ _ _ _ Gs) as (a & b & -> & A & B & Ep). rewrite slow_box3_eq by lia. apply gbox3_inside; lia.
  - rewrite E11. rewrite E5 in He. destruct (st_exch st =? 0); [discriminate|]. destruct gb as [[a b] c]. destruct Gb as (A & B & C & Ep & _). apply gbox3_inside; lia.
Qed.

Lemma slow_post : slow_internal n N permute outs = f_post f.
Proof.
  pose proof (slow_internal_spec n x y z permute outs Hn) as H1. pose proof (F_post _ _ _ _ _ _ _ F3) as H2. cbn [snd] in H2.
  destruct (slow_internal n N permute outs), (f_post f); try reflexivity; [apply H1|symmetry; apply H2]; tauto.
Qed.

Hypothesis Tin : tiling3 n N ins.
Hypothesis Tout : tiling3 n N outs.
Hypothesis Hn7 : 7 * Z.of_nat n <= INT_MAX.
Hypothesis HT : tiles_fit3 f.

Lemma dims3 : 2 <= x /\ 2 <= y /\ 2 <= z.
Proof. destruct (F_dims _ _ _ _ _ _ _ F3) as ((X & _) & (Y & _) & (Z' & _)). auto. Qed.
Lemma T2 t r : layout3 f t -> (r < n)%nat -> 2 * room3 (t r) <= INT_MAX.
Proof. intros Ht Hr. apply HT; [exact Ht|]. rewrite (F_n _ _ _ _ _ _ _ F3). exact Hr. Qed.

Lemma tile_ok t r : layout3 f t -> (r < n)%nat -> tile_fits3 2 (t r).
Proof.
  intros Ht Hr. pose proof (layout_inside t r Ht Hr) as Hi. pose proof (T2 t r Ht Hr).
  destruct Hi as (Hl & Hi). split; [exact Hl|split; [|assumption]].
  destruct HI as (I1 & I2 & I3). destruct Hl as (L1 & L2 & L3). unfold bounds_int3, int_ok, ni, nj, nk in *. rewrite IMX, IMN in *. lia.
Qed.

Lemma Lfast : layout3 f (f_fast f). Proof. unfold layout3. auto 7. Qed.
Lemma Lmid : layout3 f (f_mid f). Proof. unfold layout3. auto 7. Qed.
Lemma Lslow : layout3 f (f_slow f). Proof. unfold layout3. auto 7. Qed.

Lemma ext_room b : legal3 b -> ni b <= room3 b /\ nj b <= room3 b /\ nk b <= room3 b.
Proof.
  intros (H1 & H2 & H3). unfold room3. assert (1 <= Z.max 1 (nj b) * Z.max 1 (nk b)) by nia. assert (1 <= Z.max 1 (ni b) * Z.max 1 (nk b)) by nia.
  assert (1 <= Z.max 1 (ni b) * Z.max 1 (nj b)) by nia. nia.
Qed.
Lemma dim_small : 2 * x <= INT_MAX /\ 2 * y <= INT_MAX /\ 2 * z <= INT_MAX.
Proof.
  assert (H0 : (0 < n)%nat) by lia.
  pose proof (T2 _ 0%nat Lfast H0). pose proof (T2 _ 0%nat Lmid H0). pose proof (T2 _ 0%nat Lslow H0).
  pose proof (F_fast_span _ _ _ _ _ _ _ F3 0%nat H0) as (S1 & S2). pose proof (F_mid_span _ _ _ _ _ _ _ F3 0%nat H0) as (S3 & S4).
  pose proof (F_slow_span _ _ _ _ _ _ _ F3 0%nat H0) as (S5 & S6). cbn [fst snd] in *.
  pose proof (ext_room _ (proj1 (layout_inside _ _ Lfast H0))) as (E1 & _). pose proof (ext_room _ (proj1 (layout_inside _ _ Lmid H0))) as (_ & E2 & _).
  pose proof (ext_room _ (proj1 (layout_inside _ _ Lslow H0))) as (_ & _ & E3). unfold ni in E1. unfold nj in E2. unfold nk in E3. lia.
Qed.

Lemma plane_room b : legal3 b -> nj b * ni b <= room3 b.
Proof.
  intros (H1 & H2 & H3). unfold room3. rewrite (Z.mul_comm (nj b)). assert (H : 0 <= ni b * nj b <= Z.max 1 (ni b) * Z.max 1 (nj b)) by (apply mul_mono; lia).
  nia.
Qed.

Lemma obj_safe m r : In m (all_objs f) -> (r < n)%nat -> all_safe (remap3_ints n (rm_coll m) 2 (rm_perm m) (rm_in m) (rm_out m) r).
Proof.
  intros Hm Hr. destruct (all_shape n st N permute ins outs f F3 m Hm) as (rot & a & b & Hrot & _ & La & Lb & -> & ->).
  assert (Fit : forall t p, layout3 f t -> (p < n)%nat -> tile_fits3 2 (rotb3 rot (t p))).
  { intros t p Ht Hp. destruct (tile_ok t p Ht Hp) as (H1 & (B1 & B2 & B3 & B4 & B5 & B6) & H3). split; [apply rot_legal, H1|split].
    - unfold rotb3. destruct (rot =? 0); [|destruct (rot =? 1)]; unfold bounds_int3; cbn [ilo ihi jlo jhi klo khi]; tauto.
    - rewrite rot_room by exact Hrot. exact H3. }
  apply remap3_safe; auto; [lia| | |].
  - apply rot_disjoint3; [exact Hrot|]. apply (layout_tiling n st N permute ins outs f F3 a Tin Tout La).
  - apply rot_disjoint3; [exact Hrot|]. apply (layout_tiling n st N permute ins outs f F3 b Tin Tout Lb).
  - pose proof (Fit a r La Hr) as (H1 & _). pose proof (plane_room _ H1) as H2. rewrite rot_room in H2 by exact Hrot.
    pose proof (T2 a r La Hr). pose proof dim_small as (D1 & D2 & D3). pose proof (layout_inside a r La Hr) as (_ & Hi).
    assert (2 * ihi (rotb3 rot (a r)) <= INT_MAX) by (unfold rotb3; destruct (rot =? 0); [|destruct (rot =? 1)]; cbn [ihi]; lia). lia.
Qed.

Lemma sum_le k g B : (forall r, (r < k)%nat -> g r <= B) -> zsum k g <= Z.of_nat k * B.
Proof.
  intros H. unfold zsum. assert (H' : forall r, In r (seq 0 k) -> g r <= B) by (intros r Hr; apply in_seq in Hr; apply H; lia). clear H.
  rewrite <- (seq_length k 0) at 2. induction (seq 0 k) as [|r l IH]; cbn [fold_right length]; [lia|].
  assert (g r <= B) by (apply H'; now left). assert (fold_right (fun r s => g r + s) 0 l <= Z.of_nat (length l) * B) by (apply IH; intros; apply H'; now right). lia.
Qed.
Lemma vol_room b : vol3 b <= room3 b.
Proof. unfold vol3, room3. apply mul_mono; [|lia]. split; [nia|]. apply mul_mono; lia. Qed.
Lemma total_big : x * y * z <= BIG_MAX /\ x * y <= x * y * z.
Proof.
  pose proof dims3 as (X & Y & Z'). split; [|nia].
  pose proof (F_sum _ _ _ _ _ _ _ F3) as S. rewrite (grid3_vol N HI (F_dims _ _ _ _ _ _ _ F3)) in S. cbn in S. rewrite <- S.
  assert (H : zsum n (fun r => vol3 (ins r)) <= Z.of_nat n * INT_MAX).
  { apply sum_le. intros r Hr. pose proof (vol_room (ins r)). assert (Li : layout3 f ins) by (left; symmetry; apply (F_fin _ _ _ _ _ _ _ F3)).
    pose proof (T2 ins r Li Hr). pose proof (room_pos (ins r)). lia. }
  rewrite BMX. pose proof Hn7. rewrite IMX in *. lia.
Qed.

Lemma good_og nx ny nz : (1 < nx \/ 1 < ny \/ 1 < nz) -> 1 <= nx <= INT_MAX -> 1 <= ny <= INT_MAX -> 1 <= nz <= INT_MAX ->
  good_grid3 (Z.of_nat n) nx ny nz (og (procfactors ar (Z.of_nat n) nx ny nz)).
Proof.
  intros. destruct (procfactors_good ar L (Z.of_nat n) nx ny nz) as (g & E & G); try lia; try (rewrite IMX in *; lia); auto. rewrite E. exact G.
Qed.

Lemma parts3_safe a b c me : 1 <= a -> 1 <= b -> 1 <= c -> a * b * c = Z.of_nat n -> 0 <= me < Z.of_nat n -> grid_fits3 N (a, b, c) ->
  let '(i, j, k) := ploc (a, b, c) me in
  all_safe (part_ints i x a) /\ all_safe (part_ints j y b) /\ all_safe (part_ints k z c).
Proof.
  intros A B C E Hm (G1 & G2 & G3). pose proof (ploc_range a b c me A B C ltac:(lia)) as R. destruct (ploc (a, b, c) me) as [[i j] k]. destruct R as (R1 & R2 & R3 & _).
  pose proof dims3 as (X & Y & Z'). destruct HI as (I1 & I2 & I3).
  assert (a <= Z.of_nat n /\ b <= Z.of_nat n /\ c <= Z.of_nat n) by (rewrite <- E; assert (1 <= a * b) by nia; assert (1 <= b * c) by nia; assert (1 <= a * c) by nia; nia).
  rewrite IMX in *. spl; apply part_ints_safe; rewrite ?IMX; lia.
Qed.

Lemma Lin : layout3 f ins. Proof. left; symmetry; apply (F_fin _ _ _ _ _ _ _ F3). Qed.
Lemma Lout : layout3 f outs. Proof. right; left; symmetry; apply (F_fout _ _ _ _ _ _ _ F3). Qed.

Lemma box_size_safe b : tile_fits3 2 b -> safe (box_size_e3 b).
Proof.
  intros Hb. pose proof (fits_list3 2 b ltac:(lia) Hb) as F. destruct Hb as (_ & (B1 & B2 & B3 & B4 & B5 & B6) & _). parts F.
  unfold box_size_e3. rewrite !safe_mul. unfold ext_e. cbn [den]. fold (ext_e (ilo b) (ihi b)) (ext_e (jlo b) (jhi b)) (ext_e (klo b) (khi b)).
  fold (ni b) (nj b) (nk b). spl; try (apply ext_safe; assumption); apply nn_ok; assumption.
Qed.

Theorem fft3_safe r : (r < n)%nat -> grids_fit3 ar f -> all_safe (fft3_ints ar n st N permute ins outs r).
Proof.
  intros Hr G. unfold grids_fit3 in G. rewrite (F_N _ _ _ _ _ _ _ F3), (F_n _ _ _ _ _ _ _ F3) in G. destruct G as (Gf & Gm & Gs & Gb).
  pose proof dims3 as (X & Y & Z'). pose proof HI as (I1 & I2 & I3). pose proof dim_small as (D1 & D2 & D3).
  assert (Hm : 0 <= Z.of_nat r < Z.of_nat n) by lia. assert (HP : 1 <= Z.of_nat n) by lia.
  pose proof (good_og 1 y z ltac:(lia) ltac:(rewrite IMX in *; lia) ltac:(lia) ltac:(lia)) as Of.
  pose proof (good_og x 1 z ltac:(lia) ltac:(lia) ltac:(rewrite IMX in *; lia) ltac:(lia)) as Om.
  pose proof (good_og x y 1 ltac:(lia) ltac:(lia) ltac:(lia) ltac:(rewrite IMX in *; lia)) as Os.
  pose proof (good_og x y z ltac:(lia) ltac:(lia) ltac:(lia) ltac:(lia)) as Ob.
  unfold fft3_ints. rewrite HS, slow_post.
  destruct (og (procfactors ar (Z.of_nat n) 1 y z)) as [[fa fb] fc]. destruct Of as (F1 & F2 & F4 & F5 & _).
  destruct (og (procfactors ar (Z.of_nat n) x 1 z)) as [[ma mb] mc]. destruct Om as (M1 & M2 & M3 & M4 & _).
  destruct (og (procfactors ar (Z.of_nat n) x y 1)) as [[sa sb] sd]. destruct Os as (S1 & S2 & S3 & S4 & _).
  destruct (og (procfactors ar (Z.of_nat n) x y z)) as [[ba bb] bc]. destruct Ob as (B1 & B2 & B3 & B4 & _).
  pose proof (fun H => parts3_safe fa fb fc (Z.of_nat r) F1 F2 F4 F5 Hm (Gf H)) as Pf.
  pose proof (parts3_safe ma mb mc (Z.of_nat r) M1 M2 M3 M4 Hm Gm) as Pm.
  pose proof (fun H => parts3_safe sa sb sd (Z.of_nat r) S1 S2 S3 S4 Hm (Gs H)) as Ps.
  pose proof (fun H => parts3_safe ba bb bc (Z.of_nat r) B1 B2 B3 B4 Hm (Gb H)) as Pb.
  pose proof (tile_ok ins r Lin Hr) as Ti. pose proof (tile_ok outs r Lout Hr) as To.
  pose proof (tile_ok _ r Lfast Hr) as Tf. pose proof (tile_ok _ r Lmid Hr) as Tm. pose proof (tile_ok _ r Lslow Hr) as Ts.
  pose proof (layout_inside ins r Lin Hr) as Ii. pose proof total_big as (T1 & T2').
  destruct (ploc (fa, fb, fc) (Z.of_nat r)) as [[fi fj] fk]. destruct (ploc (ma, mb, mc) (Z.of_nat r)) as [[mi mj] mk].
  destruct (ploc (sa, sb, sd) (Z.of_nat r)) as [[si sj] sk]. destruct (ploc (ba, bb, bc) (Z.of_nat r)) as [[bi bj] bk].
  cbv zeta. ap.
  - unfold check_ints3. destruct Ii as (Il & Ii). unfold legal3, ni, nj, nk in Il. sc; apply safe_incr; rewrite IMX, IMN in *; lia.
  - unfold count_ints3. pose proof (fits_list3 2 _ ltac:(lia) Ti) as F. destruct Ti as (_ & (C1 & C2 & C3 & C4 & C5 & C6) & _).
    assert (Big : forall v, nn v -> big_ok v) by (unfold nn, big_ok; intros v; rewrite BMX, BMN, IMX; lia).
    rewrite !Forall_cons_iff in F. destruct F as (_ & E1 & E2 & E3 & _ & _ & _ & E4 & _ & _ & _ & _ & _ & _ & _ & _ & _ & _ & _ & E5 & _).
    sc.
    + rewrite !safe_m64. unfold ext_e at 4 5 6 7 8. cbn [den]. fold (ni (ins r)) (nj (ins r)) (nk (ins r)). spl; auto; apply ext_safe; assumption.
    + sf. unfold big_ok. rewrite BMX, BMN in *. unfold int_ok. rewrite IMX, IMN in *. assert (0 <= x * y) by nia. lia.
  - apply factor_ints_safe; lia.
  - apply procfactors_ints_safe; auto.
  - apply procfactors_ints_safe; auto.
  - apply procfactors_ints_safe; auto.
  - destruct (f_exch f); [|apply safe_nil]. apply procfactors_ints_safe; auto.
  - unfold last_e. sc; sf; rewrite IMX in *; unfold int_ok; rewrite IMX, IMN; lia.
  - destruct (f_pre f); [|apply safe_nil]. destruct (Pf eq_refl) as (_ & ? & ?). apply safe_app; assumption.
  - apply Pm.
  - apply Pm.
  - destruct (f_post f); [|apply safe_nil]. destruct (Ps eq_refl) as (? & ? & _). apply safe_app; assumption.
  - destruct (f_exch f); [|apply safe_nil]. destruct (Pb eq_refl) as (? & ? & ?). repeat apply safe_app; assumption.
  - apply safe_flat. intros m Hm'. apply obj_safe; assumption.
  - apply safe_map. intros b Hb. apply box_size_safe. apply in_app_or in Hb. destruct Hb as [Hb|Hb].
    + cbn [In] in Hb. destruct Hb as [<- | [<- | [<- | [<- | [<- | []]]]]]; assumption.
    + destruct (f_exch f) eqn:He; [|destruct Hb]. destruct Hb as [<-|[]]. apply tile_ok; [|exact Hr]. unfold layout3. rewrite He. auto 8.
  - pose proof (F_fast_span _ _ _ _ _ _ _ F3 r Hr) as (E1 & E2). cbn [fst snd] in E1, E2. assert (Ei : ni (f_fast f r) = x) by (unfold ni; lia).
    pose proof (fits_list3 2 _ ltac:(lia) Tf) as F. rewrite Ei in F. destruct Tf as (_ & (C1 & C2 & C3 & C4 & C5 & C6) & _). clear - F C1 C2 C3 C4 C5 C6. 
    assert (E : nj (f_fast f r) * nk (f_fast f r) * x = x * nj (f_fast f r) * nk (f_fast f r)) by ring. parts F. unfold lines_ints. sc.
    + rewrite safe_mul. unfold ext_e at 3 4. cbn [den]. fold (nj (f_fast f r)) (nk (f_fast f r)). spl; try (apply ext_safe; assumption); apply nn_ok; assumption.
    + rewrite safe_mul. cbn [den]. rewrite E, !safe_lit. spl; apply nn_ok; assumption.
  - pose proof (F_mid_span _ _ _ _ _ _ _ F3 r Hr) as (E1 & E2). cbn [fst snd] in E1, E2. assert (Ei : nj (f_mid f r) = y) by (unfold nj; lia).
    pose proof (fits_list3 2 _ ltac:(lia) Tm) as F. rewrite Ei in F. destruct Tm as (_ & (C1 & C2 & C3 & C4 & C5 & C6) & _). clear - F C1 C2 C3 C4 C5 C6.
    assert (E : ni (f_mid f r) * nk (f_mid f r) * y = ni (f_mid f r) * y * nk (f_mid f r)) by ring. parts F. unfold lines_ints. sc.
    + rewrite safe_mul. unfold ext_e at 3 4. cbn [den]. fold (ni (f_mid f r)) (nk (f_mid f r)). spl; try (apply ext_safe; assumption); apply nn_ok; assumption.
    + rewrite safe_mul. cbn [den]. rewrite E, !safe_lit. spl; apply nn_ok; assumption.
  - pose proof (F_slow_span _ _ _ _ _ _ _ F3 r Hr) as (E1 & E2). cbn [fst snd] in E1, E2. assert (Ei : nk (f_slow f r) = z) by (unfold nk; lia).
    pose proof (fits_list3 2 _ ltac:(lia) Ts) as F. rewrite Ei in F. destruct Ts as (_ & (C1 & C2 & C3 & C4 & C5 & C6) & _). clear - F C1 C2 C3 C4 C5 C6.
    parts F. unfold lines_ints. sc.
    + rewrite safe_mul. unfold ext_e at 3 4. cbn [den]. fold (ni (f_slow f r)) (nj (f_slow f r)). spl; try (apply ext_safe; assumption); apply nn_ok; assumption.
    + rewrite safe_mul. cbn [den]. rewrite !safe_lit. spl; apply nn_ok; assumption.
Qed.
End Fft3.

(** ** FFT2d::setup *)
Definition grids_fit2 (ar : areas) (f : fft2) : Prop :=
  let '(x, y) := t_N f in let P := Z.of_nat (t_n f) in
  (t_pre f = true -> P * y <= INT_MAX) /\
  (t_post f = true -> P * x <= INT_MAX) /\
  (t_exch f = true -> let '(a, b) := og2 (procfactors2 ar P x y) in a * x <= INT_MAX /\ b * y <= INT_MAX).
Definition tiles_fit2 (f : fft2) : Prop :=
  forall t r, layout2 f t -> (r < t_n f)%nat -> 2 * room2 (t r) <= INT_MAX.

Lemma room_pos2 b : 1 <= room2 b.
Proof. unfold room2. nia. Qed.
Lemma rot_room2 rot b : perm_ok2 rot -> room2 (rotb2 rot b) = room2 b.
Proof. intros [-> | ->]; unfold room2, ni2, nj2; cbn; ring. Qed.
Lemma rot_leg2 rot b : legal2 b -> legal2 (rotb2 rot b).
Proof. intros (H1 & H2). unfold rotb2. destruct (rot =? 0); split; assumption. Qed.
Lemma inside_room2 x y b : 1 <= x -> 1 <= y -> inside2 (x, y) b -> room2 b <= x * y.
Proof.
  intros X Y (_ & H). unfold room2. assert (ni2 b <= x /\ nj2 b <= y) by (unfold ni2, nj2; lia). apply mul_mono; lia.
Qed.
Lemma vol_room2 b : vol2 b <= room2 b.
Proof. unfold vol2, room2. apply mul_mono; lia. Qed.
Lemma ext_room2 b : legal2 b -> ni2 b <= room2 b /\ nj2 b <= room2 b /\ nj2 b * ni2 b <= room2 b.
Proof. intros (H1 & H2). unfold room2. nia. Qed.

Section Fft2.
Variables (ar : areas) (n : nat) (st : settings) (x y permute : Z) (ins outs : nat -> box2) (f : fft2).
Local Notation N := (x, y).
Hypothesis L : area_laws ar.
Hypothesis Hn : (1 <= n)%nat.
Hypothesis HI : ints2 N.
Hypothesis HS : setup2d ar n st N permute ins outs = SOk f.

Lemma F2 : facts2 n st N permute ins outs f.
Proof. apply (setup2d_facts ar n st N permute ins outs f L Hn HI HS). Qed.
Lemma slow_post2 : slow_internal2 n N permute outs = t_post f.
Proof.
  pose proof (slow_internal2_spec n x y permute outs Hn) as H1. pose proof (T_post _ _ _ _ _ _ _ F2) as H2. cbn [snd] in H2.
  destruct (slow_internal2 n N permute outs), (t_post f); try reflexivity; [apply H1|symmetry; apply H2]; tauto.
Qed.
Lemma dims2 : 2 <= x /\ 2 <= y.
Proof. destruct (T_dims _ _ _ _ _ _ _ F2) as ((X & _) & (Y & _)). auto. Qed.
Lemma good_og2 : good_grid2 (Z.of_nat n) x y (og2 (procfactors2 ar (Z.of_nat n) x y)).
Proof.
  pose proof dims2 as (X & Y). destruct HI as (I1 & I2).
  destruct (procfactors2_good ar L (Z.of_nat n) x y) as (g & E & G); unfold in_int; try lia. rewrite E. exact G.
Qed.

Hypothesis Hout : forall r, (r < n)%nat -> inside2 N (outs r).
Lemma layout_inside2 t r : layout2 f t -> (r < n)%nat -> inside2 N (t r).
Proof.
  intros Ht Hr.
  destruct (setup2d_cases ar n st N permute ins outs L Hn HI) as [(msg & E & H)|(H1 & H2 & H3 & [(Hp & E)|(Hp & f' & gb & E & Gb & H)])]; rewrite E in HS; try discriminate.
  injection HS as ->. cbv zeta in H.
  destruct H as (_ & _ & _ & _ & E5 & E6 & E7 & E8 & E9 & E11 & _).
  pose proof H1 as ((X & SX) & (Y & SY)).
  destruct Ht as [-> | [-> | [-> | [-> | (He & ->)]]]].
  - rewrite E6. auto.
  - rewrite E7. auto.
  - rewrite E8. destruct (preflag2 n N ins); [|auto]. rewrite fast_box2_eq. apply gbox2_inside; lia.
  - rewrite E9. destruct (slow_internal2 n N permute outs); [|auto]. rewrite slow_box2_eq by lia. apply gbox2_inside; lia.
  - rewrite E11. rewrite E5 in He. destruct (st_exch st =? 0); [discriminate|]. destruct gb as [a b]. destruct Gb as (A & B & Ep & _). apply gbox2_inside; lia.
Qed.

Hypothesis Tin : tiling2 n N ins.
Hypothesis Tout : tiling2 n N outs.
Hypothesis Hn7 : 7 * Z.of_nat n <= INT_MAX.
Hypothesis HT : tiles_fit2 f.

Lemma U2 t r : layout2 f t -> (r < n)%nat -> 2 * room2 (t r) <= INT_MAX.
Proof. intros Ht Hr. apply HT; [exact Ht|]. rewrite (T_n _ _ _ _ _ _ _ F2). exact Hr. Qed.
Lemma tile_ok2 t r : layout2 f t -> (r < n)%nat -> tile_fits2 2 (t r).
Proof.
  intros Ht Hr. pose proof (layout_inside2 t r Ht Hr) as Hi. pose proof (U2 t r Ht Hr).
  destruct Hi as (Hl & Hi). split; [exact Hl|split; [|assumption]].
  destruct HI as (I1 & I2). destruct Hl as (L1 & L2). unfold bounds_int2, int_ok, ni2, nj2 in *. rewrite IMX, IMN in *. lia.
Qed.
Lemma Lfast2 : layout2 f (t_fast f). Proof. unfold layout2. auto 7. Qed.
Lemma Lslow2 : layout2 f (t_slow f). Proof. unfold layout2. auto 7. Qed.
Lemma Lin2 : layout2 f ins. Proof. left; symmetry; apply (T_fin _ _ _ _ _ _ _ F2). Qed.
Lemma Lout2 : layout2 f outs. Proof. right; left; symmetry; apply (T_fout _ _ _ _ _ _ _ F2). Qed.
Lemma dim_small2 : 2 * x <= INT_MAX /\ 2 * y <= INT_MAX.
Proof.
  assert (H0 : (0 < n)%nat) by lia.
  pose proof (U2 _ 0%nat Lfast2 H0). pose proof (U2 _ 0%nat Lslow2 H0).
  pose proof (T_fast_span _ _ _ _ _ _ _ F2 0%nat H0) as (S1 & S2). pose proof (T_slow_span _ _ _ _ _ _ _ F2 0%nat H0) as (S5 & S6). cbn [fst snd] in *.
  pose proof (ext_room2 _ (proj1 (layout_inside2 _ _ Lfast2 H0))) as (E1 & _). pose proof (ext_room2 _ (proj1 (layout_inside2 _ _ Lslow2 H0))) as (_ & E2 & _).
  unfold ni2 in E1. unfold nj2 in E2. lia.
Qed.
Lemma obj_safe2 m r : In m (all_objs2 f) -> (r < n)%nat -> all_safe (remap2_ints n (rm2_coll m) 2 (rm2_perm m) (rm2_in m) (rm2_out m) r).
Proof.
  intros Hm Hr. destruct (all_shape2 n st N permute ins outs f F2 m Hm) as (rot & a & b & Hrot & _ & La & Lb & -> & ->).
  assert (Fit : forall t p, layout2 f t -> (p < n)%nat -> tile_fits2 2 (rotb2 rot (t p))).
  { intros t p Ht Hp. destruct (tile_ok2 t p Ht Hp) as (H1 & (B1 & B2 & B3 & B4) & H3). split; [apply rot_leg2, H1|split].
    - unfold rotb2. destruct (rot =? 0); unfold bounds_int2; cbn [ilo2 ihi2 jlo2 jhi2]; tauto.
    - rewrite rot_room2 by exact Hrot. exact H3. }
  apply remap2_safe; auto; [lia| | |].
  - apply rot_disjoint2; [exact Hrot|]. apply (layout_tiling2 n st N permute ins outs f F2 a Tin Tout La).
  - apply rot_disjoint2; [exact Hrot|]. apply (layout_tiling2 n st N permute ins outs f F2 b Tin Tout Lb).
  - pose proof (Fit a r La Hr) as (H1 & _). pose proof (ext_room2 _ H1) as (_ & _ & H2). rewrite rot_room2 in H2 by exact Hrot.
    pose proof (U2 a r La Hr). pose proof dim_small2 as (D1 & D2). pose proof (layout_inside2 a r La Hr) as (_ & Hi).
    assert (2 * ihi2 (rotb2 rot (a r)) <= INT_MAX) by (unfold rotb2; destruct (rot =? 0); cbn [ihi2]; lia). lia.
Qed.
Lemma total_big2 : x * y <= BIG_MAX.
Proof.
  pose proof dims2 as (X & Y). destruct HI as (I1 & I2). rewrite BMX. rewrite IMX in *. nia.
Qed.
Lemma box_size_safe2 b : tile_fits2 2 b -> safe (box_size_e2 b).
Proof.
  intros Hb. pose proof (fits_list2 2 b ltac:(lia) Hb) as F. destruct Hb as (_ & (B1 & B2 & B3 & B4) & _). parts F.
  unfold box_size_e2. rewrite !safe_mul. unfold ext_e. cbn [den]. fold (ext_e (ilo2 b) (ihi2 b)) (ext_e (jlo2 b) (jhi2 b)).
  fold (ni2 b) (nj2 b). spl; try (apply ext_safe; assumption); apply nn_ok; assumption.
Qed.

Theorem fft2_safe r : (r < n)%nat -> grids_fit2 ar f -> all_safe (fft2_ints ar n st N permute ins outs r).
Proof.
  intros Hr G. unfold grids_fit2 in G. rewrite (T_N _ _ _ _ _ _ _ F2), (T_n _ _ _ _ _ _ _ F2) in G. destruct G as (Gf & Gs & Gb).
  pose proof dims2 as (X & Y). pose proof HI as (I1 & I2). pose proof dim_small2 as (D1 & D2).
  assert (Hm : 0 <= Z.of_nat r < Z.of_nat n) by lia. assert (HP : 1 <= Z.of_nat n) by lia.
  pose proof good_og2 as Ob.
  unfold fft2_ints. rewrite HS, slow_post2.
  destruct (og2 (procfactors2 ar (Z.of_nat n) x y)) as [ba bb]. destruct Ob as (B1 & B2 & B4 & _).
  pose proof (tile_ok2 ins r Lin2 Hr) as Ti. pose proof (tile_ok2 outs r Lout2 Hr) as To.
  pose proof (tile_ok2 _ r Lfast2 Hr) as Tf. pose proof (tile_ok2 _ r Lslow2 Hr) as Ts.
  pose proof (layout_inside2 ins r Lin2 Hr) as Ii. pose proof total_big2 as T1.
  cbv zeta. ap.
  - unfold check_ints2. destruct Ii as (Il & Ii). unfold legal2, ni2, nj2 in Il. sc; apply safe_incr; rewrite IMX, IMN in *; lia.
  - unfold count_ints2. pose proof (fits_list2 2 _ ltac:(lia) Ti) as F. destruct Ti as (_ & (C1 & C2 & C3 & C4) & _).
    assert (Big : forall v, nn v -> big_ok v) by (unfold nn, big_ok; intros v; rewrite BMX, BMN, IMX; lia).
    rewrite !Forall_cons_iff in F. destruct F as (_ & E1 & E2 & _ & _ & E4 & _).
    sc.
    + rewrite !safe_m64. unfold ext_e at 3 4. cbn [den]. fold (ni2 (ins r)) (nj2 (ins r)). spl; auto; apply ext_safe; assumption.
    + sf. unfold big_ok. rewrite BMX, BMN in *. unfold int_ok. rewrite IMX, IMN in *. assert (0 <= x * y) by nia. lia.
  - apply factor_ints_safe; lia.
  - destruct (t_exch f); [|apply safe_nil]. apply procfactors_ints2_safe; auto.
  - unfold last_e. sc; sf; rewrite IMX in *; unfold int_ok; rewrite IMX, IMN; lia.
  - destruct (t_pre f); [|apply safe_nil]. specialize (Gf eq_refl). apply part_ints_safe; rewrite IMX in *; lia.
  - destruct (t_post f); [|apply safe_nil]. specialize (Gs eq_refl). apply part_ints_safe; rewrite IMX in *; lia.
  - unfold ploc2. destruct (t_exch f); [|apply safe_nil]. specialize (Gb eq_refl). cbn in Gb. destruct Gb as (G1 & G2).
    pose proof (Z.mod_pos_bound (Z.of_nat r) ba ltac:(lia)) as R1.
    assert (R2 : 0 <= Z.of_nat r / ba < bb) by (split; [apply Z.div_pos; lia|apply Z.div_lt_upper_bound; lia]).
    assert (ba <= Z.of_nat n /\ bb <= Z.of_nat n) by nia.
    apply safe_app; apply part_ints_safe; rewrite IMX in *; lia.
  - apply safe_flat. intros m Hm'. apply obj_safe2; assumption.
  - apply safe_map. intros b Hb. apply box_size_safe2. apply in_app_or in Hb. destruct Hb as [Hb|Hb].
    + cbn [In] in Hb. destruct Hb as [<- | [<- | [<- | [<- | []]]]]; assumption.
    + destruct (t_exch f) eqn:He; [|destruct Hb]. destruct Hb as [<-|[]]. apply tile_ok2; [|exact Hr]. unfold layout2. rewrite He. auto 8.
  - pose proof (T_fast_span _ _ _ _ _ _ _ F2 r Hr) as (E1 & E2). cbn [fst snd] in E1, E2. assert (Ei : ni2 (t_fast f r) = x) by (unfold ni2; lia).
    pose proof (fits_list2 2 _ ltac:(lia) Tf) as F. rewrite Ei in F. destruct Tf as (_ & (C1 & C2 & C3 & C4) & _). clear - F C1 C2 C3 C4.
    parts F. unfold lines_ints2. sc; [apply ext_safe; assumption|]. rewrite safe_mul. cbn [den]. rewrite !safe_lit. spl; apply nn_ok; assumption.
  - pose proof (T_slow_span _ _ _ _ _ _ _ F2 r Hr) as (E1 & E2). cbn [fst snd] in E1, E2. assert (Ei : nj2 (t_slow f r) = y) by (unfold nj2; lia).
    pose proof (fits_list2 2 _ ltac:(lia) Ts) as F. rewrite Ei in F. destruct Ts as (_ & (C1 & C2 & C3 & C4) & _). clear - F C1 C2 C3 C4.
    parts F. unfold lines_ints2. sc; [apply ext_safe; assumption|]. rewrite safe_mul. cbn [den]. rewrite !safe_lit. spl; apply nn_ok; assumption.
Qed.
End Fft2.
