(** OverflowTop.v : the guards of OverflowFft.v are needed, and when they hold;
    the trees of Overflow.v denote the values that the model uses. *)

From Verif Require Import Base Spec Pack3d Pack2d Sched Remap Remap3d Remap2d RemapPlan RemapTriple RemapMain RemapInst RemapThms RemapTop.
From Verif Require Import Layout LayoutProofs Count Setup3d Setup3dProofs Setup2d Setup2dProofs Wrap Overflow OverflowProofs OverflowFft.
Local Open Scope Z_scope.

Lemma safe_app_iff l l' : all_safe (l ++ l') <-> all_safe l /\ all_safe l'.
Proof.
  split; [|intros (H & H'); apply safe_app; assumption]. intros H. split; intros e He; apply H, in_or_app; auto.
Qed.

(** ** the grids must fit *)
Section Fft3Conv.
Variables (ar : areas) (n : nat) (st : settings) (x y z permute : Z) (ins outs : nat -> box3) (f : fft3).
Local Notation N := (x, y, z).
Hypothesis L : area_laws ar.
Hypothesis Hn : (1 <= n)%nat.
Hypothesis HI : ints3 N.
Hypothesis HS : setup3d ar n st N permute ins outs = SOk f.

Theorem fft3_needs : all_safe (fft3_ints ar n st N permute ins outs (n - 1)) -> grids_fit3 ar f.
Proof.
  intros H.
  pose proof (setup3d_facts ar n st N permute ins outs f L Hn HI HS) as F.
  destruct (F_dims _ _ _ _ _ _ _ F) as ((X & _) & (Y & _) & (Z' & _)). destruct HI as (I1 & I2 & I3).
  unfold grids_fit3. rewrite (F_N _ _ _ _ _ _ _ F), (F_n _ _ _ _ _ _ _ F).
  pose proof (good_og ar n L Hn 1 y z ltac:(lia) ltac:(rewrite IMX in *; lia) ltac:(lia) ltac:(lia)) as Of.
  pose proof (good_og ar n L Hn x 1 z ltac:(lia) ltac:(lia) ltac:(rewrite IMX in *; lia) ltac:(lia)) as Om.
  pose proof (good_og ar n L Hn x y 1 ltac:(lia) ltac:(lia) ltac:(lia) ltac:(rewrite IMX in *; lia)) as Os.
  pose proof (good_og ar n L Hn x y z ltac:(lia) ltac:(lia) ltac:(lia) ltac:(lia)) as Ob.
  unfold fft3_ints in H. rewrite HS, (slow_post ar n st x y z permute ins outs f L Hn HI HS) in H. replace (Z.of_nat (n - 1)) with (Z.of_nat n - 1) in H by lia.
  destruct (og (procfactors ar (Z.of_nat n) 1 y z)) as [[fa fb] fc]. destruct Of as (F1 & F2 & F4 & F5 & F6 & _).
  destruct (og (procfactors ar (Z.of_nat n) x 1 z)) as [[ma mb] mc]. destruct Om as (M1 & M2 & M3 & M4 & _ & M6 & _).
  destruct (og (procfactors ar (Z.of_nat n) x y 1)) as [[sa sb] sd]. destruct Os as (S1 & S2 & S3 & S4 & _ & _ & S6).
  destruct (og (procfactors ar (Z.of_nat n) x y z)) as [[ba bb] bc]. destruct Ob as (B1 & B2 & B3 & B4 & _).
  cbv zeta in H.
  assert (Ef : ploc (fa, fb, fc) (Z.of_nat n - 1) = (fa - 1, fb - 1, fc - 1)) by (rewrite <- F5; apply last_ploc; assumption).
  assert (Em : ploc (ma, mb, mc) (Z.of_nat n - 1) = (ma - 1, mb - 1, mc - 1)) by (rewrite <- M4; apply last_ploc; assumption).
  assert (Es : ploc (sa, sb, sd) (Z.of_nat n - 1) = (sa - 1, sb - 1, sd - 1)) by (rewrite <- S4; apply last_ploc; assumption).
  assert (Eb : ploc (ba, bb, bc) (Z.of_nat n - 1) = (ba - 1, bb - 1, bc - 1)) by (rewrite <- B4; apply last_ploc; assumption).
  rewrite Ef, Em, Es, Eb in H.
  apply safe_app_iff in H. destruct H as (_ & H). apply safe_app_iff in H. destruct H as (_ & H). apply safe_app_iff in H. destruct H as (_ & H).
  do 4 (apply safe_app_iff in H; destruct H as (_ & H)). apply safe_app_iff in H. destruct H as (_ & H).
  apply safe_app_iff in H. destruct H as (Hf & H). apply safe_app_iff in H. destruct H as (Hm & H). apply safe_app_iff in H. destruct H as (Hs & H).
  apply safe_app_iff in H. destruct H as (Hb & _).
  unfold grid_fits3. split; [|split; [|split]].
  - intros E. rewrite E in Hf. apply safe_app_iff in Hf. destruct Hf as (H1 & H2). rewrite (F6 eq_refl).
    apply part_ints_last in H1; [|lia]. apply part_ints_last in H2; [|lia]. lia.
  - apply safe_app_iff in Hm. destruct Hm as (H1 & H2). rewrite (M6 eq_refl).
    apply part_ints_last in H1; [|lia]. apply part_ints_last in H2; [|lia]. lia.
  - intros E. rewrite E in Hs. apply safe_app_iff in Hs. destruct Hs as (H1 & H2). rewrite (S6 eq_refl).
    apply part_ints_last in H1; [|lia]. apply part_ints_last in H2; [|lia]. lia.
  - intros E. rewrite E in Hb. apply safe_app_iff in Hb. destruct Hb as (H1 & Hb). apply safe_app_iff in Hb. destruct Hb as (H2 & H3).
    apply part_ints_last in H1; [|lia]. apply part_ints_last in H2; [|lia]. apply part_ints_last in H3; [|lia]. lia.
Qed.

Theorem fft3_exact : (forall r, (r < n)%nat -> inside3 N (outs r)) -> tiling3 n N ins -> tiling3 n N outs ->
  7 * Z.of_nat n <= INT_MAX -> tiles_fit3 f ->
  (forall r, (r < n)%nat -> all_safe (fft3_ints ar n st N permute ins outs r)) <-> grids_fit3 ar f.
Proof.
  intros Ho Ti To H7 HT. split.
  - intros H. apply fft3_needs. apply H. lia.
  - intros G r Hr. apply (fft3_safe ar n st x y z permute ins outs f); assumption.
Qed.

(** simple sufficient conditions *)
Lemma grids_fit3_simple : Z.of_nat n * Z.max x (Z.max y z) <= INT_MAX -> grids_fit3 ar f.
Proof.
  intros H.
  pose proof (setup3d_facts ar n st N permute ins outs f L Hn HI HS) as F.
  destruct (F_dims _ _ _ _ _ _ _ F) as ((X & _) & (Y & _) & (Z' & _)). destruct HI as (I1 & I2 & I3).
  unfold grids_fit3. rewrite (F_N _ _ _ _ _ _ _ F), (F_n _ _ _ _ _ _ _ F).
  assert (G : forall g nx ny nz, good_grid3 (Z.of_nat n) nx ny nz g -> grid_fits3 N g).
  { intros [[a b] c] nx ny nz (A & B & C & E & _). unfold grid_fits3.
    assert (a <= Z.of_nat n /\ b <= Z.of_nat n /\ c <= Z.of_nat n) by (rewrite <- E; assert (1 <= a * b) by nia; assert (1 <= b * c) by nia; assert (1 <= a * c) by nia; nia).
    set (m := Z.max x (Z.max y z)) in *. assert (x <= m /\ y <= m /\ z <= m) by lia.
    assert (a * x <= Z.of_nat n * m) by (apply Z.mul_le_mono_nonneg; lia). assert (b * y <= Z.of_nat n * m) by (apply Z.mul_le_mono_nonneg; lia).
    assert (c * z <= Z.of_nat n * m) by (apply Z.mul_le_mono_nonneg; lia). lia. }
  split; [intros _|split; [|split; intros _]]; eapply G; apply good_og; auto; rewrite IMX in *; lia.
Qed.
Lemma tiles_fit3_simple : (forall r, (r < n)%nat -> inside3 N (outs r)) -> 2 * (x * y * z) <= INT_MAX -> tiles_fit3 f.
Proof.
  intros Ho H t r Ht Hr. pose proof (setup3d_facts ar n st N permute ins outs f L Hn HI HS) as F.
  rewrite (F_n _ _ _ _ _ _ _ F) in Hr. destruct (F_dims _ _ _ _ _ _ _ F) as ((X & _) & (Y & _) & (Z' & _)).
  pose proof (inside_room3 x y z (t r) ltac:(lia) ltac:(lia) ltac:(lia) (layout_inside ar n st x y z permute ins outs f L Hn HI HS Ho t r Ht Hr)). lia.
Qed.
End Fft3Conv.

Section Fft2Conv.
Variables (ar : areas) (n : nat) (st : settings) (x y permute : Z) (ins outs : nat -> box2) (f : fft2).
Local Notation N := (x, y).
Hypothesis L : area_laws ar.
Hypothesis Hn : (1 <= n)%nat.
Hypothesis HI : ints2 N.
Hypothesis HS : setup2d ar n st N permute ins outs = SOk f.

Theorem fft2_needs : all_safe (fft2_ints ar n st N permute ins outs (n - 1)) -> grids_fit2 ar f.
Proof.
  intros H.
  pose proof (setup2d_facts ar n st N permute ins outs f L Hn HI HS) as F.
  destruct (T_dims _ _ _ _ _ _ _ F) as ((X & _) & (Y & _)). destruct HI as (I1 & I2).
  unfold grids_fit2. rewrite (T_N _ _ _ _ _ _ _ F), (T_n _ _ _ _ _ _ _ F).
  pose proof (good_og2 ar n st x y permute ins outs f L Hn HI HS) as Ob.
  unfold fft2_ints in H. rewrite HS, (slow_post2 ar n st x y permute ins outs f L Hn HI HS) in H. replace (Z.of_nat (n - 1)) with (Z.of_nat n - 1) in H by lia.
  destruct (og2 (procfactors2 ar (Z.of_nat n) x y)) as [ba bb]. destruct Ob as (B1 & B2 & B4 & _).
  cbv zeta in H.
  assert (Eb : ploc2 (ba, bb) (Z.of_nat n - 1) = (ba - 1, bb - 1)).
  { unfold ploc2. rewrite <- B4. replace (ba * bb - 1) with ((ba - 1) + (bb - 1) * ba) by ring.
    rewrite Z.mod_add, Z.div_add, Z.mod_small, Z.div_small by lia. f_equal. }
  rewrite Eb in H.
  do 5 (apply safe_app_iff in H; destruct H as (_ & H)).
  apply safe_app_iff in H. destruct H as (Hf & H). apply safe_app_iff in H. destruct H as (Hs & H). apply safe_app_iff in H. destruct H as (Hb & _).
  split; [|split].
  - intros E. rewrite E in Hf. apply part_ints_last in Hf; lia.
  - intros E. rewrite E in Hs. apply part_ints_last in Hs; lia.
  - intros E. rewrite E in Hb. apply safe_app_iff in Hb. destruct Hb as (H1 & H2).
    apply part_ints_last in H1; [|lia]. apply part_ints_last in H2; lia.
Qed.
Theorem fft2_exact : (forall r, (r < n)%nat -> inside2 N (outs r)) -> tiling2 n N ins -> tiling2 n N outs ->
  7 * Z.of_nat n <= INT_MAX -> tiles_fit2 f ->
  (forall r, (r < n)%nat -> all_safe (fft2_ints ar n st N permute ins outs r)) <-> grids_fit2 ar f.
Proof.
  intros Ho Ti To H7 HT. split.
  - intros H. apply fft2_needs. apply H. lia.
  - intros G r Hr. apply (fft2_safe ar n st x y permute ins outs f); assumption.
Qed.
Lemma grids_fit2_simple : Z.of_nat n * Z.max x y <= INT_MAX -> grids_fit2 ar f.
Proof.
  intros H.
  pose proof (setup2d_facts ar n st N permute ins outs f L Hn HI HS) as F.
  destruct (T_dims _ _ _ _ _ _ _ F) as ((X & _) & (Y & _)). destruct HI as (I1 & I2).
  unfold grids_fit2. rewrite (T_N _ _ _ _ _ _ _ F), (T_n _ _ _ _ _ _ _ F).
  pose proof (good_og2 ar n st x y permute ins outs f L Hn HI HS) as Ob.
  destruct (og2 (procfactors2 ar (Z.of_nat n) x y)) as [a b]. destruct Ob as (A & B & E & _).
  assert (a <= Z.of_nat n /\ b <= Z.of_nat n) by nia.
  set (m := Z.max x y) in *. assert (x <= m /\ y <= m) by lia.
  assert (a * x <= Z.of_nat n * m) by (apply Z.mul_le_mono_nonneg; lia). assert (b * y <= Z.of_nat n * m) by (apply Z.mul_le_mono_nonneg; lia).
  assert (Z.of_nat n * x <= Z.of_nat n * m) by (apply Z.mul_le_mono_nonneg; lia). assert (Z.of_nat n * y <= Z.of_nat n * m) by (apply Z.mul_le_mono_nonneg; lia).
  lia.
Qed.
Lemma tiles_fit2_simple : (forall r, (r < n)%nat -> inside2 N (outs r)) -> 2 * (x * y) <= INT_MAX -> tiles_fit2 f.
Proof.
  intros Ho H t r Ht Hr. pose proof (setup2d_facts ar n st N permute ins outs f L Hn HI HS) as F.
  rewrite (T_n _ _ _ _ _ _ _ F) in Hr. destruct (T_dims _ _ _ _ _ _ _ F) as ((X & _) & (Y & _)).
  pose proof (inside_room2 x y (t r) ltac:(lia) ltac:(lia) (layout_inside2 ar n st x y permute ins outs f L Hn HI HS Ho t r Ht Hr)). lia.
Qed.
End Fft2Conv.

(** ** the claim without the guard on the grids fails *)
Definition slab_n : nat := Z.to_nat 4096.
Definition slab_N : Z * Z * Z := (2, 2, 1048576).
(** 4096 slabs of 2 x 2 x 256 points *)
Definition slab (r : nat) : box3 := gbox3 slab_N (1, 1, 4096) (Z.of_nat r).
Definition pair_N : Z * Z := (2, 1048576).
Definition pair_tile (r : nat) : box2 := gbox2 pair_N (2, 2048) (Z.of_nat r).
Definition plain_st : settings := mkset 0 0 0.

Lemma slab_nZ : Z.of_nat slab_n = 4096.
Proof. unfold slab_n. rewrite Z2Nat.id by lia. reflexivity. Qed.
Lemma slab_tiling : tiling3 slab_n slab_N slab.
Proof. apply gbox3_tiling; rewrite ?slab_nZ; lia. Qed.
Lemma slab_inside r : (r < slab_n)%nat -> inside3 slab_N (slab r).
Proof. intros Hr. pose proof slab_nZ. apply gbox3_inside; lia. Qed.
Lemma pair_tiling : tiling2 slab_n pair_N pair_tile.
Proof. apply gbox2_tiling; rewrite ?slab_nZ; lia. Qed.
Lemma pair_inside r : (r < slab_n)%nat -> inside2 pair_N (pair_tile r).
Proof. intros Hr. pose proof slab_nZ. apply gbox2_inside; lia. Qed.

Theorem fft3_grid_overflow : exists n st x y z permute ins outs f,
  (1 <= n)%nat /\ setup3d exact_areas n st (x, y, z) permute ins outs = SOk f /\
  tiling3 n (x, y, z) ins /\ tiling3 n (x, y, z) outs /\ (forall r, (r < n)%nat -> inside3 (x, y, z) (outs r)) /\
  2 * (x * y * z) <= INT_MAX /\ 7 * Z.of_nat n <= INT_MAX /\
  exists r, (r < n)%nat /\ ~ all_safe (fft3_ints exact_areas n st (x, y, z) permute ins outs r).
Proof.
  assert (Hn : (1 <= slab_n)%nat) by (pose proof slab_nZ; lia).
  assert (HI : ints3 slab_N) by (repeat split; discriminate).
  assert (D : dims_ok3 slab_N) by (repeat split; try discriminate; [exists 1, 0, 0|exists 1, 0, 0|exists 20, 0, 0]; repeat split; discriminate).
  destruct (proj2 (setup3d_accepts exact_areas slab_n plain_st slab_N 0 slab slab exact_laws Hn HI)) as (f & HS).
  { split; [exact D|split; [apply slab_inside|split; [|left; reflexivity]]].
    rewrite (tiling3_sum slab_n slab_N slab slab_tiling). apply (grid3_vol slab_N HI D). }
  exists slab_n, plain_st, 2, 2, 1048576, 0, slab, slab, f.
  repeat (split; [first [exact Hn | exact HS | exact slab_tiling | exact slab_inside | rewrite ?slab_nZ; discriminate]|]).
  exists (slab_n - 1)%nat. split; [lia|]. intros H. apply (fft3_needs exact_areas slab_n plain_st 2 2 1048576 0 slab slab f exact_laws Hn HI HS) in H.
  pose proof (setup3d_facts exact_areas slab_n plain_st slab_N 0 slab slab f exact_laws Hn HI HS) as F.
  unfold grids_fit3 in H. rewrite (F_N _ _ _ _ _ _ _ F), (F_n _ _ _ _ _ _ _ F), slab_nZ in H. destruct H as (_ & H & _). revert H. vm_compute. intros (_ & _ & H). apply H. reflexivity.
Qed.

Theorem fft2_grid_overflow : exists n st x y permute ins outs f,
  (1 <= n)%nat /\ setup2d exact_areas n st (x, y) permute ins outs = SOk f /\
  tiling2 n (x, y) ins /\ tiling2 n (x, y) outs /\ (forall r, (r < n)%nat -> inside2 (x, y) (outs r)) /\
  2 * (x * y) <= INT_MAX /\ 7 * Z.of_nat n <= INT_MAX /\
  exists r, (r < n)%nat /\ ~ all_safe (fft2_ints exact_areas n st (x, y) permute ins outs r).
Proof.
  assert (Hn : (1 <= slab_n)%nat) by (pose proof slab_nZ; lia).
  assert (HI : ints2 pair_N) by (repeat split; discriminate).
  assert (D : dims_ok2 pair_N) by (repeat split; try discriminate; [exists 1, 0, 0|exists 20, 0, 0]; repeat split; discriminate).
  destruct (proj2 (setup2d_accepts exact_areas slab_n plain_st pair_N 0 pair_tile pair_tile exact_laws Hn HI)) as (f & HS).
  { split; [exact D|split; [apply pair_inside|split; [|left; reflexivity]]].
    rewrite (tiling2_sum slab_n pair_N pair_tile pair_tiling). apply (grid2_vol pair_N D). }
  exists slab_n, plain_st, 2, 1048576, 0, pair_tile, pair_tile, f.
  repeat (split; [first [exact Hn | exact HS | exact pair_tiling | exact pair_inside | rewrite ?slab_nZ; discriminate]|]).
  exists (slab_n - 1)%nat. split; [lia|]. intros H. apply (fft2_needs exact_areas slab_n plain_st 2 1048576 0 pair_tile pair_tile f exact_laws Hn HI HS) in H.
  pose proof (setup2d_facts exact_areas slab_n plain_st pair_N 0 pair_tile pair_tile f exact_laws Hn HI HS) as F.
  unfold grids_fit2 in H. rewrite (T_N _ _ _ _ _ _ _ F), (T_n _ _ _ _ _ _ _ F), slab_nZ in H. destruct H as (H & _).
  assert (E : t_pre f = true).
  { destruct (t_pre f) eqn:E; [reflexivity|]. pose proof (proj1 (T_pre _ _ _ _ _ _ _ F) E 0%nat ltac:(lia)) as (_ & C). vm_compute in C. discriminate. }
  specialize (H E). vm_compute in H. apply H. reflexivity.
Qed.

(** a bound equal to INT_MAX overflows in the index check itself *)
Theorem check_overflow ar n st N permute ins outs r : ihi (ins r) = INT_MAX ->
  ~ all_safe (fft3_ints ar n st N permute ins outs r).
Proof.
  intros H. destruct N as [[x y] z]. unfold fft3_ints. rewrite safe_app_iff. intros (C & _).
  specialize (C (incr (ihi (ins r))) ltac:(left; reflexivity)). rewrite H in C. apply C. reflexivity.
Qed.

(** Remap3d::setup alone: large coordinates overflow although the tiles are small *)
Definition far_in (r : nat) : box3 :=
  match r with O => mkbox3 (INT_MAX - 1) INT_MAX 0 1 0 0 | _ => mkbox3 0 (-1) 0 (-1) 0 (-1) end.
Definition far_out (r : nat) : box3 := mkbox3 (INT_MAX - 1) INT_MAX (Z.of_nat r) (Z.of_nat r) 0 0.
Lemma far_overflow : exists e, In e (remap3_ints 2 false 1 0 far_in far_out 0) /\ ev e = None.
Proof.
  exists (#1 * ((#0 - #0) * #2 * #2 + ((#1 - #0) * #2 + #(INT_MAX - 1) - #(INT_MAX - 1))))%I. split; [|reflexivity].
  vm_compute. tauto.
Qed.
Theorem remap3_far_overflow : exists n ins outs me,
  (forall r, (r < n)%nat -> tile_fits3 1 (ins r) /\ tile_fits3 1 (outs r)) /\
  disjoint_owners3 n ins /\ disjoint_owners3 n outs /\ (me < n)%nat /\ 7 * Z.of_nat n <= INT_MAX /\
  ~ all_safe (remap3_ints n false 1 0 ins outs me).
Proof.
  exists 2%nat, far_in, far_out, 0%nat. split; [|split; [|split; [|split; [lia|split; [discriminate|]]]]].
  - intros r Hr. destruct r as [|[|r]]; [| |lia]; unfold tile_fits3, legal3, bounds_int3, int_ok, room3; vm_compute; intuition discriminate.
  - intros p r r' Hr Hr' H H'. destruct p as [[i j] k]. destruct r as [|[|r]], r' as [|[|r']]; try lia; cbn in H, H'; lia.
  - intros p r r' Hr Hr' H H'. destruct p as [[i j] k]. unfold far_out in *. cbn in H, H'. lia.
  - intros H. destruct far_overflow as (e & He & E). exact (H e He E).
Qed.

(** ** the trees denote the values of the model *)
Lemma den_size3 nq b : den (size_e3 nq b) = size3 nq b.
Proof. reflexivity. Qed.
Lemma den_part ip n np : 0 <= ip -> 0 <= n -> 1 <= np -> den (part_lo_e ip n np) = part_lo ip n np /\ den (part_hi_e ip n np) = part_hi ip n np.
Proof.
  intros. unfold part_lo_e, part_hi_e, part_lo, part_hi. cbn [den]. rewrite !Z.quot_div_nonneg by nia. auto.
Qed.
Lemma den_send3 nq b ov : map den (send_ints3 nq b ov) =
  [soff3 nq b ov; nfast (splan3 nq b ov); nstride_line (splan3 nq b ov); nstride_plane (splan3 nq b ov); size3 nq ov].
Proof. reflexivity. Qed.
Lemma den_recv3 nq perm b ov : perm_ok3 perm -> exists l, map den (recv_ints3 nq perm b ov) = roff3 nq perm b ov :: l ++
  [nstride_line (rplan3 nq perm b ov); nstride_plane (rplan3 nq perm b ov); size3 nq ov] /\ (perm = 0 -> l = [nfast (rplan3 nq perm b ov)]).
Proof.
  intros [-> | [-> | ->]]; [exists [nq * ni ov]|exists []|exists []]; split; try reflexivity; discriminate.
Qed.
Lemma den_ext3 b : map den (ext_ints3 b) = [ni b; nj b; nk b].
Proof. reflexivity. Qed.
Lemma den_box3 b : den (box_size_e3 b) = psize3 b.
Proof. reflexivity. Qed.
Lemma den_send2 nq b ov : map den (send_ints2 nq b ov) =
  [soff2 nq b ov; nfast2 (splan2 nq b ov); nstride2 (splan2 nq b ov); size2 nq ov].
Proof. reflexivity. Qed.
Lemma den_recv2 nq perm b ov : perm_ok2 perm -> exists l, map den (recv_ints2 nq perm b ov) = roff2 nq perm b ov :: l ++
  [nstride2 (rplan2 nq perm b ov); size2 nq ov] /\ (perm = 0 -> l = [nfast2 (rplan2 nq perm b ov)]).
Proof.
  intros [-> | ->]; [exists [nq * ni2 ov]|exists []]; split; try reflexivity; discriminate.
Qed.
Lemma den_ext2 b : map den (ext_ints2 b) = [ni2 b; nj2 b].
Proof. reflexivity. Qed.
Lemma den_box2 b : den (box_size_e2 b) = psize2 b.
Proof. reflexivity. Qed.

(** ** statements of PropertiesOverflow.v *)
Definition exact_ints (l : list iexp) : Prop := forall e, In e l -> ev e = Some (den e).
Lemma exact_safe l : exact_ints l <-> all_safe l.
Proof. unfold exact_ints, all_safe. split; intros H e He; apply safe_ev; auto. Qed.


Lemma ev_meaning : forall a b x y, ev a = Some x -> ev b = Some y ->
  let yields e v (ok : Prop) := (ok -> ev e = Some v) /\ (~ ok -> ev e = None) in
  let int v := - 2 ^ 31 <= v < 2 ^ 31 in
  let big v := - 2 ^ 63 <= v < 2 ^ 63 in
  yields (Add a b) (x + y) (int (x + y)) /\ yields (Sub a b) (x - y) (int (x - y)) /\ yields (Mul a b) (x * y) (int (x * y)) /\
  yields (Quo a b) (Z.quot x y) (y <> 0 /\ int (Z.quot x y)) /\ yields (Rem a b) (Z.rem x y) (y <> 0 /\ int (Z.rem x y)) /\
  yields (Mul64 a b) (x * y) (big (x * y)).
Proof.
  intros a b x y Ha Hb. cbv zeta. cbn [ev]. rewrite Ha, Hb. unfold bind, chk.
  assert (I : forall v, int_okb v = true <-> - 2 ^ 31 <= v < 2 ^ 31) by (intros v; rewrite int_okb_spec; unfold int_ok; rewrite IMX, IMN; lia).
  assert (B : forall v, big_okb v = true <-> - 2 ^ 63 <= v < 2 ^ 63) by (intros v; rewrite big_okb_spec; unfold big_ok; rewrite BMX, BMN; lia).
  assert (K : forall v, (- 2 ^ 31 <= v < 2 ^ 31 -> (if int_okb v then Some v else None) = Some v) /\ (~ (- 2 ^ 31 <= v < 2 ^ 31) -> (if int_okb v then Some v else None) = None)).
  { intros v. specialize (I v). destruct (int_okb v); split; intros H; auto; exfalso; destruct I as (I1 & I2); [apply H, I1; reflexivity|apply I2 in H; discriminate H]. }
  assert (K2 : forall v, (- 2 ^ 63 <= v < 2 ^ 63 -> (if big_okb v then Some v else None) = Some v) /\ (~ (- 2 ^ 63 <= v < 2 ^ 63) -> (if big_okb v then Some v else None) = None)).
  { intros v. specialize (B v). destruct (big_okb v); split; intros H; auto; exfalso; destruct B as (I1 & I2); [apply H, I1; reflexivity|apply I2 in H; discriminate H]. }
  split; [apply K|]. split; [apply K|]. split; [apply K|]. split; [|split; [|apply K2]].
  - destruct (y =? 0) eqn:E; [apply Z.eqb_eq in E; split; [tauto|reflexivity]|]. apply Z.eqb_neq in E. destruct (K (Z.quot x y)). split; [tauto|]. intros H1. apply H0. tauto.
  - destruct (y =? 0) eqn:E; [apply Z.eqb_eq in E; split; [tauto|reflexivity]|]. apply Z.eqb_neq in E. destruct (K (Z.rem x y)). split; [tauto|]. intros H1. apply H0. tauto.
Qed.
Lemma values_proof : forall nq perm (a ov : box3) (c ow : box2) ip n np,
  (map den (ext_ints3 a) = [ni a; nj a; nk a]) /\
  (map den (send_ints3 nq a ov) =
    [soff3 nq a ov; nfast (splan3 nq a ov); nstride_line (splan3 nq a ov); nstride_plane (splan3 nq a ov); size3 nq ov]) /\
  (perm_ok3 perm -> exists l, map den (recv_ints3 nq perm a ov) = roff3 nq perm a ov :: l ++
    [nstride_line (rplan3 nq perm a ov); nstride_plane (rplan3 nq perm a ov); size3 nq ov] /\ (perm = 0 -> l = [nfast (rplan3 nq perm a ov)])) /\
  den (box_size_e3 a) = psize3 a /\
  (map den (ext_ints2 c) = [ni2 c; nj2 c]) /\
  (map den (send_ints2 nq c ow) = [soff2 nq c ow; nfast2 (splan2 nq c ow); nstride2 (splan2 nq c ow); size2 nq ow]) /\
  (perm_ok2 perm -> exists l, map den (recv_ints2 nq perm c ow) = roff2 nq perm c ow :: l ++
    [nstride2 (rplan2 nq perm c ow); size2 nq ow] /\ (perm = 0 -> l = [nfast2 (rplan2 nq perm c ow)])) /\
  den (box_size_e2 c) = psize2 c /\
  (0 <= ip -> 0 <= n -> 1 <= np -> map den (part_ints ip n np) = [part_lo ip n np; part_hi ip n np]).
Proof.
  intros. split; [reflexivity|]. split; [reflexivity|]. split; [apply den_recv3|]. split; [reflexivity|].
  split; [reflexivity|]. split; [reflexivity|]. split; [apply den_recv2|]. split; [reflexivity|].
  intros H1 H2 H3. destruct (den_part ip n np H1 H2 H3) as (E1 & E2). unfold part_ints. cbn [map]. rewrite E1, E2. reflexivity.
Qed.
Lemma far_refuted : exists n ins outs me,
  (forall r, (r < n)%nat -> tile_fits3 1 (ins r) /\ tile_fits3 1 (outs r)) /\
  disjoint_owners3 n ins /\ disjoint_owners3 n outs /\ (me < n)%nat /\ 7 * Z.of_nat n <= INT_MAX /\
  exists e, In e (remap3_ints n false 1 0 ins outs me) /\ ev e = None.
Proof.
  exists 2%nat, far_in, far_out, 0%nat. split; [|split; [|split; [|split; [lia|split; [discriminate|exact far_overflow]]]]].
  - intros r Hr. destruct r as [|[|r]]; [| |lia]; unfold tile_fits3, legal3, bounds_int3, int_ok, room3; vm_compute; intuition discriminate.
  - intros p r r' Hr Hr' H H'. destruct p as [[i j] k]. destruct r as [|[|r]], r' as [|[|r']]; try lia; cbn in H, H'; lia.
  - intros p r r' Hr Hr' H H'. destruct p as [[i j] k]. unfold far_out in *. cbn in H, H'. lia.
Qed.
Lemma check_refuted ar n st x y z permute ins outs r : ihi (ins r) = INT_MAX ->
  exists e, In e (fft3_ints ar n st (x, y, z) permute ins outs r) /\ ev e = None.
Proof.
  intros H. exists (incr (ihi (ins r))). split; [left; reflexivity|]. rewrite H. reflexivity.
Qed.
Lemma fft3_simple ar n st x y z permute ins outs f : area_laws ar -> (1 <= n)%nat -> ints3 (x, y, z) ->
  setup3d ar n st (x, y, z) permute ins outs = SOk f ->
  (forall r, (r < n)%nat -> inside3 (x, y, z) (outs r)) -> tiling3 n (x, y, z) ins -> tiling3 n (x, y, z) outs ->
  2 * (x * y * z) <= INT_MAX -> Z.of_nat n * Z.max x (Z.max y z) <= INT_MAX -> 7 * Z.of_nat n <= INT_MAX ->
  forall r, (r < n)%nat -> exact_ints (fft3_ints ar n st (x, y, z) permute ins outs r).
Proof.
  intros L Hn HI HS Ho Ti To H1 H2 H7 r Hr. apply exact_safe. apply (fft3_safe ar n st x y z permute ins outs f); auto.
  - apply (tiles_fit3_simple ar n st x y z permute ins outs f); assumption.
  - apply (grids_fit3_simple ar n st x y z permute ins outs f); assumption.
Qed.
Lemma fft2_simple ar n st x y permute ins outs f : area_laws ar -> (1 <= n)%nat -> ints2 (x, y) ->
  setup2d ar n st (x, y) permute ins outs = SOk f ->
  (forall r, (r < n)%nat -> inside2 (x, y) (outs r)) -> tiling2 n (x, y) ins -> tiling2 n (x, y) outs ->
  2 * (x * y) <= INT_MAX -> Z.of_nat n * Z.max x y <= INT_MAX -> 7 * Z.of_nat n <= INT_MAX ->
  forall r, (r < n)%nat -> exact_ints (fft2_ints ar n st (x, y) permute ins outs r).
Proof.
  intros L Hn HI HS Ho Ti To H1 H2 H7 r Hr. apply exact_safe. apply (fft2_safe ar n st x y permute ins outs f); auto.
  - apply (tiles_fit2_simple ar n st x y permute ins outs f); assumption.
  - apply (grids_fit2_simple ar n st x y permute ins outs f); assumption.
Qed.
Lemma slab_ex3 : exists f, setup3d exact_areas slab_n plain_st (2, 2, 1024) 0 (fun r => gbox3 (2, 2, 1024) (1, 1, 4096) (Z.of_nat r))
     (fun r => gbox3 (2, 2, 1024) (1, 1, 4096) (Z.of_nat r)) = SOk f /\
  tiling3 slab_n (2, 2, 1024) (fun r => gbox3 (2, 2, 1024) (1, 1, 4096) (Z.of_nat r)) /\
  Z.of_nat slab_n * Z.max 2 (Z.max 2 1024) <= INT_MAX /\ grids_fit3 exact_areas f /\ tiles_fit3 f.
Proof.
  set (M := (2, 2, 1024)). set (t := fun r => gbox3 M (1, 1, 4096) (Z.of_nat r)).
  assert (Hn : (1 <= slab_n)%nat) by (pose proof slab_nZ; lia).
  assert (HI : ints3 M) by (repeat split; discriminate).
  assert (D : dims_ok3 M) by (repeat split; try discriminate; [exists 1, 0, 0|exists 1, 0, 0|exists 10, 0, 0]; repeat split; discriminate).
  assert (T : tiling3 slab_n M t) by (apply gbox3_tiling; rewrite ?slab_nZ; lia).
  assert (I : forall r, (r < slab_n)%nat -> inside3 M (t r)) by (intros r Hr; pose proof slab_nZ; apply gbox3_inside; lia).
  destruct (proj2 (setup3d_accepts exact_areas slab_n plain_st M 0 t t exact_laws Hn HI)) as (f & HS).
  { split; [exact D|split; [exact I|split; [|left; reflexivity]]]. rewrite (tiling3_sum slab_n M t T). apply (grid3_vol M HI D). }
  exists f. split; [exact HS|]. split; [exact T|]. split; [rewrite slab_nZ; discriminate|]. split.
  - apply (grids_fit3_simple exact_areas slab_n plain_st 2 2 1024 0 t t f exact_laws Hn HI HS). rewrite slab_nZ. discriminate.
  - apply (tiles_fit3_simple exact_areas slab_n plain_st 2 2 1024 0 t t f exact_laws Hn HI HS I). discriminate.
Qed.
Lemma slab_ex2 : exists f, setup2d exact_areas slab_n plain_st (2, 1024) 0 (fun r => gbox2 (2, 1024) (2, 2048) (Z.of_nat r))
     (fun r => gbox2 (2, 1024) (2, 2048) (Z.of_nat r)) = SOk f /\
  tiling2 slab_n (2, 1024) (fun r => gbox2 (2, 1024) (2, 2048) (Z.of_nat r)) /\
  Z.of_nat slab_n * Z.max 2 1024 <= INT_MAX /\ grids_fit2 exact_areas f /\ tiles_fit2 f.
Proof.
  set (M := (2, 1024)). set (t := fun r => gbox2 M (2, 2048) (Z.of_nat r)).
  assert (Hn : (1 <= slab_n)%nat) by (pose proof slab_nZ; lia).
  assert (HI : ints2 M) by (repeat split; discriminate).
  assert (D : dims_ok2 M) by (repeat split; try discriminate; [exists 1, 0, 0|exists 10, 0, 0]; repeat split; discriminate).
  assert (T : tiling2 slab_n M t) by (apply gbox2_tiling; rewrite ?slab_nZ; lia).
  assert (I : forall r, (r < slab_n)%nat -> inside2 M (t r)) by (intros r Hr; pose proof slab_nZ; apply gbox2_inside; lia).
  destruct (proj2 (setup2d_accepts exact_areas slab_n plain_st M 0 t t exact_laws Hn HI)) as (f & HS).
  { split; [exact D|split; [exact I|split; [|left; reflexivity]]]. rewrite (tiling2_sum slab_n M t T). apply (grid2_vol M D). }
  exists f. split; [exact HS|]. split; [exact T|]. split; [rewrite slab_nZ; discriminate|]. split.
  - apply (grids_fit2_simple exact_areas slab_n plain_st 2 1024 0 t t f exact_laws Hn HI HS). rewrite slab_nZ. discriminate.
  - apply (tiles_fit2_simple exact_areas slab_n plain_st 2 1024 0 t t f exact_laws Hn HI HS I). discriminate.
Qed.
