(** PropertiesOverflow.v : property C43, the int arithmetic of setup.

    [exact_ints l] says that every expression of the list, evaluated step by step in
    32-bit (bigint: 64-bit) arithmetic, stays in range, divides by no zero and yields
    its mathematical value. *)

From Verif Require Import Base Spec Pack3d Pack2d Sched Remap Remap3d Remap2d RemapInst RemapThms Layout LayoutProofs Count Setup3d Setup3dProofs Setup2d Setup2dProofs.
From Verif Require Import Wrap Overflow OverflowProofs OverflowFft OverflowTop.
Local Open Scope Z_scope.

(** ** what evaluation means: an operator yields the mathematical value when it is in the range of int, nothing otherwise *)
Theorem C43_ev : forall a b x y, ev a = Some x -> ev b = Some y ->
  let yields e v (ok : Prop) := (ok -> ev e = Some v) /\ (~ ok -> ev e = None) in
  let int v := - 2 ^ 31 <= v < 2 ^ 31 in
  let big v := - 2 ^ 63 <= v < 2 ^ 63 in
  yields (Add a b) (x + y) (int (x + y)) /\ yields (Sub a b) (x - y) (int (x - y)) /\ yields (Mul a b) (x * y) (int (x * y)) /\
  yields (Quo a b) (Z.quot x y) (y <> 0 /\ int (Z.quot x y)) /\ yields (Rem a b) (Z.rem x y) (y <> 0 /\ int (Z.rem x y)) /\
  yields (Mul64 a b) (x * y) (big (x * y)).
Proof. exact ev_meaning. Qed.
Print Assumptions C43_ev.
Example C43_ev_example : ev (#2147483646 + #1)%I = Some 2147483647 /\ ev (#2147483647 + #1)%I = None /\ ev (#7 / #0)%I = None /\
  ev (#65536 * #65536 / #65536)%I = None.
Proof. repeat split. Qed.

(** the listed expressions denote the offsets, sizes, plans and index ranges that the rest of the model uses *)
Theorem C43_values : forall nq perm (a ov : box3) (c ow : box2) ip n np,
  (map den (ext_ints3 a) = [ni a; nj a; nk a]) /\
  (map den (send_ints3 nq a ov) =
    [soff3 nq a ov; nfast (splan3 nq a ov); nstride_line (splan3 nq a ov); nstride_plane (splan3 nq a ov); size3 nq ov]) /\
  (perm_ok3 perm -> exists l, map den (recv_ints3 nq perm a ov) = roff3 nq perm a ov :: l ++
    [nstride_line (rplan3 nq perm a ov); nstride_plane (rplan3 nq perm a ov); size3 nq ov] /\ (perm = 0 -> l = [nfast (rplan3 nq perm a ov)])) /\
  den (box_size_e3 a) = psize3 a /\
  (map den (ext_ints2 c) = [ni2 c; nj2 c]) /\
  (map den (send_ints2 nq c ow) = [soff2 nq c ow; nfast2 (splan2 nq c ow); nstride2 (splan2 nq c ow); size2 nq ow]) /\
  (perm_ok2 perm -> exists l, map den (recv_ints2 nq perm c ow) = roff2 nq perm c ow :: l ++
    [nstride2 (rplan2 nq perm c ow); size2 nq ow] /\ (perm = 0 -> l = [nfast2 (rplan2 nq perm c ow)])) /\
  den (box_size_e2 c) = psize2 c /\
  (0 <= ip -> 0 <= n -> 1 <= np -> map den (part_ints ip n np) = [part_lo ip n np; part_hi ip n np]).
Proof. exact values_proof. Qed.
Print Assumptions C43_values.
Example C43_values_example : map den (part_ints 3 10 4) = [7; 9].
Proof. reflexivity. Qed.

(** ** Remap3d::setup and Remap2d::setup *)
Theorem C43_remap3d : forall n coll nq perm ins outs, 1 <= nq -> 7 * Z.of_nat n <= INT_MAX ->
  (forall r, (r < n)%nat -> tile_fits3 nq (ins r)) -> (forall r, (r < n)%nat -> tile_fits3 nq (outs r)) ->
  disjoint_owners3 n ins -> disjoint_owners3 n outs ->
  forall me, (me < n)%nat -> nj (ins me) * ni (ins me) + ihi (ins me) <= INT_MAX ->
  exact_ints (remap3_ints n coll nq perm ins outs me).
Proof. intros. apply exact_safe. apply remap3_safe; assumption. Qed.
Print Assumptions C43_remap3d.
Example C43_remap3d_example :
  let t r := mkbox3 0 1023 0 1023 (Z.of_nat r * 512) (Z.of_nat r * 512 + 511) in
  7 * Z.of_nat 2 <= INT_MAX /\ (forall r, (r < 2)%nat -> tile_fits3 2 (t r)) /\ disjoint_owners3 2 t /\
  nj (t 1%nat) * ni (t 1%nat) + ihi (t 1%nat) <= INT_MAX.
Proof.
  cbv zeta. split; [discriminate|]. split; [|split; [|discriminate]].
  - intros r Hr. destruct r as [|[|r]]; [| |lia]; unfold tile_fits3, legal3, bounds_int3, int_ok, room3; vm_compute; intuition discriminate.
  - intros [[i j] k] r r' Hr Hr' H H'. cbn in H, H'. lia.
Qed.
Theorem C43_remap2d : forall n coll nq perm ins outs, 1 <= nq -> 7 * Z.of_nat n <= INT_MAX ->
  (forall r, (r < n)%nat -> tile_fits2 nq (ins r)) -> (forall r, (r < n)%nat -> tile_fits2 nq (outs r)) ->
  disjoint_owners2 n ins -> disjoint_owners2 n outs ->
  forall me, (me < n)%nat -> nj2 (ins me) * ni2 (ins me) + ihi2 (ins me) <= INT_MAX ->
  exact_ints (remap2_ints n coll nq perm ins outs me).
Proof. intros. apply exact_safe. apply remap2_safe; assumption. Qed.
Print Assumptions C43_remap2d.
Example C43_remap2d_example :
  let t r := mkbox2 0 16383 (Z.of_nat r * 32768) (Z.of_nat r * 32768 + 32767) in
  7 * Z.of_nat 2 <= INT_MAX /\ (forall r, (r < 2)%nat -> tile_fits2 2 (t r)) /\ disjoint_owners2 2 t /\
  nj2 (t 1%nat) * ni2 (t 1%nat) + ihi2 (t 1%nat) <= INT_MAX.
Proof.
  cbv zeta. split; [discriminate|]. split; [|split; [|discriminate]].
  - intros r Hr. destruct r as [|[|r]]; [| |lia]; unfold tile_fits2, legal2, bounds_int2, int_ok, room2; vm_compute; intuition discriminate.
  - intros [i j] r r' Hr Hr' H H'. cbn in H, H'. lia.
Qed.
(** the last hypothesis is needed: small tiles with large coordinates overflow *)
Theorem C43_far_refuted : exists n ins outs me,
  (forall r, (r < n)%nat -> tile_fits3 1 (ins r) /\ tile_fits3 1 (outs r)) /\
  disjoint_owners3 n ins /\ disjoint_owners3 n outs /\ (me < n)%nat /\ 7 * Z.of_nat n <= INT_MAX /\
  exists e, In e (remap3_ints n false 1 0 ins outs me) /\ ev e = None.
Proof. exact far_refuted. Qed.
Print Assumptions C43_far_refuted.

(** ** FFT3d::setup: no overflow on any rank exactly when, for every processor grid used, processors times points fits
    in an int in every dimension; tiles may be arbitrary as long as two values per point can be counted *)
Theorem C43_fft3d_exact : forall ar n st x y z permute ins outs f, area_laws ar -> (1 <= n)%nat -> ints3 (x, y, z) ->
  setup3d ar n st (x, y, z) permute ins outs = SOk f ->
  (forall r, (r < n)%nat -> inside3 (x, y, z) (outs r)) -> tiling3 n (x, y, z) ins -> tiling3 n (x, y, z) outs ->
  7 * Z.of_nat n <= INT_MAX -> tiles_fit3 f ->
  (forall r, (r < n)%nat -> exact_ints (fft3_ints ar n st (x, y, z) permute ins outs r)) <-> grids_fit3 ar f.
Proof. intros ar n st x y z permute ins outs f L Hn HI HS Ho Ti To H7 HT. rewrite <- (fft3_exact ar n st x y z permute ins outs f) by assumption. split; intros H r Hr; apply exact_safe; auto. Qed.
Print Assumptions C43_fft3d_exact.
(** sufficient: the grid has few enough points and processors *)
Theorem C43_fft3d : forall ar n st x y z permute ins outs f, area_laws ar -> (1 <= n)%nat -> ints3 (x, y, z) ->
  setup3d ar n st (x, y, z) permute ins outs = SOk f ->
  (forall r, (r < n)%nat -> inside3 (x, y, z) (outs r)) -> tiling3 n (x, y, z) ins -> tiling3 n (x, y, z) outs ->
  2 * (x * y * z) <= INT_MAX -> Z.of_nat n * Z.max x (Z.max y z) <= INT_MAX -> 7 * Z.of_nat n <= INT_MAX ->
  forall r, (r < n)%nat -> exact_ints (fft3_ints ar n st (x, y, z) permute ins outs r).
Proof. exact fft3_simple. Qed.
Print Assumptions C43_fft3d.
(** 4096 ranks, 1024 of which own four points each and the others none *)
Example C43_fft3d_example : exists f, setup3d exact_areas slab_n plain_st (2, 2, 1024) 0 (fun r => gbox3 (2, 2, 1024) (1, 1, 4096) (Z.of_nat r))
     (fun r => gbox3 (2, 2, 1024) (1, 1, 4096) (Z.of_nat r)) = SOk f /\
  tiling3 slab_n (2, 2, 1024) (fun r => gbox3 (2, 2, 1024) (1, 1, 4096) (Z.of_nat r)) /\
  Z.of_nat slab_n * Z.max 2 (Z.max 2 1024) <= INT_MAX /\ grids_fit3 exact_areas f /\ tiles_fit3 f.
Proof. exact slab_ex3. Qed.
(** without the condition on the number of processors the claim fails: 4096 ranks, 2 x 2 x 2^20 points *)
Theorem C43_grid_refuted : exists n st x y z permute ins outs f,
  (1 <= n)%nat /\ setup3d exact_areas n st (x, y, z) permute ins outs = SOk f /\
  tiling3 n (x, y, z) ins /\ tiling3 n (x, y, z) outs /\ (forall r, (r < n)%nat -> inside3 (x, y, z) (outs r)) /\
  2 * (x * y * z) <= INT_MAX /\ 7 * Z.of_nat n <= INT_MAX /\
  exists r, (r < n)%nat /\ ~ exact_ints (fft3_ints exact_areas n st (x, y, z) permute ins outs r).
Proof. destruct fft3_grid_overflow as (n & st & x & y & z & p & i & o & f & H). setoid_rewrite exact_safe. exists n, st, x, y, z, p, i, o, f. exact H. Qed.
Print Assumptions C43_grid_refuted.
(** an upper bound INT_MAX overflows inside the very check that would reject it *)
Theorem C43_check_refuted : forall ar n st x y z permute ins outs r, ihi (ins r) = INT_MAX ->
  exists e, In e (fft3_ints ar n st (x, y, z) permute ins outs r) /\ ev e = None.
Proof. exact check_refuted. Qed.
Print Assumptions C43_check_refuted.

(** ** FFT2d::setup *)
Theorem C43_fft2d_exact : forall ar n st x y permute ins outs f, area_laws ar -> (1 <= n)%nat -> ints2 (x, y) ->
  setup2d ar n st (x, y) permute ins outs = SOk f ->
  (forall r, (r < n)%nat -> inside2 (x, y) (outs r)) -> tiling2 n (x, y) ins -> tiling2 n (x, y) outs ->
  7 * Z.of_nat n <= INT_MAX -> tiles_fit2 f ->
  (forall r, (r < n)%nat -> exact_ints (fft2_ints ar n st (x, y) permute ins outs r)) <-> grids_fit2 ar f.
Proof. intros ar n st x y permute ins outs f L Hn HI HS Ho Ti To H7 HT. rewrite <- (fft2_exact ar n st x y permute ins outs f) by assumption. split; intros H r Hr; apply exact_safe; auto. Qed.
Print Assumptions C43_fft2d_exact.
Theorem C43_fft2d : forall ar n st x y permute ins outs f, area_laws ar -> (1 <= n)%nat -> ints2 (x, y) ->
  setup2d ar n st (x, y) permute ins outs = SOk f ->
  (forall r, (r < n)%nat -> inside2 (x, y) (outs r)) -> tiling2 n (x, y) ins -> tiling2 n (x, y) outs ->
  2 * (x * y) <= INT_MAX -> Z.of_nat n * Z.max x y <= INT_MAX -> 7 * Z.of_nat n <= INT_MAX ->
  forall r, (r < n)%nat -> exact_ints (fft2_ints ar n st (x, y) permute ins outs r).
Proof. exact fft2_simple. Qed.
Print Assumptions C43_fft2d.
Example C43_fft2d_example : exists f, setup2d exact_areas slab_n plain_st (2, 1024) 0 (fun r => gbox2 (2, 1024) (2, 2048) (Z.of_nat r))
     (fun r => gbox2 (2, 1024) (2, 2048) (Z.of_nat r)) = SOk f /\
  tiling2 slab_n (2, 1024) (fun r => gbox2 (2, 1024) (2, 2048) (Z.of_nat r)) /\
  Z.of_nat slab_n * Z.max 2 1024 <= INT_MAX /\ grids_fit2 exact_areas f /\ tiles_fit2 f.
Proof. exact slab_ex2. Qed.
Theorem C43_grid2_refuted : exists n st x y permute ins outs f,
  (1 <= n)%nat /\ setup2d exact_areas n st (x, y) permute ins outs = SOk f /\
  tiling2 n (x, y) ins /\ tiling2 n (x, y) outs /\ (forall r, (r < n)%nat -> inside2 (x, y) (outs r)) /\
  2 * (x * y) <= INT_MAX /\ 7 * Z.of_nat n <= INT_MAX /\
  exists r, (r < n)%nat /\ ~ exact_ints (fft2_ints exact_areas n st (x, y) permute ins outs r).
Proof. destruct fft2_grid_overflow as (n & st & x & y & p & i & o & f & H). setoid_rewrite exact_safe. exists n, st, x, y, p, i, o, f. exact H. Qed.
Print Assumptions C43_grid2_refuted.
