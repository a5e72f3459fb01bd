(** PropertiesLayout.v : properties C15-C21 and C46 (setup of an FFT), proofs by reference. *)

From Coq Require Import String QArith.
From Verif Require Import Base Spec Pack3d Pack2d Sched Remap Remap3d Remap2d RemapInst RemapThms RemapTop ExRemap
  Layout LayoutProofs Count Setup3d Setup3dProofs Setup2d Setup2dProofs LayoutFinal Double DoubleProofs.
Open Scope Z_scope.

(** the laws assumed of the floating-point surface areas hold for exact arithmetic *)
Theorem C15_exact_laws : area_laws exact_areas.
Proof. exact exact_laws. Qed.
Print Assumptions C15_exact_laws.
(** and for the double arithmetic of the source, every operation rounded to nearest, ties to even *)
Theorem C15_double_laws : area_laws double_areas.
Proof. exact double_laws. Qed.
Print Assumptions C15_double_laws.
Example C15_double_example : procfactors double_areas 12 8 8 30 = Some (1, 2, 6) /\ procfactors2 double_areas 12 8 30 = Some (1, 12) /\
  fl (1 # 3) = (6004799503160661 # 18014398509481984)%Q.
Proof. vm_compute. auto. Qed.

(** C15: grids of the fast, mid, slow pencil stages and of the brick stage *)
Theorem C15_grids_3d : forall ar P x y z, area_laws ar -> 1 <= P ->
  2 <= x <= INT_MAX -> 2 <= y <= INT_MAX -> 2 <= z <= INT_MAX ->
  (exists b c, procfactors ar P 1 y z = Some (1, b, c) /\ 1 <= b /\ 1 <= c /\ b * c = P) /\
  (exists a c, procfactors ar P x 1 z = Some (a, 1, c) /\ 1 <= a /\ 1 <= c /\ a * c = P) /\
  (exists a b, procfactors ar P x y 1 = Some (a, b, 1) /\ 1 <= a /\ 1 <= b /\ a * b = P) /\
  (exists a b c, procfactors ar P x y z = Some (a, b, c) /\ 1 <= a /\ 1 <= b /\ 1 <= c /\ a * b * c = P).
Proof. exact C15_proof. Qed.
Print Assumptions C15_grids_3d.
Example C15_example : procfactors exact_areas 12 1 8 30 = Some (1, 2, 6) /\ procfactors exact_areas 12 8 8 30 = Some (1, 2, 6) /\ 30 <= INT_MAX.
Proof. split; [vm_compute; reflexivity|]. split; [vm_compute; reflexivity|]. unfold INT_MAX. lia. Qed.
Theorem C15_grids_2d : forall ar P x y, area_laws ar -> 1 <= P -> 2 <= x <= INT_MAX -> 2 <= y <= INT_MAX ->
  exists a b, procfactors2 ar P x y = Some (a, b) /\ 1 <= a /\ 1 <= b /\ a * b = P.
Proof. exact C15_2d_proof. Qed.
Print Assumptions C15_grids_2d.
(** every place of the grid is taken by exactly one rank *)
Theorem C15_places_3d : forall x y z, 1 <= x -> 1 <= y -> 1 <= z ->
  (forall me, 0 <= me < x * y * z -> let '(a, b, c) := ploc (x, y, z) me in 0 <= a < x /\ 0 <= b < y /\ 0 <= c < z) /\
  (forall a b c, 0 <= a < x -> 0 <= b < y -> 0 <= c < z -> exists! me, 0 <= me < x * y * z /\ ploc (x, y, z) me = (a, b, c)).
Proof. exact C15_places_proof. Qed.
Print Assumptions C15_places_3d.
Theorem C15_places_2d : forall x y, 1 <= x -> 1 <= y ->
  (forall me, 0 <= me < x * y -> let '(a, b) := ploc2 (x, y) me in 0 <= a < x /\ 0 <= b < y) /\
  (forall a b, 0 <= a < x -> 0 <= b < y -> exists! me, 0 <= me < x * y /\ ploc2 (x, y) me = (a, b)).
Proof. exact C15_places2_proof. Qed.
Print Assumptions C15_places_2d.

(** C16: the internal layouts of a successful setup tile the grid; the pencils span
    the dimension they transform, on every rank. *)
Theorem C16_layouts_tile_3d : forall ar n st N permute ins outs f, area_laws ar -> (1 <= n)%nat -> ints3 N ->
  tiling3 n N ins -> tiling3 n N outs ->
  setup3d ar n st N permute ins outs = SOk f ->
  tiling3 n N (f_fast f) /\ tiling3 n N (f_mid f) /\ tiling3 n N (f_slow f) /\ (f_exch f = true -> tiling3 n N (f_brick f)) /\
  forall r, (r < n)%nat ->
    (ilo (f_fast f r) = 0 /\ ihi (f_fast f r) = fst (fst N) - 1) /\
    (jlo (f_mid f r) = 0 /\ jhi (f_mid f r) = snd (fst N) - 1) /\
    (klo (f_slow f r) = 0 /\ khi (f_slow f r) = snd N - 1).
Proof. exact C16_proof. Qed.
Print Assumptions C16_layouts_tile_3d.
Example C16_example : (exists f, setup3d exact_areas 3 (mkset 2 1 2) e3_N 1 e3_in e3_out = SOk f /\
    f_pre f = true /\ f_post f = true /\ f_same f = false /\ f_exch f = true) /\
  tiling3 3 e3_N e3_in /\ tiling3 3 e3_N e3_out /\ ints3 e3_N.
Proof. exact (conj e3_setup (conj e3_tiling_in (conj e3_tiling_out e3_ints))). Qed.
Theorem C16_layouts_tile_2d : forall ar n st N permute ins outs f, area_laws ar -> (1 <= n)%nat -> ints2 N ->
  tiling2 n N ins -> tiling2 n N outs ->
  setup2d ar n st N permute ins outs = SOk f ->
  tiling2 n N (t_fast f) /\ tiling2 n N (t_slow f) /\ (t_exch f = true -> tiling2 n N (t_brick f)) /\
  forall r, (r < n)%nat ->
    (ilo2 (t_fast f r) = 0 /\ ihi2 (t_fast f r) = fst N - 1) /\ (jlo2 (t_slow f r) = 0 /\ jhi2 (t_slow f r) = snd N - 1).
Proof. exact C16_2d_proof. Qed.
Print Assumptions C16_layouts_tile_2d.
Example C16_2d_example : (exists f, setup2d exact_areas 2 (mkset 2 1 0) e2_N 0 e2_in e2_out = SOk f) /\ tiling2 2 e2_N e2_in /\ tiling2 2 e2_N e2_out.
Proof. split; [apply is_ok_ex; vm_compute; reflexivity|]. exact (conj e2_tiling_in e2_tiling_out). Qed.

(** C17: in exact arithmetic the grid chosen has the least surface among ALL
    factorisations (with extent 1 where the size is 1), if the processor count has at
    most 50 divisors not above its square root. *)
Theorem C17_least_surface : forall P nx ny nz g t, 1 <= P -> in_int nx -> in_int ny -> in_int nz -> few_divisors P ->
  procfactors exact_areas P nx ny nz = Some g -> good_grid3 P nx ny nz t ->
  (surface3 nx ny nz g <= surface3 nx ny nz t)%Q.
Proof. exact C17_proof. Qed.
Print Assumptions C17_least_surface.
Theorem C17_few_divisors : forall P, P <= 2600 -> few_divisors P.
Proof. exact few_divisors_small. Qed.
Print Assumptions C17_few_divisors.
Example C17_example : procfactors exact_areas 12 8 8 30 = Some (1, 2, 6) /\ good_grid3 12 8 8 30 (1, 3, 4) /\
  (surface3 8 8 30 (1, 2, 6)%Z < surface3 8 8 30 (1, 3, 4)%Z)%Q.
Proof. split; [vm_compute; reflexivity|]. split; [cbn; lia|vm_compute; reflexivity]. Qed.
(** in double arithmetic it is the least up to a relative 2^-49 *)
Theorem C17_least_surface_double : forall P nx ny nz g t, 1 <= P -> in_int nx -> in_int ny -> in_int nz -> few_divisors P ->
  procfactors double_areas P nx ny nz = Some g -> good_grid3 P nx ny nz t ->
  (surface3 nx ny nz g <= (1 + (1 # 2 ^ 49)) * surface3 nx ny nz t)%Q.
Proof. intros P nx ny nz g t HP Hx Hy Hz Hf. exact (double_min P nx ny nz g t HP Hx Hy Hz (few_divisors_length P HP Hf)). Qed.
Print Assumptions C17_least_surface_double.
(** without the bound it fails: factor() silently drops divisors after the 50th *)
Theorem C17_many_divisors_refuted : exists P nx ny nz g t, in_int nx /\ in_int ny /\ in_int nz /\
  procfactors exact_areas P nx ny nz = Some g /\ good_grid3 P nx ny nz t /\
  (surface3 nx ny nz t < surface3 nx ny nz g)%Q.
Proof. exact C17_refuted_proof. Qed.
Print Assumptions C17_many_divisors_refuted.
(** in 2d the quantity minimised is the tile area, the same for all grids; the choice
    is always 1 x P, whose tiles have a larger perimeter than necessary *)
Theorem C17_2d_always_flat : forall P nx ny, 1 <= P -> 2 <= nx <= INT_MAX -> 2 <= ny <= INT_MAX ->
  procfactors2 exact_areas P nx ny = Some (1, P).
Proof. exact C17_2d_proof. Qed.
Print Assumptions C17_2d_always_flat.
(** in double arithmetic the same holds for a power of two of processors, but not in general: equal areas are then
    computed by different roundings *)
Theorem C17_2d_flat_double : forall k nx ny, 0 <= k -> 2 <= nx <= INT_MAX -> 2 <= ny <= INT_MAX ->
  procfactors2 double_areas (2 ^ k) nx ny = Some (1, 2 ^ k).
Proof. exact double_flat. Qed.
Print Assumptions C17_2d_flat_double.
Example C17_2d_double_example : procfactors2 double_areas (2 ^ 5) 12 30 = Some (1, 32).
Proof. vm_compute. reflexivity. Qed.
Theorem C17_2d_flat_double_refuted : exists P nx ny, 1 <= P /\ 2 <= nx <= INT_MAX /\ 2 <= ny <= INT_MAX /\
  procfactors2 double_areas P nx ny = Some (P, 1) /\ P <> 1.
Proof. exact double_not_flat. Qed.
Print Assumptions C17_2d_flat_double_refuted.
Theorem C17_2d_perimeter_refuted : exists P nx ny g t, procfactors2 exact_areas P nx ny = Some g /\ good_grid2 P nx ny t /\
  (perimeter2 nx ny t < perimeter2 nx ny g)%Q.
Proof. exact C17_2d_refuted_proof. Qed.
Print Assumptions C17_2d_perimeter_refuted.

(** C18: for input layouts that tile the grid, setup succeeds exactly when every
    dimension is >= 2 and of the form 2^a 3^b 5^c, and otherwise reports an error. *)
Theorem C18_dims_3d : forall ar n st N permute ins outs, area_laws ar -> (1 <= n)%nat -> ints3 N -> perm_ok3 permute ->
  (forall r, (r < n)%nat -> inside3 N (ins r)) -> tiling3 n N ins ->
  ((exists f, setup3d ar n st N permute ins outs = SOk f) <-> dims_ok3 N) /\
  ((exists msg, setup3d ar n st N permute ins outs = SErr msg) <-> ~ dims_ok3 N).
Proof. exact C18_proof. Qed.
Print Assumptions C18_dims_3d.
Example C18_example : (forall r, (r < 3)%nat -> inside3 e3_N (e3_in r)) /\ tiling3 3 e3_N e3_in.
Proof. exact (conj e3_inside e3_tiling_in). Qed.
(** whatever the layouts and permute are *)
Theorem C18_bad_dims_3d : forall ar n st N permute ins outs, area_laws ar -> (1 <= n)%nat -> ints3 N ->
  ~ dims_ok3 N -> exists msg, setup3d ar n st N permute ins outs = SErr msg.
Proof. exact dims_dec3. Qed.
Print Assumptions C18_bad_dims_3d.
Theorem C18_dims_2d : forall ar n st N permute ins outs, area_laws ar -> (1 <= n)%nat -> ints2 N -> perm_ok2 permute ->
  (forall r, (r < n)%nat -> inside2 N (ins r)) -> tiling2 n N ins ->
  ((exists f, setup2d ar n st N permute ins outs = SOk f) <-> dims_ok2 N) /\
  ((exists msg, setup2d ar n st N permute ins outs = SErr msg) <-> ~ dims_ok2 N).
Proof. exact C18_2d_proof. Qed.
Print Assumptions C18_dims_2d.

(** C19: what the checks of setup guarantee: input boxes outside the grid, and
    non-overlapping input boxes that leave a point unowned, are rejected ... *)
Theorem C19_rejects_3d : forall ar n st N permute ins outs, area_laws ar -> (1 <= n)%nat -> ints3 N ->
  ((exists r, (r < n)%nat /\ ~ inside3 N (ins r)) \/ (disjoint_owners3 n ins /\ ~ tiling3 n N ins)) ->
  exists msg, setup3d ar n st N permute ins outs = SErr msg.
Proof. exact C19_rejects_proof. Qed.
Print Assumptions C19_rejects_3d.
Example C19_example : ~ inside3 (2, 2, 2) (mkbox3 0 2 0 1 0 1).
Proof. cbn. lia. Qed.
(** ... so that accepted non-overlapping input boxes tile the grid *)
Theorem C19_accepted_tiles_3d : forall ar n st N permute ins outs f, area_laws ar -> (1 <= n)%nat -> ints3 N ->
  setup3d ar n st N permute ins outs = SOk f -> disjoint_owners3 n ins ->
  tiling3 n N ins /\ forall r, (r < n)%nat -> inside3 N (ins r).
Proof. exact C19_proof. Qed.
Print Assumptions C19_accepted_tiles_3d.
Theorem C19_rejects_2d : forall ar n st N permute ins outs, area_laws ar -> (1 <= n)%nat -> ints2 N ->
  ((exists r, (r < n)%nat /\ ~ inside2 N (ins r)) \/ (disjoint_owners2 n ins /\ ~ tiling2 n N ins)) ->
  exists msg, setup2d ar n st N permute ins outs = SErr msg.
Proof. exact C19_2d_rejects_proof. Qed.
Print Assumptions C19_rejects_2d.
Theorem C19_accepted_tiles_2d : forall ar n st N permute ins outs f, area_laws ar -> (1 <= n)%nat -> ints2 N ->
  setup2d ar n st N permute ins outs = SOk f -> disjoint_owners2 n ins ->
  tiling2 n N ins /\ forall r, (r < n)%nat -> inside2 N (ins r).
Proof. exact C19_2d_proof. Qed.
Print Assumptions C19_accepted_tiles_2d.
(** the full claim is false: overlapping input boxes of the right total size are accepted *)
Theorem C19_overlap_refuted : exists n st N permute ins outs f, (1 <= n)%nat /\ ints3 N /\
  tiling3 n N outs /\ ~ tiling3 n N ins /\ setup3d exact_areas n st N permute ins outs = SOk f.
Proof. exact C19_overlap_refuted_proof. Qed.
Print Assumptions C19_overlap_refuted.
(** and output boxes are not looked at *)
Theorem C19_output_refuted : exists n st N permute ins outs f, (1 <= n)%nat /\ ints3 N /\
  tiling3 n N ins /\ ~ tiling3 n N outs /\ ~ inside3 N (outs 0%nat) /\ setup3d exact_areas n st N permute ins outs = SOk f.
Proof. exact C19_out_refuted_proof. Qed.
Print Assumptions C19_output_refuted.
Theorem C19_2d_refuted : exists n st N permute ins outs f, (1 <= n)%nat /\ ints2 N /\
  ~ tiling2 n N ins /\ ~ tiling2 n N outs /\ setup2d exact_areas n st N permute ins outs = SOk f.
Proof. exact C19_2d_refuted_proof. Qed.
Print Assumptions C19_2d_refuted.

(** C20: fftsize bounds the points of every layout a transform goes through *)
Theorem C20_fftsize_3d : forall ar n st N permute ins outs f r, area_laws ar -> (1 <= n)%nat -> ints3 N ->
  setup3d ar n st N permute ins outs = SOk f -> (r < n)%nat ->
  (forall m, In m (all_objs f) -> vol3 (rm_in m r) <= f_fftsize f r /\ vol3 (rm_out m r) <= f_fftsize f r) /\
  vol3 (ins r) <= f_fftsize f r /\ vol3 (outs r) <= f_fftsize f r /\ vol3 (f_fast f r) <= f_fftsize f r /\
  vol3 (f_mid f r) <= f_fftsize f r /\ vol3 (f_slow f r) <= f_fftsize f r /\ (f_exch f = true -> vol3 (f_brick f r) <= f_fftsize f r).
Proof. exact C20_proof. Qed.
Print Assumptions C20_fftsize_3d.
Example C20_example : exists f, setup3d exact_areas 3 (mkset 2 1 2) e3_N 1 e3_in e3_out = SOk f /\
    f_pre f = true /\ f_post f = true /\ f_same f = false /\ f_exch f = true.
Proof. exact e3_setup. Qed.
Theorem C20_fftsize_2d : forall ar n st N permute ins outs f r, area_laws ar -> (1 <= n)%nat -> ints2 N ->
  setup2d ar n st N permute ins outs = SOk f -> (r < n)%nat ->
  (forall m, In m (all_objs2 f) -> vol2 (rm2_in m r) <= t_fftsize f r /\ vol2 (rm2_out m r) <= t_fftsize f r) /\
  vol2 (ins r) <= t_fftsize f r /\ vol2 (outs r) <= t_fftsize f r /\ vol2 (t_fast f r) <= t_fftsize f r /\
  vol2 (t_slow f r) <= t_fftsize f r /\ (t_exch f = true -> vol2 (t_brick f r) <= t_fftsize f r).
Proof. exact C20_2d_proof. Qed.
Print Assumptions C20_fftsize_2d.

(** C21: sendsize and recvsize are at least what Remap3d::setup returned for every remap
    of a forward transform, and of a backward transform except the second stage of
    mid -> fast through bricks. *)
Theorem C21_sizes_3d : forall ar n st N permute ins outs f m r pl, area_laws ar -> (1 <= n)%nat -> ints3 N ->
  setup3d ar n st N permute ins outs = SOk f ->
  (In m (fwd_objs f) \/ (In m (bwd_objs f) /\ (st_exch st = 0 \/ exists q, f_midfast f = Some q /\ snd q <> Some m))) ->
  setup3 n (rm_coll m) (st_pack st) 2 (rm_perm m) (rm_in m) (rm_out m) r = Some pl ->
  rp_sendsize pl <= f_sendsize f r /\ rp_recvsize pl <= f_recvsize f r.
Proof. exact C21_proof. Qed.
Print Assumptions C21_sizes_3d.
Theorem C21_sizes_2d : forall ar n st N permute ins outs f m r pl, area_laws ar -> (1 <= n)%nat -> ints2 N ->
  setup2d ar n st N permute ins outs = SOk f -> In m (fwd_objs2 f ++ bwd_objs2 f) ->
  setup2 n (rm2_coll m) (st_pack st) 2 (rm2_perm m) (rm2_in m) (rm2_out m) r = Some pl ->
  rp_sendsize pl <= t_sendsize f r /\ rp_recvsize pl <= t_recvsize f r.
Proof. exact C21_2d_proof. Qed.
Print Assumptions C21_sizes_2d.
(** for that one remap it is false, with any collective setting *)
Theorem C21_midfast_refuted : forall c, c = 0 \/ c = 1 \/ c = 2 ->
  exists n N permute ins outs f m pl r, (r < n)%nat /\ ints3 N /\ tiling3 n N ins /\ tiling3 n N outs /\
    setup3d exact_areas n (mkset c 1 0) N permute ins outs = SOk f /\ In m (bwd_objs f) /\
    setup3 n (rm_coll m) 0 2 (rm_perm m) (rm_in m) (rm_out m) r = Some pl /\ f_recvsize f r < rp_recvsize pl.
Proof. exact C21_refuted_proof. Qed.
Print Assumptions C21_midfast_refuted.

(** C46: the first / last redistribution is skipped exactly when every rank's data is
    already in the required layout, and then the stage uses the user's layout. *)
Theorem C46_skip_3d : forall ar n st N permute ins outs f, area_laws ar -> (1 <= n)%nat -> ints3 N ->
  setup3d ar n st N permute ins outs = SOk f ->
  ((f_prefast f = None <-> (forall r, (r < n)%nat -> ilo (ins r) = 0 /\ ihi (ins r) = fst (fst N) - 1)) /\
   (f_prefast f = None -> f_fast f = ins)) /\
  ((f_postslow f = None <-> (permute = 2 /\ forall r, (r < n)%nat -> klo (outs r) = 0 /\ khi (outs r) = snd N - 1)) /\
   (f_postslow f = None -> f_slow f = outs)) /\
  (f_same f = false -> (f_preslow f = None <-> f_postslow f = None) /\ (f_postfast f = None <-> f_prefast f = None)).
Proof. exact C46_proof. Qed.
Print Assumptions C46_skip_3d.
Example C46_example :
  exists f, setup3d exact_areas 2 default_settings (2, 2, 2) 2 split3 isplit3 = SOk f /\ f_prefast f = None /\ f_postslow f = None.
Proof. exact C46_example_proof. Qed.
Theorem C46_skip_2d : forall ar n st N permute ins outs f, area_laws ar -> (1 <= n)%nat -> ints2 N ->
  setup2d ar n st N permute ins outs = SOk f ->
  ((t_prefast f = None <-> (forall r, (r < n)%nat -> ilo2 (ins r) = 0 /\ ihi2 (ins r) = fst N - 1)) /\
   (t_prefast f = None -> t_fast f = ins)) /\
  ((t_postslow f = None <-> (permute = 1 /\ forall r, (r < n)%nat -> jlo2 (outs r) = 0 /\ jhi2 (outs r) = snd N - 1)) /\
   (t_postslow f = None -> t_slow f = outs)) /\
  (t_same f = false -> (t_preslow f = None <-> t_postslow f = None) /\ (t_postfast f = None <-> t_prefast f = None)).
Proof. exact C46_2d_proof. Qed.
Print Assumptions C46_skip_2d.
