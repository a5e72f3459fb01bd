(** PropertiesWrap.v : properties C41 and C42 (C and Fortran interface functions), proofs by reference. *)

From Coq Require Import QArith String.
From Verif Require Import Base Spec Layout Sched Remap RemapThms Setup3d Setup2d Life Tune Proto MemUse LifeEx Fft3dEx Wrap WrapProofs.
Open Scope Z_scope.

(** ** C41 *)
(** the Fortran setup and tune entries of FFT3d with 1-based bounds: same result, sizes, object and heap *)
Theorem C41_fft3d : forall ins ins' outs outs', Forall2 one_based3 ins ins' -> Forall2 one_based3 outs outs' ->
  Forall int_box3 ins -> Forall int_box3 outs ->
  forall ar N permute r,
  (forall st, fft3d_setup_fortran ar N ins' outs' permute r st = fft3d_setup ar N ins outs permute r st) /\
  (forall strict esize plsize rqsize ptsize nprocs xsize st o n h,
     run strict esize plsize rqsize ptsize nprocs xsize true (call_setup3 true ar N ins' outs' permute r st) o n h =
     run strict esize plsize rqsize ptsize nprocs xsize true (call_setup3 false ar N ins outs permute r st) o n h) /\
  (forall strict esize plsize rqsize ptsize nprocs xsize clk root flag niter tmax tflag o n h,
     run strict esize plsize rqsize ptsize nprocs xsize true (call_tune3 true ar N ins' outs' permute r clk root flag niter tmax tflag) o n h =
     run strict esize plsize rqsize ptsize nprocs xsize true (call_tune3 false ar N ins outs permute r clk root flag niter tmax tflag) o n h).
Proof. exact C41_fft3_proof. Qed.
Print Assumptions C41_fft3d.
(** a 2x2x2 grid split in two along the slow axis; both entries accept it *)
Definition c41_in : list box3 := [mkbox3 0 1 0 1 0 0; mkbox3 0 1 0 1 1 1].
Definition c41_in' : list box3 := [mkbox3 1 2 1 2 1 1; mkbox3 1 2 1 2 2 2].
Example C41_fft3d_example : Forall2 one_based3 c41_in c41_in' /\ Forall int_box3 c41_in /\
  (exists sh, fft3d_setup_fortran exact_areas (2, 2, 2) c41_in' c41_in' 0 0 (mkset 2 0 2) = SOk sh /\ s_sizes sh = (4, 8, 8)) /\
  fft3d_setup_fortran exact_areas (2, 2, 2) c41_in c41_in 0 0 (mkset 2 0 2) = SErr "FFT setup in/out indices are invalid".
Proof.
  split; [repeat constructor|]. split; [repeat constructor; vm_compute; discriminate|]. split; [|vm_compute; reflexivity].
  vm_compute. eexists. split; reflexivity.
Qed.

Theorem C41_fft2d : forall ins ins' outs outs', Forall2 one_based2 ins ins' -> Forall2 one_based2 outs outs' ->
  Forall int_box2 ins -> Forall int_box2 outs ->
  forall ar N permute r,
  (forall st, fft2d_setup_fortran ar N ins' outs' permute r st = fft2d_setup ar N ins outs permute r st) /\
  (forall strict esize plsize rqsize ptsize nprocs xsize st o n h,
     run strict esize plsize rqsize ptsize nprocs xsize false (call_setup2 true ar N ins' outs' permute r st) o n h =
     run strict esize plsize rqsize ptsize nprocs xsize false (call_setup2 false ar N ins outs permute r st) o n h) /\
  (forall strict esize plsize rqsize ptsize nprocs xsize clk root flag niter tmax tflag o n h,
     run strict esize plsize rqsize ptsize nprocs xsize false (call_tune2 true ar N ins' outs' permute r clk root flag niter tmax tflag) o n h =
     run strict esize plsize rqsize ptsize nprocs xsize false (call_tune2 false ar N ins outs permute r clk root flag niter tmax tflag) o n h).
Proof. exact C41_fft2_proof. Qed.
Print Assumptions C41_fft2d.
Definition c41_in2 : list box2 := [mkbox2 0 1 0 0; mkbox2 0 1 1 1].
Definition c41_in2' : list box2 := [mkbox2 1 2 1 1; mkbox2 1 2 2 2].
Example C41_fft2d_example : Forall2 one_based2 c41_in2 c41_in2' /\ Forall int_box2 c41_in2 /\
  (exists sh, fft2d_setup_fortran exact_areas (2, 2) c41_in2' c41_in2' 0 0 (mkset 2 0 2) = SOk sh) /\
  fft2d_setup_fortran exact_areas (2, 2) c41_in2 c41_in2 0 0 (mkset 2 0 2) = SErr "FFT setup in/out indices are invalid".
Proof.
  split; [repeat constructor|]. split; [repeat constructor; vm_compute; discriminate|]. split; [|vm_compute; reflexivity].
  vm_compute. eexists. reflexivity.
Qed.

(** remaps: the same plan on every rank, for any number of values per point, permutation and method *)
Theorem C41_remap3d : forall ins ins' outs outs', Forall2 one_based3 ins ins' -> Forall2 one_based3 outs outs' ->
  Forall int_box3 ins -> Forall int_box3 outs -> forall coll pack nqty permute r,
  remap3d_setup_fortran coll pack ins' outs' nqty permute r = remap3d_setup coll pack ins outs nqty permute r.
Proof. exact remap3_same. Qed.
Print Assumptions C41_remap3d.
Example C41_remap3d_example : Forall2 one_based3 c41_in c41_in' /\ remap3d_setup_fortran true 0 c41_in' c41_in' 2 0 1 <> None.
Proof. split; [repeat constructor|]. vm_compute. discriminate. Qed.
Theorem C41_remap2d : forall ins ins' outs outs', Forall2 one_based2 ins ins' -> Forall2 one_based2 outs outs' ->
  Forall int_box2 ins -> Forall int_box2 outs -> forall coll pack nqty permute r,
  remap2d_setup_fortran coll pack ins' outs' nqty permute r = remap2d_setup coll pack ins outs nqty permute r.
Proof. exact remap2_same. Qed.
Print Assumptions C41_remap2d.
Example C41_remap2d_example : Forall2 one_based2 c41_in2 c41_in2' /\ remap2d_setup_fortran true 0 c41_in2' c41_in2' 2 0 1 <> None.
Proof. split; [repeat constructor|]. vm_compute. discriminate. Qed.

(** the tile used holds exactly the caller's points, numbered from 0 instead of 1; only a bound of INT_MIN cannot be converted *)
Theorem C41_points3 : forall b', Forall (fun z => - 2 ^ 31 < z) [ilo b'; ihi b'; jlo b'; jhi b'; klo b'; khi b'] ->
  exists b, dec_bounds3 b' = Some b /\ forall i j k, inb3 (i, j, k) b' <-> inb3 (i - 1, j - 1, k - 1) b.
Proof. exact C41_points3_proof. Qed.
Print Assumptions C41_points3.
Example C41_points3_example : dec_bounds3 (mkbox3 1 2 3 4 5 7) = Some (mkbox3 0 1 2 3 4 6) /\ dec_bounds3 (mkbox3 (-2147483648) 2 3 4 5 7) = None.
Proof. split; reflexivity. Qed.
Theorem C41_points2 : forall b', Forall (fun z => - 2 ^ 31 < z) [ilo2 b'; ihi2 b'; jlo2 b'; jhi2 b'] ->
  exists b, dec_bounds2 b' = Some b /\ forall i j, inb2 (i, j) b' <-> inb2 (i - 1, j - 1) b.
Proof. exact C41_points2_proof. Qed.
Print Assumptions C41_points2.
Example C41_points2_example : dec_bounds2 (mkbox2 1 2 3 4) = Some (mkbox2 0 1 2 3).
Proof. reflexivity. Qed.

(** ** C42 *)
Open Scope string_scope.
(** setting changes the named variable and no other; an unknown keyword changes nothing *)
Theorem C42_set : forall p k v,
  (forall x, names set_names k x -> val (fft_set p k v) x = XInt v /\ forall y, y <> x -> val (fft_set p k v) y = val p y) /\
  (~ named set_names k -> fft_set p k v = p).
Proof. exact C42_set_proof. Qed.
Print Assumptions C42_set.
Example C42_set_example : val (fft_set zero_pub "pack" 2) Vpackflag = XInt 2 /\ fft_set zero_pub "packflag" 2 = zero_pub /\
  names set_names "pack" Vpackflag /\ ~ named set_names "packflag".
Proof.
  split; [reflexivity|]. split; [reflexivity|]. split; [unfold names; cbn; tauto|].
  intros [x H]. cbn in H. decompose [or] H; try discriminate; tauto.
Qed.

(** any sequence of set calls: the last one naming a variable decides, other variables keep their value *)
Theorem C42_sequence : forall l p x,
  (forall k v a b, l = (a ++ (k, v) :: b)%list -> names set_names k x -> (forall k' v', In (k', v') b -> ~ names set_names k' x) ->
     val (sets p l) x = XInt v) /\
  ((forall k v, In (k, v) l -> ~ names set_names k x) -> val (sets p l) x = val p x).
Proof. exact C42_sequence_proof. Qed.
Print Assumptions C42_sequence.
Example C42_sequence_example :
  val (sets zero_pub [("scale", 1); ("bogus", 7); ("scale", 3); ("memory", 9)]%Z) Vscaled = XInt 3.
Proof. reflexivity. Qed.

(** reading: a known name gives the variable, an unknown one gives -1 or NULL; the length stored is the number of trials
    for the vectors and the length of the string for strings, nothing is stored for an unknown string *)
Theorem C42_get : forall dim3 g p k,
  (forall x, names (get_names dim3 g) k x -> get dim3 g p k = Some (val p x)) /\
  (~ named (get_names dim3 g) k -> get dim3 g p k = unknown g) /\
  (g = GInts \/ g = GDoubles -> get_len dim3 g p k = Some (v_ntrial p)) /\
  (forall s, get dim3 g p k = Some (XString s) -> get_len dim3 g p k = Some (Z.of_nat (String.length s))) /\
  (g = GString -> get dim3 g p k = None -> get_len dim3 g p k = None).
Proof. exact C42_get_proof. Qed.
Print Assumptions C42_get.
Example C42_get_example : get true GInt (fft_set zero_pub "pack" 2) "pack" = Some (XInt 2) /\ get true GInt zero_pub "packflag" = Some (XInt (-1)) /\
  get true GInt zero_pub "npmid1" = Some (XInt 0) /\ get false GInt zero_pub "npmid1" = Some (XInt (-1)).
Proof. repeat split; reflexivity. Qed.

(** every documented variable except cbest, ebest, pbest and besttime can be read through some function and name *)
Theorem C42_readable : forall dim3 x, In x (readable dim3) -> is_best x = false ->
  exists g k, forall p, get dim3 g p k = Some (val p x).
Proof. exact C42_readable_proof. Qed.
Print Assumptions C42_readable.
Example C42_readable_example : In Vtremap4 (readable true) /\ is_best Vtremap4 = false.
Proof. split; [cbn; tauto|reflexivity]. Qed.
(** those four cannot: no function and no keyword give them *)
Theorem C42_best_refuted : forall dim3 x, is_best x = true ->
  In x (readable dim3) /\ ~ (exists g k, forall p, get dim3 g p k = Some (val p x)).
Proof. exact C42_best_refuted_proof. Qed.
Print Assumptions C42_best_refuted.
Example C42_best_example : is_best Vcbest = true /\ is_best Vbesttime = true.
Proof. split; reflexivity. Qed.

(** remaps: "collective" and "pack" behave as named variables, unknown keywords change nothing *)
Theorem C42_remap_set : forall p k v,
  (forall x, In (k, x) rset_names -> k <> "memory" ->
     rval (remap_set p k v) x = v /\ forall y, y <> x -> rval (remap_set p k v) y = rval p y) /\
  ((forall x, ~ In (k, x) rset_names) -> remap_set p k v = p).
Proof. exact C42_remap_proof. Qed.
Print Assumptions C42_remap_set.
Example C42_remap_example : In ("pack", Wpackflag) rset_names /\ rval (remap_set (mkrpub 1 2 0 1) "pack" 0) Wpackflag = 0%Z.
Proof. split; [cbn; tauto|reflexivity]. Qed.
(** the documented keyword "memory" of a remap is ignored *)
Theorem C42_remap_memory_refuted : exists p k x v, In (k, x) rset_names /\ rval (remap_set p k v) x <> v.
Proof. exact C42_remap_memory_refuted_proof. Qed.
Print Assumptions C42_remap_memory_refuted.
