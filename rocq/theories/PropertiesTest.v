(** PropertiesTest.v : properties C55-C58 (the test and example programs), proofs by reference. *)

From Coq Require Import QArith Reals SpecFloat.
From Verif Require Import Base Spec Pack3d Sched SchedProofs Phases Exec Remap RemapMain RemapInst
  Remap3d RemapThms RemapTop Layout LayoutProofs Setup3d Setup3dProofs Setup2d Setup2dProofs LayoutFinal Kiss KissPure KissAlg KissReal Fft1d KissFinal
  Fft3d Frame Fft3dProofs Fft3dMain DftMulti Fft3dTop Fft3dFinal Fft2d Fft2dMain Fft2dTop Fft2dFinal
  Count Double DoubleProofs TestProg TestLayProofs TestDataProofs TestRunProofs TestMainProofs TestFinal TestTop TestSurf.
Local Open Scope Z_scope.

(** ** C55 *)
(** rd is how doubles round: [fl_laws] for IEEE doubles, [id_laws] for exact arithmetic *)
Theorem C55_test3d : forall rd ar (n : nat) st mode N pin pout, rd_laws rd -> area_laws ar -> (1 <= n)%nat -> ints3d N -> small3 (Z.of_nat n) N -> 0 <= mode <= 3 ->
  given3 (Z.of_nat n) pin -> given3 (Z.of_nat n) pout ->
  exists gi go, proc_setup3 rd (Z.of_nat n) mode N pin pout = Some (gi, go) /\
    factors3 (Z.of_nat n) gi /\ factors3 (Z.of_nat n) go /\
    (pin <> (0, 0, 0) -> gi = pin) /\ (pin = (0, 0, 0) -> smallest3 rd (Z.of_nat n) N gi) /\
    (pout <> (0, 0, 0) -> go = pout) /\
    (pout = (0, 0, 0) -> mode = 0 \/ mode = 2 -> smallest3 rd (Z.of_nat n) N go) /\
    (pout = (0, 0, 0) -> mode = 1 \/ mode = 3 -> snd go = 1 /\ smallest2 rd (Z.of_nat n) (fst N) (fst go)) /\
    (forall r, (r < n)%nat -> tbox3 rd N gi (Z.of_nat r) = Some (tiles3 N gi r) /\ tbox3 rd N go (Z.of_nat r) = Some (tiles3 N go r)) /\
    tiling3 n N (tiles3 N gi) /\ tiling3 n N (tiles3 N go) /\
    ((exists f, setup3d ar n st N (permute3 mode) (tiles3 N gi) (tiles3 N go) = SOk f) <-> dims_ok3 N).
Proof. exact C55_3d_proof. Qed.
Print Assumptions C55_test3d.
Theorem C55_test2d : forall rd ar (n : nat) st mode N pin pout, rd_laws rd -> area_laws ar -> (1 <= n)%nat -> ints2d N -> small2 (Z.of_nat n) N ->
  given2 (Z.of_nat n) pin -> given2 (Z.of_nat n) pout ->
  exists gi go, proc_setup2 rd (Z.of_nat n) N pin pout = Some (gi, go) /\
    factors2 (Z.of_nat n) gi /\ factors2 (Z.of_nat n) go /\
    (pin <> (0, 0) -> gi = pin) /\ (pin = (0, 0) -> smallest2 rd (Z.of_nat n) N gi) /\
    (pout <> (0, 0) -> go = pout) /\ (pout = (0, 0) -> go = (Z.of_nat n, 1)) /\
    (forall r, (r < n)%nat -> tbox2 rd N gi (Z.of_nat r) = Some (tiles2 N gi r) /\ tbox2 rd N go (Z.of_nat r) = Some (tiles2 N go r)) /\
    tiling2 n N (tiles2 N gi) /\ tiling2 n N (tiles2 N go) /\
    (mode = 0 \/ mode = 2 -> ((exists f, setup2d ar n st N (permute2 mode) (tiles2 N gi) (tiles2 N go) = SOk f) <-> dims_ok2 N)) /\
    (mode = 1 \/ mode = 3 -> dims_ok2 N -> setup2d ar n st N (permute2 mode) (tiles2 N gi) (tiles2 N go) = SUB).
Proof. exact C55_2d_proof. Qed.
Print Assumptions C55_test2d.
Theorem C55_simple : forall ar (n : nat) st N permute s1 s2, area_laws ar -> (1 <= n)%nat -> ints3d N -> perm_ok3 permute ->
  1 <= s1 <= Z.of_nat n -> (forall m, 1 <= m -> 1 <= s2 m <= m) ->
  exists g, simple_grid (Z.of_nat n) s1 s2 = Some g /\ factors3 (Z.of_nat n) g /\
    (forall r, (r < n)%nat -> simple_box N g (Z.of_nat r) = Some (tiles3 N g r)) /\ tiling3 n N (tiles3 N g) /\
    ((exists f, setup3d ar n st N permute (tiles3 N g) (tiles3 N g) = SOk f) <-> dims_ok3 N).
Proof. exact C55_simple_proof. Qed.
Print Assumptions C55_simple.
(** "the grids of test2d suit its library call" *)
Theorem C55_modes_refuted : exists n st mode N gi go, (mode = 1 \/ mode = 3) /\ proc_setup2 fl (Z.of_nat n) N (0, 0) (0, 0) = Some (gi, go) /\
  dims_ok2 N /\ setup2d double_areas n st N (permute2 mode) (tiles2 N gi) (tiles2 N go) = SUB.
Proof. exact C55_modes_refuted_proof. Qed.
Print Assumptions C55_modes_refuted.
(** the grids chosen have the least true surface among all factorisations, up to a relative 2^-49 *)
Theorem C55_surface_3d : forall rd, rd_laws rd -> forall (n : nat) mode N pin pout, (1 <= n)%nat -> ints3d N -> small3 (Z.of_nat n) N -> 0 <= mode <= 3 ->
  given3 (Z.of_nat n) pin -> given3 (Z.of_nat n) pout ->
  exists gi go, proc_setup3 rd (Z.of_nat n) mode N pin pout = Some (gi, go) /\
    (pin = (0, 0, 0) -> least3 (Z.of_nat n) N gi) /\ (pout = (0, 0, 0) -> mode = 0 \/ mode = 2 -> least3 (Z.of_nat n) N go) /\
    (pout = (0, 0, 0) -> mode = 1 \/ mode = 3 -> snd go = 1 /\ least2 (Z.of_nat n) (fst N) (fst go)).
Proof. exact C55_surface3_proof. Qed.
Print Assumptions C55_surface_3d.
Theorem C55_surface_2d : forall rd, rd_laws rd -> forall (n : nat) N pin pout, (1 <= n)%nat -> ints2d N -> small2 (Z.of_nat n) N ->
  given2 (Z.of_nat n) pin -> given2 (Z.of_nat n) pout ->
  exists gi go, proc_setup2 rd (Z.of_nat n) N pin pout = Some (gi, go) /\ (pin = (0, 0) -> least2 (Z.of_nat n) N gi).
Proof. exact C55_surface2_proof. Qed.
Print Assumptions C55_surface_2d.
Example C55_example : rd_laws fl /\ area_laws double_areas /\ ints3d (8, 6, 5) /\ small3 12 (8, 6, 5) /\ given3 12 (0, 0, 0) /\
  proc_setup3 fl 12 0 (8, 6, 5) (0, 0, 0) (0, 0, 0) = Some ((3, 2, 2), (3, 2, 2)) /\ proc_setup3 fl 12 1 (8, 6, 5) (0, 0, 0) (0, 0, 0) = Some ((3, 2, 2), (4, 3, 1)) /\
  tbox3 fl (8, 6, 5) (3, 2, 2) 11 = Some (mkbox3 5 7 3 5 2 4) /\ proc_setup2 fl 12 (8, 6) (0, 0) (0, 0) = Some ((4, 3), (12, 1)) /\ dims_ok3 (8, 6, 5).
Proof. exact C55_example_proof. Qed.
Example C55_simple_example : simple_grid 12 2 (fun m => Z.sqrt m) = Some (2, 2, 3) /\ simple_box (16, 16, 16) (2, 2, 3) 7 = Some (mkbox3 8 15 8 15 5 9).
Proof. split; vm_compute; reflexivity. Qed.

(** ** C56 *)
Theorem C56_run_3d : forall ar n st N permute ins outs f (M0 : nat -> @rmem R) vr k sd nloop,
  ready3 ar n st N permute ins outs f -> room3 f BACKWARD BWORK M0 -> (forall r, (r < n)%nat -> legal3 (ins r) /\ seed_ok k (sd r)) ->
  exists P M' e, setup_ffts3 cexpR N = Some P /\
    exec_to n (test3 Rops rnormR f P false nloop (init3 vr k sd N ins)) M0 M' /\
    (forall r p q, (r < n)%nat -> inb3 p (ins r) -> 0 <= q < 2 ->
       zget (getb BWORK (M' r)) (cell3 2 0 (ins r) p q) = Some (gain3 N ins outs nloop r p * want3 IZR vr k (sd r) N (ins r) p q)%R) /\
    (forall r, (r < n)%nat -> framed M0 BWORK (fun r => 2 * f_fftsize f r) r (M' r)) /\
    maxerr3 vr k sd N ins n M' = Some e /\
    worst (fun d => exists r p q, (r < n)%nat /\ inb3 p (ins r) /\ 0 <= q < 2 /\
             d = Rabs ((gain3 N ins outs nloop r p - 1) * want3 IZR vr k (sd r) N (ins r) p q)) e.
Proof. exact C56_3d_proof. Qed.
Print Assumptions C56_run_3d.
Theorem C56_run_2d : forall esize ar n st N permute ins outs f (M0 : nat -> @rmem R) vr k sd nloop,
  ready2 esize ar n st N permute ins outs f -> arrays_ok2 f BWORK M0 -> (forall r, (r < n)%nat -> legal2 (ins r) /\ seed_ok k (sd r)) ->
  exists P M' e, setup_ffts2 cexpR N = Some P /\
    exec_to n (test2 Rops rnormR esize f P false nloop (init2 vr k sd N ins)) M0 M' /\
    (forall r p q, (r < n)%nat -> inb2 p (ins r) -> 0 <= q < 2 ->
       zget (getb BWORK (M' r)) (cell2 2 0 (ins r) p q) = Some (gain2 N ins outs nloop r p * want2 IZR vr k (sd r) N (ins r) p q)%R) /\
    (forall r, (r < n)%nat -> framed M0 BWORK (fun r => 2 * t_fftsize f r) r (M' r)) /\
    maxerr2 vr k sd N ins n M' = Some e /\
    worst (fun d => exists r p q, (r < n)%nat /\ inb2 p (ins r) /\ 0 <= q < 2 /\
             d = Rabs ((gain2 N ins outs nloop r p - 1) * want2 IZR vr k (sd r) N (ins r) p q)) e.
Proof. exact C56_2d_proof. Qed.
Print Assumptions C56_run_2d.
(** with -r, in any arithmetic *)
Theorem C56_remap_only_3d : forall (F V D : Type) (O : sops F) cexp rnorm (vz vr : Z -> V) (cv : V -> F) (dist : F -> V -> D) (gtb : D -> D -> bool) (zero : D)
    ar n st N permute ins outs f (M0 : nat -> @rmem F) k sd nloop,
  ready3 ar n st N permute ins outs f -> room3 f BACKWARD BWORK M0 -> (forall r, (r < n)%nat -> legal3 (ins r) /\ seed_ok k (sd r)) ->
  exists P M', setup_ffts3 cexp N = Some P /\
    exec_to n (test3 O rnorm f P true nloop (fun r => initialize3 vz vr cv k (sd r) N (ins r))) M0 M' /\
    (forall r p q, (r < n)%nat -> inb3 p (ins r) -> 0 <= q < 2 ->
       zget (getb BWORK (M' r)) (cell3 2 0 (ins r) p q) = Some (cv (want3 vz vr k (sd r) N (ins r) p q))) /\
    ((forall v, gtb (dist (cv v) v) zero = false) -> gtb zero zero = false ->
     allmax gtb zero n (fun r => validate3 vz vr dist gtb zero k (sd r) N (ins r) (getb BWORK (M' r))) = Some zero).
Proof. exact @C56_ro3_proof. Qed.
Print Assumptions C56_remap_only_3d.
Theorem C56_remap_only_2d : forall (F V D : Type) (O : sops F) cexp rnorm (vz vr : Z -> V) (cv : V -> F) (dist : F -> V -> D) (gtb : D -> D -> bool) (zero : D)
    esize ar n st N permute ins outs f (M0 : nat -> @rmem F) k sd nloop,
  ready2 esize ar n st N permute ins outs f -> arrays_ok2 f BWORK M0 -> (forall r, (r < n)%nat -> legal2 (ins r) /\ seed_ok k (sd r)) ->
  exists P M', setup_ffts2 cexp N = Some P /\
    exec_to n (test2 O rnorm esize f P true nloop (fun r => initialize2 vz vr cv k (sd r) N (ins r))) M0 M' /\
    (forall r p q, (r < n)%nat -> inb2 p (ins r) -> 0 <= q < 2 ->
       zget (getb BWORK (M' r)) (cell2 2 0 (ins r) p q) = Some (cv (want2 vz vr k (sd r) N (ins r) p q))) /\
    ((forall v, gtb (dist (cv v) v) zero = false) -> gtb zero zero = false ->
     allmax gtb zero n (fun r => validate2 vz vr dist gtb zero k (sd r) N (ins r) (getb BWORK (M' r))) = Some zero).
Proof. exact @C56_ro2_proof. Qed.
Print Assumptions C56_remap_only_2d.
Theorem C56_simple : forall ar n st N permute ins outs f (M0 : nat -> @rmem R),
  ready3 ar n st N permute ins outs f -> room3 f BACKWARD BWORK M0 -> (forall r, (r < n)%nat -> legal3 (ins r)) ->
  (forall r, (r < n)%nat -> psize3 (ins r) <= psize3 (outs r)) ->
  exists P M', setup_ffts3 cexpR N = Some P /\
    exec_to n (test3 Rops rnormR f P false 1 (fun r => simple_init IZR (fun v => v) (ins r))) M0 M' /\
    allmax Rgtb 0%R n (fun r => simple_diff IZR Rdist1 Rgtb 0%R (ins r) (getb BWORK (M' r))) = Some 0%R.
Proof. exact C56_simple_proof. Qed.
Print Assumptions C56_simple.
(** from the processor grids to the printed error: with equal grids it is 0 *)
Theorem C56_test3d : forall rd ar (n : nat) st N g vr k sd nloop (M0 : fft3 -> nat -> @rmem R),
  rd_laws rd -> area_laws ar -> (1 <= n)%nat -> ints3d N -> small3 (Z.of_nat n) N -> dims_ok3 N -> flag_ok (st_pack st) ->
  given3 (Z.of_nat n) g -> (forall r, (r < n)%nat -> seed_ok k (sd r)) -> (forall f, arrays_ok f BWORK (M0 f)) ->
  reports3 rd ar n st 0 N g g vr k sd nloop M0 0%R.
Proof. exact C56_test3d_proof. Qed.
Print Assumptions C56_test3d.
Theorem C56_test2d : forall rd esize ar (n : nat) st mode N g vr k sd nloop (M0 : fft2 -> nat -> @rmem R),
  rd_laws rd -> area_laws ar -> (1 <= n)%nat -> ints2d N -> small2 (Z.of_nat n) N -> dims_ok2 N -> flag_ok (st_pack st) -> (esize = 8 \/ st_pack st <> 2) ->
  mode = 0 -> factors2 (Z.of_nat n) g -> (forall r, (r < n)%nat -> seed_ok k (sd r)) -> (forall f, arrays_ok2 f BWORK (M0 f)) ->
  reports2 rd esize ar n st mode N g g vr k sd nloop M0 0%R.
Proof. exact C56_test2d_proof. Qed.
Print Assumptions C56_test2d.
Example C56_example : (1 <= 12)%nat /\ ints3d (8, 6, 5) /\ small3 (Z.of_nat 12) (8, 6, 5) /\ dims_ok3 (8, 6, 5) /\ flag_ok (st_pack (mkset 2 0 2)) /\
  given3 (Z.of_nat 12) (0, 0, 0) /\ (forall r, (r < 12)%nat -> seed_ok RANDOM (82783 + Z.of_nat r)) /\ (forall f, arrays_ok f BWORK (fresh3 f)) /\
  factors2 12 (4, 3) /\ (forall f, arrays_ok2 f BWORK (fresh2 f)).
Proof. exact C56_example_proof. Qed.
(** "a correct transform validates": not for every choice of grids *)
Theorem C56_3d_refuted : exists n st mode N vr k sd nloop e,
  reports3 fl double_areas n st mode N (0, 0, 0) (0, 0, 0) vr k sd nloop fresh3 e /\ (0 < e)%R.
Proof. exact C56_3d_refuted_proof. Qed.
Print Assumptions C56_3d_refuted.
Theorem C56_2d_refuted : exists n st N vr k sd nloop e,
  reports2 fl 8 double_areas n st 0 N (0, 0) (0, 0) vr k sd nloop fresh2 e /\ (0 < e)%R.
Proof. exact C56_2d_refuted_proof. Qed.
Print Assumptions C56_2d_refuted.
(** how large: default grids of test3d in mode 1 and of test2d in mode 0 *)
Theorem C56_3d_large : forall nloop sd vr, exists e, (125 ^ nloop - 1 <= e)%R /\
  reports3 fl double_areas 8 (mkset 2 0 2) 1 (5, 5, 5) (0, 0, 0) (0, 0, 0) vr INDEX sd nloop fresh3 e.
Proof. exact bad3_proof. Qed.
Theorem C56_2d_large : forall nloop sd vr, exists e, (25 ^ nloop - 1 <= e)%R /\
  reports2 fl 8 double_areas 4 (mkset 2 0 2) 0 (5, 5) (0, 0) (0, 0) vr INDEX sd nloop fresh2 e.
Proof. exact bad2_proof. Qed.
Print Assumptions C56_2d_large.

(** ** C57 *)
Theorem C57_validate_3d : forall vr k sd N n ins w,
  (forall r, (r < n)%nat -> legal3 (ins r) /\ (forall p, inb3 p (ins r) -> inb3 p (grid3 N)) /\ 2 * psize3 (ins r) <= zlen (w r) /\ seed_ok k (sd r)) ->
  exists e, allmax Rgtb 0%R n (fun r => validate3 IZR vr Rdist1 Rgtb 0%R k (sd r) N (ins r) (w r)) = Some e /\
    worst (fun d => exists r, (r < n)%nat /\ devs3 vr k (sd r) N (ins r) (w r) d) e.
Proof. exact validate3_all. Qed.
Print Assumptions C57_validate_3d.
Theorem C57_validate_2d : forall vr k sd N n ins w,
  (forall r, (r < n)%nat -> legal2 (ins r) /\ (forall p, inb2 p (ins r) -> inb2 p (grid2 N)) /\ 2 * psize2 (ins r) <= zlen (w r) /\ seed_ok k (sd r)) ->
  exists e, allmax Rgtb 0%R n (fun r => validate2 IZR vr Rdist1 Rgtb 0%R k (sd r) N (ins r) (w r)) = Some e /\
    worst (fun d => exists r, (r < n)%nat /\ devs2 vr k (sd r) N (ins r) (w r) d) e.
Proof. exact validate2_all. Qed.
Print Assumptions C57_validate_2d.
(** "a result that is not a number is reported": the comparison delta > epsilon is false for it *)
Theorem C57_nan_refuted : exists k N b w, zget w 0 = Some S754_nan /\ inb3 (0, 0, 0) b /\
  validate3 SFz (fun _ => SFz 0) (fun a b => SFabs (SFsub 53 1024 a b)) (fun a b => SFltb b a) (SFz 0) k 1 N b w = Some (SFz 0).
Proof. exact C57_nan_proof. Qed.
Print Assumptions C57_nan_refuted.
Example C57_example : exists (w : nat -> list R) e, allmax Rgtb 0%R 2 (fun r => validate3 IZR IZR Rdist1 Rgtb 0%R INDEX 1 (2, 2, 2) (tiles3 (2, 2, 2) (1, 1, 2) r) (w r)) = Some e /\ e = 4%R.
Proof. exact C57_example_proof. Qed.

(** ** C58 *)
Theorem C58_random : forall seed, 1 <= seed <= IM - 1 ->
  random seed = Some ((16807 * seed) mod (2 ^ 31 - 1)) /\ 1 <= (16807 * seed) mod (2 ^ 31 - 1) <= 2 ^ 31 - 2.
Proof. exact C58_random_proof. Qed.
Print Assumptions C58_random.
Theorem C58_period : forall seed i j, 1 <= seed <= IM - 1 -> 0 <= i < j -> j < i + (2 ^ 31 - 2) -> lehmer i seed <> lehmer j seed.
Proof. exact lehmer_distinct. Qed.
Print Assumptions C58_period.
Theorem C58_stream : forall k seed, 1 <= seed <= IM - 1 -> 0 <= k -> random (lehmer k seed) = Some (lehmer (k + 1) seed) /\ 1 <= lehmer k seed <= IM - 1.
Proof. exact C58_stream_proof. Qed.
Print Assumptions C58_stream.
(** "every accepted seed gives a random stream": options() accepts seed 2^31-1 *)
Theorem C58_seed_refuted : exists seed, 1 <= seed <= 2 ^ 31 - 1 /\ forall k, (1 <= k)%nat -> Nat.iter k (fun s => bind s random) (Some seed) = Some 0.
Proof. exact C58_seed_proof. Qed.
Print Assumptions C58_seed_refuted.
Example C58_example : 1 <= 82783 <= IM - 1 /\ random 82783 = Some 1391333881 /\ lehmer 100 1 = 892053144.
Proof. vm_compute. repeat split; discriminate. Qed.
