(** PortFinal.v : the statements of C68 and C69 put together. *)

From Coq Require Import QArith Reals String.
From Verif Require Import Base Spec Sched Layout LayoutProofs Setup3d Setup3dProofs Setup2d Setup2dProofs LayoutFinal RemapInst Wrap Kiss RemapTop Fft3d Fft2d
  Double DoubleProofs TestProg TestLayProofs TestDataProofs TestOpt TestOptProofs TestNum TestFinal Ops Port PortLay PortOpt PortData.
Local Open Scope string_scope.
Local Open Scope list_scope.
Local Open Scope Z_scope.

Lemma part_lo_ge i n m : 0 <= i -> 0 <= n -> 1 <= m -> 0 <= part_lo i n m.
Proof. intros. unfold part_lo. apply Z.div_pos; nia. Qed.
Lemma dec_ok x : 0 <= x -> dec x = Some (x - 1).
Proof. intros H. unfold dec, INT_MIN. destruct (Z.eqb_spec x (- 2 ^ 31)); [lia|reflexivity]. Qed.
Lemma dec_off3 b b' : off3 b b' -> -1 <= ilo b' -> -1 <= ihi b' -> -1 <= jlo b' -> -1 <= jhi b' -> -1 <= klo b' -> -1 <= khi b' -> dec_bounds3 b = Some b'.
Proof.
  destruct b as [a1 a2 a3 a4 a5 a6], b' as [b1 b2 b3 b4 b5 b6]. unfold off3, dec_bounds3. cbn [ilo ihi jlo jhi klo khi]. intros (-> & -> & -> & -> & -> & ->) H1 H2 H3 H4 H5 H6.
  rewrite !dec_ok by lia. cbn [bind]. f_equal. f_equal; lia.
Qed.
Lemma dec_off2 b b' : off2 b b' -> -1 <= ilo2 b' -> -1 <= ihi2 b' -> -1 <= jlo2 b' -> -1 <= jhi2 b' -> dec_bounds2 b = Some b'.
Proof.
  destruct b as [a1 a2 a3 a4], b' as [b1 b2 b3 b4]. unfold off2, dec_bounds2. cbn [ilo2 ihi2 jlo2 jhi2]. intros (-> & -> & -> & ->) H1 H2 H3 H4.
  rewrite !dec_ok by lia. cbn [bind]. f_equal. f_equal; lia.
Qed.
Lemma part_above i n m : 0 <= i < m -> 1 <= n -> 0 <= part_lo i n m /\ -1 <= part_hi i n m.
Proof. intros Hi Hn. split; [apply part_lo_ge; lia|]. unfold part_hi, part_lo. assert (0 <= (i + 1) * n / m) by (apply Z.div_pos; nia). lia. Qed.
(** what reaches the library on rank r: the box computed with bounds from 1, less one *)
Lemma fo_box3_lib rs (n : nat) N g r : sp_laws rs -> pos3d N -> factors3 (Z.of_nat n) g -> single3 (Z.of_nat n) N -> (r < n)%nat ->
  exists b, fo_box3 rs N g (Z.of_nat r) = Some b /\ dec_bounds3 b = Some (tiles3 N g r).
Proof.
  intros L HN F S Hr. destruct (fo_box3_spec rs (Z.of_nat n) N g (Z.of_nat r) L HN F S ltac:(lia)) as (b & E & H). exists b. split; [exact E|].
  destruct N as [[nx ny] nz], g as [[x y] z]. destruct HN as (N1 & N2 & N3), F as (X & Y & Z' & Eg).
  pose proof (ploc_range x y z (Z.of_nat r) X Y Z' ltac:(lia)) as HL. apply (dec_off3 _ _ H);
    unfold gbox3 in *; destruct (ploc (x, y, z) (Z.of_nat r)) as [[a b'] c]; destruct HL as (H1 & H2 & H3 & _); cbn [ilo ihi jlo jhi klo khi];
    [pose proof (part_above a nx x)|pose proof (part_above a nx x)|pose proof (part_above b' ny y)|pose proof (part_above b' ny y)|pose proof (part_above c nz z)|pose proof (part_above c nz z)]; lia.
Qed.
Lemma fo_box2_lib rs (n : nat) N g r : sp_laws rs -> pos2d N -> factors2 (Z.of_nat n) g -> single2 (Z.of_nat n) N -> (r < n)%nat ->
  exists b, fo_box2 rs N g (Z.of_nat r) = Some b /\ dec_bounds2 b = Some (tiles2 N g r).
Proof.
  intros L HN F S Hr. destruct (fo_box2_spec rs (Z.of_nat n) N g (Z.of_nat r) L HN F S ltac:(lia)) as (b & E & H). exists b. split; [exact E|].
  destruct N as [nx ny], g as [x y]. destruct HN as (N1 & N2), F as (X & Y & Eg).
  assert (0 <= Z.of_nat r / x) by (apply Z.div_pos; lia). assert (Z.of_nat r / x < y) by (apply Z.div_lt_upper_bound; lia).
  pose proof (Z.mod_pos_bound (Z.of_nat r) x ltac:(lia)). apply (dec_off2 _ _ H); unfold gbox2, ploc2; cbn [ilo2 ihi2 jlo2 jhi2];
    [pose proof (part_above (Z.of_nat r mod x) nx x)|pose proof (part_above (Z.of_nat r mod x) nx x)|pose proof (part_above (Z.of_nat r / x) ny y)|pose proof (part_above (Z.of_nat r / x) ny y)]; lia.
Qed.

Theorem C68_layout3_proof rd rs ar (n : nat) st mode N pin pout : rd_laws rd -> sp_laws rs -> area_laws ar -> (1 <= n)%nat -> ints3d N ->
  small3 (Z.of_nat n) N -> single3 (Z.of_nat n) N -> 0 <= mode <= 3 -> given3 (Z.of_nat n) pin -> given3 (Z.of_nat n) pout ->
  exists gi go, proc_setup3 rd (Z.of_nat n) mode N pin pout = Some (gi, go) /\ factors3 (Z.of_nat n) gi /\ factors3 (Z.of_nat n) go /\
    (forall r, (r < n)%nat -> exists bi bo, fo_box3 rs N gi (Z.of_nat r) = Some bi /\ fo_box3 rs N go (Z.of_nat r) = Some bo /\
       dec_bounds3 bi = Some (tiles3 N gi r) /\ dec_bounds3 bo = Some (tiles3 N go r)) /\
    tiling3 n N (tiles3 N gi) /\ tiling3 n N (tiles3 N go) /\
    ((exists f, setup3d ar n st N (permute3 mode) (tiles3 N gi) (tiles3 N go) = SOk f) <-> dims_ok3 N).
Proof.
  intros L Ls La Hn HN Hs Hs' Hm Hi Ho. destruct (C55_3d_proof rd ar n st mode N pin pout L La Hn HN Hs Hm Hi Ho) as (gi & go & E & F1 & F2 & _ & _ & _ & _ & _ & _ & T1 & T2 & S).
  exists gi, go. split; [exact E|]. split; [exact F1|]. split; [exact F2|]. split; [|auto]. intros r Hr. destruct (ints3d_pos N HN) as (Hp & _).
  destruct (fo_box3_lib rs n N gi r Ls Hp F1 Hs' Hr) as (bi & A & B). destruct (fo_box3_lib rs n N go r Ls Hp F2 Hs' Hr) as (bo & C & D). exists bi, bo. auto.
Qed.
Theorem C68_layout2_proof rd rs (n : nat) mode N pin pout : rd_laws rd -> sp_laws rs -> (1 <= n)%nat -> ints2d N ->
  small2 (Z.of_nat n) N -> single2 (Z.of_nat n) N -> 0 <= mode <= 3 -> given2 (Z.of_nat n) pin -> given2 (Z.of_nat n) pout ->
  exists gi go, proc_setup2 rd (Z.of_nat n) N pin pout = Some (gi, go) /\ factors2 (Z.of_nat n) gi /\ factors2 (Z.of_nat n) go /\
    (forall r, (r < n)%nat -> exists bi bo, fo_box2 rs N gi (Z.of_nat r) = Some bi /\ fo_box2 rs N go (Z.of_nat r) = Some bo /\
       dec_bounds2 bi = Some (tiles2 N gi r) /\ dec_bounds2 bo = Some (tiles2 N go r)) /\
    tiling2 n N (tiles2 N gi) /\ tiling2 n N (tiles2 N go).
Proof.
  intros L Ls Hn HN Hs Hs' Hm Hi Ho. destruct (C55_2d_proof rd double_areas n (mkset 0 0 0) mode N pin pout L double_laws Hn HN Hs Hi Ho) as (gi & go & E & F1 & F2 & _ & _ & _ & _ & _ & T1 & T2 & _).
  exists gi, go. split; [exact E|]. split; [exact F1|]. split; [exact F2|]. split; [|auto]. intros r Hr. destruct (ints2d_pos N HN) as (Hp & _).
  destruct (fo_box2_lib rs n N gi r Ls Hp F1 Hs' Hr) as (bi & A & B). destruct (fo_box2_lib rs n N go r Ls Hp F2 Hs' Hr) as (bo & C & D). exists bi, bo. auto.
Qed.
Theorem C68_simple_proof rs (n : nat) N s1 s2 : sp_laws rs -> (1 <= n)%nat -> pos3d N -> single3 (Z.of_nat n) N ->
  1 <= s1 <= Z.of_nat n -> (forall m, 1 <= m -> 1 <= s2 m <= m) ->
  exists g, simple_grid (Z.of_nat n) s1 s2 = Some g /\
    (forall r, (r < n)%nat -> exists b, fo_box3 rs N g (Z.of_nat r) = Some b /\ dec_bounds3 b = Some (tiles3 N g r)) /\ tiling3 n N (tiles3 N g).
Proof.
  intros Ls Hn HN Hs H1 H2. destruct (simple_grid_spec (Z.of_nat n) s1 s2 ltac:(lia) H1 H2) as (g & E & F). exists g. split; [exact E|].
  split; [intros r Hr; apply (fo_box3_lib rs n); assumption|apply tiles3_tiling; assumption].
Qed.
(** one rank, 2^24+1 points in x: the last one belongs to nobody *)
Theorem C68_layout_refuted_proof : exists N b, ints3d N /\ fo_box3 fl24 N (1, 1, 1) 0 = Some b /\ tbox3 fl N (1, 1, 1) 0 = Some (tiles3 N (1, 1, 1) 0) /\
  forall b', dec_bounds3 b = Some b' -> ~ tiling3 1 N (fun _ => b').
Proof.
  exists (2 ^ 24 + 1, 1, 1), (mkbox3 1 (2 ^ 24) 1 1 1 1). split; [unfold ints3d, INT_MAX; lia|]. split; [exact fo_cut_lost|]. split; [vm_compute; reflexivity|].
  intros b' H. assert (E : b' = mkbox3 0 (2 ^ 24 - 1) 0 0 0 0) by (vm_compute in H; injection H as <-; reflexivity). subst b'. clear H. intros (_ & _ & T).
  destruct (T (2 ^ 24, 0, 0)) as (r & _ & H); [cbn; lia|]. cbn in H. lia.
Qed.

(** ** Python: grids of processors *)
Definition py3 (P : Z) (l : list string) : outcome opts := py_options 3 (fun _ => None) P 0 ("test3d.py" :: l).
Definition cpp3 (P : Z) (l : list string) : outcome opts := options 3 (fun _ => 0%Q) P 0 ("test3d" :: l).
(** 2 x 2 x 2 on 8 ranks is turned down, 2 x 2 x 3 on 4 is taken, and so is 2 x 2 x 0 for the output, of which no box can be computed *)
Theorem C69_grid_refuted_proof :
  (exists o, cpp3 8 ["-pin"; "2"; "2"; "2"] = OOk o /\ py3 8 ["-pin"; "2"; "2"; "2"] = OErr "Specified proc grid does not match nprocs") /\
  (exists o, py3 4 ["-pin"; "2"; "2"; "3"] = OOk o /\ cpp3 4 ["-pin"; "2"; "2"; "3"] = OErr "Specified proc grid does not match nprocs") /\
  (exists o, py3 4 ["-pout"; "2"; "2"; "0"] = OOk o /\ cpp3 4 ["-pout"; "2"; "2"; "0"] = OErr "Invalid proc grid" /\ tbox3 fl (8, 8, 8) (2, 2, 0) 0 = None).
Proof.
  split; [|split]; eexists.
  - split; vm_compute; reflexivity.
  - split; vm_compute; reflexivity.
  - split; [vm_compute; reflexivity|]. split; vm_compute; reflexivity.
Qed.
(** the chosen grid need not have the least surface, and may leave most ranks without a point *)
Theorem C69_surface_refuted_proof : exists P N g g', py_proc3d fl P N = Some g /\ proc3d fl P N = Some g' /\ factors3 P g' /\
  (surf3 (fun q => q) N g' < surf3 (fun q => q) N g)%Q /\
  (forall r, (r < Z.to_nat P)%nat -> psize3 (tiles3 N g' r) = 1) /\
  List.length (filter (fun r => psize3 (tiles3 N g r) =? 0) (seq 0 (Z.to_nat P))) = 48%nat.
Proof.
  exists 64, (4, 4, 4), (1, 8, 8), (4, 4, 4). destruct py_bad_grid as (A & B & _). split; [exact A|]. split; [exact B|]. split; [unfold factors3; lia|].
  split; [vm_compute; reflexivity|]. split; [|vm_compute; reflexivity].
  assert (H : forallb (fun r => psize3 (tiles3 (4, 4, 4) (4, 4, 4) r) =? 1) (seq 0 (Z.to_nat 64)) = true) by (vm_compute; reflexivity).
  intros r Hr. rewrite forallb_forall in H. apply Z.eqb_eq, H, in_seq. lia.
Qed.

(** ** examples *)
Definition nofloat : string -> option Q := fun _ => None.
Example py_ex : let a := ["test3d.py"; "-g"; "4"; "6"; "8"; "-pin"; "2"; "3"; "1"; "-n"; "5"; "-i"; "123"; "-m"; "1"; "-v"] in
  agree nofloat (fun _ => 0%Q) a /\ ints_only 3 1 a /\ py_options 3 nofloat 6 1 a = options 3 (fun _ => 0%Q) 6 1 a /\
  exists o, py_options 3 nofloat 6 1 a = OOk o /\ plane (o_pin o) /\ plane (o_pout o) /\ o_seed o = Some 124.
Proof.
  intros a. split; [intros i s x _ _ H; discriminate|]. split.
  - intros i s z _ Hs Hz. assert (In s a). { unfold zget in Hs. destruct (i <? 0); [discriminate|]. eapply nth_error_In, Hs. }
    assert (forallb (fun s => match py_int s with Some z => (- 2 ^ 31 <=? z) && (z + 1 <=? 2 ^ 31 - 1) | None => true end) a = true) as B by (vm_compute; reflexivity).
    rewrite forallb_forall in B. specialize (B s H). rewrite Hz in B. apply andb_true_iff in B as (B1 & B2). apply Z.leb_le in B1, B2. lia.
  - split; [vm_compute; reflexivity|]. eexists. split; [vm_compute; reflexivity|]. cbn [o_pin o_pout o_seed].
    split; [right; exists 2, 3; reflexivity|]. split; [left; reflexivity|]. reflexivity.
Qed.
