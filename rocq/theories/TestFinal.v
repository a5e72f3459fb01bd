(** TestFinal.v : proofs behind PropertiesTest.v. *)

From Coq Require Import Reals Lra QArith Lqa.
From Verif Require Import Base Spec Pack3d Sched SchedProofs Phases Exec Remap RemapMain RemapInst
  Remap3d RemapThms RemapTop Layout LayoutProofs Setup3d Setup3dProofs Setup2d Setup2dProofs LayoutFinal Kiss KissPure KissAlg KissReal Fft1d KissFinal
  Fft3d Frame Fft3dProofs Fft3dMain DftMulti Fft3dTop Fft3dFinal Fft2d Fft2dMain Fft2dTop Fft2dFinal
  Count Double DoubleProofs TestProg TestLayProofs TestDataProofs TestRunProofs TestMainProofs.
Local Open Scope Z_scope.

(** ** layouts *)
(** grids accepted by options(): none given, or positive with the right product *)
Definition given3 (P : Z) (g : Z * Z * Z) : Prop := g = (0, 0, 0) \/ factors3 P g.
Definition given2 (P : Z) (g : Z * Z) : Prop := g = (0, 0) \/ factors2 P g.
Lemma unset3_factors P g : factors3 P g -> unset3 g = false.
Proof. destruct g as [[x y] z]. intros (X & _). unfold unset3. destruct (Z.eqb_spec x 0); [lia|reflexivity]. Qed.
Lemma unset2_factors P g : factors2 P g -> unset2 g = false.
Proof. destruct g as [x y]. intros (X & _). unfold unset2. destruct (Z.eqb_spec x 0); [lia|reflexivity]. Qed.

Lemma part_inside i n m : 0 <= i < m -> 1 <= n -> 0 <= part_lo i n m /\ part_hi i n m < n.
Proof.
  intros Hi Hn. unfold part_hi, part_lo. split; [apply Z.div_pos; nia|].
  assert ((i + 1) * n / m <= n) by (apply Z.div_le_upper_bound; nia). lia.
Qed.
Lemma gbox3_inside (n : nat) N g r : pos3d N -> factors3 (Z.of_nat n) g -> (r < n)%nat -> inside3 N (gbox3 N g (Z.of_nat r)).
Proof.
  destruct N as [[nx ny] nz]. destruct g as [[x y] z]. intros (X & Y & Z') (GX & GY & GZ & E) Hr. unfold inside3.
  split; [apply gbox3_legal; lia|]. pose proof (ploc_range x y z (Z.of_nat r) GX GY GZ ltac:(lia)) as HL. unfold gbox3.
  destruct (ploc (x, y, z) (Z.of_nat r)) as [[a b] c]. destruct HL as (H1 & H2 & H3 & _). cbn [ilo ihi jlo jhi klo khi].
  pose proof (part_inside a nx x ltac:(lia) X). pose proof (part_inside b ny y ltac:(lia) Y). pose proof (part_inside c nz z ltac:(lia) Z'). lia.
Qed.
Lemma gbox2_inside (n : nat) N g r : pos2d N -> factors2 (Z.of_nat n) g -> (r < n)%nat -> inside2 N (gbox2 N g (Z.of_nat r)).
Proof.
  destruct N as [nx ny]. destruct g as [x y]. intros (X & Y) (GX & GY & E) Hr. unfold inside2.
  split; [apply gbox2_legal; lia|]. unfold gbox2, ploc2. cbn [ilo2 ihi2 jlo2 jhi2].
  pose proof (Z.mod_pos_bound (Z.of_nat r) x ltac:(lia)).
  assert (0 <= Z.of_nat r / x < y) by (split; [apply Z.div_pos; lia|apply Z.div_lt_upper_bound; lia]).
  pose proof (part_inside (Z.of_nat r mod x) nx x ltac:(lia) X). pose proof (part_inside (Z.of_nat r / x) ny y ltac:(lia) Y). lia.
Qed.
(** the tiles of the boxes of a processor grid *)
Definition tiles3 (N g : Z * Z * Z) (r : nat) : box3 := gbox3 N g (Z.of_nat r).
Definition tiles2 (N g : Z * Z) (r : nat) : box2 := gbox2 N g (Z.of_nat r).
Lemma tiles3_tiling (n : nat) N g : pos3d N -> factors3 (Z.of_nat n) g -> tiling3 n N (tiles3 N g).
Proof. destruct N as [[nx ny] nz]. destruct g as [[x y] z]. intros (X & Y & Z') H. apply gbox3_tiling; auto. Qed.
Lemma tiles2_tiling (n : nat) N g : pos2d N -> factors2 (Z.of_nat n) g -> tiling2 n N (tiles2 N g).
Proof. destruct N as [nx ny]. destruct g as [x y]. intros (X & Y) H. apply gbox2_tiling; auto. Qed.
Lemma tiles3_legal P N g r : pos3d N -> factors3 P g -> legal3 (tiles3 N g r).
Proof. destruct N as [[nx ny] nz], g as [[x y] z]. intros (X & Y & Z') (A & B & C & _). apply gbox3_legal; lia. Qed.
Lemma tiles2_legal P N g r : pos2d N -> factors2 P g -> legal2 (tiles2 N g r).
Proof. destruct N as [nx ny], g as [x y]. intros (X & Y) (A & B & _). apply gbox2_legal; lia. Qed.

Lemma ints3d_pos N : ints3d N -> pos3d N /\ ints3 N.
Proof. destruct N as [[x y] z]. unfold ints3d, pos3d, ints3, INT_MAX. lia. Qed.
Lemma ints2d_pos N : ints2d N -> pos2d N /\ ints2 N.
Proof. destruct N as [x y]. unfold ints2d, pos2d, ints2, INT_MAX. lia. Qed.
Lemma permute3_ok mode : perm_ok3 (permute3 mode).
Proof. unfold permute3, perm_ok3. destruct (_ || _); auto. Qed.

Definition smallest3 (rd : Q -> Q) (P : Z) (N g : Z * Z * Z) : Prop := forall g', factors3 P g' -> (surf3 rd N g <= surf3 rd N g')%Q.
Definition smallest2 (rd : Q -> Q) (P : Z) (N g : Z * Z) : Prop := forall g', factors2 P g' -> (surf2 rd N g <= surf2 rd N g')%Q.

Lemma setup_laid3 ar (n : nat) st N mode gi go : area_laws ar -> (1 <= n)%nat -> ints3d N -> factors3 (Z.of_nat n) gi ->
  (exists f, setup3d ar n st N (permute3 mode) (tiles3 N gi) (tiles3 N go) = SOk f) <-> dims_ok3 N.
Proof.
  intros L Hn HN Gi. destruct (ints3d_pos N HN) as (Hp & HI).
  apply (C18_proof ar n st N (permute3 mode) (tiles3 N gi) (tiles3 N go) L Hn HI (permute3_ok mode)).
  - intros r Hr. apply (gbox3_inside n); assumption.
  - apply tiles3_tiling; assumption.
Qed.
Theorem C55_3d_proof rd ar (n : nat) st mode N pin pout : rd_laws rd -> area_laws ar -> (1 <= n)%nat -> ints3d N -> small3 (Z.of_nat n) N -> 0 <= mode <= 3 ->
  given3 (Z.of_nat n) pin -> given3 (Z.of_nat n) pout ->
  exists gi go, proc_setup3 rd (Z.of_nat n) mode N pin pout = Some (gi, go) /\
    factors3 (Z.of_nat n) gi /\ factors3 (Z.of_nat n) go /\
    (pin <> (0, 0, 0) -> gi = pin) /\ (pin = (0, 0, 0) -> smallest3 rd (Z.of_nat n) N gi) /\
    (pout <> (0, 0, 0) -> go = pout) /\
    (pout = (0, 0, 0) -> mode = 0 \/ mode = 2 -> smallest3 rd (Z.of_nat n) N go) /\
    (pout = (0, 0, 0) -> mode = 1 \/ mode = 3 -> snd go = 1 /\ smallest2 rd (Z.of_nat n) (fst N) (fst go)) /\
    (forall r, (r < n)%nat -> tbox3 rd N gi (Z.of_nat r) = Some (tiles3 N gi r) /\ tbox3 rd N go (Z.of_nat r) = Some (tiles3 N go r)) /\
    tiling3 n N (tiles3 N gi) /\ tiling3 n N (tiles3 N go) /\
    ((exists f, setup3d ar n st N (permute3 mode) (tiles3 N gi) (tiles3 N go) = SOk f) <-> dims_ok3 N).
Proof.
  intros L La Hn HN Hs Hm Hi Ho. destruct (ints3d_pos N HN) as (Hp & HI). set (P := Z.of_nat n) in *. assert (HP : 1 <= P) by (unfold P; lia).
  assert (A : exists gi, (if unset3 pin then proc3d rd P N else Some pin) = Some gi /\ factors3 P gi /\ (pin <> (0, 0, 0) -> gi = pin) /\ (pin = (0, 0, 0) -> smallest3 rd P N gi)).
  { destruct Hi as [-> | Hi].
    - destruct (proc3d_spec rd L P N HP HN) as (g & E & F & M). exists g. cbn [unset3 Z.eqb andb]. split; [exact E|]. split; [exact F|]. split; [congruence|auto].
    - rewrite (unset3_factors P pin Hi). exists pin. split; [reflexivity|]. split; [exact Hi|]. split; [reflexivity|]. intros ->. destruct Hi; lia. }
  assert (B : exists go, (if unset3 pout then if (mode =? 0) || (mode =? 2) then proc3d rd P N else if (mode =? 1) || (mode =? 3) then proc2d_of3 rd P N else Some pout else Some pout) = Some go /\
     factors3 P go /\ (pout <> (0, 0, 0) -> go = pout) /\ (pout = (0, 0, 0) -> mode = 0 \/ mode = 2 -> smallest3 rd P N go) /\
     (pout = (0, 0, 0) -> mode = 1 \/ mode = 3 -> snd go = 1 /\ smallest2 rd P (fst N) (fst go))).
  { destruct Ho as [-> | Ho].
    - cbn [unset3 Z.eqb andb]. destruct ((mode =? 0) || (mode =? 2)) eqn:E02.
      + destruct (proc3d_spec rd L P N HP HN) as (g & E & F & M). exists g. split; [exact E|]. split; [exact F|]. split; [congruence|]. split; [auto|].
        intros _ H. apply orb_true_iff in E02. rewrite !Z.eqb_eq in E02. lia.
      + destruct ((mode =? 1) || (mode =? 3)) eqn:E13.
        * destruct N as [[nx ny] nz]. destruct (proc2d_of3_spec rd L P nx ny nz HP HN) as (x & y & E & F & M). exists (x, y, 1).
          split; [exact E|]. split; [destruct F as (F1 & F2 & F3); unfold factors3; lia|]. split; [congruence|]. split; [|auto].
          intros _ H. apply orb_false_iff in E02. rewrite !Z.eqb_neq in E02. lia.
        * apply orb_false_iff in E02, E13. rewrite !Z.eqb_neq in E02, E13. lia.
    - rewrite (unset3_factors P pout Ho). exists pout. split; [reflexivity|]. split; [exact Ho|]. split; [reflexivity|].
      split; intros ->; destruct Ho; lia. }
  destruct A as (gi & A1 & A2 & A3 & A4). destruct B as (go & B1 & B2 & B3 & B4 & B5). exists gi, go.
  split. { unfold proc_setup3. rewrite A1. cbn [bind]. rewrite B1. reflexivity. }
  split; [exact A2|]. split; [exact B2|]. split; [exact A3|]. split; [exact A4|]. split; [exact B3|]. split; [exact B4|]. split; [exact B5|].
  split. { intros r Hr. split; apply (tbox3_spec rd L P); auto; unfold P; lia. }
  split; [apply tiles3_tiling; assumption|]. split; [apply tiles3_tiling; assumption|]. apply setup_laid3; assumption.
Qed.

Lemma setup_laid2 ar (n : nat) st N permute gi go : area_laws ar -> (1 <= n)%nat -> ints2d N -> factors2 (Z.of_nat n) gi -> perm_ok2 permute ->
  (exists f, setup2d ar n st N permute (tiles2 N gi) (tiles2 N go) = SOk f) <-> dims_ok2 N.
Proof.
  intros L Hn HN Gi Hpe. destruct (ints2d_pos N HN) as (Hp & HI).
  apply (C18_2d_proof ar n st N permute (tiles2 N gi) (tiles2 N go) L Hn HI Hpe).
  - intros r Hr. apply (gbox2_inside n); assumption.
  - apply tiles2_tiling; assumption.
Qed.
Theorem C55_2d_proof rd ar (n : nat) st mode N pin pout : rd_laws rd -> area_laws ar -> (1 <= n)%nat -> ints2d N -> small2 (Z.of_nat n) N ->
  given2 (Z.of_nat n) pin -> given2 (Z.of_nat n) pout ->
  exists gi go, proc_setup2 rd (Z.of_nat n) N pin pout = Some (gi, go) /\
    factors2 (Z.of_nat n) gi /\ factors2 (Z.of_nat n) go /\
    (pin <> (0, 0) -> gi = pin) /\ (pin = (0, 0) -> smallest2 rd (Z.of_nat n) N gi) /\
    (pout <> (0, 0) -> go = pout) /\ (pout = (0, 0) -> go = (Z.of_nat n, 1)) /\
    (forall r, (r < n)%nat -> tbox2 rd N gi (Z.of_nat r) = Some (tiles2 N gi r) /\ tbox2 rd N go (Z.of_nat r) = Some (tiles2 N go r)) /\
    tiling2 n N (tiles2 N gi) /\ tiling2 n N (tiles2 N go) /\
    (mode = 0 \/ mode = 2 -> ((exists f, setup2d ar n st N (permute2 mode) (tiles2 N gi) (tiles2 N go) = SOk f) <-> dims_ok2 N)) /\
    (mode = 1 \/ mode = 3 -> dims_ok2 N -> setup2d ar n st N (permute2 mode) (tiles2 N gi) (tiles2 N go) = SUB).
Proof.
  intros L La Hn HN Hs Hi Ho. destruct (ints2d_pos N HN) as (Hp & HI). set (P := Z.of_nat n) in *. assert (HP : 1 <= P) by (unfold P; lia).
  assert (A : exists gi, (if unset2 pin then proc2d rd P N else Some pin) = Some gi /\ factors2 P gi /\ (pin <> (0, 0) -> gi = pin) /\ (pin = (0, 0) -> smallest2 rd P N gi)).
  { destruct Hi as [-> | Hi].
    - destruct (proc2d_spec rd L P N HP HN) as (g & E & F & M). exists g. cbn [unset2 Z.eqb andb]. split; [exact E|]. split; [exact F|]. split; [congruence|auto].
    - rewrite (unset2_factors P pin Hi). exists pin. split; [reflexivity|]. split; [exact Hi|]. split; [reflexivity|]. intros ->. destruct Hi; lia. }
  assert (B : exists go, (if unset2 pout then (P, 1) else pout) = go /\ factors2 P go /\ (pout <> (0, 0) -> go = pout) /\ (pout = (0, 0) -> go = (P, 1))).
  { destruct Ho as [-> | Ho].
    - cbn [unset2 Z.eqb andb]. eexists. split; [reflexivity|]. split; [unfold factors2; lia|]. split; [congruence|auto].
    - rewrite (unset2_factors P pout Ho). exists pout. split; [reflexivity|]. split; [exact Ho|]. split; [reflexivity|]. intros ->. destruct Ho; lia. }
  destruct A as (gi & A1 & A2 & A3 & A4). destruct B as (go & B1 & B2 & B3 & B4). exists gi, go.
  split. { unfold proc_setup2. rewrite A1. cbn [bind]. rewrite B1. reflexivity. }
  split; [exact A2|]. split; [exact B2|]. split; [exact A3|]. split; [exact A4|]. split; [exact B3|]. split; [exact B4|].
  split. { intros r Hr. split; apply (tbox2_spec rd L P); auto; unfold P; lia. }
  split; [apply tiles2_tiling; assumption|]. split; [apply tiles2_tiling; assumption|]. split.
  - intros Hm. apply setup_laid2; auto. destruct Hm as [-> | ->]; left; reflexivity.
  - intros Hm Hd. assert (Ep : permute2 mode = 2) by (destruct Hm as [-> | ->]; reflexivity). rewrite Ep.
    destruct (setup2d ar n st N 2 (tiles2 N gi) (tiles2 N go)) as [msg | | f] eqn:E; [|reflexivity|]; exfalso.
    + assert (X : exists msg, setup2d ar n st N 2 (tiles2 N gi) (tiles2 N go) = SErr msg) by eauto.
      apply (setup2d_rejects ar n st N 2 (tiles2 N gi) (tiles2 N go) La Hn HI) in X. apply X. split; [exact Hd|]. split.
      * intros r Hr. apply (gbox2_inside n); assumption.
      * rewrite (tiling2_sum n N _ (tiles2_tiling n N gi Hp A2)). apply grid2_vol; auto.
    + assert (X : exists f, setup2d ar n st N 2 (tiles2 N gi) (tiles2 N go) = SOk f) by eauto.
      apply (setup2d_accepts ar n st N 2 (tiles2 N gi) (tiles2 N go) La Hn HI) in X. destruct X as (_ & _ & _ & [X | X]); discriminate.
Qed.

Theorem C55_simple_proof ar (n : nat) st N permute s1 s2 : area_laws ar -> (1 <= n)%nat -> ints3d N -> perm_ok3 permute ->
  1 <= s1 <= Z.of_nat n -> (forall m, 1 <= m -> 1 <= s2 m <= m) ->
  exists g, simple_grid (Z.of_nat n) s1 s2 = Some g /\ factors3 (Z.of_nat n) g /\
    (forall r, (r < n)%nat -> simple_box N g (Z.of_nat r) = Some (tiles3 N g r)) /\ tiling3 n N (tiles3 N g) /\
    ((exists f, setup3d ar n st N permute (tiles3 N g) (tiles3 N g) = SOk f) <-> dims_ok3 N).
Proof.
  intros L Hn HN Hpe H1 H2. destruct (ints3d_pos N HN) as (Hp & HI).
  destruct (simple_grid_spec (Z.of_nat n) s1 s2 ltac:(lia) H1 H2) as (g & E & F). exists g. split; [exact E|]. split; [exact F|].
  split; [intros r Hr; apply (simple_box_spec (Z.of_nat n)); auto; lia|]. split; [apply tiles3_tiling; assumption|].
  apply (C18_proof ar n st N permute (tiles3 N g) (tiles3 N g) L Hn HI Hpe); [intros r Hr; apply (gbox3_inside n); assumption|apply tiles3_tiling; assumption].
Qed.
