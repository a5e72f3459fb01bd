(** LawsEx.v : fields and memories that meet the hypotheses of C84, and runs on 2 x 2 x 2 and 2 x 2 grids. *)

From Coq Require Import Reals Lra.
From Verif Require Import Base Spec Pack3d Pack2d Sched SchedProofs Phases Exec Remap RemapMain RemapInst
  Remap3d Remap2d RemapThms RemapTop ExRemap Layout LayoutProofs LayoutFinal Setup3d Setup3dProofs Setup2d Setup2dProofs Kiss KissPure KissAlg KissReal Fft1d KissFinal
  Fft3d Frame Fft3dProofs Fft3dMain DftMulti Fft3dTop Fft3dFinal Fft3dEx Fft2d Fft2dMain Fft2dTop Fft2dFinal Fft2dEx Ops OpsSeq OpsProofs ConvMath Convolve ConvolveEx SymMath Laws.
Local Open Scope Z_scope.

(** for every field there are memories of a plan that hold it *)
Lemma C84_start_3d : exists f, ready3 exact_areas 2 (mkset 1 0 1) g2 1 split3 isplit3 f /\ place3 f BACKWARD BIn BIn /\
  (forall r, (r < 2)%nat -> psize3 (split3 r) <= psize3 (isplit3 r)) /\ in_grid g2 (1, 0, 1) /\
  forall x : pt3 -> R * R,
    (exists M0 : nat -> @rmem R, Fft3dTop.room3 f BACKWARD BIn M0 /\ arrays_ok f BIn M0 /\ forall r, (r < 2)%nat -> holds3 2 0 (split3 r) (fld x) (getb BIn (M0 r))) /\
    (exists M0 : nat -> @rmem R, Fft3dTop.room3 f BACKWARD BIn M0 /\ forall r, (r < 2)%nat -> holds3 2 1 (isplit3 r) (fld x) (getb BIn (M0 r))).
Proof.
  destruct (with_plan_inv (mkset 1 0 1) 1 split3 isplit3 (fun f P => negb (f_same f))) as (f & P & Es & EP & H2); [vm_compute; reflexivity|].
  apply negb_true_iff in H2.
  assert (Hr : ready3 exact_areas 2 (mkset 1 0 1) g2 1 split3 isplit3 f) by (apply ex_ready; [right; left; reflexivity|apply tile_split|apply tile_isplit|exact Es]).
  pose proof (L_in _ _ _ _ _ _ _ (ready_facts _ _ _ _ _ _ _ _ Hr)) as Hl. pose proof (L_out _ _ _ _ _ _ _ (ready_facts _ _ _ _ _ _ _ _ Hr)) as Ho.
  exists f. split; [exact Hr|]. split; [left; reflexivity|]. split; [intros [|[|r]] Hrn; try lia; cbn; lia|]. split; [apply in_grid_xyz; lia|].
  intros x. split.
  - exists (exMem IZR x f 0 split3). split; [split; [eapply ex_room; eauto; left; reflexivity|intros _; eapply midfast_auto; eauto]|].
    split; [eapply ex_room; eauto; left; reflexivity|]. intros r _; apply ex_holds.
  - exists (exMem IZR x f 1 isplit3). split; [split; [eapply ex_room; eauto; left; reflexivity|intros _; eapply midfast_auto; eauto]|].
    intros r _; apply ex_holds.
Qed.
Lemma C84_start_2d : exists f, ready2 8 exact_areas 2 (mkset 1 1 1) sq2 1 split2 isplit2 f /\ place2 f BACKWARD BIn BIn /\
  (forall r, (r < 2)%nat -> psize2 (split2 r) <= psize2 (isplit2 r)) /\ in_grid2 sq2 (1, 0) /\
  forall x : pt2 -> R * R,
    (exists M0 : nat -> @rmem R, arrays_ok2 f BIn M0 /\ forall r, (r < 2)%nat -> holds2 2 0 (split2 r) (fld x) (getb BIn (M0 r))) /\
    (exists M0 : nat -> @rmem R, arrays_ok2 f BIn M0 /\ forall r, (r < 2)%nat -> holds2 2 1 (isplit2 r) (fld x) (getb BIn (M0 r))).
Proof.
  destruct (with_plan_inv_2 (mkset 1 1 1) 1 split2 isplit2 (fun f P => true)) as (f & P & Es & EP & _); [vm_compute; reflexivity|].
  assert (Hr : ready2 8 exact_areas 2 (mkset 1 1 1) sq2 1 split2 isplit2 f) by (apply ex_ready_2; [right; left; reflexivity|apply tile_split_2|apply tile_isplit_2|exact Es]).
  pose proof (L_in2 _ _ _ _ _ _ _ (ready_facts2 _ _ _ _ _ _ _ _ _ Hr)) as Hl. pose proof (L_out2 _ _ _ _ _ _ _ (ready_facts2 _ _ _ _ _ _ _ _ _ Hr)) as Ho.
  exists f. split; [exact Hr|]. split; [left; reflexivity|]. split; [intros [|[|r]] Hrn; try lia; cbn; lia|]. split; [apply in_grid2_xy; lia|].
  intros x. split.
  - exists (exMem_2 IZR x f 0 split2). split; [eapply ex_room_2; eauto; left; reflexivity|]. intros r _; apply ex_holds_2.
  - exists (exMem_2 IZR x f 1 isplit2). split; [eapply ex_room_2; eauto; left; reflexivity|]. intros r _; apply ex_holds_2.
Qed.

(** real fields that are not constant and Hermitian fields that are not real *)
Definition exHerm (p : pt3) : R * R := let '(i, j, k) := p in (IZR (j + k), if i =? 1 then 5 else if i =? 3 then -5 else 0)%R.
Lemma C84_fields_3d : real3 g2 (fun p => (IZR (fst (exG p)), 0%R)) /\ fst (exG (0, 0, 0)) <> fst (exG (1, 0, 0)) /\
  hermitian3 (4, 2, 2) exHerm /\ snd (exHerm (1, 0, 0)) <> 0%R /\ opp3 (4, 3, 2) (1, 2, 1) = (3, 1, 1).
Proof.
  split; [intros p _; reflexivity|]. split; [cbn; lia|]. split; [|split; [cbn; lra|reflexivity]].
  intros [[i j] k] Hp. apply in_grid_xyz in Hp. unfold conjc.
  assert (Hi : i = 0 \/ i = 1 \/ i = 2 \/ i = 3) by lia. assert (Hj : j = 0 \/ j = 1) by lia. assert (Hk : k = 0 \/ k = 1) by lia.
  destruct Hi as [->|[->|[->| ->]]], Hj as [->| ->], Hk as [->| ->]; cbn; f_equal; lra.
Qed.
Definition exHerm_2 (p : pt2) : R * R := let '(i, j) := p in (IZR j, if i =? 1 then 5 else if i =? 3 then -5 else 0)%R.
Lemma C84_fields_2d : real2 sq2 (fun p => (IZR (fst (exG_2 p)), 0%R)) /\ fst (exG_2 (0, 0)) <> fst (exG_2 (1, 0)) /\
  hermitian2 (4, 2) exHerm_2 /\ snd (exHerm_2 (1, 0)) <> 0%R /\ opp2 (4, 3) (1, 2) = (3, 1).
Proof.
  split; [intros p _; reflexivity|]. split; [cbn; lia|]. split; [|split; [cbn; lra|reflexivity]].
  intros [i j] Hp. apply in_grid2_xy in Hp. unfold conjc.
  assert (Hi : i = 0 \/ i = 1 \/ i = 2 \/ i = 3) by lia. assert (Hj : j = 0 \/ j = 1) by lia.
  destruct Hi as [->|[->|[->| ->]]], Hj as [->| ->]; cbn; f_equal; lra.
Qed.

(** ** runs *)
(** as [ends_as], from any field [x] *)
Definition ends_from (x : pt3 -> Z * Z) (f : fft3) (code : nat -> list (@instr Z)) (perm0 : Z) (lay0 : nat -> box3) (perm : Z) (lay : nat -> box3) (g : pt3 -> Z * Z) : bool :=
  let s := final 2 code (exMem (fun v => v) x f perm0 lay0) in
  doneb s && forallb (fun r => match nth_error (mems_of s) r with
     | Some m => same_list (firstn (length (fillA 0 2 perm (lay r) (fld g))) (getb BIn m)) (fillA 0 2 perm (lay r) (fld g))
     | None => false end) [0%nat; 1%nat].
Definition linZ {I} (a : Z * Z) (x : I -> Z * Z) (b : Z * Z) (y : I -> Z * Z) (p : I) : Z * Z :=
  (fst (mulZ a (x p)) + fst (mulZ b (y p)), snd (mulZ a (x p)) + snd (mulZ b (y p))).
Definition shiftZ (d : pt3) (x : pt3 -> Z * Z) (p : pt3) : Z * Z :=
  let '(a, b, c) := d in let '(i, j, k) := p in x ((i - a) mod 2, (j - b) mod 2, (k - c) mod 2).
(** exp(-2 pi i (a k1 + b k2 + c k3) / 2) *)
Definition turnZ (d : pt3) (x : pt3 -> Z * Z) (p : pt3) : Z * Z :=
  let '(a, b, c) := d in let '(i, j, k) := p in times (if Z.even (a * i + b * j + c * k) then 1 else -1) x p.
Definition reZ {I} (x : I -> Z * Z) (p : I) : Z * Z := (fst (x p), 0).
Lemma C84_runs_3d : tryall safe_sets (fun perm ins outs f P =>
    let F := compute3 Zops normZ f P false false FORWARD BIn BIn in
    ends_from (linZ (2, 3) exG (-1, 4) exK) f F 0 ins perm outs (linZ (2, 3) (dftZ exG) (-1, 4) (dftZ exK)) &&
    ends_from (shiftZ (1, 0, 1) exG) f F 0 ins perm outs (turnZ (1, 0, 1) (dftZ exG)) &&
    ends_from (reZ exG) f F 0 ins perm outs (reZ (dftZ exG)) &&
    ends_from (reZ exG) f (compute3 Zops normZ f P false false BACKWARD BIn BIn) perm outs 0 ins (reZ (dftZ exG))) = true.
Proof. vm_compute; reflexivity. Qed.
Definition ends_from_2 (x : pt2 -> Z * Z) (f : fft2) (code : nat -> list (@instr Z)) (perm0 : Z) (lay0 : nat -> box2) (perm : Z) (lay : nat -> box2) (g : pt2 -> Z * Z) : bool :=
  let s := final 2 code (exMem_2 (fun v => v) x f perm0 lay0) in
  doneb s && forallb (fun r => match nth_error (mems_of s) r with
     | Some m => same_list (firstn (length (fillA_2 0 2 perm (lay r) (fld g))) (getb BIn m)) (fillA_2 0 2 perm (lay r) (fld g))
     | None => false end) [0%nat; 1%nat].
Definition shiftZ_2 (d : pt2) (x : pt2 -> Z * Z) (p : pt2) : Z * Z :=
  let '(a, b) := d in let '(i, j) := p in x ((i - a) mod 2, (j - b) mod 2).
Definition turnZ_2 (d : pt2) (x : pt2 -> Z * Z) (p : pt2) : Z * Z :=
  let '(a, b) := d in let '(i, j) := p in times_2 (if Z.even (a * i + b * j) then 1 else -1) x p.
Lemma C84_runs_2d : tryall_2 all_sets (fun perm ins outs f P =>
    let F := compute2 Zops normZ 8 f P false false FORWARD BIn BIn in
    ends_from_2 (linZ (2, 3) exG_2 (-1, 4) exK_2) f F 0 ins perm outs (linZ (2, 3) (dftZ_2 exG_2) (-1, 4) (dftZ_2 exK_2)) &&
    ends_from_2 (shiftZ_2 (1, 0) exG_2) f F 0 ins perm outs (turnZ_2 (1, 0) (dftZ_2 exG_2)) &&
    ends_from_2 (reZ exG_2) f F 0 ins perm outs (reZ (dftZ_2 exG_2)) &&
    ends_from_2 (reZ exG_2) f (compute2 Zops normZ 8 f P false false BACKWARD BIn BIn) perm outs 0 ins (reZ (dftZ_2 exG_2))) = true.
Proof. vm_compute; reflexivity. Qed.
