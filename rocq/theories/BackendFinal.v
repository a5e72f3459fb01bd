(** BackendFinal.v : the statements of C54 and the runs used as examples. *)

From Coq Require Import Reals.
From Verif Require Import Base Spec Pack3d Pack2d Sched SchedProofs Phases Exec Remap RemapMain RemapInst
  Remap3d Remap2d RemapThms RemapTop ExRemap Layout LayoutProofs Setup3d Setup3dProofs Setup2d Setup2dProofs LayoutFinal Kiss KissPure KissReal Fft1d KissFinal
  Fft3d Frame Fft3dProofs Fft3dMain DftMulti Fft3dTop Fft3dFinal Fft3dEx Fft2d Fft2dMain Fft2dTop Fft2dFinal Fft2dEx Only1d Backend BackendProofs.
Local Open Scope Z_scope.

(** [L r] is what setup_ffts left on rank [r] *)
Definition built3 {F} (cexp : bool -> Z -> Z -> F * F) (B : backend) (n : nat) (f : fft3) (L : nat -> fft1 * fft1 * fft1 * @table F) : Prop :=
  forall r, (r < n)%nat -> made3 cexp B f r = Some (L r).
Definition built2 {F} (cexp : bool -> Z -> Z -> F * F) (B : backend) (n : nat) (f : fft2) (L : nat -> fft1 * fft1 * @table F) : Prop :=
  forall r, (r < n)%nat -> made2 cexp B f r = Some (L r).

Lemma agree_sym {F} n (p q : nat -> list (@instr F)) : agree n p q -> agree n q p.
Proof. intros H r Hr. symmetry. apply H, Hr. Qed.
Lemma agree_exec {F} n (p q : nat -> list (@instr F)) M0 M' : agree n p q -> (exec_to n p M0 M' <-> exec_to n q M0 M').
Proof. intros H. split; apply exec_agree; [apply agree_sym|]; exact H. Qed.

Section Three.
Variables (ar : areas) (n : nat) (st : settings) (N : Z * Z * Z) (permute : Z) (ins outs : nat -> box3) (f : fft3) (B : backend).

Lemma can_build3 : ready3 ar n st N permute ins outs f -> exists L, built3 cexpR B n f L.
Proof.
  intros Hr. exists (fun r => match made3 cexpR B f r with Some l => l | None => (unset 0 0, unset 0 0, unset 0 0, []) end).
  intros r _. destruct (made3_ok Rops cexpR ar n st N permute ins outs f Hr B r) as (qf & qm & qs & t & E & _). rewrite E. reflexivity.
Qed.

Lemma plans3_proof L : ready3 ar n st N permute ins outs f -> built3 cexpR B n f L ->
  forall r, (r < n)%nat -> let '(qf, qm, qs, t) := L r in
    exists t', lib_dealloc3 B N (qf, qm, qs) t = Some (tt, t') /\ length t' = length t /\ forall h, pget h t' = None.
Proof.
  intros Hr HL r Hrn. destruct (made3_ok Rops cexpR ar n st N permute ins outs f Hr B r) as (qf & qm & qs & t & E & _ & _ & _ & t' & E1 & E2 & E3).
  assert (EL : L r = (qf, qm, qs, t)) by (pose proof (HL r Hrn); congruence). rewrite EL. exists t'. split; [exact E1|]. split; [exact E2|].
  intros h. unfold pget. destruct (nth_error t' h) as [p|] eqn:Ep; [|reflexivity]. apply nth_error_In in Ep.
  unfold freed in E3. rewrite Forall_forall in E3. rewrite (E3 _ Ep). reflexivity.
Qed.

Lemma same3_proof P L : ready3 ar n st N permute ins outs f -> setup_ffts3 cexpR N = Some P -> built3 cexpR B n f L -> (B = MKL -> has_lines3 f) ->
  (forall scaled ro flag bi bo M0 M', exec_to n (lib_compute3 Rops DFT rnormR B f L scaled ro flag bi bo) M0 M' <->
     exec_to n (compute3 Rops rnormR f P scaled ro flag bi bo) M0 M') /\
  (forall flag b M0 M', exec_to n (lib_only_1d3 Rops DFT B L flag b) M0 M' <-> exec_to n (only_1d_ffts3 Rops f P flag b) M0 M').
Proof.
  intros Hr HP HL HM.
  assert (HT : forall L inv st x j, plan_for cexpR L inv st -> 0 <= j < L -> lineT Rops st x j = DFT inv L x j) by (intros; apply lineT_real; assumption).
  split; intros; apply agree_exec.
  - eapply lib_compute3_eq; eassumption.
  - eapply lib_only3_eq; eassumption.
Qed.

Lemma forward3_proof L bi bo (M0 : nat -> @rmem R) scaled x :
  ready3 ar n st N permute ins outs f -> built3 cexpR B n f L -> (B = MKL -> has_lines3 f) ->
  isdata bi -> isdata bo -> bi = bo \/ f_pre f = true -> arrays_ok f bo M0 ->
  (forall r, (r < n)%nat -> holds3 2 0 (ins r) (fld x) (getb bi (M0 r))) ->
  exec_all n (lib_compute3 Rops DFT rnormR B f L scaled false FORWARD bi bo) M0
    (fun r m => holds3 2 permute (outs r) (fld (DFT3 false N x)) (getb bo m) /\ framed M0 bo (fun r => 2 * f_fftsize f r) r m).
Proof.
  intros Hr HL HM Hbi Hbo Hpl Ha Hx.
  destruct (C25_proof ar n st N permute ins outs f bi bo M0 scaled x Hr Hbi Hbo Hpl Ha Hx) as (P & HP & M' & H1 & H2).
  exists M'. split; [exact H1|]. apply (proj1 (same3_proof P L Hr HP HL HM)). exact H2.
Qed.

Lemma backward3_proof L bi bo (M0 : nat -> @rmem R) scaled x :
  ready3 ar n st N permute ins outs f -> built3 cexpR B n f L -> (B = MKL -> has_lines3 f) ->
  isdata bi -> isdata bo -> place3 f BACKWARD bi bo -> room3 f BACKWARD bo M0 ->
  (forall r, (r < n)%nat -> holds3 2 permute (outs r) (fld x) (getb bi (M0 r))) ->
  exec_all n (lib_compute3 Rops DFT rnormR B f L scaled false BACKWARD bi bo) M0
    (fun r m => holds3 2 0 (ins r)
       (fld (fun p => rmulc (if scaled && (pos3 0 (ins r) p <? psize3 (outs r)) then / IZR (grid_points N) else 1)%R (DFT3 true N x p)))
       (getb bo m) /\ framed M0 bo (fun r => 2 * f_fftsize f r) r m).
Proof.
  intros Hr HL HM Hbi Hbo Hpl Ha Hx.
  destruct (C26_proof ar n st N permute ins outs f bi bo M0 scaled x Hr Hbi Hbo Hpl Ha Hx) as (P & HP & M' & H1 & H2).
  exists M'. split; [exact H1|]. apply (proj1 (same3_proof P L Hr HP HL HM)). exact H2.
Qed.
End Three.

Section Two.
Variables (esize : Z) (ar : areas) (n : nat) (st : settings) (N : Z * Z) (permute : Z) (ins outs : nat -> box2) (f : fft2) (B : backend).

Lemma can_build2 : ready2 esize ar n st N permute ins outs f -> exists L, built2 cexpR B n f L.
Proof.
  intros Hr. exists (fun r => match made2 cexpR B f r with Some l => l | None => (unset 0 0, unset 0 0, []) end).
  intros r _. destruct (made2_ok Rops cexpR esize ar n st N permute ins outs f Hr B r) as (qf & qs & t & E & _). rewrite E. reflexivity.
Qed.

Lemma plans2_proof L : ready2 esize ar n st N permute ins outs f -> built2 cexpR B n f L ->
  forall r, (r < n)%nat -> let '(qf, qs, t) := L r in
    exists t', lib_dealloc2 B N (qf, qs) t = Some (tt, t') /\ length t' = length t /\ forall h, pget h t' = None.
Proof.
  intros Hr HL r Hrn. destruct (made2_ok Rops cexpR esize ar n st N permute ins outs f Hr B r) as (qf & qs & t & E & _ & _ & t' & E1 & E2 & E3).
  assert (EL : L r = (qf, qs, t)) by (pose proof (HL r Hrn); congruence). rewrite EL. exists t'. split; [exact E1|]. split; [exact E2|].
  intros h. unfold pget. destruct (nth_error t' h) as [p|] eqn:Ep; [|reflexivity]. apply nth_error_In in Ep.
  unfold freed in E3. rewrite Forall_forall in E3. rewrite (E3 _ Ep). reflexivity.
Qed.

Lemma same2_proof P L : ready2 esize ar n st N permute ins outs f -> setup_ffts2 cexpR N = Some P -> built2 cexpR B n f L -> (B = MKL -> has_lines2 f) ->
  (forall scaled ro flag bi bo M0 M', exec_to n (lib_compute2 Rops DFT rnormR B esize f L scaled ro flag bi bo) M0 M' <->
     exec_to n (compute2 Rops rnormR esize f P scaled ro flag bi bo) M0 M') /\
  (forall flag b M0 M', exec_to n (lib_only_1d2 Rops DFT B L flag b) M0 M' <-> exec_to n (only_1d_ffts2 Rops f P flag b) M0 M').
Proof.
  intros Hr HP HL HM.
  assert (HT : forall L inv st x j, plan_for cexpR L inv st -> 0 <= j < L -> lineT Rops st x j = DFT inv L x j) by (intros; apply lineT_real; assumption).
  split; intros; apply agree_exec.
  - eapply lib_compute2_eq; eassumption.
  - eapply lib_only2_eq; eassumption.
Qed.

Lemma forward2_proof L bi bo (M0 : nat -> @rmem R) scaled x :
  ready2 esize ar n st N permute ins outs f -> built2 cexpR B n f L -> (B = MKL -> has_lines2 f) ->
  isdata bi -> isdata bo -> bi = bo \/ t_pre f = true -> arrays_ok2 f bo M0 ->
  (forall r, (r < n)%nat -> holds2 2 0 (ins r) (fld x) (getb bi (M0 r))) ->
  exec_all n (lib_compute2 Rops DFT rnormR B esize f L scaled false FORWARD bi bo) M0
    (fun r m => holds2 2 permute (outs r) (fld (DFT2 false N x)) (getb bo m) /\ framed M0 bo (fun r => 2 * t_fftsize f r) r m).
Proof.
  intros Hr HL HM Hbi Hbo Hpl Ha Hx.
  destruct (C25_proof2 esize ar n st N permute ins outs f bi bo M0 scaled x Hr Hbi Hbo Hpl Ha Hx) as (P & HP & M' & H1 & H2).
  exists M'. split; [exact H1|]. apply (proj1 (same2_proof P L Hr HP HL HM)). exact H2.
Qed.

Lemma backward2_proof L bi bo (M0 : nat -> @rmem R) scaled x :
  ready2 esize ar n st N permute ins outs f -> built2 cexpR B n f L -> (B = MKL -> has_lines2 f) ->
  isdata bi -> isdata bo -> place2 f BACKWARD bi bo -> arrays_ok2 f bo M0 ->
  (forall r, (r < n)%nat -> holds2 2 permute (outs r) (fld x) (getb bi (M0 r))) ->
  exec_all n (lib_compute2 Rops DFT rnormR B esize f L scaled false BACKWARD bi bo) M0
    (fun r m => holds2 2 0 (ins r)
       (fld (fun p => rmulc (if scaled && (pos2 0 (ins r) p <? psize2 (outs r)) then / IZR (grid_points2 N) else 1)%R (DFT2 true N x p)))
       (getb bo m) /\ framed M0 bo (fun r => 2 * t_fftsize f r) r m).
Proof.
  intros Hr HL HM Hbi Hbo Hpl Ha Hx.
  destruct (C26_proof2 esize ar n st N permute ins outs f bi bo M0 scaled x Hr Hbi Hbo Hpl Ha Hx) as (P & HP & M' & H1 & H2).
  exists M'. split; [exact H1|]. apply (proj1 (same2_proof P L Hr HP HL HM)). exact H2.
Qed.
End Two.

(** ** runs with integers on a 2 x 2 x 2 and a 2 x 2 grid *)
(** the transform of length 2: sum and difference *)
Definition pairZ (inv : bool) (L : Z) (y : Z -> Z * Z) (j : Z) : Z * Z :=
  if j =? 0 then (fst (y 0) + fst (y 1), snd (y 0) + snd (y 1)) else (fst (y 0) - fst (y 1), snd (y 0) - snd (y 1)).
Definition ex_built3 (B : backend) (f : fft3) : nat -> fft1 * fft1 * fft1 * @table Z := fun r =>
  match made3 cexpZ B f r with Some l => l | None => (unset 0 0, unset 0 0, unset 0 0, []) end.
Definition ex_built2 (B : backend) (f : fft2) : nat -> fft1 * fft1 * @table Z := fun r =>
  match made2 cexpZ B f r with Some l => l | None => (unset 0 0, unset 0 0, []) end.
Definition all_backends : list backend := [MKL; FFTW2; FFTW3; KISS].
Definition same_lists (a b : list (list Z)) : bool :=
  if list_eq_dec (list_eq_dec Z.eq_dec) a b then true else false.
Definition ins_of (s : @gstate Z) : list (list Z) := map m_in (mems_of s).
(** the run with back end [B] ends with the same arrays as the run of the KISS model *)
Definition ex_same3 (B : backend) (f : fft3) (P : @plans3 Z) (flag perm : Z) (lay : nat -> box3) : bool :=
  let s := final 2 (lib_compute3 Zops pairZ normZ B f (ex_built3 B f) true false flag BIn BIn) (exM f perm lay) in
  let s0 := final 2 (compute3 Zops normZ f P true false flag BIn BIn) (exM f perm lay) in
  doneb s && doneb s0 && same_lists (ins_of s) (ins_of s0).
Definition ex_same2 (B : backend) (f : fft2) (P : @plans2 Z) (flag perm : Z) (lay : nat -> box2) : bool :=
  let s := final 2 (lib_compute2 Zops pairZ normZ B 8 f (ex_built2 B f) true false flag BIn BIn) (exM_2 f perm lay) in
  let s0 := final 2 (compute2 Zops normZ 8 f P true false flag BIn BIn) (exM_2 f perm lay) in
  doneb s && doneb s0 && same_lists (ins_of s) (ins_of s0).

(** a rank without lines: the MKL descriptor asks for 0 transforms *)
Lemma mkl3_proof : exists st ins outs f (L : nat -> fft1 * fft1 * fft1 * @table Z) (M0 : nat -> @rmem Z),
  ready3 exact_areas 2 st g2 0 ins outs f /\ built3 cexpZ MKL 2 f L /\ arrays_ok f BIn M0 /\
  may_go_wrong 2 (lib_compute3 Zops pairZ normZ MKL f L false false FORWARD BIn BIn) M0.
Proof.
  destruct (with_plan_inv (mkset 0 0 0) 0 whole3 whole3 (fun f P =>
    match made3 cexpZ MKL f 0%nat, made3 cexpZ MKL f 1%nat with Some _, Some _ => true | _, _ => false end &&
    badb 2 (final 2 (lib_compute3 Zops pairZ normZ MKL f (ex_built3 MKL f) false false FORWARD BIn BIn) (exM f 0 whole3)))) as (f & P & Es & EP & Hk);
    [vm_compute; reflexivity|].
  apply andb_prop in Hk as (H1 & H2).
  assert (Hr : ready3 exact_areas 2 (mkset 0 0 0) g2 0 whole3 whole3 f) by (apply ex_ready; [left; reflexivity|apply tile_whole|apply tile_whole|exact Es]).
  exists (mkset 0 0 0), whole3, whole3, f, (ex_built3 MKL f), (exM f 0 whole3). split; [exact Hr|]. split.
  { intros [|[|r]] Hrn; [| |lia]; unfold ex_built3; destruct (made3 cexpZ MKL f 0%nat), (made3 cexpZ MKL f 1%nat); try discriminate; reflexivity. }
  split; [eapply ex_room; [exact Hr|apply (L_in _ _ _ _ _ _ _ (ready_facts _ _ _ _ _ _ _ _ Hr))|left; reflexivity]|].
  apply final_bad. exact H2.
Qed.
Lemma mkl2_proof : exists st ins outs f (L : nat -> fft1 * fft1 * @table Z) (M0 : nat -> @rmem Z),
  ready2 8 exact_areas 2 st sq2 0 ins outs f /\ built2 cexpZ MKL 2 f L /\ arrays_ok2 f BIn M0 /\
  may_go_wrong 2 (lib_compute2 Zops pairZ normZ MKL 8 f L false false FORWARD BIn BIn) M0.
Proof.
  destruct (with_plan_inv_2 (mkset 0 0 0) 0 whole2 whole2 (fun f P =>
    match made2 cexpZ MKL f 0%nat, made2 cexpZ MKL f 1%nat with Some _, Some _ => true | _, _ => false end &&
    badb 2 (final 2 (lib_compute2 Zops pairZ normZ MKL 8 f (ex_built2 MKL f) false false FORWARD BIn BIn) (exM_2 f 0 whole2)))) as (f & P & Es & EP & Hk);
    [vm_compute; reflexivity|].
  apply andb_prop in Hk as (H1 & H2).
  assert (Hr : ready2 8 exact_areas 2 (mkset 0 0 0) sq2 0 whole2 whole2 f) by (apply ex_ready_2; [left; reflexivity|apply tile_whole_2|apply tile_whole_2|exact Es]).
  exists (mkset 0 0 0), whole2, whole2, f, (ex_built2 MKL f), (exM_2 f 0 whole2). split; [exact Hr|]. split.
  { intros [|[|r]] Hrn; [| |lia]; unfold ex_built2; destruct (made2 cexpZ MKL f 0%nat), (made2 cexpZ MKL f 1%nat); try discriminate; reflexivity. }
  split; [eapply ex_room_2; [exact Hr|apply (L_in2 _ _ _ _ _ _ _ (ready_facts2 _ _ _ _ _ _ _ _ _ Hr))|left; reflexivity]|].
  apply final_bad. exact H2.
Qed.
