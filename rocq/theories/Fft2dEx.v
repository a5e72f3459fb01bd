(** Fft2dEx.v : runs of the 2d model on a 2 x 2 grid (counterpart of Fft3dEx.v). *)

From Coq Require Import Reals Lra.
From Verif Require Import Base Spec Pack2d Sched SchedProofs Phases Exec Remap RemapMain RemapInst
  Remap2d RemapThms RemapTop ExRemap Layout LayoutProofs Setup3d Setup3dProofs Setup2d Setup2dProofs LayoutFinal Kiss KissPure KissAlg KissReal Fft1d KissFinal
  Fft3d Frame Fft3dProofs Fft3dMain DftMulti Fft3dTop Fft3dFinal Fft3dEx Fft2d Fft2dMain Fft2dTop Fft2dFinal.
Local Open Scope Z_scope.

Definition exG_2 (p : pt2) : Z * Z := let '(i, j) := p in (100 + 31 * i + 17 * j * j + i * j, 7 * i - 3 * j + 1).
(** storage of a field on a tile *)
Definition fillA_2 {A} (d : A) (nq perm : Z) (b : box2) (g : pt2 -> Z -> A) : list A :=
  map (fun c => match find (fun e => cell2 nq perm b (fst e) (snd e) =? c) (elems2 nq b) with Some e => g (fst e) (snd e) | None => d end)
      (zrange (nq * vol2 b)).
Lemma fillA_holds_2 {A} (d : A) nq perm b g : 0 < nq -> holds2 nq perm b g (fillA_2 d nq perm b g).
Proof.
  intros Hq p q Hp Hqq. unfold fillA_2. pose proof (cell2_bound nq perm b p q Hp Hqq) as Hc.
  rewrite (vol2_pos b p Hp).
  rewrite zget_map, zget_zrange by lia. cbn [option_map]. f_equal.
  destruct (find (fun e => cell2 nq perm b (fst e) (snd e) =? cell2 nq perm b p q) (elems2 nq b)) as [e|] eqn:Ef.
  - apply find_some in Ef as (Hi & He). apply In_elems2 in Hi; [|lia]. apply Z.eqb_eq in He. destruct Hi as (H1 & H2).
    destruct (cell2_inj nq perm b _ _ _ _ H1 Hp H2 Hqq He) as (-> & ->). reflexivity.
  - exfalso. assert (Hn := find_none _ _ Ef (p, q)). cbn in Hn. rewrite Z.eqb_refl in Hn. assert (true = false); [|discriminate].
    apply Hn, In_elems2; [lia|]. split; assumption.
Qed.

(** [in] holds the field on the source tiles; out and the buffers hold markers *)
Definition exMem_2 {A} (mk : Z -> A) (G : pt2 -> A * A) (f : fft2) (perm : Z) (lay : nat -> box2) (r : nat) : @rmem A :=
  let l := fillA_2 (mk (-1)) 2 perm (lay r) (fld G) in
  let mark := fun v k => map (fun _ => mk v) (zrange k) in
  mkmem (l ++ mark (-7) (2 * t_fftsize f r - zlen l)) (mark (-1) (2 * t_fftsize f r)) (mark (-2) (t_sendsize f r)) (mark (-3) (t_recvsize f r)).
Definition exM_2 (f : fft2) (perm : Z) (lay : nat -> box2) (r : nat) : @rmem Z := exMem_2 (fun v => v) exG_2 f perm lay r.

Definition sq2 : Z * Z := (2, 2).
Definition whole2 (r : nat) : box2 := match r with O => mkbox2 0 1 0 1 | _ => mkbox2 0 1 2 1 end.
Definition isplit2 (r : nat) : box2 := match r with O => mkbox2 0 0 0 1 | _ => mkbox2 1 1 0 1 end.
Lemma whole2_tiling : tiling2 2 (2, 2) whole2.
Proof.
  split; [|split].
  - intros [i j] [|r] Hr; cbn; lia.
  - intros [i j] [|r] [|r'] Hr Hr'; cbn; lia.
  - intros [i j] H. exists 0%nat. cbn in *. lia.
Qed.
Lemma isplit2_tiling : tiling2 2 (2, 2) isplit2.
Proof.
  split; [|split].
  - intros [i j] [|r] Hr; cbn; lia.
  - intros [i j] [|r] [|r'] Hr Hr'; cbn; lia.
  - intros [i j] H. destruct (Z.eq_dec i 0).
    + exists 0%nat. cbn in *. lia.
    + exists 1%nat. cbn in *. lia.
Qed.

Definition exSetup_2 (st : settings) (permute : Z) (ins outs : nat -> box2) := setup2d exact_areas 2 st sq2 permute ins outs.

Lemma ex_plan_2 : exists P, setup_ffts2 cexpZ sq2 = Some P.
Proof. destruct (setup_ffts2 cexpZ sq2) as [P|] eqn:E; [exists P; reflexivity|vm_compute in E; discriminate]. Qed.

Definition tile_ok_2 (t : nat -> box2) : Prop := tiling2 2 sq2 t /\ forall r, (r < 2)%nat -> legal2 (t r).
Lemma tile_whole_2 : tile_ok_2 whole2.
Proof. split; [exact whole2_tiling|]. intros [|[|r]] H; try lia; unfold legal2, ni2, nj2; cbn; lia. Qed.
Lemma tile_isplit_2 : tile_ok_2 isplit2.
Proof. split; [exact isplit2_tiling|]. intros [|[|r]] H; try lia; unfold legal2, ni2, nj2; cbn; lia. Qed.
Lemma tile_split_2 : tile_ok_2 split2.
Proof. split; [exact split2_tiling|]. intros [|[|r]] H; try lia; unfold legal2, ni2, nj2; cbn; lia. Qed.

Lemma ex_ready_2 st permute ins outs f : flag_ok (st_pack st) -> tile_ok_2 ins -> tile_ok_2 outs -> exSetup_2 st permute ins outs = SOk f ->
  ready2 8 exact_areas 2 st sq2 permute ins outs f.
Proof.
  intros Hp (T1 & _) (T2 & L2) E. split; [exact exact_laws|]. split; [lia|]. split; [unfold ints2, sq2, INT_MAX; lia|].
  split; [exact Hp|]. split; [left; reflexivity|]. split; [exact T1|]. split; [exact T2|]. split; [exact L2|exact E].
Qed.


Lemma maxsizes_nonneg_2 g l r : 0 <= maxsizes2 g l r.
Proof.
  unfold maxsizes2. assert (H : forall l a, 0 <= a -> 0 <= fold_left (fun s m => Z.max s (g m r)) l a).
  { induction l0 as [|x t IH]; intros a Ha; cbn; [exact Ha|]. apply IH. lia. }
  apply H. lia.
Qed.

Lemma ex_room_2 {A} (mk : Z -> A) G st permute ins outs f perm lay b : ready2 8 exact_areas 2 st sq2 permute ins outs f -> layout2 f lay -> isdata b ->
  arrays_ok2 f b (exMem_2 mk G f perm lay).
Proof.
  intros Hr Hl Hb r Hrn. pose proof (ready_facts2 _ _ _ _ _ _ _ _ _ Hr) as FA.
  rewrite (T_n _ _ _ _ _ _ _ FA) in Hrn.
  assert (0 <= t_sendsize f r /\ 0 <= t_recvsize f r).
  { rewrite (T_sendsize _ _ _ _ _ _ _ FA), (T_recvsize _ _ _ _ _ _ _ FA). split; apply maxsizes_nonneg_2. }
  pose proof (layout_fftsize2 _ _ _ _ _ _ _ FA lay r Hl Hrn) as Hv.
  assert (0 <= vol2 (lay r)) by (unfold vol2; nia).
  assert (Ez : zlen (fillA_2 (mk (-1)) 2 perm (lay r) (fld G)) = 2 * vol2 (lay r)) by (unfold fillA_2; rewrite zlen_map, zlen_zrange; lia).
  unfold exMem_2. cbn [m_send m_recv]. rewrite !zlen_mark by lia. split; [|lia].
  destruct Hb as [-> | ->]; cbn [getb m_in m_out].
  - rewrite zlen_app, Ez, zlen_mark by lia. lia.
  - rewrite zlen_mark by lia. lia.
Qed.

Lemma ex_holds_2 {A} (mk : Z -> A) G f perm lay r : holds2 2 perm (lay r) (fld G) (m_in (exMem_2 mk G f perm lay r)).
Proof.
  intros p q Hp Hq. unfold exMem_2. cbn [m_in]. pose proof (fillA_holds_2 (mk (-1)) 2 perm (lay r) (fld G) ltac:(lia) p q Hp Hq) as H.
  rewrite zget_app. pose proof (zget_inv _ _ _ H). destruct (Z.ltb_spec (cell2 2 perm (lay r) p q) (zlen (fillA_2 (mk (-1)) 2 perm (lay r) (fld G)))); [exact H|lia].
Qed.

(** ** the failing calls *)

Definition with_plan_2 (st : settings) (permute : Z) (ins outs : nat -> box2) (k : fft2 -> @plans2 Z -> bool) : bool :=
  match exSetup_2 st permute ins outs, setup_ffts2 cexpZ sq2 with SOk f, Some P => k f P | _, _ => false end.
Lemma with_plan_inv_2 st permute ins outs k : with_plan_2 st permute ins outs k = true ->
  exists f P, exSetup_2 st permute ins outs = SOk f /\ setup_ffts2 cexpZ sq2 = Some P /\ k f P = true.
Proof.
  unfold with_plan_2. destruct (exSetup_2 st permute ins outs) as [| |f]; try discriminate. destruct (setup_ffts2 cexpZ sq2) as [P|]; [|discriminate].
  intros H. exists f, P. auto.
Qed.


(** the in-place and the out-of-place call end with different values in cell [c] of rank [r] *)
Definition oop_check_2 (f : fft2) (P : @plans2 Z) (flag perm : Z) (lay : nat -> box2) (r : nat) (c : Z) : bool :=
  let M := exM_2 f perm lay in
  let s1 := final 2 (compute2 Zops normZ 8 f P false false flag BIn BIn) M in
  let s2 := final 2 (compute2 Zops normZ 8 f P false false flag BIn BOut) M in
  doneb s1 && doneb s2 && neqb (cell_of s1 r BIn c) (cell_of s2 r BOut c).
Lemma oop_inv_2 f P flag perm lay r c : oop_check_2 f P flag perm lay r c = true ->
  exists v w, may_end_with 2 (compute2 Zops normZ 8 f P false false flag BIn BIn) (exM_2 f perm lay) r BIn c v /\
    may_end_with 2 (compute2 Zops normZ 8 f P false false flag BIn BOut) (exM_2 f perm lay) r BOut c w /\ v <> w.
Proof.
  unfold oop_check_2. intros H. apply andb_prop in H as (H & H3). apply andb_prop in H as (H1 & H2).
  apply neqb_inv in H3 as (v & w & E1 & E2 & Hne). exists v, w. split; [apply final_ends; assumption|]. split; [apply final_ends; assumption|exact Hne].
Qed.

(** out of place, forward, no remap into the fast layout: only half of the input is copied *)
Lemma C28_forward_refuted_proof_2 : exists st permute ins outs f P (M0 : nat -> @rmem Z) G r p q v w,
  ready2 8 exact_areas 2 st sq2 permute ins outs f /\ setup_ffts2 cexpZ sq2 = Some P /\ arrays_ok2 f BIn M0 /\ arrays_ok2 f BOut M0 /\
  (forall r, (r < 2)%nat -> holds2 2 0 (ins r) (fld G) (getb BIn (M0 r))) /\
  (r < 2)%nat /\ inb2 p (outs r) /\ 0 <= q < 2 /\
  may_end_with 2 (compute2 Zops normZ 8 f P false false FORWARD BIn BIn) M0 r BIn (cell2 2 permute (outs r) p q) v /\
  may_end_with 2 (compute2 Zops normZ 8 f P false false FORWARD BIn BOut) M0 r BOut (cell2 2 permute (outs r) p q) w /\ v <> w.
Proof.
  destruct (with_plan_inv_2 (mkset 2 0 2) 0 split2 isplit2 (fun f P => oop_check_2 f P FORWARD 0 split2 0%nat (cell2 2 0 (isplit2 0%nat) (0, 0) 0)))
    as (f & P & Es & EP & Hk); [vm_compute; reflexivity|].
  apply oop_inv_2 in Hk as (v & w & Hv & Hw & Hne).
  assert (Hr : ready2 8 exact_areas 2 (mkset 2 0 2) sq2 0 split2 isplit2 f) by (apply ex_ready_2; [right; right; reflexivity|apply tile_split_2|apply tile_isplit_2|exact Es]).
  pose proof (L_in2 _ _ _ _ _ _ _ (ready_facts2 _ _ _ _ _ _ _ _ _ Hr)) as Hl.
  exists (mkset 2 0 2), 0, split2, isplit2, f, P, (exM_2 f 0 split2), exG_2, 0%nat, (0, 0), 0, v, w.
  split; [exact Hr|]. split; [exact EP|]. split; [eapply ex_room_2; eauto; left; reflexivity|]. split; [eapply ex_room_2; eauto; right; reflexivity|].
  split; [intros r _; apply ex_holds_2|]. split; [lia|]. split; [cbn; lia|]. split; [lia|]. auto.
Qed.

(** out of place, backward, with a remap out of the fast layout: that remap reads [in] *)
Lemma C28_backward_refuted_proof_2 : exists st permute ins outs f P (M0 : nat -> @rmem Z) G r p q v w,
  ready2 8 exact_areas 2 st sq2 permute ins outs f /\ t_pre f = true /\ t_post f = true /\
  setup_ffts2 cexpZ sq2 = Some P /\ arrays_ok2 f BIn M0 /\ arrays_ok2 f BOut M0 /\
  (forall r, (r < 2)%nat -> holds2 2 permute (outs r) (fld G) (getb BIn (M0 r))) /\
  (r < 2)%nat /\ inb2 p (ins r) /\ 0 <= q < 2 /\
  may_end_with 2 (compute2 Zops normZ 8 f P false false BACKWARD BIn BIn) M0 r BIn (cell2 2 0 (ins r) p q) v /\
  may_end_with 2 (compute2 Zops normZ 8 f P false false BACKWARD BIn BOut) M0 r BOut (cell2 2 0 (ins r) p q) w /\ v <> w.
Proof.
  destruct (with_plan_inv_2 (mkset 2 0 2) 0 isplit2 split2 (fun f P => t_pre f && t_post f && oop_check_2 f P BACKWARD 0 split2 0%nat (cell2 2 0 (isplit2 0%nat) (0, 0) 0)))
    as (f & P & Es & EP & Hk); [vm_compute; reflexivity|].
  apply andb_prop in Hk as (Hf & Hk). apply andb_prop in Hf as (Hf1 & Hf2).
  apply oop_inv_2 in Hk as (v & w & Hv & Hw & Hne).
  assert (Hr : ready2 8 exact_areas 2 (mkset 2 0 2) sq2 0 isplit2 split2 f) by (apply ex_ready_2; [right; right; reflexivity|apply tile_isplit_2|apply tile_split_2|exact Es]).
  pose proof (L_out2 _ _ _ _ _ _ _ (ready_facts2 _ _ _ _ _ _ _ _ _ Hr)) as Hl.
  exists (mkset 2 0 2), 0, isplit2, split2, f, P, (exM_2 f 0 split2), exG_2, 0%nat, (0, 0), 0, v, w.
  split; [exact Hr|]. split; [exact Hf1|]. split; [exact Hf2|]. split; [exact EP|].
  split; [eapply ex_room_2; eauto; left; reflexivity|]. split; [eapply ex_room_2; eauto; right; reflexivity|].
  split; [intros r _; apply ex_holds_2|]. split; [lia|]. split; [cbn; lia|]. split; [lia|]. auto.
Qed.

(** backward scaling stops after as many elements as the rank has on output *)
Lemma C26_scaling_refuted_proof_2 : exists st ins outs f x (M0 : nat -> @rmem R) P r p v,
  ready2 8 exact_areas 2 st sq2 0 ins outs f /\ setup_ffts2 cexpR sq2 = Some P /\ arrays_ok2 f BIn M0 /\
  (forall r, (r < 2)%nat -> holds2 2 0 (outs r) (fld x) (getb BIn (M0 r))) /\
  (r < 2)%nat /\ inb2 p (ins r) /\
  exec_all 2 (compute2 Rops rnormR 8 f P true false BACKWARD BIn BIn) M0
      (fun r' m => r' = r -> zget (getb BIn m) (cell2 2 0 (ins r) p 0) = Some v) /\
  v <> (/ IZR (grid_points2 sq2) * fst (DFT2 true sq2 x p))%R.
Proof.
  destruct (with_plan_inv_2 (mkset 0 0 0) 0 whole2 isplit2 (fun _ _ => true)) as (f & _ & Es & _ & _); [vm_compute; reflexivity|].
  assert (Hr : ready2 8 exact_areas 2 (mkset 0 0 0) sq2 0 whole2 isplit2 f) by (apply ex_ready_2; [left; reflexivity|apply tile_whole_2|apply tile_isplit_2|exact Es]).
  pose (x := DFT2 false sq2 (fun _ => (1, 0)%R)). pose (M0 := exMem_2 IZR x f 0 isplit2).
  assert (Hro : arrays_ok2 f BIn M0).
  { eapply ex_room_2; eauto; [eapply L_out2; eapply ready_facts2; eauto|left; reflexivity]. }
  assert (Hx : forall r, (r < 2)%nat -> holds2 2 0 (isplit2 r) (fld x) (getb BIn (M0 r))) by (intros r _; apply ex_holds_2).
  destruct (C26_proof2 8 exact_areas 2 (mkset 0 0 0) sq2 0 whole2 isplit2 f BIn BIn M0 true x Hr (or_introl eq_refl) (or_introl eq_refl) (or_introl eq_refl)
     Hro Hx) as (P & HP & M' & K1 & K2).
  assert (E : DFT2 true sq2 x (1, 1) = (4, 0)%R).
  { pose proof (inverse2 false sq2 (fun _ => (1, 0)%R) (1, 1) ltac:(cbn; lia)) as H. cbn [negb] in H. unfold x. rewrite H. unfold rmulc. cbn. f_equal; ring. }
  exists (mkset 0 0 0), whole2, isplit2, f, x, M0, P, 0%nat, (1, 1), 4%R.
  split; [exact Hr|]. split; [exact HP|]. split; [exact Hro|]. split; [exact Hx|]. split; [lia|]. split; [cbn; lia|]. split.
  - exists M'. split; [|exact K2]. intros r' Hr' ->. destruct (K1 0%nat ltac:(lia)) as (A & _).
    rewrite (A (1, 1) 0); [|cbn; lia|lia]. unfold fld. rewrite E. unfold rmulc. cbn. f_equal. ring.
  - rewrite E. cbn. lra.
Qed.

(** only_one_remap with exchange = 1 and in <> out: the second half reads [in] *)
Definition one_check_2 (f : fft2) (flag which perm : Z) (lay : nat -> box2) (r : nat) (c v : Z) : bool :=
  let s := final 2 (only_one_remap2 8 f flag which BIn BOut) (exM_2 f perm lay) in
  doneb s && neqb (cell_of s r BOut c) (Some v).
Lemma one_inv_2 f flag which perm lay r c v : one_check_2 f flag which perm lay r c v = true ->
  exists w, may_end_with 2 (only_one_remap2 8 f flag which BIn BOut) (exM_2 f perm lay) r BOut c w /\ w <> v.
Proof.
  unfold one_check_2. intros H. apply andb_prop in H as (H1 & H2). apply neqb_inv in H2 as (w & v' & E1 & E2 & Hne). injection E2 as <-.
  exists w. split; [apply final_ends; assumption|exact Hne].
Qed.

Definition one_wrong_2 (st : settings) (flag which : Z) : Prop :=
  exists permute ins outs f (M0 : nat -> @rmem Z) g r p q w,
  ready2 8 exact_areas 2 st sq2 permute ins outs f /\ arrays_ok2 f BIn M0 /\ arrays_ok2 f BOut M0 /\
  (forall r, (r < 2)%nat -> holds2 2 (fst (stage_src2 permute ins outs f flag which)) (snd (stage_src2 permute ins outs f flag which) r) g (getb BIn (M0 r))) /\
  (r < 2)%nat /\ inb2 p (snd (stage_dst2 permute ins outs f flag which) r) /\ 0 <= q < 2 /\
  may_end_with 2 (only_one_remap2 8 f flag which BIn BOut) M0 r BOut
    (cell2 2 (fst (stage_dst2 permute ins outs f flag which)) (snd (stage_dst2 permute ins outs f flag which) r) p q) w /\ w <> g p q.

Definition inb2b (p : pt2) (b : box2) : bool :=
  let '(i, j) := p in (ilo2 b <=? i) && (i <=? ihi2 b) && (jlo2 b <=? j) && (j <=? jhi2 b).
Lemma inb2b_ok p b : inb2b p b = true -> inb2 p b.
Proof. destruct p as [i j]. unfold inb2b, inb2. rewrite !andb_true_iff, !Z.leb_le. lia. Qed.

Lemma stage_layout_2 ar n st N permute ins outs f flag which : ready2 8 ar n st N permute ins outs f -> layout2 f (snd (stage_src2 permute ins outs f flag which)).
Proof.
  intros Hr. pose proof (ready_facts2 _ _ _ _ _ _ _ _ _ Hr) as FA. pose proof (L_in2 _ _ _ _ _ _ _ FA). pose proof (L_out2 _ _ _ _ _ _ _ FA).
  pose proof (L_fast2 f). pose proof (L_slow2 f).
  unfold stage_src2. destruct (fwdpath2 f flag); destruct (which =? 1), (which =? 2), (which =? 3); cbn [snd]; assumption.
Qed.

Lemma one_wrong_by_2 st permute ins outs flag which r p q :
  flag_ok (st_pack st) -> tile_ok_2 ins -> tile_ok_2 outs -> (r < 2)%nat -> 0 <= q < 2 ->
  with_plan_2 st permute ins outs (fun f _ =>
    let src := stage_src2 permute ins outs f flag which in
    let dst := stage_dst2 permute ins outs f flag which in
    inb2b p (snd dst r) && one_check_2 f flag which (fst src) (snd src) r (cell2 2 (fst dst) (snd dst r) p q) (fld exG_2 p q)) = true ->
  one_wrong_2 st flag which.
Proof.
  intros Hp Ti To Hrn Hq H. apply with_plan_inv_2 in H as (f & P & Es & _ & H). cbv zeta in H. apply andb_prop in H as (H1 & H2).
  apply inb2b_ok in H1. apply one_inv_2 in H2 as (w & Hw & Hne).
  pose proof (ex_ready_2 st permute ins outs f Hp Ti To Es) as Hr. pose proof (stage_layout_2 _ _ _ _ _ _ _ _ flag which Hr) as Hl.
  exists permute, ins, outs, f, (exM_2 f (fst (stage_src2 permute ins outs f flag which)) (snd (stage_src2 permute ins outs f flag which))), (fld exG_2), r, p, q, w.
  split; [exact Hr|]. split; [eapply ex_room_2; eauto; left; reflexivity|]. split; [eapply ex_room_2; eauto; right; reflexivity|].
  split; [intros r' _; apply ex_holds_2|]. auto.
Qed.

(** exchange=1 and a middle stage; no remap at the outer stages *)
Lemma C31_refuted_proof_2 : one_wrong_2 (mkset 2 1 2) BACKWARD 2 /\
  one_wrong_2 (mkset 2 0 2) FORWARD 1 /\ one_wrong_2 (mkset 2 0 2) FORWARD 3 /\
  one_wrong_2 (mkset 2 0 2) BACKWARD 1 /\ one_wrong_2 (mkset 2 0 2) BACKWARD 3.
Proof.
  split; [|split; [|split; [|split]]].
  - apply (one_wrong_by_2 _ 0 isplit2 split2 _ _ 0%nat (1, 0) 0); [right; right; reflexivity|apply tile_isplit_2|apply tile_split_2|lia|lia|vm_compute; reflexivity].
  - apply (one_wrong_by_2 _ 0 split2 isplit2 _ _ 0%nat (1, 0) 0); [right; right; reflexivity|apply tile_split_2|apply tile_isplit_2|lia|lia|vm_compute; reflexivity].
  - apply (one_wrong_by_2 _ 1 split2 isplit2 _ _ 0%nat (0, 0) 0); [right; right; reflexivity|apply tile_split_2|apply tile_isplit_2|lia|lia|vm_compute; reflexivity].
  - apply (one_wrong_by_2 _ 0 split2 isplit2 _ _ 0%nat (0, 0) 0); [right; right; reflexivity|apply tile_split_2|apply tile_isplit_2|lia|lia|vm_compute; reflexivity].
  - apply (one_wrong_by_2 _ 1 split2 isplit2 _ _ 0%nat (0, 1) 0); [right; right; reflexivity|apply tile_split_2|apply tile_isplit_2|lia|lia|vm_compute; reflexivity].
Qed.

(** only_remaps out of place without the first remap *)
Lemma C30_refuted_proof_2 : exists st permute ins outs f (M0 : nat -> @rmem Z) g r p q w,
  ready2 8 exact_areas 2 st sq2 permute ins outs f /\ arrays_ok2 f BIn M0 /\ arrays_ok2 f BOut M0 /\
  (forall r, (r < 2)%nat -> holds2 2 0 (ins r) g (getb BIn (M0 r))) /\
  (r < 2)%nat /\ inb2 p (outs r) /\ 0 <= q < 2 /\
  may_end_with 2 (only_remaps2 8 f FORWARD BIn BOut) M0 r BOut (cell2 2 permute (outs r) p q) w /\ w <> g p q.
Proof.
  destruct (with_plan_inv_2 (mkset 2 0 2) 0 split2 isplit2 (fun f P =>
     let s := final 2 (only_remaps2 8 f FORWARD BIn BOut) (exM_2 f 0 split2) in
     doneb s && neqb (cell_of s 1%nat BOut (cell2 2 0 (isplit2 1%nat) (1, 1) 0)) (Some (fld exG_2 (1, 1) 0))))
    as (f & P & Es & EP & Hk); [vm_compute; reflexivity|].
  cbv zeta in Hk. apply andb_prop in Hk as (Hk & Hn). apply neqb_inv in Hn as (w & v & E1 & E2 & Hne). injection E2 as <-.
  assert (Hr : ready2 8 exact_areas 2 (mkset 2 0 2) sq2 0 split2 isplit2 f) by (apply ex_ready_2; [right; right; reflexivity|apply tile_split_2|apply tile_isplit_2|exact Es]).
  pose proof (L_in2 _ _ _ _ _ _ _ (ready_facts2 _ _ _ _ _ _ _ _ _ Hr)) as Hl.
  exists (mkset 2 0 2), 0, split2, isplit2, f, (exM_2 f 0 split2), (fld exG_2), 1%nat, (1, 1), 0, w.
  split; [exact Hr|]. split; [eapply ex_room_2; eauto; left; reflexivity|]. split; [eapply ex_room_2; eauto; right; reflexivity|].
  split; [intros r _; apply ex_holds_2|]. split; [lia|]. split; [cbn; lia|]. split; [lia|]. split; [|exact Hne].
  apply final_ends; assumption.
Qed.

(** ** examples: the calls that go right, run *)
(** the transform of [exG_2], straight from the sum; the roots are 1 and -1 *)
Definition plain_sum_2 (x : pt2 -> Z * Z) (p : pt2) : Z * Z :=
  let '(i, j) := p in
  let s := fun sel => sumZ (fun a => sumZ (fun b => (if Z.even (a * i + b * j) then 1 else -1) * sel (x (a, b)))) in
  (s fst, s snd).
(** after the call array [b] of every rank starts with the field [g], tile by tile *)
Definition ends_as_2 (f : fft2) (code : nat -> list (@instr Z)) (perm0 : Z) (lay0 : nat -> box2) (b : bsel) (perm : Z) (lay : nat -> box2) (g : pt2 -> Z * Z) : bool :=
  let s := final 2 code (exM_2 f perm0 lay0) in
  doneb s && forallb (fun r => match nth_error (mems_of s) r with
     | Some m => same_list (firstn (length (fillA_2 0 2 perm (lay r) (fld g))) (getb b m)) (fillA_2 0 2 perm (lay r) (fld g))
     | None => false end) [0%nat; 1%nat].
(** settings and layouts tried *)
Definition all_lays_2 : list ((nat -> box2) * (nat -> box2)) := [(split2, isplit2); (isplit2, split2); (whole2, isplit2); (split2, split2); (isplit2, whole2)].
Definition tryall_2 (sets : list settings) (k : Z -> (nat -> box2) -> (nat -> box2) -> fft2 -> @plans2 Z -> bool) : bool :=
  forallb (fun st => forallb (fun perm => forallb (fun io => with_plan_2 st perm (fst io) (snd io) (k perm (fst io) (snd io))) all_lays_2) [0; 1]) sets.
(** the memories used meet the hypotheses of the theorems (here for real numbers) *)
Definition start_ok_2 (st : settings) (permute : Z) (ins outs : nat -> box2) (flag : Z) : Prop :=
  exists f (M0 : nat -> @rmem R) x, ready2 8 exact_areas 2 st sq2 permute ins outs f /\ arrays_ok2 f BIn M0 /\ arrays_ok2 f BOut M0 /\
  forall r, (r < 2)%nat -> holds2 2 (src_perm2 permute f flag) (src_lay2 ins outs f flag r) (fld x) (getb BIn (M0 r)).
Lemma start_ok_by_2 st permute ins outs flag : flag_ok (st_pack st) -> tile_ok_2 ins -> tile_ok_2 outs ->
  with_plan_2 st permute ins outs (fun f _ => true) = true -> start_ok_2 st permute ins outs flag.
Proof.
  intros Hp Ti To H. apply with_plan_inv_2 in H as (f & P & Es & _ & H). pose proof (ex_ready_2 st permute ins outs f Hp Ti To Es) as Hr.
  pose (x := fun p => (IZR (fst (exG_2 p)), IZR (snd (exG_2 p)))).
  exists f, (exMem_2 IZR x f (src_perm2 permute f flag) (src_lay2 ins outs f flag)), x. split; [exact Hr|].
  assert (Hl : layout2 f (src_lay2 ins outs f flag)).
  { unfold src_lay2. pose proof (ready_facts2 _ _ _ _ _ _ _ _ _ Hr) as FA. destruct (fwdpath2 f flag); [eapply L_in2; eauto|eapply L_out2; eauto]. }
  split; [eapply ex_room_2; eauto; left; reflexivity|]. split; [eapply ex_room_2; eauto; right; reflexivity|].
  intros r _. apply ex_holds_2.
Qed.

Lemma C25_runs_2 : tryall_2 all_sets (fun perm ins outs f P =>
    ends_as_2 f (compute2 Zops normZ 8 f P true false FORWARD BIn BIn) 0 ins BIn perm outs (plain_sum_2 exG_2)) = true /\
  start_ok_2 (mkset 2 1 2) 1 split2 isplit2 FORWARD.
Proof. split; [vm_compute; reflexivity|]. apply start_ok_by_2; [right; right; reflexivity|apply tile_split_2|apply tile_isplit_2|vm_compute; reflexivity]. Qed.
Definition times_2 (c : Z) (x : pt2 -> Z * Z) (p : pt2) : Z * Z := (c * fst (x p), c * snd (x p)).
Lemma C26_runs_2 : tryall_2 all_sets (fun perm ins outs f P =>
    ends_as_2 f (compute2 Zops normZ 8 f P false false BACKWARD BIn BIn) perm outs BIn 0 ins (plain_sum_2 exG_2)) = true /\
  forallb (fun st => with_plan_2 st 1 split2 isplit2 (fun f P =>
    ends_as_2 f (compute2 Zops normZ 8 f P true false BACKWARD BIn BIn) 1 isplit2 BIn 0 split2 (times_2 (normZ 4) (plain_sum_2 exG_2)))) all_sets = true /\
  start_ok_2 (mkset 1 1 1) 1 split2 isplit2 BACKWARD /\ (forall r, (r < 2)%nat -> psize2 (split2 r) <= psize2 (isplit2 r)).
Proof.
  split; [vm_compute; reflexivity|]. split; [vm_compute; reflexivity|]. split.
  - apply start_ok_by_2; [right; left; reflexivity|apply tile_split_2|apply tile_isplit_2|vm_compute; reflexivity].
  - intros [|[|r]] H; try lia; vm_compute; discriminate.
Qed.
Lemma C27_runs_2 : tryall_2 all_sets (fun perm ins outs f P =>
    ends_as_2 f (fun r => compute2 Zops normZ 8 f P true false FORWARD BIn BIn r ++ compute2 Zops normZ 8 f P false false BACKWARD BIn BIn r) 0 ins BIn 0 ins (times_2 4 exG_2)) = true.
Proof. vm_compute; reflexivity. Qed.
Lemma C28_runs_2 :
  forallb (fun st => with_plan_2 st 1 isplit2 split2 (fun f P => fwdpath2 f FORWARD && t_pre f &&
    ends_as_2 f (compute2 Zops normZ 8 f P true false FORWARD BIn BOut) 0 isplit2 BOut 1 split2 (plain_sum_2 exG_2) &&
    ends_as_2 f (compute2 Zops normZ 8 f P true false FORWARD BIn BOut) 0 isplit2 BIn 0 isplit2 exG_2)) all_sets = true /\
  forallb (fun st => with_plan_2 st 0 split2 isplit2 (fun f P => negb (fwdpath2 f BACKWARD) && t_post f && negb (t_pre f) &&
    ends_as_2 f (compute2 Zops normZ 8 f P false false BACKWARD BIn BOut) 0 isplit2 BOut 0 split2 (plain_sum_2 exG_2) &&
    ends_as_2 f (compute2 Zops normZ 8 f P false false BACKWARD BIn BOut) 0 isplit2 BIn 0 isplit2 exG_2)) all_sets = true /\
  start_ok_2 (mkset 0 1 2) 1 isplit2 split2 FORWARD /\ start_ok_2 (mkset 0 0 2) 0 split2 isplit2 BACKWARD.
Proof.
  split; [vm_compute; reflexivity|]. split; [vm_compute; reflexivity|].
  split; apply start_ok_by_2; try (right; right; reflexivity); try apply tile_split_2; try apply tile_isplit_2; vm_compute; reflexivity.
Qed.
Lemma C29_runs_2 : start_ok_2 (mkset 2 1 2) 1 split2 isplit2 FORWARD /\ start_ok_2 (mkset 0 0 0) 1 split2 isplit2 FORWARD /\
  start_ok_2 (mkset 1 1 1) 1 split2 isplit2 BACKWARD /\ start_ok_2 (mkset 0 0 0) 1 split2 isplit2 BACKWARD.
Proof. repeat split; apply start_ok_by_2; try (left; reflexivity); try (right; left; reflexivity); try (right; right; reflexivity); try apply tile_split_2; try apply tile_isplit_2; vm_compute; reflexivity. Qed.
Lemma C30_runs_2 : tryall_2 all_sets (fun perm ins outs f P =>
    ends_as_2 f (compute2 Zops normZ 8 f P true true FORWARD BIn BIn) 0 ins BIn perm outs exG_2 &&
    ends_as_2 f (only_remaps2 8 f FORWARD BIn BIn) 0 ins BIn perm outs exG_2) = true /\
  tryall_2 all_sets (fun perm ins outs f P =>
    ends_as_2 f (compute2 Zops normZ 8 f P true true BACKWARD BIn BIn) perm outs BIn 0 ins exG_2 &&
    ends_as_2 f (fun r => only_remaps2 8 f FORWARD BIn BIn r ++ only_remaps2 8 f BACKWARD BIn BIn r) 0 ins BIn 0 ins exG_2) = true.
Proof. split; vm_compute; reflexivity. Qed.
Lemma C31_runs_2 : forallb (fun w => forallb (fun flag => tryall_2 all_sets (fun perm ins outs f P =>
    let src := stage_src2 perm ins outs f flag w in let dst := stage_dst2 perm ins outs f flag w in
    ends_as_2 f (only_one_remap2 8 f flag w BIn BIn) (fst src) (snd src) BIn (fst dst) (snd dst) exG_2)) [FORWARD; BACKWARD]) [1; 2; 3] = true /\
  with_plan_2 (mkset 2 0 2) 1 isplit2 split2 (fun f P => t_pre f && t_post f && forallb (fun w =>
    let src := stage_src2 1 isplit2 split2 f FORWARD w in let dst := stage_dst2 1 isplit2 split2 f FORWARD w in
    ends_as_2 f (only_one_remap2 8 f FORWARD w BIn BOut) (fst src) (snd src) BOut (fst dst) (snd dst) exG_2) [1; 2; 3]) = true.
Proof. split; vm_compute; reflexivity. Qed.

(** a history of calls on one plan *)
Definition exCalls_2 : list call3 :=
  [mkcall3 true false FORWARD BIn BIn; mkcall3 true false FORWARD BOut BOut; mkcall3 false false BACKWARD BIn BIn; mkcall3 true true FORWARD BIn BOut; mkcall3 false false BACKWARD BOut BOut].
Lemma C37_runs_2 : exists f P (M0 : nat -> @rmem Z), ready2 8 exact_areas 2 (mkset 2 0 2) sq2 1 isplit2 split2 f /\ setup_ffts2 cexpZ sq2 = Some P /\
  Forall (tcall_ok2 f M0) exCalls_2 /\
  ends_as_2 f (together (map (tcall_code2 Zops normZ 8 f P) (firstn 3 exCalls_2))) 0 isplit2 BIn 0 isplit2 (times_2 4 exG_2) = true.
Proof.
  destruct (with_plan_inv_2 (mkset 2 0 2) 1 isplit2 split2 (fun f P => t_pre f && negb (t_same f) &&
      ends_as_2 f (together (map (tcall_code2 Zops normZ 8 f P) (firstn 3 exCalls_2))) 0 isplit2 BIn 0 isplit2 (times_2 4 exG_2)))
    as (f & P & Es & EP & H); [vm_compute; reflexivity|].
  apply andb_prop in H as (H & H3). apply andb_prop in H as (H1 & H2). apply negb_true_iff in H2.
  assert (Hr : ready2 8 exact_areas 2 (mkset 2 0 2) sq2 1 isplit2 split2 f) by (apply ex_ready_2; [right; right; reflexivity|apply tile_isplit_2|apply tile_split_2|exact Es]).
  pose proof (L_in2 _ _ _ _ _ _ _ (ready_facts2 _ _ _ _ _ _ _ _ _ Hr)) as Hl.
  assert (R : forall b, isdata b -> arrays_ok2 f b (exM_2 f 0 isplit2)).
  { intros b Hb. eapply ex_room_2; eauto. }
  exists f, P, (exM_2 f 0 isplit2). split; [exact Hr|]. split; [exact EP|]. split; [|exact H3].
  assert (Di : isdata BIn) by (left; reflexivity). assert (Do : isdata BOut) by (right; reflexivity).
  assert (In1 : forall s o flag b, isdata b -> tcall_ok2 f (exM_2 f 0 isplit2) (mkcall3 s o flag b b)).
  { intros s o flag b Hb. split; [exact Hb|]. split; [exact Hb|]. split; [left; reflexivity|]. split; apply R, Hb. }
  unfold exCalls_2. apply Forall_cons; [apply In1, Di|]. apply Forall_cons; [apply In1, Do|]. apply Forall_cons; [apply In1, Di|].
  apply Forall_cons; [|apply Forall_cons; [apply In1, Do|constructor]].
  split; [exact Di|]. split; [exact Do|]. split; [right; exact H1|]. split; [apply R, Di|apply R, Do].
Qed.
