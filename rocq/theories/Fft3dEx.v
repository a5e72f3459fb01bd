(** Fft3dEx.v : runs of the 3d model on a 2 x 2 x 2 grid: examples, and witnesses
    of the calls that go wrong. Integer scalars are exact here: the transform of
    length 2 only multiplies by 1 and -1. *)

From Coq Require Import Reals Lra.
From Verif Require Import Base Spec Pack3d Sched SchedProofs Phases Exec Remap RemapMain RemapInst
  Remap3d RemapThms RemapTop ExRemap Layout LayoutProofs Setup3d Setup3dProofs LayoutFinal Kiss KissPure KissAlg KissReal Fft1d KissFinal
  Fft3d Frame Fft3dProofs Fft3dMain DftMulti Fft3dTop Fft3dFinal.
Local Open Scope Z_scope.

(** ** executions found by running *)
Section Run.
Context {A : Type}.
Lemma first_ok_step n ls (s s' : @gstate A) : first_ok n ls s = Some s' -> exists a, step n strict a s = Ok s'.
Proof.
  induction ls as [|a t IH]; cbn; [discriminate|]. destruct (step n (fun _ _ => false) a s) as [| |s1] eqn:E; intros H; auto.
  injection H as ->. exists a. exact E.
Qed.
Lemma drive_run fuel n : forall s : @gstate A, exists l, run n strict s l (drive fuel n s).
Proof.
  induction fuel as [|k IH]; intros s; cbn [drive]; [exists []; constructor|].
  destruct (first_ok n (labels_of n) s) as [s1|] eqn:E; [|exists []; constructor].
  destruct (first_ok_step _ _ _ _ E) as (a & Ea). destruct (IH s1) as (l & Hl). exists (a :: l). econstructor; eassumption.
Qed.
Definition doneb (s : @gstate A) : bool :=
  forallb (fun c => match c_prog c, c_reqs c with [], [] => negb (c_busy c) | _, _ => false end) (s_core s).
Lemma doneb_ok s : doneb s = true -> all_done s.
Proof.
  intros H c Hc. unfold doneb in H. rewrite forallb_forall in H. specialize (H c Hc).
  unfold core_done. destruct (c_prog c), (c_reqs c); try discriminate. destruct (c_busy c); [discriminate|auto].
Qed.
Definition badb (n : nat) (s : @gstate A) : bool :=
  existsb (fun a => match step n strict a s with Bad => true | _ => false end) (labels_of n).
Lemma badb_ok n s : badb n s = true -> exists a, step n strict a s = Bad.
Proof.
  unfold badb. intros H. apply existsb_exists in H as (a & _ & H). exists a. destruct (step n strict a s); try discriminate. reflexivity.
Qed.
Definition final (n : nat) (code : nat -> list instr) (M0 : nat -> @rmem A) : gstate := drive 3000 n (start n code M0).

(** some execution of [code] ends, and leaves [v] in cell [c] of array [b] of rank [r] *)
Definition may_end_with (n : nat) (code : nat -> list instr) (M0 : nat -> @rmem A) (r : nat) (b : bsel) (c : Z) (v : A) : Prop :=
  exists labels s m, run n strict (start n code M0) labels s /\ all_done s /\ nth_error (mems_of s) r = Some m /\ zget (getb b m) c = Some v.
(** some execution of [code] reaches undefined behaviour *)
Definition may_go_wrong (n : nat) (code : nat -> list instr) (M0 : nat -> @rmem A) : Prop :=
  exists labels s a, run n strict (start n code M0) labels s /\ step n strict a s = Bad.

Definition cell_of (s : @gstate A) (r : nat) (b : bsel) (c : Z) : option A :=
  match nth_error (mems_of s) r with Some m => zget (getb b m) c | None => None end.
Lemma final_ends n code M0 r b c v : doneb (final n code M0) = true -> cell_of (final n code M0) r b c = Some v ->
  may_end_with n code M0 r b c v.
Proof.
  intros Hd Hc. unfold cell_of in Hc. destruct (nth_error (mems_of (final n code M0)) r) as [m|] eqn:E; [|discriminate].
  destruct (drive_run 3000 n (start n code M0)) as (l & Hl). exists l, (final n code M0), m.
  split; [exact Hl|]. split; [apply doneb_ok, Hd|]. auto.
Qed.
Lemma final_bad n code M0 : badb n (final n code M0) = true -> may_go_wrong n code M0.
Proof.
  intros H. apply badb_ok in H as (a & Ha). destruct (drive_run 3000 n (start n code M0)) as (l & Hl). exists l, (final n code M0), a. auto.
Qed.
End Run.

(** ** scalars and memories *)
Definition Zops : sops Z := mksops Z 0 1 Z.add Z.sub Z.mul Z.opp (fun x => x / 2).
(** exp(-+ 2 pi i a / 2); only lengths 2 are used below *)
Definition cexpZ (inv : bool) (a n : Z) : Z * Z := if Z.even a then (1, 0) else (-1, 0).
Lemma cexpZ_real inv a : 0 <= a < 2 -> cexpR inv a 2 = (IZR (fst (cexpZ inv a 2)), IZR (snd (cexpZ inv a 2))).
Proof.
  intros Ha. pose proof (cexpR_roots inv 2 ltac:(lia)) as W. assert (a = 0 \/ a = 1) as [-> | ->] by lia; cbn.
  - exact (R_0 _ _ _ _ W).
  - etransitivity; [exact (R_2 _ _ _ _ W 1 eq_refl)|]. unfold c_opp, c_one. cbn. f_equal; ring.
Qed.

Definition exG (p : pt3) : Z * Z := let '(i, j, k) := p in (100 + 31 * i + 17 * j * j + 5 * k + i * k, 7 * i - 3 * j + 2 * k + 1).
(** storage of a field on a tile *)
Definition fillA {A} (d : A) (nq perm : Z) (b : box3) (g : pt3 -> Z -> A) : list A :=
  map (fun c => match find (fun e => cell3 nq perm b (fst e) (snd e) =? c) (elems3 nq b) with Some e => g (fst e) (snd e) | None => d end)
      (zrange (nq * vol3 b)).
Lemma fillA_holds {A} (d : A) nq perm b g : 0 < nq -> holds3 nq perm b g (fillA d nq perm b g).
Proof.
  intros Hq p q Hp Hqq. unfold fillA. pose proof (cell3_bound nq perm b p q Hp Hqq) as Hc.
  rewrite (vol3_pos b p Hp).
  rewrite zget_map, zget_zrange by lia. cbn [option_map]. f_equal.
  destruct (find (fun e => cell3 nq perm b (fst e) (snd e) =? cell3 nq perm b p q) (elems3 nq b)) as [e|] eqn:Ef.
  - apply find_some in Ef as (Hi & He). apply In_elems3 in Hi; [|lia]. apply Z.eqb_eq in He. destruct Hi as (H1 & H2).
    destruct (cell3_inj nq perm b _ _ _ _ H1 Hp H2 Hqq He) as (-> & ->). reflexivity.
  - exfalso. assert (Hn := find_none _ _ Ef (p, q)). cbn in Hn. rewrite Z.eqb_refl in Hn. assert (true = false); [|discriminate].
    apply Hn, In_elems3; [lia|]. split; assumption.
Qed.

(** [in] holds the field on the source tiles; out and the buffers hold markers *)
Definition exMem {A} (mk : Z -> A) (G : pt3 -> A * A) (f : fft3) (perm : Z) (lay : nat -> box3) (r : nat) : @rmem A :=
  let l := fillA (mk (-1)) 2 perm (lay r) (fld G) in
  let mark := fun v k => map (fun _ => mk v) (zrange k) in
  mkmem (l ++ mark (-7) (2 * f_fftsize f r - zlen l)) (mark (-1) (2 * f_fftsize f r)) (mark (-2) (f_sendsize f r)) (mark (-3) (f_recvsize f r)).
Definition exM (f : fft3) (perm : Z) (lay : nat -> box3) (r : nat) : @rmem Z := exMem (fun v => v) exG f perm lay r.

Definition g2 : Z * Z * Z := (2, 2, 2).
Definition exSetup (st : settings) (permute : Z) (ins outs : nat -> box3) := setup3d exact_areas 2 st g2 permute ins outs.

Lemma ex_plan : exists P, setup_ffts3 cexpZ g2 = Some P.
Proof. destruct (setup_ffts3 cexpZ g2) as [P|] eqn:E; [exists P; reflexivity|vm_compute in E; discriminate]. Qed.

Definition tile_ok (t : nat -> box3) : Prop := tiling3 2 g2 t /\ forall r, (r < 2)%nat -> legal3 (t r).
Lemma tile_whole : tile_ok whole3.
Proof. split; [exact whole3_tiling|]. intros [|[|r]] H; try lia; unfold legal3, ni, nj, nk; cbn; lia. Qed.
Lemma tile_isplit : tile_ok isplit3.
Proof. split; [exact isplit3_tiling|]. intros [|[|r]] H; try lia; unfold legal3, ni, nj, nk; cbn; lia. Qed.
Lemma tile_split : tile_ok split3.
Proof. split; [exact split3_tiling|]. intros [|[|r]] H; try lia; unfold legal3, ni, nj, nk; cbn; lia. Qed.

Lemma ex_ready st permute ins outs f : flag_ok (st_pack st) -> tile_ok ins -> tile_ok outs -> exSetup st permute ins outs = SOk f ->
  ready3 exact_areas 2 st g2 permute ins outs f.
Proof.
  intros Hp (T1 & _) (T2 & L2) E. split; [exact exact_laws|]. split; [lia|]. split; [unfold ints3, g2, INT_MAX; lia|].
  split; [exact Hp|]. split; [exact T1|]. split; [exact T2|]. split; [exact L2|exact E].
Qed.

Lemma zlen_mark {A} (v : A) k : 0 <= k -> zlen (map (fun _ => v) (zrange k)) = k.
Proof. intros H. rewrite zlen_map, zlen_zrange. lia. Qed.

Lemma maxsizes_nonneg g l r : 0 <= maxsizes g l r.
Proof.
  unfold maxsizes. assert (H : forall l a, 0 <= a -> 0 <= fold_left (fun s m => Z.max s (g m r)) l a).
  { induction l0 as [|x t IH]; intros a Ha; cbn; [exact Ha|]. apply IH. lia. }
  apply H. lia.
Qed.

Lemma ex_room {A} (mk : Z -> A) G st permute ins outs f perm lay b : ready3 exact_areas 2 st g2 permute ins outs f -> layout3 f lay -> isdata b ->
  arrays_ok f b (exMem mk G f perm lay).
Proof.
  intros Hr Hl Hb r Hrn. pose proof (ready_facts _ _ _ _ _ _ _ _ Hr) as FA.
  rewrite (F_n _ _ _ _ _ _ _ FA) in Hrn.
  assert (0 <= f_sendsize f r /\ 0 <= f_recvsize f r).
  { rewrite (F_sendsize _ _ _ _ _ _ _ FA), (F_recvsize _ _ _ _ _ _ _ FA). split; apply maxsizes_nonneg. }
  pose proof (layout_fftsize _ _ _ _ _ _ _ FA lay r Hl Hrn) as Hv.
  assert (0 <= vol3 (lay r)) by (unfold vol3; nia).
  assert (Ez : zlen (fillA (mk (-1)) 2 perm (lay r) (fld G)) = 2 * vol3 (lay r)) by (unfold fillA; rewrite zlen_map, zlen_zrange; lia).
  unfold exMem. cbn [m_send m_recv]. rewrite !zlen_mark by lia. split; [|lia].
  destruct Hb as [-> | ->]; cbn [getb m_in m_out].
  - rewrite zlen_app, Ez, zlen_mark by lia. lia.
  - rewrite zlen_mark by lia. lia.
Qed.

Lemma ex_holds {A} (mk : Z -> A) G f perm lay r : holds3 2 perm (lay r) (fld G) (m_in (exMem mk G f perm lay r)).
Proof.
  intros p q Hp Hq. unfold exMem. cbn [m_in]. pose proof (fillA_holds (mk (-1)) 2 perm (lay r) (fld G) ltac:(lia) p q Hp Hq) as H.
  rewrite zget_app. pose proof (zget_inv _ _ _ H). destruct (Z.ltb_spec (cell3 2 perm (lay r) p q) (zlen (fillA (mk (-1)) 2 perm (lay r) (fld G)))); [exact H|lia].
Qed.

(** ** the failing calls *)
Definition normZ (k : Z) : Z := 1000 + k.

Definition with_plan (st : settings) (permute : Z) (ins outs : nat -> box3) (k : fft3 -> @plans3 Z -> bool) : bool :=
  match exSetup st permute ins outs, setup_ffts3 cexpZ g2 with SOk f, Some P => k f P | _, _ => false end.
Lemma with_plan_inv st permute ins outs k : with_plan st permute ins outs k = true ->
  exists f P, exSetup st permute ins outs = SOk f /\ setup_ffts3 cexpZ g2 = Some P /\ k f P = true.
Proof.
  unfold with_plan. destruct (exSetup st permute ins outs) as [| |f]; try discriminate. destruct (setup_ffts3 cexpZ g2) as [P|]; [|discriminate].
  intros H. exists f, P. auto.
Qed.

Definition neqb (a b : option Z) : bool := match a, b with Some x, Some y => negb (x =? y) | _, _ => false end.
Lemma neqb_inv a b : neqb a b = true -> exists x y, a = Some x /\ b = Some y /\ x <> y.
Proof. destruct a as [x|], b as [y|]; try discriminate. cbn. intros H. exists x, y. split; [reflexivity|]. split; [reflexivity|]. intros ->. rewrite Z.eqb_refl in H. discriminate. Qed.

(** the in-place and the out-of-place call end with different values in cell [c] of rank [r] *)
Definition oop_check (f : fft3) (P : @plans3 Z) (flag perm : Z) (lay : nat -> box3) (r : nat) (c : Z) : bool :=
  let M := exM f perm lay in
  let s1 := final 2 (compute3 Zops normZ f P false false flag BIn BIn) M in
  let s2 := final 2 (compute3 Zops normZ f P false false flag BIn BOut) M in
  doneb s1 && doneb s2 && neqb (cell_of s1 r BIn c) (cell_of s2 r BOut c).
Lemma oop_inv f P flag perm lay r c : oop_check f P flag perm lay r c = true ->
  exists v w, may_end_with 2 (compute3 Zops normZ f P false false flag BIn BIn) (exM f perm lay) r BIn c v /\
    may_end_with 2 (compute3 Zops normZ f P false false flag BIn BOut) (exM f perm lay) r BOut c w /\ v <> w.
Proof.
  unfold oop_check. intros H. apply andb_prop in H as (H & H3). apply andb_prop in H as (H1 & H2).
  apply neqb_inv in H3 as (v & w & E1 & E2 & Hne). exists v, w. split; [apply final_ends; assumption|]. split; [apply final_ends; assumption|exact Hne].
Qed.

(** out of place, forward, no remap into the fast layout: only half of the input is copied *)
Lemma C28_forward_refuted_proof : exists st permute ins outs f P (M0 : nat -> @rmem Z) G r p q v w,
  ready3 exact_areas 2 st g2 permute ins outs f /\ setup_ffts3 cexpZ g2 = Some P /\ arrays_ok f BIn M0 /\ arrays_ok f BOut M0 /\
  (forall r, (r < 2)%nat -> holds3 2 0 (ins r) (fld G) (getb BIn (M0 r))) /\
  (r < 2)%nat /\ inb3 p (outs r) /\ 0 <= q < 2 /\
  may_end_with 2 (compute3 Zops normZ f P false false FORWARD BIn BIn) M0 r BIn (cell3 2 permute (outs r) p q) v /\
  may_end_with 2 (compute3 Zops normZ f P false false FORWARD BIn BOut) M0 r BOut (cell3 2 permute (outs r) p q) w /\ v <> w.
Proof.
  destruct (with_plan_inv (mkset 2 0 2) 0 split3 isplit3 (fun f P => oop_check f P FORWARD 0 split3 0%nat (cell3 2 0 (isplit3 0%nat) (0, 0, 0) 0)))
    as (f & P & Es & EP & Hk); [vm_compute; reflexivity|].
  apply oop_inv in Hk as (v & w & Hv & Hw & Hne).
  assert (Hr : ready3 exact_areas 2 (mkset 2 0 2) g2 0 split3 isplit3 f) by (apply ex_ready; [right; right; reflexivity|apply tile_split|apply tile_isplit|exact Es]).
  pose proof (L_in _ _ _ _ _ _ _ (ready_facts _ _ _ _ _ _ _ _ Hr)) as Hl.
  exists (mkset 2 0 2), 0, split3, isplit3, f, P, (exM f 0 split3), exG, 0%nat, (0, 0, 0), 0, v, w.
  split; [exact Hr|]. split; [exact EP|]. split; [eapply ex_room; eauto; left; reflexivity|]. split; [eapply ex_room; eauto; right; reflexivity|].
  split; [intros r _; apply ex_holds|]. split; [lia|]. split; [cbn; lia|]. split; [lia|]. auto.
Qed.

(** out of place, backward, with a remap out of the fast layout: that remap reads [in] *)
Lemma C28_backward_refuted_proof : exists st permute ins outs f P (M0 : nat -> @rmem Z) G r p q v w,
  ready3 exact_areas 2 st g2 permute ins outs f /\ f_pre f = true /\ f_post f = true /\
  setup_ffts3 cexpZ g2 = Some P /\ room3 f BACKWARD BIn M0 /\ room3 f BACKWARD BOut M0 /\
  (forall r, (r < 2)%nat -> holds3 2 permute (outs r) (fld G) (getb BIn (M0 r))) /\
  (r < 2)%nat /\ inb3 p (ins r) /\ 0 <= q < 2 /\
  may_end_with 2 (compute3 Zops normZ f P false false BACKWARD BIn BIn) M0 r BIn (cell3 2 0 (ins r) p q) v /\
  may_end_with 2 (compute3 Zops normZ f P false false BACKWARD BIn BOut) M0 r BOut (cell3 2 0 (ins r) p q) w /\ v <> w.
Proof.
  destruct (with_plan_inv (mkset 2 0 2) 0 isplit3 split3 (fun f P => f_pre f && f_post f && oop_check f P BACKWARD 0 split3 0%nat (cell3 2 0 (isplit3 0%nat) (0, 0, 0) 0)))
    as (f & P & Es & EP & Hk); [vm_compute; reflexivity|].
  apply andb_prop in Hk as (Hf & Hk). apply andb_prop in Hf as (Hf1 & Hf2).
  apply oop_inv in Hk as (v & w & Hv & Hw & Hne).
  assert (Hr : ready3 exact_areas 2 (mkset 2 0 2) g2 0 isplit3 split3 f) by (apply ex_ready; [right; right; reflexivity|apply tile_isplit|apply tile_split|exact Es]).
  pose proof (L_out _ _ _ _ _ _ _ (ready_facts _ _ _ _ _ _ _ _ Hr)) as Hl.
  exists (mkset 2 0 2), 0, isplit3, split3, f, P, (exM f 0 split3), exG, 0%nat, (0, 0, 0), 0, v, w.
  split; [exact Hr|]. split; [exact Hf1|]. split; [exact Hf2|]. split; [exact EP|].
  split; [split; [eapply ex_room; eauto; left; reflexivity|intros _; eapply midfast_auto; eauto]|].
  split; [split; [eapply ex_room; eauto; right; reflexivity|intros _; eapply midfast_auto; eauto]|].
  split; [intros r _; apply ex_holds|]. split; [lia|]. split; [cbn; lia|]. split; [lia|]. auto.
Qed.

(** backward in place with exchange = 1: buffers sized by setup overflow *)
Lemma C26_overflow_refuted_proof : forall c, c = 0 \/ c = 1 \/ c = 2 ->
  exists ins outs f P (M0 : nat -> @rmem Z) G,
  ready3 exact_areas 2 (mkset c 1 0) g2 0 ins outs f /\ setup_ffts3 cexpZ g2 = Some P /\ arrays_ok f BIn M0 /\
  (forall r, (r < 2)%nat -> holds3 2 0 (outs r) (fld G) (getb BIn (M0 r))) /\
  may_go_wrong 2 (compute3 Zops normZ f P false false BACKWARD BIn BIn) M0.
Proof.
  intros c Hc.
  destruct (with_plan_inv (mkset c 1 0) 0 whole3 isplit3 (fun f P =>
     badb 2 (final 2 (compute3 Zops normZ f P false false BACKWARD BIn BIn) (exM f 0 isplit3))))
    as (f & P & Es & EP & Hk); [destruct Hc as [-> | [-> | ->]]; vm_compute; reflexivity|].
  assert (Hr : ready3 exact_areas 2 (mkset c 1 0) g2 0 whole3 isplit3 f) by (apply ex_ready; [left; reflexivity|apply tile_whole|apply tile_isplit|exact Es]).
  pose proof (L_out _ _ _ _ _ _ _ (ready_facts _ _ _ _ _ _ _ _ Hr)) as Hl.
  exists whole3, isplit3, f, P, (exM f 0 isplit3), exG.
  split; [exact Hr|]. split; [exact EP|]. split; [eapply ex_room; eauto; left; reflexivity|]. split; [intros r _; apply ex_holds|].
  apply final_bad, Hk.
Qed.

(** backward scaling stops after as many elements as the rank has on output *)
Lemma C26_scaling_refuted_proof : exists st ins outs f x (M0 : nat -> @rmem R) P r p v,
  ready3 exact_areas 2 st g2 0 ins outs f /\ setup_ffts3 cexpR g2 = Some P /\ room3 f BACKWARD BIn M0 /\
  (forall r, (r < 2)%nat -> holds3 2 0 (outs r) (fld x) (getb BIn (M0 r))) /\
  (r < 2)%nat /\ inb3 p (ins r) /\
  exec_all 2 (compute3 Rops rnormR f P true false BACKWARD BIn BIn) M0
      (fun r' m => r' = r -> zget (getb BIn m) (cell3 2 0 (ins r) p 0) = Some v) /\
  v <> (/ IZR (grid_points g2) * fst (DFT3 true g2 x p))%R.
Proof.
  destruct (with_plan_inv (mkset 0 0 0) 0 whole3 isplit3 (fun _ _ => true)) as (f & _ & Es & _ & _); [vm_compute; reflexivity|].
  assert (Hr : ready3 exact_areas 2 (mkset 0 0 0) g2 0 whole3 isplit3 f) by (apply ex_ready; [left; reflexivity|apply tile_whole|apply tile_isplit|exact Es]).
  pose (x := DFT3 false g2 (fun _ => (1, 0)%R)). pose (M0 := exMem IZR x f 0 isplit3).
  assert (Hro : room3 f BACKWARD BIn M0).
  { split; [eapply ex_room; eauto; [eapply L_out; eapply ready_facts; eauto|left; reflexivity]|intros _; eapply midfast_auto; eauto]. }
  assert (Hx : forall r, (r < 2)%nat -> holds3 2 0 (isplit3 r) (fld x) (getb BIn (M0 r))) by (intros r _; apply ex_holds).
  destruct (C26_proof exact_areas 2 (mkset 0 0 0) g2 0 whole3 isplit3 f BIn BIn M0 true x Hr (or_introl eq_refl) (or_introl eq_refl) (or_introl eq_refl)
     Hro Hx) as (P & HP & M' & K1 & K2).
  assert (E : DFT3 true g2 x (1, 1, 1) = (8, 0)%R).
  { pose proof (inverse3 false g2 (fun _ => (1, 0)%R) (1, 1, 1) ltac:(cbn; lia)) as H. cbn [negb] in H. unfold x. rewrite H. unfold rmulc. cbn. f_equal; ring. }
  exists (mkset 0 0 0), whole3, isplit3, f, x, M0, P, 0%nat, (1, 1, 1), 8%R.
  split; [exact Hr|]. split; [exact HP|]. split; [exact Hro|]. split; [exact Hx|]. split; [lia|]. split; [cbn; lia|]. split.
  - exists M'. split; [|exact K2]. intros r' Hr' ->. destruct (K1 0%nat ltac:(lia)) as (A & _).
    rewrite (A (1, 1, 1) 0); [|cbn; lia|lia]. unfold fld. rewrite E. unfold rmulc. cbn. f_equal. ring.
  - rewrite E. cbn. lra.
Qed.

(** only_one_remap with exchange = 1 and in <> out: the second half reads [in] *)
Definition one_check (f : fft3) (flag which perm : Z) (lay : nat -> box3) (r : nat) (c v : Z) : bool :=
  let s := final 2 (only_one_remap3 f flag which BIn BOut) (exM f perm lay) in
  doneb s && neqb (cell_of s r BOut c) (Some v).
Lemma one_inv f flag which perm lay r c v : one_check f flag which perm lay r c v = true ->
  exists w, may_end_with 2 (only_one_remap3 f flag which BIn BOut) (exM f perm lay) r BOut c w /\ w <> v.
Proof.
  unfold one_check. intros H. apply andb_prop in H as (H1 & H2). apply neqb_inv in H2 as (w & v' & E1 & E2 & Hne). injection E2 as <-.
  exists w. split; [apply final_ends; assumption|exact Hne].
Qed.

Definition one_wrong (st : settings) (flag which : Z) : Prop :=
  exists permute ins outs f (M0 : nat -> @rmem Z) g r p q w,
  ready3 exact_areas 2 st g2 permute ins outs f /\ arrays_ok f BIn M0 /\ arrays_ok f BOut M0 /\
  (forall r, (r < 2)%nat -> holds3 2 (fst (stage_src permute ins outs f flag which)) (snd (stage_src permute ins outs f flag which) r) g (getb BIn (M0 r))) /\
  (r < 2)%nat /\ inb3 p (snd (stage_dst permute ins outs f flag which) r) /\ 0 <= q < 2 /\
  may_end_with 2 (only_one_remap3 f flag which BIn BOut) M0 r BOut
    (cell3 2 (fst (stage_dst permute ins outs f flag which)) (snd (stage_dst permute ins outs f flag which) r) p q) w /\ w <> g p q.

Definition inb3b (p : pt3) (b : box3) : bool :=
  let '(i, j, k) := p in (ilo b <=? i) && (i <=? ihi b) && (jlo b <=? j) && (j <=? jhi b) && (klo b <=? k) && (k <=? khi b).
Lemma inb3b_ok p b : inb3b p b = true -> inb3 p b.
Proof. destruct p as [[i j] k]. unfold inb3b, inb3. rewrite !andb_true_iff, !Z.leb_le. lia. Qed.

Lemma stage_layout ar n st N permute ins outs f flag which : ready3 ar n st N permute ins outs f -> layout3 f (snd (stage_src permute ins outs f flag which)).
Proof.
  intros Hr. pose proof (ready_facts _ _ _ _ _ _ _ _ Hr) as FA. pose proof (L_in _ _ _ _ _ _ _ FA). pose proof (L_out _ _ _ _ _ _ _ FA).
  pose proof (L_fast f). pose proof (L_mid f). pose proof (L_slow f).
  unfold stage_src. destruct (fwdpath f flag); destruct (which =? 1), (which =? 2), (which =? 3), (which =? 4); cbn [snd]; assumption.
Qed.

Lemma one_wrong_by st permute ins outs flag which r p q :
  flag_ok (st_pack st) -> tile_ok ins -> tile_ok outs -> (r < 2)%nat -> 0 <= q < 2 ->
  with_plan st permute ins outs (fun f _ =>
    let src := stage_src permute ins outs f flag which in
    let dst := stage_dst permute ins outs f flag which in
    inb3b p (snd dst r) && one_check f flag which (fst src) (snd src) r (cell3 2 (fst dst) (snd dst r) p q) (fld exG p q)) = true ->
  one_wrong st flag which.
Proof.
  intros Hp Ti To Hrn Hq H. apply with_plan_inv in H as (f & P & Es & _ & H). cbv zeta in H. apply andb_prop in H as (H1 & H2).
  apply inb3b_ok in H1. apply one_inv in H2 as (w & Hw & Hne).
  pose proof (ex_ready st permute ins outs f Hp Ti To Es) as Hr. pose proof (stage_layout _ _ _ _ _ _ _ _ flag which Hr) as Hl.
  exists permute, ins, outs, f, (exM f (fst (stage_src permute ins outs f flag which)) (snd (stage_src permute ins outs f flag which))), (fld exG), r, p, q, w.
  split; [exact Hr|]. split; [eapply ex_room; eauto; left; reflexivity|]. split; [eapply ex_room; eauto; right; reflexivity|].
  split; [intros r' _; apply ex_holds|]. auto.
Qed.

(** exchange=1 and a middle stage; no remap at the outer stages *)
Lemma C31_refuted_proof : one_wrong (mkset 2 1 2) BACKWARD 3 /\
  one_wrong (mkset 2 0 2) FORWARD 1 /\ one_wrong (mkset 2 0 2) FORWARD 4 /\
  one_wrong (mkset 2 0 2) BACKWARD 1 /\ one_wrong (mkset 2 0 2) BACKWARD 4.
Proof.
  split; [|split; [|split; [|split]]].
  - apply (one_wrong_by _ 0 isplit3 split3 _ _ 0%nat (1, 0, 0) 0); [right; right; reflexivity|apply tile_isplit|apply tile_split|lia|lia|vm_compute; reflexivity].
  - apply (one_wrong_by _ 0 split3 isplit3 _ _ 0%nat (1, 1, 0) 0); [right; right; reflexivity|apply tile_split|apply tile_isplit|lia|lia|vm_compute; reflexivity].
  - apply (one_wrong_by _ 2 split3 isplit3 _ _ 0%nat (0, 0, 0) 0); [right; right; reflexivity|apply tile_split|apply tile_isplit|lia|lia|vm_compute; reflexivity].
  - apply (one_wrong_by _ 0 split3 isplit3 _ _ 0%nat (0, 0, 0) 0); [right; right; reflexivity|apply tile_split|apply tile_isplit|lia|lia|vm_compute; reflexivity].
  - apply (one_wrong_by _ 2 split3 isplit3 _ _ 0%nat (0, 1, 1) 0); [right; right; reflexivity|apply tile_split|apply tile_isplit|lia|lia|vm_compute; reflexivity].
Qed.

(** only_remaps out of place without the first remap *)
Lemma C30_refuted_proof : exists st permute ins outs f (M0 : nat -> @rmem Z) g r p q w,
  ready3 exact_areas 2 st g2 permute ins outs f /\ arrays_ok f BIn M0 /\ arrays_ok f BOut M0 /\
  (forall r, (r < 2)%nat -> holds3 2 0 (ins r) g (getb BIn (M0 r))) /\
  (r < 2)%nat /\ inb3 p (outs r) /\ 0 <= q < 2 /\
  may_end_with 2 (only_remaps3 f FORWARD BIn BOut) M0 r BOut (cell3 2 permute (outs r) p q) w /\ w <> g p q.
Proof.
  destruct (with_plan_inv (mkset 2 0 2) 0 split3 isplit3 (fun f P =>
     let s := final 2 (only_remaps3 f FORWARD BIn BOut) (exM f 0 split3) in
     doneb s && neqb (cell_of s 1%nat BOut (cell3 2 0 (isplit3 1%nat) (1, 1, 1) 0)) (Some (fld exG (1, 1, 1) 0))))
    as (f & P & Es & EP & Hk); [vm_compute; reflexivity|].
  cbv zeta in Hk. apply andb_prop in Hk as (Hk & Hn). apply neqb_inv in Hn as (w & v & E1 & E2 & Hne). injection E2 as <-.
  assert (Hr : ready3 exact_areas 2 (mkset 2 0 2) g2 0 split3 isplit3 f) by (apply ex_ready; [right; right; reflexivity|apply tile_split|apply tile_isplit|exact Es]).
  pose proof (L_in _ _ _ _ _ _ _ (ready_facts _ _ _ _ _ _ _ _ Hr)) as Hl.
  exists (mkset 2 0 2), 0, split3, isplit3, f, (exM f 0 split3), (fld exG), 1%nat, (1, 1, 1), 0, w.
  split; [exact Hr|]. split; [eapply ex_room; eauto; left; reflexivity|]. split; [eapply ex_room; eauto; right; reflexivity|].
  split; [intros r _; apply ex_holds|]. split; [lia|]. split; [cbn; lia|]. split; [lia|]. split; [|exact Hne].
  apply final_ends; assumption.
Qed.

(** ** examples: the calls that go right, run *)
(** the transform of [exG], straight from the sum; the roots are 1 and -1 *)
Definition sumZ (h : Z -> Z) : Z := h 0 + h 1.
Definition plain_sum (x : pt3 -> Z * Z) (p : pt3) : Z * Z :=
  let '(i, j, k) := p in
  let s := fun sel => sumZ (fun a => sumZ (fun b => sumZ (fun c => (if Z.even (a * i + b * j + c * k) then 1 else -1) * sel (x (a, b, c))))) in
  (s fst, s snd).
Definition same_list (a b : list Z) : bool := (zlen a =? zlen b) && forallb (fun p => fst p =? snd p) (combine a b).
(** after the call array [b] of every rank starts with the field [g], tile by tile *)
Definition ends_as (f : fft3) (code : nat -> list (@instr Z)) (perm0 : Z) (lay0 : nat -> box3) (b : bsel) (perm : Z) (lay : nat -> box3) (g : pt3 -> Z * Z) : bool :=
  let s := final 2 code (exM f perm0 lay0) in
  doneb s && forallb (fun r => match nth_error (mems_of s) r with
     | Some m => same_list (firstn (length (fillA 0 2 perm (lay r) (fld g))) (getb b m)) (fillA 0 2 perm (lay r) (fld g))
     | None => false end) [0%nat; 1%nat].
(** settings and layouts tried *)
Definition all_sets : list settings :=
  flat_map (fun c => flat_map (fun e => map (fun p => mkset c e p) [0; 1; 2]) [0; 1]) [0; 1; 2].
Definition safe_sets : list settings := map (fun c => mkset c 0 (2 - c)) [0; 1; 2].
Definition all_lays : list ((nat -> box3) * (nat -> box3)) := [(split3, isplit3); (isplit3, split3); (whole3, isplit3); (split3, split3); (isplit3, whole3)].
Definition tryall (sets : list settings) (k : Z -> (nat -> box3) -> (nat -> box3) -> fft3 -> @plans3 Z -> bool) : bool :=
  forallb (fun st => forallb (fun perm => forallb (fun io => with_plan st perm (fst io) (snd io) (k perm (fst io) (snd io))) all_lays) [0; 1; 2]) sets.
(** the memories used meet the hypotheses of the theorems (here for real numbers) *)
Definition start_ok (st : settings) (permute : Z) (ins outs : nat -> box3) (flag : Z) : Prop :=
  exists f (M0 : nat -> @rmem R) x, ready3 exact_areas 2 st g2 permute ins outs f /\ room3 f flag BIn M0 /\ room3 f flag BOut M0 /\
  forall r, (r < 2)%nat -> holds3 2 (src_perm permute f flag) (src_lay ins outs f flag r) (fld x) (getb BIn (M0 r)).
Lemma start_ok_by st permute ins outs flag : flag_ok (st_pack st) -> tile_ok ins -> tile_ok outs ->
  with_plan st permute ins outs (fun f _ => fwdpath f flag || (st_exch st =? 0)) = true -> start_ok st permute ins outs flag.
Proof.
  intros Hp Ti To H. apply with_plan_inv in H as (f & P & Es & _ & H). pose proof (ex_ready st permute ins outs f Hp Ti To Es) as Hr.
  pose (x := fun p => (IZR (fst (exG p)), IZR (snd (exG p)))).
  exists f, (exMem IZR x f (src_perm permute f flag) (src_lay ins outs f flag)), x. split; [exact Hr|].
  assert (Hm : fwdpath f flag = false -> forall M0 : nat -> @rmem R, midfast_ok f M0).
  { intros E M0. rewrite E in H. apply Z.eqb_eq in H. eapply midfast_auto; eauto. }
  assert (Hl : layout3 f (src_lay ins outs f flag)).
  { unfold src_lay. pose proof (ready_facts _ _ _ _ _ _ _ _ Hr) as FA. destruct (fwdpath f flag); [eapply L_in; eauto|eapply L_out; eauto]. }
  split; [split; [eapply ex_room; eauto; left; reflexivity|intros E; apply Hm, E]|].
  split; [split; [eapply ex_room; eauto; right; reflexivity|intros E; apply Hm, E]|].
  intros r _. apply ex_holds.
Qed.

Lemma C25_runs : tryall all_sets (fun perm ins outs f P =>
    ends_as f (compute3 Zops normZ f P true false FORWARD BIn BIn) 0 ins BIn perm outs (plain_sum exG)) = true /\
  start_ok (mkset 2 1 2) 1 split3 isplit3 FORWARD.
Proof. split; [vm_compute; reflexivity|]. apply start_ok_by; [right; right; reflexivity|apply tile_split|apply tile_isplit|vm_compute; reflexivity]. Qed.
Definition times (c : Z) (x : pt3 -> Z * Z) (p : pt3) : Z * Z := (c * fst (x p), c * snd (x p)).
Lemma C26_runs : tryall safe_sets (fun perm ins outs f P =>
    ends_as f (compute3 Zops normZ f P false false BACKWARD BIn BIn) perm outs BIn 0 ins (plain_sum exG)) = true /\
  forallb (fun st => with_plan st 1 split3 isplit3 (fun f P =>
    ends_as f (compute3 Zops normZ f P true false BACKWARD BIn BIn) 1 isplit3 BIn 0 split3 (times (normZ 8) (plain_sum exG)))) safe_sets = true /\
  start_ok (mkset 1 0 1) 1 split3 isplit3 BACKWARD /\ (forall r, (r < 2)%nat -> psize3 (split3 r) <= psize3 (isplit3 r)).
Proof.
  split; [vm_compute; reflexivity|]. split; [vm_compute; reflexivity|]. split.
  - apply start_ok_by; [right; left; reflexivity|apply tile_split|apply tile_isplit|vm_compute; reflexivity].
  - intros [|[|r]] H; try lia; vm_compute; discriminate.
Qed.
Lemma C27_runs : tryall safe_sets (fun perm ins outs f P =>
    ends_as f (fun r => compute3 Zops normZ f P true false FORWARD BIn BIn r ++ compute3 Zops normZ f P false false BACKWARD BIn BIn r) 0 ins BIn 0 ins (times 8 exG)) = true.
Proof. vm_compute; reflexivity. Qed.
Lemma C28_runs :
  forallb (fun st => with_plan st 1 isplit3 split3 (fun f P => fwdpath f FORWARD && f_pre f &&
    ends_as f (compute3 Zops normZ f P true false FORWARD BIn BOut) 0 isplit3 BOut 1 split3 (plain_sum exG) &&
    ends_as f (compute3 Zops normZ f P true false FORWARD BIn BOut) 0 isplit3 BIn 0 isplit3 exG)) all_sets = true /\
  forallb (fun st => with_plan st 1 split3 isplit3 (fun f P => negb (fwdpath f BACKWARD) && f_post f && negb (f_pre f) &&
    ends_as f (compute3 Zops normZ f P false false BACKWARD BIn BOut) 1 isplit3 BOut 0 split3 (plain_sum exG) &&
    ends_as f (compute3 Zops normZ f P false false BACKWARD BIn BOut) 1 isplit3 BIn 1 isplit3 exG)) safe_sets = true /\
  start_ok (mkset 0 1 2) 1 isplit3 split3 FORWARD /\ start_ok (mkset 0 0 2) 1 split3 isplit3 BACKWARD.
Proof.
  split; [vm_compute; reflexivity|]. split; [vm_compute; reflexivity|].
  split; apply start_ok_by; try (right; right; reflexivity); try apply tile_split; try apply tile_isplit; vm_compute; reflexivity.
Qed.
Lemma C29_runs : start_ok (mkset 2 1 2) 1 split3 isplit3 FORWARD /\ start_ok (mkset 0 0 0) 1 split3 isplit3 FORWARD /\
  start_ok (mkset 1 0 1) 1 split3 isplit3 BACKWARD /\ start_ok (mkset 0 0 0) 1 split3 isplit3 BACKWARD.
Proof. repeat split; apply start_ok_by; try (left; reflexivity); try (right; left; reflexivity); try (right; right; reflexivity); try apply tile_split; try apply tile_isplit; vm_compute; reflexivity. Qed.
Lemma C30_runs : tryall all_sets (fun perm ins outs f P =>
    ends_as f (compute3 Zops normZ f P true true FORWARD BIn BIn) 0 ins BIn perm outs exG &&
    ends_as f (only_remaps3 f FORWARD BIn BIn) 0 ins BIn perm outs exG) = true /\
  tryall safe_sets (fun perm ins outs f P =>
    ends_as f (compute3 Zops normZ f P true true BACKWARD BIn BIn) perm outs BIn 0 ins exG &&
    ends_as f (fun r => only_remaps3 f FORWARD BIn BIn r ++ only_remaps3 f BACKWARD BIn BIn r) 0 ins BIn 0 ins exG) = true.
Proof. split; vm_compute; reflexivity. Qed.
Lemma C31_runs : forallb (fun w => forallb (fun flag => tryall safe_sets (fun perm ins outs f P =>
    let src := stage_src perm ins outs f flag w in let dst := stage_dst perm ins outs f flag w in
    ends_as f (only_one_remap3 f flag w BIn BIn) (fst src) (snd src) BIn (fst dst) (snd dst) exG)) [FORWARD; BACKWARD]) [1; 2; 3; 4] = true /\
  with_plan (mkset 2 0 2) 1 isplit3 split3 (fun f P => f_pre f && f_post f && forallb (fun w =>
    let src := stage_src 1 isplit3 split3 f FORWARD w in let dst := stage_dst 1 isplit3 split3 f FORWARD w in
    ends_as f (only_one_remap3 f FORWARD w BIn BOut) (fst src) (snd src) BOut (fst dst) (snd dst) exG) [1; 2; 3; 4]) = true.
Proof. split; vm_compute; reflexivity. Qed.

(** a history of calls on one plan *)
Definition exCalls : list call3 :=
  [mkcall3 true false FORWARD BIn BIn; mkcall3 true false FORWARD BOut BOut; mkcall3 false false BACKWARD BIn BIn; mkcall3 true true FORWARD BIn BOut; mkcall3 false false BACKWARD BOut BOut].
Lemma C37_runs : exists f P (M0 : nat -> @rmem Z), ready3 exact_areas 2 (mkset 2 0 2) g2 1 isplit3 split3 f /\ setup_ffts3 cexpZ g2 = Some P /\
  Forall (call_ok f M0) exCalls /\
  ends_as f (together (map (call_code Zops normZ f P) (firstn 3 exCalls))) 0 isplit3 BIn 0 isplit3 (times 8 exG) = true.
Proof.
  destruct (with_plan_inv (mkset 2 0 2) 1 isplit3 split3 (fun f P => f_pre f && negb (f_same f) &&
      ends_as f (together (map (call_code Zops normZ f P) (firstn 3 exCalls))) 0 isplit3 BIn 0 isplit3 (times 8 exG)))
    as (f & P & Es & EP & H); [vm_compute; reflexivity|].
  apply andb_prop in H as (H & H3). apply andb_prop in H as (H1 & H2). apply negb_true_iff in H2.
  assert (Hr : ready3 exact_areas 2 (mkset 2 0 2) g2 1 isplit3 split3 f) by (apply ex_ready; [right; right; reflexivity|apply tile_isplit|apply tile_split|exact Es]).
  pose proof (L_in _ _ _ _ _ _ _ (ready_facts _ _ _ _ _ _ _ _ Hr)) as Hl.
  assert (Hm : forall M0 : nat -> @rmem Z, midfast_ok f M0) by (intros M0; eapply midfast_auto; eauto).
  assert (R : forall flag b, isdata b -> room3 f flag b (exM f 0 isplit3)).
  { intros flag b Hb. split; [eapply ex_room; eauto|intros _; apply Hm]. }
  exists f, P, (exM f 0 isplit3). split; [exact Hr|]. split; [exact EP|]. split; [|exact H3].
  assert (Di : isdata BIn) by (left; reflexivity). assert (Do : isdata BOut) by (right; reflexivity).
  assert (In1 : forall s o flag b, isdata b -> call_ok f (exM f 0 isplit3) (mkcall3 s o flag b b)).
  { intros s o flag b Hb. split; [exact Hb|]. split; [exact Hb|]. split; [left; reflexivity|]. split; apply R, Hb. }
  unfold exCalls. apply Forall_cons; [apply In1, Di|]. apply Forall_cons; [apply In1, Do|]. apply Forall_cons; [apply In1, Di|].
  apply Forall_cons; [|apply Forall_cons; [apply In1, Do|constructor]].
  split; [exact Di|]. split; [exact Do|]. split; [right; exact H1|]. split; [apply R, Di|apply R, Do].
Qed.
