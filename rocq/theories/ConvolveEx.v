(** ConvolveEx.v : a caller that multiplies point by point, and runs of the whole sequence on 2 x 2 x 2 and 2 x 2 grids (C82). *)

From Coq Require Import Reals Lra.
From Verif Require Import Base Spec Pack3d Pack2d Sched SchedProofs Phases Exec Remap RemapMain RemapInst
  Remap3d Remap2d RemapThms RemapTop ExRemap Layout LayoutProofs LayoutFinal Setup3d Setup3dProofs Setup2d Setup2dProofs Kiss KissPure KissAlg KissReal Fft1d KissFinal
  Fft3d Frame Fft3dProofs Fft3dMain DftMulti Fft3dTop Fft3dFinal Fft3dEx Fft2d Fft2dMain Fft2dTop Fft2dFinal Fft2dEx Ops OpsSeq OpsProofs ConvMath Convolve.
Local Open Scope Z_scope.

(** the loop a caller writes: for every point of the box, multiply the two cells of the point by the given complex number *)
Definition cell_or {A} (d : A) (l : list A) (a : Z) : A := match zget l a with Some v => v | None => d end.
Definition pointwise3 {A} (O : sops A) (permute : Z) (b : box3) (G : pt3 -> A * A) (l : list A) : option (list A) :=
  Some (map (fun c => match find (fun e => cell3 2 permute b (fst e) (snd e) =? c) (elems3 2 b) with
    | Some e => fld (fun p => c_mul O (cell_or (s0 O) l (cell3 2 permute b p 0), cell_or (s0 O) l (cell3 2 permute b p 1)) (G p)) (fst e) (snd e)
    | None => cell_or (s0 O) l c end) (zrange (zlen l))).
Definition pointwise2 {A} (O : sops A) (permute : Z) (b : box2) (G : pt2 -> A * A) (l : list A) : option (list A) :=
  Some (map (fun c => match find (fun e => cell2 2 permute b (fst e) (snd e) =? c) (elems2 2 b) with
    | Some e => fld (fun p => c_mul O (cell_or (s0 O) l (cell2 2 permute b p 0), cell_or (s0 O) l (cell2 2 permute b p 1)) (G p)) (fst e) (snd e)
    | None => cell_or (s0 O) l c end) (zrange (zlen l))).

Lemma cell_or_get {A} (d : A) l a v : zget l a = Some v -> cell_or d l a = v.
Proof. unfold cell_or. intros ->. reflexivity. Qed.
Lemma zget_zrange_none n a : ~ (0 <= a < n) -> zget (zrange n) a = None.
Proof. intros H. destruct (zget (zrange n) a) eqn:E; [|reflexivity]. apply zget_inv in E. rewrite zlen_zrange in E. lia. Qed.
Lemma zget_none {A} (l : list A) a : ~ (0 <= a < zlen l) -> zget l a = None.
Proof. intros H. destruct (zget l a) eqn:E; [|reflexivity]. apply zget_inv in E. lia. Qed.

Lemma pointwise3_multiplies n permute outs G : multiplies3 n permute outs (fun r => pointwise3 Rops permute (outs r) G) G.
Proof.
  intros r l X Hr Hl. eexists. split; [reflexivity|]. pose proof (zlen_nonneg l) as Hz. split; [rewrite zlen_map, zlen_zrange; lia|]. split.
  - intros p q Hp Hq. pose proof (Hl p q Hp Hq) as Hc. pose proof (zget_inv _ _ _ Hc) as Hb.
    rewrite zget_map, zget_zrange by lia. cbn [option_map]. f_equal.
    destruct (find (fun e => cell3 2 permute (outs r) (fst e) (snd e) =? cell3 2 permute (outs r) p q) (elems3 2 (outs r))) as [e|] eqn:Ef.
    + apply find_some in Ef as (Hi & He). apply In_elems3 in Hi; [|lia]. apply Z.eqb_eq in He. destruct Hi as (H1 & H2).
      destruct (cell3_inj 2 permute (outs r) _ _ _ _ H1 Hp H2 Hq He) as (E1 & E2). destruct e as [p' q']. cbn in E1, E2. subst p' q'. cbn [fst snd].
      unfold fld. rewrite (cell_or_get _ _ _ _ (Hl p 0 Hp ltac:(lia))), (cell_or_get _ _ _ _ (Hl p 1 Hp ltac:(lia))), <- cprod_cmul. unfold fld. cbn [Z.eqb].
      rewrite <- surjective_pairing. reflexivity.
    + exfalso. assert (Hn := find_none _ _ Ef (p, q)). cbn [fst snd] in Hn. rewrite Z.eqb_refl in Hn. assert (true = false); [|discriminate].
      apply Hn, In_elems3; [lia|]. split; assumption.
  - intros a Ha. destruct (Z_lt_dec a 0) as [Hn|Hn]; [rewrite !zget_none; [reflexivity|lia|rewrite zlen_map, zlen_zrange; lia]|].
    destruct (Z_le_dec (zlen l) a) as [Hn'|Hn']; [rewrite !zget_none; [reflexivity|lia|rewrite zlen_map, zlen_zrange; lia]|].
    rewrite zget_map, zget_zrange by lia. cbn [option_map].
    destruct (find (fun e => cell3 2 permute (outs r) (fst e) (snd e) =? a) (elems3 2 (outs r))) as [e|] eqn:Ef.
    + exfalso. apply find_some in Ef as (Hi & He). apply In_elems3 in Hi; [|lia]. apply Z.eqb_eq in He. destruct Hi as (H1 & H2).
      pose proof (cell3_bound 2 permute (outs r) _ _ H1 H2) as Hc. rewrite (vol3_pos _ _ H1) in Ha. lia.
    + destruct (zget_Some l a ltac:(lia)) as (v & Hv). rewrite (cell_or_get _ _ _ _ Hv). symmetry. exact Hv.
Qed.
Lemma pointwise2_multiplies n permute outs G : multiplies2 n permute outs (fun r => pointwise2 Rops permute (outs r) G) G.
Proof.
  intros r l X Hr Hl. eexists. split; [reflexivity|]. pose proof (zlen_nonneg l) as Hz. split; [rewrite zlen_map, zlen_zrange; lia|]. split.
  - intros p q Hp Hq. pose proof (Hl p q Hp Hq) as Hc. pose proof (zget_inv _ _ _ Hc) as Hb.
    rewrite zget_map, zget_zrange by lia. cbn [option_map]. f_equal.
    destruct (find (fun e => cell2 2 permute (outs r) (fst e) (snd e) =? cell2 2 permute (outs r) p q) (elems2 2 (outs r))) as [e|] eqn:Ef.
    + apply find_some in Ef as (Hi & He). apply In_elems2 in Hi; [|lia]. apply Z.eqb_eq in He. destruct Hi as (H1 & H2).
      destruct (cell2_inj 2 permute (outs r) _ _ _ _ H1 Hp H2 Hq He) as (E1 & E2). destruct e as [p' q']. cbn in E1, E2. subst p' q'. cbn [fst snd].
      unfold fld. rewrite (cell_or_get _ _ _ _ (Hl p 0 Hp ltac:(lia))), (cell_or_get _ _ _ _ (Hl p 1 Hp ltac:(lia))), <- cprod_cmul. unfold fld. cbn [Z.eqb].
      rewrite <- surjective_pairing. reflexivity.
    + exfalso. assert (Hn := find_none _ _ Ef (p, q)). cbn [fst snd] in Hn. rewrite Z.eqb_refl in Hn. assert (true = false); [|discriminate].
      apply Hn, In_elems2; [lia|]. split; assumption.
  - intros a Ha. destruct (Z_lt_dec a 0) as [Hn|Hn]; [rewrite !zget_none; [reflexivity|lia|rewrite zlen_map, zlen_zrange; lia]|].
    destruct (Z_le_dec (zlen l) a) as [Hn'|Hn']; [rewrite !zget_none; [reflexivity|lia|rewrite zlen_map, zlen_zrange; lia]|].
    rewrite zget_map, zget_zrange by lia. cbn [option_map].
    destruct (find (fun e => cell2 2 permute (outs r) (fst e) (snd e) =? a) (elems2 2 (outs r))) as [e|] eqn:Ef.
    + exfalso. apply find_some in Ef as (Hi & He). apply In_elems2 in Hi; [|lia]. apply Z.eqb_eq in He. destruct Hi as (H1 & H2).
      pose proof (cell2_bound 2 permute (outs r) _ _ H1 H2) as Hc. rewrite (vol2_pos _ _ H1) in Ha. lia.
    + destruct (zget_Some l a ltac:(lia)) as (v & Hv). rewrite (cell_or_get _ _ _ _ Hv). symmetry. exact Hv.
Qed.

(** ** runs *)
(** a kernel on the 2 x 2 x 2 grid, its transform and the convolution, computed in integers *)
Definition two : list Z := [0; 1].
Definition grid8 : list pt3 := flat_map (fun i => flat_map (fun j => map (fun k => (i, j, k)) two) two) two.
Definition exK (p : pt3) : Z * Z := let '(i, j, k) := p in (3 - 2 * i + j * k, i + 4 * j - k).
Definition dftZ (g : pt3 -> Z * Z) (p : pt3) : Z * Z :=
  let '(i, j, k) := p in
  fold_right (fun q s => let '(a, b, c) := q in let e := if Z.even (i * a + j * b + k * c) then 1 else -1 in (e * fst (g q) + fst s, e * snd (g q) + snd s)) (0, 0) grid8.
Definition mulZ (a b : Z * Z) : Z * Z := (fst a * fst b - snd a * snd b, fst a * snd b + snd a * fst b).
Definition convZ (x g : pt3 -> Z * Z) (p : pt3) : Z * Z :=
  let '(i, j, k) := p in
  fold_right (fun q s => let '(a, b, c) := q in let v := mulZ (x q) (g ((i - a) mod 2, (j - b) mod 2, (k - c) mod 2)) in (fst v + fst s, snd v + snd s)) (0, 0) grid8.
Lemma C82_runs_3d : tryall safe_sets (fun perm ins outs f P =>
    ends_as f (fun r => compute3 Zops normZ f P false false FORWARD BIn BIn r ++
                        filling BIn (fun r => pointwise3 Zops perm (outs r) (dftZ exK)) r ++
                        compute3 Zops normZ f P false false BACKWARD BIn BIn r)
      0 ins BIn 0 ins (times 8 (convZ exG exK))) = true /\
  (* the multiplication at the unpermuted places gives something else *)
  with_plan (mkset 2 0 2) 2 split3 isplit3 (fun f P => negb
    (ends_as f (fun r => compute3 Zops normZ f P false false FORWARD BIn BIn r ++
                         filling BIn (fun r => pointwise3 Zops 0 (isplit3 r) (dftZ exK)) r ++
                         compute3 Zops normZ f P false false BACKWARD BIn BIn r)
      0 split3 BIn 0 split3 (times 8 (convZ exG exK)))) = true.
Proof. split; vm_compute; reflexivity. Qed.
Definition exK_2 (p : pt2) : Z * Z := let '(i, j) := p in (3 - 2 * i + i * j, i + 4 * j).
Definition grid4 : list pt2 := flat_map (fun i => map (fun j => (i, j)) two) two.
Definition dftZ_2 (g : pt2 -> Z * Z) (p : pt2) : Z * Z :=
  let '(i, j) := p in
  fold_right (fun q s => let '(a, b) := q in let e := if Z.even (i * a + j * b) then 1 else -1 in (e * fst (g q) + fst s, e * snd (g q) + snd s)) (0, 0) grid4.
Definition convZ_2 (x g : pt2 -> Z * Z) (p : pt2) : Z * Z :=
  let '(i, j) := p in
  fold_right (fun q s => let '(a, b) := q in let v := mulZ (x q) (g ((i - a) mod 2, (j - b) mod 2)) in (fst v + fst s, snd v + snd s)) (0, 0) grid4.
Lemma C82_runs_2d : tryall_2 all_sets (fun perm ins outs f P =>
    ends_as_2 f (fun r => compute2 Zops normZ 8 f P false false FORWARD BIn BIn r ++
                        filling BIn (fun r => pointwise2 Zops perm (outs r) (dftZ_2 exK_2)) r ++
                        compute2 Zops normZ 8 f P false false BACKWARD BIn BIn r)
      0 ins BIn 0 ins (times_2 4 (convZ_2 exG_2 exK_2))) = true.
Proof. vm_compute; reflexivity. Qed.

(** the hypotheses can be met, with an input and a kernel that are not constant *)
Lemma C82_start_3d : exists f (M0 : nat -> @rmem R) (x g : pt3 -> R * R) w,
  ready3 exact_areas 2 (mkset 1 0 1) g2 1 split3 isplit3 f /\ Fft3dTop.room3 f BACKWARD BIn M0 /\
  (forall r, (r < 2)%nat -> psize3 (split3 r) <= psize3 (isplit3 r)) /\ multiplies3 2 1 isplit3 w (DFT3 false g2 g) /\
  (forall r, (r < 2)%nat -> holds3 2 0 (split3 r) (fld x) (getb BIn (M0 r))) /\ x (0, 0, 0) <> x (1, 0, 0) /\ g (0, 0, 0) <> g (1, 0, 0).
Proof.
  destruct (with_plan_inv (mkset 1 0 1) 1 split3 isplit3 (fun f P => negb (f_same f))) as (f & P & Es & EP & H2); [vm_compute; reflexivity|].
  apply negb_true_iff in H2.
  assert (Hr : ready3 exact_areas 2 (mkset 1 0 1) g2 1 split3 isplit3 f) by (apply ex_ready; [right; left; reflexivity|apply tile_split|apply tile_isplit|exact Es]).
  pose proof (L_in _ _ _ _ _ _ _ (ready_facts _ _ _ _ _ _ _ _ Hr)) as Hl.
  pose (cR := fun v : Z * Z => (IZR (fst v), IZR (snd v))).
  exists f, (exMem IZR (fun p => cR (exG p)) f 0 split3), (fun p => cR (exG p)), (fun p => cR (exK p)), (fun r => pointwise3 Rops 1 (isplit3 r) (DFT3 false g2 (fun p => cR (exK p)))).
  split; [exact Hr|]. split; [split; [eapply ex_room; eauto; left; reflexivity|intros _; eapply midfast_auto; eauto]|].
  split; [intros [|[|r]] Hrn; try lia; cbn; lia|]. split; [apply pointwise3_multiplies|]. split; [intros r _; apply ex_holds|].
  split; unfold cR; cbn; intros E; injection E; intros; lra.
Qed.
Lemma C82_start_2d : exists f (M0 : nat -> @rmem R) (x g : pt2 -> R * R) w,
  ready2 8 exact_areas 2 (mkset 1 1 1) sq2 1 split2 isplit2 f /\ arrays_ok2 f BIn M0 /\
  (forall r, (r < 2)%nat -> psize2 (split2 r) <= psize2 (isplit2 r)) /\ multiplies2 2 1 isplit2 w (DFT2 false sq2 g) /\
  (forall r, (r < 2)%nat -> holds2 2 0 (split2 r) (fld x) (getb BIn (M0 r))) /\ x (0, 0) <> x (1, 0) /\ g (0, 0) <> g (1, 0).
Proof.
  destruct (with_plan_inv_2 (mkset 1 1 1) 1 split2 isplit2 (fun f P => true)) as (f & P & Es & EP & _); [vm_compute; reflexivity|].
  assert (Hr : ready2 8 exact_areas 2 (mkset 1 1 1) sq2 1 split2 isplit2 f) by (apply ex_ready_2; [right; left; reflexivity|apply tile_split_2|apply tile_isplit_2|exact Es]).
  pose proof (L_in2 _ _ _ _ _ _ _ (ready_facts2 _ _ _ _ _ _ _ _ _ Hr)) as Hl.
  pose (cR := fun v : Z * Z => (IZR (fst v), IZR (snd v))).
  exists f, (exMem_2 IZR (fun p => cR (exG_2 p)) f 0 split2), (fun p => cR (exG_2 p)), (fun p => cR (exK_2 p)), (fun r => pointwise2 Rops 1 (isplit2 r) (DFT2 false sq2 (fun p => cR (exK_2 p)))).
  split; [exact Hr|]. split; [eapply ex_room_2; eauto; left; reflexivity|].
  split; [intros [|[|r]] Hrn; try lia; cbn; lia|]. split; [apply pointwise2_multiplies|]. split; [intros r _; apply ex_holds_2|].
  split; unfold cR; cbn; intros E; injection E; intros; lra.
Qed.
