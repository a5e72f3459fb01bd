(** Remap32Top.v : where the remaps and the transforms that calculate with ints of 32 bits do what those of Fft3d.v and Fft2d.v do. *)

From Verif Require Import Base Spec Pack3d Pack2d Sched SchedProofs MemProofs Phases Exec Layout Overflow OverflowProofs Remap RemapProofs Remap3d Remap2d RemapInst RemapThms RemapTop
  Setup3d Setup2d Setup3dProofs Setup2dProofs Kiss KissPure Fft1d Fft3d Fft2d Fft3dTop Fft2dTop Pack32 Pack32Proofs Pack32Top Remap32 Remap32Sim Remap32Proofs.
Local Open Scope Z_scope.

(** ** specification: what one rank's tiles [a] (in) and [b] (out) must satisfy
    - the data of a tile are at most INT_MAX numbers;
    - memcpy: a line has at most INT_MAX bytes, in the out tile only if nothing is permuted;
    - array version with permutation: the data of the out tile are at most 2^30 numbers *)
Definition tiles32 (esize packflag nq permute : Z) (a b : box3) : Prop :=
  nq * vol3 a <= INT_MAX /\ nq * vol3 b <= INT_MAX /\
  (packflag = 2 -> 0 < esize /\ (0 < vol3 a -> nq * ni a * esize <= INT_MAX) /\ (permute = 0 -> 0 < vol3 b -> nq * ni b * esize <= INT_MAX)) /\
  (packflag = 0 -> permute <> 0 -> nq * vol3 b <= HALF).
Definition tiles32_2 (packflag nq permute : Z) (a b : box2) : Prop :=
  nq * vol2 a <= INT_MAX /\ nq * vol2 b <= INT_MAX /\
  (packflag = 2 -> (0 < vol2 a -> nq * ni2 a * 8 <= INT_MAX) /\ (permute = 0 -> 0 < vol2 b -> nq * ni2 b * 8 <= INT_MAX)) /\
  (packflag = 0 -> permute <> 0 -> nq * vol2 b <= HALF).

Lemma pos_vol3 b : 0 < ni b -> 0 < nj b -> 0 < nk b -> vol3 b = ni b * nj b * nk b /\ 0 < vol3 b.
Proof. intros. unfold vol3. rewrite !Z.max_r by lia. split; [reflexivity|]. repeat apply Z.mul_pos_pos; lia. Qed.
Lemma pos_vol2 b : 0 < ni2 b -> 0 < nj2 b -> vol2 b = ni2 b * nj2 b /\ 0 < vol2 b.
Proof. intros. unfold vol2. rewrite !Z.max_r by lia. split; [reflexivity|]. repeat apply Z.mul_pos_pos; lia. Qed.

(** ** one remap *)
Theorem remap3_rel {A} esize n coll packflag nq permute ins outs din dout me : flag_ok packflag -> perm_ok3 permute -> 0 < nq ->
  tiles32 esize packflag nq permute (ins me) (outs me) ->
  prel (@ints_index A) (remap3 n coll packflag nq permute ins outs din dout me) (remap3_32 false esize n coll packflag nq permute ins outs din dout me).
Proof.
  intros Hf Hp Hq (V1 & V2 & M & H).
  apply (code_rel (ops3 packflag nq permute) (pack3_32 false esize packflag) (unpack3_32 false esize packflag permute nq) n coll ins outs din dout me); cbn [ops3 o_collide o_size o_pack o_soff o_splan o_unpack o_roff o_rplan].
  - intros p ov E. pose proof (collide3_Some _ _ _ E) as ((O1 & O2 & O3) & (A1 & A2 & A3) & Hc & _). destruct (pos_vol3 _ A1 A2 A3) as (EV & PV).
    split; [unfold size3; repeat apply Z.mul_nonneg_nonneg; lia|].
    intros x y b0 Hb Lx Ly. assert (Hw : within3 ov (ins me)) by (unfold within3, ni, nj, nk in *; lia). split.
    + symmetry. apply remap_pack3; auto; [lia| |].
      * rewrite EV in V1. rewrite <- !Z.mul_assoc in *. lia.
      * intros E2. destruct (M E2) as (M1 & M2 & _). split; [exact M1|]. specialize (M2 PV). destruct (within3_n _ _ Hw) as (W & _). nia.
    + intros r Er. apply (copies_len _ _ _ _ (eq_trans (eq_sym (sp_pack _ _ _ _ _ (rspec3 (A := A) packflag nq permute Hf Hp Hq) _ _ ov x y b0 E)) Er)).
  - intros p ov E. pose proof (collide3_Some _ _ _ E) as ((O1 & O2 & O3) & (A1 & A2 & A3) & Hc & _). destruct (pos_vol3 _ A1 A2 A3) as (EV & PV).
    split; [unfold size3; repeat apply Z.mul_nonneg_nonneg; lia|].
    intros x y b0 Hb Lx Ly. assert (Hw : within3 ov (outs me)) by (unfold within3, ni, nj, nk in *; lia). split.
    + symmetry. apply remap_unpack3; auto; [lia| | |].
      * rewrite EV in V2. rewrite <- !Z.mul_assoc in *. lia.
      * intros E2 E0. destruct (M E2) as (M1 & _ & M2). split; [exact M1|]. specialize (M2 E0 PV). destruct (within3_n _ _ Hw) as (W & _). nia.
      * intros E0 En. specialize (H E0 En). rewrite EV in H. rewrite <- !Z.mul_assoc in *. lia.
    + intros r Er. apply (copies_len _ _ _ _ (eq_trans (eq_sym (sp_unpack _ _ _ _ _ (rspec3 (A := A) packflag nq permute Hf Hp Hq) _ _ ov y x b0 E)) Er)).
Qed.

Theorem remap2_rel {A} n coll packflag nq permute ins outs din dout me : flag_ok packflag -> perm_ok2 permute -> 0 < nq ->
  tiles32_2 packflag nq permute (ins me) (outs me) ->
  prel (@ints_index A) (remap2 8 n coll packflag nq permute ins outs din dout me) (remap2_32 false 8 n coll packflag nq permute ins outs din dout me).
Proof.
  intros Hf Hp Hq (V1 & V2 & M & H).
  apply (code_rel (ops2 8 packflag nq permute) (pack2_32 false 8 packflag) (unpack2_32 false 8 packflag permute nq) n coll ins outs din dout me); cbn [ops2 o_collide o_size o_pack o_soff o_splan o_unpack o_roff o_rplan].
  - intros p ov E. pose proof (collide2_Some _ _ _ E) as ((O1 & O2) & (A1 & A2) & Hc & _). destruct (pos_vol2 _ A1 A2) as (EV & PV).
    split; [unfold size2; repeat apply Z.mul_nonneg_nonneg; lia|].
    intros x y b0 Hb Lx Ly. assert (Hw : within2 ov (ins me)) by (unfold within2, ni2, nj2 in *; lia). split.
    + symmetry. apply remap_pack2; auto; [lia| |].
      * rewrite EV in V1. rewrite <- !Z.mul_assoc in *. lia.
      * intros E2. destruct (M E2) as (M2 & _). specialize (M2 PV). unfold within2, ni2 in *. nia.
    + intros r Er. apply (copies_len _ _ _ _ (eq_trans (eq_sym (sp_pack _ _ _ _ _ (rspec2 (A := A) 8 packflag nq permute Hf Hp Hq (or_introl eq_refl)) _ _ ov x y b0 E)) Er)).
  - intros p ov E. pose proof (collide2_Some _ _ _ E) as ((O1 & O2) & (A1 & A2) & Hc & _). destruct (pos_vol2 _ A1 A2) as (EV & PV).
    split; [unfold size2; repeat apply Z.mul_nonneg_nonneg; lia|].
    intros x y b0 Hb Lx Ly. assert (Hw : within2 ov (outs me)) by (unfold within2, ni2, nj2 in *; lia). split.
    + symmetry. apply remap_unpack2; auto; [lia| | |].
      * rewrite EV in V2. rewrite <- !Z.mul_assoc in *. lia.
      * intros E2 E0. destruct (M E2) as (_ & M2). specialize (M2 E0 PV). unfold within2, ni2 in *. nia.
      * intros E0 En. specialize (H E0 En). rewrite EV in H. rewrite <- !Z.mul_assoc in *. lia.
    + intros r Er. apply (copies_len _ _ _ _ (eq_trans (eq_sym (sp_unpack _ _ _ _ _ (rspec2 (A := A) 8 packflag nq permute Hf Hp Hq (or_introl eq_refl)) _ _ ov y x b0 E)) Er)).
Qed.

Theorem remap3_same {A} esize n coll packflag nq permute ins outs din dout (M0 : nat -> @rmem A) Post : flag_ok packflag -> perm_ok3 permute -> 0 < nq ->
  (forall r, (r < n)%nat -> tiles32 esize packflag nq permute (ins r) (outs r)) -> (forall r, (r < n)%nat -> ints_index (M0 r)) ->
  exec_all n (remap3 n coll packflag nq permute ins outs din dout) M0 Post -> exec_all n (remap3_32 false esize n coll packflag nq permute ins outs din dout) M0 Post.
Proof.
  intros Hf Hp Hq Ht Hm (M' & HP & E). exists M'. split; [exact HP|]. revert E.
  apply (exec_rel (@ints_index A)); [apply ints_wrm| |exact Hm]. intros r Hr. apply remap3_rel; auto.
Qed.
Theorem remap2_same {A} n coll packflag nq permute ins outs din dout (M0 : nat -> @rmem A) Post : flag_ok packflag -> perm_ok2 permute -> 0 < nq ->
  (forall r, (r < n)%nat -> tiles32_2 packflag nq permute (ins r) (outs r)) -> (forall r, (r < n)%nat -> ints_index (M0 r)) ->
  exec_all n (remap2 8 n coll packflag nq permute ins outs din dout) M0 Post -> exec_all n (remap2_32 false 8 n coll packflag nq permute ins outs din dout) M0 Post.
Proof.
  intros Hf Hp Hq Ht Hm (M' & HP & E). exists M'. split; [exact HP|]. revert E.
  apply (exec_rel (@ints_index A)); [apply ints_wrm| |exact Hm]. intros r Hr. apply remap2_rel; auto.
Qed.

(** ** the steps of compute() between the remaps keep the lengths *)
Section Lens.
Lemma iter_keeps {S X} (key : S -> X) n k (b : Z -> S -> option S) s s' : (forall j s s', b j s = Some s' -> key s' = key s) -> iter n k b s = Some s' -> key s' = key s.
Proof.
  intros H. revert k s. induction n as [|n IH]; intros k s; cbn [iter]; [intros [= <-]; reflexivity|].
  intros E. apply bind_Some_inv in E as (s1 & E1 & E). rewrite (IH _ _ E). apply (H _ _ _ E1).
Qed.
Lemma while_keeps {S X} (key : S -> X) fuel p e st (b : Z -> S -> option S) s s' : (forall j s s', b j s = Some s' -> key s' = key s) -> while_lt fuel p e st b s = Some s' -> key s' = key s.
Proof.
  intros H. revert p s. induction fuel as [|n IH]; intros p s; cbn [while_lt]; destruct (p <? e); try discriminate; try (intros [= <-]; reflexivity).
  intros E. apply bind_Some_inv in E as (s1 & E1 & E). rewrite (IH _ _ E). apply (H _ _ _ E1).
Qed.
Context {F : Type} (O : sops F).
Lemma cwrite_keeps {A} (out : list A) o blk out' : cwrite out o blk = Some out' -> zlen out' = zlen out.
Proof.
  intros H. unfold cwrite, for_ in H. apply (iter_keeps (@zlen A)) in H; [exact H|]. intros j s s' E. apply bind_Some_inv in E as (v & _ & E). apply (zset_len _ _ _ _ E).
Qed.
Lemma perform_keeps plan len total (data data' : list (F * F)) : perform_ffts O plan len total data = Some data' -> zlen data' = zlen data.
Proof.
  intros H. unfold perform_ffts, for_ptr in H. apply (while_keeps (@zlen (F * F))) in H; [exact H|]. intros j s s' E. unfold kiss_fft_inplace in E.
  apply bind_Some_inv in E as (t & _ & E). apply (cwrite_keeps _ _ _ _ E).
Qed.
Lemma scale_keeps norm num (data data' : list (F * F)) : scale_ffts O norm num data = Some data' -> zlen data' = zlen data.
Proof.
  intros H. unfold scale_ffts, for_ in H. apply (iter_keeps (@zlen (F * F))) in H; [exact H|]. intros j s s' E. apply bind_Some_inv in E as (v & _ & E). apply (zset_len _ _ _ _ E).
Qed.
Lemma pairs_len_split : forall k (l : list F), (length l <= k)%nat -> zlen l = 2 * zlen (fst (pairs l)) + zlen (snd (pairs l)).
Proof.
  induction k as [|k IH]; intros [|a [|b t]] H; cbn [length] in H; try lia; try reflexivity. cbn [pairs]. specialize (IH t ltac:(lia)). destruct (pairs t) as [ps tl]. cbn [fst snd] in *.
  unfold zlen in *. cbn [length]. lia.
Qed.
Lemma unpairs_zlen (ps : list (F * F)) : zlen (unpairs ps) = 2 * zlen ps.
Proof. induction ps as [|[a b] t IH]; [reflexivity|]. unfold zlen in *. cbn [unpairs length]. lia. Qed.
Lemma cview_rel b g : (forall d d', g d = Some d' -> zlen d' = zlen d) -> lrel (@ints_index F) (cview b g) (cview b g).
Proof.
  intros H m Hm. split; [reflexivity|]. intros m' E. unfold cview in E. destruct (pairs (getb b m)) as [ps tl] eqn:Ep. apply bind_Some_inv in E as (ps' & E1 & E). injection E as <-.
  apply ints_set; [exact Hm|]. pose proof (pairs_len_split (length (getb b m)) (getb b m) ltac:(lia)) as L. rewrite Ep in L. cbn [fst snd] in L. rewrite L.
  specialize (H _ _ E1). pose proof (unpairs_zlen ps'). unfold zlen in *. rewrite app_length. lia.
Qed.
Lemma copy_rel k bi bo : lrel (@ints_index F) (copy_scalars k bi bo) (copy_scalars k bi bo).
Proof.
  intros m Hm. split; [reflexivity|]. intros m' E. unfold copy_scalars in E. destruct (k <? 0); [discriminate|]. unfold for_ in E.
  revert m Hm E. generalize 0 at 1 as k0. induction (Z.to_nat k) as [|q IH]; intros k0 m Hm E; cbn [iter] in E; [injection E as <-; exact Hm|].
  apply bind_Some_inv in E as (m1 & E1 & E). apply (IH _ m1) in E; [exact E|]. apply bind_Some_inv in E1 as (v & _ & E1). apply bind_Some_inv in E1 as (a & Ea & E1). injection E1 as <-.
  apply ints_set; [exact Hm|]. apply (zset_len _ _ _ _ Ea).
Qed.
End Lens.

(** ** compute() *)
Lemma together_rel {A} (Inv : @rmem A -> Prop) cs ds r : Forall2 (fun c d => prel Inv (c r) (d r)) cs ds -> prel Inv (together cs r) (together ds r).
Proof. induction 1; [constructor|]. unfold together. cbn [map concat]. apply Forall2_app; assumption. Qed.

Section Comp3.
Context {F : Type} (O : sops F) (rnorm : Z -> F).
Variables (f : fft3) (P : @plans3 F).
Lemma compute3_with scaled remaponly flag bi bo : compute3 O rnorm f P scaled remaponly flag bi bo = compute_with3 O rnorm f P (one_remap3 f) scaled remaponly flag bi bo.
Proof. reflexivity. Qed.

Variable call : rm3 -> bsel -> bsel -> nat -> list (@instr F).
Variable r : nat.
Hypothesis Hcall : forall m bi bo, In m (all_objs f) -> prel (@ints_index F) (one_remap3 f m bi bo r) (call m bi bo r).
Local Notation R := (fun c d : nat -> list (@instr F) => prel (@ints_index F) (c r) (d r)).

Lemma call_pair_rel p bi bo : (forall m, In m (objs p) -> In m (all_objs f)) -> Forall2 R (call_pair3 (one_remap3 f) p bi bo) (call_pair3 call p bi bo).
Proof.
  intros H. unfold call_pair3, objs in *. destruct p as [a [b|]]; cbn [fst snd In] in *.
  - constructor; [apply Hcall; auto|]. constructor; [apply Hcall; auto|constructor].
  - constructor; [apply Hcall; auto|constructor].
Qed.
Lemma call_opt_rel p bi bo : (forall m, In m (oobjs p) -> In m (all_objs f)) -> Forall2 R (call_opt3 (one_remap3 f) p bi bo) (call_opt3 call p bi bo).
Proof. destruct p; cbn [call_opt3 oobjs]; [apply call_pair_rel|constructor]. Qed.
Lemma local_rel c : (exists g b, c r = [ILocal (cview b g)] /\ forall d d', g d = Some d' -> zlen d' = zlen d) -> R c c.
Proof. intros (g & b & E & H). rewrite E. constructor; [constructor; apply cview_rel, H|constructor]. Qed.
Lemma copying_rel s bi bo : R (copying3 s bi bo) (copying3 s bi bo).
Proof. unfold copying3. destruct (bsel_eqb bi bo); [constructor|]. constructor; [constructor; apply copy_rel|constructor]. Qed.
Lemma one_rel (x : bool) c : R c c -> Forall2 R (if x then [] else [c]) (if x then [] else [c]).
Proof. destruct x; [constructor|]. constructor; [assumption|constructor]. Qed.
Lemma scaling_rel (x : bool) b : Forall2 R (if x then [scaling3 O rnorm f b] else []) (if x then [scaling3 O rnorm f b] else []).
Proof. destruct x; [|constructor]. constructor; [|constructor]. apply local_rel. eexists _, b. split; [reflexivity|]. intros d d'. apply scale_keeps. Qed.
Ltac inall := intros m Hm; unfold all_objs, fwd_objs, bwd_objs; rewrite !in_app_iff; tauto.

Lemma compute3_rel scaled remaponly flag bi bo : prel (@ints_index F) (compute3 O rnorm f P scaled remaponly flag bi bo r) (compute_with3 O rnorm f P call scaled remaponly flag bi bo r).
Proof.
  rewrite compute3_with. unfold compute_with3. apply together_rel. apply Forall2_app; [|apply scaling_rel].
  assert (L1 : forall b, R (ffts_fast O f P flag b) (ffts_fast O f P flag b)) by (intros b; apply local_rel; eexists _, b; split; [reflexivity|]; intros d d'; apply perform_keeps).
  assert (L2 : forall b, R (ffts_mid O f P flag b) (ffts_mid O f P flag b)) by (intros b; apply local_rel; eexists _, b; split; [reflexivity|]; intros d d'; apply perform_keeps).
  assert (L3 : forall b, R (ffts_slow O f P flag b) (ffts_slow O f P flag b)) by (intros b; apply local_rel; eexists _, b; split; [reflexivity|]; intros d d'; apply perform_keeps).
  destruct ((flag =? FORWARD) || f_same f).
  - apply Forall2_app.
    { destruct (f_prefast f) as [p|] eqn:E; [|constructor; [apply copying_rel|constructor]]. apply call_pair_rel. intros m Hm. unfold all_objs, fwd_objs. rewrite E. cbn [oobjs]. rewrite !in_app_iff. tauto. }
    apply Forall2_app; [apply one_rel, L1|]. apply Forall2_app; [apply call_pair_rel; inall|]. apply Forall2_app; [apply one_rel, L2|].
    apply Forall2_app; [apply call_pair_rel; inall|]. apply Forall2_app; [apply one_rel, L3|]. apply call_opt_rel; inall.
  - apply Forall2_app.
    { destruct (f_preslow f) as [p|] eqn:E; [|constructor; [apply copying_rel|constructor]]. apply call_pair_rel. intros m Hm. unfold all_objs, bwd_objs. rewrite E. cbn [oobjs]. rewrite !in_app_iff. tauto. }
    apply Forall2_app; [apply one_rel, L3|]. apply Forall2_app; [apply call_opt_rel; inall|]. apply Forall2_app; [apply one_rel, L2|].
    apply Forall2_app; [apply call_opt_rel; inall|]. apply Forall2_app; [apply one_rel, L1|]. apply call_opt_rel; inall.
Qed.
End Comp3.

Section Comp2.
Context {F : Type} (O : sops F) (rnorm : Z -> F).
Variables (f : fft2) (P : @plans2 F).
Lemma compute2_with scaled remaponly flag bi bo : compute2 O rnorm 8 f P scaled remaponly flag bi bo = compute_with2 O rnorm f P (one_remap2 8 f) scaled remaponly flag bi bo.
Proof. reflexivity. Qed.

Variable call : rm2 -> bsel -> bsel -> nat -> list (@instr F).
Variable r : nat.
Hypothesis Hcall : forall m bi bo, In m (all_objs2 f) -> prel (@ints_index F) (one_remap2 8 f m bi bo r) (call m bi bo r).
Local Notation R := (fun c d : nat -> list (@instr F) => prel (@ints_index F) (c r) (d r)).

Lemma call_pair_rel2 p bi bo : (forall m, In m (objs2 p) -> In m (all_objs2 f)) -> Forall2 R (call_pair2 (one_remap2 8 f) p bi bo) (call_pair2 call p bi bo).
Proof.
  intros H. unfold call_pair2, objs2 in *. destruct p as [a [b|]]; cbn [fst snd In] in *.
  - constructor; [apply Hcall; auto|]. constructor; [apply Hcall; auto|constructor].
  - constructor; [apply Hcall; auto|constructor].
Qed.
Lemma call_opt_rel2 p bi bo : (forall m, In m (oobjs2 p) -> In m (all_objs2 f)) -> Forall2 R (call_opt2 (one_remap2 8 f) p bi bo) (call_opt2 call p bi bo).
Proof. destruct p; cbn [call_opt2 oobjs2]; [apply call_pair_rel2|constructor]. Qed.
Ltac inall2 := intros m Hm; unfold all_objs2, fwd_objs2, bwd_objs2; rewrite !in_app_iff; tauto.

Lemma compute2_rel scaled remaponly flag bi bo : prel (@ints_index F) (compute2 O rnorm 8 f P scaled remaponly flag bi bo r) (compute_with2 O rnorm f P call scaled remaponly flag bi bo r).
Proof.
  rewrite compute2_with. unfold compute_with2. apply together_rel.
  assert (L1 : forall b, R (ffts_fast2 O f P flag b) (ffts_fast2 O f P flag b)) by (intros b; apply local_rel; eexists _, b; split; [reflexivity|]; intros d d'; apply perform_keeps).
  assert (L2 : forall b, R (ffts_slow2 O f P flag b) (ffts_slow2 O f P flag b)) by (intros b; apply local_rel; eexists _, b; split; [reflexivity|]; intros d d'; apply perform_keeps).
  assert (C : forall s, R (copying2 s bi bo) (copying2 s bi bo)) by (intros s; unfold copying2; destruct (bsel_eqb bi bo); [constructor|]; constructor; [constructor; apply copy_rel|constructor]).
  apply Forall2_app.
  2: { destruct (_ && _ && _); [|constructor]. constructor; [|constructor]. apply local_rel. eexists _, bo. split; [reflexivity|]. intros d d'. apply scale_keeps. }
  destruct ((flag =? FORWARD) || t_same f).
  - apply Forall2_app.
    { destruct (t_prefast f) as [p|] eqn:E; [|constructor; [apply C|constructor]]. apply call_pair_rel2. intros m Hm. unfold all_objs2, fwd_objs2. rewrite E. cbn [oobjs2]. rewrite !in_app_iff. tauto. }
    apply Forall2_app; [apply one_rel, L1|]. apply Forall2_app; [apply call_pair_rel2; inall2|]. apply Forall2_app; [apply one_rel, L2|]. apply call_opt_rel2; inall2.
  - apply Forall2_app.
    { destruct (t_preslow f) as [p|] eqn:E; [|constructor; [apply C|constructor]]. apply call_pair_rel2. intros m Hm. unfold all_objs2, bwd_objs2. rewrite E. cbn [oobjs2]. rewrite !in_app_iff. tauto. }
    apply Forall2_app; [apply one_rel, L2|]. apply Forall2_app; [apply call_opt_rel2; inall2|]. apply Forall2_app; [apply one_rel, L1|]. apply call_opt_rel2; inall2.
Qed.
End Comp2.
