(** Remap32Ops.v : all operations of a 3d or 2d transform, the trials of tune() and the test programs, in ints of 32 bits (C83). *)

From Verif Require Import Base Spec Pack3d Pack2d Sched SchedProofs MemProofs Phases Exec Layout Overflow OverflowProofs Remap RemapProofs RemapMain Remap3d Remap2d RemapInst RemapThms RemapTop
  RemapFinal Setup3d Setup2d Setup3dProofs Setup2dProofs Kiss KissPure KissAlg Fft1d KissFinal Fft3d Frame Fft3dProofs Fft3dMain Fft2d Fft2dMain Fft3dTop Fft2dTop Fft3dFinal Fft2dFinal Pack32 Pack32Proofs Pack32Top
  Remap32 Remap32Sim Remap32Proofs Remap32Top Remap32Fft Tune TestProg Ops OpsSeq OpsProofs OpsTop.
Local Open Scope Z_scope.

(** ** the operations with [call m in out] for the call of remap() of the object [m], as compute_with3 in Remap32.v *)
Section With3.
Context {F : Type} (O : sops F) (rnorm : Z -> F).
Variables (f : fft3) (P : @plans3 F).
Variable call : rm3 -> bsel -> bsel -> nat -> list (@instr F).
(** FFT3d::only_remaps, src/fft3d.cpp:633-661 *)
Definition only_remaps_with3 (flag : Z) (bi bo : bsel) : nat -> list (@instr F) := together (
  if (flag =? FORWARD) || f_same f then
    match f_prefast f with Some p => call_pair3 call p bi bo | None => [copying3 (fun r => psize3 (f_in f r)) bi bo] end
    ++ call_pair3 call (f_fastmid f) bo bo ++ call_pair3 call (f_midslow f) bo bo ++ call_opt3 call (f_postslow f) bo bo
  else
    match f_preslow f with Some p => call_pair3 call p bi bo | None => [copying3 (fun r => psize3 (f_out f r)) bi bo] end
    ++ call_opt3 call (f_slowmid f) bo bo ++ call_opt3 call (f_midfast f) bo bo ++ call_opt3 call (f_postfast f) bo bo).
(** FFT3d::only_one_remap, src/fft3d.cpp:673-703 *)
Definition only_one_remap_with3 (flag which : Z) (bi bo : bsel) : nat -> list (@instr F) := together (
  if (flag =? FORWARD) || f_same f then
    if which =? 1 then
      match f_prefast f with Some p => call_pair3 call p bi bo | None => [copying3 (fun r => psize3 (f_in f r)) bi bo] end
    else if which =? 2 then call_pair3 call (f_fastmid f) bi bo
    else if which =? 3 then call_pair3 call (f_midslow f) bi bo
    else if which =? 4 then call_opt3 call (f_postslow f) bi bo
    else []
  else
    if which =? 4 then
      match f_preslow f with Some p => call_pair3 call p bi bo | None => [copying3 (fun r => psize3 (f_out f r)) bi bo] end
    else if which =? 3 then call_opt3 call (f_slowmid f) bi bo
    else if which =? 2 then call_opt3 call (f_midfast f) bi bo
    else if which =? 1 then call_opt3 call (f_postfast f) bi bo
    else []).
Definition act_with3 (a : @act F) : nat -> list (@instr F) :=
  match a with
  | ACompute scaled ro flag bi bo => compute_with3 O rnorm f P call scaled ro flag bi bo
  | A1d flag b => only_1d_ffts3 O f P flag b
  | ARemaps flag bi bo => only_remaps_with3 flag bi bo
  | AOne flag which bi bo => only_one_remap_with3 flag which bi bo
  | ABarrier => barrier (f_n f)
  | AFill b w => filling b w
  end.
End With3.
(** a program of operations on one object in ints of 32 bits *)
Definition acts3_32 {F} (O : sops F) rnorm strict esize f P (l : list (@act F)) : nat -> list (@instr F) :=
  together (map (act_with3 O rnorm f P
    (fun m bi bo => remap3_32 strict esize (f_n f) (rm_coll m) (f_pack f) 2 (rm_perm m) (rm_in m) (rm_out m) bi bo)) l).

Section With2.
Context {F : Type} (O : sops F) (rnorm : Z -> F).
Variables (f : fft2) (P : @plans2 F).
Variable call : rm2 -> bsel -> bsel -> nat -> list (@instr F).
(** FFT2d::only_remaps, src/fft2d.cpp:597-623 *)
Definition only_remaps_with2 (flag : Z) (bi bo : bsel) : nat -> list (@instr F) := together (
  if (flag =? FORWARD) || t_same f then
    match t_prefast f with Some p => call_pair2 call p bi bo | None => [copying2 (fun r => psize2 (t_in f r)) bi bo] end
    ++ call_pair2 call (t_fastslow f) bo bo ++ call_opt2 call (t_postslow f) bo bo
  else
    match t_preslow f with Some p => call_pair2 call p bi bo | None => [copying2 (fun r => psize2 (t_out f r)) bi bo] end
    ++ call_opt2 call (t_slowfast f) bo bo ++ call_opt2 call (t_postfast f) bo bo).
(** FFT2d::only_one_remap, src/fft2d.cpp:635-662 *)
Definition only_one_remap_with2 (flag which : Z) (bi bo : bsel) : nat -> list (@instr F) := together (
  if (flag =? FORWARD) || t_same f then
    if which =? 1 then
      match t_prefast f with Some p => call_pair2 call p bi bo | None => [copying2 (fun r => psize2 (t_in f r)) bi bo] end
    else if which =? 2 then call_pair2 call (t_fastslow f) bi bo
    else if which =? 3 then call_opt2 call (t_postslow f) bi bo
    else []
  else
    if which =? 3 then
      match t_preslow f with Some p => call_pair2 call p bi bo | None => [copying2 (fun r => psize2 (t_out f r)) bi bo] end
    else if which =? 2 then call_opt2 call (t_slowfast f) bi bo
    else if which =? 1 then call_opt2 call (t_postfast f) bi bo
    else []).
Definition act_with2 (a : @act F) : nat -> list (@instr F) :=
  match a with
  | ACompute scaled ro flag bi bo => compute_with2 O rnorm f P call scaled ro flag bi bo
  | A1d flag b => only_1d_ffts2 O f P flag b
  | ARemaps flag bi bo => only_remaps_with2 flag bi bo
  | AOne flag which bi bo => only_one_remap_with2 flag which bi bo
  | ABarrier => barrier (t_n f)
  | AFill b w => filling b w
  end.
End With2.
Definition acts2_32 {F} (O : sops F) rnorm strict esize f P (l : list (@act F)) : nat -> list (@instr F) :=
  together (map (act_with2 O rnorm f P
    (fun m bi bo => remap2_32 strict esize (t_n f) (rm2_coll m) (t_pack f) 2 (rm2_perm m) (rm2_in m) (rm2_out m) bi bo)) l).

(** ** specification *)
(** the caller's own writes keep the length of the array *)
Definition fills_keep {F} (n : nat) (l : list (@act F)) : Prop :=
  forall b w r x y, In (AFill b w) l -> (r < n)%nat -> w r x = Some y -> zlen y = zlen x.
(** the same operation, or writes of the caller that do the same on every rank *)
Definition act_same {F} (n : nat) (a a' : @act F) : Prop :=
  a = a' \/ exists b w w', a = AFill b w /\ a' = AFill b w' /\ forall r x, (r < n)%nat -> w r x = w' r x.

(** ** proofs *)
Lemma filling_rel {F} n b (w w' : nat -> list F -> option (list F)) r : (r < n)%nat -> (forall r x, (r < n)%nat -> w r x = w' r x) ->
  (forall x y, w r x = Some y -> zlen y = zlen x) -> prel (@ints_index F) (filling b w r) (filling b w' r).
Proof.
  intros Hr Ew Hw. constructor; [|constructor]. constructor. intros m Hm. rewrite (Ew r _ Hr). split; [reflexivity|]. intros m'. rewrite <- (Ew r _ Hr).
  destruct (w r (getb b m)) as [y|] eqn:E; [|discriminate]. cbn [bind]. intros H; injection H as <-. apply ints_set; [exact Hm|]. exact (Hw _ _ E).
Qed.
Lemma acts_same_refl {F} n (l : list (@act F)) : Forall2 (act_same n) l l.
Proof. induction l; constructor; [left; reflexivity|assumption]. Qed.

Section Rel3.
Context {F : Type} (O : sops F) (rnorm : Z -> F).
Variables (f : fft3) (P : @plans3 F).
Variable call : rm3 -> bsel -> bsel -> nat -> list (@instr F).
Variable r : nat.
Hypothesis Hcall : forall m bi bo, In m (all_objs f) -> prel (@ints_index F) (one_remap3 f m bi bo r) (call m bi bo r).
Local Notation R := (fun c d : nat -> list (@instr F) => prel (@ints_index F) (c r) (d r)).
Ltac inall := intros m Hm; unfold all_objs, fwd_objs, bwd_objs; rewrite !in_app_iff; tauto.

Lemma pre_rel3 p s bi bo : (forall q m, p = Some q -> In m (objs q) -> In m (all_objs f)) ->
  Forall2 R (match p with Some q => call_pair3 (one_remap3 f) q bi bo | None => [copying3 s bi bo] end)
            (match p with Some q => call_pair3 call q bi bo | None => [copying3 s bi bo] end).
Proof. intros H. destruct p as [q|]; [apply (call_pair_rel f call r Hcall); intros m Hm; exact (H q m eq_refl Hm)|]. constructor; [apply copying_rel|constructor]. Qed.
Lemma in_prefast q m : f_prefast f = Some q -> In m (objs q) -> In m (all_objs f).
Proof. intros E Hm. unfold all_objs, fwd_objs. rewrite E. cbn [oobjs]. rewrite !in_app_iff. tauto. Qed.
Lemma in_preslow q m : f_preslow f = Some q -> In m (objs q) -> In m (all_objs f).
Proof. intros E Hm. unfold all_objs, bwd_objs. rewrite E. cbn [oobjs]. rewrite !in_app_iff. tauto. Qed.

Lemma act3_rel a : (forall b w x y, a = AFill b w -> w r x = Some y -> zlen y = zlen x) ->
  prel (@ints_index F) (act_code3 O rnorm f P a r) (act_with3 O rnorm f P call a r).
Proof.
  intros Hw. destruct a as [scaled ro flag bi bo|flag b|flag bi bo|flag which bi bo| |b w]; cbn [act_code3 act_with3].
  - apply compute3_rel, Hcall.
  - unfold only_1d_ffts3. apply together_rel. repeat (apply Forall2_cons; [apply local_rel; eexists _, b; split; [reflexivity|]; intros d d'; apply perform_keeps|]). constructor.
  - unfold only_remaps3, only_remaps_with3, pieces_only_remaps3. apply together_rel. destruct ((flag =? FORWARD) || f_same f).
    + apply Forall2_app; [apply pre_rel3, in_prefast|]. apply Forall2_app; [apply (call_pair_rel f call r Hcall); inall|].
      apply Forall2_app; [apply (call_pair_rel f call r Hcall); inall|]. apply (call_opt_rel f call r Hcall); inall.
    + apply Forall2_app; [apply pre_rel3, in_preslow|]. apply Forall2_app; [apply (call_opt_rel f call r Hcall); inall|].
      apply Forall2_app; [apply (call_opt_rel f call r Hcall); inall|]. apply (call_opt_rel f call r Hcall); inall.
  - unfold only_one_remap3, only_one_remap_with3, pieces_one_remap3. apply together_rel. destruct ((flag =? FORWARD) || f_same f).
    + destruct (which =? 1); [apply pre_rel3, in_prefast|]. destruct (which =? 2); [apply (call_pair_rel f call r Hcall); inall|].
      destruct (which =? 3); [apply (call_pair_rel f call r Hcall); inall|]. destruct (which =? 4); [apply (call_opt_rel f call r Hcall); inall|constructor].
    + destruct (which =? 4); [apply pre_rel3, in_preslow|]. destruct (which =? 3); [apply (call_opt_rel f call r Hcall); inall|].
      destruct (which =? 2); [apply (call_opt_rel f call r Hcall); inall|]. destruct (which =? 1); [apply (call_opt_rel f call r Hcall); inall|constructor].
  - constructor; [constructor|constructor].
  - constructor; [|constructor]. constructor. intros m Hm. split; [reflexivity|]. intros m'. destruct (w r (getb b m)) as [y|] eqn:E; [|discriminate]. cbn [bind].
    intros H; injection H as <-. apply ints_set; [exact Hm|]. exact (Hw b w _ _ eq_refl E).
Qed.
End Rel3.

Section Rel2.
Context {F : Type} (O : sops F) (rnorm : Z -> F).
Variables (f : fft2) (P : @plans2 F).
Variable call : rm2 -> bsel -> bsel -> nat -> list (@instr F).
Variable r : nat.
Hypothesis Hcall : forall m bi bo, In m (all_objs2 f) -> prel (@ints_index F) (one_remap2 8 f m bi bo r) (call m bi bo r).
Local Notation R := (fun c d : nat -> list (@instr F) => prel (@ints_index F) (c r) (d r)).
Ltac inall2 := intros m Hm; unfold all_objs2, fwd_objs2, bwd_objs2; rewrite !in_app_iff; tauto.

Lemma pre_rel2 p s bi bo : (forall q m, p = Some q -> In m (objs2 q) -> In m (all_objs2 f)) ->
  Forall2 R (match p with Some q => call_pair2 (one_remap2 8 f) q bi bo | None => [copying2 s bi bo] end)
            (match p with Some q => call_pair2 call q bi bo | None => [copying2 s bi bo] end).
Proof.
  intros H. destruct p as [q|]; [apply (call_pair_rel2 f call r Hcall); intros m Hm; exact (H q m eq_refl Hm)|]. constructor; [|constructor].
  unfold copying2; destruct (bsel_eqb bi bo); [constructor|]; constructor; [constructor; apply copy_rel|constructor].
Qed.
Lemma in_prefast2 q m : t_prefast f = Some q -> In m (objs2 q) -> In m (all_objs2 f).
Proof. intros E Hm. unfold all_objs2, fwd_objs2. rewrite E. cbn [oobjs2]. rewrite !in_app_iff. tauto. Qed.
Lemma in_preslow2 q m : t_preslow f = Some q -> In m (objs2 q) -> In m (all_objs2 f).
Proof. intros E Hm. unfold all_objs2, bwd_objs2. rewrite E. cbn [oobjs2]. rewrite !in_app_iff. tauto. Qed.

Lemma act2_rel a : (forall b w x y, a = AFill b w -> w r x = Some y -> zlen y = zlen x) ->
  prel (@ints_index F) (act_code2 O rnorm 8 f P a r) (act_with2 O rnorm f P call a r).
Proof.
  intros Hw. destruct a as [scaled ro flag bi bo|flag b|flag bi bo|flag which bi bo| |b w]; cbn [act_code2 act_with2].
  - apply compute2_rel, Hcall.
  - unfold only_1d_ffts2. apply together_rel. repeat (apply Forall2_cons; [apply local_rel; eexists _, b; split; [reflexivity|]; intros d d'; apply perform_keeps|]). constructor.
  - unfold only_remaps2, only_remaps_with2, pieces_only_remaps2. apply together_rel. destruct ((flag =? FORWARD) || t_same f).
    + apply Forall2_app; [apply pre_rel2, in_prefast2|]. apply Forall2_app; [apply (call_pair_rel2 f call r Hcall); inall2|]. apply (call_opt_rel2 f call r Hcall); inall2.
    + apply Forall2_app; [apply pre_rel2, in_preslow2|]. apply Forall2_app; [apply (call_opt_rel2 f call r Hcall); inall2|]. apply (call_opt_rel2 f call r Hcall); inall2.
  - unfold only_one_remap2, only_one_remap_with2, pieces_one_remap2. apply together_rel. destruct ((flag =? FORWARD) || t_same f).
    + destruct (which =? 1); [apply pre_rel2, in_prefast2|]. destruct (which =? 2); [apply (call_pair_rel2 f call r Hcall); inall2|].
      destruct (which =? 3); [apply (call_opt_rel2 f call r Hcall); inall2|constructor].
    + destruct (which =? 3); [apply pre_rel2, in_preslow2|]. destruct (which =? 2); [apply (call_opt_rel2 f call r Hcall); inall2|].
      destruct (which =? 1); [apply (call_opt_rel2 f call r Hcall); inall2|constructor].
  - constructor; [constructor|constructor].
  - constructor; [|constructor]. constructor. intros m Hm. split; [reflexivity|]. intros m'. destruct (w r (getb b m)) as [y|] eqn:E; [|discriminate]. cbn [bind].
    intros H; injection H as <-. apply ints_set; [exact Hm|]. exact (Hw b w _ _ eq_refl E).
Qed.
End Rel2.

Section T3.
Variables (ar : areas) (n : nat) (st : settings) (N : Z * Z * Z) (permute : Z) (ins outs : nat -> box3) (f : fft3).
Hypothesis R : ready3 ar n st N permute ins outs f.
Variable esize : Z.
Hypothesis Fit : fits32 esize (st_pack st) n N (f_fftsize f).

Lemma acts3_rel {F} (O : sops F) rnorm P l l' r : Forall2 (act_same n) l l' -> fills_keep n l -> (r < n)%nat ->
  prel (@ints_index F) (acts_code3 O rnorm f P l r) (acts3_32 O rnorm false esize f P l' r).
Proof.
  intros Hs Hk Hr. destruct R as (HL & Hn & HI & HF & Ti & To & _ & HS). pose proof (setup3d_facts _ _ _ _ _ _ _ _ HL Hn HI HS) as Fa.
  apply together_rel. induction Hs as [|a a' l l' Sa Hs IH]; cbn [map]; constructor; [|apply IH; intros b w r' x y Hi; apply (Hk b w r' x y); right; exact Hi].
  destruct Sa as [<- |(b & w & w' & -> & -> & Ew)]; [|cbn [act_code3 act_with3]; apply (filling_rel n); auto; intros x y E; apply (Hk b w r x y); auto; left; reflexivity].
  apply act3_rel.
  - intros m bi bo Hm. unfold one_remap3. rewrite (F_n _ _ _ _ _ _ _ Fa), (F_pack _ _ _ _ _ _ _ Fa).
    destruct (obj_tiles ar n st N permute ins outs f R esize Fit m r Hm Hr) as (T & Hp). apply remap3_rel; auto. lia.
  - intros b w x y -> E. apply (Hk b w r x y); auto. left; reflexivity.
Qed.
(** an execution result in unbounded integers is that of the program in 32-bit ints *)
Theorem acts3_exec {F} (O : sops F) rnorm P l l' (M0 M' : nat -> @rmem F) : Forall2 (act_same n) l l' -> fills_keep n l -> (forall r, (r < n)%nat -> ints_index (M0 r)) ->
  exec_to n (acts_code3 O rnorm f P l) M0 M' -> exec_to n (acts3_32 O rnorm false esize f P l') M0 M'.
Proof. intros Hs Hk Hm. apply (exec_rel (@ints_index F)); [apply ints_wrm| |exact Hm]. intros r Hr. apply acts3_rel; assumption. Qed.
End T3.

Section T2.
Variables (ar : areas) (n : nat) (st : settings) (N : Z * Z) (permute : Z) (ins outs : nat -> box2) (f : fft2).
Hypothesis R : ready2 8 ar n st N permute ins outs f.
Hypothesis Fit : fits32_2 (st_pack st) n N (t_fftsize f).

Lemma acts2_rel {F} (O : sops F) rnorm P l l' r : Forall2 (act_same n) l l' -> fills_keep n l -> (r < n)%nat ->
  prel (@ints_index F) (acts_code2 O rnorm 8 f P l r) (acts2_32 O rnorm false 8 f P l' r).
Proof.
  intros Hs Hk Hr. destruct R as (HL & Hn & HI & HF & _ & Ti & To & _ & HS). pose proof (setup2d_facts _ _ _ _ _ _ _ _ HL Hn HI HS) as Fa.
  apply together_rel. induction Hs as [|a a' l l' Sa Hs IH]; cbn [map]; constructor; [|apply IH; intros b w r' x y Hi; apply (Hk b w r' x y); right; exact Hi].
  destruct Sa as [<- |(b & w & w' & -> & -> & Ew)]; [|cbn [act_code2 act_with2]; apply (filling_rel n); auto; intros x y E; apply (Hk b w r x y); auto; left; reflexivity].
  apply act2_rel.
  - intros m bi bo Hm. unfold one_remap2. rewrite (T_n _ _ _ _ _ _ _ Fa), (T_pack _ _ _ _ _ _ _ Fa).
    destruct (obj_tiles2 ar n st N permute ins outs f R Fit m r Hm Hr) as (T & Hp). apply remap2_rel; auto. lia.
  - intros b w x y -> E. apply (Hk b w r x y); auto. left; reflexivity.
Qed.
(** an execution result in unbounded integers is that of the program in 32-bit ints *)
Theorem acts2_exec {F} (O : sops F) rnorm P l l' (M0 M' : nat -> @rmem F) : Forall2 (act_same n) l l' -> fills_keep n l -> (forall r, (r < n)%nat -> ints_index (M0 r)) ->
  exec_to n (acts_code2 O rnorm 8 f P l) M0 M' -> exec_to n (acts2_32 O rnorm false 8 f P l') M0 M'.
Proof. intros Hs Hk Hm. apply (exec_rel (@ints_index F)); [apply ints_wrm| |exact Hm]. intros r Hr. apply acts2_rel; assumption. Qed.
End T2.
