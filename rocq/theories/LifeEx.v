(** LifeEx.v : concrete histories of calls, and the failing ones behind the refuted claims. *)

From Coq Require Import QArith Permutation.
From Verif Require Import Base Spec Layout LayoutFinal Sched Remap RemapThms Setup3d Setup3dProofs Setup2d Setup2dProofs Fft3dEx Fft2dEx.
From Verif Require Import Life LifeProofs LifeFft LifeObj Tune TuneProofs TuneNum TuneTop Proto ProtoProofs TuneFinal MemUse.
Open Scope Z_scope.

(** ** running a history *)
Section Play.
Variable strict : bool.
Variable esize plsize rqsize ptsize nprocs xsize : Z.
Variable dim3 : bool.

Fixpoint play (cs : list call) (o : fobj) (n : tobj) (h : heap) : option (fobj * tobj * heap) :=
  match cs with
  | [] => Some (o, n, h)
  | c :: t => match run strict esize plsize rqsize ptsize nprocs xsize dim3 c o n h with
              | LOk ((o', n'), h') => play t o' n' h'
              | _ => None
              end
  end.
Definition history (prec : Z) (n0 : tobj) (h0 : heap) (cs : list call) : option (fobj * tobj * heap) :=
  match new_fobj esize dim3 prec h0 with LOk (o, h) => play cs o n0 h | _ => None end.

Lemma play_reach cs' : forall cs o n h o' n' h', reach strict esize plsize rqsize ptsize nprocs xsize dim3 cs o n h -> Forall (wf_call dim3) cs' ->
  play cs' o n h = Some (o', n', h') -> reach strict esize plsize rqsize ptsize nprocs xsize dim3 (cs ++ cs') o' n' h'.
Proof using Type.
  induction cs' as [|c t IH]; intros cs o n h o' n' h' R W E.
  - injection E as <- <- <-. rewrite app_nil_r. exact R.
  - inversion W as [|? ? W1 W2]; subst. cbn [play] in E. destruct (run _ _ _ _ _ _ _ _ c o n h) as [?| |[[o1 n1] h1]] eqn:E1; try discriminate.
    replace (cs ++ c :: t) with ((cs ++ [c]) ++ t) by (rewrite <- app_assoc; reflexivity).
    eapply IH; [|exact W2|exact E]. eapply reach_call; eauto.
Qed.
Lemma history_reach prec n0 h0 cs o n h : wf h0 -> (forall b, In b (h_live h0) -> b_own b = OUser) -> tcond dim3 n0 -> Forall (wf_call dim3) cs ->
  history prec n0 h0 cs = Some (o, n, h) -> reach strict esize plsize rqsize ptsize nprocs xsize dim3 cs o n h.
Proof using Type.
  intros W U T F E. unfold history in E. destruct (new_fobj esize dim3 prec h0) as [?| |[o0 h1]] eqn:N; try discriminate.
  apply (play_reach cs [] o0 n0 h1 o n h); auto. eapply reach_new; eauto.
Qed.
End Play.

(** ** a concrete platform: double precision, 2 ranks *)
Definition tob0 (dim3 : bool) : tobj :=
  mktobj 0 0 (-1) (-1) (-1) (repeat 0 10) (repeat 0 10) (repeat 0 10) 0 0 (repeat 0%Q 10) (repeat 0%Q 10) (repeat 0%Q 10)
    (map (fun _ => repeat 0%Q 10) (whichs dim3)).
Lemma tob0_ok dim3 : tcond dim3 (tob0 dim3).
Proof. destruct dim3; split; try reflexivity; unfold tlen; cbn; repeat split; repeat constructor. Qed.

(** two arrays of the application *)
Definition heap0 : heap := mkheap 2 [mkblk 0 OUser KData 4096; mkblk 1 OUser KData 4096].
Lemma heap0_wf : wf heap0.
Proof. split; [cbn; repeat constructor; cbn; intuition congruence|]. intros x [<- | [<- | []]]; cbn; lia. Qed.
Lemma heap0_user b : In b (h_live heap0) -> b_own b = OUser.
Proof. intros [<- | [<- | []]]; reflexivity. Qed.

(** the layouts of Fft3dEx.v and Fft2dEx.v as rank 0 sees them *)
Definition ex3 (permute : Z) (ins outs : nat -> box3) (st : settings) : sres shape := setup_shape3 exact_areas 2 g2 permute ins outs 0 st.
Definition ex2 (permute : Z) (ins outs : nat -> box2) (st : settings) : sres shape := setup_shape2 exact_areas 2 (2, 2) permute ins outs 0 st.
Lemma ex3_wf permute ins outs st : wf_call true (CSetup (ex3 permute ins outs st)).
Proof. unfold ex3, setup_shape3, smap. cbn [wf_call]. destruct (setup3d _ _ _ _ _ _ _); auto. apply shape3_len. Qed.
Lemma ex2_wf permute ins outs st : wf_call false (CSetup (ex2 permute ins outs st)).
Proof. unfold ex2, setup_shape2, smap. cbn [wf_call]. destruct (setup2d _ _ _ _ _ _ _); auto. apply shape2_len. Qed.

Definition reach3 := reach false 8 24 4 8 2 36 true.
Definition reach2 := reach false 8 16 4 8 2 24 false.
Definition run3 := run false 8 24 4 8 2 36 true.
Definition run2 := run false 8 16 4 8 2 24 false.
Definition hist3 := history false 8 24 4 8 2 36 true 2 (tob0 true) heap0.
Definition hist2 := history false 8 16 4 8 2 24 false 2 (tob0 false) heap0.

Lemma hist3_reach cs o n h : Forall (wf_call true) cs -> hist3 cs = Some (o, n, h) -> reach3 cs o n h.
Proof. intros F E. apply (history_reach false 8 24 4 8 2 36 true 2 (tob0 true) heap0 cs o n h heap0_wf heap0_user (tob0_ok true) F E). Qed.
Lemma hist2_reach cs o n h : Forall (wf_call false) cs -> hist2 cs = Some (o, n, h) -> reach2 cs o n h.
Proof. intros F E. apply (history_reach false 8 16 4 8 2 24 false 2 (tob0 false) heap0 cs o n h heap0_wf heap0_user (tob0_ok false) F E). Qed.

Definition ok {X} (o : option X) : bool := match o with Some _ => true | None => false end.
Lemma ok_ex {X Y Z'} (o : option (X * Y * Z')) : ok o = true -> exists x y z, o = Some (x, y, z).
Proof. destruct o as [[[x y] z]|]; [eauto|discriminate]. Qed.

(** settings, then setup, then two transforms *)
Definition mset : settings := mkset 2 0 2.
Definition good3 : list call := [CSet mset 1; CSetup (ex3 0 split3 split3 mset); CCompute; COnly1d; COnlyRemaps; COneRemap; CCompute].
Definition user3 : list call := [CSet mset 0; CSetup (ex3 0 split3 split3 mset); CSetupMemory (PTo 0) (PTo 1); CCompute].
Definition good2 : list call := [CSet mset 1; CSetup (ex2 0 split2 split2 mset); CCompute; COnly1d; COnlyRemaps; COneRemap; CCompute].
Definition user2 : list call := [CSet mset 0; CSetup (ex2 0 split2 split2 mset); CSetupMemory (PTo 0) (PTo 1); CCompute].

Ltac wf1 := lazymatch goal with
  | |- wf_call _ (CSetup (ex3 _ _ _ _)) => apply ex3_wf
  | |- wf_call _ (CSetup (ex2 _ _ _ _)) => apply ex2_wf
  | |- wf_call _ (CTune _ _ _ _ _ _ _) => idtac
  | |- _ => exact I end.
Ltac wfs := repeat (apply Forall_cons; [wf1|]); try apply Forall_nil.
Lemma good3_wf : Forall (wf_call true) good3. Proof. unfold good3. wfs. Qed.
Lemma user3_wf : Forall (wf_call true) user3. Proof. unfold user3. wfs. Qed.
Lemma good2_wf : Forall (wf_call false) good2. Proof. unfold good2. wfs. Qed.
Lemma user2_wf : Forall (wf_call false) user2. Proof. unfold user2. wfs. Qed.

Lemma good3_reach : exists o n h, reach3 good3 o n h.
Proof. destruct (ok_ex (hist3 good3)) as (o & n & h & E); [vm_compute; reflexivity|]. exists o, n, h. apply hist3_reach; [apply good3_wf|exact E]. Qed.
Lemma user3_reach : exists o n h, reach3 user3 o n h.
Proof. destruct (ok_ex (hist3 user3)) as (o & n & h & E); [vm_compute; reflexivity|]. exists o, n, h. apply hist3_reach; [apply user3_wf|exact E]. Qed.
Lemma good2_reach : exists o n h, reach2 good2 o n h.
Proof. destruct (ok_ex (hist2 good2)) as (o & n & h & E); [vm_compute; reflexivity|]. exists o, n, h. apply hist2_reach; [apply good2_wf|exact E]. Qed.
Lemma user2_reach : exists o n h, reach2 user2 o n h.
Proof. destruct (ok_ex (hist2 user2)) as (o & n & h & E); [vm_compute; reflexivity|]. exists o, n, h. apply hist2_reach; [apply user2_wf|exact E]. Qed.

(** ** failing histories *)
Definition err_of {X} (l : lres X) : option string := match l with LHalt e => Some e | _ => None end.
Definition is_ub {X} (l : lres X) : bool := match l with LUB => true | _ => false end.
Lemma is_ub_eq {X} (l : lres X) : is_ub l = true -> l = LUB.
Proof. destruct l; [discriminate|reflexivity|discriminate]. Qed.

(** run a history and continue *)
Definition after {X} (s : option (fobj * tobj * heap)) (k : fobj -> tobj -> heap -> X) (d : X) : X :=
  match s with Some (o, n, h) => k o n h | None => d end.
Lemma after_true s (k : fobj -> tobj -> heap -> bool) : after s k false = true -> exists o n h, s = Some (o, n, h) /\ k o n h = true.
Proof. destruct s as [[[o n] h]|]; [|discriminate]. cbn. eauto 6. Qed.

Definition libs (h : heap) : nat := List.length (filter is_lib (h_live h)).
Lemma libs_pos h : (0 < libs h)%nat -> exists b, In b (h_live h) /\ b_own b = OLib.
Proof.
  unfold libs. destruct (filter is_lib (h_live h)) as [|b t] eqn:E; [cbn; lia|]. intros _. exists b.
  assert (In b (filter is_lib (h_live h))) as I by (rewrite E; left; reflexivity). apply filter_In in I as [I J]. split; [exact I|]. unfold is_lib in J. destruct (b_own b); [reflexivity|discriminate].
Qed.

(** a second setup of an FFT2d object is accepted, and what the first one allocated is never freed *)
Lemma C35_refuted_proof : exists cs o n h res o' n' h' h'' b,
  reach2 cs o n h /\ steady cs /\ Forall fits_call cs /\ misuse cs (CSetup res) "FFT is already setup" /\ wf_call false (CSetup res) /\ fits_call (CSetup res) /\
  run2 (CSetup res) o n h = LOk ((o', n'), h') /\ del false false o' h' = LOk (tt, h'') /\ In b (h_live h'') /\ b_own b = OLib.
Proof.
  set (cs := [CSetup (ex2 0 split2 split2 mset)]). set (res := ex2 0 split2 split2 mset).
  destruct (after_true (hist2 cs) (fun o n h => match run2 (CSetup res) o n h with LOk ((o', _), h') =>
     match del false false o' h' with LOk (_, h'') => Nat.ltb 0 (libs h'') | _ => false end | _ => false end)) as (o & n & h & E & K); [vm_compute; reflexivity|].
  destruct (run2 (CSetup res) o n h) as [?| |[[o' n'] h']] eqn:E1; [discriminate K|discriminate K|]. destruct (del false false o' h') as [?| |[[] h'']] eqn:E2; [discriminate K|discriminate K|].
  apply Nat.ltb_lt, libs_pos in K as (b & B1 & B2). exists cs, o, n, h, res, o', n', h', h'', b.
  split; [apply hist2_reach; [unfold cs; wfs|exact E]|]. split; [|split; [|split; [|split; [|split; [|auto]]]]].
  - intros [|c [|c' a]] s mf t X; discriminate X.
  - unfold cs. constructor; [vm_compute; reflexivity|constructor].
  - split; [|reflexivity]. left. exact I.
  - apply ex2_wf.
  - vm_compute. reflexivity.
Qed.

(** destroying an FFT2d object that was never set up *)
Lemma C36_2d_unused_proof : exists o n h, reach2 [] o n h /\ del false false o h = LUB.
Proof.
  destruct (after_true (hist2 []) (fun o n h => is_ub (del false false o h))) as (o & n & h & E & K); [vm_compute; reflexivity|].
  exists o, n, h. split; [apply hist2_reach; [constructor|exact E] | apply is_ub_eq, K].
Qed.
(** destroying a Remap3d or Remap2d object that was never set up *)
Lemma C36_remap_unused_proof strict h r h1 : new_robj h = LOk (r, h1) -> del_robj strict r h1 = LUB.
Proof.
  unfold new_robj, alloc, lbind, lret. cbn [h_next h_live]. intros [= <- <-]. unfold del_robj, lbind. cbn [r_mem r_err r_coll r_comm Z.eqb].
  destruct (free _ _) as [?| |[? ?]] eqn:E1; [unfold free in E1; destruct (livep _ _); discriminate|reflexivity|].
  destruct (free _ h0) as [?| |[? ?]] eqn:E2; [unfold free in E2; destruct (livep _ _); discriminate|reflexivity|reflexivity].
Qed.
(** memoryflag switched off after setup: the buffers are never freed *)
Lemma C36_leak_proof : exists cs o n h h' b, reach3 cs o n h /\ del false true o h = LOk (tt, h') /\ In b (h_live h') /\ b_own b = OLib.
Proof.
  set (cs := [CSetup (ex3 0 split3 split3 mset); CSet mset 0]).
  destruct (after_true (hist3 cs) (fun o n h => match del false true o h with LOk (_, h'') => Nat.ltb 0 (libs h'') | _ => false end)) as (o & n & h & E & K); [vm_compute; reflexivity|].
  destruct (del false true o h) as [?| |[[] h']] eqn:E2; [discriminate K|discriminate K|].
  apply Nat.ltb_lt, libs_pos in K as (b & B1 & B2). exists cs, o, n, h, h', b. split; [apply hist3_reach; [unfold cs; wfs|exact E]|auto].
Qed.
(** memoryflag switched on after setup_memory: the caller's buffer is freed *)
Lemma C36_foreign_proof : exists cs o n h h' b, reach3 cs o n h /\ del false true o h = LOk (tt, h') /\ In b (h_live h) /\ b_own b = OUser /\ ~ In b (h_live h').
Proof.
  set (cs := [CSet mset 0; CSetup (ex3 0 split3 split3 mset); CSetupMemory (PTo 0) (PTo 1); CSet mset 1]).
  set (b := mkblk 0 OUser KData 4096).
  destruct (after_true (hist3 cs) (fun o n h => existsb (fun x => Nat.eqb (b_id x) 0 && negb (is_lib x) && (b_bytes x =? 4096) && match b_kind x with KData => true | _ => false end) (h_live h) && match del false true o h with LOk (_, h'') => negb (existsb (fun x => Nat.eqb (b_id x) 0) (h_live h'')) | _ => false end)) as (o & n & h & E & K); [vm_compute; reflexivity|].
  apply andb_prop in K as [K1 K2]. destruct (del false true o h) as [?| |[[] h']] eqn:E2; [discriminate K2|discriminate K2|].
  exists cs, o, n, h, h', b. split; [apply hist3_reach; [unfold cs; wfs|exact E]|]. split; [exact E2|]. split; [|split; [reflexivity|]].
  - apply existsb_exists in K1 as (x & I & Q). repeat (apply andb_prop in Q as [Q ?]). destruct x as [i w k z]. cbn [b_id b_own b_kind b_bytes] in *.
    apply Nat.eqb_eq in Q. subst i. unfold is_lib in *. cbn [b_own] in *. destruct w; [discriminate|]. destruct k; [|discriminate]. apply Z.eqb_eq in H0. subst z. exact I.
  - intros X. apply negb_true_iff in K2. assert (existsb (fun x => Nat.eqb (b_id x) 0) (h_live h') = true); [|congruence]. apply existsb_exists. exists b. split; [exact X|reflexivity].
Qed.
(** by the letter of the C++ standard every destructor uses the deleted Memory object *)
Lemma C36_strict_proof : exists cs o n h, reach true 8 24 4 8 2 36 true cs o n h /\ del true true o h = LUB.
Proof.
  set (cs := [CSetup (ex3 0 split3 split3 mset)]).
  destruct (after_true (history true 8 24 4 8 2 36 true 2 (tob0 true) heap0 cs) (fun o n h => is_ub (del true true o h))) as (o & n & h & E & K); [vm_compute; reflexivity|].
  exists cs, o, n, h. split; [|apply is_ub_eq, K].
  apply (history_reach true 8 24 4 8 2 36 true 2 (tob0 true) heap0 cs o n h heap0_wf heap0_user (tob0_ok true)); [unfold cs; wfs|exact E].
Qed.

(** a Remap object: set up, used, destroyed *)
Definition rcnt0 : rcnt := mkrcnt 2 2 true 0 4 8.
Lemma rreach_ex : exists r h, rreach 8 24 4 8 2 36 r h /\ (0 < libs h)%nat.
Proof.
  destruct (new_robj heap0) as [?| |[r0 h1]] eqn:E0; [vm_compute in E0; discriminate| vm_compute in E0; discriminate|].
  destruct (setup_robj false 8 24 4 8 2 36 rcnt0 1 (set_coll 0 r0) h1) as [?| |[r h]] eqn:E1;
    [vm_compute in E0; injection E0 as <- <-; vm_compute in E1; discriminate| vm_compute in E0; injection E0 as <- <-; vm_compute in E1; discriminate|].
  exists r, h. split; [eapply rr_setup; [apply heap0_wf|apply heap0_user|exact E0|exact E1]|].
  vm_compute in E0. injection E0 as <- <-. vm_compute in E1. injection E1 as <- <-. vm_compute. lia.
Qed.

(** ** construction *)
Lemma new_fobj_cases esize dim3 prec h :
  ((prec = 1 /\ esize = 4 \/ prec = 2 /\ esize = 8) -> exists o h', new_fobj esize dim3 prec h = LOk (o, h') /\
     o_setup o = false /\ o_smem o = false /\ o_set o = mkset 2 0 (if dim3 then 2 else 0) /\ o_memflag o = 1 /\ o_usage o = 0 /\
     filter (fun b => negb (is_lib b)) (h_live h') = filter (fun b => negb (is_lib b)) (h_live h)) /\
  (~ (prec = 1 \/ prec = 2) -> new_fobj esize dim3 prec h = LHalt "Invalid precision setting for FFT lib") /\
  ((prec = 1 /\ esize <> 4 \/ prec = 2 /\ esize <> 8) -> new_fobj esize dim3 prec h = LHalt "Precision mis-match with FFT lib").
Proof.
  unfold new_fobj, lbind, alloc, lfail, lret. cbn [h_next h_live].
  destruct (Z.eqb_spec prec 1), (Z.eqb_spec prec 2), (Z.eqb_spec esize 4), (Z.eqb_spec esize 8); cbn [negb andb orb];
    (split; [intros H; first [exfalso; lia | eexists _, _; split; [reflexivity|]; cbn [h_live filter is_lib b_own negb o_setup o_smem o_set o_memflag o_usage]; auto 10]|
     split; intros H; first [exfalso; lia | reflexivity]]).
Qed.
Lemma defaults3 esize prec h o h' : new_fobj esize true prec h = LOk (o, h') -> o_set o = mkset 2 0 2 /\ o_memflag o = 1.
Proof.
  intros E. destruct (new_fobj_cases esize true prec h) as (A & B & C).
  destruct (Z.eq_dec prec 1) as [P|P]; [destruct (Z.eq_dec esize 4)|destruct (Z.eq_dec prec 2); [destruct (Z.eq_dec esize 8)|]];
    try (destruct A as (o1 & h1 & E1 & _ & _ & S & M & _); [lia|]; rewrite E1 in E; injection E as <- <-; auto); try (rewrite C in E by lia; discriminate E); rewrite B in E by lia; discriminate E.
Qed.
Lemma defaults2 esize prec h o h' : new_fobj esize false prec h = LOk (o, h') -> o_set o = mkset 2 0 0 /\ o_memflag o = 1.
Proof.
  intros E. destruct (new_fobj_cases esize false prec h) as (A & B & C).
  destruct (Z.eq_dec prec 1) as [P|P]; [destruct (Z.eq_dec esize 4)|destruct (Z.eq_dec prec 2); [destruct (Z.eq_dec esize 8)|]];
    try (destruct A as (o1 & h1 & E1 & _ & _ & S & M & _); [lia|]; rewrite E1 in E; injection E as <- <-; auto); try (rewrite C in E by lia; discriminate E); rewrite B in E by lia; discriminate E.
Qed.

(** ** the hypotheses of the general theorems on these histories *)
Definition roomb (o : fobj) (h : heap) : bool :=
  existsb (fun x => Nat.eqb (b_id x) 0 && (snd (fst (o_sizes o)) * 8 <=? b_bytes x)) (h_live h) &&
  existsb (fun x => Nat.eqb (b_id x) 1 && (snd (o_sizes o) * 8 <=? b_bytes x)) (h_live h).
Lemma roomb_ok o h : roomb o h = true -> buf 8 (h_live h) (snd (fst (o_sizes o))) (PTo 0) /\ buf 8 (h_live h) (snd (o_sizes o)) (PTo 1).
Proof.
  intros H. apply andb_prop in H as [A B]. apply existsb_exists in A as (x & A1 & A2). apply existsb_exists in B as (y & B1 & B2).
  apply andb_prop in A2 as [A2 A3], B2 as [B2 B3]. apply Nat.eqb_eq in A2, B2. apply Z.leb_le in A3, B3.
  split; right; [exists x|exists y]; rewrite ?A2, ?B2; auto.
Qed.
Definition no_set (c : call) : bool := match c with CSet _ _ => false | _ => true end.
Lemma steady_tail c t : forallb no_set t = true -> steady (c :: t).
Proof.
  intros F a s mf b E W. destruct a as [|x a]; [inversion W|]. exfalso. injection E as _ ->. rewrite forallb_forall in F.
  specialize (F (CSet s mf) ltac:(apply in_or_app; right; left; reflexivity)). discriminate F.
Qed.
Lemma steady_nil : steady [].
Proof. intros [|x a] s mf b E; discriminate E. Qed.

(** one setup only *)
Definition no_setup (c : call) : bool := match c with CSetup _ | CTune _ _ _ _ _ _ _ => false | _ => true end.
Lemma once_second c d t : no_setup c = true -> forallb no_setup t = true -> once (c :: d :: t).
Proof.
  intros C F a x b E S W. destruct a as [|a1 [|a2 a]]; [inversion W| |].
  - injection E as <- _ _. inversion W as [? ? Y|? ? Y]; subst; [destruct c; try exact Y; discriminate C|inversion Y].
  - injection E as _ _ ->. rewrite forallb_forall in F. specialize (F x ltac:(apply in_or_app; right; left; reflexivity)). destruct x; try exact S; discriminate F.
Qed.
Lemma user3_legal : exists o n h, reach3 user3 o n h /\ steady user3 /\ Forall fits_call user3 /\ room 8 user3 o h /\ (forall msg, ~ misuse user3 CCompute msg).
Proof.
  destruct (after_true (hist3 user3) (fun o n h => roomb o h)) as (o & n & h & E & K); [vm_compute; reflexivity|].
  exists o, n, h. split; [apply hist3_reach; [apply user3_wf|exact E]|]. split; [apply steady_tail; reflexivity|]. split; [|split].
  - unfold user3. repeat (apply Forall_cons; [lazymatch goal with |- fits_call (CSetup _) => vm_compute; reflexivity | |- _ => exact I end|]). apply Forall_nil.
  - intros _ us ur U. cbv in U. injection U as <- <-. apply roomb_ok, K.
  - intros msg. cbn [misuse]. assert (was_setup user3) as W by (right; left; exact I).
    assert (has_buffers user3) as B by (exists (firstn 2 user3), (CSetupMemory (PTo 0) (PTo 1)), [CCompute]; split; [reflexivity|right; eauto]). tauto.
Qed.
Lemma user2_legal : exists o n h, reach2 user2 o n h /\ steady user2 /\ once user2 /\ Forall fits_call user2 /\ room 8 user2 o h /\ (forall msg, ~ misuse user2 CCompute msg).
Proof.
  destruct (after_true (hist2 user2) (fun o n h => roomb o h)) as (o & n & h & E & K); [vm_compute; reflexivity|].
  exists o, n, h. split; [apply hist2_reach; [apply user2_wf|exact E]|]. split; [apply steady_tail; reflexivity|]. split; [|split; [|split]].
  - apply once_second; reflexivity.
  - unfold user2. repeat (apply Forall_cons; [lazymatch goal with |- fits_call (CSetup _) => vm_compute; reflexivity | |- _ => exact I end|]). apply Forall_nil.
  - intros _ us ur U. cbv in U. injection U as <- <-. apply roomb_ok, K.
  - intros msg. cbn [misuse]. assert (was_setup user2) as W by (right; left; exact I).
    assert (has_buffers user2) as B by (exists (firstn 2 user2), (CSetupMemory (PTo 0) (PTo 1)), [CCompute]; split; [reflexivity|right; eauto]). tauto.
Qed.
Lemma steady3_ex : (exists o n h, reach3 good3 o n h) /\ steady good3 /\ (exists o n h, reach3 [] o n h) /\ steady [].
Proof.
  split; [exact good3_reach|]. split; [apply steady_tail; reflexivity|]. split; [|exact steady_nil].
  destruct (ok_ex (hist3 [])) as (o & n & h & E); [vm_compute; reflexivity|]. exists o, n, h. apply hist3_reach; [constructor|exact E].
Qed.
Lemma steady2_ex : (exists o n h, reach2 good2 o n h) /\ steady good2 /\ once good2 /\ was_setup good2.
Proof.
  split; [exact good2_reach|]. split; [apply steady_tail; reflexivity|]. split; [apply once_second; reflexivity|]. right. left. exact I.
Qed.
