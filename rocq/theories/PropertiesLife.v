(** PropertiesLife.v : properties C34-C36, C39, C40, C44, C45, C47, C48 (life of an object, tuning, memory), proofs by reference.

    [esize] bytes per scalar, [plsize] bytes of a pack plan, [rqsize] bytes of an MPI_Request, [ptsize] bytes of a pointer,
    [nprocs] ranks, [xsize] bytes of an extent; [dim3 = true]: FFT3d, [false]: FFT2d. *)

From Coq Require Import QArith Permutation.
From Verif Require Import Base Spec Count Layout LayoutProofs LayoutFinal Sched Remap RemapInst RemapThms Setup3d Setup3dProofs Setup2d Setup2dProofs Fft3dEx Fft2dEx.
From Verif Require Import Life LifeProofs LifeFft LifeObj Tune TuneProofs TuneNum TuneTop Proto ProtoProofs TuneFinal MemUse TuneReal LifeEx TuneEx.
Open Scope Z_scope.

(** ** C34 *)
(** every misuse (Proto.misuse, after the documentation) stops with its message, after any history of calls *)
Theorem C34_misuse_reported : forall esize plsize rqsize ptsize nprocs xsize cs c o n h msg, 0 < esize ->
  reach false esize plsize rqsize ptsize nprocs xsize true cs o n h -> misuse cs c msg ->
  run false esize plsize rqsize ptsize nprocs xsize true c o n h = LHalt msg.
Proof. intros. apply (misuse_halts esize plsize rqsize ptsize nprocs xsize H true cs); auto. discriminate. Qed.
Print Assumptions C34_misuse_reported.
Example C34_misuse_example : (exists o n h, reach3 [] o n h) /\ misuse [] CCompute "Cannot compute FFT before setup" /\
  (exists o n h, reach3 good3 o n h) /\ misuse good3 (CSetup (ex3 0 split3 split3 mset)) "FFT is already setup".
Proof.
  split; [exact new3_reach|]. split; [left; split; [exact not_setup|reflexivity]|]. split; [exact good3_reach|].
  split; [right; left; exact I|reflexivity].
Qed.

(** no other message is ever given, except by the validation of the layout (C15, C19) *)
Theorem C34_only_misuse_reported : forall esize plsize rqsize ptsize nprocs xsize cs c o n h msg, 0 < esize ->
  reach false esize plsize rqsize ptsize nprocs xsize true cs o n h -> wf_call true c ->
  run false esize plsize rqsize ptsize nprocs xsize true c o n h = LHalt msg ->
  misuse cs c msg \/ layout_error c msg.
Proof. intros. destruct (halts_only esize plsize rqsize ptsize nprocs xsize H true cs c o n h msg) as [[? _]|?]; auto. Qed.
Print Assumptions C34_only_misuse_reported.
Example C34_only_example : exists o n h, reach3 [] o n h /\ wf_call true CCompute /\ run3 CCompute o n h = LHalt "Cannot compute FFT before setup".
Proof.
  destruct new3_reach as (o & n & h & R). exists o, n, h. split; [exact R|]. split; [exact I|].
  apply (misuse_halts 8 24 4 8 2 36 ltac:(lia) true [] CCompute o n h _ R); [left; split; [exact not_setup|reflexivity]|discriminate].
Qed.

(** a call that is no misuse returns, and changes nothing but what it is for; tune is C39 *)
Theorem C34_legal_calls_return : forall esize plsize rqsize ptsize nprocs xsize cs c o n h, 0 < esize ->
  reach false esize plsize rqsize ptsize nprocs xsize true cs o n h -> steady cs -> Forall fits_call cs -> room esize cs o h -> wf_call true c ->
  (match c with CTune _ _ _ _ _ _ _ => False | CSetup SUB => False | _ => True end) ->
  (forall msg, ~ misuse cs c msg) -> (forall msg, ~ layout_error c msg) ->
  exists o' h', run false esize plsize rqsize ptsize nprocs xsize true c o n h = LOk ((o', n), h') /\
    (match c with CSet _ _ | CSetup _ => True | CSetupMemory _ _ => h' = h | _ => o' = o /\ h' = h end).
Proof.
  intros. apply (legal_calls esize plsize rqsize ptsize nprocs xsize H true cs c o n h H0 H1); auto.
  - eapply once_reach; eauto.
  - destruct c as [| [| |] | | | | | |]; auto; intros W; eapply H6; split; eauto.
Qed.
Print Assumptions C34_legal_calls_return.
Example C34_legal_example : exists o n h, reach3 user3 o n h /\ steady user3 /\ Forall fits_call user3 /\ room 8 user3 o h /\ (forall msg, ~ misuse user3 CCompute msg).
Proof. exact user3_legal. Qed.

(** the layouts setup computes meet [fits_call]: without the exchange option always, with it if input and output layouts agree (else C26_overflow_refuted) *)
Theorem C34_fits : forall ar n N permute ins outs r st, area_laws ar -> (r < n)%nat -> ints3 N -> dims_ok3 N -> perm_ok3 permute ->
  (forall q, (q < n)%nat -> inside3 N (ins q)) -> Count.zsum n (fun q => vol3 (ins q)) = (let '(x, y, z) := N in x * y * z) ->
  (forall q, (q < n)%nat -> legal3 (outs q)) -> st_exch st = 0 ->
  exists sh, setup_shape3 ar n N permute ins outs r st = SOk sh /\ shape_len true sh = true /\ shape_fits sh = true.
Proof. exact can_setup3_plain. Qed.
Print Assumptions C34_fits.
Example C34_fits_example : exists sh, setup_shape3 exact_areas 2 g2 0 whole3 isplit3 0 mset = SOk sh /\ shape_len true sh = true /\ shape_fits sh = true.
Proof. exact fits_ex. Qed.

(** ** C35 *)
Theorem C35_misuse_reported : forall esize plsize rqsize ptsize nprocs xsize cs c o n h msg, 0 < esize ->
  reach false esize plsize rqsize ptsize nprocs xsize false cs o n h -> misuse cs c msg -> ~ again cs c ->
  run false esize plsize rqsize ptsize nprocs xsize false c o n h = LHalt msg.
Proof. intros. apply (misuse_halts esize plsize rqsize ptsize nprocs xsize H false cs); auto. Qed.
Print Assumptions C35_misuse_reported.
Example C35_misuse_example : exists o n h, reach2 good2 o n h /\ misuse good2 (CSetupMemory (PTo 0) (PTo 1)) "Cannot setup FFT memory with memoryflag set" /\ ~ again good2 (CSetupMemory (PTo 0) (PTo 1)).
Proof.
  destruct good2_reach as (o & n & h & R). exists o, n, h. split; [exact R|]. split; [right|intros (_ & res & X); discriminate X].
  split; [right; left; exact I|]. split; [discriminate|reflexivity].
Qed.
Theorem C35_only_misuse_reported : forall esize plsize rqsize ptsize nprocs xsize cs c o n h msg, 0 < esize ->
  reach false esize plsize rqsize ptsize nprocs xsize false cs o n h -> wf_call false c ->
  run false esize plsize rqsize ptsize nprocs xsize false c o n h = LHalt msg ->
  misuse cs c msg /\ ~ again cs c \/ layout_error c msg.
Proof. intros. destruct (halts_only esize plsize rqsize ptsize nprocs xsize H false cs c o n h msg) as [[? ?]|?]; auto. Qed.
Print Assumptions C35_only_misuse_reported.
Example C35_only_example : exists o n h, reach2 [] o n h /\ wf_call false COnly1d /\ run2 COnly1d o n h = LHalt "Cannot compute 1d FFTs before setup".
Proof.
  destruct new2_reach as (o & n & h & R). exists o, n, h. split; [exact R|]. split; [exact I|].
  apply (misuse_halts 8 16 4 8 2 24 ltac:(lia) false [] COnly1d o n h _ R); [split; [exact not_setup|reflexivity]|intros _ (X & _); exact (not_setup X)].
Qed.
Theorem C35_legal_calls_return : forall esize plsize rqsize ptsize nprocs xsize cs c o n h, 0 < esize ->
  reach false esize plsize rqsize ptsize nprocs xsize false cs o n h -> steady cs -> once cs -> Forall fits_call cs -> room esize cs o h -> wf_call false c ->
  (match c with CTune _ _ _ _ _ _ _ => False | CSetup SUB => False | _ => True end) ->
  (forall msg, ~ misuse cs c msg) -> (forall msg, ~ layout_error c msg) ->
  exists o' h', run false esize plsize rqsize ptsize nprocs xsize false c o n h = LOk ((o', n), h') /\
    (match c with CSet _ _ | CSetup _ => True | CSetupMemory _ _ => h' = h | _ => o' = o /\ h' = h end).
Proof.
  intros. apply (legal_calls esize plsize rqsize ptsize nprocs xsize H false cs c o n h H0 H1); auto.
  destruct c as [| [| |] | | | | | |]; auto; intros W; eapply H7; split; eauto.
Qed.
Print Assumptions C35_legal_calls_return.
Example C35_legal_example : exists o n h, reach2 user2 o n h /\ steady user2 /\ once user2 /\ Forall fits_call user2 /\ room 8 user2 o h /\ (forall msg, ~ misuse user2 CCompute msg).
Proof. exact user2_legal. Qed.
Theorem C35_fits : forall ar n N permute ins outs r st, area_laws ar -> (r < n)%nat -> ints2 N -> dims_ok2 N -> perm_ok2 permute ->
  (forall q, (q < n)%nat -> inside2 N (ins q)) -> Count.zsum n (fun q => vol2 (ins q)) = (let '(x, y) := N in x * y) ->
  (forall q, (q < n)%nat -> legal2 (outs q)) ->
  exists sh, setup_shape2 ar n N permute ins outs r st = SOk sh /\ shape_len false sh = true /\ shape_fits sh = true.
Proof. exact can_setup2_one. Qed.
Print Assumptions C35_fits.

Example C35_fits_example : exists sh, setup_shape2 exact_areas 2 (2, 2) 0 split2 split2 0 mset = SOk sh /\ shape_len false sh = true /\ shape_fits sh = true.
Proof. vm_compute. eexists. split; [reflexivity|]. split; reflexivity. Qed.

(** a second setup of an FFT2d object is accepted silently; what the first one allocated is never freed *)
Theorem C35_second_setup_refuted : exists cs o n h res o' n' h' h'' b,
  reach2 cs o n h /\ steady cs /\ Forall fits_call cs /\ misuse cs (CSetup res) "FFT is already setup" /\ wf_call false (CSetup res) /\ fits_call (CSetup res) /\
  run2 (CSetup res) o n h = LOk ((o', n'), h') /\ del false false o' h' = LOk (tt, h'') /\ In b (h_live h'') /\ b_own b = OLib.
Proof. exact C35_refuted_proof. Qed.
Print Assumptions C35_second_setup_refuted.

(** ** C36 *)
(** destroying the object frees all the library allocated and nothing else *)
Theorem C36_destroy_3d : forall esize plsize rqsize ptsize nprocs xsize cs o n h, 0 < esize ->
  reach false esize plsize rqsize ptsize nprocs xsize true cs o n h -> steady cs ->
  exists h', del false true o h = LOk (tt, h') /\ wf h' /\ Permutation (h_live h') (filter (fun b => negb (is_lib b)) (h_live h)).
Proof.
  intros. eapply (del_ok esize plsize rqsize ptsize nprocs xsize H true); eauto; [|discriminate].
  eapply once_reach; eauto.
Qed.
Print Assumptions C36_destroy_3d.
Example C36_example : (exists o n h, reach3 good3 o n h) /\ steady good3 /\ (exists o n h, reach3 [] o n h) /\ steady [].
Proof. exact steady3_ex. Qed.
Theorem C36_destroy_2d : forall esize plsize rqsize ptsize nprocs xsize cs o n h, 0 < esize ->
  reach false esize plsize rqsize ptsize nprocs xsize false cs o n h -> steady cs -> once cs -> was_setup cs ->
  exists h', del false false o h = LOk (tt, h') /\ wf h' /\ Permutation (h_live h') (filter (fun b => negb (is_lib b)) (h_live h)).
Proof. intros. eapply (del_ok esize plsize rqsize ptsize nprocs xsize H false); eauto. Qed.
Print Assumptions C36_destroy_2d.
Example C36_example_2d : (exists o n h, reach2 good2 o n h) /\ steady good2 /\ once good2 /\ was_setup good2.
Proof. exact steady2_ex. Qed.
(** a Remap3d or Remap2d object that was set up *)
Theorem C36_destroy_remap : forall esize plsize rqsize ptsize nprocs xsize r h, rreach esize plsize rqsize ptsize nprocs xsize r h ->
  exists h', del_robj false r h = LOk (tt, h') /\ wf h' /\ Permutation (h_live h') (filter (fun b => negb (is_lib b)) (h_live h)).
Proof. exact remap_del_ok. Qed.
Print Assumptions C36_destroy_remap.
Example C36_remap_example : exists r h, rreach 8 24 4 8 2 36 r h /\ (0 < libs h)%nat.
Proof. exact rreach_ex. Qed.
(** otherwise it fails: FFT2d never set up; Remap never set up; memoryflag changed after setup *)
Theorem C36_unused_2d_refuted : exists o n h, reach2 [] o n h /\ del false false o h = LUB.
Proof. exact C36_2d_unused_proof. Qed.
Print Assumptions C36_unused_2d_refuted.
Theorem C36_unused_remap_undefined : forall strict h r h1, new_robj h = LOk (r, h1) -> del_robj strict r h1 = LUB.
Proof. exact C36_remap_unused_proof. Qed.
Print Assumptions C36_unused_remap_undefined.
Example C36_unused_remap_example : exists r h1, new_robj heap0 = LOk (r, h1).
Proof. vm_compute. eauto. Qed.
Theorem C36_leak_refuted : exists cs o n h h' b, reach3 cs o n h /\ del false true o h = LOk (tt, h') /\ In b (h_live h') /\ b_own b = OLib.
Proof. exact C36_leak_proof. Qed.
Print Assumptions C36_leak_refuted.
Theorem C36_foreign_free_refuted : exists cs o n h h' b, reach3 cs o n h /\ del false true o h = LOk (tt, h') /\ In b (h_live h) /\ b_own b = OUser /\ ~ In b (h_live h').
Proof. exact C36_foreign_proof. Qed.
Print Assumptions C36_foreign_free_refuted.
(** the destructors call a member function through a deleted Memory pointer; strictly read this is already undefined *)
Theorem C36_strict_refuted : exists cs o n h, reach true 8 24 4 8 2 36 true cs o n h /\ del true true o h = LUB.
Proof. exact C36_strict_proof. Qed.
Print Assumptions C36_strict_refuted.

(** ** C39 *)
(** [clk] arbitrary but for each trial taking less than 1e20 s ([fast]) and the first times being representable ([countable]) *)
Theorem C39_tune_ready : forall esize plsize rqsize ptsize nprocs xsize dim3 cs o n h f clk root flag niter tmax tflag, 0 < esize ->
  reach false esize plsize rqsize ptsize nprocs xsize dim3 cs o n h -> ~ was_setup cs ->
  wf_call dim3 (CTune f clk root flag niter tmax tflag) -> (forall m, ~ misuse cs (CTune f clk root flag niter tmax tflag) m) ->
  can_setup f (o_set o) -> fast clk -> countable tmax (fst (first_times clk root 0)) (snd (first_times clk root 0)) niter ->
  exists o' n' h', run false esize plsize rqsize ptsize nprocs xsize dim3 (CTune f clk root flag niter tmax tflag) o n h = LOk ((o', n'), h') /\
    let best := mkset (n_cbest n') (n_ebest n') (n_pbest n') in
    o_setup o' = true /\ o_set o' = best /\ (exists sh, f best = SOk sh /\ o_sizes o' = s_sizes sh /\ o_dims o' = Some (s_dims sh)) /\
    (best = o_set o \/ legal best) /\
    (exists k, 0 <= k < n_trial n' /\ tried n' k (n_cbest n') (n_ebest n') (n_pbest n')) /\
    o_memflag o' = o_memflag o /\ (o_smem o' = true <-> o_memflag o <> 0) /\
    Permutation (filter (fun b => negb (is_lib b)) (h_live h')) (filter (fun b => negb (is_lib b)) (h_live h)) /\
    1 <= n_trial n' <= 9 /\ 0 < n_per n' /\ tcond dim3 n'.
Proof. intros. apply (tune_ready esize plsize rqsize ptsize nprocs xsize H dim3 cs o n h f clk root flag niter tmax tflag); auto. Qed.
Print Assumptions C39_tune_ready.
Example C39_example : exists o n h o' n' h', reach3 [] o n h /\ run3 tune3 o n h = LOk ((o', n'), h') /\
  n_trial n' = 9 /\ o_set o' = mkset 0 1 2 /\ o_memflag o' = 1.
Proof. exact tune3_result. Qed.
Example C39_hypotheses : (exists o n h, reach3 [] o n h) /\ (exists o n h, reach2 [] o n h) /\
  (forall o, tune_hyps true o (fn3 0 0 split3 split3) (table steps) None 0 5 0 0) /\ (forall o, tune_hyps false o (fn2 0 0 split2 split2) (table steps) None 1 3 (1000 # 1) 1).
Proof. split; [exact new3_reach|]. split; [exact new2_reach|]. split; [exact tune3_hyps|exact tune2_hyps]. Qed.
(** [can_setup] holds for the layouts setup computes: in 2d always, in 3d if input and output layouts agree *)
Theorem C39_can_setup_3d : forall ar n N ins outs r cur, area_laws ar -> (r < n)%nat -> ints3 N -> dims_ok3 N ->
  (forall q, (q < n)%nat -> inside3 N (ins q)) -> Count.zsum n (fun q => vol3 (ins q)) = (let '(x, y, z) := N in x * y * z) ->
  (forall q, (q < n)%nat -> ins q = outs q) ->
  can_setup (setup_shape3 ar n N 0 ins outs r) cur.
Proof. exact can_setup3. Qed.
Print Assumptions C39_can_setup_3d.
Theorem C39_can_setup_2d : forall ar n N permute ins outs r cur, area_laws ar -> (r < n)%nat -> ints2 N -> dims_ok2 N -> perm_ok2 permute ->
  (forall q, (q < n)%nat -> inside2 N (ins q)) -> Count.zsum n (fun q => vol2 (ins q)) = (let '(x, y) := N in x * y) ->
  (forall q, (q < n)%nat -> legal2 (outs q)) ->
  can_setup (setup_shape2 ar n N permute ins outs r) cur.
Proof. exact can_setup2. Qed.
Print Assumptions C39_can_setup_2d.
Example C39_can_example : (forall cur, can_setup (fn3 0 0 split3 split3) cur) /\ (forall cur, can_setup (fn2 0 0 split2 split2) cur).
Proof. split; [exact fn3_can|exact fn2_can]. Qed.
(** in 3d with different layouts the exchange = 1 trials overrun the buffers *)
Theorem C39_overflow_refuted : exists o n h, reach3 [] o n h /\ ~ was_setup [] /\ wf_call true tune_bad /\ (forall m, ~ misuse [] tune_bad m) /\
  (forall s, exists sh, fn3 0 0 whole3 isplit3 s = SOk sh /\ (st_exch s = 0 -> shape_fits sh = true)) /\
  fast (table steps) /\ countable 0 (fst (first_times (table steps) None 0)) (snd (first_times (table steps) None 0)) 1 /\
  run3 tune_bad o n h = LUB.
Proof. exact C39_overflow_proof. Qed.
Print Assumptions C39_overflow_refuted.
(** a clock that does not advance during the first transform: division by zero *)
Theorem C39_clock_refuted : exists o n h, reach3 [] o n h /\ ~ was_setup [] /\ wf_call true tune_zero /\ (forall m, ~ misuse [] tune_zero m) /\
  can_setup (fn3 0 0 split3 split3) (o_set o) /\ fast (table coarse) /\ run3 tune_zero o n h = LUB.
Proof. exact C39_clock_proof. Qed.
Print Assumptions C39_clock_refuted.

(** ** C40 *)
(** [chosen]: fastest of the collective/exchange trials; then, if packflag is varied, the fastest of those three with these *)
Theorem C40_tune_choice : forall esize plsize rqsize ptsize nprocs xsize dim3 cs o n h f clk root flag niter tmax tflag, 0 < esize ->
  reach false esize plsize rqsize ptsize nprocs xsize dim3 cs o n h -> ~ was_setup cs ->
  wf_call dim3 (CTune f clk root flag niter tmax tflag) -> (forall m, ~ misuse cs (CTune f clk root flag niter tmax tflag) m) ->
  can_setup f (o_set o) -> fast clk -> countable tmax (fst (first_times clk root 0)) (snd (first_times clk root 0)) niter ->
  exists o' n' h' lo mid, run false esize plsize rqsize ptsize nprocs xsize dim3 (CTune f clk root flag niter tmax tflag) o n h = LOk ((o', n'), h') /\
    chosen n' lo mid /\ (lo = 0 \/ lo = 1 /\ n_trial n' = 2).
Proof. intros. apply (tune_choice esize plsize rqsize ptsize nprocs xsize H dim3 cs o n h f clk root flag niter tmax tflag); auto. Qed.
Print Assumptions C40_tune_choice.
Theorem C40_slower_refuted : exists o n h o' n' h' k t b, reach3 [] o n h /\ tune_hyps true o (fn3 0 0 split3 split3) (table slower) None 0 5 0 0 /\
  run3 tune_slower o n h = LOk ((o', n'), h') /\
  0 <= k < n_trial n' /\ zget (n_tfft n') k = Some t /\ (t < n_besttime n')%Q /\
  (forall k', tried n' k' (n_cbest n') (n_ebest n') (n_pbest n') -> 0 <= k' < n_trial n' -> zget (n_tfft n') k' = Some b) /\ (t < b)%Q.
Proof. exact C40_refuted_proof. Qed.
Print Assumptions C40_slower_refuted.
Theorem C40_initial_refuted : exists o n h o' n' h', reach3 [CSet (mkset 0 0 2) 1] o n h /\
  ~ was_setup [CSet (mkset 0 0 2) 1] /\ wf_call true tune_few /\ (forall m, ~ misuse [CSet (mkset 0 0 2) 1] tune_few m) /\
  can_setup (fn3 0 0 split3 split3) (o_set o) /\ fast (table few) /\ countable 6 (fst (first_times (table few) None 0)) (snd (first_times (table few) None 0)) 1 /\
  run3 tune_few o n h = LOk ((o', n'), h') /\ o_set o = mkset 0 0 2 /\ o_set o' = mkset 1 0 2 /\
  (snd (first_times (table few) None 0) < n_besttime n')%Q /\ n_per n' = 1.
Proof. exact C40_initial_proof. Qed.
Print Assumptions C40_initial_refuted.

(** ** C44 *)
(** all bytes the library holds after setup = memusage + what is left out per remap *)
Theorem C44_memusage : forall esize plsize rqsize ptsize nprocs xsize dim3 cs o n h sh o' n' h', 0 < esize ->
  reach false esize plsize rqsize ptsize nprocs xsize dim3 cs o n h -> ~ was_setup cs -> shape_len dim3 sh = true ->
  run false esize plsize rqsize ptsize nprocs xsize dim3 (CSetup (SOk sh)) o n h = LOk ((o', n'), h') ->
  lib_bytes h' = o_usage o' + LifeFft.zsum (left_out plsize rqsize ptsize) (all_cnts sh).
Proof. intros. apply (setup_usage esize plsize rqsize ptsize nprocs xsize H dim3 cs o n h sh o' n' h'); auto. Qed.
Print Assumptions C44_memusage.
(** with all-collective remaps and equal sizes of requests and pointers nothing is left out *)
Theorem C44_exact_3d : forall esize plsize rqsize nprocs xsize ar nr st N permute ins outs r f cs o n h o' n' h', 0 < esize ->
  area_laws ar -> (1 <= nr)%nat -> ints3 N -> setup3d ar nr st N permute ins outs = SOk f -> st_coll st = 1 ->
  reach false esize plsize rqsize rqsize nprocs xsize true cs o n h -> ~ was_setup cs ->
  run false esize plsize rqsize rqsize nprocs xsize true (CSetup (setup_shape3 ar nr N permute ins outs r st)) o n h = LOk ((o', n'), h') ->
  lib_bytes h' = o_usage o'.
Proof. intros. eapply (exact_usage3 esize plsize rqsize nprocs xsize H); eauto. Qed.
Print Assumptions C44_exact_3d.
Theorem C44_exact_2d : forall esize plsize rqsize nprocs xsize ar nr st N permute ins outs r f cs o n h o' n' h', 0 < esize ->
  area_laws ar -> (1 <= nr)%nat -> ints2 N -> setup2d ar nr st N permute ins outs = SOk f -> st_coll st = 1 ->
  reach false esize plsize rqsize rqsize nprocs xsize false cs o n h -> ~ was_setup cs ->
  run false esize plsize rqsize rqsize nprocs xsize false (CSetup (setup_shape2 ar nr N permute ins outs r st)) o n h = LOk ((o', n'), h') ->
  lib_bytes h' = o_usage o'.
Proof. intros. eapply (exact_usage2 esize plsize rqsize nprocs xsize H); eauto. Qed.
Print Assumptions C44_exact_2d.
Example C44_example : exists o n h o' n' h', reach false 8 24 8 8 2 36 true [] o n h /\
  run false 8 24 8 8 2 36 true (CSetup (fn3 0 0 split3 split3 (mkset 1 0 2))) o n h = LOk ((o', n'), h') /\ 0 < o_usage o'.
Proof. exact C44_exact_ex. Qed.
(** the counts used are numbers of ranks: those that share points, and (collective) those in the same group *)
Theorem C44_counts_3d : forall n pack r m, (r < n)%nat ->
  counts n (rm_coll m) (fun p q => meet3 (rm_in m p) (rm_out m q)) r (snd (cnt3 n pack r m)) /\ fst (cnt3 n pack r m) = cflag (rm_coll m).
Proof. exact cnt3_counts. Qed.
Print Assumptions C44_counts_3d.
Theorem C44_counts_2d : forall n pack r m, (r < n)%nat ->
  counts n (rm2_coll m) (fun p q => meet2 (rm2_in m p) (rm2_out m q)) r (snd (cnt2 n pack r m)) /\ fst (cnt2 n pack r m) = cflag (rm2_coll m).
Proof. exact cnt2_counts. Qed.
Print Assumptions C44_counts_2d.
Example C44_counts_example : cnt3 2 2 0 (mkrm3 false 0 whole3 isplit3) = (0, mkrcnt 2 1 true 0 8 8) /\ cnt3 2 2 1 (mkrm3 true 0 whole3 isplit3) = (1, mkrcnt 0 1 false 2 0 8).
Proof. split; vm_compute; reflexivity. Qed.
Theorem C44_under_refuted : exists o n h res o' n' h', reach false 8 24 8 8 2 36 true [] o n h /\ ~ was_setup [] /\ wf_call true (CSetup res) /\
  res = fn3 0 0 split3 split3 (mkset 0 0 2) /\ run false 8 24 8 8 2 36 true (CSetup res) o n h = LOk ((o', n'), h') /\ o_usage o' < lib_bytes h'.
Proof. exact C44_refuted_proof. Qed.
Print Assumptions C44_under_refuted.
Theorem C44_over_refuted : exists o n h res o' n' h', reach3 [] o n h /\ ~ was_setup [] /\ wf_call true (CSetup res) /\
  res = fn3 0 0 split3 split3 (mkset 1 0 2) /\ run3 (CSetup res) o n h = LOk ((o', n'), h') /\ lib_bytes h' < o_usage o'.
Proof. exact C44_over_proof. Qed.
Print Assumptions C44_over_refuted.

(** ** C45 and C48 *)
Theorem C45_precision : forall esize dim3 prec h,
  ((prec = 1 /\ esize = 4 \/ prec = 2 /\ esize = 8) -> exists o h', new_fobj esize dim3 prec h = LOk (o, h') /\ o_setup o = false) /\
  (~ (prec = 1 \/ prec = 2) -> new_fobj esize dim3 prec h = LHalt "Invalid precision setting for FFT lib") /\
  ((prec = 1 /\ esize <> 4 \/ prec = 2 /\ esize <> 8) -> new_fobj esize dim3 prec h = LHalt "Precision mis-match with FFT lib").
Proof. intros. destruct (new_fobj_cases esize dim3 prec h) as (A & B & C). split; [|auto]. intros X. destruct (A X) as (o & h' & E & S & _). eauto. Qed.
Print Assumptions C45_precision.
Example C45_example : exists o h, new_fobj 8 true 2 heap0 = LOk (o, h).
Proof. vm_compute. eauto. Qed.

(** documented defaults: collective 2, exchange 0, packflag 2, memoryflag 1 *)
Theorem C48_defaults_3d : forall esize prec h o h', new_fobj esize true prec h = LOk (o, h') -> o_set o = mkset 2 0 2 /\ o_memflag o = 1.
Proof. exact defaults3. Qed.
Print Assumptions C48_defaults_3d.
(** an FFT2d object starts with packflag 0 instead *)
Theorem C48_defaults_2d : forall esize prec h o h', new_fobj esize false prec h = LOk (o, h') -> o_set o = mkset 2 0 0 /\ o_memflag o = 1.
Proof. exact defaults2. Qed.
Print Assumptions C48_defaults_2d.
Theorem C48_packflag_2d_refuted : exists h o h', new_fobj 8 false 2 h = LOk (o, h') /\ st_pack (o_set o) <> 2.
Proof. exists heap0. vm_compute. eexists _, _. split; [reflexivity|]. discriminate. Qed.
Print Assumptions C48_packflag_2d_refuted.

(** ** C47 *)
(** two ranks with the same initial settings that receive the same broadcast times make the same sequence of communicating calls, if they choose the same settings *)
Theorem C47_lockstep : forall esize plsize rqsize ptsize nprocs xsize dim3 f f' clk clk' root root' flag niter tmax tflag o o1 n n1 h h1 cs cs1 x y s s1, 0 < esize ->
  reach false esize plsize rqsize ptsize nprocs xsize dim3 cs o n h -> reach false esize plsize rqsize ptsize nprocs xsize dim3 cs1 o1 n1 h1 -> o_set o = o_set o1 ->
  wf_call dim3 (CTune f clk root flag niter tmax tflag) -> wf_call dim3 (CTune f' clk' root' flag niter tmax tflag) ->
  first_times clk root 0 = first_times clk' root' 0 ->
  tune false esize plsize rqsize ptsize nprocs xsize dim3 f clk root flag niter tmax tflag o n (mktst h 0 []) = LOk (x, s) ->
  tune false esize plsize rqsize ptsize nprocs xsize dim3 f' clk' root' flag niter tmax tflag o1 n1 (mktst h1 0 []) = LOk (y, s1) ->
  n_cbest (snd x) = n_cbest (snd y) -> n_ebest (snd x) = n_ebest (snd y) -> n_pbest (snd x) = n_pbest (snd y) ->
  t_log s = t_log s1.
Proof. intros. eapply (tune_lockstep esize plsize rqsize ptsize nprocs xsize H dim3 f f' clk clk' root root' flag niter tmax tflag o o1 n n1 h h1 cs cs1); eauto. Qed.
Print Assumptions C47_lockstep.
Example C47_example : exists o n h x s y s1, reach3 [] o n h /\
  tuneq 0 (table steps) o n (mktst h 0 []) = LOk (x, s) /\ tuneq 1 (table steps) o n (mktst h 0 []) = LOk (y, s1) /\
  n_cbest (snd x) = n_cbest (snd y) /\ n_ebest (snd x) = n_ebest (snd y) /\ n_pbest (snd x) = n_pbest (snd y) /\ (0 < List.length (t_log s))%nat.
Proof. exact lockstep_ex. Qed.
(** nothing makes them choose the same: each rank compares its own times *)
Theorem C47_choice_refuted : exists o n h o1 n1 h1 x s x1 s1 c c1,
  reach3 [] o n h /\ reach3 [] o1 n1 h1 /\ o_set o = o_set o1 /\
  first_times (table steps) (Some t0) 0 = first_times (table other) (Some t0) 0 /\
  tuneq 0 (table steps) o n (mktst h 0 []) = LOk (x, s) /\ tuneq 1 (table other) o1 n1 (mktst h1 0 []) = LOk (x1, s1) /\
  final_set s = Some c /\ final_set s1 = Some c1 /\ coll_pp c <> coll_pp c1.
Proof. exact C47_refuted_proof. Qed.
Print Assumptions C47_choice_refuted.
