(** TuneEx.v : concrete runs of tune() and of memusage, and the failing ones behind the refuted claims. *)

From Coq Require Import QArith Permutation.
From Verif Require Import Base Spec Count Layout LayoutProofs LayoutFinal Sched Remap RemapInst RemapThms Setup3d Setup3dProofs Setup2d Setup2dProofs Fft3dEx Fft2dEx.
From Verif Require Import Life LifeProofs LifeFft LifeObj Tune TuneProofs TuneNum TuneTop Proto ProtoProofs TuneFinal MemUse TuneReal LifeEx.
Open Scope Z_scope.

(** a clock given by a table of seconds; afterwards it stands still *)
Definition table (l : list Z) (k : nat) : Q := inject_Z (nth k l (last l 0)).
Lemma nth_range l k a b : Forall (fun x => a <= x <= b) l -> a <= 0 <= b -> a <= nth k l (last l 0) <= b.
Proof.
  intros F Z0. assert (a <= last l 0 <= b) as L.
  { induction F as [|x t X F IH]; [exact Z0|]. cbn [last]. destruct t; [exact X|exact IH]. }
  destruct (nth_in_or_default k l (last l 0)) as [I| ->]; [|exact L]. rewrite Forall_forall in F. apply F, I.
Qed.
Lemma table_fast l : Forall (fun x => 0 <= x <= 1000) l -> fast (table l).
Proof.
  intros F i. unfold table. pose proof (nth_range l i 0 1000 F ltac:(lia)). pose proof (nth_range l (S i) 0 1000 F ltac:(lia)).
  apply Qle_lt_trans with (inject_Z 1000); [|reflexivity]. unfold Qle, Qminus, Qplus, Qopp, inject_Z. cbn. lia.
Qed.
Ltac ranges := repeat (apply Forall_cons; [lia|]); apply Forall_nil.

(** the layout of rank [r], as in LifeEx.v for rank 0 *)
Definition fn3 (r : nat) (permute : Z) (ins outs : nat -> box3) : settings -> sres shape := setup_shape3 exact_areas 2 g2 permute ins outs r.
Definition fn2 (r : nat) (permute : Z) (ins outs : nat -> box2) : settings -> sres shape := setup_shape2 exact_areas 2 (2, 2) permute ins outs r.

Lemma dim2 : dim_ok 2.
Proof. split; [lia|]. exists 1, 0, 0. cbn. lia. Qed.
Lemma ints_g2 : ints3 g2. Proof. cbn. unfold INT_MAX. lia. Qed.
Lemma ints_22 : ints2 (2, 2). Proof. cbn. unfold INT_MAX. lia. Qed.
Lemma dims_g2 : dims_ok3 g2. Proof. cbn. pose proof dim2. auto. Qed.
Lemma dims_22 : dims_ok2 (2, 2). Proof. cbn. pose proof dim2. auto. Qed.

Lemma fn3_can cur : can_setup (fn3 0 0 split3 split3) cur.
Proof.
  apply can_setup3; try lia; auto.
  - exact exact_laws.
  - exact ints_g2.
  - exact dims_g2.
  - intros [|[|q]] H; try lia; cbn; unfold legal3, ni, nj, nk; cbn; lia.
Qed.
Lemma fn2_can cur : can_setup (fn2 0 0 split2 split2) cur.
Proof.
  apply can_setup2; try lia; auto.
  - exact exact_laws.
  - exact ints_22.
  - exact dims_22.
  - left. reflexivity.
  - intros [|[|q]] H; try lia; cbn; unfold legal2, ni2, nj2; cbn; lia.
  - intros [|[|q]] H; try lia; unfold legal2, ni2, nj2; cbn; lia.
Qed.

(** tune without a time limit: 9 trials *)
Definition steps : list Z := [0;1; 1;2; 2;5; 5;7; 7;11; 11;13; 13;18; 18;23; 23;28; 28;31; 31;33; 33;34].
Definition tune3 : call := CTune (fn3 0 0 split3 split3) (table steps) None 0 5 0 0.
Definition tune2 : call := CTune (fn2 0 0 split2 split2) (table steps) None 1 3 (1000 # 1) 1.
Lemma tune3_wf : wf_call true tune3. Proof. exact (shape3_wf _ _ _ _ _ _ _). Qed.
Lemma tune2_wf : wf_call false tune2. Proof. exact (shape2_wf _ _ _ _ _ _ _). Qed.
Lemma new3_reach : exists o n h, reach3 [] o n h.
Proof. destruct (ok_ex (hist3 [])) as (o & n & h & E); [vm_compute; reflexivity|]. exists o, n, h. apply hist3_reach; [constructor|exact E]. Qed.
Lemma new2_reach : exists o n h, reach2 [] o n h.
Proof. destruct (ok_ex (hist2 [])) as (o & n & h & E); [vm_compute; reflexivity|]. exists o, n, h. apply hist2_reach; [constructor|exact E]. Qed.
Lemma not_setup : ~ was_setup [].
Proof. intros X. inversion X. Qed.
Lemma fine f clk root flag niter tmax tflag : -1 <= flag <= 1 -> 0 < niter -> (0 <= tmax)%Q -> 0 <= tflag <= 1 -> forall m, ~ misuse [] (CTune f clk root flag niter tmax tflag) m.
Proof. intros A B C D m. cbn [misuse]. pose proof not_setup. tauto. Qed.

Definition tune_hyps (esz : bool) (o : fobj) (f : settings -> sres shape) (clk : nat -> Q) root flag niter tmax tflag : Prop :=
  ~ was_setup [] /\ wf_call esz (CTune f clk root flag niter tmax tflag) /\ (forall m, ~ misuse [] (CTune f clk root flag niter tmax tflag) m) /\
  can_setup f (o_set o) /\ fast clk /\ countable tmax (fst (first_times clk root 0)) (snd (first_times clk root 0)) niter.
Ltac spl := repeat match goal with |- _ /\ _ => split end.
Lemma tune3_hyps o : tune_hyps true o (fn3 0 0 split3 split3) (table steps) None 0 5 0 0.
Proof.
  unfold tune_hyps. split; [exact not_setup|]. split; [exact tune3_wf|]. split; [apply fine; try lia; discriminate|].
  split; [apply fn3_can|]. split; [apply table_fast; unfold steps; ranges|]. vm_compute. spl; try reflexivity; discriminate.
Qed.
Lemma tune2_hyps o : tune_hyps false o (fn2 0 0 split2 split2) (table steps) None 1 3 (1000 # 1) 1.
Proof.
  unfold tune_hyps. split; [exact not_setup|]. split; [exact tune2_wf|]. split; [apply fine; try lia; discriminate|].
  split; [apply fn2_can|]. split; [apply table_fast; unfold steps; ranges|]. vm_compute. spl; try reflexivity; discriminate.
Qed.
Lemma tune3_result : exists o n h o' n' h', reach3 [] o n h /\ run3 tune3 o n h = LOk ((o', n'), h') /\
  n_trial n' = 9 /\ o_set o' = mkset 0 1 2 /\ o_memflag o' = 1.
Proof.
  destruct (after_true (hist3 []) (fun o n h => match run3 tune3 o n h with LOk ((o', n'), _) =>
    (n_trial n' =? 9) && (st_coll (o_set o') =? 0) && (st_exch (o_set o') =? 1) && (st_pack (o_set o') =? 2) && (o_memflag o' =? 1) | _ => false end)) as (o & n & h & E & K); [vm_compute; reflexivity|].
  destruct (run3 tune3 o n h) as [?| |[[o' n'] h']] eqn:E1; [discriminate K|discriminate K|].
  apply andb_prop in K as [K K5]. apply andb_prop in K as [K K4]. apply andb_prop in K as [K K3]. apply andb_prop in K as [K1 K2]. apply Z.eqb_eq in K1, K2, K3, K4, K5.
  exists o, n, h, o', n', h'. split; [apply hist3_reach; [constructor|exact E]|]. split; [exact E1|]. destruct (o_set o'). cbn in *. subst. auto.
Qed.

(** ** C39: layouts that differ *)
Definition tune_bad : call := CTune (fn3 0 0 whole3 isplit3) (table steps) None 0 1 0 0.
Lemma C39_overflow_proof : exists o n h, reach3 [] o n h /\ ~ was_setup [] /\ wf_call true tune_bad /\ (forall m, ~ misuse [] tune_bad m) /\
  (forall s, exists sh, fn3 0 0 whole3 isplit3 s = SOk sh /\ (st_exch s = 0 -> shape_fits sh = true)) /\
  fast (table steps) /\ countable 0 (fst (first_times (table steps) None 0)) (snd (first_times (table steps) None 0)) 1 /\
  run3 tune_bad o n h = LUB.
Proof.
  destruct (after_true (hist3 []) (fun o n h => is_ub (run3 tune_bad o n h))) as (o & n & h & E & K); [vm_compute; reflexivity|].
  exists o, n, h. split; [apply hist3_reach; [constructor|exact E]|]. split; [exact not_setup|]. split; [exact (shape3_wf _ _ _ _ _ _ _)|].
  split; [apply fine; try lia; discriminate|]. split; [|split; [apply table_fast; unfold steps; ranges|split; [vm_compute; spl; try reflexivity; discriminate|apply is_ub_eq, K]]].
  intros s. destruct (setup3d_cases exact_areas 2 s g2 0 whole3 isplit3 exact_laws ltac:(lia) ints_g2) as [(msg & _ & H)|(_ & _ & _ & [(H & _)|(_ & f & gf & gm & gs & gb & E2 & _)])].
  - exfalso. apply H. split; [exact dims_g2|]. split; [|reflexivity]. intros [|[|q]] Hq; try lia; cbn; unfold legal3, ni, nj, nk; cbn; lia.
  - exfalso. apply H. left. reflexivity.
  - unfold fn3, setup_shape3. rewrite E2. eexists. split; [reflexivity|]. intros X.
    pose proof (setup3d_facts exact_areas 2 s g2 0 whole3 isplit3 f exact_laws ltac:(lia) ints_g2 E2) as F.
    apply (shape3_fits 2 s g2 0 whole3 isplit3 f F); [|lia|].
    + intros q Hq. apply tile_isplit, Hq.
    + right. rewrite (F_exch _ _ _ _ _ _ _ F), X. reflexivity.
Qed.
(** a clock too coarse to see one transform: division by zero *)
Definition coarse : list Z := [0; 1].
Definition tune_zero : call := CTune (fn3 0 0 split3 split3) (table coarse) None 0 5 1 0.
Lemma C39_clock_proof : exists o n h, reach3 [] o n h /\ ~ was_setup [] /\ wf_call true tune_zero /\ (forall m, ~ misuse [] tune_zero m) /\
  can_setup (fn3 0 0 split3 split3) (o_set o) /\ fast (table coarse) /\ run3 tune_zero o n h = LUB.
Proof.
  destruct (after_true (hist3 []) (fun o n h => is_ub (run3 tune_zero o n h))) as (o & n & h & E & K); [vm_compute; reflexivity|].
  exists o, n, h. split; [apply hist3_reach; [constructor|exact E]|]. split; [exact not_setup|]. split; [exact (shape3_wf _ _ _ _ _ _ _)|].
  split; [apply fine; try lia; discriminate|]. split; [apply fn3_can|]. split; [apply table_fast; unfold coarse; ranges|apply is_ub_eq, K].
Qed.

(** ** C40 *)
(** the packflag trials compete only among themselves *)
Definition slower : list Z := [0;1; 1;2; 2;3; 3;8; 8;13; 13;18; 18;23; 23;28; 28;35; 35;41; 41;49; 49;50].
Definition tune_slower : call := CTune (fn3 0 0 split3 split3) (table slower) None 0 5 0 0.
Lemma C40_refuted_proof : exists o n h o' n' h' k t b, reach3 [] o n h /\ tune_hyps true o (fn3 0 0 split3 split3) (table slower) None 0 5 0 0 /\
  run3 tune_slower o n h = LOk ((o', n'), h') /\
  0 <= k < n_trial n' /\ zget (n_tfft n') k = Some t /\ (t < n_besttime n')%Q /\
  (forall k', tried n' k' (n_cbest n') (n_ebest n') (n_pbest n') -> 0 <= k' < n_trial n' -> zget (n_tfft n') k' = Some b) /\ (t < b)%Q.
Proof.
  destruct (after_true (hist3 []) (fun o n h => match run3 tune_slower o n h with LOk ((o', n'), _) =>
    (n_trial n' =? 9) && match zget (n_tfft n') 0, zget (n_tfft n') 7 with Some t, Some b => qlt t (n_besttime n') && qlt t b | _, _ => false end &&
    forallb (fun k => match zget (n_cflags n') k, zget (n_eflags n') k, zget (n_pflags n') k with Some c, Some e, Some p =>
       (k =? 7) || negb ((c =? n_cbest n') && (e =? n_ebest n') && (p =? n_pbest n')) | _, _, _ => false end) [0;1;2;3;4;5;6;7;8] | _ => false end)) as (o & n & h & E & K); [vm_compute; reflexivity|].
  destruct (run3 tune_slower o n h) as [?| |[[o' n'] h']] eqn:E1; [discriminate K|discriminate K|].
  apply andb_prop in K as [K K3]. apply andb_prop in K as [K1 K2]. apply Z.eqb_eq in K1.
  destruct (zget (n_tfft n') 0) as [t|] eqn:T0; [|discriminate K2]. destruct (zget (n_tfft n') 7) as [b|] eqn:T7; [|discriminate K2]. apply andb_prop in K2 as [K2 K4].
  assert (forall x y, qlt x y = true -> (x < y)%Q) as QL.
  { intros x y Q. unfold qlt in Q. apply negb_true_iff in Q. apply Qnot_le_lt. intros X. apply Qle_bool_iff in X. congruence. }
  exists o, n, h, o', n', h', 0, t, b. split; [apply hist3_reach; [constructor|exact E]|]. split.
  { unfold tune_hyps. split; [exact not_setup|]. split; [exact (shape3_wf _ _ _ _ _ _ _)|]. split; [apply fine; try lia; discriminate|].
    split; [apply fn3_can|]. split; [apply table_fast; unfold slower; ranges|]. vm_compute. spl; try reflexivity; discriminate. }
  split; [exact E1|]. split; [lia|]. split; [exact T0|]. split; [apply QL, K2|]. split; [|apply QL, K4].
  intros k' (A & B & C) R. rewrite K1 in R. assert (k' = 7) as ->; [|exact T7].
  assert (In k' [0;1;2;3;4;5;6;7;8]) as I by (cbn; lia). rewrite forallb_forall in K3. specialize (K3 k' I). rewrite A, B, C in K3.
  rewrite !Z.eqb_refl in K3. cbn [andb negb] in K3. rewrite orb_false_r in K3. apply Z.eqb_eq, K3.
Qed.
(** with time for two more runs only, the caller's settings are discarded although measured fastest *)
Definition few : list Z := [0;1; 1;2; 2;12; 12;22; 22;23].
Definition tune_few : call := CTune (fn3 0 0 split3 split3) (table few) None 1 1 6 0.
Lemma C40_initial_proof : exists o n h o' n' h', reach3 [CSet (mkset 0 0 2) 1] o n h /\
  ~ was_setup [CSet (mkset 0 0 2) 1] /\ wf_call true tune_few /\ (forall m, ~ misuse [CSet (mkset 0 0 2) 1] tune_few m) /\
  can_setup (fn3 0 0 split3 split3) (o_set o) /\ fast (table few) /\ countable 6 (fst (first_times (table few) None 0)) (snd (first_times (table few) None 0)) 1 /\
  run3 tune_few o n h = LOk ((o', n'), h') /\ o_set o = mkset 0 0 2 /\ o_set o' = mkset 1 0 2 /\
  (snd (first_times (table few) None 0) < n_besttime n')%Q /\ n_per n' = 1.
Proof.
  set (cs := [CSet (mkset 0 0 2) 1]). assert (~ was_setup cs) as NS by (unfold cs; intros X; inversion X as [? ? Y|? ? Y]; subst; [exact Y|inversion Y]).
  destruct (after_true (hist3 cs) (fun o n h => match run3 tune_few o n h with LOk ((o', n'), _) =>
    (st_coll (o_set o) =? 0) && (st_exch (o_set o) =? 0) && (st_pack (o_set o) =? 2) &&
    (st_coll (o_set o') =? 1) && (st_exch (o_set o') =? 0) && (st_pack (o_set o') =? 2) && (n_per n' =? 1) && qlt (snd (first_times (table few) None 0)) (n_besttime n') | _ => false end)) as (o & n & h & E & K); [vm_compute; reflexivity|].
  destruct (run3 tune_few o n h) as [?| |[[o' n'] h']] eqn:E1; [discriminate K|discriminate K|].
  apply andb_prop in K as [K K8]. apply andb_prop in K as [K K7]. apply andb_prop in K as [K K6]. apply andb_prop in K as [K K5]. apply andb_prop in K as [K K4]. apply andb_prop in K as [K K3]. apply andb_prop in K as [K1 K2].
  apply Z.eqb_eq in K1, K2, K3, K4, K5, K6, K7.
  exists o, n, h, o', n', h'. split; [apply hist3_reach; [unfold cs; wfs|exact E]|]. split; [exact NS|]. split; [exact (shape3_wf _ _ _ _ _ _ _)|].
  split. { intros m. unfold tune_few. cbn [misuse]. assert (0 <= 6)%Q by discriminate. assert (-1 <= 1 <= 1) by lia. assert (0 < 1) by lia. assert (0 <= 0 <= 1) by lia. tauto. }
  split; [apply fn3_can|]. split; [apply table_fast; unfold few; ranges|]. split; [vm_compute; spl; try reflexivity; discriminate|].
  split; [exact E1|]. destruct (o_set o), (o_set o'). cbn in *. subst. spl; auto.
  unfold qlt in K8. apply negb_true_iff in K8. apply Qnot_le_lt. intros X. apply Qle_bool_iff in X. congruence.
Qed.

(** ** C47: two ranks, the same times broadcast, different clocks *)
Definition t0 : Q * Q := (1, 1)%Q.
Definition other : list Z := [0;1; 1;2; 2;12; 12;22; 22;27; 27;37; 37;47; 47;57; 57;58; 58;68; 68;78; 78;79].
Definition final_set (s : tst) : option settings := match rev (t_log s) with TBarrier :: TSetup x :: _ => Some x | _ => None end.
Definition tuneq r clk := tune false 8 24 4 8 2 36 true (fn3 r 0 split3 split3) clk (Some t0) 0 5 0 0.
Lemma C47_refuted_proof : exists o n h o1 n1 h1 x s x1 s1 c c1,
  reach3 [] o n h /\ reach3 [] o1 n1 h1 /\ o_set o = o_set o1 /\
  first_times (table steps) (Some t0) 0 = first_times (table other) (Some t0) 0 /\
  tuneq 0 (table steps) o n (mktst h 0 []) = LOk (x, s) /\ tuneq 1 (table other) o1 n1 (mktst h1 0 []) = LOk (x1, s1) /\
  final_set s = Some c /\ final_set s1 = Some c1 /\ coll_pp c <> coll_pp c1.
Proof.
  destruct (after_true (hist3 []) (fun o n h => match tuneq 0 (table steps) o n (mktst h 0 []), tuneq 1 (table other) o n (mktst h 0 []) with
    | LOk (_, s), LOk (_, s1) => match final_set s, final_set s1 with Some c, Some c1 => negb (Bool.eqb (coll_pp c) (coll_pp c1)) | _, _ => false end | _, _ => false end)) as (o & n & h & E & K); [vm_compute; reflexivity|].
  destruct (tuneq 0 (table steps) o n (mktst h 0 [])) as [?| |[x s]] eqn:E1; [discriminate K|discriminate K|].
  destruct (tuneq 1 (table other) o n (mktst h 0 [])) as [?| |[x1 s1]] eqn:E2; [discriminate K|discriminate K|].
  destruct (final_set s) as [c|] eqn:F1; [|discriminate K]. destruct (final_set s1) as [c1|] eqn:F2; [|discriminate K].
  pose proof (hist3_reach [] o n h (Forall_nil _) E) as R. exists o, n, h, o, n, h, x, s, x1, s1, c, c1.
  split; [exact R|]. split; [exact R|]. split; [reflexivity|]. split; [reflexivity|]. split; [exact E1|]. split; [exact E2|]. split; [exact F1|]. split; [exact F2|].
  intros X. rewrite X, Bool.eqb_reflx in K. discriminate K.
Qed.
Lemma lockstep_ex : exists o n h x s y s1, reach3 [] o n h /\
  tuneq 0 (table steps) o n (mktst h 0 []) = LOk (x, s) /\ tuneq 1 (table steps) o n (mktst h 0 []) = LOk (y, s1) /\
  n_cbest (snd x) = n_cbest (snd y) /\ n_ebest (snd x) = n_ebest (snd y) /\ n_pbest (snd x) = n_pbest (snd y) /\ (0 < List.length (t_log s))%nat.
Proof.
  destruct (after_true (hist3 []) (fun o n h => match tuneq 0 (table steps) o n (mktst h 0 []), tuneq 1 (table steps) o n (mktst h 0 []) with
    | LOk (x, s), LOk (y, s1) => (n_cbest (snd x) =? n_cbest (snd y)) && (n_ebest (snd x) =? n_ebest (snd y)) && (n_pbest (snd x) =? n_pbest (snd y)) && Nat.ltb 0 (List.length (t_log s)) | _, _ => false end)) as (o & n & h & E & K); [vm_compute; reflexivity|].
  destruct (tuneq 0 (table steps) o n (mktst h 0 [])) as [?| |[x s]] eqn:E1; [discriminate K|discriminate K|].
  destruct (tuneq 1 (table steps) o n (mktst h 0 [])) as [?| |[y s1]] eqn:E2; [discriminate K|discriminate K|].
  apply andb_prop in K as [K K4]. apply andb_prop in K as [K K3]. apply andb_prop in K as [K1 K2]. apply Z.eqb_eq in K1, K2, K3. apply Nat.ltb_lt in K4.
  exists o, n, h, x, s, y, s1. split; [apply hist3_reach; [constructor|exact E]|]. auto 8.
Qed.

(** ** C44 *)
(** point-to-point: a rank that keeps part of its data; sizes of requests and pointers equal *)
Definition hist3q := history false 8 24 8 8 2 36 true 2 (tob0 true) heap0.
Lemma C44_refuted_proof : exists o n h res o' n' h', reach false 8 24 8 8 2 36 true [] o n h /\ ~ was_setup [] /\ wf_call true (CSetup res) /\
  res = fn3 0 0 split3 split3 (mkset 0 0 2) /\ run false 8 24 8 8 2 36 true (CSetup res) o n h = LOk ((o', n'), h') /\ o_usage o' < lib_bytes h'.
Proof.
  set (res := fn3 0 0 split3 split3 (mkset 0 0 2)).
  destruct (after_true (hist3q []) (fun o n h => match run false 8 24 8 8 2 36 true (CSetup res) o n h with LOk ((o', _), h') => o_usage o' <? lib_bytes h' | _ => false end)) as (o & n & h & E & K); [vm_compute; reflexivity|].
  destruct (run false 8 24 8 8 2 36 true (CSetup res) o n h) as [?| |[[o' n'] h']] eqn:E1; [discriminate K|discriminate K|].
  exists o, n, h, res, o', n', h'. split; [apply (history_reach false 8 24 8 8 2 36 true 2 (tob0 true) heap0 [] o n h heap0_wf heap0_user (tob0_ok true) (Forall_nil _) E)|].
  split; [exact not_setup|]. split; [apply ex3_wf|]. split; [reflexivity|]. split; [exact E1|]. apply Z.ltb_lt, K.
Qed.
(** requests smaller than pointers: more is reported than allocated *)
Lemma C44_over_proof : exists o n h res o' n' h', reach3 [] o n h /\ ~ was_setup [] /\ wf_call true (CSetup res) /\
  res = fn3 0 0 split3 split3 (mkset 1 0 2) /\ run3 (CSetup res) o n h = LOk ((o', n'), h') /\ lib_bytes h' < o_usage o'.
Proof.
  set (res := fn3 0 0 split3 split3 (mkset 1 0 2)).
  destruct (after_true (hist3 []) (fun o n h => match run3 (CSetup res) o n h with LOk ((o', _), h') => lib_bytes h' <? o_usage o' | _ => false end)) as (o & n & h & E & K); [vm_compute; reflexivity|].
  destruct (run3 (CSetup res) o n h) as [?| |[[o' n'] h']] eqn:E1; [discriminate K|discriminate K|].
  exists o, n, h, res, o', n', h'. split; [apply hist3_reach; [constructor|exact E]|].
  split; [exact not_setup|]. split; [apply ex3_wf|]. split; [reflexivity|]. split; [exact E1|]. apply Z.ltb_lt, K.
Qed.
Lemma C44_exact_ex : exists o n h o' n' h', reach false 8 24 8 8 2 36 true [] o n h /\
  run false 8 24 8 8 2 36 true (CSetup (fn3 0 0 split3 split3 (mkset 1 0 2))) o n h = LOk ((o', n'), h') /\ 0 < o_usage o'.
Proof.
  set (res := fn3 0 0 split3 split3 (mkset 1 0 2)).
  destruct (after_true (hist3q []) (fun o n h => match run false 8 24 8 8 2 36 true (CSetup res) o n h with LOk ((o', _), h') => 0 <? o_usage o' | _ => false end)) as (o & n & h & E & K); [vm_compute; reflexivity|].
  destruct (run false 8 24 8 8 2 36 true (CSetup res) o n h) as [?| |[[o' n'] h']] eqn:E1; [discriminate K|discriminate K|].
  exists o, n, h, o', n', h'. split; [apply (history_reach false 8 24 8 8 2 36 true 2 (tob0 true) heap0 [] o n h heap0_wf heap0_user (tob0_ok true) (Forall_nil _) E)|].
  split; [exact E1|]. apply Z.ltb_lt, K.
Qed.

Lemma fits_ex : exists sh, setup_shape3 exact_areas 2 g2 0 whole3 isplit3 0 mset = SOk sh /\ shape_len true sh = true /\ shape_fits sh = true.
Proof.
  apply can_setup3_plain; try reflexivity; try lia.
  - exact exact_laws.
  - exact ints_g2.
  - exact dims_g2.
  - left. reflexivity.
  - intros [|[|q]] Hq; try lia; cbn; unfold legal3, ni, nj, nk; cbn; lia.
  - intros q Hq. apply tile_isplit, Hq.
Qed.
