(** OpsTop.v : tune_trial() and the test programs as sequences of operations. *)

From Verif Require Import Base Spec Pack3d Pack2d Sched SchedProofs Phases Exec Remap RemapMain RemapInst
  Remap3d Remap2d RemapThms RemapTop Layout LayoutProofs Setup3d Setup3dProofs Setup2d Setup2dProofs LayoutFinal Kiss KissPure Fft1d KissFinal
  Fft3d Frame Fft3dProofs Fft3dMain Fft3dTop Fft3dFinal Fft3dStmt Fft2d Fft2dMain Fft2dTop Fft2dFinal Fft2dStmt Only1d
  Tune TuneProofs TestProg TestDataProofs TestMainProofs TestTop Ops OpsSeq OpsProofs.
Local Open Scope Z_scope.

(** ** specification *)
(** the communicating calls of a sequence, the caller's own writes left out *)
Definition event_of {F} (a : @act F) : list tevent :=
  match a with
  | ACompute _ _ flag _ _ => [TCompute flag] | A1d flag _ => [TOnly1d flag] | ARemaps flag _ _ => [TOnlyRemaps flag]
  | AOne flag which _ _ => [TOneRemap flag which] | ABarrier => [TBarrier] | AFill _ _ => [] end.
Definition is_barrier {F} (a : @act F) : bool := match a with ABarrier => true | _ => false end.
Definition no_barriers {F} (l : list (@act F)) : list act := filter (fun a => negb (is_barrier a)) l.

(** ** barriers change nothing *)
Section Bars.
Context {F A : Type}.
Variables (n : nat) (size : nat -> Z).
Variables (code : A -> nat -> list (@instr F)) (ok : (nat -> @rmem F) -> A -> Prop) (wr : A -> list bsel) (bar : A -> bool)
  (reads gives : A -> bsel -> nat -> Z -> Prop).
Hypothesis H_lens : forall M M' a, same_lens n M M' -> ok M a -> ok M' a.
Hypothesis H_wf : forall M a, ok M a -> wf_code n (code a).
Hypothesis H_run : forall M Mf a, ok M a -> ok Mf a -> agree_on n (reads a) M Mf ->
  exists M' Mf', exec_to n (code a) M M' /\ exec_to n (code a) Mf Mf' /\ still n size (wr a) M M' /\ same_result n (gives a) M' Mf'.
Hypothesis H_bar : forall M a, bar a = true -> exec_to n (code a) M M.

Lemma drop_bars l : forall M, Forall (ok M) l -> exists M', one_by_one n (map code l) M M' /\ one_by_one n (map code (filter (fun a => negb (bar a)) l)) M M'.
Proof.
  induction l as [|a l IH]; intros M Hok.
  - exists M. split; constructor.
  - inversion Hok as [|? ? Ha Hl]; subst. destruct (bar a) eqn:E.
    + destruct (IH M Hl) as (M' & A1 & A2). exists M'. cbn [map filter]. rewrite E. cbn [negb]. split; [|exact A2]. econstructor; [apply H_bar, E|exact A1].
    + destruct (H_run M M a Ha Ha) as (M1 & _ & E1 & _ & S1 & _); [intros b r x _ _; reflexivity|].
      destruct (IH M1) as (M2 & A1 & A2).
      { eapply Forall_impl; [|exact Hl]. intros c Hc. eapply H_lens; [eapply still_lens; exact S1|exact Hc]. }
      exists M2. cbn [map filter]. rewrite E. cbn [negb map]. split; econstructor; eassumption.
Qed.

Lemma without_bars l M : Forall (ok M) l -> exists M', exec_to n (together (map code l)) M M' /\
  exec_to n (together (map code (filter (fun a => negb (bar a)) l))) M M'.
Proof.
  intros Hok. assert (Wf : forall cs, Forall (ok M) cs -> Forall (wf_code n) (map code cs)).
  { intros cs H. apply Forall_map. eapply Forall_impl; [|exact H]. intros c Hc. eapply H_wf; exact Hc. }
  destruct (drop_bars l M Hok) as (M' & A1 & A2). exists M'. split; apply one_by_one_together; try assumption; apply Wf; [exact Hok|].
  clear -Hok. induction l as [|a l IH]; [constructor|]. inversion Hok; subst. cbn [filter]. destruct (negb (bar a)); auto.
Qed.
End Bars.

Lemma barrier_same {F} n (M : nat -> @rmem F) : exec_to n (barrier n) M M.
Proof.
  destruct (triple_exec n (fun r m => m = M r) (barrier n) (fun r m => m = M r) M (barrier_triple n _) (barrier_wf n)) as (M' & H1 & H2); [auto|].
  eapply exec_to_fun; eassumption.
Qed.

(** ** one array *)
Section Local.
Context {F : Type}.
Definition only_on (b : bsel) (a : @act F) : Prop := Forall (eq b) (writes a).
Lemma only_on_still n size b l (M M' : nat -> @rmem F) : isdata b -> Forall (only_on b) l -> still n size (flat_map writes l) M M' ->
  forall r, (r < n)%nat -> framed M b (fun r => 2 * size r) r (M' r).
Proof.
  intros Hb Hl H r Hr. destruct (H r Hr) as (A1 & A2 & A3). split; [exact A1|]. split.
  - intros c Hc Hn. apply A2; [exact Hc|]. intros Hin. apply in_flat_map in Hin as (a & Ha & Hin).
    rewrite Forall_forall in Hl. specialize (Hl a Ha). unfold only_on in Hl. rewrite Forall_forall in Hl. apply Hn. symmetry. apply Hl, Hin.
  - intros x Hx. apply A3; assumption.
Qed.

Lemma Forall_concat {X} (p : X -> Prop) l : Forall (Forall p) l -> Forall p (List.concat l).
Proof. induction 1; cbn; [constructor|]. apply Forall_app. auto. Qed.
Lemma Forall_repeat {X} (p : X -> Prop) x k : p x -> Forall p (repeat x k).
Proof. intros H. induction k; cbn; auto. Qed.
Lemma both_all (p : act -> Prop) nper flag (op : Z -> @act F) : (forall g, p (op g)) -> Forall p (both_ways nper flag op).
Proof. intros H. unfold both_ways. apply Forall_concat, Forall_repeat. destruct (flag =? 0); auto. Qed.
Lemma back_all (p : act -> Prop) mode nloop (op : Z -> @act F) : (forall g, p (op g)) -> Forall p (there_and_back mode nloop op).
Proof. intros H. unfold there_and_back. apply Forall_concat, Forall_repeat. destruct (mode <? 2); auto. Qed.
Lemma whichs_all (p : act -> Prop) (ws : list Z) (k : Z -> list (@act F)) : (forall w, In w ws -> Forall p (k w)) -> Forall p (List.concat (map k ws)).
Proof. intros H. apply Forall_concat, Forall_map, Forall_forall. exact H. Qed.

Lemma trial_all (p : act -> Prop) ws scaled ro b nper flag tflag : p ABarrier -> (forall g, p (ACompute scaled ro g b b)) -> (forall g, p (A1d g b)) ->
  (forall g, p (ARemaps g b b)) -> (forall g w, In w ws -> p (AOne g w b b)) -> Forall p (@trial F ws scaled ro b nper flag tflag).
Proof.
  intros H0 H1 H2 H3 H4. unfold trial.
  repeat first [apply Forall_app; split|constructor; [exact H0|]|constructor]; try (apply both_all; auto).
  destruct (tflag =? 0); [constructor|]. repeat first [apply Forall_app; split|constructor; [exact H0|]|constructor]; try (apply both_all; auto).
  apply whichs_all. intros w Hw. apply Forall_app. split; [apply both_all; auto|]. constructor; [exact H0|constructor].
Qed.

Lemma main_all (p : act -> Prop) ws mode rflag tflag nloop w0 zero : p ABarrier -> (forall g, p (ACompute true rflag g BWORK BWORK)) -> (forall g, p (A1d g BWORK)) ->
  (forall g, p (ARemaps g BWORK BWORK)) -> (forall g w, In w ws -> p (AOne g w BWORK BWORK)) -> p (AFill BWORK w0) -> p (AFill BWORK zero) ->
  Forall p (@test_main F ws mode rflag tflag nloop w0 zero).
Proof.
  intros H0 H1 H2 H3 H4 H5 H6. unfold test_main, run_part, timing.
  repeat first [apply Forall_app; split|constructor; [first [exact H0|exact H5|exact H6]|]|constructor]; try (apply back_all; auto).
  destruct tflag; [|constructor].
  repeat first [apply Forall_app; split|constructor; [first [exact H0|exact H5|exact H6]|]|constructor]; try (apply back_all; auto).
  apply whichs_all. intros w Hw. apply Forall_app. split; [apply back_all; auto|]. constructor; [exact H0|constructor].
Qed.

(** events *)
Lemma events_concat {X Y} (f : X -> list Y) (l : list (list X)) : flat_map f (List.concat l) = List.concat (map (flat_map f) l).
Proof. induction l as [|x l IH]; cbn; [reflexivity|]. rewrite flat_map_app, IH. reflexivity. Qed.
Lemma map_repeat {X Y} (f : X -> Y) x k : map f (repeat x k) = repeat (f x) k.
Proof. induction k; cbn; congruence. Qed.
Lemma both_events nper flag (op : Z -> @act F) (ev : Z -> tevent) : (forall g, event_of (op g) = [ev g]) ->
  flat_map event_of (both_ways nper flag op) = ev_both nper flag ev.
Proof.
  intros H. unfold both_ways, ev_both. rewrite events_concat, map_repeat. do 2 f_equal.
  destruct (flag =? 0); cbn [flat_map]; rewrite !H; reflexivity.
Qed.
Lemma trial_events dim3 scaled ro b nper flag tflag :
  flat_map event_of (@trial F (whichs dim3) scaled ro b nper flag tflag) = ev_trial dim3 nper flag tflag.
Proof.
  unfold trial, ev_trial. rewrite !flat_map_app. cbn [flat_map event_of app]. rewrite (both_events _ _ _ TCompute) by reflexivity. do 3 f_equal.
  destruct (tflag =? 0); [reflexivity|]. rewrite !flat_map_app. cbn [flat_map event_of app].
  rewrite (both_events _ _ _ TOnly1d) by reflexivity. rewrite !flat_map_app. cbn [flat_map event_of app]. rewrite (both_events _ _ _ TOnlyRemaps) by reflexivity. do 4 f_equal.
  rewrite events_concat, map_map. f_equal. apply map_ext. intros w. rewrite flat_map_app. cbn [flat_map event_of app]. f_equal.
  apply both_events. reflexivity.
Qed.

(** the caller's loops *)
Lemma clear_ok (z : F) k w : 0 <= k <= zlen w -> exists w', for_ k (fun i w => zset w i z) w = Some w' /\ filled (fun v => v) k (fun _ => z) w w'.
Proof.
  intros Hk. apply (for_inv (fun m w' => filled (fun v => v) m (fun _ => z) w w')); [lia|apply filled_0|].
  intros m w' Hm Hw. apply (filled_S (fun v => v) m (fun _ => z) w w' z); auto. lia.
Qed.
Lemma filled_fill {V} (cv : V -> F) n size b (w : nat -> list F -> option (list F)) (M : nat -> @rmem F) (k : nat -> Z) cell : isdata b ->
  (forall r, (r < n)%nat -> 0 <= k r <= 2 * size r /\ 2 * size r <= zlen (getb b (M r))) ->
  (forall r l, (r < n)%nat -> k r <= zlen l -> exists l', w r l = Some l' /\ filled cv (k r) (cell r) l l') -> fill_ok n size b w M.
Proof.
  intros Hb Hk H. split; [exact Hb|]. intros r l Hr Hl. destruct (Hk r Hr) as (K1 & K2). split; [lia|].
  destruct (H r l Hr ltac:(lia)) as (l' & E & A1 & A2 & A3). exists l'. split; [exact E|]. split; [exact A1|]. intros x Hx.
  destruct (Z_lt_le_dec x 0); [rewrite !zget_None by lia; reflexivity|]. apply A3. lia.
Qed.
End Local.

(** ** 3d *)
Section Top3.
Context {F : Type} (O : sops F).
Variables (cexp : bool -> Z -> Z -> F * F) (rnorm : Z -> F).
Variables (ar : areas) (n : nat) (st : settings) (N : Z * Z * Z) (permute : Z) (ins outs : nat -> box3) (f : fft3) (P : @plans3 F).
Hypothesis Hr : ready3 ar n st N permute ins outs f.
Hypothesis HP : setup_ffts3 cexp N = Some P.

Lemma en3 : f_n f = n. Proof. apply (en n st N permute ins outs f (ready_facts _ _ _ _ _ _ _ _ Hr)). Qed.

Lemma barriers3 l (M0 : nat -> @rmem F) : Forall (act_ok3 n st f M0) l ->
  exists M', exec_to n (acts_code3 O rnorm f P l) M0 M' /\ exec_to n (acts_code3 O rnorm f P (no_barriers l)) M0 M' /\
    still n (f_fftsize f) (flat_map writes l) M0 M'.
Proof.
  intros Hl. destruct (sequence3 O cexp rnorm ar n st N permute ins outs f P Hr HP l M0 Hl) as ((M1 & E1 & S1) & _).
  destruct (without_bars n (f_fftsize f) (act_code3 O rnorm f P) (act_ok3 n st f) writes is_barrier (reads3 permute ins outs f) (gives3 permute ins outs f)
    (act_lens3 ar n st N permute ins outs f Hr) (act_wf3 O cexp rnorm ar n st N permute ins outs f P Hr HP) (act_run3 O cexp rnorm ar n st N permute ins outs f P Hr HP)) with (l := l) (M := M0) as (M' & A1 & A2).
  { intros M a Ha. destruct a; try discriminate. cbn [act_code3]. rewrite en3. apply barrier_same. }
  { exact Hl. }
  exists M1. split; [exact E1|]. split; [|exact S1]. eapply exec_to_fun; [exact A2|]. intros r Hrn. apply (exec_to_ext n _ _ _ _ A1 E1 r Hrn).
Qed.

Lemma room_any b (M0 : nat -> @rmem F) flag : room3 f BACKWARD b M0 -> room3 f flag b M0.
Proof. intros (A & B). split; [exact A|]. unfold fwdpath in *. intros E. apply B. apply orb_false_iff in E as (_ & E). rewrite E. reflexivity. Qed.

Lemma in_place3 b (M0 : nat -> @rmem F) : isdata b -> room3 f BACKWARD b M0 ->
  (forall s ro g, act_ok3 n st f M0 (ACompute s ro g b b)) /\ (forall g, act_ok3 n st f M0 (A1d g b)) /\ (forall g, act_ok3 n st f M0 (ARemaps g b b)) /\
  (forall g w, In w [1; 2; 3; 4] -> act_ok3 n st f M0 (AOne g w b b)).
Proof.
  intros Hb Ha. pose proof (fun g => room_any b M0 g Ha) as R. split; [|split; [|split]].
  - intros s ro g. split; [exact Hb|]. split; [exact Hb|]. split; [left; reflexivity|]. auto.
  - intros g. split; [exact Hb|]. eapply (room_size ar n st N permute ins outs f Hr FORWARD b M0 (R FORWARD)).
  - intros g. split; [exact Hb|]. split; [exact Hb|]. split; [left; reflexivity|]. auto.
  - intros g w Hw. split; [exact Hb|]. split; [exact Hb|]. split; [cbn in Hw; intuition lia|]. split; [left; reflexivity|]. auto.
Qed.

Lemma trial3_run b (M0 : nat -> @rmem F) scaled ro nper flag tflag : isdata b -> room3 f BACKWARD b M0 ->
  exists M', exec_to n (acts_code3 O rnorm f P (trial3 scaled ro b nper flag tflag)) M0 M' /\
    forall r, (r < n)%nat -> framed M0 b (fun r => 2 * f_fftsize f r) r (M' r).
Proof.
  intros Hb Ha. destruct (in_place3 b M0 Hb Ha) as (A1 & A2 & A3 & A4).
  destruct (sequence3 O cexp rnorm ar n st N permute ins outs f P Hr HP (trial3 scaled ro b nper flag tflag) M0) as ((M' & E & S) & _).
  { apply trial_all; auto. exact I. }
  exists M'. split; [exact E|]. eapply only_on_still; [exact Hb| |exact S]. apply trial_all; intros; repeat constructor.
Qed.

Lemma run_bare mode rflag nloop w0 r : mode < 2 ->
  acts_code3 O rnorm f P (no_barriers (run_part mode rflag nloop w0)) r = test3 O rnorm f P rflag nloop w0 r.
Proof.
  intros Hm. unfold run_part, no_barriers, acts_code3, together, test3. rewrite !filter_app. cbn [filter is_barrier negb app].
  rewrite app_nil_r. cbn [map List.concat act_code3 filling app]. unfold start_with. f_equal.
  unfold there_and_back. rewrite (proj2 (Z.ltb_lt mode 2) Hm). induction nloop as [|k IH]; [reflexivity|].
  cbn [repeat List.concat filter is_barrier negb app map act_code3 times_code]. unfold round3. rewrite <- app_assoc. f_equal. f_equal. exact IH.
Qed.

Lemma main3_run (M0 : nat -> @rmem F) (vz vr : Z -> F) k sd z mode rflag tflag nloop :
  room3 f BACKWARD BWORK M0 -> (forall r, (r < n)%nat -> legal3 (ins r) /\ seed_ok k (sd r)) ->
  let w0 := fun r => initialize3 vz vr (fun v => v) k (sd r) N (ins r) in
  exists M1 M2, exec_to n (acts_code3 O rnorm f P (run_part mode rflag nloop w0)) M0 M1 /\
    exec_to n (acts_code3 O rnorm f P (test_main3 mode rflag tflag nloop w0 (clear3 z ins))) M0 M2 /\
    (forall r, (r < n)%nat -> framed M0 BWORK (fun r => 2 * f_fftsize f r) r (M1 r)) /\
    (forall r, (r < n)%nat -> framed M0 BWORK (fun r => 2 * f_fftsize f r) r (M2 r)) /\
    (mode < 2 -> exec_to n (test3 O rnorm f P rflag nloop w0) M0 M1) /\
    (tflag = false -> forall r, (r < n)%nat -> M2 r = M1 r).
Proof.
  intros Ha Hs w0. assert (Hb : isdata BWORK) by (left; reflexivity).
  destruct (in_place3 BWORK M0 Hb Ha) as (A1 & A2 & A3 & A4).
  assert (K : forall r, (r < n)%nat -> 0 <= 2 * psize3 (ins r) <= 2 * f_fftsize f r /\ 2 * f_fftsize f r <= zlen (getb BWORK (M0 r))).
  { intros r Hrn. pose proof (work_room3 ar n st N permute ins outs f M0 Hr Ha r Hrn). pose proof (psize3_nonneg (ins r) (proj1 (Hs r Hrn))). lia. }
  assert (F0 : act_ok3 n st f M0 (AFill BWORK w0)).
  { apply (filled_fill (fun v : F => v) n (f_fftsize f) BWORK w0 M0 (fun r => 2 * psize3 (ins r)) (fun r => wanti3 vz vr k (sd r) N (ins r)) Hb K).
    exact (init_fills3 vz vr (fun v => v) n N ins k sd Hs). }
  assert (F1 : act_ok3 n st f M0 (AFill BWORK (clear3 z ins))).
  { apply (filled_fill (fun v : F => v) n (f_fftsize f) BWORK (clear3 z ins) M0 (fun r => 2 * psize3 (ins r)) (fun r _ => z) Hb K).
    intros r l Hrn Hl. apply clear_ok. destruct (K r Hrn). lia. }
  assert (T : Forall (act_ok3 n st f M0) (test_main3 mode rflag tflag nloop w0 (clear3 z ins))) by (apply main_all; auto; exact I).
  assert (W : Forall (only_on BWORK) (test_main3 mode rflag tflag nloop w0 (clear3 z ins))) by (apply main_all; intros; repeat constructor).
  assert (Sp : test_main3 mode rflag tflag nloop w0 (clear3 z ins) = run_part mode rflag nloop w0 ++ timing [1; 2; 3; 4] mode tflag nloop (clear3 z ins)).
  { reflexivity. }
  rewrite Sp in T, W. pose proof (proj1 (Forall_app _ _ _) T) as (T1 & _). pose proof (proj1 (Forall_app _ _ _) W) as (W1 & _).
  destruct (barriers3 _ M0 T) as (M2 & B1 & _ & B3). destruct (barriers3 _ M0 T1) as (M1 & C1 & C2 & C3).
  exists M1, M2. split; [exact C1|]. split; [rewrite Sp; exact B1|].
  split; [exact (only_on_still n _ BWORK _ M0 M1 Hb W1 C3)|]. split; [exact (only_on_still n _ BWORK _ M0 M2 Hb W B3)|]. split.
  - intros Hm. destruct C2 as (L & C2). exists L.
    assert (E : start n (test3 O rnorm f P rflag nloop w0) M0 = start n (acts_code3 O rnorm f P (no_barriers (run_part mode rflag nloop w0))) M0).
    { unfold start. f_equal. apply map_ext. intros r. symmetry. apply run_bare, Hm. }
    rewrite E. exact C2.
  - intros -> r Hrn. unfold timing in B1. rewrite app_nil_r in B1. apply (exec_to_ext n _ _ _ _ B1 C1 r Hrn).
Qed.
End Top3.

(** ** 2d *)
Section Top2.
Context {F : Type} (O : sops F).
Variables (esize : Z) (cexp : bool -> Z -> Z -> F * F) (rnorm : Z -> F).
Variables (ar : areas) (n : nat) (st : settings) (N : Z * Z) (permute : Z) (ins outs : nat -> box2) (f : fft2) (P : @plans2 F).
Hypothesis Hr : ready2 esize ar n st N permute ins outs f.
Hypothesis HP : setup_ffts2 cexp N = Some P.

Lemma en_2 : t_n f = n. Proof. apply (en2 n st N permute ins outs f (ready_facts2 _ _ _ _ _ _ _ _ _ Hr)). Qed.

Lemma barriers2 l (M0 : nat -> @rmem F) : Forall (act_ok2 n st f M0) l ->
  exists M', exec_to n (acts_code2 O rnorm esize f P l) M0 M' /\ exec_to n (acts_code2 O rnorm esize f P (no_barriers l)) M0 M' /\
    still n (t_fftsize f) (flat_map writes l) M0 M'.
Proof.
  intros Hl. destruct (sequence2 O esize cexp rnorm ar n st N permute ins outs f P Hr HP l M0 Hl) as ((M1 & E1 & S1) & _).
  destruct (without_bars n (t_fftsize f) (act_code2 O rnorm esize f P) (act_ok2 n st f) writes is_barrier (reads2 permute ins outs f) (gives2 permute ins outs f)
    (act_lens2 esize ar n st N permute ins outs f Hr) (act_wf2 O esize cexp rnorm ar n st N permute ins outs f P Hr HP) (act_run2 O esize cexp rnorm ar n st N permute ins outs f P Hr HP)) with (l := l) (M := M0) as (M' & A1 & A2).
  { intros M a Ha. destruct a; try discriminate. cbn [act_code2]. rewrite en_2. apply barrier_same. }
  { exact Hl. }
  exists M1. split; [exact E1|]. split; [|exact S1]. eapply exec_to_fun; [exact A2|]. intros r Hrn. apply (exec_to_ext n _ _ _ _ A1 E1 r Hrn).
Qed.

Lemma in_place2 b (M0 : nat -> @rmem F) : isdata b -> arrays_ok2 f b M0 ->
  (forall s ro g, act_ok2 n st f M0 (ACompute s ro g b b)) /\ (forall g, act_ok2 n st f M0 (A1d g b)) /\ (forall g, act_ok2 n st f M0 (ARemaps g b b)) /\
  (forall g w, In w [1; 2; 3] -> act_ok2 n st f M0 (AOne g w b b)).
Proof.
  intros Hb Ha. split; [|split; [|split]].
  - intros s ro g. split; [exact Hb|]. split; [exact Hb|]. split; [left; reflexivity|]. auto.
  - intros g. split; [exact Hb|]. apply (room_size2 esize ar n st N permute ins outs f Hr b M0 Ha).
  - intros g. split; [exact Hb|]. split; [exact Hb|]. split; [left; reflexivity|]. auto.
  - intros g w Hw. split; [exact Hb|]. split; [exact Hb|]. split; [cbn in Hw; intuition lia|]. split; [left; reflexivity|]. auto.
Qed.

Lemma trial2_run b (M0 : nat -> @rmem F) scaled ro nper flag tflag : isdata b -> arrays_ok2 f b M0 ->
  exists M', exec_to n (acts_code2 O rnorm esize f P (trial2 scaled ro b nper flag tflag)) M0 M' /\
    forall r, (r < n)%nat -> framed M0 b (fun r => 2 * t_fftsize f r) r (M' r).
Proof.
  intros Hb Ha. destruct (in_place2 b M0 Hb Ha) as (A1 & A2 & A3 & A4).
  destruct (sequence2 O esize cexp rnorm ar n st N permute ins outs f P Hr HP (trial2 scaled ro b nper flag tflag) M0) as ((M' & E & S) & _).
  { apply trial_all; auto. exact I. }
  exists M'. split; [exact E|]. eapply only_on_still; [exact Hb| |exact S]. apply trial_all; intros; repeat constructor.
Qed.

Lemma run_bare2 mode rflag nloop w0 r : mode < 2 ->
  acts_code2 O rnorm esize f P (no_barriers (run_part mode rflag nloop w0)) r = test2 O rnorm esize f P rflag nloop w0 r.
Proof.
  intros Hm. unfold run_part, no_barriers, acts_code2, together, test2. rewrite !filter_app. cbn [filter is_barrier negb app].
  rewrite app_nil_r. cbn [map List.concat act_code2 filling app]. unfold start_with. f_equal.
  unfold there_and_back. rewrite (proj2 (Z.ltb_lt mode 2) Hm). induction nloop as [|k IH]; [reflexivity|].
  cbn [repeat List.concat filter is_barrier negb app map act_code2 times_code]. unfold round2. rewrite <- app_assoc. f_equal. f_equal. exact IH.
Qed.

Lemma main2_run (M0 : nat -> @rmem F) (vz vr : Z -> F) k sd z mode rflag tflag nloop :
  arrays_ok2 f BWORK M0 -> (forall r, (r < n)%nat -> legal2 (ins r) /\ seed_ok k (sd r)) ->
  let w0 := fun r => initialize2 vz vr (fun v => v) k (sd r) N (ins r) in
  exists M1 M2, exec_to n (acts_code2 O rnorm esize f P (run_part mode rflag nloop w0)) M0 M1 /\
    exec_to n (acts_code2 O rnorm esize f P (test_main2 mode rflag tflag nloop w0 (clear2 z ins))) M0 M2 /\
    (forall r, (r < n)%nat -> framed M0 BWORK (fun r => 2 * t_fftsize f r) r (M1 r)) /\
    (forall r, (r < n)%nat -> framed M0 BWORK (fun r => 2 * t_fftsize f r) r (M2 r)) /\
    (mode < 2 -> exec_to n (test2 O rnorm esize f P rflag nloop w0) M0 M1) /\
    (tflag = false -> forall r, (r < n)%nat -> M2 r = M1 r).
Proof.
  intros Ha Hs w0. assert (Hb : isdata BWORK) by (left; reflexivity).
  destruct (in_place2 BWORK M0 Hb Ha) as (A1 & A2 & A3 & A4).
  assert (K : forall r, (r < n)%nat -> 0 <= 2 * psize2 (ins r) <= 2 * t_fftsize f r /\ 2 * t_fftsize f r <= zlen (getb BWORK (M0 r))).
  { intros r Hrn. pose proof (work_room2 esize ar n st N permute ins outs f M0 Hr Ha r Hrn). pose proof (psize2_nonneg (ins r) (proj1 (Hs r Hrn))). lia. }
  assert (F0 : act_ok2 n st f M0 (AFill BWORK w0)).
  { apply (filled_fill (fun v : F => v) n (t_fftsize f) BWORK w0 M0 (fun r => 2 * psize2 (ins r)) (fun r => wanti2 vz vr k (sd r) N (ins r)) Hb K).
    exact (init_fills2 vz vr (fun v => v) n N ins k sd Hs). }
  assert (F1 : act_ok2 n st f M0 (AFill BWORK (clear2 z ins))).
  { apply (filled_fill (fun v : F => v) n (t_fftsize f) BWORK (clear2 z ins) M0 (fun r => 2 * psize2 (ins r)) (fun r _ => z) Hb K).
    intros r l Hrn Hl. apply clear_ok. destruct (K r Hrn). lia. }
  assert (T : Forall (act_ok2 n st f M0) (test_main2 mode rflag tflag nloop w0 (clear2 z ins))) by (apply main_all; auto; exact I).
  assert (W : Forall (only_on BWORK) (test_main2 mode rflag tflag nloop w0 (clear2 z ins))) by (apply main_all; intros; repeat constructor).
  assert (Sp : test_main2 mode rflag tflag nloop w0 (clear2 z ins) = run_part mode rflag nloop w0 ++ timing [1; 2; 3] mode tflag nloop (clear2 z ins)).
  { reflexivity. }
  rewrite Sp in T, W. pose proof (proj1 (Forall_app _ _ _) T) as (T1 & _). pose proof (proj1 (Forall_app _ _ _) W) as (W1 & _).
  destruct (barriers2 _ M0 T) as (M2 & B1 & _ & B3). destruct (barriers2 _ M0 T1) as (M1 & C1 & C2 & C3).
  exists M1, M2. split; [exact C1|]. split; [rewrite Sp; exact B1|].
  split; [exact (only_on_still n _ BWORK _ M0 M1 Hb W1 C3)|]. split; [exact (only_on_still n _ BWORK _ M0 M2 Hb W B3)|]. split.
  - intros Hm. destruct C2 as (L & C2). exists L.
    assert (E : start n (test2 O rnorm esize f P rflag nloop w0) M0 = start n (acts_code2 O rnorm esize f P (no_barriers (run_part mode rflag nloop w0))) M0).
    { unfold start. f_equal. apply map_ext. intros r. symmetry. apply run_bare2, Hm. }
    rewrite E. exact C2.
  - intros -> r Hrn. unfold timing in B1. rewrite app_nil_r in B1. apply (exec_to_ext n _ _ _ _ B1 C1 r Hrn).
Qed.
End Top2.
