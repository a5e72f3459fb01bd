(** Remap32Main.v : sequences of operations, trials of tune() and the test programs give in 32-bit ints what they give in unbounded integers (C83). *)

From Verif Require Import Base Spec Pack3d Pack2d Sched SchedProofs MemProofs Phases Exec Layout Wrap Overflow OverflowProofs Remap RemapProofs RemapMain Remap3d Remap2d RemapInst RemapThms RemapTop
  RemapFinal Setup3d Setup2d Setup3dProofs Setup2dProofs Kiss KissPure KissAlg Fft1d KissFinal Fft3d Frame Fft3dProofs Fft3dMain Fft2d Fft2dMain Fft3dTop Fft2dTop Fft3dFinal Fft2dFinal Pack32 Pack32Proofs Pack32Top
  Remap32 Remap32Sim Remap32Proofs Remap32Top Remap32Fft Tune TestProg TestDataProofs Ops OpsSeq OpsProofs OpsTop Remap32Ops TestInt TestIntProofs.
Local Open Scope Z_scope.

(** ** the loops of the caller keep the length of the array *)
Section Keep.
Context {F V : Type}.
Variables (vz vr : Z -> V) (cv : V -> F).
Lemma fill_zero_keeps p (x y : list F) : 0 <= p -> fill_zero vz cv p x = Some y -> zlen y = zlen x.
Proof. intros Hp. unfold fill_zero. apply (for_post (fun _ w => zlen w = zlen x)); [lia|reflexivity|]. intros i s s' _ E H. rewrite (zset_len _ _ _ _ H). exact E. Qed.
Lemma fill_points_keeps p val (x y : list F) : 0 <= p -> fill_points vz cv p val x = Some y -> zlen y = zlen x.
Proof.
  intros Hp. unfold fill_points. apply (for_post (fun _ w => zlen w = zlen x)); [lia|reflexivity|]. intros i s s' _ E H.
  apply bind_Some_inv in H as (v & _ & H). apply bind_Some_inv in H as (w & Hw & H). rewrite (zset_len _ _ _ _ H), (zset_len _ _ _ _ Hw). exact E.
Qed.
Lemma fill_random_keeps p sd (x y : list F) : 0 <= p -> fill_random vr cv p sd x = Some y -> zlen y = zlen x.
Proof.
  intros Hp H. unfold fill_random in H. apply bind_Some_inv in H as (s & Hs & H). injection H as <-.
  revert Hs. apply (for_post (fun _ (s : list F * Z) => zlen (fst s) = zlen x)); [lia|reflexivity|]. intros i [w sd'] s' _ E H.
  apply bind_Some_inv in H as (v & _ & H). apply bind_Some_inv in H as (w' & Hw & H). injection H as <-. cbn [fst] in *. rewrite (zset_len _ _ _ _ Hw). exact E.
Qed.
Lemma init_keeps3 k sd N b (x y : list F) : legal3 b -> initialize3 vz vr cv k sd N b x = Some y -> zlen y = zlen x.
Proof. intros L. pose proof (psize_nn3 b L). destruct k; cbn [initialize3]; [apply fill_zero_keeps|apply fill_points_keeps|apply fill_points_keeps|apply fill_random_keeps]; assumption. Qed.
Lemma init_keeps2 k sd N b (x y : list F) : legal2 b -> initialize2 vz vr cv k sd N b x = Some y -> zlen y = zlen x.
Proof. intros L. pose proof (psize_nn2 b L). destruct k; cbn [initialize2]; [apply fill_zero_keeps|apply fill_points_keeps|apply fill_points_keeps|apply fill_random_keeps]; assumption. Qed.
Lemma clear_loop_keeps c z (x y : list F) : 0 <= c -> for_ c (fun i w => zset w i z) x = Some y -> zlen y = zlen x.
Proof. intros Hp. apply (for_post (fun _ w => zlen w = zlen x)); [lia|reflexivity|]. intros i s s' _ E H. rewrite (zset_len _ _ _ _ H). exact E. Qed.
End Keep.

(** ** the same program with other writes of the caller *)
Section Same.
Context {F : Type} (n : nat).
Lemma main_same ws mode rflag tflag nloop (w0 w0' z z' : nat -> list F -> option (list F)) :
  (forall r x, (r < n)%nat -> w0 r x = w0' r x) -> (forall r x, (r < n)%nat -> z r x = z' r x) ->
  Forall2 (act_same n) (test_main ws mode rflag tflag nloop w0 z) (test_main ws mode rflag tflag nloop w0' z').
Proof.
  intros H0 H1.
  assert (A0 : act_same n (AFill BWORK w0) (AFill BWORK w0')) by (right; do 3 eexists; split; [reflexivity|]; split; [reflexivity|exact H0]).
  assert (A1 : act_same n (AFill BWORK z) (AFill BWORK z')) by (right; do 3 eexists; split; [reflexivity|]; split; [reflexivity|exact H1]).
  unfold test_main, run_part, timing. apply Forall2_app; [constructor; [exact A0|apply acts_same_refl]|]. destruct tflag; [|constructor].
  cbn [app]. constructor; [exact A1|]. constructor; [left; reflexivity|]. apply Forall2_app; [apply acts_same_refl|]. constructor; [left; reflexivity|].
  constructor; [exact A1|]. constructor; [left; reflexivity|]. apply Forall2_app; [apply acts_same_refl|]. constructor; [left; reflexivity|].
  constructor; [exact A1|]. apply acts_same_refl.
Qed.
Lemma run_same mode rflag nloop (w0 w0' : nat -> list F -> option (list F)) : (forall r x, (r < n)%nat -> w0 r x = w0' r x) ->
  Forall2 (act_same n) (run_part mode rflag nloop w0) (run_part mode rflag nloop w0').
Proof. intros H0. unfold run_part. constructor; [right; do 3 eexists; split; [reflexivity|]; split; [reflexivity|exact H0]|apply acts_same_refl]. Qed.

Definition keeps_fill (a : @act F) : Prop := match a with AFill _ w => forall r x y, (r < n)%nat -> w r x = Some y -> zlen y = zlen x | _ => True end.
Lemma keeps_all l : Forall keeps_fill l -> fills_keep n l.
Proof. intros H b w r x y Hi Hr E. rewrite Forall_forall in H. exact (H _ Hi r x y Hr E). Qed.
End Same.

Lemma main_parts {F} (p : @act F -> Prop) ws mode rflag tflag nloop w0 z : Forall p (test_main ws mode rflag tflag nloop w0 z) -> Forall p (run_part mode rflag nloop w0).
Proof. intros H. unfold test_main in H. apply Forall_app in H as (H & _). exact H. Qed.

(** ** 3d *)
Section Top3.
Context {F : Type} (O : sops F).
Variables (cexp : bool -> Z -> Z -> F * F) (rnorm : Z -> F).
Variables (ar : areas) (n : nat) (st : settings) (N : Z * Z * Z) (permute : Z) (ins outs : nat -> box3) (f : fft3) (P : @plans3 F).
Hypothesis Hr : ready3 ar n st N permute ins outs f.
Hypothesis HP : setup_ffts3 cexp N = Some P.
Variable esize : Z.
Hypothesis Fit : fits32 esize (st_pack st) n N (f_fftsize f).

Theorem sequence3_32 l (M0 : nat -> @rmem F) : Forall (act_ok3 n st f M0) l -> fills_keep n l -> (forall r, (r < n)%nat -> ints_index (M0 r)) ->
  exists M', exec_to n (acts_code3 O rnorm f P l) M0 M' /\ exec_to n (acts3_32 O rnorm false esize f P l) M0 M' /\ still n (f_fftsize f) (flat_map writes l) M0 M'.
Proof.
  intros Hl Hk Hm. destruct (sequence3 O cexp rnorm ar n st N permute ins outs f P Hr HP l M0 Hl) as ((M' & E & S) & _).
  exists M'. split; [exact E|]. split; [|exact S]. exact (acts3_exec ar n st N permute ins outs f Hr esize Fit O rnorm P l l M0 M' (acts_same_refl n l) Hk Hm E).
Qed.
Theorem trial3_32 b (M0 : nat -> @rmem F) scaled ro nper flag tflag : isdata b -> Fft3dTop.room3 f BACKWARD b M0 -> (forall r, (r < n)%nat -> ints_index (M0 r)) ->
  exists M', exec_to n (acts_code3 O rnorm f P (trial3 scaled ro b nper flag tflag)) M0 M' /\
    exec_to n (acts3_32 O rnorm false esize f P (trial3 scaled ro b nper flag tflag)) M0 M' /\
    forall r, (r < n)%nat -> framed M0 b (fun r => 2 * f_fftsize f r) r (M' r).
Proof.
  intros Hb Ha Hm. destruct (trial3_run O cexp rnorm ar n st N permute ins outs f P Hr HP b M0 scaled ro nper flag tflag Hb Ha) as (M' & E & S).
  exists M'. split; [exact E|]. split; [|exact S]. refine (acts3_exec ar n st N permute ins outs f Hr esize Fit O rnorm P _ _ M0 M' (acts_same_refl n _) _ Hm E).
  apply keeps_all, trial_all; intros; exact I.
Qed.
(** what setup and [fits32] say of the box of a rank; a box with a point needs no more *)
Lemma fits_box3 r : (r < n)%nat -> (psize3 (ins r) = 0 -> ni (ins r) * nj (ins r) <= INT_MAX) -> box32_3 N (ins r).
Proof.
  intros Hrn Hz. pose proof (ready_facts _ _ _ _ _ _ _ _ Hr) as Fa. pose proof (F_in _ _ _ _ _ _ _ Fa r Hrn) as I. pose proof (inside_legal3 _ _ I) as Lg.
  assert (Q : 2 * psize3 (ins r) <= INT_MAX).
  { pose proof (proj1 Fit r Hrn) as H. destruct (F_fftsize _ _ _ _ _ _ _ Fa r) as (H1 & _). assert (HALF <= INT_MAX) by (vm_compute; congruence). destruct (st_pack st =? 0); lia. }
  split; [exact I|]. split; [destruct Hr as (_ & _ & HI & _); destruct N as [[x y] z]; exact HI|]. split; [|exact Q].
  destruct (Z.eq_dec (psize3 (ins r)) 0) as [E|E]; [exact (Hz E)|]. clear Hz.
  unfold psize3, legal3 in *. unfold ni, nj, nk in *.
  assert (0 <= (ihi (ins r) - ilo (ins r) + 1) * (jhi (ins r) - jlo (ins r) + 1)) by nia.
  assert (1 <= khi (ins r) - klo (ins r) + 1) by nia. nia.
Qed.
Theorem main3_32 (M0 : nat -> @rmem F) (vz vr : Z -> F) k sd z mode rflag tflag nloop :
  Fft3dTop.room3 f BACKWARD BWORK M0 -> (forall r, (r < n)%nat -> ints_index (M0 r)) ->
  (forall r, (r < n)%nat -> (psize3 (ins r) = 0 -> ni (ins r) * nj (ins r) <= INT_MAX) /\ seed_ok k (sd r)) -> index_fits3 k N ->
  let w0 := fun r => initialize3 vz vr (fun v => v) k (sd r) N (ins r) in
  let w32 := fun r => initialize3_32 vz vr (fun v => v) k (sd r) N (ins r) in
  exists M1 M2, exec_to n (acts_code3 O rnorm f P (run_part mode rflag nloop w0)) M0 M1 /\
    exec_to n (acts3_32 O rnorm false esize f P (run_part mode rflag nloop w32)) M0 M1 /\
    exec_to n (acts_code3 O rnorm f P (test_main3 mode rflag tflag nloop w0 (clear3 z ins))) M0 M2 /\
    exec_to n (acts3_32 O rnorm false esize f P (test_main3 mode rflag tflag nloop w32 (clear3_32 z ins))) M0 M2 /\
    (mode < 2 -> exec_to n (test3 O rnorm f P rflag nloop w0) M0 M1).
Proof.
  intros Ha Hm Hs0 Hx w0 w32.
  assert (Hs : forall r, (r < n)%nat -> box32_3 N (ins r) /\ seed_ok k (sd r)) by (intros r Hrn; split; [apply fits_box3; [exact Hrn|apply Hs0, Hrn]|apply Hs0, Hrn]).
  assert (L : forall r, (r < n)%nat -> legal3 (ins r)) by (intros r Hrn; exact (inside_legal3 N _ (proj1 (proj1 (Hs r Hrn))))).
  destruct (main3_run O cexp rnorm ar n st N permute ins outs f P Hr HP M0 vz vr k sd z mode rflag tflag nloop Ha (fun r H => conj (L r H) (proj2 (Hs r H)))) as (M1 & M2 & E1 & E2 & _ & _ & E3 & _).
  fold w0 in E1, E2, E3.
  assert (S0 : forall r x, (r < n)%nat -> w0 r x = w32 r x) by (intros r x Hrn; symmetry; apply initialize_same3; [apply Hs, Hrn|exact Hx]).
  assert (S1 : forall r x, (r < n)%nat -> clear3 z ins r x = clear3_32 z ins r x) by (intros r x Hrn; symmetry; apply (clear_same3 z N), Hs, Hrn).
  assert (K : Forall (keeps_fill n) (test_main3 mode rflag tflag nloop w0 (clear3 z ins))).
  { apply main_all; try (intros; exact I).
    - intros r x y Hrn. apply init_keeps3, L, Hrn.
    - intros r x y Hrn. pose proof (psize_nn3 _ (L r Hrn)). apply clear_loop_keeps. lia. }
  exists M1, M2. split; [exact E1|]. split; [|split; [exact E2|split; [|exact E3]]].
  - refine (acts3_exec ar n st N permute ins outs f Hr esize Fit O rnorm P _ _ M0 M1 (run_same n mode rflag nloop _ _ S0) _ Hm E1).
    apply keeps_all. exact (main_parts _ _ _ _ _ _ _ _ K).
  - refine (acts3_exec ar n st N permute ins outs f Hr esize Fit O rnorm P _ _ M0 M2 (main_same n _ mode rflag tflag nloop _ _ _ _ S0 S1) _ Hm E2).
    apply keeps_all, K.
Qed.
End Top3.

(** ** 2d *)
Section Top2.
Context {F : Type} (O : sops F).
Variables (cexp : bool -> Z -> Z -> F * F) (rnorm : Z -> F).
Variables (ar : areas) (n : nat) (st : settings) (N : Z * Z) (permute : Z) (ins outs : nat -> box2) (f : fft2) (P : @plans2 F).
Hypothesis Hr : ready2 8 ar n st N permute ins outs f.
Hypothesis HP : setup_ffts2 cexp N = Some P.
Hypothesis Fit : fits32_2 (st_pack st) n N (t_fftsize f).

Theorem sequence2_32 l (M0 : nat -> @rmem F) : Forall (act_ok2 n st f M0) l -> fills_keep n l -> (forall r, (r < n)%nat -> ints_index (M0 r)) ->
  exists M', exec_to n (acts_code2 O rnorm 8 f P l) M0 M' /\ exec_to n (acts2_32 O rnorm false 8 f P l) M0 M' /\ still n (t_fftsize f) (flat_map writes l) M0 M'.
Proof.
  intros Hl Hk Hm. destruct (sequence2 O 8 cexp rnorm ar n st N permute ins outs f P Hr HP l M0 Hl) as ((M' & E & S) & _).
  exists M'. split; [exact E|]. split; [|exact S]. exact (acts2_exec ar n st N permute ins outs f Hr Fit O rnorm P l l M0 M' (acts_same_refl n l) Hk Hm E).
Qed.
Theorem trial2_32 b (M0 : nat -> @rmem F) scaled ro nper flag tflag : isdata b -> arrays_ok2 f b M0 -> (forall r, (r < n)%nat -> ints_index (M0 r)) ->
  exists M', exec_to n (acts_code2 O rnorm 8 f P (trial2 scaled ro b nper flag tflag)) M0 M' /\
    exec_to n (acts2_32 O rnorm false 8 f P (trial2 scaled ro b nper flag tflag)) M0 M' /\
    forall r, (r < n)%nat -> framed M0 b (fun r => 2 * t_fftsize f r) r (M' r).
Proof.
  intros Hb Ha Hm. destruct (trial2_run O 8 cexp rnorm ar n st N permute ins outs f P Hr HP b M0 scaled ro nper flag tflag Hb Ha) as (M' & E & S).
  exists M'. split; [exact E|]. split; [|exact S]. refine (acts2_exec ar n st N permute ins outs f Hr Fit O rnorm P _ _ M0 M' (acts_same_refl n _) _ Hm E).
  apply keeps_all, trial_all; intros; exact I.
Qed.
(** what setup and [fits32_2] say of the box of a rank *)
Lemma fits_box2 r : (r < n)%nat -> box32_2 N (ins r).
Proof.
  intros Hrn. pose proof (ready_facts2 _ _ _ _ _ _ _ _ _ Hr) as Fa. pose proof (T_ins _ _ _ _ _ _ _ Fa r Hrn) as I.
  split; [exact I|]. split; [destruct Hr as (_ & _ & HI & _); destruct N as [x y]; exact HI|].
  pose proof (proj1 Fit r Hrn) as H. destruct (T_fftsize _ _ _ _ _ _ _ Fa r) as (H1 & _). assert (HALF <= INT_MAX) by (vm_compute; congruence). destruct (st_pack st =? 0); lia.
Qed.
Theorem main2_32 (M0 : nat -> @rmem F) (vz vr : Z -> F) k sd z mode rflag tflag nloop :
  arrays_ok2 f BWORK M0 -> (forall r, (r < n)%nat -> ints_index (M0 r)) ->
  (forall r, (r < n)%nat -> seed_ok k (sd r)) -> index_fits2 k N ->
  let w0 := fun r => initialize2 vz vr (fun v => v) k (sd r) N (ins r) in
  let w32 := fun r => initialize2_32 vz vr (fun v => v) k (sd r) N (ins r) in
  exists M1 M2, exec_to n (acts_code2 O rnorm 8 f P (run_part mode rflag nloop w0)) M0 M1 /\
    exec_to n (acts2_32 O rnorm false 8 f P (run_part mode rflag nloop w32)) M0 M1 /\
    exec_to n (acts_code2 O rnorm 8 f P (test_main2 mode rflag tflag nloop w0 (clear2 z ins))) M0 M2 /\
    exec_to n (acts2_32 O rnorm false 8 f P (test_main2 mode rflag tflag nloop w32 (clear2_32 z ins))) M0 M2 /\
    (mode < 2 -> exec_to n (test2 O rnorm 8 f P rflag nloop w0) M0 M1).
Proof.
  intros Ha Hm Hs0 Hx w0 w32.
  assert (Hs : forall r, (r < n)%nat -> box32_2 N (ins r) /\ seed_ok k (sd r)) by (intros r Hrn; split; [apply fits_box2, Hrn|apply Hs0, Hrn]).
  assert (L : forall r, (r < n)%nat -> legal2 (ins r)) by (intros r Hrn; exact (inside_legal2 N _ (proj1 (proj1 (Hs r Hrn))))).
  destruct (main2_run O 8 cexp rnorm ar n st N permute ins outs f P Hr HP M0 vz vr k sd z mode rflag tflag nloop Ha (fun r H => conj (L r H) (proj2 (Hs r H)))) as (M1 & M2 & E1 & E2 & _ & _ & E3 & _).
  fold w0 in E1, E2, E3.
  assert (S0 : forall r x, (r < n)%nat -> w0 r x = w32 r x) by (intros r x Hrn; symmetry; apply initialize_same2; [apply Hs, Hrn|exact Hx]).
  assert (S1 : forall r x, (r < n)%nat -> clear2 z ins r x = clear2_32 z ins r x) by (intros r x Hrn; symmetry; apply (clear_same2 z N), Hs, Hrn).
  assert (K : Forall (keeps_fill n) (test_main2 mode rflag tflag nloop w0 (clear2 z ins))).
  { apply main_all; try (intros; exact I).
    - intros r x y Hrn. apply init_keeps2, L, Hrn.
    - intros r x y Hrn. pose proof (psize_nn2 _ (L r Hrn)). apply clear_loop_keeps. lia. }
  exists M1, M2. split; [exact E1|]. split; [|split; [exact E2|split; [|exact E3]]].
  - refine (acts2_exec ar n st N permute ins outs f Hr Fit O rnorm P _ _ M0 M1 (run_same n mode rflag nloop _ _ S0) _ Hm E1).
    apply keeps_all. exact (main_parts _ _ _ _ _ _ _ _ K).
  - refine (acts2_exec ar n st N permute ins outs f Hr Fit O rnorm P _ _ M0 M2 (main_same n _ mode rflag tflag nloop _ _ _ _ S0 S1) _ Hm E2).
    apply keeps_all, K.
Qed.
End Top2.
