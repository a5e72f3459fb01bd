(** OpsProofs.v : the operations of an FFT3d / FFT2d object satisfy the hypotheses of OpsSeq.v. *)

From Verif Require Import Base Spec Pack3d Pack2d Sched SchedProofs Phases Exec Remap RemapMain RemapInst
  Remap3d Remap2d RemapThms RemapTop Layout LayoutProofs Setup3d Setup3dProofs Setup2d Setup2dProofs LayoutFinal Kiss KissPure Fft1d KissFinal
  Fft3d Frame Fft3dProofs Fft3dMain Fft3dTop Fft3dFinal Fft3dStmt Fft2d Fft2dMain Fft2dTop Fft2dFinal Fft2dStmt Only1d TestProg Ops OpsSeq.
Local Open Scope Z_scope.

(** ** specification *)
(** the cells of a layout stored with a permutation, two scalars per point *)
Definition cells3 (perm : Z) (lay : nat -> box3) (r : nat) (x : Z) : Prop := exists p q, inb3 p (lay r) /\ 0 <= q < 2 /\ x = cell3 2 perm (lay r) p q.
Definition cells2 (perm : Z) (lay : nat -> box2) (r : nat) (x : Z) : Prop := exists p q, inb2 p (lay r) /\ 0 <= q < 2 /\ x = cell2 2 perm (lay r) p q.

(** the arrays an operation may write *)
Definition writes {F} (a : @act F) : list bsel :=
  match a with ACompute _ _ _ _ bo => [bo] | A1d _ b => [b] | ARemaps _ _ bo => [bo] | AOne _ _ _ bo => [bo] | ABarrier => [] | AFill b _ => [b] end.

(** a caller's loop that writes at most the first [2*size r] cells *)
Definition fill_ok {F} (n : nat) (size : nat -> Z) (b : bsel) (w : nat -> list F -> option (list F)) (M : nat -> @rmem F) : Prop :=
  isdata b /\ forall r l, (r < n)%nat -> zlen l = zlen (getb b (M r)) ->
    2 * size r <= zlen l /\ exists l', w r l = Some l' /\ zlen l' = zlen l /\ forall x, ~ (0 <= x < 2 * size r) -> zget l' x = zget l x.

Section Spec3.
Context {F : Type}.
Variables (n : nat) (st : settings) (permute : Z) (ins outs : nat -> box3) (f : fft3).

(** what an operation needs: arrays and buffers of the sizes setup returned (backward, the buffers must
    also suffice for the remap setup forgets, see C21), in place or a legal out-of-place call *)
Definition act_ok3 (M : nat -> @rmem F) (a : act) : Prop :=
  match a with
  | ACompute _ _ flag bi bo => isdata bi /\ isdata bo /\ place3 f flag bi bo /\ room3 f flag bi M /\ room3 f flag bo M
  | A1d _ b => isdata b /\ forall r, (r < n)%nat -> 2 * f_fftsize f r <= zlen (getb b (M r))
  | ARemaps flag bi bo => isdata bi /\ isdata bo /\ (bi = bo \/ (if fwdpath f flag then f_pre f = true else f_post f = true)) /\
      room3 f flag bi M /\ room3 f flag bo M
  | AOne flag which bi bo => isdata bi /\ isdata bo /\ (which = 1 \/ which = 2 \/ which = 3 \/ which = 4) /\
      (bi = bo \/ (if which =? 1 then f_pre f = true else if which =? 4 then f_post f = true else st_exch st = 0)) /\
      room3 f flag bi M /\ room3 f flag bo M
  | ABarrier => True
  | AFill b w => fill_ok n (f_fftsize f) b w M
  end.

(** the cells of array [b] on rank [r] from which the result is computed *)
Definition reads3 (a : @act F) (b : bsel) (r : nat) (x : Z) : Prop :=
  match a with
  | ACompute _ _ flag bi _ | ARemaps flag bi _ => b = bi /\ cells3 (from_perm permute flag) (from_lay ins outs flag) r x
  | A1d _ bi => b = bi /\ 0 <= x < 2 * f_fftsize f r
  | AOne flag which bi _ => b = bi /\ cells3 (fst (stage_src permute ins outs f flag which)) (snd (stage_src permute ins outs f flag which)) r x
  | ABarrier => False
  | AFill bi _ => b = bi
  end.
(** the cells that hold the result *)
Definition gives3 (a : @act F) (b : bsel) (r : nat) (x : Z) : Prop :=
  match a with
  | ACompute _ _ flag _ bo | ARemaps flag _ bo => b = bo /\ cells3 (to_perm permute flag) (to_lay ins outs flag) r x
  | A1d _ bi => b = bi /\ 0 <= x < 2 * f_fftsize f r
  | AOne flag which _ bo => b = bo /\ cells3 (fst (stage_dst permute ins outs f flag which)) (snd (stage_dst permute ins outs f flag which)) r x
  | ABarrier => False
  | AFill bo _ => b = bo /\ 0 <= x < 2 * f_fftsize f r
  end.
End Spec3.

Section Spec2.
Context {F : Type}.
Variables (n : nat) (st : settings) (permute : Z) (ins outs : nat -> box2) (f : fft2).
Definition act_ok2 (M : nat -> @rmem F) (a : act) : Prop :=
  match a with
  | ACompute _ _ flag bi bo => isdata bi /\ isdata bo /\ place2 f flag bi bo /\ arrays_ok2 f bi M /\ arrays_ok2 f bo M
  | A1d _ b => isdata b /\ forall r, (r < n)%nat -> 2 * t_fftsize f r <= zlen (getb b (M r))
  | ARemaps flag bi bo => isdata bi /\ isdata bo /\ (bi = bo \/ (if fwdpath2 f flag then t_pre f = true else t_post f = true)) /\
      arrays_ok2 f bi M /\ arrays_ok2 f bo M
  | AOne flag which bi bo => isdata bi /\ isdata bo /\ (which = 1 \/ which = 2 \/ which = 3) /\
      (bi = bo \/ (if which =? 1 then t_pre f = true else if which =? 3 then t_post f = true else st_exch st = 0)) /\
      arrays_ok2 f bi M /\ arrays_ok2 f bo M
  | ABarrier => True
  | AFill b w => fill_ok n (t_fftsize f) b w M
  end.
Definition reads2 (a : @act F) (b : bsel) (r : nat) (x : Z) : Prop :=
  match a with
  | ACompute _ _ flag bi _ | ARemaps flag bi _ => b = bi /\ cells2 (from_perm permute flag) (from_lay2 ins outs flag) r x
  | A1d _ bi => b = bi /\ 0 <= x < 2 * t_fftsize f r
  | AOne flag which bi _ => b = bi /\ cells2 (fst (stage_src2 permute ins outs f flag which)) (snd (stage_src2 permute ins outs f flag which)) r x
  | ABarrier => False
  | AFill bi _ => b = bi
  end.
Definition gives2 (a : @act F) (b : bsel) (r : nat) (x : Z) : Prop :=
  match a with
  | ACompute _ _ flag _ bo | ARemaps flag _ bo => b = bo /\ cells2 (to_perm permute flag) (to_lay2 ins outs flag) r x
  | A1d _ bi => b = bi /\ 0 <= x < 2 * t_fftsize f r
  | AOne flag which _ bo => b = bo /\ cells2 (fst (stage_dst2 permute ins outs f flag which)) (snd (stage_dst2 permute ins outs f flag which)) r x
  | ABarrier => False
  | AFill bo _ => b = bo /\ 0 <= x < 2 * t_fftsize f r
  end.
End Spec2.

(** ** steps common to 2d and 3d *)
Section Common.
Context {F : Type}.
Variables (n : nat) (size : nat -> Z).

(** an operation that turns what [hold g] says of an array into what [hold' g] says *)
Lemma field_run {G : Type} (M Mf : nat -> @rmem F) bi bo cs (S D : nat -> Z -> Prop) (hold hold' : G -> nat -> list F -> Prop) :
  isdata bo ->
  (exists g, forall r, (r < n)%nat -> hold g r (getb bi (M r))) ->
  (forall g r l l', (r < n)%nat -> (forall x, S r x -> zget l' x = zget l x) -> hold g r l -> hold g r l') ->
  (forall g r l l' x, (r < n)%nat -> hold' g r l -> hold' g r l' -> D r x -> exists v, zget l x = Some v /\ zget l' x = Some v) ->
  (forall Mx g, Mx = M \/ Mx = Mf -> good n (fun r m => hold g r (getb bi m) /\ framed Mx bo (fun r => 2 * size r) r m) cs
     (fun r m => hold' g r (getb bo m) /\ framed Mx bo (fun r => 2 * size r) r m)) ->
  (forall r x, (r < n)%nat -> S r x -> zget (getb bi (Mf r)) x = zget (getb bi (M r)) x) ->
  exists M' Mf', exec_to n (together cs) M M' /\ exec_to n (together cs) Mf Mf' /\ still n size [bo] M M' /\
    forall r x, (r < n)%nat -> D r x -> exists v, zget (getb bo (M' r)) x = Some v /\ zget (getb bo (Mf' r)) x = Some v.
Proof.
  intros Hb (g & Hg) Hh Hd HG HS.
  destruct (good_exec n _ _ _ M (HG M g (or_introl eq_refl))) as (M' & H1 & E1). { intros r Hr. split; [apply Hg, Hr|apply framed_refl]. }
  destruct (good_exec n _ _ _ Mf (HG Mf g (or_intror eq_refl))) as (Mf' & H2 & E2).
  { intros r Hr. split; [eapply Hh; [exact Hr| |apply Hg, Hr]; intros x Hx; apply HS; assumption|apply framed_refl]. }
  exists M', Mf'. split; [exact E1|]. split; [exact E2|]. split.
  - apply framed_still; [exact Hb|]. intros r Hr. apply (H1 r Hr).
  - intros r x Hr Hx. eapply Hd; [exact Hr|apply (H1 r Hr)|apply (H2 r Hr)|exact Hx].
Qed.

Lemma barrier_run (M : nat -> @rmem F) : exists M', exec_to n (barrier n) M M' /\ still n size [] M M'.
Proof.
  destruct (triple_exec n (fun r m => m = M r) (barrier n) (fun r m => m = M r) M (barrier_triple n _) (barrier_wf n)) as (M' & H1 & H2); [auto|].
  exists M'. split; [exact H2|]. intros r Hr. rewrite (H1 r Hr). repeat split; auto.
Qed.

Lemma fill_run (M Mf : nat -> @rmem F) b w : fill_ok n size b w M -> fill_ok n size b w Mf ->
  (forall r x, (r < n)%nat -> zget (getb b (Mf r)) x = zget (getb b (M r)) x) ->
  exists M' Mf', exec_to n (filling b w) M M' /\ exec_to n (filling b w) Mf Mf' /\ still n size [b] M M' /\
    forall r x, (r < n)%nat -> 0 <= x < 2 * size r -> exists v, zget (getb b (M' r)) x = Some v /\ zget (getb b (Mf' r)) x = Some v.
Proof.
  intros (Hb & H) (_ & Hf) HS.
  assert (R : forall M : nat -> @rmem F, fill_ok n size b w M -> exists M', exec_to n (filling b w) M M' /\ forall r, (r < n)%nat ->
    framed M b (fun r => 2 * size r) r (M' r) /\ w r (getb b (M r)) = Some (getb b (M' r)) /\ 2 * size r <= zlen (getb b (M' r))).
  { intros Mx (_ & Hx).
    destruct (triple_exec n (fun r m => m = Mx r) (filling b w) (fun r m => framed Mx b (fun r => 2 * size r) r m /\ w r (getb b (Mx r)) = Some (getb b m) /\ 2 * size r <= zlen (getb b m)) Mx) as (M' & K1 & K2); [|apply local_wf|auto|].
    - apply (triple_local n strict (fun r m => m = Mx r) (fun r => [fun m => x <- w r (getb b m); Some (setb b x m)])).
      intros r m Hr ->. destruct (Hx r (getb b (Mx r)) Hr eq_refl) as (L0 & l' & E & L & U). exists (setb b l' (Mx r)). cbn [seqf]. rewrite E. cbn [bind].
      split; [reflexivity|]. unfold framed.
      assert (G : forall b', getb b' (setb b l' (Mx r)) = if match b, b' with BIn, BIn | BOut, BOut => true | _, _ => false end then l' else getb b' (Mx r)).
      { destruct Hb as [-> | ->]; intros []; reflexivity. }
      assert (Gb : getb b (setb b l' (Mx r)) = l') by (rewrite G; destruct Hb as [-> | ->]; reflexivity).
      rewrite Gb. split; [|split; [reflexivity|lia]]. split; [|split].
      + intros b'. rewrite G. destruct Hb as [-> | ->], b'; auto.
      + intros b' Hd Hn. rewrite G. destruct Hb as [-> | ->], b'; auto; congruence.
      + exact U.
    - exists M'. split; [exact K2|exact K1]. }
  destruct (R M (conj Hb H)) as (M' & E1 & K1). destruct (R Mf (conj Hb Hf)) as (Mf' & E2 & K2).
  exists M', Mf'. split; [exact E1|]. split; [exact E2|]. split.
  - apply framed_still; [exact Hb|]. intros r Hr. apply (K1 r Hr).
  - intros r x Hr Hx. destruct (K1 r Hr) as (_ & W1 & L1). destruct (K2 r Hr) as (_ & W2 & _).
    rewrite (zget_ext (getb b (Mf r)) (getb b (M r)) (fun x => HS r x Hr)), W1 in W2. injection W2 as W2. rewrite <- W2.
    destruct (zget_Some (getb b (M' r)) x) as (v & E); [lia|]. exists v. auto.
Qed.
End Common.

(** ** only_1d_ffts in any arithmetic *)
Section Only3.
Context {F : Type} (O : sops F).
Variables (cexp : bool -> Z -> Z -> F * F) (rnorm : Z -> F).
Variables (ar : areas) (n : nat) (st : settings) (N : Z * Z * Z) (permute : Z) (ins outs : nat -> box3) (f : fft3) (P : @plans3 F).
Hypothesis Hr : ready3 ar n st N permute ins outs f.
Hypothesis HP : setup_ffts3 cexp N = Some P.

Lemma only1d_good3 b flag x : isdata b ->
  exists y : nat -> Z -> F * F, forall M0 : nat -> @rmem F, (forall r, (r < n)%nat -> 2 * f_fftsize f r <= zlen (getb b (M0 r))) ->
  good n (fun r m => seen (x r) (f_fftsize f r) (getb b m) /\ framed M0 b (fun r => 2 * f_fftsize f r) r m)
    [ffts_fast O f P flag b; ffts_mid O f P flag b; ffts_slow O f P flag b]
    (fun r m => seen (y r) (f_fftsize f r) (getb b m) /\ framed M0 b (fun r => 2 * f_fftsize f r) r m).
Proof.
  intros Hb. pose proof (ready_facts _ _ _ _ _ _ _ _ Hr) as FA. destruct Hr as (_ & _ & HI & _ & _ & _ & Lo & _).
  destruct (plans_ok O cexp n st N permute ins outs f P FA HI HP flag) as (P1 & P2 & P3).
  pose proof (F_N _ _ _ _ _ _ _ FA) as EN.
  assert (HS : forall r, (r < n)%nat ->
    (0 <= nj (f_fast f r) * nk (f_fast f r) /\ nj (f_fast f r) * nk (f_fast f r) * fst (fst N) <= f_fftsize f r) /\
    (0 <= ni (f_mid f r) * nk (f_mid f r) /\ ni (f_mid f r) * nk (f_mid f r) * snd (fst N) <= f_fftsize f r) /\
    (0 <= ni (f_slow f r) * nj (f_slow f r) /\ ni (f_slow f r) * nj (f_slow f r) * snd N <= f_fftsize f r)).
  { intros r Hrn. destruct (F_fftsize _ _ _ _ _ _ _ FA r) as (_ & _ & A1 & A2 & A3 & _).
    destruct (F_fast_span _ _ _ _ _ _ _ FA r Hrn) as (B1 & B2). destruct (F_mid_span _ _ _ _ _ _ _ FA r Hrn) as (B3 & B4).
    destruct (F_slow_span _ _ _ _ _ _ _ FA r Hrn) as (B5 & B6).
    pose proof (F_fast_legal _ _ _ _ _ _ _ FA r Hrn) as (C1 & C2 & C3). pose proof (F_mid_legal _ _ _ _ _ _ _ FA r Hrn) as (C4 & C5 & C6).
    pose proof (F_slow_legal _ _ _ _ _ _ _ FA Lo r Hrn) as (C7 & C8 & C9).
    unfold psize3, ni, nj, nk in *.
    rewrite B1, B2 in A1. rewrite B3, B4 in A2. rewrite B5, B6 in A3.
    split; [|split]; (split; [apply Z.mul_nonneg_nonneg; lia|]).
    - replace (fst (fst N)) with (fst (fst N) - 1 - 0 + 1) by ring. lia.
    - replace (snd (fst N)) with (snd (fst N) - 1 - 0 + 1) by ring. lia.
    - replace (snd N) with (snd N - 1 - 0 + 1) by ring. lia. }
  set (k := f_fftsize f).
  set (x1 := fun r => batch (lineT O (plan_fast P flag)) (fst (fst N)) (nj (f_fast f r) * nk (f_fast f r)) (x r)).
  set (x2 := fun r => batch (lineT O (plan_mid P flag)) (snd (fst N)) (ni (f_mid f r) * nk (f_mid f r)) (x1 r)).
  set (x3 := fun r => batch (lineT O (plan_slow P flag)) (snd N) (ni (f_slow f r) * nj (f_slow f r)) (x2 r)).
  exists x3. intros M0 HM.
  apply (good_app n _ [ffts_fast O f P flag b] (fun r m => seen (x1 r) (k r) (getb b m) /\ framed M0 b (fun r => 2 * k r) r m)
         [ffts_mid O f P flag b; ffts_slow O f P flag b]).
  - apply good_one; [apply local_wf|]. unfold ffts_fast. fold (plan_fast P flag). rewrite EN.
    apply (batch_step O n strict M0 b k (fun r => nj (f_fast f r) * nk (f_fast f r)) _ cexp _ _ _ x Hb P1); [destruct P1; lia|].
    intros r Hrn. destruct (HS r Hrn) as ((A1 & A2) & _). pose proof (HM r Hrn). unfold k. auto.
  - apply (good_app n _ [ffts_mid O f P flag b] (fun r m => seen (x2 r) (k r) (getb b m) /\ framed M0 b (fun r => 2 * k r) r m)
         [ffts_slow O f P flag b]).
    + apply good_one; [apply local_wf|]. unfold ffts_mid. fold (plan_mid P flag). rewrite EN.
      apply (batch_step O n strict M0 b k (fun r => ni (f_mid f r) * nk (f_mid f r)) _ cexp _ _ _ x1 Hb P2); [destruct P2; lia|].
      intros r Hrn. destruct (HS r Hrn) as (_ & (A1 & A2) & _). pose proof (HM r Hrn). unfold k. auto.
    + apply good_one; [apply local_wf|]. unfold ffts_slow. fold (plan_slow P flag). rewrite EN.
      apply (batch_step O n strict M0 b k (fun r => ni (f_slow f r) * nj (f_slow f r)) _ cexp _ _ _ x2 Hb P3); [destruct P3; lia|].
      intros r Hrn. destruct (HS r Hrn) as (_ & _ & A1 & A2). pose proof (HM r Hrn). unfold k. auto.
Qed.
End Only3.

(** ** 3d *)
Section Run3.
Context {F : Type} (O : sops F).
Variables (cexp : bool -> Z -> Z -> F * F) (rnorm : Z -> F).
Variables (ar : areas) (n : nat) (st : settings) (N : Z * Z * Z) (permute : Z) (ins outs : nat -> box3) (f : fft3) (P : @plans3 F).
Hypothesis Hr : ready3 ar n st N permute ins outs f.
Hypothesis HP : setup_ffts3 cexp N = Some P.

Lemma lay_run3 (M Mf : nat -> @rmem F) bi bo cs sp sl dp dl (val : (pt3 -> F * F) -> nat -> pt3 -> F * F) :
  isdata bo -> perm_ok3 sp -> layout3 f sl -> (forall r, (r < n)%nat -> 2 * f_fftsize f r <= zlen (getb bi (M r))) ->
  (forall Mx G, Mx = M \/ Mx = Mf -> good n (fun r m => holds3 2 sp (sl r) (fld G) (getb bi m) /\ framed Mx bo (fun r => 2 * f_fftsize f r) r m) cs
     (fun r m => holds3 2 dp (dl r) (fld (val G r)) (getb bo m) /\ framed Mx bo (fun r => 2 * f_fftsize f r) r m)) ->
  (forall r x, (r < n)%nat -> cells3 sp sl r x -> zget (getb bi (Mf r)) x = zget (getb bi (M r)) x) ->
  exists M' Mf', exec_to n (together cs) M M' /\ exec_to n (together cs) Mf Mf' /\ still n (f_fftsize f) [bo] M M' /\
    forall r x, (r < n)%nat -> cells3 dp dl r x -> exists v, zget (getb bo (M' r)) x = Some v /\ zget (getb bo (Mf' r)) x = Some v.
Proof.
  intros Hb Hp Hl HL HG HS. pose proof (ready_facts _ _ _ _ _ _ _ _ Hr) as FA. pose proof Hr as (_ & _ & _ & _ & Ti & To & _).
  apply (field_run n (f_fftsize f) M Mf bi bo cs (cells3 sp sl) (cells3 dp dl) (fun G r l => holds3 2 sp (sl r) (fld G) l)
    (fun G r l => holds3 2 dp (dl r) (fld (val G r)) l)); auto.
  - apply (some_field O n N M bi sp sl Hp); [eapply layout_tiling; eassumption|].
    intros r Hrn. pose proof (layout_fftsize _ _ _ _ _ _ _ FA _ r Hl Hrn). specialize (HL r Hrn). lia.
  - intros G r l l' Hrn Hx H p q Hin Hq. rewrite Hx; [apply H; assumption|]. exists p, q. auto.
  - intros G r l l' x Hrn H1 H2 (p & q & Hin & Hq & ->). eexists. split; [apply H1; assumption|apply H2; assumption].
Qed.

Lemma room_lens flag b (M M' : nat -> @rmem F) : same_lens n M M' -> room3 f flag b M -> room3 f flag b M'.
Proof.
  intros HL (Ha & Hm). pose proof (en n st N permute ins outs f (ready_facts _ _ _ _ _ _ _ _ Hr)) as En. split.
  - intros r Hrn. rewrite En in Hrn. specialize (Ha r). rewrite En in Ha. specialize (Ha Hrn). rewrite (HL r b Hrn).
    pose proof (HL r BSend Hrn) as E1. pose proof (HL r BRecv Hrn) as E2. cbn in E1, E2. rewrite E1, E2. exact Ha.
  - intros E q m Hq Hsn r pl Hrn Hs. rewrite En in *. specialize (Hm E q m Hq Hsn r pl). rewrite En in Hm. specialize (Hm Hrn Hs).
    pose proof (HL r BSend Hrn) as E1. pose proof (HL r BRecv Hrn) as E2. cbn in E1, E2. rewrite E1, E2. exact Hm.
Qed.
Lemma room_size flag b (M : nat -> @rmem F) : room3 f flag b M -> forall r, (r < n)%nat -> 2 * f_fftsize f r <= zlen (getb b (M r)).
Proof. intros (Ha & _) r Hrn. rewrite <- (en n st N permute ins outs f (ready_facts _ _ _ _ _ _ _ _ Hr)) in Hrn. apply (Ha r Hrn). Qed.

Lemma act_lens3 (M M' : nat -> @rmem F) a : same_lens n M M' -> act_ok3 n st f M a -> act_ok3 n st f M' a.
Proof.
  intros HL. destruct a as [scaled ro flag bi bo|flag b|flag bi bo|flag which bi bo| |b w]; cbn [act_ok3]; auto.
  - intros (A & B & C & D & E). split; [exact A|]. split; [exact B|]. split; [exact C|]. split; eapply room_lens; eassumption.
  - intros (A & B). split; [exact A|]. intros r Hrn. rewrite (HL r b Hrn). apply B, Hrn.
  - intros (A & B & C & D & E). split; [exact A|]. split; [exact B|]. split; [exact C|]. split; eapply room_lens; eassumption.
  - intros (A & B & W & C & D & E). split; [exact A|]. split; [exact B|]. split; [exact W|]. split; [exact C|]. split; eapply room_lens; eassumption.
  - intros (A & B). split; [exact A|]. intros r l Hrn Hl. apply B; [exact Hrn|]. rewrite Hl. apply HL, Hrn.
Qed.

Lemma stage_lay flag which : which = 1 \/ which = 2 \/ which = 3 \/ which = 4 ->
  perm_ok3 (fst (stage_src permute ins outs f flag which)) /\ layout3 f (snd (stage_src permute ins outs f flag which)).
Proof.
  pose proof (ready_facts _ _ _ _ _ _ _ _ Hr) as FA. pose proof (F_perm _ _ _ _ _ _ _ FA) as Hp.
  pose proof (L_in n st N permute ins outs f FA). pose proof (L_out n st N permute ins outs f FA). pose proof (L_fast f). pose proof (L_mid f). pose proof (L_slow f).
  pose proof p0. pose proof p1. assert (perm_ok3 2) by (right; right; reflexivity).
  intros W. unfold stage_src. destruct (fwdpath f flag); destruct W as [-> | [-> | [-> | ->]]]; cbn [Z.eqb Pos.eqb fst snd]; auto.
Qed.

Lemma one_good3 flag which bi bo (M : nat -> @rmem F) g : act_ok3 n st f M (AOne flag which bi bo) ->
  good n (st3 f bo M bi (fst (stage_src permute ins outs f flag which)) (snd (stage_src permute ins outs f flag which)) g) (pieces_one_remap3 f flag which bi bo)
    (st3 f bo M bo (fst (stage_dst permute ins outs f flag which)) (snd (stage_dst permute ins outs f flag which)) g).
Proof.
  intros (Hbi & Hbo & Hw & Hg & _ & (Ha & Hm)). pose proof (ready_facts _ _ _ _ _ _ _ _ Hr) as FA. destruct Hr as (_ & _ & HI & Hpk & Ti & To & Lo & _).
  apply (one_remap_good n st N permute ins outs f FA Ti To Hpk bi bo M Hbi Hbo Ha flag which g Hw Hg). intros E _. apply Hm, E.
Qed.

Lemma zeven (x k : Z) : 0 <= x < 2 * k -> exists a, 0 <= a < k /\ (x = 2 * a \/ x = 2 * a + 1).
Proof. intros H. exists (x / 2). pose proof (Z.div_mod x 2 ltac:(lia)). pose proof (Z.mod_pos_bound x 2 ltac:(lia)). lia. Qed.

Lemma some_seen (M : nat -> @rmem F) b : (forall r, (r < n)%nat -> 2 * f_fftsize f r <= zlen (getb b (M r))) ->
  exists x : nat -> Z -> F * F, forall r, (r < n)%nat -> seen (x r) (f_fftsize f r) (getb b (M r)).
Proof.
  intros HL. exists (fun r a => (match zget (getb b (M r)) (2 * a) with Some v => v | None => s0 O end, match zget (getb b (M r)) (2 * a + 1) with Some v => v | None => s0 O end)).
  intros r Hrn a Ha. specialize (HL r Hrn). cbn [fst snd].
  destruct (zget_Some (getb b (M r)) (2 * a) ltac:(lia)) as (v & ->). destruct (zget_Some (getb b (M r)) (2 * a + 1) ltac:(lia)) as (w & ->). auto.
Qed.

Lemma act_wf3 (M : nat -> @rmem F) a : act_ok3 n st f M a -> wf_code n (act_code3 O rnorm f P a).
Proof.
  intros Ha. pose proof (en n st N permute ins outs f (ready_facts _ _ _ _ _ _ _ _ Hr)) as En.
  destruct a as [scaled ro flag bi bo|flag b|flag bi bo|flag which bi bo| |b w]; cbn [act_code3].
  - destruct Ha as (A & B & C & D & E). apply together_wf.
    apply (call_good O cexp rnorm ar n st N permute ins outs f P bi bo M scaled ro flag (fun _ => (s0 O, s0 O)) Hr HP A B C E).
  - destruct Ha as (A & B). destruct (only1d_good3 O cexp ar n st N permute ins outs f P Hr HP b flag (fun _ _ => (s0 O, s0 O)) A) as (y & G).
    apply together_wf. apply (G M B).
  - destruct Ha as (A & B & C & D & E). apply together_wf.
    apply (remaps_good ar n st N permute ins outs f bi bo M flag (fun _ _ => s0 O) Hr A B C E).
  - apply together_wf. apply (one_good3 flag which bi bo M (fun _ _ => s0 O) Ha).
  - rewrite En. apply barrier_wf.
  - apply local_wf.
Qed.

Lemma act_run3 (M Mf : nat -> @rmem F) a : act_ok3 n st f M a -> act_ok3 n st f Mf a -> agree_on n (reads3 permute ins outs f a) M Mf ->
  exists M' Mf', exec_to n (act_code3 O rnorm f P a) M M' /\ exec_to n (act_code3 O rnorm f P a) Mf Mf' /\ still n (f_fftsize f) (writes a) M M' /\
    same_result n (gives3 permute ins outs f a) M' Mf'.
Proof.
  intros Ha Hf Hs. pose proof (ready_facts _ _ _ _ _ _ _ _ Hr) as FA. pose proof (en n st N permute ins outs f FA) as En.
  destruct a as [scaled ro flag bi bo|flag b|flag bi bo|flag which bi bo| |b w]; cbn [act_code3 writes].
  - destruct Ha as (A & B & C & D & E). destruct Hf as (_ & _ & _ & D' & E'). destruct (src_ok ar n st N permute ins outs f Hr flag) as (S1 & S2 & S3).
    destruct (lay_run3 M Mf bi bo (pieces_compute3 O rnorm f P scaled ro flag bi bo) (src_perm permute f flag) (src_lay ins outs f flag) (dst_perm permute f flag) (dst_lay ins outs f flag)
      (call_val O rnorm N permute ins outs f P scaled ro flag)) as (M' & Mf' & K1 & K2 & K3 & K4); auto.
    + eapply room_size; eassumption.
    + intros Mx G [-> | ->].
      * apply (call_good O cexp rnorm ar n st N permute ins outs f P bi bo M scaled ro flag G Hr HP A B C E).
      * apply (call_good O cexp rnorm ar n st N permute ins outs f P bi bo Mf scaled ro flag G Hr HP A B C E').
    + intros r x Hrn Hc. apply Hs; [exact Hrn|]. split; [reflexivity|]. unfold cells3 in *.
      destruct (dirs ar n st N permute ins outs f flag r Hr Hrn) as (E1 & E2 & _ & _). rewrite <- E1, <- E2. exact Hc.
    + exists M', Mf'. split; [exact K1|]. split; [exact K2|]. split; [exact K3|]. intros b r x Hrn (-> & Hc). apply K4; [exact Hrn|].
      unfold cells3 in *. destruct (dirs ar n st N permute ins outs f flag r Hr Hrn) as (_ & _ & E1 & E2). rewrite E1, E2. exact Hc.
  - destruct Ha as (A & B). destruct Hf as (_ & B'). destruct (some_seen M b B) as (x & Hx).
    destruct (only1d_good3 O cexp ar n st N permute ins outs f P Hr HP b flag x A) as (y & G).
    destruct (field_run n (f_fftsize f) M Mf b b [ffts_fast O f P flag b; ffts_mid O f P flag b; ffts_slow O f P flag b]
      (fun r x => 0 <= x < 2 * f_fftsize f r) (fun r x => 0 <= x < 2 * f_fftsize f r)
      (fun (_ : unit) r l => seen (x r) (f_fftsize f r) l) (fun (_ : unit) r l => seen (y r) (f_fftsize f r) l)) as (M' & Mf' & K1 & K2 & K3 & K4); auto.
    + exists tt. exact Hx.
    + intros _ r l l' Hrn He H a Ha. rewrite !He by lia. apply H, Ha.
    + intros _ r l l' z Hrn H1 H2 Hz. destruct (zeven z (f_fftsize f r) Hz) as (a & Ha & [-> | ->]); destruct (H1 a Ha), (H2 a Ha); eauto.
    + intros Mx _ [-> | ->]; auto.
    + intros r z Hrn Hz. apply Hs; [exact Hrn|]. split; [reflexivity|exact Hz].
    + exists M', Mf'. split; [exact K1|]. split; [exact K2|]. split; [exact K3|]. intros b' r z Hrn (-> & Hz). apply K4; assumption.
  - destruct Ha as (A & B & C & D & E). destruct Hf as (_ & _ & _ & D' & E'). destruct (src_ok ar n st N permute ins outs f Hr flag) as (S1 & S2 & S3).
    destruct (lay_run3 M Mf bi bo (pieces_only_remaps3 f flag bi bo) (src_perm permute f flag) (src_lay ins outs f flag) (dst_perm permute f flag) (dst_lay ins outs f flag)
      (fun G _ => G)) as (M' & Mf' & K1 & K2 & K3 & K4); auto.
    + eapply room_size; eassumption.
    + intros Mx G [-> | ->].
      * apply (remaps_good ar n st N permute ins outs f bi bo M flag (fld G) Hr A B C E).
      * apply (remaps_good ar n st N permute ins outs f bi bo Mf flag (fld G) Hr A B C E').
    + intros r x Hrn Hc. apply Hs; [exact Hrn|]. split; [reflexivity|]. unfold cells3 in *.
      destruct (dirs ar n st N permute ins outs f flag r Hr Hrn) as (E1 & E2 & _ & _). rewrite <- E1, <- E2. exact Hc.
    + exists M', Mf'. split; [exact K1|]. split; [exact K2|]. split; [exact K3|]. intros b r x Hrn (-> & Hc). apply K4; [exact Hrn|].
      unfold cells3 in *. destruct (dirs ar n st N permute ins outs f flag r Hr Hrn) as (_ & _ & E1 & E2). rewrite E1, E2. exact Hc.
  - pose proof (fun g => one_good3 flag which bi bo M g Ha) as G1. pose proof (fun g => one_good3 flag which bi bo Mf g Hf) as G2.
    destruct Ha as (A & B & W & C & D & E). destruct (stage_lay flag which W) as (S1 & S2).
    destruct (lay_run3 M Mf bi bo (pieces_one_remap3 f flag which bi bo) (fst (stage_src permute ins outs f flag which)) (snd (stage_src permute ins outs f flag which))
      (fst (stage_dst permute ins outs f flag which)) (snd (stage_dst permute ins outs f flag which)) (fun G _ => G)) as (M' & Mf' & K1 & K2 & K3 & K4); auto.
    + eapply room_size; eassumption.
    + intros Mx G [-> | ->]; [apply G1|apply G2].
    + intros r x Hrn Hc. apply Hs; [exact Hrn|]. split; [reflexivity|exact Hc].
    + exists M', Mf'. split; [exact K1|]. split; [exact K2|]. split; [exact K3|]. intros b r x Hrn (-> & Hc). apply K4; assumption.
  - rewrite En. destruct (barrier_run n (f_fftsize f) M) as (M' & K1 & K2). destruct (barrier_run n (f_fftsize f) Mf) as (Mf' & K3 & _).
    exists M', Mf'. split; [exact K1|]. split; [exact K3|]. split; [exact K2|]. intros b r x _ [].
  - destruct (fill_run n (f_fftsize f) M Mf b w Ha Hf) as (M' & Mf' & K1 & K2 & K3 & K4).
    { intros r x Hrn. apply Hs; [exact Hrn|reflexivity]. }
    exists M', Mf'. split; [exact K1|]. split; [exact K2|]. split; [exact K3|]. intros b' r x Hrn (-> & Hx). apply K4; assumption.
Qed.

Lemma sequence3 l (M0 : nat -> @rmem F) : Forall (act_ok3 n st f M0) l ->
  (exists M', exec_to n (acts_code3 O rnorm f P l) M0 M' /\ still n (f_fftsize f) (flat_map writes l) M0 M') /\
  forall pre a post M1, l = pre ++ a :: post -> exec_to n (acts_code3 O rnorm f P pre) M0 M1 ->
    exists M2, exec_to n (act_code3 O rnorm f P a) M1 M2 /\ exec_to n (acts_code3 O rnorm f P (pre ++ [a])) M0 M2 /\
    forall Mf, act_ok3 n st f Mf a -> agree_on n (reads3 permute ins outs f a) M1 Mf ->
      exists Mf2, exec_to n (act_code3 O rnorm f P a) Mf Mf2 /\ same_result n (gives3 permute ins outs f a) M2 Mf2.
Proof.
  apply (sequence n (f_fftsize f) (act_code3 O rnorm f P) (act_ok3 n st f) writes (reads3 permute ins outs f) (gives3 permute ins outs f)).
  - exact act_lens3.
  - exact act_wf3.
  - exact act_run3.
Qed.
End Run3.

Section Only2.
Context {F : Type} (O : sops F).
Variables (esize : Z) (cexp : bool -> Z -> Z -> F * F) (rnorm : Z -> F).
Variables (ar : areas) (n : nat) (st : settings) (N : Z * Z) (permute : Z) (ins outs : nat -> box2) (f : fft2) (P : @plans2 F).
Hypothesis Hr : ready2 esize ar n st N permute ins outs f.
Hypothesis HP : setup_ffts2 cexp N = Some P.

Lemma only1d_good2 b flag x : isdata b ->
  exists y : nat -> Z -> F * F, forall M0 : nat -> @rmem F, (forall r, (r < n)%nat -> 2 * t_fftsize f r <= zlen (getb b (M0 r))) ->
  good n (fun r m => seen (x r) (t_fftsize f r) (getb b m) /\ framed M0 b (fun r => 2 * t_fftsize f r) r m)
    [ffts_fast2 O f P flag b; ffts_slow2 O f P flag b]
    (fun r m => seen (y r) (t_fftsize f r) (getb b m) /\ framed M0 b (fun r => 2 * t_fftsize f r) r m).
Proof.
  intros Hb. pose proof (ready_facts2 _ _ _ _ _ _ _ _ _ Hr) as FA. destruct Hr as (_ & _ & HI & _ & _ & _ & _ & Lo & _).
  destruct (plans_ok2 O cexp n st N permute ins outs f P FA HI HP flag) as (P1 & P3).
  pose proof (T_N _ _ _ _ _ _ _ FA) as EN.
  assert (HS : forall r, (r < n)%nat ->
    (0 <= nj2 (t_fast f r) /\ nj2 (t_fast f r) * fst N <= t_fftsize f r) /\
    (0 <= ni2 (t_slow f r) /\ ni2 (t_slow f r) * snd N <= t_fftsize f r)).
  { intros r Hrn. destruct (T_fftsize _ _ _ _ _ _ _ FA r) as (_ & _ & A1 & A3 & _).
    destruct (T_fast_span _ _ _ _ _ _ _ FA r Hrn) as (B1 & B2). destruct (T_slow_span _ _ _ _ _ _ _ FA r Hrn) as (B5 & B6).
    pose proof (T_fast_legal _ _ _ _ _ _ _ FA r Hrn) as (C1 & C2).
    pose proof (T_slow_legal _ _ _ _ _ _ _ FA Lo r Hrn) as (C7 & C8).
    unfold psize2, ni2, nj2 in *.
    rewrite B1, B2 in A1. rewrite B5, B6 in A3.
    split; (split; [lia|]).
    - replace (fst N) with (fst N - 1 - 0 + 1) by ring. lia.
    - replace (snd N) with (snd N - 1 - 0 + 1) by ring. lia. }
  set (k := t_fftsize f).
  set (x1 := fun r => batch (lineT O (plan_fast2 P flag)) (fst N) (nj2 (t_fast f r)) (x r)).
  set (x3 := fun r => batch (lineT O (plan_slow2 P flag)) (snd N) (ni2 (t_slow f r)) (x1 r)).
  exists x3. intros M0 HM.
  apply (good_app n _ [ffts_fast2 O f P flag b] (fun r m => seen (x1 r) (k r) (getb b m) /\ framed M0 b (fun r => 2 * k r) r m)
         [ffts_slow2 O f P flag b]).
  - apply good_one; [apply local_wf|]. unfold ffts_fast2. fold (plan_fast2 P flag). rewrite EN.
    apply (batch_step O n strict M0 b k (fun r => nj2 (t_fast f r)) _ cexp _ _ _ x Hb P1); [destruct P1; lia|].
    intros r Hrn. destruct (HS r Hrn) as ((A1 & A2) & _). pose proof (HM r Hrn). unfold k. auto.
  - apply good_one; [apply local_wf|]. unfold ffts_slow2. fold (plan_slow2 P flag). rewrite EN.
    apply (batch_step O n strict M0 b k (fun r => ni2 (t_slow f r)) _ cexp _ _ _ x1 Hb P3); [destruct P3; lia|].
    intros r Hrn. destruct (HS r Hrn) as (_ & A1 & A2). pose proof (HM r Hrn). unfold k. auto.
Qed.
End Only2.

(** ** 2d *)
Section Run2.
Context {F : Type} (O : sops F).
Variables (esize : Z) (cexp : bool -> Z -> Z -> F * F) (rnorm : Z -> F).
Variables (ar : areas) (n : nat) (st : settings) (N : Z * Z) (permute : Z) (ins outs : nat -> box2) (f : fft2) (P : @plans2 F).
Hypothesis Hr : ready2 esize ar n st N permute ins outs f.
Hypothesis HP : setup_ffts2 cexp N = Some P.

Lemma lay_run2 (M Mf : nat -> @rmem F) bi bo cs sp sl dp dl (val : (pt2 -> F * F) -> nat -> pt2 -> F * F) :
  isdata bo -> perm_ok2 sp -> layout2 f sl -> (forall r, (r < n)%nat -> 2 * t_fftsize f r <= zlen (getb bi (M r))) ->
  (forall Mx G, Mx = M \/ Mx = Mf -> good n (fun r m => holds2 2 sp (sl r) (fld G) (getb bi m) /\ framed Mx bo (fun r => 2 * t_fftsize f r) r m) cs
     (fun r m => holds2 2 dp (dl r) (fld (val G r)) (getb bo m) /\ framed Mx bo (fun r => 2 * t_fftsize f r) r m)) ->
  (forall r x, (r < n)%nat -> cells2 sp sl r x -> zget (getb bi (Mf r)) x = zget (getb bi (M r)) x) ->
  exists M' Mf', exec_to n (together cs) M M' /\ exec_to n (together cs) Mf Mf' /\ still n (t_fftsize f) [bo] M M' /\
    forall r x, (r < n)%nat -> cells2 dp dl r x -> exists v, zget (getb bo (M' r)) x = Some v /\ zget (getb bo (Mf' r)) x = Some v.
Proof.
  intros Hb Hp Hl HL HG HS. pose proof (ready_facts2 _ _ _ _ _ _ _ _ _ Hr) as FA. pose proof Hr as (_ & _ & _ & _ & _ & Ti & To & _).
  apply (field_run n (t_fftsize f) M Mf bi bo cs (cells2 sp sl) (cells2 dp dl) (fun G r l => holds2 2 sp (sl r) (fld G) l)
    (fun G r l => holds2 2 dp (dl r) (fld (val G r)) l)); auto.
  - apply (some_field2 O n N M bi sp sl Hp); [eapply layout_tiling2; eassumption|].
    intros r Hrn. pose proof (layout_fftsize2 _ _ _ _ _ _ _ FA _ r Hl Hrn). specialize (HL r Hrn). lia.
  - intros G r l l' Hrn Hx H p q Hin Hq. rewrite Hx; [apply H; assumption|]. exists p, q. auto.
  - intros G r l l' x Hrn H1 H2 (p & q & Hin & Hq & ->). eexists. split; [apply H1; assumption|apply H2; assumption].
Qed.

Lemma room_lens2 b (M M' : nat -> @rmem F) : same_lens n M M' -> arrays_ok2 f b M -> arrays_ok2 f b M'.
Proof.
  intros HL Ha. pose proof (en2 n st N permute ins outs f (ready_facts2 _ _ _ _ _ _ _ _ _ Hr)) as En.
  intros r Hrn. rewrite En in Hrn. specialize (Ha r). rewrite En in Ha. specialize (Ha Hrn). rewrite (HL r b Hrn).
  pose proof (HL r BSend Hrn) as E1. pose proof (HL r BRecv Hrn) as E2. cbn in E1, E2. rewrite E1, E2. exact Ha.
Qed.
Lemma room_size2 b (M : nat -> @rmem F) : arrays_ok2 f b M -> forall r, (r < n)%nat -> 2 * t_fftsize f r <= zlen (getb b (M r)).
Proof. intros Ha r Hrn. rewrite <- (en2 n st N permute ins outs f (ready_facts2 _ _ _ _ _ _ _ _ _ Hr)) in Hrn. apply (Ha r Hrn). Qed.

Lemma act_lens2 (M M' : nat -> @rmem F) a : same_lens n M M' -> act_ok2 n st f M a -> act_ok2 n st f M' a.
Proof.
  intros HL. destruct a as [scaled ro flag bi bo|flag b|flag bi bo|flag which bi bo| |b w]; cbn [act_ok2]; auto.
  - intros (A & B & C & D & E). split; [exact A|]. split; [exact B|]. split; [exact C|]. split; eapply room_lens2; eassumption.
  - intros (A & B). split; [exact A|]. intros r Hrn. rewrite (HL r b Hrn). apply B, Hrn.
  - intros (A & B & C & D & E). split; [exact A|]. split; [exact B|]. split; [exact C|]. split; eapply room_lens2; eassumption.
  - intros (A & B & W & C & D & E). split; [exact A|]. split; [exact B|]. split; [exact W|]. split; [exact C|]. split; eapply room_lens2; eassumption.
  - intros (A & B). split; [exact A|]. intros r l Hrn Hl. apply B; [exact Hrn|]. rewrite Hl. apply HL, Hrn.
Qed.

Lemma stage_lay2 flag which : which = 1 \/ which = 2 \/ which = 3 ->
  perm_ok2 (fst (stage_src2 permute ins outs f flag which)) /\ layout2 f (snd (stage_src2 permute ins outs f flag which)).
Proof.
  pose proof (ready_facts2 _ _ _ _ _ _ _ _ _ Hr) as FA. pose proof (T_perm _ _ _ _ _ _ _ FA) as Hp.
  pose proof (L_in2 n st N permute ins outs f FA). pose proof (L_out2 n st N permute ins outs f FA). pose proof (L_fast2 f). pose proof (L_slow2 f).
  pose proof q0. pose proof q1.
  intros W. unfold stage_src2. destruct (fwdpath2 f flag); destruct W as [-> | [-> | ->]]; cbn [Z.eqb Pos.eqb fst snd]; auto.
Qed.

Lemma one_good2 flag which bi bo (M : nat -> @rmem F) g : act_ok2 n st f M (AOne flag which bi bo) ->
  good n (st2 f bo M bi (fst (stage_src2 permute ins outs f flag which)) (snd (stage_src2 permute ins outs f flag which)) g) (pieces_one_remap2 esize f flag which bi bo)
    (st2 f bo M bo (fst (stage_dst2 permute ins outs f flag which)) (snd (stage_dst2 permute ins outs f flag which)) g).
Proof.
  intros (Hbi & Hbo & Hw & Hg & _ & Ha). pose proof (ready_facts2 _ _ _ _ _ _ _ _ _ Hr) as FA. destruct Hr as (_ & _ & HI & Hpk & He & Ti & To & Lo & _).
  apply (one_remap_good2 esize n st N permute ins outs f FA Ti To Hpk He bi bo M Hbi Hbo Ha flag which g Hw Hg).
Qed.

Lemma some_seen2 (M : nat -> @rmem F) b : (forall r, (r < n)%nat -> 2 * t_fftsize f r <= zlen (getb b (M r))) ->
  exists x : nat -> Z -> F * F, forall r, (r < n)%nat -> seen (x r) (t_fftsize f r) (getb b (M r)).
Proof.
  intros HL. exists (fun r a => (match zget (getb b (M r)) (2 * a) with Some v => v | None => s0 O end, match zget (getb b (M r)) (2 * a + 1) with Some v => v | None => s0 O end)).
  intros r Hrn a Ha. specialize (HL r Hrn). cbn [fst snd].
  destruct (zget_Some (getb b (M r)) (2 * a) ltac:(lia)) as (v & ->). destruct (zget_Some (getb b (M r)) (2 * a + 1) ltac:(lia)) as (w & ->). auto.
Qed.

Lemma act_wf2 (M : nat -> @rmem F) a : act_ok2 n st f M a -> wf_code n (act_code2 O rnorm esize f P a).
Proof.
  intros Ha. pose proof (en2 n st N permute ins outs f (ready_facts2 _ _ _ _ _ _ _ _ _ Hr)) as En.
  destruct a as [scaled ro flag bi bo|flag b|flag bi bo|flag which bi bo| |b w]; cbn [act_code2].
  - destruct Ha as (A & B & C & D & E). apply together_wf.
    apply (call_good2 O cexp rnorm esize ar n st N permute ins outs f P bi bo M scaled ro flag (fun _ => (s0 O, s0 O)) Hr HP A B C E).
  - destruct Ha as (A & B). destruct (only1d_good2 O esize cexp ar n st N permute ins outs f P Hr HP b flag (fun _ _ => (s0 O, s0 O)) A) as (y & G).
    apply together_wf. apply (G M B).
  - destruct Ha as (A & B & C & D & E). apply together_wf.
    apply (remaps_good2 esize ar n st N permute ins outs f bi bo M flag (fun _ _ => s0 O) Hr A B C E).
  - apply together_wf. apply (one_good2 flag which bi bo M (fun _ _ => s0 O) Ha).
  - rewrite En. apply barrier_wf.
  - apply local_wf.
Qed.

Lemma act_run2 (M Mf : nat -> @rmem F) a : act_ok2 n st f M a -> act_ok2 n st f Mf a -> agree_on n (reads2 permute ins outs f a) M Mf ->
  exists M' Mf', exec_to n (act_code2 O rnorm esize f P a) M M' /\ exec_to n (act_code2 O rnorm esize f P a) Mf Mf' /\ still n (t_fftsize f) (writes a) M M' /\
    same_result n (gives2 permute ins outs f a) M' Mf'.
Proof.
  intros Ha Hf Hs. pose proof (ready_facts2 _ _ _ _ _ _ _ _ _ Hr) as FA. pose proof (en2 n st N permute ins outs f FA) as En.
  destruct a as [scaled ro flag bi bo|flag b|flag bi bo|flag which bi bo| |b w]; cbn [act_code2 writes].
  - destruct Ha as (A & B & C & D & E). destruct Hf as (_ & _ & _ & D' & E'). destruct (src_ok2 esize ar n st N permute ins outs f Hr flag) as (S1 & S2 & S3).
    destruct (lay_run2 M Mf bi bo (pieces_compute2 O rnorm esize f P scaled ro flag bi bo) (src_perm2 permute f flag) (src_lay2 ins outs f flag) (dst_perm2 permute f flag) (dst_lay2 ins outs f flag)
      (call_val2 O rnorm N permute ins outs f P scaled ro flag)) as (M' & Mf' & K1 & K2 & K3 & K4); auto.
    + eapply room_size2; eassumption.
    + intros Mx G [-> | ->].
      * apply (call_good2 O cexp rnorm esize ar n st N permute ins outs f P bi bo M scaled ro flag G Hr HP A B C E).
      * apply (call_good2 O cexp rnorm esize ar n st N permute ins outs f P bi bo Mf scaled ro flag G Hr HP A B C E').
    + intros r x Hrn Hc. apply Hs; [exact Hrn|]. split; [reflexivity|]. unfold cells2 in *.
      destruct (dirs2 esize ar n st N permute ins outs f flag r Hr Hrn) as (E1 & E2 & _ & _). rewrite <- E1, <- E2. exact Hc.
    + exists M', Mf'. split; [exact K1|]. split; [exact K2|]. split; [exact K3|]. intros b r x Hrn (-> & Hc). apply K4; [exact Hrn|].
      unfold cells2 in *. destruct (dirs2 esize ar n st N permute ins outs f flag r Hr Hrn) as (_ & _ & E1 & E2). rewrite E1, E2. exact Hc.
  - destruct Ha as (A & B). destruct Hf as (_ & B'). destruct (some_seen2 M b B) as (x & Hx).
    destruct (only1d_good2 O esize cexp ar n st N permute ins outs f P Hr HP b flag x A) as (y & G).
    destruct (field_run n (t_fftsize f) M Mf b b [ffts_fast2 O f P flag b; ffts_slow2 O f P flag b]
      (fun r x => 0 <= x < 2 * t_fftsize f r) (fun r x => 0 <= x < 2 * t_fftsize f r)
      (fun (_ : unit) r l => seen (x r) (t_fftsize f r) l) (fun (_ : unit) r l => seen (y r) (t_fftsize f r) l)) as (M' & Mf' & K1 & K2 & K3 & K4); auto.
    + exists tt. exact Hx.
    + intros _ r l l' Hrn He H a Ha. rewrite !He by lia. apply H, Ha.
    + intros _ r l l' z Hrn H1 H2 Hz. destruct (zeven z (t_fftsize f r) Hz) as (a & Ha & [-> | ->]); destruct (H1 a Ha), (H2 a Ha); eauto.
    + intros Mx _ [-> | ->]; auto.
    + intros r z Hrn Hz. apply Hs; [exact Hrn|]. split; [reflexivity|exact Hz].
    + exists M', Mf'. split; [exact K1|]. split; [exact K2|]. split; [exact K3|]. intros b' r z Hrn (-> & Hz). apply K4; assumption.
  - destruct Ha as (A & B & C & D & E). destruct Hf as (_ & _ & _ & D' & E'). destruct (src_ok2 esize ar n st N permute ins outs f Hr flag) as (S1 & S2 & S3).
    destruct (lay_run2 M Mf bi bo (pieces_only_remaps2 esize f flag bi bo) (src_perm2 permute f flag) (src_lay2 ins outs f flag) (dst_perm2 permute f flag) (dst_lay2 ins outs f flag)
      (fun G _ => G)) as (M' & Mf' & K1 & K2 & K3 & K4); auto.
    + eapply room_size2; eassumption.
    + intros Mx G [-> | ->].
      * apply (remaps_good2 esize ar n st N permute ins outs f bi bo M flag (fld G) Hr A B C E).
      * apply (remaps_good2 esize ar n st N permute ins outs f bi bo Mf flag (fld G) Hr A B C E').
    + intros r x Hrn Hc. apply Hs; [exact Hrn|]. split; [reflexivity|]. unfold cells2 in *.
      destruct (dirs2 esize ar n st N permute ins outs f flag r Hr Hrn) as (E1 & E2 & _ & _). rewrite <- E1, <- E2. exact Hc.
    + exists M', Mf'. split; [exact K1|]. split; [exact K2|]. split; [exact K3|]. intros b r x Hrn (-> & Hc). apply K4; [exact Hrn|].
      unfold cells2 in *. destruct (dirs2 esize ar n st N permute ins outs f flag r Hr Hrn) as (_ & _ & E1 & E2). rewrite E1, E2. exact Hc.
  - pose proof (fun g => one_good2 flag which bi bo M g Ha) as G1. pose proof (fun g => one_good2 flag which bi bo Mf g Hf) as G2.
    destruct Ha as (A & B & W & C & D & E). destruct (stage_lay2 flag which W) as (S1 & S2).
    destruct (lay_run2 M Mf bi bo (pieces_one_remap2 esize f flag which bi bo) (fst (stage_src2 permute ins outs f flag which)) (snd (stage_src2 permute ins outs f flag which))
      (fst (stage_dst2 permute ins outs f flag which)) (snd (stage_dst2 permute ins outs f flag which)) (fun G _ => G)) as (M' & Mf' & K1 & K2 & K3 & K4); auto.
    + eapply room_size2; eassumption.
    + intros Mx G [-> | ->]; [apply G1|apply G2].
    + intros r x Hrn Hc. apply Hs; [exact Hrn|]. split; [reflexivity|exact Hc].
    + exists M', Mf'. split; [exact K1|]. split; [exact K2|]. split; [exact K3|]. intros b r x Hrn (-> & Hc). apply K4; assumption.
  - rewrite En. destruct (barrier_run n (t_fftsize f) M) as (M' & K1 & K2). destruct (barrier_run n (t_fftsize f) Mf) as (Mf' & K3 & _).
    exists M', Mf'. split; [exact K1|]. split; [exact K3|]. split; [exact K2|]. intros b r x _ [].
  - destruct (fill_run n (t_fftsize f) M Mf b w Ha Hf) as (M' & Mf' & K1 & K2 & K3 & K4).
    { intros r x Hrn. apply Hs; [exact Hrn|reflexivity]. }
    exists M', Mf'. split; [exact K1|]. split; [exact K2|]. split; [exact K3|]. intros b' r x Hrn (-> & Hx). apply K4; assumption.
Qed.

Lemma sequence2 l (M0 : nat -> @rmem F) : Forall (act_ok2 n st f M0) l ->
  (exists M', exec_to n (acts_code2 O rnorm esize f P l) M0 M' /\ still n (t_fftsize f) (flat_map writes l) M0 M') /\
  forall pre a post M1, l = pre ++ a :: post -> exec_to n (acts_code2 O rnorm esize f P pre) M0 M1 ->
    exists M2, exec_to n (act_code2 O rnorm esize f P a) M1 M2 /\ exec_to n (acts_code2 O rnorm esize f P (pre ++ [a])) M0 M2 /\
    forall Mf, act_ok2 n st f Mf a -> agree_on n (reads2 permute ins outs f a) M1 Mf ->
      exists Mf2, exec_to n (act_code2 O rnorm esize f P a) Mf Mf2 /\ same_result n (gives2 permute ins outs f a) M2 Mf2.
Proof.
  apply (sequence n (t_fftsize f) (act_code2 O rnorm esize f P) (act_ok2 n st f) writes (reads2 permute ins outs f) (gives2 permute ins outs f)).
  - exact act_lens2.
  - exact act_wf2.
  - exact act_run2.
Qed.
End Run2.
