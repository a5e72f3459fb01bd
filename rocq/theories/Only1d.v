(** Only1d.v : what FFT3d::only_1d_ffts and FFT2d::only_1d_ffts (models in Fft3d.v, Fft2d.v) do to the
    caller's array; property C50. *)

From Coq Require Import Reals.
From Verif Require Import Base Spec Pack3d Pack2d Sched SchedProofs Phases Exec Remap RemapMain RemapInst
  Remap3d Remap2d RemapThms RemapTop Layout LayoutProofs Setup3d Setup3dProofs Setup2d Setup2dProofs Kiss KissPure KissReal Fft1d KissFinal
  Fft3d Frame Fft3dProofs Fft3dMain DftMulti Fft3dTop Fft2d Fft2dMain Fft2dTop.
Local Open Scope Z_scope.

(** ** specification *)
(** the first [n] stretches of [L] consecutive values each replaced by their transform *)
Definition batch {C} (T : (Z -> C) -> Z -> C) (L n : Z) (x : Z -> C) (a : Z) : C :=
  if (0 <=? a) && (a <? n * L) then T (fun j => x (a / L * L + j)) (a mod L) else x a.
(** the first [k] complex values of array [l] are [x] *)
Definition seen {F} (x : Z -> F * F) (k : Z) (l : list F) : Prop :=
  forall a, 0 <= a < k -> zget l (2 * a) = Some (fst (x a)) /\ zget l (2 * a + 1) = Some (snd (x a)).

Section Any.
Context {F : Type} (O : sops F).

Lemma batch_ext {C} (T T' : (Z -> C) -> Z -> C) L n x x' a : 1 <= L ->
  (forall y j, 0 <= j < L -> T y j = T' y j) -> (forall y y' j, 0 <= j < L -> (forall t, 0 <= t < L -> y t = y' t) -> T' y j = T' y' j) ->
  (forall i, 0 <= i -> x i = x' i) -> 0 <= a -> batch T L n x a = batch T' L n x' a.
Proof.
  intros HL HT HE Hx Ha. unfold batch. destruct ((0 <=? a) && (a <? n * L)); [|apply Hx, Ha].
  pose proof (Z.mod_pos_bound a L ltac:(lia)). rewrite HT by lia. apply HE; [lia|].
  intros t Ht. apply Hx. pose proof (Z.div_pos a L ltac:(lia) ltac:(lia)). nia.
Qed.

Lemma batch_step n eager (M0 : nat -> @rmem F) b (k num tot : nat -> Z) cexp st inv L (x : nat -> Z -> F * F) :
  isdata b -> plan_for cexp L inv st -> 1 <= L ->
  (forall r, (r < n)%nat -> 0 <= num r /\ tot r = num r * L /\ num r * L <= k r /\ 2 * k r <= zlen (getb b (M0 r))) ->
  triple n eager (fun r m => seen (x r) (k r) (getb b m) /\ framed M0 b (fun r => 2 * k r) r m)
    (fun r => [ILocal (cview b (perform_ffts O st L (tot r)))])
    (fun r m => seen (batch (lineT O st) L (num r) (x r)) (k r) (getb b m) /\ framed M0 b (fun r => 2 * k r) r m).
Proof.
  intros Hb HP HL H.
  apply (cview_step n eager M0 b (fun r => 2 * k r) (fun r => perform_ffts O st L (tot r))
     (fun r l => seen (x r) (k r) l) (fun r l => seen (batch (lineT O st) L (num r) (x r)) (k r) l)); [exact Hb|].
  intros r l Hr Hs Hl. destruct (H r Hr) as (H1 & -> & H2 & H3).
  assert (G : forall a, 0 <= a < k r -> zget (fst (pairs l)) a = Some (x r a)).
  { intros a Ha. destruct (Hs a Ha) as (E1 & E2). rewrite (pairs_get _ _ _ _ E1 E2). now rewrite <- surjective_pairing. }
  destruct (plan_facts O cexp L inv st HP) as (E1 & E2 & E3 & _).
  destruct (perform_ok O st L (num r) (fst (pairs l)) (x r) E1 E2 E3 HL H1) as (l' & E & Z' & S & U).
  { apply Z.le_trans with (k r); [lia|]. apply pairs_room. lia. }
  { intros a Ha. apply G. lia. }
  exists l', (num r * L). split; [exact E|]. split; [exact Z'|]. split; [lia|]. split; [exact U|].
  intros l2 Hl2 a Ha. apply Hl2. rewrite <- surjective_pairing. unfold batch.
  destruct (Z.leb_spec 0 a); [|lia]. cbn [andb]. destruct (Z.ltb_spec a (num r * L)).
  - pose proof (Z.mod_pos_bound a L ltac:(lia)). pose proof (Z.div_mod a L ltac:(lia)) as D.
    rewrite <- S; [f_equal; lia| |lia]. split; [apply Z.div_pos; lia|]. apply Z.div_lt_upper_bound; lia.
  - rewrite U by lia. apply G. lia.
Qed.
End Any.

(** ** 3d *)
Definition inverse_of (flag : Z) : bool := negb (flag =? FORWARD).

(** the three batches in the order of the code: lines of the fast, mid and slow layouts of the rank *)
Definition three_batches {C} (T : bool -> Z -> (Z -> C) -> Z -> C) (f : fft3) (flag : Z) (r : nat) (x : Z -> C) : Z -> C :=
  let '(nfast, nmid, nslow) := f_N f in
  let inv := inverse_of flag in
  batch (T inv nslow) nslow (ni (f_slow f r) * nj (f_slow f r))
    (batch (T inv nmid) nmid (ni (f_mid f r) * nk (f_mid f r))
      (batch (T inv nfast) nfast (nj (f_fast f r) * nk (f_fast f r)) x)).
Definition two_batches {C} (T : bool -> Z -> (Z -> C) -> Z -> C) (f : fft2) (flag : Z) (r : nat) (x : Z -> C) : Z -> C :=
  let '(nfast, nslow) := t_N f in
  let inv := inverse_of flag in
  batch (T inv nslow) nslow (ni2 (t_slow f r)) (batch (T inv nfast) nfast (nj2 (t_fast f r)) x).

Lemma seen_ext {F} (x y : Z -> F * F) k l : (forall a, 0 <= a < k -> x a = y a) -> seen x k l -> seen y k l.
Proof. intros H S a Ha. rewrite <- H by lia. apply S, Ha. Qed.

Lemma real_batch L inv st n (x : Z -> R * R) a : plan_for cexpR L inv st -> 0 <= a ->
  batch (lineT Rops st) L n x a = batch (DFT inv L) L n x a.
Proof.
  intros HP Ha. pose proof HP as ((HL & _) & _). apply batch_ext; [lia| | |reflexivity|exact Ha].
  - intros y j Hj. apply lineT_real; auto.
  - intros y y' j Hj Hy. apply DFT_ext; [lia|auto].
Qed.
Lemma dft_batch_ext L inv n (x y : Z -> R * R) a : 1 <= L -> (forall i, 0 <= i -> x i = y i) -> 0 <= a ->
  batch (DFT inv L) L n x a = batch (DFT inv L) L n y a.
Proof.
  intros HL H Ha. apply batch_ext; [exact HL|reflexivity| |exact H|exact Ha]. intros z z' j Hj Hz. apply DFT_ext; [lia|auto].
Qed.

Lemma only_1d_3d ar n st N permute ins outs f b (M0 : nat -> @rmem R) flag x :
  ready3 ar n st N permute ins outs f -> isdata b ->
  (forall r, (r < n)%nat -> 2 * f_fftsize f r <= zlen (getb b (M0 r)) /\ seen (x r) (f_fftsize f r) (getb b (M0 r))) ->
  exists P, setup_ffts3 cexpR N = Some P /\
  exec_all n (only_1d_ffts3 Rops f P flag b) M0
    (fun r m => seen (three_batches DFT f flag r (x r)) (f_fftsize f r) (getb b m) /\
                framed M0 b (fun r => 2 * f_fftsize f r) r m).
Proof.
  intros Hr Hb HM. destruct (ready_plans Rops cexpR _ _ _ _ _ _ _ _ Hr) as (P & EP). exists P. split; [exact EP|].
  pose proof (ready_facts _ _ _ _ _ _ _ _ Hr) as FA. destruct Hr as (_ & _ & HI & _ & _ & _ & Lo & _).
  destruct (plans_ok Rops cexpR n st N permute ins outs f P FA HI EP flag) as (P1 & P2 & P3).
  pose proof (F_N _ _ _ _ _ _ _ FA) as EN.
  assert (HS : forall r, (r < n)%nat ->
    (0 <= nj (f_fast f r) * nk (f_fast f r) /\ nj (f_fast f r) * nk (f_fast f r) * fst (fst N) <= f_fftsize f r) /\
    (0 <= ni (f_mid f r) * nk (f_mid f r) /\ ni (f_mid f r) * nk (f_mid f r) * snd (fst N) <= f_fftsize f r) /\
    (0 <= ni (f_slow f r) * nj (f_slow f r) /\ ni (f_slow f r) * nj (f_slow f r) * snd N <= f_fftsize f r)).
  { intros r Hr. destruct (F_fftsize _ _ _ _ _ _ _ FA r) as (_ & _ & A1 & A2 & A3 & _).
    destruct (F_fast_span _ _ _ _ _ _ _ FA r Hr) as (B1 & B2). destruct (F_mid_span _ _ _ _ _ _ _ FA r Hr) as (B3 & B4).
    destruct (F_slow_span _ _ _ _ _ _ _ FA r Hr) as (B5 & B6).
    pose proof (F_fast_legal _ _ _ _ _ _ _ FA r Hr) as (C1 & C2 & C3). pose proof (F_mid_legal _ _ _ _ _ _ _ FA r Hr) as (C4 & C5 & C6).
    pose proof (F_slow_legal _ _ _ _ _ _ _ FA Lo r Hr) as (C7 & C8 & C9).
    unfold psize3, ni, nj, nk in *.
    rewrite B1, B2 in A1. rewrite B3, B4 in A2. rewrite B5, B6 in A3.
    split; [|split]; (split; [apply Z.mul_nonneg_nonneg; lia|]).
    - replace (fst (fst N)) with (fst (fst N) - 1 - 0 + 1) by ring. lia.
    - replace (snd (fst N)) with (snd (fst N) - 1 - 0 + 1) by ring. lia.
    - replace (snd N) with (snd N - 1 - 0 + 1) by ring. lia. }
  set (k := f_fftsize f).
  set (x1 := fun r => batch (lineT Rops (plan_fast P flag)) (fst (fst N)) (nj (f_fast f r) * nk (f_fast f r)) (x r)).
  set (x2 := fun r => batch (lineT Rops (plan_mid P flag)) (snd (fst N)) (ni (f_mid f r) * nk (f_mid f r)) (x1 r)).
  set (x3 := fun r => batch (lineT Rops (plan_slow P flag)) (snd N) (ni (f_slow f r) * nj (f_slow f r)) (x2 r)).
  apply (good_exec n (fun r m => seen (x r) (k r) (getb b m) /\ framed M0 b (fun r => 2 * k r) r m)).
  2:{ intros r Hr. split; [apply HM, Hr|apply framed_refl]. }
  eapply good_conseq; [intros r m Hr H; exact H| |].
  2:{ apply (good_app n _ [ffts_fast Rops f P flag b] (fun r m => seen (x1 r) (k r) (getb b m) /\ framed M0 b (fun r => 2 * k r) r m)
         [ffts_mid Rops f P flag b; ffts_slow Rops f P flag b]).
      - apply good_one; [apply local_wf|]. unfold ffts_fast. fold (plan_fast P flag). rewrite EN.
        apply (batch_step Rops n strict M0 b k (fun r => nj (f_fast f r) * nk (f_fast f r)) _ cexpR _ _ _ x Hb P1); [destruct P1; lia|].
        intros r Hr. destruct (HS r Hr) as ((A1 & A2) & _). destruct (HM r Hr). unfold k. auto.
      - apply (good_app n _ [ffts_mid Rops f P flag b] (fun r m => seen (x2 r) (k r) (getb b m) /\ framed M0 b (fun r => 2 * k r) r m)
         [ffts_slow Rops f P flag b]).
        + apply good_one; [apply local_wf|]. unfold ffts_mid. fold (plan_mid P flag). rewrite EN.
          apply (batch_step Rops n strict M0 b k (fun r => ni (f_mid f r) * nk (f_mid f r)) _ cexpR _ _ _ x1 Hb P2); [destruct P2; lia|].
          intros r Hr. destruct (HS r Hr) as (_ & (A1 & A2) & _). destruct (HM r Hr). unfold k. auto.
        + apply good_one; [apply local_wf|]. unfold ffts_slow. fold (plan_slow P flag). rewrite EN.
          apply (batch_step Rops n strict M0 b k (fun r => ni (f_slow f r) * nj (f_slow f r)) _ cexpR _ _ _ x2 Hb P3); [destruct P3; lia|].
          intros r Hr. destruct (HS r Hr) as (_ & _ & A1 & A2). destruct (HM r Hr). unfold k. auto. }
  intros r m Hr (S & Fr). split; [|exact Fr]. eapply seen_ext; [|exact S]. intros a Ha.
  unfold three_batches. rewrite EN. destruct N as [[n1 n2] n3]. cbn [fst snd] in *. cbv zeta. fold (inverse_of flag) in *.
  change (batch (lineT Rops (plan_slow P flag)) n3 (ni (f_slow f r) * nj (f_slow f r)) (x2 r) a = 
    batch (DFT (inverse_of flag) n3) n3 (ni (f_slow f r) * nj (f_slow f r))
      (batch (DFT (inverse_of flag) n2) n2 (ni (f_mid f r) * nk (f_mid f r)) (batch (DFT (inverse_of flag) n1) n1 (nj (f_fast f r) * nk (f_fast f r)) (x r))) a).
  rewrite (real_batch n3 (inverse_of flag)) by (auto; lia). apply dft_batch_ext; [destruct P3; lia| |lia]. intros i Hi. unfold x2.
  rewrite (real_batch n2 (inverse_of flag)) by auto. apply dft_batch_ext; [destruct P2; lia| |lia]. intros j Hj. unfold x1.
  rewrite (real_batch n1 (inverse_of flag)) by auto. reflexivity.
Qed.

(** ** 2d *)
Lemma only_1d_2d esize ar n st N permute ins outs f b (M0 : nat -> @rmem R) flag x :
  ready2 esize ar n st N permute ins outs f -> isdata b ->
  (forall r, (r < n)%nat -> 2 * t_fftsize f r <= zlen (getb b (M0 r)) /\ seen (x r) (t_fftsize f r) (getb b (M0 r))) ->
  exists P, setup_ffts2 cexpR N = Some P /\
  exec_all n (only_1d_ffts2 Rops f P flag b) M0
    (fun r m => seen (two_batches DFT f flag r (x r)) (t_fftsize f r) (getb b m) /\
                framed M0 b (fun r => 2 * t_fftsize f r) r m).
Proof.
  intros Hr Hb HM. destruct (ready_plans2 Rops cexpR _ _ _ _ _ _ _ _ _ Hr) as (P & EP). exists P. split; [exact EP|].
  pose proof (ready_facts2 _ _ _ _ _ _ _ _ _ Hr) as FA. destruct Hr as (_ & _ & HI & _ & _ & _ & _ & Lo & _).
  destruct (plans_ok2 Rops cexpR n st N permute ins outs f P FA HI EP flag) as (P1 & P3).
  pose proof (T_N _ _ _ _ _ _ _ FA) as EN.
  assert (HS : forall r, (r < n)%nat ->
    (0 <= nj2 (t_fast f r) /\ nj2 (t_fast f r) * fst N <= t_fftsize f r) /\
    (0 <= ni2 (t_slow f r) /\ ni2 (t_slow f r) * snd N <= t_fftsize f r)).
  { intros r Hr. destruct (T_fftsize _ _ _ _ _ _ _ FA r) as (_ & _ & A1 & A3 & _).
    destruct (T_fast_span _ _ _ _ _ _ _ FA r Hr) as (B1 & B2). destruct (T_slow_span _ _ _ _ _ _ _ FA r Hr) as (B5 & B6).
    pose proof (T_fast_legal _ _ _ _ _ _ _ FA r Hr) as (C1 & C2).
    pose proof (T_slow_legal _ _ _ _ _ _ _ FA Lo r Hr) as (C7 & C8).
    unfold psize2, ni2, nj2 in *.
    rewrite B1, B2 in A1. rewrite B5, B6 in A3.
    split; (split; [lia|]).
    - replace (fst N) with (fst N - 1 - 0 + 1) by ring. lia.
    - replace (snd N) with (snd N - 1 - 0 + 1) by ring. lia. }
  set (k := t_fftsize f).
  set (x1 := fun r => batch (lineT Rops (plan_fast2 P flag)) (fst N) (nj2 (t_fast f r)) (x r)).
  set (x3 := fun r => batch (lineT Rops (plan_slow2 P flag)) (snd N) (ni2 (t_slow f r)) (x1 r)).
  apply (good_exec n (fun r m => seen (x r) (k r) (getb b m) /\ framed M0 b (fun r => 2 * k r) r m)).
  2:{ intros r Hr. split; [apply HM, Hr|apply framed_refl]. }
  eapply good_conseq; [intros r m Hr H; exact H| |].
  2:{ apply (good_app n _ [ffts_fast2 Rops f P flag b] (fun r m => seen (x1 r) (k r) (getb b m) /\ framed M0 b (fun r => 2 * k r) r m)
         [ffts_slow2 Rops f P flag b]).
      - apply good_one; [apply local_wf|]. unfold ffts_fast2. fold (plan_fast2 P flag). rewrite EN.
        apply (batch_step Rops n strict M0 b k (fun r => nj2 (t_fast f r)) _ cexpR _ _ _ x Hb P1); [destruct P1; lia|].
        intros r Hr. destruct (HS r Hr) as ((A1 & A2) & _). destruct (HM r Hr). unfold k. auto.
      - apply good_one; [apply local_wf|]. unfold ffts_slow2. fold (plan_slow2 P flag). rewrite EN.
        apply (batch_step Rops n strict M0 b k (fun r => ni2 (t_slow f r)) _ cexpR _ _ _ x1 Hb P3); [destruct P3; lia|].
        intros r Hr. destruct (HS r Hr) as (_ & A1 & A2). destruct (HM r Hr). unfold k. auto. }
  intros r m Hr (S & Fr). split; [|exact Fr]. eapply seen_ext; [|exact S]. intros a Ha.
  unfold two_batches. rewrite EN. destruct N as [n1 n3]. cbn [fst snd] in *. cbv zeta. fold (inverse_of flag) in *.
  change (batch (lineT Rops (plan_slow2 P flag)) n3 (ni2 (t_slow f r)) (x1 r) a = 
    batch (DFT (inverse_of flag) n3) n3 (ni2 (t_slow f r)) (batch (DFT (inverse_of flag) n1) n1 (nj2 (t_fast f r)) (x r)) a).
  rewrite (real_batch n3 (inverse_of flag)) by (auto; lia). apply dft_batch_ext; [destruct P3; lia| |lia]. intros j Hj. unfold x1.
  rewrite (real_batch n1 (inverse_of flag)) by auto. reflexivity.
Qed.
