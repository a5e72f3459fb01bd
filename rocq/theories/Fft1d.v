(** Fft1d.v : batches of 1d transforms (KISS build) and scaling, as FFT3d and FFT2d use them.

    fft3d.cpp:1643-1693, fft2d.cpp:1452-1490 (the two classes share the text). *)

From Verif Require Import Base Kiss KissPure.

Section Fft1d.
Context {F : Type} (O : sops F).
Local Notation C := (@cpx F).

(** the temporary of kiss_fft_stride (kissfft.h:466): fresh malloc memory of
    nfft cells.  Its contents do not matter (C22 is proved for any contents);
    the model takes zeros. *)
Definition fresh_tmp (st : @cfg F) : list C := repeat (czero O) (Z.to_nat (k_nfft st)).

(** FFT3d::perform_ffts, fft3d.cpp:1670-1684, FFT2d::perform_ffts,
    fft2d.cpp:1469-1483; [plan] is the plan of the requested direction. *)
Definition perform_ffts (plan : @cfg F) (length total : Z) (data : list C) : option (list C) :=
  for_ptr 0 total length (fun offset data =>
    kiss_fft_inplace O plan (fresh_tmp plan) 1 data offset) data.

(** FFT3d::scale_ffts, fft3d.cpp:1686-1693, FFT2d::scale_ffts, fft2d.cpp:1485-1492 *)
Definition scale_ffts (norm : F) (normnum : Z) (data : list C) : option (list C) :=
  for_ normnum (fun i data =>
    v <- zget data i;
    zset data i (smul O (fst v) norm, smul O (snd v) norm)) data.

(** ** proofs *)

(** what one line becomes *)
Definition lineT (st : @cfg F) (x : Z -> C) (j : Z) : C := wk O st (k_factors st) 1 x j.

Lemma perform_ok st L n data (x : Z -> C) :
  k_nfft st = L -> zlen (k_tw st) = L -> chain (k_factors st) L -> 1 <= L -> 0 <= n ->
  n * L <= zlen data ->
  (forall a, 0 <= a < n * L -> zget data a = Some (x a)) ->
  exists data', perform_ffts st L (n * L) data = Some data' /\
    zlen data' = zlen data /\
    (forall l k, 0 <= l < n -> 0 <= k < L ->
       zget data' (l * L + k) = Some (lineT st (fun i => x (l * L + i)) k)) /\
    (forall a, ~ (0 <= a < n * L) -> zget data' a = zget data a).
Proof.
  intros Hn Htw Hc HL Hn0 Hlen Hx. unfold perform_ffts.
  rewrite <- (Z.add_0_l (n * L)). rewrite for_ptr_for by lia.
  destruct (for_inv (fun t d => zlen d = zlen data /\
      (forall l k, 0 <= l < t -> 0 <= k < L ->
         zget d (l * L + k) = Some (lineT st (fun i => x (l * L + i)) k)) /\
      (forall a, ~ (0 <= a < t * L) -> zget d a = zget data a)) n
    (fun j => (fun offset d => kiss_fft_inplace O st (fresh_tmp st) 1 d offset) (0 + j * L)) data)
    as (d' & E & I).
  - lia.
  - split; [reflexivity|]. split; [intros; lia|]. reflexivity.
  - intros t d Ht (Ld & Hd & Hu). cbv beta.
    destruct (kiss_inplace_ok O st L (fresh_tmp st) 1 d (0 + t * L) (fun i => x (t * L + i)))
      as (d' & E & Ld' & Hd' & Hu'); auto; try nia.
    { unfold fresh_tmp. unfold zlen. rewrite repeat_length. lia. }
    { intros i Hi. rewrite Hu by nia. replace (0 + t * L + i * 1) with (t * L + i) by ring. apply Hx. nia. }
    exists d'. split; [exact E|]. split; [congruence|]. split.
    + intros l k Hl Hk. destruct (Z.eq_dec l t) as [->|].
      * replace (t * L + k) with (0 + t * L + k) by ring. rewrite Hd' by lia. reflexivity.
      * rewrite Hu' by nia. apply Hd; lia.
    + intros a Ha. rewrite Hu' by nia. apply Hu. nia.
  - exists d'. split; [exact E|]. rewrite Z.add_0_l in *. exact I.
Qed.

Lemma scale_ok norm n data : 0 <= n <= zlen data ->
  exists data', scale_ffts norm n data = Some data' /\
    zlen data' = zlen data /\
    (forall i v, 0 <= i < n -> zget data i = Some v -> zget data' i = Some (smul O (fst v) norm, smul O (snd v) norm)) /\
    (forall a, ~ (0 <= a < n) -> zget data' a = zget data a).
Proof.
  intros Hn. unfold scale_ffts.
  destruct (for_inv (fun t d => zlen d = zlen data /\
      (forall i v, 0 <= i < t -> zget data i = Some v -> zget d i = Some (smul O (fst v) norm, smul O (snd v) norm)) /\
      (forall a, ~ (0 <= a < t) -> zget d a = zget data a)) n
    (fun i d => v <- zget d i; zset d i (smul O (fst v) norm, smul O (snd v) norm)) data) as (d' & E & I).
  - lia.
  - split; [reflexivity|]. split; [intros; lia|]. reflexivity.
  - intros t d Ht (Ld & Hd & Hu).
    destruct (zget_Some data t ltac:(lia)) as [v Hv].
    rewrite Hu, Hv by lia. cbn [bind].
    destruct (zset_Some d t (smul O (fst v) norm, smul O (snd v) norm) ltac:(lia)) as [d' E].
    exists d'. split; [exact E|]. split; [rewrite (zset_len _ _ _ _ E); exact Ld|].
    pose proof (zget_zset _ _ _ _ E) as S. split.
    + intros i v' Hi Hv'. rewrite S. destruct (Z.eqb_spec t i) as [->|].
      * congruence.
      * apply Hd; [lia|auto].
    + intros a Ha. rewrite S. destruct (Z.eqb_spec t a); [lia|]. apply Hu. lia.
  - exists d'. split; [exact E|]. exact I.
Qed.

End Fft1d.
