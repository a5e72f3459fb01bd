(** Convolve.v : forward transform, multiplication by the caller, backward transform (C82). The caller multiplies where its
    data is: in the output layout of the forward transform, each process at its own points. *)

From Coq Require Import Reals Lra.
From Verif Require Import Base Spec Pack3d Pack2d Sched SchedProofs Phases Exec Remap RemapMain RemapInst
  Remap3d Remap2d RemapThms RemapTop Layout LayoutProofs Setup3d Setup3dProofs Setup2d Setup2dProofs Kiss KissPure KissAlg KissReal Fft1d KissFinal
  Fft3d Frame Fft3dProofs Fft3dMain DftMulti Fft3dTop Fft3dFinal Fft2d Fft2dMain Fft2dTop Fft2dFinal Ops OpsSeq OpsProofs ConvMath.
Local Open Scope Z_scope.

(** ** specification *)
(** [w r] multiplies the value at every point of the output box of rank r by [G], wherever that value is stored, and touches nothing else *)
Definition multiplies3 (n : nat) (permute : Z) (outs : nat -> box3) (w : nat -> list R -> option (list R)) (G : pt3 -> R * R) : Prop :=
  forall r l X, (r < n)%nat -> holds3 2 permute (outs r) (fld X) l ->
  exists l', w r l = Some l' /\ zlen l' = zlen l /\ holds3 2 permute (outs r) (fld (fun p => cprod (X p) (G p))) l' /\
    forall a, ~ (0 <= a < 2 * vol3 (outs r)) -> zget l' a = zget l a.
Definition multiplies2 (n : nat) (permute : Z) (outs : nat -> box2) (w : nat -> list R -> option (list R)) (G : pt2 -> R * R) : Prop :=
  forall r l X, (r < n)%nat -> holds2 2 permute (outs r) (fld X) l ->
  exists l', w r l = Some l' /\ zlen l' = zlen l /\ holds2 2 permute (outs r) (fld (fun p => cprod (X p) (G p))) l' /\
    forall a, ~ (0 <= a < 2 * vol2 (outs r)) -> zget l' a = zget l a.

(** ** proofs *)
(** the caller's step *)
Lemma filling_all n b w (hi : nat -> Z) (M : nat -> @rmem R) (Post : nat -> list R -> Prop) : isdata b ->
  (forall r, (r < n)%nat -> exists l', w r (getb b (M r)) = Some l' /\ zlen l' = zlen (getb b (M r)) /\ Post r l' /\
     forall a, ~ (0 <= a < hi r) -> zget l' a = zget (getb b (M r)) a) ->
  exec_all n (filling b w) M (fun r m => Post r (getb b m) /\ framed M b hi r m).
Proof.
  intros Hb H. apply (triple_exec n (fun r m => m = M r)); [|apply local_wf|auto].
  apply (triple_local n strict (fun r m => m = M r) (fun r => [fun m => x <- w r (getb b m); Some (setb b x m)])).
  intros r m Hr ->. destruct (H r Hr) as (l' & E & L & Q & U). exists (setb b l' (M r)). cbn [seqf]. rewrite E. cbn [bind]. split; [reflexivity|].
  assert (G : forall b', getb b' (setb b l' (M r)) = if match b, b' with BIn, BIn | BOut, BOut => true | _, _ => false end then l' else getb b' (M r)).
  { destruct Hb as [-> | ->]; intros []; reflexivity. }
  assert (Gb : getb b (setb b l' (M r)) = l') by (rewrite G; destruct Hb as [-> | ->]; reflexivity).
  rewrite Gb. split; [exact Q|]. split; [|split].
  - intros b'. rewrite G. destruct Hb as [-> | ->], b'; auto.
  - intros b' Hd Hn. rewrite G. destruct Hb as [-> | ->], b'; auto; congruence.
  - rewrite Gb. exact U.
Qed.
Lemma framed_le {A} (M : nat -> @rmem A) b (h h' : nat -> Z) r m : h r <= h' r -> framed M b h r m -> framed M b h' r m.
Proof. intros H (A1 & A2 & A3). split; [exact A1|]. split; [exact A2|]. intros a Ha. apply A3. lia. Qed.

Theorem convolve_any_3d ar n st N permute ins outs f b (M0 : nat -> @rmem R) s1 scaled x w G :
  ready3 ar n st N permute ins outs f -> isdata b -> Fft3dTop.room3 f BACKWARD b M0 ->
  (scaled = true -> forall r, (r < n)%nat -> psize3 (ins r) <= psize3 (outs r)) -> multiplies3 n permute outs w G ->
  (forall r, (r < n)%nat -> holds3 2 0 (ins r) (fld x) (getb b (M0 r))) ->
  exists P, setup_ffts3 cexpR N = Some P /\
  exec_all n (fun r => compute3 Rops rnormR f P s1 false FORWARD b b r ++ filling b w r ++ compute3 Rops rnormR f P scaled false BACKWARD b b r) M0
    (fun r m => holds3 2 0 (ins r) (fld (fun p => rmulc (if scaled then / IZR (grid_points N) else 1)%R (CONV3 N x (DFT3 true N G) p))) (getb b m) /\
                framed M0 b (fun r => 2 * f_fftsize f r) r m).
Proof.
  intros Hr Hb Ha Hsz Hw Hx. pose proof (ready_facts _ _ _ _ _ _ _ _ Hr) as FA.
  assert (Rf : Fft3dTop.room3 f FORWARD b M0) by (split; [exact (proj1 Ha)|intros K; discriminate K]).
  destruct (C25_proof ar n st N permute ins outs f b b M0 s1 x Hr Hb Hb (or_introl eq_refl) (proj1 Ha) Hx) as (P & HP & M1 & K1 & E1).
  exists P. split; [exact HP|].
  assert (K2 : exec_all n (filling b w) M1 (fun r m => holds3 2 permute (outs r) (fld (fun p => cprod (DFT3 false N x p) (G p))) (getb b m) /\ framed M1 b (fun r => 2 * vol3 (outs r)) r m)).
  { apply (filling_all n b w (fun r => 2 * vol3 (outs r)) M1 (fun r l => holds3 2 permute (outs r) (fld (fun p => cprod (DFT3 false N x p) (G p))) l) Hb).
    intros r Hrn. destruct (Hw r (getb b (M1 r)) (DFT3 false N x) Hrn (proj1 (K1 r Hrn))) as (l' & H). exists l'. exact H. }
  destruct K2 as (M2 & K2 & E2).
  assert (SL : same_lens n M0 M2).
  { intros r b' Hrn. destruct (K2 r Hrn) as (_ & L2 & _). destruct (K1 r Hrn) as (_ & L1 & _). rewrite L2. apply L1. }
  assert (A0 : act_ok3 n st f M0 (ACompute scaled false BACKWARD b b)) by (split; [exact Hb|split; [exact Hb|split; [left; reflexivity|split; exact Ha]]]).
  assert (A1 : act_ok3 n st f M0 (ACompute s1 false FORWARD b b)) by (split; [exact Hb|split; [exact Hb|split; [left; reflexivity|split; exact Rf]]]).
  pose proof (act_lens3 ar n st N permute ins outs f Hr M0 M2 _ SL A0) as (_ & _ & _ & Ha2 & _).
  destruct (C26_proof ar n st N permute ins outs f b b M2 scaled _ Hr Hb Hb (or_introl eq_refl) Ha2 (fun r Hrn => proj1 (K2 r Hrn))) as (P' & HP' & M3 & K3 & E3).
  assert (P' = P) by congruence. subst P'.
  pose proof (act_wf3 Rops cexpR rnormR ar n st N permute ins outs f P Hr HP M0 _ A0) as W0.
  pose proof (act_wf3 Rops cexpR rnormR ar n st N permute ins outs f P Hr HP M0 _ A1) as W1. cbn [act_code3] in W0, W1.
  assert (W2 : wf_code n (filling b w)) by apply local_wf.
  exists M3. split.
  - intros r Hrn. destruct (K1 r Hrn) as (_ & F1). destruct (K2 r Hrn) as (_ & F2). destruct (K3 r Hrn) as (H3 & F3). split.
    + eapply holds3_ext; [|exact H3]. intros p q Hp _. apply fld_ext.
      replace (scaled && (pos3 0 (ins r) p <? psize3 (outs r))) with scaled.
      2:{ destruct scaled; [|reflexivity]. rewrite (scaled_all ins outs r p (Hsz eq_refl r Hrn) Hp). reflexivity. }
      f_equal. destruct N as [[n1 n2] n3], p as [[i j] k]. pose proof (F_in _ _ _ _ _ _ _ FA r Hrn) as I.
      pose proof (F_dims _ _ _ _ _ _ _ FA) as D. unfold inside3 in I. cbn in Hp, I, D. apply CONV3_any; lia.
    + eapply framed_trans; [exact F1|]. eapply framed_trans; [|exact F3]. eapply framed_le; [|exact F2]. cbn beta.
      pose proof (layout_fftsize _ _ _ _ _ _ _ FA outs r (or_intror (or_introl (eq_sym (F_fout _ _ _ _ _ _ _ FA)))) Hrn). lia.
  - apply (exec_seq n _ (fun r => filling b w r ++ compute3 Rops rnormR f P scaled false BACKWARD b b r) M0 M1 M3); [exact W1|apply wf_code_app; assumption|exact E1|].
    apply (exec_seq n _ _ M1 M2 M3); assumption.
Qed.

Theorem convolve_any_2d esize ar n st N permute ins outs f b (M0 : nat -> @rmem R) s1 scaled x w G :
  ready2 esize ar n st N permute ins outs f -> isdata b -> arrays_ok2 f b M0 ->
  (scaled = true -> forall r, (r < n)%nat -> psize2 (ins r) <= psize2 (outs r)) -> multiplies2 n permute outs w G ->
  (forall r, (r < n)%nat -> holds2 2 0 (ins r) (fld x) (getb b (M0 r))) ->
  exists P, setup_ffts2 cexpR N = Some P /\
  exec_all n (fun r => compute2 Rops rnormR esize f P s1 false FORWARD b b r ++ filling b w r ++ compute2 Rops rnormR esize f P scaled false BACKWARD b b r) M0
    (fun r m => holds2 2 0 (ins r) (fld (fun p => rmulc (if scaled then / IZR (grid_points2 N) else 1)%R (CONV2 N x (DFT2 true N G) p))) (getb b m) /\
                framed M0 b (fun r => 2 * t_fftsize f r) r m).
Proof.
  intros Hr Hb Ha Hsz Hw Hx. pose proof (ready_facts2 _ _ _ _ _ _ _ _ _ Hr) as FA.
  destruct (C25_proof2 esize ar n st N permute ins outs f b b M0 s1 x Hr Hb Hb (or_introl eq_refl) Ha Hx) as (P & HP & M1 & K1 & E1).
  exists P. split; [exact HP|].
  assert (K2 : exec_all n (filling b w) M1 (fun r m => holds2 2 permute (outs r) (fld (fun p => cprod (DFT2 false N x p) (G p))) (getb b m) /\ framed M1 b (fun r => 2 * vol2 (outs r)) r m)).
  { apply (filling_all n b w (fun r => 2 * vol2 (outs r)) M1 (fun r l => holds2 2 permute (outs r) (fld (fun p => cprod (DFT2 false N x p) (G p))) l) Hb).
    intros r Hrn. destruct (Hw r (getb b (M1 r)) (DFT2 false N x) Hrn (proj1 (K1 r Hrn))) as (l' & H). exists l'. exact H. }
  destruct K2 as (M2 & K2 & E2).
  assert (SL : same_lens n M0 M2).
  { intros r b' Hrn. destruct (K2 r Hrn) as (_ & L2 & _). destruct (K1 r Hrn) as (_ & L1 & _). rewrite L2. apply L1. }
  assert (A0 : forall s flag, act_ok2 n st f M0 (ACompute s false flag b b)) by (intros s flag; split; [exact Hb|split; [exact Hb|split; [left; reflexivity|split; exact Ha]]]).
  pose proof (act_lens2 esize ar n st N permute ins outs f Hr M0 M2 _ SL (A0 scaled BACKWARD)) as (_ & _ & _ & Ha2 & _).
  destruct (C26_proof2 esize ar n st N permute ins outs f b b M2 scaled _ Hr Hb Hb (or_introl eq_refl) Ha2 (fun r Hrn => proj1 (K2 r Hrn))) as (P' & HP' & M3 & K3 & E3).
  assert (P' = P) by congruence. subst P'.
  pose proof (act_wf2 Rops esize cexpR rnormR ar n st N permute ins outs f P Hr HP M0 _ (A0 scaled BACKWARD)) as W0.
  pose proof (act_wf2 Rops esize cexpR rnormR ar n st N permute ins outs f P Hr HP M0 _ (A0 s1 FORWARD)) as W1. cbn [act_code2] in W0, W1.
  assert (W2 : wf_code n (filling b w)) by apply local_wf.
  exists M3. split.
  - intros r Hrn. destruct (K1 r Hrn) as (_ & F1). destruct (K2 r Hrn) as (_ & F2). destruct (K3 r Hrn) as (H3 & F3). split.
    + eapply holds2_ext; [|exact H3]. intros p q Hp _. apply fld_ext2.
      replace (scaled && (pos2 0 (ins r) p <? psize2 (outs r))) with scaled.
      2:{ destruct scaled; [|reflexivity]. rewrite (scaled_all2 ins outs r p (Hsz eq_refl r Hrn) Hp). reflexivity. }
      f_equal. destruct N as [n1 n2], p as [i j]. pose proof (T_ins _ _ _ _ _ _ _ FA r Hrn) as I.
      unfold inside2 in I. cbn in Hp, I. apply CONV2_any; lia.
    + eapply framed_trans; [exact F1|]. eapply framed_trans; [|exact F3]. eapply framed_le; [|exact F2]. cbn beta.
      pose proof (layout_fftsize2 _ _ _ _ _ _ _ FA outs r (or_intror (or_introl (eq_sym (T_fout _ _ _ _ _ _ _ FA)))) Hrn). lia.
  - apply (exec_seq n _ (fun r => filling b w r ++ compute2 Rops rnormR esize f P scaled false BACKWARD b b r) M0 M1 M3); [exact W1|apply wf_code_app; assumption|exact E1|].
    apply (exec_seq n _ _ M1 M2 M3); assumption.
Qed.

(** the multiplier is itself a forward transform: the result is the convolution of the two functions *)
Theorem convolve_3d ar n st N permute ins outs f b (M0 : nat -> @rmem R) s1 scaled x g w :
  ready3 ar n st N permute ins outs f -> isdata b -> Fft3dTop.room3 f BACKWARD b M0 ->
  (scaled = true -> forall r, (r < n)%nat -> psize3 (ins r) <= psize3 (outs r)) -> multiplies3 n permute outs w (DFT3 false N g) ->
  (forall r, (r < n)%nat -> holds3 2 0 (ins r) (fld x) (getb b (M0 r))) ->
  exists P, setup_ffts3 cexpR N = Some P /\
  exec_all n (fun r => compute3 Rops rnormR f P s1 false FORWARD b b r ++ filling b w r ++ compute3 Rops rnormR f P scaled false BACKWARD b b r) M0
    (fun r m => holds3 2 0 (ins r) (fld (fun p => rmulc (if scaled then 1 else IZR (grid_points N))%R (CONV3 N x g p))) (getb b m) /\
                framed M0 b (fun r => 2 * f_fftsize f r) r m).
Proof.
  intros Hr Hb Ha Hsz Hw Hx. pose proof (ready_facts _ _ _ _ _ _ _ _ Hr) as FA.
  destruct (convolve_any_3d ar n st N permute ins outs f b M0 s1 scaled x w _ Hr Hb Ha Hsz Hw Hx) as (P & HP & M & K & E).
  exists P. split; [exact HP|]. exists M. split; [|exact E]. intros r Hrn. destruct (K r Hrn) as (H & F). split; [|exact F].
  eapply holds3_ext; [|exact H]. intros p q Hp _. apply fld_ext. destruct N as [[n1 n2] n3], p as [[i j] k]. pose proof (F_in _ _ _ _ _ _ _ FA r Hrn) as I.
  unfold inside3 in I. cbn in Hp, I. rewrite <- CONV3_any by lia. rewrite CONV3_back by lia. unfold grid_points. cbn.
  assert (HN : IZR (n1 * n2 * n3) <> 0%R) by (apply not_0_IZR; repeat (apply Z.neq_mul_0; split); lia).
  unfold rmulc. cbn [fst snd]. destruct scaled; f_equal; field; exact HN.
Qed.
Theorem convolve_2d esize ar n st N permute ins outs f b (M0 : nat -> @rmem R) s1 scaled x g w :
  ready2 esize ar n st N permute ins outs f -> isdata b -> arrays_ok2 f b M0 ->
  (scaled = true -> forall r, (r < n)%nat -> psize2 (ins r) <= psize2 (outs r)) -> multiplies2 n permute outs w (DFT2 false N g) ->
  (forall r, (r < n)%nat -> holds2 2 0 (ins r) (fld x) (getb b (M0 r))) ->
  exists P, setup_ffts2 cexpR N = Some P /\
  exec_all n (fun r => compute2 Rops rnormR esize f P s1 false FORWARD b b r ++ filling b w r ++ compute2 Rops rnormR esize f P scaled false BACKWARD b b r) M0
    (fun r m => holds2 2 0 (ins r) (fld (fun p => rmulc (if scaled then 1 else IZR (grid_points2 N))%R (CONV2 N x g p))) (getb b m) /\
                framed M0 b (fun r => 2 * t_fftsize f r) r m).
Proof.
  intros Hr Hb Ha Hsz Hw Hx. pose proof (ready_facts2 _ _ _ _ _ _ _ _ _ Hr) as FA.
  destruct (convolve_any_2d esize ar n st N permute ins outs f b M0 s1 scaled x w _ Hr Hb Ha Hsz Hw Hx) as (P & HP & M & K & E).
  exists P. split; [exact HP|]. exists M. split; [|exact E]. intros r Hrn. destruct (K r Hrn) as (H & F). split; [|exact F].
  eapply holds2_ext; [|exact H]. intros p q Hp _. apply fld_ext2. destruct N as [n1 n2], p as [i j]. pose proof (T_ins _ _ _ _ _ _ _ FA r Hrn) as I.
  unfold inside2 in I. cbn in Hp, I. rewrite <- CONV2_any by lia. rewrite CONV2_back by lia. unfold grid_points2. cbn.
  assert (HN : IZR (n1 * n2) <> 0%R) by (apply not_0_IZR; repeat (apply Z.neq_mul_0; split); lia).
  unfold rmulc. cbn [fst snd]. destruct scaled; f_equal; field; exact HN.
Qed.
