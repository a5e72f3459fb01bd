(** Bits.v : the result of a transform as a function of the grid and its data only, in any arithmetic (C79). *)

From Coq Require Import Reals Floats.SpecFloat.
From Verif Require Import Base Spec Pack3d Pack2d Sched SchedProofs Phases Exec Remap RemapMain RemapInst
  Remap3d Remap2d RemapThms RemapTop ExRemap Layout LayoutProofs Setup3d Setup3dProofs Setup2d Setup2dProofs LayoutFinal
  Kiss KissPure KissAlg KissReal Fft1d KissFinal Binary
  Fft3d Frame Fft3dProofs Fft3dMain DftMulti Fft3dTop Fft3dFinal Fft3dStmt Fft3dEx Fft2d Fft2dMain Fft2dTop Fft2dFinal Fft2dStmt Fft2dEx.
Local Open Scope Z_scope.

(** *** vocabulary: the input and the output of a transform are laid out alike, inout_layout_same (src/fft3d.cpp:285-295, src/fft2d.cpp:288-297) *)
Definition alike {B : Type} (n : nat) (permute : Z) (ins outs : nat -> B) : Prop := permute = 0 /\ forall r, (r < n)%nat -> ins r = outs r.

Section Any.
Context {F : Type} (O : sops F).
Variables (cexp : bool -> Z -> Z -> F * F) (rnorm : Z -> F).

Lemma bits_forward_3d (N : Z * Z * Z) P (G : pt3 -> F * F) : setup_ffts3 cexp N = Some P -> exists H : pt3 -> F * F,
  forall ar n st permute ins outs f bi bo (M0 : nat -> @rmem F) scaled, ready3 ar n st N permute ins outs f -> isdata bi -> isdata bo ->
  place3 f FORWARD bi bo -> Fft3dTop.room3 f FORWARD bo M0 ->
  (forall r, (r < n)%nat -> holds3 2 0 (ins r) (fld G) (getb bi (M0 r))) ->
  exec_all n (compute3 O rnorm f P scaled false FORWARD bi bo) M0 
    (fun r m => holds3 2 permute (outs r) (fld H) (getb bo m) /\ framed M0 bo (fun r => 2 * f_fftsize f r) r m).
Proof.
  intros HP. exists (fwd_val O P false FORWARD G).
  intros ar n st permute ins outs f bi bo M0 scaled Hr Hbi Hbo Hpl Hro Hx.
  destruct (forward_dirs permute ins outs f) as (E1 & E2 & E3 & E4).
  destruct (call_runs O cexp rnorm ar n st N permute ins outs f P bi bo M0 scaled false FORWARD G) as (M & HM & EM); auto.
  exists M. split; [|exact EM]. intros r Hrn. destruct (HM r Hrn) as (A & A'). split; [|exact A']. rewrite E3, E4 in A.
  eapply holds3_ext; [|exact A]. intros p q Hp Hq. apply fld_ext. reflexivity.
Qed.

Lemma bits_backward_3d (N : Z * Z * Z) P (G : pt3 -> F * F) (same : bool) scaled : setup_ffts3 cexp N = Some P -> exists H : pt3 -> F * F,
  forall ar n st permute ins outs f bi bo (M0 : nat -> @rmem F), ready3 ar n st N permute ins outs f -> isdata bi -> isdata bo ->
  place3 f BACKWARD bi bo -> Fft3dTop.room3 f BACKWARD bo M0 -> (same = true <-> alike n permute ins outs) ->
  (scaled = true -> forall r, (r < n)%nat -> psize3 (ins r) <= psize3 (outs r)) ->
  (forall r, (r < n)%nat -> holds3 2 permute (outs r) (fld G) (getb bi (M0 r))) ->
  exec_all n (compute3 O rnorm f P scaled false BACKWARD bi bo) M0 
    (fun r m => holds3 2 0 (ins r) (fld H) (getb bo m) /\ framed M0 bo (fun r => 2 * f_fftsize f r) r m).
Proof.
  intros HP. set (V := if same then fwd_val O P false BACKWARD G else bwd_val O P false BACKWARD G).
  exists (fun p => if scaled then scl O (rnorm (fst (fst N) * snd (fst N) * snd N)) (V p) else V p).
  intros ar n st permute ins outs f bi bo M0 Hr Hbi Hbo Hpl Hro Hs Hsc Hx.
  assert (Es : f_same f = same).
  { pose proof (F_same _ _ _ _ _ _ _ (ready_facts _ _ _ _ _ _ _ _ Hr)) as E. unfold alike in Hs. destruct (f_same f), same; intuition congruence. }
  destruct (call_runs O cexp rnorm ar n st N permute ins outs f P bi bo M0 scaled false BACKWARD G) as (M & HM & EM); auto.
  { apply (src_holds ar n st N permute ins outs f BACKWARD _ _ _ Hr). exact Hx. }
  exists M. split; [|exact EM]. intros r Hrn. destruct (HM r Hrn) as (A & A'). split; [|exact A'].
  destruct (dirs ar n st N permute ins outs f BACKWARD r Hr Hrn) as (_ & _ & E3 & E4).
  unfold call_val, fwdpath in A. rewrite Es in A. change ((BACKWARD =? FORWARD) || same) with same in A. fold V in A.
  unfold finish in A. rewrite E3, E4 in A. cbn in A.
  eapply holds3_ext; [|exact A]. intros p q Hp Hq. apply fld_ext. cbn beta.
  destruct scaled; cbn [andb]; [|reflexivity].
  rewrite (proj2 (Z.ltb_lt _ _)); [reflexivity|]. specialize (Hsc eq_refl r Hrn).
  pose proof (pos3_psize 0 (ins r) p ltac:(left; reflexivity) Hp). cbn in *. lia.
Qed.

Lemma bits_forward_2d (N : Z * Z) P (G : pt2 -> F * F) : setup_ffts2 cexp N = Some P -> exists H : pt2 -> F * F,
  forall esize ar n st permute ins outs f bi bo (M0 : nat -> @rmem F) scaled, ready2 esize ar n st N permute ins outs f -> isdata bi -> isdata bo ->
  place2 f FORWARD bi bo -> arrays_ok2 f bo M0 ->
  (forall r, (r < n)%nat -> holds2 2 0 (ins r) (fld G) (getb bi (M0 r))) ->
  exec_all n (compute2 O rnorm esize f P scaled false FORWARD bi bo) M0 
    (fun r m => holds2 2 permute (outs r) (fld H) (getb bo m) /\ framed M0 bo (fun r => 2 * t_fftsize f r) r m).
Proof.
  intros HP. exists (fwd_val2 O P false FORWARD G).
  intros esize ar n st permute ins outs f bi bo M0 scaled Hr Hbi Hbo Hpl Hro Hx.
  destruct (forward_dirs2 permute ins outs f) as (E1 & E2 & E3 & E4).
  destruct (call_runs2 O cexp rnorm esize ar n st N permute ins outs f P bi bo M0 scaled false FORWARD G) as (M & HM & EM); auto.
  exists M. split; [|exact EM]. intros r Hrn. destruct (HM r Hrn) as (A & A'). split; [|exact A']. rewrite E3, E4 in A.
  eapply holds2_ext; [|exact A]. intros p q Hp Hq. unfold fld. reflexivity.
Qed.

Lemma bits_backward_2d (N : Z * Z) P (G : pt2 -> F * F) (same : bool) scaled : setup_ffts2 cexp N = Some P -> exists H : pt2 -> F * F,
  forall esize ar n st permute ins outs f bi bo (M0 : nat -> @rmem F), ready2 esize ar n st N permute ins outs f -> isdata bi -> isdata bo ->
  place2 f BACKWARD bi bo -> arrays_ok2 f bo M0 -> (same = true <-> alike n permute ins outs) ->
  (scaled = true -> forall r, (r < n)%nat -> psize2 (ins r) <= psize2 (outs r)) ->
  (forall r, (r < n)%nat -> holds2 2 permute (outs r) (fld G) (getb bi (M0 r))) ->
  exec_all n (compute2 O rnorm esize f P scaled false BACKWARD bi bo) M0 
    (fun r m => holds2 2 0 (ins r) (fld H) (getb bo m) /\ framed M0 bo (fun r => 2 * t_fftsize f r) r m).
Proof.
  intros HP. set (V := if same then fwd_val2 O P false BACKWARD G else bwd_val2 O P false BACKWARD G).
  exists (fun p => if scaled then scl O (rnorm (fst N * snd N)) (V p) else V p).
  intros esize ar n st permute ins outs f bi bo M0 Hr Hbi Hbo Hpl Hro Hs Hsc Hx.
  assert (Es : t_same f = same).
  { pose proof (T_same _ _ _ _ _ _ _ (ready_facts2 _ _ _ _ _ _ _ _ _ Hr)) as E. unfold alike in Hs. destruct (t_same f), same; intuition congruence. }
  destruct (call_runs2 O cexp rnorm esize ar n st N permute ins outs f P bi bo M0 scaled false BACKWARD G) as (M & HM & EM); auto.
  { apply (src_holds2 esize ar n st N permute ins outs f BACKWARD _ _ _ Hr). exact Hx. }
  exists M. split; [|exact EM]. intros r Hrn. destruct (HM r Hrn) as (A & A'). split; [|exact A'].
  destruct (dirs2 esize ar n st N permute ins outs f BACKWARD r Hr Hrn) as (_ & _ & E3 & E4).
  unfold call_val2, fwdpath2 in A. rewrite Es in A. change ((BACKWARD =? FORWARD) || same) with same in A. fold V in A.
  unfold finish2 in A. rewrite E3, E4 in A. cbn in A.
  eapply holds2_ext; [|exact A]. intros p q Hp Hq. unfold fld; cbn beta.
  destruct scaled; cbn [andb]; [|reflexivity].
  rewrite (proj2 (Z.ltb_lt _ _)); [reflexivity|]. specialize (Hsc eq_refl r Hrn).
  pose proof (pos2_psize 0 (ins r) p ltac:(left; reflexivity) Hp). cbn in *. lia.
Qed.
End Any.
