(** TestMainProofs.v : runs of test3d, test2d and simple. *)

From Coq Require Import Reals Lra.
From Verif Require Import Base Spec Pack3d Sched SchedProofs Phases Exec Remap RemapMain RemapInst
  Remap3d RemapThms RemapTop Layout LayoutProofs Setup3d Setup3dProofs Setup2d Setup2dProofs LayoutFinal Kiss KissPure KissAlg KissReal Fft1d KissFinal
  Fft3d Frame Fft3dProofs Fft3dMain DftMulti Fft3dTop Fft3dFinal Fft2d Fft2dMain Fft2dTop Fft2dFinal TestProg TestLayProofs TestDataProofs TestRunProofs.
Local Open Scope Z_scope.

Lemma times_ext {A} k (b1 b2 : nat -> list (@instr A)) r : b1 r = b2 r -> times_code k b1 r = times_code k b2 r.
Proof. intros E. induction k as [|k IH]; [reflexivity|]. cbn [times_code]. rewrite IH, E. reflexivity. Qed.

(** ** 3d *)
Section Run3.
Context {F V : Type} (O : sops F) (cexp : bool -> Z -> Z -> F * F) (rnorm : Z -> F) (cv : V -> F).
Variables (ar : areas) (n : nat) (st : settings) (N : Z * Z * Z) (permute : Z) (ins outs : nat -> box3) (f : fft3) (P : @plans3 F).
Variables (M0 : nat -> @rmem F) (ro : bool) (w0 : nat -> list F -> option (list F)) (cellv : nat -> Z -> V) (T : nat -> pt3 -> F * F -> F * F).
Hypothesis Hr : ready3 ar n st N permute ins outs f.
Hypothesis HP : setup_ffts3 cexp N = Some P.
Hypothesis Ha : room3 f BACKWARD BWORK M0.
Hypothesis Hl : forall r, (r < n)%nat -> legal3 (ins r).
Definition fills3 : Prop := forall r w, (r < n)%nat -> 2 * psize3 (ins r) <= zlen w ->
  exists w', w0 r w = Some w' /\ filled cv (2 * psize3 (ins r)) (cellv r) w w'.
Hypothesis Hw : fills3.
Hypothesis HT : forall G : pt3 -> F * F,
  good n (st3 f BWORK M0 BWORK 0 ins (fld G))
    (pieces_compute3 O rnorm f P true ro FORWARD BWORK BWORK ++ pieces_compute3 O rnorm f P true ro BACKWARD BWORK BWORK)
    (fun r m => holds3 2 0 (ins r) (fld (fun p => T r p (G p))) (getb BWORK m) /\ framed M0 BWORK (fun r => 2 * f_fftsize f r) r m).

Lemma work_room3 r : (r < n)%nat -> 2 * psize3 (ins r) <= 2 * f_fftsize f r <= zlen (getb BWORK (M0 r)).
Proof.
  intros Hrn. pose proof (ready_facts _ _ _ _ _ _ _ _ Hr) as FA. destruct Ha as (Hb & _). destruct (Hb r) as (K & _); [rewrite (F_n _ _ _ _ _ _ _ FA); exact Hrn|].
  destruct (F_fftsize _ _ _ _ _ _ _ FA r) as (H1 & _). lia.
Qed.
Lemma framed_init3 r (m : @rmem F) w : (r < n)%nat -> framed M0 BWORK (fun r => 2 * f_fftsize f r) r m ->
  filled cv (2 * psize3 (ins r)) (cellv r) (getb BWORK m) w -> framed M0 BWORK (fun r => 2 * f_fftsize f r) r (setb BWORK w m).
Proof.
  intros Hrn (A & B & C) (L & _ & H). pose proof (work_room3 r Hrn). pose proof (psize3_nonneg _ (Hl r Hrn)). split; [|split].
  - intros b. rewrite <- A. destruct b, m; cbn in *; auto.
  - intros b Hb Hn. rewrite <- (B b Hb Hn). destruct b, m; cbn in *; try reflexivity. contradiction Hn. reflexivity.
  - intros a Hna. rewrite <- (C a Hna). assert (a < 0 \/ 2 * psize3 (ins r) <= a) as [Hneg | Hge] by lia.
    + rewrite !zget_None by lia. reflexivity.
    + destruct m. cbn in *. apply H, Hge.
Qed.
Theorem run3 nloop : exec_all n (test3 O rnorm f P ro nloop w0) M0
  (fun r m => holds3 2 0 (ins r) (fld (fun p => Nat.iter nloop (T r p) (cv (cellv r (cell3 2 0 (ins r) p 0)), cv (cellv r (cell3 2 0 (ins r) p 1))))) (getb BWORK m) /\
              framed M0 BWORK (fun r => 2 * f_fftsize f r) r m).
Proof.
  destruct (run_loop n (fun r p => inb3 p (ins r)) (fun r p q => cell3 2 0 (ins r) p q) (framed M0 BWORK (fun r => 2 * f_fftsize f r))) with
    (T := T) (cs := pieces_compute3 O rnorm f P true ro FORWARD BWORK BWORK ++ pieces_compute3 O rnorm f P true ro BACKWARD BWORK BWORK)
    (w0 := w0) (g0 := fun r p => (cv (cellv r (cell3 2 0 (ins r) p 0)), cv (cellv r (cell3 2 0 (ins r) p 1)))) (M0 := M0) (k := nloop) as (M' & H1 & L & H2).
  - intros M HM. pose proof Hr as (_ & _ & _ & _ & Ti & _). apply (some_field O n N M BWORK 0 ins (or_introl eq_refl) Ti).
    intros r Hrn. destruct (HM r Hrn) as (A & _). rewrite A. pose proof (work_room3 r Hrn). pose proof (vol3_le_psize (ins r)).
    pose proof (psize3_nonneg _ (Hl r Hrn)). lia.
  - exact HT.
  - intros r _. apply framed_refl.
  - intros r m Hrn Hf. pose proof (work_room3 r Hrn). destruct (Hw r (getb BWORK m) Hrn) as (w & E & Hfi); [destruct Hf as (A & _); rewrite A; lia|].
    exists w. split; [exact E|]. split; [|apply framed_init3; assumption].
    intros p q Hp Hq. destruct Hfi as (_ & Hfi & _). rewrite Hfi by (apply cell3_lt; assumption).
    unfold fld. cbn [fst snd]. assert (q = 0 \/ q = 1) as [-> | ->] by lia; reflexivity.
  - exists M'. split; [exact H1|]. exists L.
    assert (E : start n (test3 O rnorm f P ro nloop w0) M0 = start n (fun r => start_with (w0 r) :: times_code nloop
       (together (pieces_compute3 O rnorm f P true ro FORWARD BWORK BWORK ++ pieces_compute3 O rnorm f P true ro BACKWARD BWORK BWORK)) r) M0).
    { unfold start. f_equal. apply map_ext. intros r. unfold test3.
      erewrite (times_ext nloop (round3 O rnorm f P ro)); [reflexivity|]. unfold round3, together, compute3, together. rewrite map_app, concat_app. reflexivity. }
    rewrite E. exact H2.
Qed.
End Run3.

Section Ro3.
Context {F V : Type} (O : sops F) (cexp : bool -> Z -> Z -> F * F) (rnorm : Z -> F) (cv : V -> F).
(** -r: only data movement, any arithmetic *)
Lemma round_ro3 ar n st N permute ins outs f P (M0 : nat -> @rmem F) : ready3 ar n st N permute ins outs f -> setup_ffts3 cexp N = Some P -> room3 f BACKWARD BWORK M0 ->
  forall G : pt3 -> F * F,
  good n (st3 f BWORK M0 BWORK 0 ins (fld G))
    (pieces_compute3 O rnorm f P true true FORWARD BWORK BWORK ++ pieces_compute3 O rnorm f P true true BACKWARD BWORK BWORK)
    (fun r m => holds3 2 0 (ins r) (fld (fun p => G p)) (getb BWORK m) /\ framed M0 BWORK (fun r => 2 * f_fftsize f r) r m).
Proof.
  intros Hr HP Ha G. assert (Hd : isdata BWORK) by (left; reflexivity). eapply good_app.
  - pose proof (call_good O cexp rnorm ar n st N permute ins outs f P BWORK BWORK M0 true true FORWARD G Hr HP Hd Hd (or_introl eq_refl)) as H.
    destruct (forward_dirs permute ins outs f) as (E1 & E2 & E3 & E4). rewrite E1, E2, E3, E4 in H. apply H.
    split; [apply Ha|]. cbn. discriminate.
  - eapply good_conseq; [| |apply (call_good O cexp rnorm ar n st N permute ins outs f P BWORK BWORK M0 true true BACKWARD G Hr HP Hd Hd (or_introl eq_refl) Ha)].
    + intros r m Hrn (K1 & K2). split; [|exact K2].
      destruct (src_out ar n st N permute ins outs f BACKWARD r Hr ltac:(discriminate) Hrn) as (E1 & E2 & E3 & E4). rewrite E1, E2.
      eapply holds3_ext; [|exact K1]. intros p q _ _. apply fld_ext, ro_val.
    + intros r m Hrn (K1 & K2). split; [|exact K2].
      destruct (src_out ar n st N permute ins outs f BACKWARD r Hr ltac:(discriminate) Hrn) as (E1 & E2 & E3 & E4). rewrite E3, E4 in K1.
      eapply holds3_ext; [|exact K1]. intros p q _ _. apply fld_ext, ro_val.
Qed.
Lemma iter_id {X} k (x : X) : Nat.iter k (fun y => y) x = x.
Proof. induction k as [|k IH]; [reflexivity|]. cbn [Nat.iter]. exact IH. Qed.
Theorem run_ro3 ar n st N permute ins outs f P (M0 : nat -> @rmem F) w0 (cellv : nat -> Z -> V) nloop :
  ready3 ar n st N permute ins outs f -> setup_ffts3 cexp N = Some P -> room3 f BACKWARD BWORK M0 -> (forall r, (r < n)%nat -> legal3 (ins r)) ->
  fills3 cv n ins w0 cellv ->
  exec_all n (test3 O rnorm f P true nloop w0) M0
  (fun r m => (forall i, 0 <= i < 2 * psize3 (ins r) -> zget (getb BWORK m) i = Some (cv (cellv r i))) /\
              framed M0 BWORK (fun r => 2 * f_fftsize f r) r m).
Proof.
  intros Hr HP Ha Hl Hw.
  destruct (run3 O rnorm cv ar n st N permute ins outs f P M0 true w0 cellv (fun _ _ x => x) Hr Ha Hl Hw (round_ro3 ar n st N permute ins outs f P M0 Hr HP Ha) nloop) as (M' & H1 & H2).
  exists M'. split; [|exact H2]. intros r Hrn. destruct (H1 r Hrn) as (K1 & K2). split; [|exact K2].
  intros i Hi. destruct (cell3_at (ins r) i (Hl r Hrn) Hi) as (A & B & C). pose proof (K1 _ _ A B) as E. rewrite C in E. rewrite E. f_equal.
  unfold fld. rewrite iter_id. cbn [fst snd]. rewrite <- C at 4.
  assert (Q : i mod 2 = 0 \/ i mod 2 = 1) by lia. destruct Q as [Q | Q]; rewrite Q in *; cbn [Z.eqb] in *; rewrite C; reflexivity.
Qed.
End Ro3.

Lemma rmulc_iter k c z : Nat.iter k (rmulc c) z = rmulc (c ^ k)%R z.
Proof.
  induction k as [|k IH]; [cbn; unfold rmulc; destruct z; cbn; f_equal; ring|]. change (Nat.iter (S k) (rmulc c) z) with (rmulc c (Nat.iter k (rmulc c) z)). rewrite IH.
  unfold rmulc. cbn. f_equal; ring.
Qed.
(** exact arithmetic: what nloop round trips multiply a point by *)
Definition gain3 (N : Z * Z * Z) (ins outs : nat -> box3) (nloop : nat) (r : nat) (p : pt3) : R :=
  if pos3 0 (ins r) p <? psize3 (outs r) then 1%R else (IZR (grid_points N) ^ nloop)%R.
Theorem run_exact3 ar n st N permute ins outs f P (M0 : nat -> @rmem R) w0 (cellv : nat -> Z -> R) nloop :
  ready3 ar n st N permute ins outs f -> setup_ffts3 cexpR N = Some P -> room3 f BACKWARD BWORK M0 -> (forall r, (r < n)%nat -> legal3 (ins r)) ->
  fills3 (fun v => v) n ins w0 cellv ->
  exec_all n (test3 Rops rnormR f P false nloop w0) M0
  (fun r m => (forall p q, inb3 p (ins r) -> 0 <= q < 2 -> zget (getb BWORK m) (cell3 2 0 (ins r) p q) = Some (gain3 N ins outs nloop r p * cellv r (cell3 2 0 (ins r) p q))%R) /\
              framed M0 BWORK (fun r => 2 * f_fftsize f r) r m).
Proof.
  intros Hr HP Ha Hl Hw.
  destruct (run3 Rops rnormR (fun v => v) ar n st N permute ins outs f P M0 false w0 cellv
    (fun r p => rmulc (if true && (pos3 0 (ins r) p <? psize3 (outs r)) then 1 else IZR (grid_points N))%R) Hr Ha Hl Hw
    (fun G => round_good3 ar n st N permute ins outs f P BWORK M0 true true G Hr HP (or_introl eq_refl) Ha) nloop) as (M' & H1 & H2).
  exists M'. split; [|exact H2]. intros r Hrn. destruct (H1 r Hrn) as (K1 & K2). split; [|exact K2].
  intros p q Hp Hq. rewrite (K1 p q Hp Hq). f_equal. unfold fld. rewrite rmulc_iter. unfold gain3, rmulc. cbn [andb fst snd].
  assert (E : forall c : bool, ((if c then 1 else IZR (grid_points N)) ^ nloop = if c then 1 else IZR (grid_points N) ^ nloop)%R) by (intros []; [apply pow1|reflexivity]).
  rewrite E. assert (q = 0 \/ q = 1) as [-> | ->] by lia; reflexivity.
Qed.

(** ** 2d *)
Section Run2.
Context {F V : Type} (O : sops F) (cexp : bool -> Z -> Z -> F * F) (rnorm : Z -> F) (cv : V -> F).
Variables (esize : Z) (ar : areas) (n : nat) (st : settings) (N : Z * Z) (permute : Z) (ins outs : nat -> box2) (f : fft2) (P : @plans2 F).
Variables (M0 : nat -> @rmem F) (ro : bool) (w0 : nat -> list F -> option (list F)) (cellv : nat -> Z -> V) (T : nat -> pt2 -> F * F -> F * F).
Hypothesis Hr : ready2 esize ar n st N permute ins outs f.
Hypothesis HP : setup_ffts2 cexp N = Some P.
Hypothesis Ha : arrays_ok2 f BWORK M0.
Hypothesis Hl : forall r, (r < n)%nat -> legal2 (ins r).
Definition fills2 : Prop := forall r w, (r < n)%nat -> 2 * psize2 (ins r) <= zlen w ->
  exists w', w0 r w = Some w' /\ filled cv (2 * psize2 (ins r)) (cellv r) w w'.
Hypothesis Hw : fills2.
Hypothesis HT : forall G : pt2 -> F * F,
  good n (st2 f BWORK M0 BWORK 0 ins (fld G))
    (pieces_compute2 O rnorm esize f P true ro FORWARD BWORK BWORK ++ pieces_compute2 O rnorm esize f P true ro BACKWARD BWORK BWORK)
    (fun r m => holds2 2 0 (ins r) (fld (fun p => T r p (G p))) (getb BWORK m) /\ framed M0 BWORK (fun r => 2 * t_fftsize f r) r m).

Lemma work_room2 r : (r < n)%nat -> 2 * psize2 (ins r) <= 2 * t_fftsize f r <= zlen (getb BWORK (M0 r)).
Proof.
  intros Hrn. pose proof (ready_facts2 _ _ _ _ _ _ _ _ _ Hr) as FA. destruct (Ha r) as (K & _); [rewrite (T_n _ _ _ _ _ _ _ FA); exact Hrn|].
  destruct (T_fftsize _ _ _ _ _ _ _ FA r) as (H1 & _). lia.
Qed.
Lemma framed_init2 r (m : @rmem F) w : (r < n)%nat -> framed M0 BWORK (fun r => 2 * t_fftsize f r) r m ->
  filled cv (2 * psize2 (ins r)) (cellv r) (getb BWORK m) w -> framed M0 BWORK (fun r => 2 * t_fftsize f r) r (setb BWORK w m).
Proof.
  intros Hrn (A & B & C) (L & _ & H). pose proof (work_room2 r Hrn). pose proof (psize2_nonneg _ (Hl r Hrn)). split; [|split].
  - intros b. rewrite <- A. destruct b, m; cbn in *; auto.
  - intros b Hb Hn. rewrite <- (B b Hb Hn). destruct b, m; cbn in *; try reflexivity. contradiction Hn. reflexivity.
  - intros a Hna. rewrite <- (C a Hna). assert (a < 0 \/ 2 * psize2 (ins r) <= a) as [Hneg | Hge] by lia.
    + rewrite !zget_None by lia. reflexivity.
    + destruct m. cbn in *. apply H, Hge.
Qed.
Theorem run2 nloop : exec_all n (test2 O rnorm esize f P ro nloop w0) M0
  (fun r m => holds2 2 0 (ins r) (fld (fun p => Nat.iter nloop (T r p) (cv (cellv r (cell2 2 0 (ins r) p 0)), cv (cellv r (cell2 2 0 (ins r) p 1))))) (getb BWORK m) /\
              framed M0 BWORK (fun r => 2 * t_fftsize f r) r m).
Proof.
  destruct (run_loop n (fun r p => inb2 p (ins r)) (fun r p q => cell2 2 0 (ins r) p q) (framed M0 BWORK (fun r => 2 * t_fftsize f r))) with
    (T := T) (cs := pieces_compute2 O rnorm esize f P true ro FORWARD BWORK BWORK ++ pieces_compute2 O rnorm esize f P true ro BACKWARD BWORK BWORK)
    (w0 := w0) (g0 := fun r p => (cv (cellv r (cell2 2 0 (ins r) p 0)), cv (cellv r (cell2 2 0 (ins r) p 1)))) (M0 := M0) (k := nloop) as (M' & H1 & L & H2).
  - intros M HM. pose proof Hr as (_ & _ & _ & _ & _ & Ti & _). apply (some_field2 O n N M BWORK 0 ins (or_introl eq_refl) Ti).
    intros r Hrn. destruct (HM r Hrn) as (A & _). rewrite A. pose proof (work_room2 r Hrn). pose proof (vol2_le_psize (ins r)).
    pose proof (psize2_nonneg _ (Hl r Hrn)). lia.
  - exact HT.
  - intros r _. apply framed_refl.
  - intros r m Hrn Hf. pose proof (work_room2 r Hrn). destruct (Hw r (getb BWORK m) Hrn) as (w & E & Hfi); [destruct Hf as (A & _); rewrite A; lia|].
    exists w. split; [exact E|]. split; [|apply framed_init2; assumption].
    intros p q Hp Hq. destruct Hfi as (_ & Hfi & _). rewrite Hfi by (apply cell2_lt; assumption).
    unfold fld. cbn [fst snd]. assert (q = 0 \/ q = 1) as [-> | ->] by lia; reflexivity.
  - exists M'. split; [exact H1|]. exists L.
    assert (E : start n (test2 O rnorm esize f P ro nloop w0) M0 = start n (fun r => start_with (w0 r) :: times_code nloop
       (together (pieces_compute2 O rnorm esize f P true ro FORWARD BWORK BWORK ++ pieces_compute2 O rnorm esize f P true ro BACKWARD BWORK BWORK)) r) M0).
    { unfold start. f_equal. apply map_ext. intros r. unfold test2.
      erewrite (times_ext nloop (round2 O rnorm esize f P ro)); [reflexivity|]. unfold round2, together, compute2, together. rewrite map_app, concat_app. reflexivity. }
    rewrite E. exact H2.
Qed.
End Run2.

Section Ro2.
Context {F V : Type} (O : sops F) (cexp : bool -> Z -> Z -> F * F) (rnorm : Z -> F) (cv : V -> F).
(** -r: only data movement, any arithmetic *)
Lemma round_ro2 esize ar n st N permute ins outs f P (M0 : nat -> @rmem F) : ready2 esize ar n st N permute ins outs f -> setup_ffts2 cexp N = Some P -> arrays_ok2 f BWORK M0 ->
  forall G : pt2 -> F * F,
  good n (st2 f BWORK M0 BWORK 0 ins (fld G))
    (pieces_compute2 O rnorm esize f P true true FORWARD BWORK BWORK ++ pieces_compute2 O rnorm esize f P true true BACKWARD BWORK BWORK)
    (fun r m => holds2 2 0 (ins r) (fld (fun p => G p)) (getb BWORK m) /\ framed M0 BWORK (fun r => 2 * t_fftsize f r) r m).
Proof.
  intros Hr HP Ha G. assert (Hd : isdata BWORK) by (left; reflexivity). eapply good_app.
  - pose proof (call_good2 O cexp rnorm esize ar n st N permute ins outs f P BWORK BWORK M0 true true FORWARD G Hr HP Hd Hd (or_introl eq_refl)) as H.
    destruct (forward_dirs2 permute ins outs f) as (E1 & E2 & E3 & E4). rewrite E1, E2, E3, E4 in H. apply H. exact Ha.
  - eapply good_conseq; [| |apply (call_good2 O cexp rnorm esize ar n st N permute ins outs f P BWORK BWORK M0 true true BACKWARD G Hr HP Hd Hd (or_introl eq_refl) Ha)].
    + intros r m Hrn (K1 & K2). split; [|exact K2].
      destruct (src_out2 esize ar n st N permute ins outs f BACKWARD r Hr ltac:(discriminate) Hrn) as (E1 & E2 & E3 & E4). rewrite E1, E2.
      eapply holds2_ext; [|exact K1]. intros p q _ _. apply fld_ext2, ro_val2.
    + intros r m Hrn (K1 & K2). split; [|exact K2].
      destruct (src_out2 esize ar n st N permute ins outs f BACKWARD r Hr ltac:(discriminate) Hrn) as (E1 & E2 & E3 & E4). rewrite E3, E4 in K1.
      eapply holds2_ext; [|exact K1]. intros p q _ _. apply fld_ext2, ro_val2.
Qed.
Theorem run_ro2 esize ar n st N permute ins outs f P (M0 : nat -> @rmem F) w0 (cellv : nat -> Z -> V) nloop :
  ready2 esize ar n st N permute ins outs f -> setup_ffts2 cexp N = Some P -> arrays_ok2 f BWORK M0 -> (forall r, (r < n)%nat -> legal2 (ins r)) ->
  fills2 cv n ins w0 cellv ->
  exec_all n (test2 O rnorm esize f P true nloop w0) M0
  (fun r m => (forall i, 0 <= i < 2 * psize2 (ins r) -> zget (getb BWORK m) i = Some (cv (cellv r i))) /\
              framed M0 BWORK (fun r => 2 * t_fftsize f r) r m).
Proof.
  intros Hr HP Ha Hl Hw.
  destruct (run2 O rnorm cv esize ar n st N permute ins outs f P M0 true w0 cellv (fun _ _ x => x) Hr Ha Hl Hw (round_ro2 esize ar n st N permute ins outs f P M0 Hr HP Ha) nloop) as (M' & H1 & H2).
  exists M'. split; [|exact H2]. intros r Hrn. destruct (H1 r Hrn) as (K1 & K2). split; [|exact K2].
  intros i Hi. destruct (cell2_at (ins r) i (Hl r Hrn) Hi) as (A & B & C). pose proof (K1 _ _ A B) as E. rewrite C in E. rewrite E. f_equal.
  unfold fld. rewrite iter_id. cbn [fst snd]. rewrite <- C at 4.
  assert (Q : i mod 2 = 0 \/ i mod 2 = 1) by lia. destruct Q as [Q | Q]; rewrite Q in *; cbn [Z.eqb] in *; rewrite C; reflexivity.
Qed.
End Ro2.

(** exact arithmetic: what nloop round trips multiply a point by *)
Definition gain2 (N : Z * Z) (ins outs : nat -> box2) (nloop : nat) (r : nat) (p : pt2) : R :=
  if pos2 0 (ins r) p <? psize2 (outs r) then 1%R else (IZR (grid_points2 N) ^ nloop)%R.
Theorem run_exact2 esize ar n st N permute ins outs f P (M0 : nat -> @rmem R) w0 (cellv : nat -> Z -> R) nloop :
  ready2 esize ar n st N permute ins outs f -> setup_ffts2 cexpR N = Some P -> arrays_ok2 f BWORK M0 -> (forall r, (r < n)%nat -> legal2 (ins r)) ->
  fills2 (fun v => v) n ins w0 cellv ->
  exec_all n (test2 Rops rnormR esize f P false nloop w0) M0
  (fun r m => (forall p q, inb2 p (ins r) -> 0 <= q < 2 -> zget (getb BWORK m) (cell2 2 0 (ins r) p q) = Some (gain2 N ins outs nloop r p * cellv r (cell2 2 0 (ins r) p q))%R) /\
              framed M0 BWORK (fun r => 2 * t_fftsize f r) r m).
Proof.
  intros Hr HP Ha Hl Hw.
  destruct (run2 Rops rnormR (fun v => v) esize ar n st N permute ins outs f P M0 false w0 cellv
    (fun r p => rmulc (if true && (pos2 0 (ins r) p <? psize2 (outs r)) then 1 else IZR (grid_points2 N))%R) Hr Ha Hl Hw
    (fun G => round_good2 esize ar n st N permute ins outs f P BWORK M0 true true G Hr HP (or_introl eq_refl) Ha) nloop) as (M' & H1 & H2).
  exists M'. split; [|exact H2]. intros r Hrn. destruct (H1 r Hrn) as (K1 & K2). split; [|exact K2].
  intros p q Hp Hq. rewrite (K1 p q Hp Hq). f_equal. unfold fld. rewrite rmulc_iter. unfold gain2, rmulc. cbn [andb fst snd].
  assert (E : forall c : bool, ((if c then 1 else IZR (grid_points2 N)) ^ nloop = if c then 1 else IZR (grid_points2 N) ^ nloop)%R) by (intros []; [apply pow1|reflexivity]).
  rewrite E. assert (q = 0 \/ q = 1) as [-> | ->] by lia; reflexivity.
Qed.
