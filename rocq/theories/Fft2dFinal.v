(** Fft2dFinal.v : proofs behind PropertiesFft2d.v; 2d counterpart of Fft3dFinal.v. *)

From Coq Require Import Reals Lra.
From Verif Require Import Base Spec Pack2d Sched SchedProofs Phases Exec Remap RemapMain RemapInst
  Remap2d RemapThms RemapTop ExRemap Layout LayoutProofs Setup3d Setup3dProofs Setup2d Setup2dProofs LayoutFinal Kiss KissPure KissAlg KissReal Fft1d KissFinal
  Fft3d Frame Fft3dProofs Fft3dMain DftMulti Fft3dTop Fft3dFinal Fft2d Fft2dMain Fft2dTop.
Local Open Scope Z_scope.

(** ** C25 - C27 *)
Lemma C25_proof2 esize ar n st N permute ins outs f bi bo (M0 : nat -> @rmem R) scaled x :
  ready2 esize ar n st N permute ins outs f -> isdata bi -> isdata bo -> bi = bo \/ t_pre f = true -> arrays_ok2 f bo M0 ->
  (forall r, (r < n)%nat -> holds2 2 0 (ins r) (fld x) (getb bi (M0 r))) ->
  exists P, setup_ffts2 cexpR N = Some P /\
  exec_all n (compute2 Rops rnormR esize f P scaled false FORWARD bi bo) M0
    (fun r m => holds2 2 permute (outs r) (fld (DFT2 false N x)) (getb bo m) /\
                framed M0 bo (fun r => 2 * t_fftsize f r) r m).
Proof.
  intros Hr Hbi Hbo Hpl Ha Hx. destruct (ready_plans2 Rops cexpR _ _ _ _ _ _ _ _ _ Hr) as (P & HP). exists P. split; [exact HP|].
  unfold compute2. eapply good_exec; [apply (fwd_good2 esize ar n st N permute ins outs f P bi bo M0 scaled x); auto|].
  intros r Hrn. split; [apply Hx, Hrn|apply framed_refl].
Qed.

Lemma C26_proof2 esize ar n st N permute ins outs f bi bo (M0 : nat -> @rmem R) scaled x :
  ready2 esize ar n st N permute ins outs f -> isdata bi -> isdata bo -> place2 f BACKWARD bi bo -> arrays_ok2 f bo M0 ->
  (forall r, (r < n)%nat -> holds2 2 permute (outs r) (fld x) (getb bi (M0 r))) ->
  exists P, setup_ffts2 cexpR N = Some P /\
  exec_all n (compute2 Rops rnormR esize f P scaled false BACKWARD bi bo) M0
    (fun r m => holds2 2 0 (ins r)
       (fld (fun p => rmulc (if scaled && (pos2 0 (ins r) p <? psize2 (outs r)) then / IZR (grid_points2 N) else 1)%R (DFT2 true N x p)))
       (getb bo m) /\ framed M0 bo (fun r => 2 * t_fftsize f r) r m).
Proof.
  intros Hr Hbi Hbo Hpl Ha Hx. destruct (ready_plans2 Rops cexpR _ _ _ _ _ _ _ _ _ Hr) as (P & HP). exists P. split; [exact HP|].
  unfold compute2. eapply good_exec; [apply (bwd_good2 esize ar n st N permute ins outs f P bi bo M0 scaled x); auto|].
  intros r Hrn. split; [apply Hx, Hrn|apply framed_refl].
Qed.

Lemma scaled_all2 (ins outs : nat -> box2) r p : psize2 (ins r) <= psize2 (outs r) -> inb2 p (ins r) ->
  (pos2 0 (ins r) p <? psize2 (outs r)) = true.
Proof. intros H Hp. apply Z.ltb_lt. pose proof (pos2_psize 0 (ins r) p (or_introl eq_refl) Hp). lia. Qed.

Lemma C26_all_proof2 esize ar n st N permute ins outs f b (M0 : nat -> @rmem R) scaled x :
  ready2 esize ar n st N permute ins outs f -> isdata b -> arrays_ok2 f b M0 ->
  (forall r, (r < n)%nat -> psize2 (ins r) <= psize2 (outs r)) ->
  (forall r, (r < n)%nat -> holds2 2 permute (outs r) (fld x) (getb b (M0 r))) ->
  exists P, setup_ffts2 cexpR N = Some P /\
  exec_all n (compute2 Rops rnormR esize f P scaled false BACKWARD b b) M0
    (fun r m => holds2 2 0 (ins r) (fld (fun p => rmulc (if scaled then / IZR (grid_points2 N) else 1)%R (DFT2 true N x p))) (getb b m) /\
                framed M0 b (fun r => 2 * t_fftsize f r) r m).
Proof.
  intros Hr Hb Ha Hsz Hx. destruct (C26_proof2 esize ar n st N permute ins outs f b b M0 scaled x Hr Hb Hb (or_introl eq_refl) Ha Hx) as (P & HP & M' & H1 & H2).
  exists P. split; [exact HP|]. exists M'. split; [|exact H2]. intros r Hrn. destruct (H1 r Hrn) as (K1 & K2). split; [|exact K2].
  eapply holds2_ext; [|exact K1]. intros p q Hp _. apply fld_ext2. rewrite (scaled_all2 ins outs r p (Hsz r Hrn) Hp), andb_true_r. reflexivity.
Qed.

Lemma C27_proof2 esize ar n st N permute ins outs f b (M0 : nat -> @rmem R) s1 scaled x :
  ready2 esize ar n st N permute ins outs f -> isdata b -> arrays_ok2 f b M0 ->
  (forall r, (r < n)%nat -> holds2 2 0 (ins r) (fld x) (getb b (M0 r))) ->
  exists P, setup_ffts2 cexpR N = Some P /\
  exec_all n (fun r => compute2 Rops rnormR esize f P s1 false FORWARD b b r ++ compute2 Rops rnormR esize f P scaled false BACKWARD b b r) M0
    (fun r m => holds2 2 0 (ins r)
       (fld (fun p => rmulc (if scaled && (pos2 0 (ins r) p <? psize2 (outs r)) then 1 else IZR (grid_points2 N))%R (x p)))
       (getb b m) /\ framed M0 b (fun r => 2 * t_fftsize f r) r m).
Proof.
  intros Hr Hb Ha Hx. destruct (ready_plans2 Rops cexpR _ _ _ _ _ _ _ _ _ Hr) as (P & HP). exists P. split; [exact HP|].
  destruct (good_exec n _ _ _ M0 (round_good2 esize ar n st N permute ins outs f P b M0 s1 scaled x Hr HP Hb Ha)) as (M' & H1 & H2).
  { intros r Hrn. split; [apply Hx, Hrn|apply framed_refl]. }
  exists M'. split; [exact H1|]. destruct H2 as (L & H2). exists L. unfold compute2.
  assert (E : start n (fun r => together (pieces_compute2 Rops rnormR esize f P s1 false FORWARD b b) r ++ together (pieces_compute2 Rops rnormR esize f P scaled false BACKWARD b b) r) M0
    = start n (together (pieces_compute2 Rops rnormR esize f P s1 false FORWARD b b ++ pieces_compute2 Rops rnormR esize f P scaled false BACKWARD b b)) M0).
  { unfold start. f_equal. apply map_ext. intros r. unfold together. rewrite map_app, concat_app. reflexivity. }
  rewrite E. exact H2.
Qed.

Lemma C27_all_proof2 esize ar n st N permute ins outs f b (M0 : nat -> @rmem R) s1 scaled x :
  ready2 esize ar n st N permute ins outs f -> isdata b -> arrays_ok2 f b M0 ->
  (scaled = true -> forall r, (r < n)%nat -> psize2 (ins r) <= psize2 (outs r)) ->
  (forall r, (r < n)%nat -> holds2 2 0 (ins r) (fld x) (getb b (M0 r))) ->
  exists P, setup_ffts2 cexpR N = Some P /\
  exec_all n (fun r => compute2 Rops rnormR esize f P s1 false FORWARD b b r ++ compute2 Rops rnormR esize f P scaled false BACKWARD b b r) M0
    (fun r m => holds2 2 0 (ins r) (fld (fun p => if scaled then x p else rmulc (IZR (grid_points2 N)) (x p))) (getb b m) /\
                framed M0 b (fun r => 2 * t_fftsize f r) r m).
Proof.
  intros Hr Hb Ha Hsz Hx. destruct (C27_proof2 esize ar n st N permute ins outs f b M0 s1 scaled x Hr Hb Ha Hx) as (P & HP & M' & H1 & H2).
  exists P. split; [exact HP|]. exists M'. split; [|exact H2]. intros r Hrn. destruct (H1 r Hrn) as (K1 & K2). split; [|exact K2].
  eapply holds2_ext; [|exact K1]. intros p q Hp _. apply fld_ext2. destruct scaled; [|reflexivity].
  rewrite (scaled_all2 ins outs r p (Hsz eq_refl r Hrn) Hp). cbn [andb]. unfold rmulc. rewrite !Rmult_1_l. destruct (x p); reflexivity.
Qed.

(** ** C28 - C31: any arithmetic *)
Section Any.
Context {F : Type} (O : sops F).
Variables (cexp : bool -> Z -> Z -> F * F) (rnorm : Z -> F).

Lemma C28_proof2 esize ar n st N permute ins outs f P bi bo (M0 : nat -> @rmem F) scaled ro flag G :
  ready2 esize ar n st N permute ins outs f -> setup_ffts2 cexp N = Some P -> isdata bi -> isdata bo ->
  (if fwdpath2 f flag then t_pre f = true else t_post f = true /\ t_pre f = false) -> arrays_ok2 f bo M0 -> arrays_ok2 f bi M0 ->
  (forall r, (r < n)%nat -> holds2 2 (src_perm2 permute f flag) (src_lay2 ins outs f flag r) (fld G) (getb bi (M0 r))) ->
  exists Mo Mi, exec_to n (compute2 O rnorm esize f P scaled ro flag bi bo) M0 Mo /\
    exec_to n (compute2 O rnorm esize f P scaled ro flag bi bi) M0 Mi /\
    (forall r p q, (r < n)%nat -> inb2 p (dst_lay2 ins outs f flag r) -> 0 <= q < 2 ->
      exists v, zget (getb bo (Mo r)) (cell2 2 (dst_perm2 permute f flag) (dst_lay2 ins outs f flag r) p q) = Some v /\
        zget (getb bi (Mi r)) (cell2 2 (dst_perm2 permute f flag) (dst_lay2 ins outs f flag r) p q) = Some v) /\
    (bi <> bo -> forall r, (r < n)%nat -> getb bi (Mo r) = getb bi (M0 r)).
Proof.
  intros Hr HP Hbi Hbo Hg Hro Hri Hx.
  assert (Pl : place2 f flag bi bo) by (right; exact Hg).
  destruct (call_agree2 O cexp rnorm esize ar ar n st st N permute ins outs f f P bi bo bi bi M0 M0 scaled ro flag G) as (Mo & Mi & E1 & E2 & H); auto.
  { left; reflexivity. }
  exists Mo, Mi. split; [exact E1|]. split; [exact E2|]. split; [exact H|].
  intros Hne r Hrn. pose proof (exec_all_to n _ _ _ _ E1 (call_runs2 O cexp rnorm esize ar n st N permute ins outs f P bi bo M0 scaled ro flag G Hr HP Hbi Hbo Pl Hro Hx) r Hrn) as (_ & _ & K & _).
  apply K; assumption.
Qed.

(** C30 *)
Lemma ro_val2 N permute ins outs f P scaled flag G r p :
  call_val2 O rnorm N permute ins outs f P scaled true flag G r p = G p.
Proof.
  unfold call_val2, finish2. cbn [negb]. rewrite andb_false_r. cbn [andb]. destruct (fwdpath2 f flag); reflexivity.
Qed.

Lemma C30_compute_proof2 esize ar n st N permute ins outs f P bi bo (M0 : nat -> @rmem F) scaled flag G :
  ready2 esize ar n st N permute ins outs f -> setup_ffts2 cexp N = Some P -> isdata bi -> isdata bo ->
  place2 f flag bi bo -> arrays_ok2 f bo M0 ->
  (forall r, (r < n)%nat -> holds2 2 (src_perm2 permute f flag) (src_lay2 ins outs f flag r) (fld G) (getb bi (M0 r))) ->
  exec_all n (compute2 O rnorm esize f P scaled true flag bi bo) M0
    (fun r m => holds2 2 (dst_perm2 permute f flag) (dst_lay2 ins outs f flag r) (fld G) (getb bo m) /\
                framed M0 bo (fun r => 2 * t_fftsize f r) r m).
Proof.
  intros Hr HP Hbi Hbo Hpl Hro Hx. destruct (call_runs2 O cexp rnorm esize ar n st N permute ins outs f P bi bo M0 scaled true flag G Hr HP Hbi Hbo Hpl Hro Hx) as (M' & H1 & H2).
  exists M'. split; [|exact H2]. intros r Hrn. destruct (H1 r Hrn) as (K1 & K2). split; [|exact K2].
  eapply holds2_ext; [|exact K1]. intros p q _ _. apply fld_ext2, ro_val2.
Qed.
End Any.

Section AnyData.
Context {A : Type}.

Lemma remaps_good2 esize ar n st N permute ins outs f bi bo (M0 : nat -> @rmem A) flag g :
  ready2 esize ar n st N permute ins outs f -> isdata bi -> isdata bo ->
  bi = bo \/ (if fwdpath2 f flag then t_pre f = true else t_post f = true) -> arrays_ok2 f bo M0 ->
  good n (st2 f bo M0 bi (src_perm2 permute f flag) (src_lay2 ins outs f flag) g) (pieces_only_remaps2 esize f flag bi bo)
    (st2 f bo M0 bo (dst_perm2 permute f flag) (dst_lay2 ins outs f flag) g).
Proof.
  intros Hr Hbi Hbo Hg Ha. pose proof (ready_facts2 _ _ _ _ _ _ _ _ _ Hr) as FA. destruct Hr as (_ & _ & HI & Hpk & He & Ti & To & Lo & _).
  unfold src_perm2, src_lay2, dst_perm2, dst_lay2. destruct (fwdpath2 f flag) eqn:E.
  - apply (only_remaps_fwd2 esize n st N permute ins outs f FA Ti To Hpk He bi bo M0 Hbi Hbo Ha flag g E Hg).
  - apply (only_remaps_bwd2 esize n st N permute ins outs f FA Ti To Hpk He bi bo M0 Hbi Hbo Ha flag g E Hg).
Qed.

Lemma C30_remaps_proof2 esize ar n st N permute ins outs f bi bo (M0 : nat -> @rmem A) flag g :
  ready2 esize ar n st N permute ins outs f -> isdata bi -> isdata bo ->
  bi = bo \/ (if fwdpath2 f flag then t_pre f = true else t_post f = true) -> arrays_ok2 f bo M0 ->
  (forall r, (r < n)%nat -> holds2 2 (src_perm2 permute f flag) (src_lay2 ins outs f flag r) g (getb bi (M0 r))) ->
  exec_all n (only_remaps2 esize f flag bi bo) M0
    (fun r m => holds2 2 (dst_perm2 permute f flag) (dst_lay2 ins outs f flag r) g (getb bo m) /\
                framed M0 bo (fun r => 2 * t_fftsize f r) r m).
Proof.
  intros Hr Hbi Hbo Hpl Hro Hx. unfold only_remaps2. eapply good_exec; [apply (remaps_good2 esize ar n st N permute ins outs f bi bo M0 flag g); auto|].
  intros r Hrn. split; [apply Hx, Hrn|apply framed_refl].
Qed.

Lemma C30_identity_proof2 esize ar n st N permute ins outs f b (M0 : nat -> @rmem A) g :
  ready2 esize ar n st N permute ins outs f -> isdata b -> arrays_ok2 f b M0 ->
  (forall r, (r < n)%nat -> holds2 2 0 (ins r) g (getb b (M0 r))) ->
  exec_all n (fun r => only_remaps2 esize f FORWARD b b r ++ only_remaps2 esize f BACKWARD b b r) M0
    (fun r m => holds2 2 0 (ins r) g (getb b m) /\ framed M0 b (fun r => 2 * t_fftsize f r) r m).
Proof.
  intros Hr Hb Hro Hx.
  assert (Gd : good n (st2 f b M0 b 0 ins g) (pieces_only_remaps2 esize f FORWARD b b ++ pieces_only_remaps2 esize f BACKWARD b b) (st2 f b M0 b 0 ins g)).
  { eapply good_app.
    - pose proof (remaps_good2 esize ar n st N permute ins outs f b b M0 FORWARD g Hr Hb Hb (or_introl eq_refl)) as H.
      destruct (forward_dirs2 permute ins outs f) as (E1 & E2 & E3 & E4). rewrite E1, E2, E3, E4 in H. exact (H Hro).
    - eapply good_conseq; [| |apply (remaps_good2 esize ar n st N permute ins outs f b b M0 BACKWARD g Hr Hb Hb (or_introl eq_refl) Hro)].
      + intros r m Hrn (K1 & K2). split; [|exact K2].
        destruct (src_out2 esize ar n st N permute ins outs f BACKWARD r Hr ltac:(discriminate) Hrn) as (E1 & E2 & E3 & E4). rewrite E1, E2. exact K1.
      + intros r m Hrn (K1 & K2). split; [|exact K2].
        destruct (src_out2 esize ar n st N permute ins outs f BACKWARD r Hr ltac:(discriminate) Hrn) as (E1 & E2 & E3 & E4). rewrite E3, E4 in K1. exact K1. }
  destruct (good_exec n _ _ _ M0 Gd) as (M' & H1 & H2).
  { intros r Hrn. split; [apply Hx, Hrn|apply framed_refl]. }
  exists M'. split; [exact H1|]. destruct H2 as (L & H2). exists L. unfold only_remaps2.
  assert (E : start n (fun r => together (pieces_only_remaps2 esize f FORWARD b b) r ++ together (pieces_only_remaps2 esize f BACKWARD b b) r) M0
    = start n (together (pieces_only_remaps2 esize f FORWARD b b ++ pieces_only_remaps2 esize f BACKWARD b b)) M0).
  { unfold start. f_equal. apply map_ext. intros r. unfold together. rewrite map_app, concat_app. reflexivity. }
  rewrite E. exact H2.
Qed.

Lemma C31_proof2 esize ar n st N permute ins outs f bi bo (M0 : nat -> @rmem A) flag which g :
  ready2 esize ar n st N permute ins outs f -> isdata bi -> isdata bo ->
  which = 1 \/ which = 2 \/ which = 3 ->
  bi = bo \/ (if which =? 1 then t_pre f = true else if which =? 3 then t_post f = true else st_exch st = 0) ->
  arrays_ok2 f bo M0 ->
  (forall r, (r < n)%nat -> holds2 2 (fst (stage_src2 permute ins outs f flag which)) (snd (stage_src2 permute ins outs f flag which) r) g (getb bi (M0 r))) ->
  exec_all n (only_one_remap2 esize f flag which bi bo) M0
    (fun r m => holds2 2 (fst (stage_dst2 permute ins outs f flag which)) (snd (stage_dst2 permute ins outs f flag which) r) g (getb bo m) /\
                framed M0 bo (fun r => 2 * t_fftsize f r) r m).
Proof.
  intros Hr Hbi Hbo Hw Hg Ha Hx. pose proof (ready_facts2 _ _ _ _ _ _ _ _ _ Hr) as FA. destruct Hr as (_ & _ & HI & Hpk & He & Ti & To & Lo & _).
  unfold only_one_remap2. eapply good_exec; [apply (one_remap_good2 esize n st N permute ins outs f FA Ti To Hpk He bi bo M0 Hbi Hbo Ha flag which g Hw Hg)|].
  intros r Hrn. split; [apply Hx, Hrn|apply framed_refl].
Qed.
End AnyData.

(** ** C37, C38 *)

Section Calls.
Context {F : Type} (O : sops F).
Variables (cexp : bool -> Z -> Z -> F * F) (rnorm : Z -> F).
Variables (esize : Z) (ar : areas) (n : nat) (st : settings) (N : Z * Z) (permute : Z) (ins outs : nat -> box2) (f : fft2) (P : @plans2 F).
Hypothesis Hr : ready2 esize ar n st N permute ins outs f.
Hypothesis HP : setup_ffts2 cexp N = Some P.

Definition tcall_code2 (c : call3) : nat -> list (@instr F) := compute2 O rnorm esize f P (ca_scaled c) (ca_ro c) (ca_flag c) (ca_in c) (ca_out c).
Definition tcall_ok2 (M0 : nat -> @rmem F) (c : call3) : Prop :=
  isdata (ca_in c) /\ isdata (ca_out c) /\ place2 f (ca_flag c) (ca_in c) (ca_out c) /\
  arrays_ok2 f (ca_in c) M0 /\ arrays_ok2 f (ca_out c) M0.

Lemma some_field2 (M : nat -> @rmem F) b perm lay : perm_ok2 perm -> tiling2 n N lay ->
  (forall r, (r < n)%nat -> 2 * vol2 (lay r) <= zlen (getb b (M r))) ->
  exists G, forall r, (r < n)%nat -> holds2 2 perm (lay r) (fld G) (getb b (M r)).
Proof.
  intros Hp Ht Hl. destruct (field2_exists (s0 O) n 2 (fun r => rotb2 perm (lay r)) (fun r => getb b (M r))) as (g & Hg).
  - apply rot_disjoint2; [exact Hp|apply Ht].
  - intros r Hrn. rewrite rot_vol2 by exact Hp. apply Hl, Hrn.
  - exists (fun p => (g (rotp2 perm p) 0, g (rotp2 perm p) 1)). intros r Hrn.
    apply (proj2 (holds_rot2 2 perm (lay r) _ _ Hp)). eapply holds2_ext; [|apply Hg, Hrn]. cbv beta. intros p q _ Hq.
    unfold fld. rewrite rot_rot2 by exact Hp. assert (q = 0 \/ q = 1) as [-> | ->] by lia; reflexivity.
Qed.

Lemma src_ok2 flag : perm_ok2 (src_perm2 permute f flag) /\ tiling2 n N (src_lay2 ins outs f flag) /\ layout2 f (src_lay2 ins outs f flag).
Proof.
  pose proof (ready_facts2 _ _ _ _ _ _ _ _ _ Hr) as FA. pose proof Hr as (_ & _ & _ & _ & _ & Ti & To & _).
  unfold src_perm2, src_lay2. destruct (fwdpath2 f flag).
  - split; [left; reflexivity|]. split; [exact Ti|]. eapply L_in2; eassumption.
  - split; [apply (T_perm _ _ _ _ _ _ _ FA)|]. split; [exact To|]. eapply L_out2; eassumption.
Qed.

Lemma call_field2 (M : nat -> @rmem F) c : tcall_ok2 M c ->
  exists G, forall r, (r < n)%nat -> holds2 2 (src_perm2 permute f (ca_flag c)) (src_lay2 ins outs f (ca_flag c) r) (fld G) (getb (ca_in c) (M r)).
Proof.
  intros (Hi & _ & _ & Ha & _). destruct (src_ok2 (ca_flag c)) as (S1 & S2 & S3). apply some_field2; auto.
  intros r Hrn. pose proof (layout_fftsize2 _ _ _ _ _ _ _ (ready_facts2 _ _ _ _ _ _ _ _ _ Hr) _ r S3 Hrn).
  destruct (Ha r) as (K & _); [rewrite (en2 n st N permute ins outs f (ready_facts2 _ _ _ _ _ _ _ _ _ Hr)); exact Hrn|]. lia.
Qed.

Lemma lens_ok2 (M M' : nat -> @rmem F) c : (forall r b, (r < n)%nat -> zlen (getb b (M' r)) = zlen (getb b (M r))) -> tcall_ok2 M c -> tcall_ok2 M' c.
Proof.
  intros HL (H1 & H2 & H3 & H4 & H5). pose proof (en2 n st N permute ins outs f (ready_facts2 _ _ _ _ _ _ _ _ _ Hr)) as En.
  assert (R : forall b, arrays_ok2 f b M -> arrays_ok2 f b M').
  { intros b Ha r Hrn. rewrite En in Hrn. specialize (Ha r). rewrite En in Ha. specialize (Ha Hrn). rewrite (HL r b Hrn).
    pose proof (HL r BSend Hrn) as E1. pose proof (HL r BRecv Hrn) as E2. cbn in E1, E2. rewrite E1, E2. exact Ha. }
  split; [exact H1|]. split; [exact H2|]. split; [exact H3|]. split; apply R; assumption.
Qed.

Lemma call_total2 (M : nat -> @rmem F) c : tcall_ok2 M c ->
  exists M', one_by_one n (pieces_compute2 O rnorm esize f P (ca_scaled c) (ca_ro c) (ca_flag c) (ca_in c) (ca_out c)) M M' /\
    exec_to n (tcall_code2 c) M M' /\ (forall r b, (r < n)%nat -> zlen (getb b (M' r)) = zlen (getb b (M r))).
Proof.
  intros Hc. destruct (call_field2 M c Hc) as (G & HG). destruct Hc as (H1 & H2 & H3 & H4 & H5).
  destruct (good_lockstep n _ _ _ M (call_good2 O cexp rnorm esize ar n st N permute ins outs f P (ca_in c) (ca_out c) M (ca_scaled c) (ca_ro c) (ca_flag c) G Hr HP H1 H2 H3 H5)) as (M' & K1 & K2 & K3).
  { intros r Hrn. split; [apply HG, Hrn|apply framed_refl]. }
  exists M'. split; [exact K2|]. split; [exact K3|]. intros r b Hrn. apply (K1 r Hrn).
Qed.

Lemma call_wf2 c M : tcall_ok2 M c -> wf_code n (tcall_code2 c).
Proof.
  intros Hc. destruct (call_field2 M c Hc) as (G & HG). destruct Hc as (H1 & H2 & H3 & H4 & H5). apply together_wf.
  apply (call_good2 O cexp rnorm esize ar n st N permute ins outs f P (ca_in c) (ca_out c) M (ca_scaled c) (ca_ro c) (ca_flag c) G Hr HP H1 H2 H3 H5).
Qed.

Lemma calls_run2 calls : forall M : nat -> @rmem F, Forall (tcall_ok2 M) calls ->
  exists M', one_by_one n (map tcall_code2 calls) M M' /\ (forall r b, (r < n)%nat -> zlen (getb b (M' r)) = zlen (getb b (M r))).
Proof.
  induction calls as [|c cs IH]; intros M Hok.
  - exists M. split; [constructor|reflexivity].
  - inversion Hok as [|c' cs' Hc Hcs]; subst. destruct (call_total2 M c Hc) as (M1 & _ & E1 & L1).
    destruct (IH M1) as (M2 & E2 & L2). { eapply Forall_impl; [|exact Hcs]. intros a Ha. eapply lens_ok2; [exact L1|exact Ha]. }
    exists M2. split; [econstructor; eassumption|]. intros r b Hrn. rewrite (L2 r b Hrn). apply L1, Hrn.
Qed.

(** results of the same call on two memories with the same input data *)
Lemma call_same2 (M M' : nat -> @rmem F) c : tcall_ok2 M c -> tcall_ok2 M' c ->
  (forall r p q, (r < n)%nat -> inb2 p (src_lay2 ins outs f (ca_flag c) r) -> 0 <= q < 2 ->
     zget (getb (ca_in c) (M' r)) (cell2 2 (src_perm2 permute f (ca_flag c)) (src_lay2 ins outs f (ca_flag c) r) p q) =
     zget (getb (ca_in c) (M r)) (cell2 2 (src_perm2 permute f (ca_flag c)) (src_lay2 ins outs f (ca_flag c) r) p q)) ->
  exists M1 M1', exec_to n (tcall_code2 c) M M1 /\ exec_to n (tcall_code2 c) M' M1' /\
    forall r p q, (r < n)%nat -> inb2 p (dst_lay2 ins outs f (ca_flag c) r) -> 0 <= q < 2 ->
      exists v, zget (getb (ca_out c) (M1 r)) (cell2 2 (dst_perm2 permute f (ca_flag c)) (dst_lay2 ins outs f (ca_flag c) r) p q) = Some v /\
        zget (getb (ca_out c) (M1' r)) (cell2 2 (dst_perm2 permute f (ca_flag c)) (dst_lay2 ins outs f (ca_flag c) r) p q) = Some v.
Proof.
  intros Hc Hc' Hs. destruct (call_field2 M c Hc) as (G & HG). destruct Hc as (H1 & H2 & H3 & H4 & H5). destruct Hc' as (_ & _ & _ & _ & K5).
  apply (call_agree2 O cexp rnorm esize ar ar n st st N permute ins outs f f P (ca_in c) (ca_out c) (ca_in c) (ca_out c) M M' (ca_scaled c) (ca_ro c) (ca_flag c) G); auto.
  intros r Hrn p q Hp Hq. rewrite (Hs r p q Hrn Hp Hq). apply HG; assumption.
Qed.

Lemma obo_split2 c1 c2 (M M2 : nat -> @rmem F) : one_by_one n (c1 ++ c2) M M2 -> exists M1, one_by_one n c1 M M1 /\ one_by_one n c2 M1 M2.
Proof.
  revert M. induction c1 as [|c cs IH]; cbn; intros M H.
  - exists M. split; [constructor|exact H].
  - inversion H as [|? ? ? Ma ? E H']; subst. destruct (IH Ma H') as (M1 & A & B). exists M1. split; [econstructor; eassumption|exact B].
Qed.

Lemma exec_to_fun2 code (M A B : nat -> @rmem F) : exec_to n code M A -> (forall r, (r < n)%nat -> A r = B r) -> exec_to n code M B.
Proof.
  intros (L & H) E. exists L. intros eager labels s Hrun. destruct (H eager labels s Hrun) as (H1 & H2). split; [exact H1|].
  destruct H2 as [H2|(H2 & H3 & H4 & H5)]; [left; exact H2|]. right. split; [exact H2|]. split; [exact H3|]. split; [exact H4|].
  rewrite H5. apply map_ext_in. intros r Hin. apply E. apply in_seq in Hin. lia.
Qed.
Lemma exec_to_from2 code (A B M : nat -> @rmem F) : exec_to n code A M -> (forall r, (r < n)%nat -> A r = B r) -> exec_to n code B M.
Proof.
  intros (L & H) E. exists L. assert (Es : start n code B = start n code A).
  { unfold start. f_equal. apply map_ext_in. intros r Hin. symmetry. apply E. apply in_seq in Hin. lia. }
  rewrite Es. exact H.
Qed.

Lemma C37_proof2 calls (M0 : nat -> @rmem F) : Forall (tcall_ok2 M0) calls ->
  (exists M', exec_to n (together (map tcall_code2 calls)) M0 M') /\
  forall pre c post M1, calls = pre ++ c :: post -> exec_to n (together (map tcall_code2 pre)) M0 M1 ->
    exists M2, exec_to n (tcall_code2 c) M1 M2 /\ exec_to n (together (map tcall_code2 (pre ++ [c]))) M0 M2 /\
    forall Mf, tcall_ok2 Mf c ->
      (forall r p q, (r < n)%nat -> inb2 p (src_lay2 ins outs f (ca_flag c) r) -> 0 <= q < 2 ->
         zget (getb (ca_in c) (Mf r)) (cell2 2 (src_perm2 permute f (ca_flag c)) (src_lay2 ins outs f (ca_flag c) r) p q) =
         zget (getb (ca_in c) (M1 r)) (cell2 2 (src_perm2 permute f (ca_flag c)) (src_lay2 ins outs f (ca_flag c) r) p q)) ->
      exists Mf2, exec_to n (tcall_code2 c) Mf Mf2 /\
        forall r p q, (r < n)%nat -> inb2 p (dst_lay2 ins outs f (ca_flag c) r) -> 0 <= q < 2 ->
          exists v, zget (getb (ca_out c) (M2 r)) (cell2 2 (dst_perm2 permute f (ca_flag c)) (dst_lay2 ins outs f (ca_flag c) r) p q) = Some v /\
            zget (getb (ca_out c) (Mf2 r)) (cell2 2 (dst_perm2 permute f (ca_flag c)) (dst_lay2 ins outs f (ca_flag c) r) p q) = Some v.
Proof.
  intros Hok.
  assert (Wf : forall cs, Forall (tcall_ok2 M0) cs -> Forall (wf_code n) (map tcall_code2 cs)).
  { intros cs H. apply Forall_map. eapply Forall_impl; [|exact H]. intros c Hc. eapply call_wf2; exact Hc. }
  split.
  - destruct (calls_run2 calls M0 Hok) as (M' & E & _). exists M'. apply one_by_one_together; [apply Wf, Hok|exact E].
  - intros pre c post M1 Hsp E1. subst calls. apply Forall_app in Hok as (Hpre & Hrest). inversion Hrest as [|? ? Hc Hpost]; subst.
    destruct (calls_run2 pre M0 Hpre) as (M1' & B1 & L1).
    pose proof (one_by_one_together n _ _ _ (Wf pre Hpre) B1) as E1'.
    pose proof (exec_to_ext n _ _ _ _ E1' E1) as Eq.
    assert (L1' : forall r b, (r < n)%nat -> zlen (getb b (M1 r)) = zlen (getb b (M0 r))).
    { intros r b Hrn. rewrite <- (Eq r Hrn). apply L1, Hrn. }
    pose proof (lens_ok2 M0 M1 c L1' Hc) as Hc1.
    destruct (call_total2 M1 c Hc1) as (M2 & _ & E2 & _). exists M2. split; [exact E2|]. split.
    + rewrite map_app. apply one_by_one_together.
      * apply Forall_app. split; [apply Wf, Hpre|]. constructor; [eapply call_wf2; exact Hc|constructor].
      * eapply obo_app; [exact B1|]. econstructor; [|constructor]. eapply exec_to_from2; [exact E2|]. intros r Hrn. symmetry. apply Eq, Hrn.
    + intros Mf Hf Hs. destruct (call_same2 M1 Mf c Hc1 Hf Hs) as (Ma & Mb & Ea & Eb & K). exists Mb. split; [exact Eb|].
      intros r p q Hrn Hp Hq. rewrite <- (exec_to_ext n _ _ _ _ Ea E2 r Hrn). apply K; assumption.
Qed.

Lemma C38_proof2 (M0 : nat -> @rmem F) c : tcall_ok2 M0 c ->
  exists L M', one_by_one n (pieces_compute2 O rnorm esize f P (ca_scaled c) (ca_ro c) (ca_flag c) (ca_in c) (ca_out c)) M0 M' /\
    forall eager labels s, run n eager (start n (tcall_code2 c) M0) labels s ->
      (forall a, step n eager a s <> Bad) /\
      (((length labels < L)%nat /\ exists a s', step n eager a s = Ok s') \/
       (length labels = L /\ all_done s /\ s_ch s = empty_chans n /\ mems_of s = map M' (seq 0 n))).
Proof.
  intros Hc. destruct (call_total2 M0 c Hc) as (M' & K1 & (L & K2) & _). exists L, M'. split; [exact K1|exact K2].
Qed.
End Calls.
