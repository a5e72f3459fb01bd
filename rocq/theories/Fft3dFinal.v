(** Fft3dFinal.v : proofs behind PropertiesFft3d.v (C25-C31, C37, C38). *)

From Coq Require Import Reals Lra.
From Verif Require Import Base Spec Pack3d Sched SchedProofs Phases Exec Remap RemapMain RemapInst
  Remap3d RemapThms RemapTop ExRemap Layout LayoutProofs Setup3d Setup3dProofs LayoutFinal Kiss KissPure KissAlg KissReal Fft1d KissFinal
  Fft3d Frame Fft3dProofs Fft3dMain DftMulti Fft3dTop.
Local Open Scope Z_scope.

(** ** C25 - C27 *)
Lemma C25_proof ar n st N permute ins outs f bi bo (M0 : nat -> @rmem R) scaled x :
  ready3 ar n st N permute ins outs f -> isdata bi -> isdata bo -> bi = bo \/ f_pre f = true -> arrays_ok f bo M0 ->
  (forall r, (r < n)%nat -> holds3 2 0 (ins r) (fld x) (getb bi (M0 r))) ->
  exists P, setup_ffts3 cexpR N = Some P /\
  exec_all n (compute3 Rops rnormR f P scaled false FORWARD bi bo) M0
    (fun r m => holds3 2 permute (outs r) (fld (DFT3 false N x)) (getb bo m) /\
                framed M0 bo (fun r => 2 * f_fftsize f r) r m).
Proof.
  intros Hr Hbi Hbo Hpl Ha Hx. destruct (ready_plans Rops cexpR _ _ _ _ _ _ _ _ Hr) as (P & HP). exists P. split; [exact HP|].
  unfold compute3. eapply good_exec; [apply (fwd_good3 ar n st N permute ins outs f P bi bo M0 scaled x); auto|].
  intros r Hrn. split; [apply Hx, Hrn|apply framed_refl].
Qed.

Lemma C26_proof ar n st N permute ins outs f bi bo (M0 : nat -> @rmem R) scaled x :
  ready3 ar n st N permute ins outs f -> isdata bi -> isdata bo -> place3 f BACKWARD bi bo -> room3 f BACKWARD bo M0 ->
  (forall r, (r < n)%nat -> holds3 2 permute (outs r) (fld x) (getb bi (M0 r))) ->
  exists P, setup_ffts3 cexpR N = Some P /\
  exec_all n (compute3 Rops rnormR f P scaled false BACKWARD bi bo) M0
    (fun r m => holds3 2 0 (ins r)
       (fld (fun p => rmulc (if scaled && (pos3 0 (ins r) p <? psize3 (outs r)) then / IZR (grid_points N) else 1)%R (DFT3 true N x p)))
       (getb bo m) /\ framed M0 bo (fun r => 2 * f_fftsize f r) r m).
Proof.
  intros Hr Hbi Hbo Hpl Ha Hx. destruct (ready_plans Rops cexpR _ _ _ _ _ _ _ _ Hr) as (P & HP). exists P. split; [exact HP|].
  unfold compute3. eapply good_exec; [apply (bwd_good3 ar n st N permute ins outs f P bi bo M0 scaled x); auto|].
  intros r Hrn. split; [apply Hx, Hrn|apply framed_refl].
Qed.

Lemma scaled_all (ins outs : nat -> box3) r p : psize3 (ins r) <= psize3 (outs r) -> inb3 p (ins r) ->
  (pos3 0 (ins r) p <? psize3 (outs r)) = true.
Proof. intros H Hp. apply Z.ltb_lt. pose proof (pos3_psize 0 (ins r) p (or_introl eq_refl) Hp). lia. Qed.

Lemma C26_all_proof ar n st N permute ins outs f b (M0 : nat -> @rmem R) scaled x :
  ready3 ar n st N permute ins outs f -> isdata b -> room3 f BACKWARD b M0 ->
  (forall r, (r < n)%nat -> psize3 (ins r) <= psize3 (outs r)) ->
  (forall r, (r < n)%nat -> holds3 2 permute (outs r) (fld x) (getb b (M0 r))) ->
  exists P, setup_ffts3 cexpR N = Some P /\
  exec_all n (compute3 Rops rnormR f P scaled false BACKWARD b b) M0
    (fun r m => holds3 2 0 (ins r) (fld (fun p => rmulc (if scaled then / IZR (grid_points N) else 1)%R (DFT3 true N x p))) (getb b m) /\
                framed M0 b (fun r => 2 * f_fftsize f r) r m).
Proof.
  intros Hr Hb Ha Hsz Hx. destruct (C26_proof ar n st N permute ins outs f b b M0 scaled x Hr Hb Hb (or_introl eq_refl) Ha Hx) as (P & HP & M' & H1 & H2).
  exists P. split; [exact HP|]. exists M'. split; [|exact H2]. intros r Hrn. destruct (H1 r Hrn) as (K1 & K2). split; [|exact K2].
  eapply holds3_ext; [|exact K1]. intros p q Hp _. apply fld_ext. rewrite (scaled_all ins outs r p (Hsz r Hrn) Hp), andb_true_r. reflexivity.
Qed.

Lemma C27_proof ar n st N permute ins outs f b (M0 : nat -> @rmem R) s1 scaled x :
  ready3 ar n st N permute ins outs f -> isdata b -> room3 f BACKWARD b M0 ->
  (forall r, (r < n)%nat -> holds3 2 0 (ins r) (fld x) (getb b (M0 r))) ->
  exists P, setup_ffts3 cexpR N = Some P /\
  exec_all n (fun r => compute3 Rops rnormR f P s1 false FORWARD b b r ++ compute3 Rops rnormR f P scaled false BACKWARD b b r) M0
    (fun r m => holds3 2 0 (ins r)
       (fld (fun p => rmulc (if scaled && (pos3 0 (ins r) p <? psize3 (outs r)) then 1 else IZR (grid_points N))%R (x p)))
       (getb b m) /\ framed M0 b (fun r => 2 * f_fftsize f r) r m).
Proof.
  intros Hr Hb Ha Hx. destruct (ready_plans Rops cexpR _ _ _ _ _ _ _ _ Hr) as (P & HP). exists P. split; [exact HP|].
  destruct (good_exec n _ _ _ M0 (round_good3 ar n st N permute ins outs f P b M0 s1 scaled x Hr HP Hb Ha)) as (M' & H1 & H2).
  { intros r Hrn. split; [apply Hx, Hrn|apply framed_refl]. }
  exists M'. split; [exact H1|]. destruct H2 as (L & H2). exists L. unfold compute3.
  assert (E : start n (fun r => together (pieces_compute3 Rops rnormR f P s1 false FORWARD b b) r ++ together (pieces_compute3 Rops rnormR f P scaled false BACKWARD b b) r) M0
    = start n (together (pieces_compute3 Rops rnormR f P s1 false FORWARD b b ++ pieces_compute3 Rops rnormR f P scaled false BACKWARD b b)) M0).
  { unfold start. f_equal. apply map_ext. intros r. unfold together. rewrite map_app, concat_app. reflexivity. }
  rewrite E. exact H2.
Qed.

Lemma C27_all_proof ar n st N permute ins outs f b (M0 : nat -> @rmem R) s1 scaled x :
  ready3 ar n st N permute ins outs f -> isdata b -> room3 f BACKWARD b M0 ->
  (scaled = true -> forall r, (r < n)%nat -> psize3 (ins r) <= psize3 (outs r)) ->
  (forall r, (r < n)%nat -> holds3 2 0 (ins r) (fld x) (getb b (M0 r))) ->
  exists P, setup_ffts3 cexpR N = Some P /\
  exec_all n (fun r => compute3 Rops rnormR f P s1 false FORWARD b b r ++ compute3 Rops rnormR f P scaled false BACKWARD b b r) M0
    (fun r m => holds3 2 0 (ins r) (fld (fun p => if scaled then x p else rmulc (IZR (grid_points N)) (x p))) (getb b m) /\
                framed M0 b (fun r => 2 * f_fftsize f r) r m).
Proof.
  intros Hr Hb Ha Hsz Hx. destruct (C27_proof ar n st N permute ins outs f b M0 s1 scaled x Hr Hb Ha Hx) as (P & HP & M' & H1 & H2).
  exists P. split; [exact HP|]. exists M'. split; [|exact H2]. intros r Hrn. destruct (H1 r Hrn) as (K1 & K2). split; [|exact K2].
  eapply holds3_ext; [|exact K1]. intros p q Hp _. apply fld_ext. destruct scaled; [|reflexivity].
  rewrite (scaled_all ins outs r p (Hsz eq_refl r Hrn) Hp). cbn [andb]. unfold rmulc. rewrite !Rmult_1_l. destruct (x p); reflexivity.
Qed.

(** ** C28 - C31: any arithmetic *)
Section Any.
Context {F : Type} (O : sops F).
Variables (cexp : bool -> Z -> Z -> F * F) (rnorm : Z -> F).

Lemma C28_proof ar n st N permute ins outs f P bi bo (M0 : nat -> @rmem F) scaled ro flag G :
  ready3 ar n st N permute ins outs f -> setup_ffts3 cexp N = Some P -> isdata bi -> isdata bo ->
  (if fwdpath f flag then f_pre f = true else f_post f = true /\ f_pre f = false) -> room3 f flag bo M0 -> room3 f flag bi M0 ->
  (forall r, (r < n)%nat -> holds3 2 (src_perm permute f flag) (src_lay ins outs f flag r) (fld G) (getb bi (M0 r))) ->
  exists Mo Mi, exec_to n (compute3 O rnorm f P scaled ro flag bi bo) M0 Mo /\
    exec_to n (compute3 O rnorm f P scaled ro flag bi bi) M0 Mi /\
    (forall r p q, (r < n)%nat -> inb3 p (dst_lay ins outs f flag r) -> 0 <= q < 2 ->
      exists v, zget (getb bo (Mo r)) (cell3 2 (dst_perm permute f flag) (dst_lay ins outs f flag r) p q) = Some v /\
        zget (getb bi (Mi r)) (cell3 2 (dst_perm permute f flag) (dst_lay ins outs f flag r) p q) = Some v) /\
    (bi <> bo -> forall r, (r < n)%nat -> getb bi (Mo r) = getb bi (M0 r)).
Proof.
  intros Hr HP Hbi Hbo Hg Hro Hri Hx.
  assert (Pl : place3 f flag bi bo) by (right; exact Hg).
  destruct (call_agree O cexp rnorm ar ar n st st N permute ins outs f f P bi bo bi bi M0 M0 scaled ro flag G) as (Mo & Mi & E1 & E2 & H); auto.
  { left; reflexivity. }
  exists Mo, Mi. split; [exact E1|]. split; [exact E2|]. split; [exact H|].
  intros Hne r Hrn. pose proof (exec_all_to n _ _ _ _ E1 (call_runs O cexp rnorm ar n st N permute ins outs f P bi bo M0 scaled ro flag G Hr HP Hbi Hbo Pl Hro Hx) r Hrn) as (_ & _ & K & _).
  apply K; assumption.
Qed.

(** C30 *)
Lemma ro_val N permute ins outs f P scaled flag G r p :
  call_val O rnorm N permute ins outs f P scaled true flag G r p = G p.
Proof.
  unfold call_val, finish. cbn [negb]. rewrite andb_false_r. cbn [andb]. destruct (fwdpath f flag); reflexivity.
Qed.

Lemma C30_compute_proof ar n st N permute ins outs f P bi bo (M0 : nat -> @rmem F) scaled flag G :
  ready3 ar n st N permute ins outs f -> setup_ffts3 cexp N = Some P -> isdata bi -> isdata bo ->
  place3 f flag bi bo -> room3 f flag bo M0 ->
  (forall r, (r < n)%nat -> holds3 2 (src_perm permute f flag) (src_lay ins outs f flag r) (fld G) (getb bi (M0 r))) ->
  exec_all n (compute3 O rnorm f P scaled true flag bi bo) M0
    (fun r m => holds3 2 (dst_perm permute f flag) (dst_lay ins outs f flag r) (fld G) (getb bo m) /\
                framed M0 bo (fun r => 2 * f_fftsize f r) r m).
Proof.
  intros Hr HP Hbi Hbo Hpl Hro Hx. destruct (call_runs O cexp rnorm ar n st N permute ins outs f P bi bo M0 scaled true flag G Hr HP Hbi Hbo Hpl Hro Hx) as (M' & H1 & H2).
  exists M'. split; [|exact H2]. intros r Hrn. destruct (H1 r Hrn) as (K1 & K2). split; [|exact K2].
  eapply holds3_ext; [|exact K1]. intros p q _ _. apply fld_ext, ro_val.
Qed.
End Any.

Section AnyData.
Context {A : Type}.

Lemma remaps_good ar n st N permute ins outs f bi bo (M0 : nat -> @rmem A) flag g :
  ready3 ar n st N permute ins outs f -> isdata bi -> isdata bo ->
  bi = bo \/ (if fwdpath f flag then f_pre f = true else f_post f = true) -> room3 f flag bo M0 ->
  good n (st3 f bo M0 bi (src_perm permute f flag) (src_lay ins outs f flag) g) (pieces_only_remaps3 f flag bi bo)
    (st3 f bo M0 bo (dst_perm permute f flag) (dst_lay ins outs f flag) g).
Proof.
  intros Hr Hbi Hbo Hg (Ha & Hm). pose proof (ready_facts _ _ _ _ _ _ _ _ Hr) as FA. destruct Hr as (_ & _ & HI & Hpk & Ti & To & Lo & _).
  unfold src_perm, src_lay, dst_perm, dst_lay. destruct (fwdpath f flag) eqn:E.
  - apply (only_remaps_fwd n st N permute ins outs f FA Ti To Hpk bi bo M0 Hbi Hbo Ha flag g E Hg).
  - apply (only_remaps_bwd n st N permute ins outs f FA Ti To Hpk bi bo M0 Hbi Hbo Ha flag g E Hg (Hm eq_refl)).
Qed.

Lemma C30_remaps_proof ar n st N permute ins outs f bi bo (M0 : nat -> @rmem A) flag g :
  ready3 ar n st N permute ins outs f -> isdata bi -> isdata bo ->
  bi = bo \/ (if fwdpath f flag then f_pre f = true else f_post f = true) -> room3 f flag bo M0 ->
  (forall r, (r < n)%nat -> holds3 2 (src_perm permute f flag) (src_lay ins outs f flag r) g (getb bi (M0 r))) ->
  exec_all n (only_remaps3 f flag bi bo) M0
    (fun r m => holds3 2 (dst_perm permute f flag) (dst_lay ins outs f flag r) g (getb bo m) /\
                framed M0 bo (fun r => 2 * f_fftsize f r) r m).
Proof.
  intros Hr Hbi Hbo Hpl Hro Hx. unfold only_remaps3. eapply good_exec; [apply (remaps_good ar n st N permute ins outs f bi bo M0 flag g); auto|].
  intros r Hrn. split; [apply Hx, Hrn|apply framed_refl].
Qed.

Lemma C30_identity_proof ar n st N permute ins outs f b (M0 : nat -> @rmem A) g :
  ready3 ar n st N permute ins outs f -> isdata b -> room3 f BACKWARD b M0 ->
  (forall r, (r < n)%nat -> holds3 2 0 (ins r) g (getb b (M0 r))) ->
  exec_all n (fun r => only_remaps3 f FORWARD b b r ++ only_remaps3 f BACKWARD b b r) M0
    (fun r m => holds3 2 0 (ins r) g (getb b m) /\ framed M0 b (fun r => 2 * f_fftsize f r) r m).
Proof.
  intros Hr Hb Hro Hx.
  assert (Gd : good n (st3 f b M0 b 0 ins g) (pieces_only_remaps3 f FORWARD b b ++ pieces_only_remaps3 f BACKWARD b b) (st3 f b M0 b 0 ins g)).
  { eapply good_app.
    - pose proof (remaps_good ar n st N permute ins outs f b b M0 FORWARD g Hr Hb Hb (or_introl eq_refl)) as H.
      destruct (forward_dirs permute ins outs f) as (E1 & E2 & E3 & E4). rewrite E1, E2, E3, E4 in H. apply H.
      split; [apply Hro|]. cbn. discriminate.
    - eapply good_conseq; [| |apply (remaps_good ar n st N permute ins outs f b b M0 BACKWARD g Hr Hb Hb (or_introl eq_refl) Hro)].
      + intros r m Hrn (K1 & K2). split; [|exact K2].
        destruct (src_out ar n st N permute ins outs f BACKWARD r Hr ltac:(discriminate) Hrn) as (E1 & E2 & E3 & E4). rewrite E1, E2. exact K1.
      + intros r m Hrn (K1 & K2). split; [|exact K2].
        destruct (src_out ar n st N permute ins outs f BACKWARD r Hr ltac:(discriminate) Hrn) as (E1 & E2 & E3 & E4). rewrite E3, E4 in K1. exact K1. }
  destruct (good_exec n _ _ _ M0 Gd) as (M' & H1 & H2).
  { intros r Hrn. split; [apply Hx, Hrn|apply framed_refl]. }
  exists M'. split; [exact H1|]. destruct H2 as (L & H2). exists L. unfold only_remaps3.
  assert (E : start n (fun r => together (pieces_only_remaps3 f FORWARD b b) r ++ together (pieces_only_remaps3 f BACKWARD b b) r) M0
    = start n (together (pieces_only_remaps3 f FORWARD b b ++ pieces_only_remaps3 f BACKWARD b b)) M0).
  { unfold start. f_equal. apply map_ext. intros r. unfold together. rewrite map_app, concat_app. reflexivity. }
  rewrite E. exact H2.
Qed.

Lemma C31_proof ar n st N permute ins outs f bi bo (M0 : nat -> @rmem A) flag which g :
  ready3 ar n st N permute ins outs f -> isdata bi -> isdata bo ->
  which = 1 \/ which = 2 \/ which = 3 \/ which = 4 ->
  bi = bo \/ (if which =? 1 then f_pre f = true else if which =? 4 then f_post f = true else st_exch st = 0) ->
  arrays_ok f bo M0 -> (fwdpath f flag = false -> which = 2 -> midfast_ok f M0) ->
  (forall r, (r < n)%nat -> holds3 2 (fst (stage_src permute ins outs f flag which)) (snd (stage_src permute ins outs f flag which) r) g (getb bi (M0 r))) ->
  exec_all n (only_one_remap3 f flag which bi bo) M0
    (fun r m => holds3 2 (fst (stage_dst permute ins outs f flag which)) (snd (stage_dst permute ins outs f flag which) r) g (getb bo m) /\
                framed M0 bo (fun r => 2 * f_fftsize f r) r m).
Proof.
  intros Hr Hbi Hbo Hw Hg Ha Hm Hx. pose proof (ready_facts _ _ _ _ _ _ _ _ Hr) as FA. destruct Hr as (_ & _ & HI & Hpk & Ti & To & Lo & _).
  unfold only_one_remap3. eapply good_exec; [apply (one_remap_good n st N permute ins outs f FA Ti To Hpk bi bo M0 Hbi Hbo Ha flag which g Hw Hg Hm)|].
  intros r Hrn. split; [apply Hx, Hrn|apply framed_refl].
Qed.
End AnyData.

(** ** C37, C38 *)
Record call3 := mkcall3 { ca_scaled : bool; ca_ro : bool; ca_flag : Z; ca_in : bsel; ca_out : bsel }.

Section Calls.
Context {F : Type} (O : sops F).
Variables (cexp : bool -> Z -> Z -> F * F) (rnorm : Z -> F).
Variables (ar : areas) (n : nat) (st : settings) (N : Z * Z * Z) (permute : Z) (ins outs : nat -> box3) (f : fft3) (P : @plans3 F).
Hypothesis Hr : ready3 ar n st N permute ins outs f.
Hypothesis HP : setup_ffts3 cexp N = Some P.

Definition call_code (c : call3) : nat -> list (@instr F) := compute3 O rnorm f P (ca_scaled c) (ca_ro c) (ca_flag c) (ca_in c) (ca_out c).
Definition call_ok (M0 : nat -> @rmem F) (c : call3) : Prop :=
  isdata (ca_in c) /\ isdata (ca_out c) /\ place3 f (ca_flag c) (ca_in c) (ca_out c) /\
  room3 f (ca_flag c) (ca_in c) M0 /\ room3 f (ca_flag c) (ca_out c) M0.

Lemma some_field (M : nat -> @rmem F) b perm lay : perm_ok3 perm -> tiling3 n N lay ->
  (forall r, (r < n)%nat -> 2 * vol3 (lay r) <= zlen (getb b (M r))) ->
  exists G, forall r, (r < n)%nat -> holds3 2 perm (lay r) (fld G) (getb b (M r)).
Proof.
  intros Hp Ht Hl. destruct (field3_exists (s0 O) n 2 (fun r => rotb3 perm (lay r)) (fun r => getb b (M r))) as (g & Hg).
  - apply rot_disjoint3; [exact Hp|apply Ht].
  - intros r Hrn. rewrite rot_vol3 by exact Hp. apply Hl, Hrn.
  - exists (fun p => (g (rotp3 perm p) 0, g (rotp3 perm p) 1)). intros r Hrn.
    apply (proj2 (holds_rot3 2 perm (lay r) _ _ Hp)). eapply holds3_ext; [|apply Hg, Hrn]. cbv beta. intros p q _ Hq.
    unfold fld. rewrite back_rot3 by exact Hp. assert (q = 0 \/ q = 1) as [-> | ->] by lia; reflexivity.
Qed.

Lemma src_ok flag : perm_ok3 (src_perm permute f flag) /\ tiling3 n N (src_lay ins outs f flag) /\ layout3 f (src_lay ins outs f flag).
Proof.
  pose proof (ready_facts _ _ _ _ _ _ _ _ Hr) as FA. pose proof Hr as (_ & _ & _ & _ & Ti & To & _).
  unfold src_perm, src_lay. destruct (fwdpath f flag).
  - split; [left; reflexivity|]. split; [exact Ti|]. eapply L_in; eassumption.
  - split; [apply (F_perm _ _ _ _ _ _ _ FA)|]. split; [exact To|]. eapply L_out; eassumption.
Qed.

Lemma call_field (M : nat -> @rmem F) c : call_ok M c ->
  exists G, forall r, (r < n)%nat -> holds3 2 (src_perm permute f (ca_flag c)) (src_lay ins outs f (ca_flag c) r) (fld G) (getb (ca_in c) (M r)).
Proof.
  intros (Hi & _ & _ & (Ha & _) & _). destruct (src_ok (ca_flag c)) as (S1 & S2 & S3). apply some_field; auto.
  intros r Hrn. pose proof (layout_fftsize _ _ _ _ _ _ _ (ready_facts _ _ _ _ _ _ _ _ Hr) _ r S3 Hrn).
  destruct (Ha r) as (K & _); [rewrite (en n st N permute ins outs f (ready_facts _ _ _ _ _ _ _ _ Hr)); exact Hrn|]. lia.
Qed.

Lemma lens_ok (M M' : nat -> @rmem F) c : (forall r b, (r < n)%nat -> zlen (getb b (M' r)) = zlen (getb b (M r))) -> call_ok M c -> call_ok M' c.
Proof.
  intros HL (H1 & H2 & H3 & H4 & H5). pose proof (en n st N permute ins outs f (ready_facts _ _ _ _ _ _ _ _ Hr)) as En.
  assert (R : forall b, room3 f (ca_flag c) b M -> room3 f (ca_flag c) b M').
  { intros b (Ha & Hm). split.
    - intros r Hrn. rewrite En in Hrn. specialize (Ha r). rewrite En in Ha. specialize (Ha Hrn). rewrite (HL r b Hrn).
      pose proof (HL r BSend Hrn) as E1. pose proof (HL r BRecv Hrn) as E2. cbn in E1, E2. rewrite E1, E2. exact Ha.
    - intros E q m Hq Hsn r pl Hrn Hs. rewrite En in *. specialize (Hm E q m Hq Hsn r pl). rewrite En in Hm. specialize (Hm Hrn Hs).
      pose proof (HL r BSend Hrn) as E1. pose proof (HL r BRecv Hrn) as E2. cbn in E1, E2. rewrite E1, E2. exact Hm. }
  split; [exact H1|]. split; [exact H2|]. split; [exact H3|]. split; apply R; assumption.
Qed.

Lemma call_total (M : nat -> @rmem F) c : call_ok M c ->
  exists M', one_by_one n (pieces_compute3 O rnorm f P (ca_scaled c) (ca_ro c) (ca_flag c) (ca_in c) (ca_out c)) M M' /\
    exec_to n (call_code c) M M' /\ (forall r b, (r < n)%nat -> zlen (getb b (M' r)) = zlen (getb b (M r))).
Proof.
  intros Hc. destruct (call_field M c Hc) as (G & HG). destruct Hc as (H1 & H2 & H3 & H4 & H5).
  destruct (good_lockstep n _ _ _ M (call_good O cexp rnorm ar n st N permute ins outs f P (ca_in c) (ca_out c) M (ca_scaled c) (ca_ro c) (ca_flag c) G Hr HP H1 H2 H3 H5)) as (M' & K1 & K2 & K3).
  { intros r Hrn. split; [apply HG, Hrn|apply framed_refl]. }
  exists M'. split; [exact K2|]. split; [exact K3|]. intros r b Hrn. apply (K1 r Hrn).
Qed.

Lemma call_wf c M : call_ok M c -> wf_code n (call_code c).
Proof.
  intros Hc. destruct (call_field M c Hc) as (G & HG). destruct Hc as (H1 & H2 & H3 & H4 & H5). apply together_wf.
  apply (call_good O cexp rnorm ar n st N permute ins outs f P (ca_in c) (ca_out c) M (ca_scaled c) (ca_ro c) (ca_flag c) G Hr HP H1 H2 H3 H5).
Qed.

Lemma calls_run calls : forall M : nat -> @rmem F, Forall (call_ok M) calls ->
  exists M', one_by_one n (map call_code calls) M M' /\ (forall r b, (r < n)%nat -> zlen (getb b (M' r)) = zlen (getb b (M r))).
Proof.
  induction calls as [|c cs IH]; intros M Hok.
  - exists M. split; [constructor|reflexivity].
  - inversion Hok as [|c' cs' Hc Hcs]; subst. destruct (call_total M c Hc) as (M1 & _ & E1 & L1).
    destruct (IH M1) as (M2 & E2 & L2). { eapply Forall_impl; [|exact Hcs]. intros a Ha. eapply lens_ok; [exact L1|exact Ha]. }
    exists M2. split; [econstructor; eassumption|]. intros r b Hrn. rewrite (L2 r b Hrn). apply L1, Hrn.
Qed.

(** results of the same call on two memories with the same input data *)
Lemma call_same (M M' : nat -> @rmem F) c : call_ok M c -> call_ok M' c ->
  (forall r p q, (r < n)%nat -> inb3 p (src_lay ins outs f (ca_flag c) r) -> 0 <= q < 2 ->
     zget (getb (ca_in c) (M' r)) (cell3 2 (src_perm permute f (ca_flag c)) (src_lay ins outs f (ca_flag c) r) p q) =
     zget (getb (ca_in c) (M r)) (cell3 2 (src_perm permute f (ca_flag c)) (src_lay ins outs f (ca_flag c) r) p q)) ->
  exists M1 M1', exec_to n (call_code c) M M1 /\ exec_to n (call_code c) M' M1' /\
    forall r p q, (r < n)%nat -> inb3 p (dst_lay ins outs f (ca_flag c) r) -> 0 <= q < 2 ->
      exists v, zget (getb (ca_out c) (M1 r)) (cell3 2 (dst_perm permute f (ca_flag c)) (dst_lay ins outs f (ca_flag c) r) p q) = Some v /\
        zget (getb (ca_out c) (M1' r)) (cell3 2 (dst_perm permute f (ca_flag c)) (dst_lay ins outs f (ca_flag c) r) p q) = Some v.
Proof.
  intros Hc Hc' Hs. destruct (call_field M c Hc) as (G & HG). destruct Hc as (H1 & H2 & H3 & H4 & H5). destruct Hc' as (_ & _ & _ & _ & K5).
  apply (call_agree O cexp rnorm ar ar n st st N permute ins outs f f P (ca_in c) (ca_out c) (ca_in c) (ca_out c) M M' (ca_scaled c) (ca_ro c) (ca_flag c) G); auto.
  intros r Hrn p q Hp Hq. rewrite (Hs r p q Hrn Hp Hq). apply HG; assumption.
Qed.

Lemma obo_split c1 c2 (M M2 : nat -> @rmem F) : one_by_one n (c1 ++ c2) M M2 -> exists M1, one_by_one n c1 M M1 /\ one_by_one n c2 M1 M2.
Proof.
  revert M. induction c1 as [|c cs IH]; cbn; intros M H.
  - exists M. split; [constructor|exact H].
  - inversion H as [|? ? ? Ma ? E H']; subst. destruct (IH Ma H') as (M1 & A & B). exists M1. split; [econstructor; eassumption|exact B].
Qed.

Lemma exec_to_fun code (M A B : nat -> @rmem F) : exec_to n code M A -> (forall r, (r < n)%nat -> A r = B r) -> exec_to n code M B.
Proof.
  intros (L & H) E. exists L. intros eager labels s Hrun. destruct (H eager labels s Hrun) as (H1 & H2). split; [exact H1|].
  destruct H2 as [H2|(H2 & H3 & H4 & H5)]; [left; exact H2|]. right. split; [exact H2|]. split; [exact H3|]. split; [exact H4|].
  rewrite H5. apply map_ext_in. intros r Hin. apply E. apply in_seq in Hin. lia.
Qed.
Lemma exec_to_from code (A B M : nat -> @rmem F) : exec_to n code A M -> (forall r, (r < n)%nat -> A r = B r) -> exec_to n code B M.
Proof.
  intros (L & H) E. exists L. assert (Es : start n code B = start n code A).
  { unfold start. f_equal. apply map_ext_in. intros r Hin. symmetry. apply E. apply in_seq in Hin. lia. }
  rewrite Es. exact H.
Qed.

Lemma C37_proof calls (M0 : nat -> @rmem F) : Forall (call_ok M0) calls ->
  (exists M', exec_to n (together (map call_code calls)) M0 M') /\
  forall pre c post M1, calls = pre ++ c :: post -> exec_to n (together (map call_code pre)) M0 M1 ->
    exists M2, exec_to n (call_code c) M1 M2 /\ exec_to n (together (map call_code (pre ++ [c]))) M0 M2 /\
    forall Mf, call_ok Mf c ->
      (forall r p q, (r < n)%nat -> inb3 p (src_lay ins outs f (ca_flag c) r) -> 0 <= q < 2 ->
         zget (getb (ca_in c) (Mf r)) (cell3 2 (src_perm permute f (ca_flag c)) (src_lay ins outs f (ca_flag c) r) p q) =
         zget (getb (ca_in c) (M1 r)) (cell3 2 (src_perm permute f (ca_flag c)) (src_lay ins outs f (ca_flag c) r) p q)) ->
      exists Mf2, exec_to n (call_code c) Mf Mf2 /\
        forall r p q, (r < n)%nat -> inb3 p (dst_lay ins outs f (ca_flag c) r) -> 0 <= q < 2 ->
          exists v, zget (getb (ca_out c) (M2 r)) (cell3 2 (dst_perm permute f (ca_flag c)) (dst_lay ins outs f (ca_flag c) r) p q) = Some v /\
            zget (getb (ca_out c) (Mf2 r)) (cell3 2 (dst_perm permute f (ca_flag c)) (dst_lay ins outs f (ca_flag c) r) p q) = Some v.
Proof.
  intros Hok.
  assert (Wf : forall cs, Forall (call_ok M0) cs -> Forall (wf_code n) (map call_code cs)).
  { intros cs H. apply Forall_map. eapply Forall_impl; [|exact H]. intros c Hc. eapply call_wf; exact Hc. }
  split.
  - destruct (calls_run calls M0 Hok) as (M' & E & _). exists M'. apply one_by_one_together; [apply Wf, Hok|exact E].
  - intros pre c post M1 Hsp E1. subst calls. apply Forall_app in Hok as (Hpre & Hrest). inversion Hrest as [|? ? Hc Hpost]; subst.
    destruct (calls_run pre M0 Hpre) as (M1' & B1 & L1).
    pose proof (one_by_one_together n _ _ _ (Wf pre Hpre) B1) as E1'.
    pose proof (exec_to_ext n _ _ _ _ E1' E1) as Eq.
    assert (L1' : forall r b, (r < n)%nat -> zlen (getb b (M1 r)) = zlen (getb b (M0 r))).
    { intros r b Hrn. rewrite <- (Eq r Hrn). apply L1, Hrn. }
    pose proof (lens_ok M0 M1 c L1' Hc) as Hc1.
    destruct (call_total M1 c Hc1) as (M2 & _ & E2 & _). exists M2. split; [exact E2|]. split.
    + rewrite map_app. apply one_by_one_together.
      * apply Forall_app. split; [apply Wf, Hpre|]. constructor; [eapply call_wf; exact Hc|constructor].
      * eapply obo_app; [exact B1|]. econstructor; [|constructor]. eapply exec_to_from; [exact E2|]. intros r Hrn. symmetry. apply Eq, Hrn.
    + intros Mf Hf Hs. destruct (call_same M1 Mf c Hc1 Hf Hs) as (Ma & Mb & Ea & Eb & K). exists Mb. split; [exact Eb|].
      intros r p q Hrn Hp Hq. rewrite <- (exec_to_ext n _ _ _ _ Ea E2 r Hrn). apply K; assumption.
Qed.

Lemma C38_proof (M0 : nat -> @rmem F) c : call_ok M0 c ->
  exists L M', one_by_one n (pieces_compute3 O rnorm f P (ca_scaled c) (ca_ro c) (ca_flag c) (ca_in c) (ca_out c)) M0 M' /\
    forall eager labels s, run n eager (start n (call_code c) M0) labels s ->
      (forall a, step n eager a s <> Bad) /\
      (((length labels < L)%nat /\ exists a s', step n eager a s = Ok s') \/
       (length labels = L /\ all_done s /\ s_ch s = empty_chans n /\ mems_of s = map M' (seq 0 n))).
Proof.
  intros Hc. destruct (call_total M0 c Hc) as (M' & K1 & (L & K2) & _). exists L, M'. split; [exact K1|exact K2].
Qed.
End Calls.
