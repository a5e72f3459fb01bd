(** BitsEx.v : two jobs that transform the same data back and get different doubles (C79), and plans meeting the hypotheses of C79. *)

From Coq Require Import Reals Floats.SpecFloat.
From Verif Require Import Base Spec Pack3d Pack2d Sched SchedProofs Phases Exec Remap RemapMain RemapInst
  Remap3d Remap2d RemapThms RemapTop ExRemap Layout LayoutProofs Setup3d Setup3dProofs Setup2d Setup2dProofs LayoutFinal
  Kiss KissPure KissAlg KissReal Fft1d KissFinal Binary
  Fft3d Frame Fft3dProofs Fft3dMain DftMulti Fft3dTop Fft3dFinal Fft3dStmt Fft3dEx Fft2d Fft2dMain Fft2dTop Fft2dFinal Fft2dStmt Fft2dEx Bits.
Local Open Scope Z_scope.

Lemma one3_tiling : tiling3 1 g2 whole3.
Proof.
  split; [|split].
  - intros [[i j] k] [|r] Hr; cbn; lia.
  - intros [[i j] k] [|r] [|r'] Hr Hr'; cbn; lia.
  - intros [[i j] k] H. exists 0%nat. cbn in *. lia.
Qed.
Lemma one2_tiling : tiling2 1 sq2 whole2.
Proof.
  split; [|split].
  - intros [i j] [|r] Hr; cbn; lia.
  - intros [i j] [|r] [|r'] Hr Hr'; cbn; lia.
  - intros [i j] H. exists 0%nat. cbn in *. lia.
Qed.

Lemma room_n3 {A} (mk : Z -> A) G n st permute ins outs f perm lay b : ready3 exact_areas n st g2 permute ins outs f -> layout3 f lay -> isdata b ->
  arrays_ok f b (exMem mk G f perm lay).
Proof.
  intros Hr Hl Hb r Hrn. pose proof (ready_facts _ _ _ _ _ _ _ _ Hr) as FA.
  rewrite (F_n _ _ _ _ _ _ _ FA) in Hrn.
  assert (0 <= f_sendsize f r /\ 0 <= f_recvsize f r).
  { rewrite (F_sendsize _ _ _ _ _ _ _ FA), (F_recvsize _ _ _ _ _ _ _ FA). split; apply maxsizes_nonneg. }
  pose proof (layout_fftsize _ _ _ _ _ _ _ FA lay r Hl Hrn) as Hv.
  assert (0 <= vol3 (lay r)) by (unfold vol3; nia).
  assert (Ez : zlen (fillA (mk (-1)) 2 perm (lay r) (fld G)) = 2 * vol3 (lay r)) by (unfold fillA; rewrite zlen_map, zlen_zrange; lia).
  unfold exMem. cbn [m_send m_recv]. rewrite !zlen_mark by lia. split; [|lia].
  destruct Hb as [-> | ->]; cbn [getb m_in m_out].
  - rewrite zlen_app, Ez, zlen_mark by lia. lia.
  - rewrite zlen_mark by lia. lia.
Qed.
Lemma room_n2 {A} (mk : Z -> A) G n st permute ins outs f perm lay b : ready2 8 exact_areas n st sq2 permute ins outs f -> layout2 f lay -> isdata b ->
  arrays_ok2 f b (exMem_2 mk G f perm lay).
Proof.
  intros Hr Hl Hb r Hrn. pose proof (ready_facts2 _ _ _ _ _ _ _ _ _ Hr) as FA.
  rewrite (T_n _ _ _ _ _ _ _ FA) in Hrn.
  assert (0 <= t_sendsize f r /\ 0 <= t_recvsize f r).
  { rewrite (T_sendsize _ _ _ _ _ _ _ FA), (T_recvsize _ _ _ _ _ _ _ FA). split; apply maxsizes_nonneg_2. }
  pose proof (layout_fftsize2 _ _ _ _ _ _ _ FA lay r Hl Hrn) as Hv.
  assert (0 <= vol2 (lay r)) by (unfold vol2; nia).
  assert (Ez : zlen (fillA_2 (mk (-1)) 2 perm (lay r) (fld G)) = 2 * vol2 (lay r)) by (unfold fillA_2; rewrite zlen_map, zlen_zrange; lia).
  unfold exMem_2. cbn [m_send m_recv]. rewrite !zlen_mark by lia. split; [|lia].
  destruct Hb as [-> | ->]; cbn [getb m_in m_out].
  - rewrite zlen_app, Ez, zlen_mark by lia. lia.
  - rewrite zlen_mark by lia. lia.
Qed.

(** 1 on one process with one layout; 2 on two processes with different layouts *)
Lemma plan_one3 permute : permute = 0 \/ permute = 1 \/ permute = 2 -> exists f, ready3 exact_areas 1 (mkset 2 0 2) g2 permute whole3 whole3 f.
Proof.
  intros Hp. assert (H : match setup3d exact_areas 1 (mkset 2 0 2) g2 permute whole3 whole3 with SOk _ => true | _ => false end = true).
  { destruct Hp as [-> |[-> | ->]]; vm_compute; reflexivity. }
  destruct (setup3d exact_areas 1 (mkset 2 0 2) g2 permute whole3 whole3) as [| |f] eqn:Es; try discriminate. exists f.
  split; [exact exact_laws|]. split; [lia|]. split; [unfold ints3, g2, INT_MAX; lia|]. split; [right; right; reflexivity|].
  split; [exact one3_tiling|]. split; [exact one3_tiling|]. split; [|exact Es].
  intros [|r] H1; try lia; unfold legal3, ni, nj, nk; cbn; lia.
Qed.
Lemma plan_two3 c permute : 0 <= c <= 2 -> permute = 0 \/ permute = 1 \/ permute = 2 -> exists f, ready3 exact_areas 2 (mkset c 0 (2 - c)) g2 permute split3 isplit3 f.
Proof.
  intros Hc Hp. assert (H : match exSetup (mkset c 0 (2 - c)) permute split3 isplit3 with SOk _ => true | _ => false end = true).
  { assert (c = 0 \/ c = 1 \/ c = 2) as [-> |[-> | ->]] by lia; destruct Hp as [-> |[-> | ->]]; vm_compute; reflexivity. }
  destruct (exSetup (mkset c 0 (2 - c)) permute split3 isplit3) as [| |f] eqn:Es; try discriminate. exists f.
  apply ex_ready; [|apply tile_split|apply tile_isplit|exact Es]. unfold flag_ok. cbn [st_pack]. lia.
Qed.
Lemma plan_one2 permute : permute = 0 \/ permute = 1 -> exists f, ready2 8 exact_areas 1 (mkset 2 0 2) sq2 permute whole2 whole2 f.
Proof.
  intros Hp. assert (H : match setup2d exact_areas 1 (mkset 2 0 2) sq2 permute whole2 whole2 with SOk _ => true | _ => false end = true).
  { destruct Hp as [-> | ->]; vm_compute; reflexivity. }
  destruct (setup2d exact_areas 1 (mkset 2 0 2) sq2 permute whole2 whole2) as [| |f] eqn:Es; try discriminate. exists f.
  split; [exact exact_laws|]. split; [lia|]. split; [unfold ints2, sq2, INT_MAX; lia|]. split; [right; right; reflexivity|]. split; [left; reflexivity|].
  split; [exact one2_tiling|]. split; [exact one2_tiling|]. split; [|exact Es].
  intros [|r] H1; try lia; unfold legal2, ni2, nj2; cbn; lia.
Qed.
Lemma plan_two2 c permute : 0 <= c <= 2 -> permute = 0 \/ permute = 1 -> exists f, ready2 8 exact_areas 2 (mkset c 0 (2 - c)) sq2 permute split2 isplit2 f.
Proof.
  intros Hc Hp. assert (H : match exSetup_2 (mkset c 0 (2 - c)) permute split2 isplit2 with SOk _ => true | _ => false end = true).
  { assert (c = 0 \/ c = 1 \/ c = 2) as [-> |[-> | ->]] by lia; destruct Hp as [-> | ->]; vm_compute; reflexivity. }
  destruct (exSetup_2 (mkset c 0 (2 - c)) permute split2 isplit2) as [| |f] eqn:Es; try discriminate. exists f.
  apply ex_ready_2; [|apply tile_split_2|apply tile_isplit_2|exact Es]. unfold flag_ok. cbn [st_pack]. lia.
Qed.

(** the doubles 1, -1, 2^-60 and 0 *)
Definition bit1 : spec_float := SFone 53.
Definition bitm1 : spec_float := SFopp bit1.
Definition tiny : spec_float := S754_finite false 4503599627370496 (-112).
Definition bit0 : spec_float := S754_zero false.
Definition bitG (p : pt3) : spec_float * spec_float :=
  let '(i, j, k) := p in
  (if j =? 0 then if k =? 0 then if i =? 0 then bit1 else bitm1 else if i =? 0 then tiny else bit0 else bit0, bit0).
Definition bitG2 (p : pt2) : spec_float * spec_float :=
  let '(i, j) := p in (if j =? 0 then if i =? 0 then bit1 else bitm1 else if i =? 0 then tiny else bit0, bit0).

Lemma same_true3 ar st f : ready3 ar 1 st g2 0 whole3 whole3 f -> f_same f = true.
Proof. intros Hr. apply (F_same _ _ _ _ _ _ _ (ready_facts _ _ _ _ _ _ _ _ Hr)). auto. Qed.
Lemma same_false3 ar st f : ready3 ar 2 st g2 0 split3 isplit3 f -> f_same f = false.
Proof.
  intros Hr. destruct (f_same f) eqn:E; [|reflexivity]. apply (F_same _ _ _ _ _ _ _ (ready_facts _ _ _ _ _ _ _ _ Hr)) in E as (_ & E).
  specialize (E 0%nat ltac:(lia)). discriminate E.
Qed.
Lemma same_true2 ar st f : ready2 8 ar 1 st sq2 0 whole2 whole2 f -> t_same f = true.
Proof. intros Hr. apply (T_same _ _ _ _ _ _ _ (ready_facts2 _ _ _ _ _ _ _ _ _ Hr)). auto. Qed.
Lemma same_false2 ar st f : ready2 8 ar 2 st sq2 0 split2 isplit2 f -> t_same f = false.
Proof.
  intros Hr. destruct (t_same f) eqn:E; [|reflexivity]. apply (T_same _ _ _ _ _ _ _ (ready_facts2 _ _ _ _ _ _ _ _ _ Hr)) in E as (_ & E).
  specialize (E 0%nat ltac:(lia)). discriminate E.
Qed.

Definition dmark (v : Z) : spec_float := SFofZ 53 1024 v.

Lemma bit_values3 cexp : cexp true 0 2 = (bit1, bit0) -> exists P, setup_ffts3 cexp g2 = Some P /\
  fst (fwd_val (SFops 53 1024) P false BACKWARD bitG (0, 0, 0)) = tiny /\ fst (bwd_val (SFops 53 1024) P false BACKWARD bitG (0, 0, 0)) = bit0.
Proof.
  intros H. destruct (setup_ffts3 cexp g2) as [P|] eqn:E; vm_compute in E; [|discriminate]. exists P. split; [reflexivity|].
  rewrite H in E. injection E as <-. split; vm_compute; reflexivity.
Qed.
Lemma bit_values2 cexp : cexp true 0 2 = (bit1, bit0) -> exists P, setup_ffts2 cexp sq2 = Some P /\
  fst (fwd_val2 (SFops 53 1024) P false BACKWARD bitG2 (0, 0)) = tiny /\ fst (bwd_val2 (SFops 53 1024) P false BACKWARD bitG2 (0, 0)) = bit0.
Proof.
  intros H. destruct (setup_ffts2 cexp sq2) as [P|] eqn:E; vm_compute in E; [|discriminate]. exists P. split; [reflexivity|].
  rewrite H in E. injection E as <-. split; vm_compute; reflexivity.
Qed.

Lemma bits_3d_refuted : forall cexp, cexp true 0 2 = (bit1, bit0) -> exists f f' P (G : pt3 -> spec_float * spec_float) M0 M0' v v',
  ready3 exact_areas 1 (mkset 2 0 2) g2 0 whole3 whole3 f /\ ready3 exact_areas 2 (mkset 2 0 0) g2 0 split3 isplit3 f' /\ setup_ffts3 cexp g2 = Some P /\
  Fft3dTop.room3 f BACKWARD BIn M0 /\ Fft3dTop.room3 f' BACKWARD BIn M0' /\
  holds3 2 0 (whole3 0%nat) (fld G) (getb BIn (M0 0%nat)) /\
  (forall r, (r < 2)%nat -> holds3 2 0 (isplit3 r) (fld G) (getb BIn (M0' r))) /\
  inb3 (0, 0, 0) (whole3 0%nat) /\ inb3 (0, 0, 0) (split3 0%nat) /\
  exec_all 1 (compute3 (SFops 53 1024) normD f P false false BACKWARD BIn BIn) M0
    (fun r m => r = 0%nat -> zget (getb BIn m) (cell3 2 0 (whole3 0%nat) (0, 0, 0) 0) = Some v) /\
  exec_all 2 (compute3 (SFops 53 1024) normD f' P false false BACKWARD BIn BIn) M0'
    (fun r m => r = 0%nat -> zget (getb BIn m) (cell3 2 0 (split3 0%nat) (0, 0, 0) 0) = Some v') /\
  v <> v'.
Proof.
  intros cexp Hc. destruct (bit_values3 cexp Hc) as (P & HP & V1 & V2).
  destruct (plan_one3 0 (or_introl eq_refl)) as (f & Hf). destruct (plan_two3 2 0 ltac:(lia) (or_introl eq_refl)) as (f' & Hf'). change (2 - 2) with 0 in Hf'.
  assert (Di : isdata BIn) by (left; reflexivity).
  pose proof (L_out _ _ _ _ _ _ _ (ready_facts _ _ _ _ _ _ _ _ Hf)) as L1. pose proof (L_out _ _ _ _ _ _ _ (ready_facts _ _ _ _ _ _ _ _ Hf')) as L2.
  assert (R1 : Fft3dTop.room3 f BACKWARD BIn (exMem dmark bitG f 0 whole3)).
  { split; [eapply room_n3; eauto|]. intros _. eapply midfast_auto; [exact Hf|reflexivity]. }
  assert (R2 : Fft3dTop.room3 f' BACKWARD BIn (exMem dmark bitG f' 0 isplit3)).
  { split; [eapply room_n3; eauto|]. intros _. eapply midfast_auto; [exact Hf'|reflexivity]. }
  exists f, f', P, bitG, (exMem dmark bitG f 0 whole3), (exMem dmark bitG f' 0 isplit3), tiny, bit0.
  split; [exact Hf|]. split; [exact Hf'|]. split; [exact HP|]. split; [exact R1|]. split; [exact R2|].
  split; [apply ex_holds|]. split; [intros r _; apply ex_holds|]. split; [cbn; lia|]. split; [cbn; lia|]. split; [|split; [|discriminate]].
  - destruct (call_runs (SFops 53 1024) cexp normD _ 1 _ g2 0 whole3 whole3 f P BIn BIn _ false false BACKWARD bitG Hf HP Di Di (or_introl eq_refl) R1) as (M & HM & EM).
    { apply (src_holds _ _ _ _ _ _ _ _ BACKWARD _ _ _ Hf). intros r _. apply ex_holds. }
    exists M. split; [|exact EM]. intros r Hr ->. destruct (HM 0%nat Hr) as (A & _).
    destruct (dirs _ _ _ _ _ _ _ _ BACKWARD 0%nat Hf Hr) as (_ & _ & E3 & E4). rewrite E3, E4 in A.
    change (to_perm 0 BACKWARD) with 0 in A. change (to_lay whole3 whole3 BACKWARD 0%nat) with (whole3 0%nat) in A.
    rewrite (A (0, 0, 0) 0); [|cbn; lia|lia]. apply f_equal. rewrite <- V1. unfold call_val, fwdpath. rewrite (same_true3 _ _ _ Hf). reflexivity.
  - destruct (call_runs (SFops 53 1024) cexp normD _ 2 _ g2 0 split3 isplit3 f' P BIn BIn _ false false BACKWARD bitG Hf' HP Di Di (or_introl eq_refl) R2) as (M & HM & EM).
    { apply (src_holds _ _ _ _ _ _ _ _ BACKWARD _ _ _ Hf'). intros r _. apply ex_holds. }
    exists M. split; [|exact EM]. intros r Hr ->. destruct (HM 0%nat Hr) as (A & _).
    destruct (dirs _ _ _ _ _ _ _ _ BACKWARD 0%nat Hf' Hr) as (_ & _ & E3 & E4). rewrite E3, E4 in A.
    change (to_perm 0 BACKWARD) with 0 in A. change (to_lay split3 isplit3 BACKWARD 0%nat) with (split3 0%nat) in A.
    rewrite (A (0, 0, 0) 0); [|cbn; lia|lia]. apply f_equal. rewrite <- V2. unfold call_val, fwdpath. rewrite (same_false3 _ _ _ Hf'). reflexivity.
Qed.

Lemma bits_2d_refuted : forall cexp, cexp true 0 2 = (bit1, bit0) -> exists f f' P (G : pt2 -> spec_float * spec_float) M0 M0' v v',
  ready2 8 exact_areas 1 (mkset 2 0 2) sq2 0 whole2 whole2 f /\ ready2 8 exact_areas 2 (mkset 2 0 0) sq2 0 split2 isplit2 f' /\ setup_ffts2 cexp sq2 = Some P /\
  arrays_ok2 f BIn M0 /\ arrays_ok2 f' BIn M0' /\
  holds2 2 0 (whole2 0%nat) (fld G) (getb BIn (M0 0%nat)) /\
  (forall r, (r < 2)%nat -> holds2 2 0 (isplit2 r) (fld G) (getb BIn (M0' r))) /\
  inb2 (0, 0) (whole2 0%nat) /\ inb2 (0, 0) (split2 0%nat) /\
  exec_all 1 (compute2 (SFops 53 1024) normD 8 f P false false BACKWARD BIn BIn) M0
    (fun r m => r = 0%nat -> zget (getb BIn m) (cell2 2 0 (whole2 0%nat) (0, 0) 0) = Some v) /\
  exec_all 2 (compute2 (SFops 53 1024) normD 8 f' P false false BACKWARD BIn BIn) M0'
    (fun r m => r = 0%nat -> zget (getb BIn m) (cell2 2 0 (split2 0%nat) (0, 0) 0) = Some v') /\
  v <> v'.
Proof.
  intros cexp Hc. destruct (bit_values2 cexp Hc) as (P & HP & V1 & V2).
  destruct (plan_one2 0 (or_introl eq_refl)) as (f & Hf). destruct (plan_two2 2 0 ltac:(lia) (or_introl eq_refl)) as (f' & Hf'). change (2 - 2) with 0 in Hf'.
  assert (Di : isdata BIn) by (left; reflexivity).
  pose proof (L_out2 _ _ _ _ _ _ _ (ready_facts2 _ _ _ _ _ _ _ _ _ Hf)) as L1. pose proof (L_out2 _ _ _ _ _ _ _ (ready_facts2 _ _ _ _ _ _ _ _ _ Hf')) as L2.
  assert (R1 : arrays_ok2 f BIn (exMem_2 dmark bitG2 f 0 whole2)) by (eapply room_n2; eauto).
  assert (R2 : arrays_ok2 f' BIn (exMem_2 dmark bitG2 f' 0 isplit2)) by (eapply room_n2; eauto).
  exists f, f', P, bitG2, (exMem_2 dmark bitG2 f 0 whole2), (exMem_2 dmark bitG2 f' 0 isplit2), tiny, bit0.
  split; [exact Hf|]. split; [exact Hf'|]. split; [exact HP|]. split; [exact R1|]. split; [exact R2|].
  split; [apply ex_holds_2|]. split; [intros r _; apply ex_holds_2|]. split; [cbn; lia|]. split; [cbn; lia|]. split; [|split; [|discriminate]].
  - destruct (call_runs2 (SFops 53 1024) cexp normD 8 _ 1 _ sq2 0 whole2 whole2 f P BIn BIn _ false false BACKWARD bitG2 Hf HP Di Di (or_introl eq_refl) R1) as (M & HM & EM).
    { apply (src_holds2 _ _ _ _ _ _ _ _ _ BACKWARD _ _ _ Hf). intros r _. apply ex_holds_2. }
    exists M. split; [|exact EM]. intros r Hr ->. destruct (HM 0%nat Hr) as (A & _).
    destruct (dirs2 _ _ _ _ _ _ _ _ _ BACKWARD 0%nat Hf Hr) as (_ & _ & E3 & E4). rewrite E3, E4 in A.
    change (to_perm 0 BACKWARD) with 0 in A. change (to_lay2 whole2 whole2 BACKWARD 0%nat) with (whole2 0%nat) in A.
    rewrite (A (0, 0) 0); [|cbn; lia|lia]. apply f_equal. rewrite <- V1. unfold call_val2, fwdpath2. rewrite (same_true2 _ _ _ Hf). reflexivity.
  - destruct (call_runs2 (SFops 53 1024) cexp normD 8 _ 2 _ sq2 0 split2 isplit2 f' P BIn BIn _ false false BACKWARD bitG2 Hf' HP Di Di (or_introl eq_refl) R2) as (M & HM & EM).
    { apply (src_holds2 _ _ _ _ _ _ _ _ _ BACKWARD _ _ _ Hf'). intros r _. apply ex_holds_2. }
    exists M. split; [|exact EM]. intros r Hr ->. destruct (HM 0%nat Hr) as (A & _).
    destruct (dirs2 _ _ _ _ _ _ _ _ _ BACKWARD 0%nat Hf' Hr) as (_ & _ & E3 & E4). rewrite E3, E4 in A.
    change (to_perm 0 BACKWARD) with 0 in A. change (to_lay2 split2 isplit2 BACKWARD 0%nat) with (split2 0%nat) in A.
    rewrite (A (0, 0) 0); [|cbn; lia|lia]. apply f_equal. rewrite <- V2. unfold call_val2, fwdpath2. rewrite (same_false2 _ _ _ Hf'). reflexivity.
Qed.

(** what kf_cexp gives: the C library's cosine and sine of zero *)
Lemma bit_twiddle cosd sind : cosd (S754_zero false) = bit1 -> sind (S754_zero false) = S754_zero false -> twiddleD cosd sind true 0 2 = (bit1, bit0).
Proof. intros A B. unfold twiddleD. replace (phaseD true 0 2) with (S754_zero false) by (vm_compute; reflexivity). rewrite A, B. reflexivity. Qed.

(** jobs of one and two processes holding the same grid *)
Lemma jobs3 (flag : Z) (A : Type) (mk : Z -> A) G permute c : permute = 0 \/ permute = 1 \/ permute = 2 -> 0 <= c <= 2 ->
  (exists f M0, ready3 exact_areas 1 (mkset 2 0 2) g2 permute whole3 whole3 f /\ place3 f flag BIn BIn /\ Fft3dTop.room3 f flag BIn M0 /\
    forall r, (r < 1)%nat -> @holds3 A 2 (from_perm permute flag) (from_lay whole3 whole3 flag r) (fld G) (getb BIn (M0 r))) /\
  (exists f M0, ready3 exact_areas 2 (mkset c 0 (2 - c)) g2 permute split3 isplit3 f /\ place3 f flag BIn BIn /\ Fft3dTop.room3 f flag BIn M0 /\
    forall r, (r < 2)%nat -> @holds3 A 2 (from_perm permute flag) (from_lay split3 isplit3 flag r) (fld G) (getb BIn (M0 r))).
Proof.
  intros Hp Hc. assert (Di : isdata BIn) by (left; reflexivity). split.
  - destruct (plan_one3 permute Hp) as (f & Hf). exists f, (exMem mk G f (from_perm permute flag) (from_lay whole3 whole3 flag)).
    pose proof (L_in _ _ _ _ _ _ _ (ready_facts _ _ _ _ _ _ _ _ Hf)) as L1. pose proof (L_out _ _ _ _ _ _ _ (ready_facts _ _ _ _ _ _ _ _ Hf)) as L2.
    split; [exact Hf|]. split; [left; reflexivity|]. split; [split; [|intros _; eapply midfast_auto; [exact Hf|reflexivity]]|intros r _; apply ex_holds].
    eapply room_n3; [exact Hf| |exact Di]. unfold from_lay. destruct (flag =? FORWARD); assumption.
  - destruct (plan_two3 c permute Hc Hp) as (f & Hf). exists f, (exMem mk G f (from_perm permute flag) (from_lay split3 isplit3 flag)).
    pose proof (L_in _ _ _ _ _ _ _ (ready_facts _ _ _ _ _ _ _ _ Hf)) as L1. pose proof (L_out _ _ _ _ _ _ _ (ready_facts _ _ _ _ _ _ _ _ Hf)) as L2.
    split; [exact Hf|]. split; [left; reflexivity|]. split; [split; [|intros _; eapply midfast_auto; [exact Hf|reflexivity]]|intros r _; apply ex_holds].
    eapply room_n3; [exact Hf| |exact Di]. unfold from_lay. destruct (flag =? FORWARD); assumption.
Qed.
Lemma jobs2 (flag : Z) (A : Type) (mk : Z -> A) G permute c : permute = 0 \/ permute = 1 -> 0 <= c <= 2 ->
  (exists f M0, ready2 8 exact_areas 1 (mkset 2 0 2) sq2 permute whole2 whole2 f /\ place2 f flag BIn BIn /\ arrays_ok2 f BIn M0 /\
    forall r, (r < 1)%nat -> @holds2 A 2 (from_perm permute flag) (from_lay2 whole2 whole2 flag r) (fld G) (getb BIn (M0 r))) /\
  (exists f M0, ready2 8 exact_areas 2 (mkset c 0 (2 - c)) sq2 permute split2 isplit2 f /\ place2 f flag BIn BIn /\ arrays_ok2 f BIn M0 /\
    forall r, (r < 2)%nat -> @holds2 A 2 (from_perm permute flag) (from_lay2 split2 isplit2 flag r) (fld G) (getb BIn (M0 r))).
Proof.
  intros Hp Hc. assert (Di : isdata BIn) by (left; reflexivity). split.
  - destruct (plan_one2 permute Hp) as (f & Hf). exists f, (exMem_2 mk G f (from_perm permute flag) (from_lay2 whole2 whole2 flag)).
    pose proof (L_in2 _ _ _ _ _ _ _ (ready_facts2 _ _ _ _ _ _ _ _ _ Hf)) as L1. pose proof (L_out2 _ _ _ _ _ _ _ (ready_facts2 _ _ _ _ _ _ _ _ _ Hf)) as L2.
    split; [exact Hf|]. split; [left; reflexivity|]. split; [|intros r _; apply ex_holds_2].
    eapply room_n2; [exact Hf| |exact Di]. unfold from_lay2. destruct (flag =? FORWARD); assumption.
  - destruct (plan_two2 c permute Hc Hp) as (f & Hf). exists f, (exMem_2 mk G f (from_perm permute flag) (from_lay2 split2 isplit2 flag)).
    pose proof (L_in2 _ _ _ _ _ _ _ (ready_facts2 _ _ _ _ _ _ _ _ _ Hf)) as L1. pose proof (L_out2 _ _ _ _ _ _ _ (ready_facts2 _ _ _ _ _ _ _ _ _ Hf)) as L2.
    split; [exact Hf|]. split; [left; reflexivity|]. split; [|intros r _; apply ex_holds_2].
    eapply room_n2; [exact Hf| |exact Di]. unfold from_lay2. destruct (flag =? FORWARD); assumption.
Qed.
Lemma unlike3 permute : permute <> 0 -> ~ alike 1 permute whole3 whole3 /\ ~ alike 2 permute split3 isplit3.
Proof. intros H. split; intros (E & _); contradiction. Qed.
