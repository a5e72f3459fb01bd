(** Extract.v : remaps and forward transforms to output boxes that need not tile the grid: they may overlap, or leave points out (C80). *)

From Coq Require Import Reals Lra.
From Verif Require Import Base Spec Pack3d Pack2d Sched SchedProofs Phases Exec Remap RemapMain RemapInst
  Remap3d Remap2d RemapThms RemapTop ExRemap Layout LayoutProofs Setup3d Setup3dProofs Setup2d Setup2dProofs LayoutFinal
  Kiss KissPure KissAlg KissReal Fft1d KissFinal
  Fft3d Frame Fft3dProofs Fft3dMain DftMulti Fft3dTop Fft3dFinal Fft3dStmt Fft2d Fft2dMain Fft2dTop Fft2dFinal Fft2dStmt.
Local Open Scope Z_scope.

(** *** vocabulary: a plan whose input boxes tile the grid; the output boxes, which setup() does not check
    (src/fft3d.cpp:257-273, src/fft2d.cpp:260-276), only lie inside it *)
Definition loose3 (ar : areas) (n : nat) (st : settings) (N : Z * Z * Z) (permute : Z) (ins outs : nat -> box3) (f : fft3) : Prop :=
  area_laws ar /\ (1 <= n)%nat /\ ints3 N /\ flag_ok (st_pack st) /\ tiling3 n N ins /\
  (forall p r, (r < n)%nat -> inb3 p (outs r) -> inb3 p (grid3 N)) /\
  (forall r, (r < n)%nat -> legal3 (outs r)) /\ setup3d ar n st N permute ins outs = SOk f.
Definition loose2 (esize : Z) (ar : areas) (n : nat) (st : settings) (N : Z * Z) (permute : Z) (ins outs : nat -> box2) (f : fft2) : Prop :=
  area_laws ar /\ (1 <= n)%nat /\ ints2 N /\ flag_ok (st_pack st) /\ (esize = 8 \/ st_pack st <> 2) /\ tiling2 n N ins /\
  (forall p r, (r < n)%nat -> inb2 p (outs r) -> inb2 p (grid2 N)) /\
  (forall r, (r < n)%nat -> legal2 (outs r)) /\ setup2d ar n st N permute ins outs = SOk f.

Lemma loose_facts ar n st N permute ins outs f : loose3 ar n st N permute ins outs f -> facts3 n st N permute ins outs f.
Proof. intros (A & B & C & _ & _ & _ & _ & E). eapply setup3d_facts; eassumption. Qed.
Lemma loose_facts2 esize ar n st N permute ins outs f : loose2 esize ar n st N permute ins outs f -> facts2 n st N permute ins outs f.
Proof. intros (A & B & C & _ & _ & _ & _ & _ & E). eapply setup2d_facts; eassumption. Qed.

(** the slow layout, where setup() makes it *)
Lemma slow_tiles3 ar n st N permute ins outs f : area_laws ar -> (1 <= n)%nat -> ints3 N ->
  setup3d ar n st N permute ins outs = SOk f -> f_post f = true -> tiling3 n N (f_slow f).
Proof.
  intros L Hn HI HS.
  destruct (setup3d_cases ar n st N permute ins outs L Hn HI) as [(msg & E & H)|(H1 & H2 & H3 & [(Hp & E)|(Hp & f' & gf & gm & gs & gb & E & Hg & H)])]; rewrite E in HS; try discriminate.
  injection HS as <-. cbv zeta in H.
  destruct H as (E1 & E2 & E3 & E4 & E5 & E6 & E7 & E8 & E9 & E10 & E11 & E12 & E13 & _).
  destruct N as [[x y] z]. pose proof H1 as ((X & SX) & (Y & SY) & (Z' & SZ)). destruct Hg as (_ & _ & Gs & _).
  destruct (slow_layout n x y z gs X Y Z' Gs) as (Ts & Ls & Ss).
  pose proof (postflag_spec n x y z permute outs (fun r => slow_box3 (x, y, z) gs (Z.of_nat r)) Hn Ss) as Hpost. cbv beta in Hpost.
  intros Hf. rewrite E10. rewrite E13 in Hf. destruct (slow_internal n (x, y, z) permute outs); [exact Ts|].
  rewrite (proj2 Hpost eq_refl) in Hf. discriminate.
Qed.
Lemma slow_tiles2 ar n st N permute ins outs f : area_laws ar -> (1 <= n)%nat -> ints2 N ->
  setup2d ar n st N permute ins outs = SOk f -> t_post f = true -> tiling2 n N (t_slow f).
Proof.
  intros L Hn HI HS.
  destruct (setup2d_cases ar n st N permute ins outs L Hn HI) as [(msg & E & _)|(H1 & H2 & H3 & [(_ & E)|(Hp & f' & gb & E & Gb & H)])];
    rewrite E in HS; try discriminate. injection HS as ->. cbv zeta in H.
  destruct H as (E1 & E2 & E3 & E4 & E5 & E6 & E7 & E8 & E10 & E11 & E12 & E13 & _).
  destruct N as [x y]. pose proof H1 as ((X & SX) & (Y & SY)). cbn [fst snd] in *.
  destruct (slow_layout2 n x y Hn X Y) as (Ts & Ls).
  pose proof (postflag2_spec n x y permute outs (fun r => slow_box2 (x, y) (Z.of_nat n) (Z.of_nat r)) Hn (fun r => conj eq_refl eq_refl)) as Hpost. cbv beta in Hpost.
  intros Hf. rewrite E10. rewrite E13 in Hf. destruct (slow_internal2 n (x, y) permute outs); [exact Ts|].
  rewrite (proj2 Hpost eq_refl) in Hf. discriminate.
Qed.

Definition made3 n N f : Prop := f_post f = true -> tiling3 n N (f_slow f).
Definition made2 n N f : Prop := t_post f = true -> tiling2 n N (t_slow f).

(** ** the forward path of FFT3d::compute(), as in Fft3dMain.v but without the tiling of the output *)
Section Main3.
Context {F : Type} (O : sops F).
Variable cexp : bool -> Z -> Z -> F * F.
Variable rnorm : Z -> F.
Variables (n : nat) (st : settings) (N : Z * Z * Z) (permute : Z) (ins outs : nat -> box3) (f : fft3) (P : @plans3 F).
Hypothesis FA : facts3 n st N permute ins outs f.
Hypothesis HI : ints3 N.
Hypothesis HPl : setup_ffts3 cexp N = Some P.
Hypothesis Ti : tiling3 n N ins.
Hypothesis Io : forall p r, (r < n)%nat -> inb3 p (outs r) -> inb3 p (grid3 N).
Hypothesis Ts : made3 n N f.
Hypothesis Lo : forall r, (r < n)%nat -> legal3 (outs r).
Hypothesis Hpk : flag_ok (st_pack st).
Variables (bi bo : bsel) (M0 : nat -> @rmem F).
Hypothesis Hbi : isdata bi.
Hypothesis Hbo : isdata bo.
Hypothesis HA : arrays_ok f bo M0.

Local Notation hi := (fun r : nat => 2 * f_fftsize f r).
Local Notation st3 := (Fft3dMain.st3 f bo M0).
Local Notation en := (Fft3dMain.en n st N permute ins outs f FA).
Local Notation epk := (Fft3dMain.epk n st N permute ins outs f FA).
Local Notation counted_bufs := (Fft3dMain.counted_bufs n st N permute ins outs f FA bo M0 HA).
Local Notation layout_hi := (Fft3dMain.layout_hi n st N permute ins outs f FA bo M0 HA).
Local Notation in_counted_pre := (Fft3dMain.in_counted_pre f).
Local Notation in_counted_fm := (Fft3dMain.in_counted_fm f).
Local Notation in_counted_ms := (Fft3dMain.in_counted_ms f).
Local Notation in_counted_ps := (Fft3dMain.in_counted_ps f).
Local Notation fast_may := (Fft3dMain.fast_may O cexp n st N permute ins outs f P FA HI HPl bo M0 Hbo HA).
Local Notation mid_may := (Fft3dMain.mid_may O cexp n st N permute ins outs f P FA HI HPl bo M0 Hbo HA).
Local Notation slow_may := (Fft3dMain.slow_may O cexp n st N permute ins outs f P FA HI HPl Lo bo M0 Hbo HA).
Local Notation scale_good := (Fft3dMain.scale_good O rnorm n st N permute ins outs f FA Lo bo M0 Hbo HA).
Local Notation finish := (Fft3dMain.finish O rnorm N outs).
Local Notation fwd_val := (Fft3dMain.fwd_val O P).

Definition source3 (a : nat -> box3) : Prop := layout3 f a /\ tiling3 n N a.
Definition target3 (b : nat -> box3) : Prop := layout3 f b /\ forall p r, (r < n)%nat -> inb3 p (b r) -> inb3 p (grid3 N).
Lemma source_target a : source3 a -> target3 a. Proof. intros (H1 & H2 & _). split; assumption. Qed.
Lemma S_in : source3 ins. Proof. split; [eapply L_in; eassumption|exact Ti]. Qed.
Lemma S_fastx : source3 (f_fast f). Proof. split; [apply L_fast|apply (F_fast _ _ _ _ _ _ _ FA Ti)]. Qed.
Lemma S_midx : source3 (f_mid f). Proof. split; [apply L_mid|apply (F_mid _ _ _ _ _ _ _ FA)]. Qed.
Lemma S_slowx : f_post f = true -> source3 (f_slow f). Proof. intros H. split; [apply L_slow|apply Ts, H]. Qed.
Lemma T_fastx : target3 (f_fast f). Proof. apply source_target, S_fastx. Qed.
Lemma T_midx : target3 (f_mid f). Proof. apply source_target, S_midx. Qed.
Lemma T_outx : target3 outs. Proof. split; [eapply L_out; eassumption|exact Io]. Qed.
Lemma T_slowx : target3 (f_slow f).
Proof. destruct (f_post f) eqn:E; [apply source_target, S_slowx, E|]. rewrite (F_post_slow _ _ _ _ _ _ _ FA E). exact T_outx. Qed.
Lemma brick_sx : st_exch st =? 0 = false -> source3 (f_brick f).
Proof. intros E. pose proof (brick_layout3 n st N permute ins outs f FA E) as L. split; [exact L|]. apply (F_brick _ _ _ _ _ _ _ FA). rewrite (F_exch _ _ _ _ _ _ _ FA), E. reflexivity. Qed.
Lemma brick_tx : st_exch st =? 0 = false -> target3 (f_brick f). Proof. intros E. apply source_target, brick_sx, E. Qed.

Lemma one_goodx di rot m a b g : isdata di -> perm_ok3 rot -> perm_ok3 (rm_perm m) -> source3 a -> target3 b ->
  rm_in m = (fun r => rotb3 rot (a r)) -> rm_out m = (fun r => rotb3 rot (b r)) ->
  bufs3 n (rm_coll m) (st_pack st) 2 (rm_perm m) (rm_in m) (rm_out m) M0 ->
  good n (st3 di rot a g) [one_remap3 f m di bo] (st3 bo ((rot + rm_perm m) mod 3) b g).
Proof.
  intros Hdi Hrot Hpm La Lb Ein Eout Hbuf. unfold one_remap3. rewrite en, epk.
  destruct La as (La & Ta). destruct Lb as (Lb & Tb).
  assert (Hd : disjoint_owners3 n (rm_in m)) by (rewrite Ein; apply rot_disjoint3; [exact Hrot|apply Ta]).
  apply good_one.
  - apply remap3_wf; auto; lia.
  - eapply triple_conseq; [| |apply (remap3_framed n (rm_coll m) (st_pack st) 2 (rm_perm m) (rm_in m) (rm_out m) di bo Hpk Hpm ltac:(lia) Hdi Hbo Hd strict
      (fun p => g (rotp3 (back3 rot) p)) M0 hi)].
    + intros r m' Hr (H1 & H2). split; [|exact H2]. rewrite Ein. cbv beta. apply (proj1 (holds_rot3 2 rot (a r) g _ Hrot)); exact H1.
    + intros r m' Hr (H1 & H2). split; [|exact H2]. rewrite Eout in H1. cbv beta in H1. apply (proj1 (holds_rotgen 2 rot (rm_perm m) (b r) g _ Hrot Hpm)); exact H1.
    + rewrite Ein, Eout. apply rot_covered3; [exact Hrot|]. apply (tiling3_covered n N); assumption.
    + intros r Hr. rewrite Eout. rewrite rot_vol3 by exact Hrot. apply layout_hi; assumption.
    + exact Hbuf.
Qed.

Lemma plain_goodx di rot perm a b g : isdata di -> perm_ok3 rot -> perm_ok3 perm -> source3 a -> target3 b ->
  (forall m, In m (objs (plain_pair st rot perm a b)) -> In m (counted_objs f)) ->
  good n (st3 di rot a g) (remap_call3 f (plain_pair st rot perm a b) di bo) (st3 bo ((rot + perm) mod 3) b g).
Proof.
  intros Hdi Hrot Hpm La Lb Hc. unfold remap_call3. cbn [plain_pair fst snd].
  apply (one_goodx di rot (mkrm3 (coll_bp st) perm (fun r => rotb3 rot (a r)) (fun r => rotb3 rot (b r))) a b g); auto.
  apply counted_bufs, Hc. left; reflexivity.
Qed.

Lemma pencil_goodx di rot perm a b g : isdata di -> di = bo \/ st_exch st = 0 -> perm_ok3 rot -> perm_ok3 perm -> source3 a -> target3 b ->
  (forall m, In m (objs (pencil_pair st rot perm a (f_brick f) b)) ->
     bufs3 n (rm_coll m) (st_pack st) 2 (rm_perm m) (rm_in m) (rm_out m) M0) ->
  good n (st3 di rot a g) (remap_call3 f (pencil_pair st rot perm a (f_brick f) b) di bo) (st3 bo ((rot + perm) mod 3) b g).
Proof.
  intros Hdi Hex Hrot Hpm La Lb Hc. unfold pencil_pair in *. destruct (st_exch st =? 0) eqn:Ee; unfold remap_call3; cbn [fst snd].
  - apply (one_goodx di rot (mkrm3 (coll_pp st) perm (fun r => rotb3 rot (a r)) (fun r => rotb3 rot (b r))) a b g); auto.
    apply Hc. left; reflexivity.
  - pose proof (brick_sx Ee) as Lk. pose proof (brick_tx Ee) as Lk'.
    assert (di = bo) as -> by (destruct Hex as [|E]; [assumption|rewrite E in Ee; discriminate]).
    change ([?x; ?y]) with ([x] ++ [y]).
    apply (good_app n _ [_] (st3 bo rot (f_brick f) g) [_]).
    + replace (st3 bo rot (f_brick f) g) with (st3 bo ((rot + 0) mod 3) (f_brick f) g)
        by (f_equal; destruct Hrot as [-> | [-> | ->]]; reflexivity).
      apply (one_goodx bo rot (mkrm3 (coll_bp st) 0 (fun r => rotb3 rot (a r)) (fun r => rotb3 rot (f_brick f r))) a (f_brick f) g); auto.
      * left; reflexivity.
      * apply Hc. left; reflexivity.
    + apply (one_goodx bo rot (mkrm3 (coll_bp st) perm (fun r => rotb3 rot (f_brick f r)) (fun r => rotb3 rot (b r))) (f_brick f) b g); auto.
      apply Hc. right; left; reflexivity.
Qed.

Lemma first_fastx g : bi = bo \/ f_pre f = true ->
  good n (st3 bi 0 ins g)
    (match f_prefast f with Some p => remap_call3 f p bi bo | None => [copying3 (fun r => psize3 (f_in f r)) bi bo] end)
    (st3 bo 0 (f_fast f) g).
Proof.
  intros Hg. pose proof (F_prefast _ _ _ _ _ _ _ FA) as E. pose proof in_counted_pre as Hc. rewrite E in Hc |- *.
  destruct (f_pre f) eqn:Epre.
  - apply (plain_goodx bi 0 0 ins (f_fast f) g Hbi p0 p0 S_in T_fastx Hc).
  - destruct Hg as [Eb|]; [|discriminate]. rewrite (F_pre_fast _ _ _ _ _ _ _ FA Epre). unfold copying3. rewrite Eb.
    replace (bsel_eqb bo bo) with true by (destruct bo; reflexivity).
    apply good_one; [intros r _; constructor|]. apply (triple_nil n strict (st3 bo 0 ins g)).
Qed.

Lemma fastmid_goodx di g : isdata di -> di = bo \/ st_exch st = 0 ->
  good n (st3 di 0 (f_fast f) g) (remap_call3 f (f_fastmid f) di bo) (st3 bo 1 (f_mid f) g).
Proof.
  intros Hdi Hex. pose proof in_counted_fm as Hc. rewrite (F_fastmid _ _ _ _ _ _ _ FA) in Hc |- *.
  apply (pencil_goodx di 0 1 (f_fast f) (f_mid f) g Hdi Hex p0 p1 S_fastx T_midx). intros m Hm. apply counted_bufs, Hc, Hm.
Qed.

Lemma midslow_goodx di g : isdata di -> di = bo \/ st_exch st = 0 ->
  good n (st3 di 1 (f_mid f) g) (remap_call3 f (f_midslow f) di bo) (st3 bo 2 (f_slow f) g).
Proof.
  intros Hdi Hex. pose proof in_counted_ms as Hc. rewrite (F_midslow _ _ _ _ _ _ _ FA) in Hc |- *.
  apply (pencil_goodx di 1 1 (f_mid f) (f_slow f) g Hdi Hex p1 p1 S_midx T_slowx). intros m Hm. apply counted_bufs, Hc, Hm.
Qed.

Lemma postslow_goodx di g : isdata di -> di = bo \/ f_post f = true ->
  good n (st3 di 2 (f_slow f) g) (opt_remap3 f (f_postslow f) di bo) (st3 bo permute outs g).
Proof.
  intros Hdi Hpo. pose proof in_counted_ps as Hc. rewrite (F_postslow _ _ _ _ _ _ _ FA) in Hc |- *.
  pose proof (F_perm _ _ _ _ _ _ _ FA) as Hp. destruct (f_post f) eqn:Ep.
  - cbn [opt_remap3].
    assert (E : (2 + (permute + 1) mod 3) mod 3 = permute) by (destruct Hp as [-> | [-> | ->]]; reflexivity).
    replace (st3 bo permute outs g) with (st3 bo ((2 + (permute + 1) mod 3) mod 3) outs g) by (rewrite E; reflexivity).
    apply plain_goodx; auto using p2, S_slowx, T_outx. destruct Hp as [-> | [-> | ->]]; vm_compute; auto.
  - destruct Hpo as [->|]; [|discriminate]. rewrite (F_post_slow _ _ _ _ _ _ _ FA Ep). destruct (proj1 (F_post _ _ _ _ _ _ _ FA) Ep) as (-> & _). apply good_nil.
Qed.

Lemma forward_goodx scaled ro flag G : (flag =? FORWARD) || f_same f = true -> bi = bo \/ f_pre f = true ->
  good n (st3 bi 0 ins (fld G)) (pieces_compute3 O rnorm f P scaled ro flag bi bo)
    (fun r m => holds3 2 permute (outs r) (fld (finish scaled ro flag permute outs r (fwd_val ro flag G))) (getb bo m) /\ framed M0 bo hi r m).
Proof.
  intros Hfl Hg. unfold pieces_compute3. rewrite Hfl.
  eapply good_app; [|apply scale_good].
  eapply good_app; [apply first_fastx, Hg|]. eapply good_app; [apply fast_may|].
  eapply good_app; [apply fastmid_goodx; auto|]. eapply good_app; [apply mid_may|].
  eapply good_app; [apply midslow_goodx; auto|]. eapply good_app; [apply slow_may|]. apply postslow_goodx; auto.
Qed.

End Main3.

(** ** the forward path of FFT2d::compute() *)
Section Main2.
Context {F : Type} (O : sops F).
Variable cexp : bool -> Z -> Z -> F * F.
Variable rnorm : Z -> F.
Variables (esize : Z) (n : nat) (st : settings) (N : Z * Z) (permute : Z) (ins outs : nat -> box2) (f : fft2) (P : @plans2 F).
Hypothesis FA : facts2 n st N permute ins outs f.
Hypothesis HI : ints2 N.
Hypothesis HPl : setup_ffts2 cexp N = Some P.
Hypothesis Ti : tiling2 n N ins.
Hypothesis Io : forall p r, (r < n)%nat -> inb2 p (outs r) -> inb2 p (grid2 N).
Hypothesis Ts : made2 n N f.
Hypothesis Lo : forall r, (r < n)%nat -> legal2 (outs r).
Hypothesis Hpk : flag_ok (st_pack st).
Hypothesis He : esize = 8 \/ st_pack st <> 2.
Variables (bi bo : bsel) (M0 : nat -> @rmem F).
Hypothesis Hbi : isdata bi.
Hypothesis Hbo : isdata bo.
Hypothesis HA : arrays_ok2 f bo M0.

Local Notation hi := (fun r : nat => 2 * t_fftsize f r).
Local Notation st2 := (Fft2dMain.st2 f bo M0).
Local Notation en2 := (Fft2dMain.en2 n st N permute ins outs f FA).
Local Notation epk2 := (Fft2dMain.epk2 n st N permute ins outs f FA).
Local Notation counted_bufs2 := (Fft2dMain.counted_bufs2 n st N permute ins outs f FA bo M0 HA).
Local Notation layout_hi2 := (Fft2dMain.layout_hi2 n st N permute ins outs f FA bo M0 HA).
Local Notation in_pre := (Fft2dMain.in_pre f).
Local Notation in_fs := (Fft2dMain.in_fs f).
Local Notation in_ps := (Fft2dMain.in_ps f).
Local Notation qp := (Fft2dMain.qp n st N permute ins outs f FA).
Local Notation qn := (Fft2dMain.qn n st N permute ins outs f FA).
Local Notation fast_may2 := (Fft2dMain.fast_may2 O cexp n st N permute ins outs f P FA HI HPl bo M0 Hbo HA).
Local Notation slow_may2 := (Fft2dMain.slow_may2 O cexp n st N permute ins outs f P FA HI HPl Lo bo M0 Hbo HA).
Local Notation scale_good2 := (Fft2dMain.scale_good2 O rnorm n st N permute ins outs f FA Lo bo M0 Hbo HA).
Local Notation finish2 := (Fft2dMain.finish2 O rnorm N outs).
Local Notation fwd_val2 := (Fft2dMain.fwd_val2 O P).

Definition source2 (a : nat -> box2) : Prop := layout2 f a /\ tiling2 n N a.
Definition target2 (b : nat -> box2) : Prop := layout2 f b /\ forall p r, (r < n)%nat -> inb2 p (b r) -> inb2 p (grid2 N).
Lemma source_target2 a : source2 a -> target2 a. Proof. intros (H1 & H2 & _). split; assumption. Qed.
Lemma S_in2x : source2 ins. Proof. split; [eapply L_in2; eassumption|exact Ti]. Qed.
Lemma S_fast2x : source2 (t_fast f). Proof. split; [apply L_fast2|apply (T_fast _ _ _ _ _ _ _ FA Ti)]. Qed.
Lemma S_slow2x : t_post f = true -> source2 (t_slow f). Proof. intros H. split; [apply L_slow2|apply Ts, H]. Qed.
Lemma T_fast2x : target2 (t_fast f). Proof. apply source_target2, S_fast2x. Qed.
Lemma T_out2x : target2 outs. Proof. split; [eapply L_out2; eassumption|exact Io]. Qed.
Lemma T_slow2x : target2 (t_slow f).
Proof. destruct (t_post f) eqn:E; [apply source_target2, S_slow2x, E|]. rewrite (T_post_slow _ _ _ _ _ _ _ FA E). exact T_out2x. Qed.
Lemma brick_s2x : st_exch st =? 0 = false -> source2 (t_brick f).
Proof. intros E. pose proof (brick_lay2 n st N permute ins outs f FA E) as L. split; [exact L|]. apply (T_brick _ _ _ _ _ _ _ FA). rewrite (T_exch _ _ _ _ _ _ _ FA), E. reflexivity. Qed.
Lemma brick_t2x : st_exch st =? 0 = false -> target2 (t_brick f). Proof. intros E. apply source_target2, brick_s2x, E. Qed.

Lemma one_good2x di rot m a b g : isdata di -> perm_ok2 rot -> perm_ok2 (rm2_perm m) -> source2 a -> target2 b ->
  rm2_in m = (fun r => rotb2 rot (a r)) -> rm2_out m = (fun r => rotb2 rot (b r)) ->
  bufs2 n (rm2_coll m) (st_pack st) 2 (rm2_perm m) (rm2_in m) (rm2_out m) M0 ->
  good n (st2 di rot a g) [one_remap2 esize f m di bo] (st2 bo ((rot + rm2_perm m) mod 2) b g).
Proof.
  intros Hdi Hrot Hpm La Lb Ein Eout Hbuf. unfold one_remap2. rewrite en2, epk2.
  destruct La as (La & Ta). destruct Lb as (Lb & Tb).
  assert (Hd : disjoint_owners2 n (rm2_in m)) by (rewrite Ein; apply rot_disjoint2; [exact Hrot|apply Ta]).
  apply good_one.
  - apply remap2_wf; auto; lia.
  - eapply triple_conseq; [| |apply (remap2_framed esize n (rm2_coll m) (st_pack st) 2 (rm2_perm m) (rm2_in m) (rm2_out m) di bo Hpk Hpm ltac:(lia) He Hdi Hbo Hd strict
      (fun p => g (rotp2 rot p)) M0 hi)].
    + intros r m' Hr (H1 & H2). split; [|exact H2]. rewrite Ein. cbv beta. apply (proj1 (holds_rot2 2 rot (a r) g _ Hrot)); exact H1.
    + intros r m' Hr (H1 & H2). split; [|exact H2]. rewrite Eout in H1. cbv beta in H1. apply (proj1 (holds_rotgen2 2 rot (rm2_perm m) (b r) g _ Hrot Hpm)); exact H1.
    + rewrite Ein, Eout. apply rot_covered2; [exact Hrot|]. apply (tiling2_covered n N); assumption.
    + intros r Hr. rewrite Eout. rewrite rot_vol2 by exact Hrot. apply layout_hi2; assumption.
    + exact Hbuf.
Qed.

Lemma plain_good2x di rot perm a b g : isdata di -> perm_ok2 rot -> perm_ok2 perm -> source2 a -> target2 b ->
  (forall m, In m (objs2 (plain_pair2 st rot perm a b)) -> In m (all_objs2 f)) ->
  good n (st2 di rot a g) (remap_call2 esize f (plain_pair2 st rot perm a b) di bo) (st2 bo ((rot + perm) mod 2) b g).
Proof.
  intros Hdi Hrot Hpm La Lb Hc. unfold remap_call2. cbn [plain_pair2 fst snd].
  apply (one_good2x di rot (mkrm2 (coll_bp st) perm (fun r => rotb2 rot (a r)) (fun r => rotb2 rot (b r))) a b g); auto.
  apply counted_bufs2, Hc. left; reflexivity.
Qed.

Lemma pencil_good2x di rot perm a b g : isdata di -> di = bo \/ st_exch st = 0 -> perm_ok2 rot -> perm_ok2 perm -> source2 a -> target2 b ->
  (forall m, In m (objs2 (pencil_pair2 st rot perm a (t_brick f) b)) -> In m (all_objs2 f)) ->
  good n (st2 di rot a g) (remap_call2 esize f (pencil_pair2 st rot perm a (t_brick f) b) di bo) (st2 bo ((rot + perm) mod 2) b g).
Proof.
  intros Hdi Hex Hrot Hpm La Lb Hc. unfold pencil_pair2 in *. destruct (st_exch st =? 0) eqn:Ee; unfold remap_call2; cbn [fst snd].
  - apply (one_good2x di rot (mkrm2 (coll_pp st) perm (fun r => rotb2 rot (a r)) (fun r => rotb2 rot (b r))) a b g); auto.
    apply counted_bufs2, Hc. left; reflexivity.
  - pose proof (brick_s2x Ee) as Lk. pose proof (brick_t2x Ee) as Lk'.
    assert (di = bo) as -> by (destruct Hex as [|E]; [assumption|rewrite E in Ee; discriminate]).
    change ([?x; ?y]) with ([x] ++ [y]).
    apply (good_app n _ [_] (st2 bo rot (t_brick f) g) [_]).
    + replace (st2 bo rot (t_brick f) g) with (st2 bo ((rot + 0) mod 2) (t_brick f) g)
        by (f_equal; destruct Hrot as [-> | ->]; reflexivity).
      apply (one_good2x bo rot (mkrm2 (coll_bp st) 0 (fun r => rotb2 rot (a r)) (fun r => rotb2 rot (t_brick f r))) a (t_brick f) g); auto.
      * left; reflexivity.
      * apply counted_bufs2, Hc. left; reflexivity.
    + apply (one_good2x bo rot (mkrm2 (coll_bp st) perm (fun r => rotb2 rot (t_brick f r)) (fun r => rotb2 rot (b r))) (t_brick f) b g); auto.
      apply counted_bufs2, Hc. right; left; reflexivity.
Qed.

Lemma first_fast2x g : bi = bo \/ t_pre f = true ->
  good n (st2 bi 0 ins g)
    (match t_prefast f with Some p => remap_call2 esize f p bi bo | None => [copying2 (fun r => psize2 (t_in f r)) bi bo] end)
    (st2 bo 0 (t_fast f) g).
Proof.
  intros Hg. pose proof (T_prefast _ _ _ _ _ _ _ FA) as E. pose proof in_pre as Hc. rewrite E in Hc |- *.
  destruct (t_pre f) eqn:Epre.
  - apply (plain_good2x bi 0 0 ins (t_fast f) g Hbi q0 q0 S_in2x T_fast2x Hc).
  - destruct Hg as [Eb|]; [|discriminate]. rewrite (T_pre_fast _ _ _ _ _ _ _ FA Epre). unfold copying2. rewrite Eb.
    replace (bsel_eqb bo bo) with true by (destruct bo; reflexivity).
    apply good_one; [intros r _; constructor|]. apply (triple_nil n strict (st2 bo 0 ins g)).
Qed.

Lemma fastslow_good2x di g : isdata di -> di = bo \/ st_exch st = 0 ->
  good n (st2 di 0 (t_fast f) g) (remap_call2 esize f (t_fastslow f) di bo) (st2 bo 1 (t_slow f) g).
Proof.
  intros Hdi Hex. pose proof in_fs as Hc. rewrite (T_fastslow _ _ _ _ _ _ _ FA) in Hc |- *.
  apply (pencil_good2x di 0 1 (t_fast f) (t_slow f) g Hdi Hex q0 q1 S_fast2x T_slow2x Hc).
Qed.

Lemma postslow_good2x di g : isdata di -> di = bo \/ t_post f = true ->
  good n (st2 di 1 (t_slow f) g) (opt_remap2 esize f (t_postslow f) di bo) (st2 bo permute outs g).
Proof.
  intros Hdi Hpo. pose proof in_ps as Hc. rewrite (T_postslow _ _ _ _ _ _ _ FA) in Hc |- *.
  pose proof qp as Hp. destruct (t_post f) eqn:Ep.
  - cbn [opt_remap2].
    assert (E : (1 + (permute + 1) mod 2) mod 2 = permute) by (destruct Hp as [-> | ->]; reflexivity).
    replace (st2 bo permute outs g) with (st2 bo ((1 + (permute + 1) mod 2) mod 2) outs g) by (rewrite E; reflexivity).
    apply plain_good2x; auto using S_slow2x, T_out2x; [exact q1|exact qn].
  - destruct Hpo as [->|]; [|discriminate]. rewrite (T_post_slow _ _ _ _ _ _ _ FA Ep). destruct (proj1 (T_post _ _ _ _ _ _ _ FA) Ep) as (-> & _). apply good_nil.
Qed.

Lemma forward_good2x scaled ro flag G : (flag =? FORWARD) || t_same f = true -> bi = bo \/ t_pre f = true ->
  good n (st2 bi 0 ins (fld G)) (pieces_compute2 O rnorm esize f P scaled ro flag bi bo)
    (fun r m => holds2 2 permute (outs r) (fld (finish2 scaled ro flag permute outs r (fwd_val2 ro flag G))) (getb bo m) /\ framed M0 bo hi r m).
Proof.
  intros Hfl Hg. unfold pieces_compute2. rewrite Hfl.
  eapply good_app; [|apply scale_good2].
  eapply good_app; [apply first_fast2x, Hg|]. eapply good_app; [apply fast_may2|].
  eapply good_app; [apply fastslow_good2x; auto|]. eapply good_app; [apply slow_may2|]. apply postslow_good2x; auto.
Qed.

End Main2.

(** ** whole calls *)
Section Calls.
Context {F : Type} (O : sops F).
Variables (cexp : bool -> Z -> Z -> F * F) (rnorm : Z -> F).

Lemma extract_any_3d ar n st N permute ins outs f P bi bo (M0 : nat -> @rmem F) scaled ro G :
  loose3 ar n st N permute ins outs f -> setup_ffts3 cexp N = Some P -> isdata bi -> isdata bo ->
  bi = bo \/ f_pre f = true -> arrays_ok f bo M0 ->
  (forall r, (r < n)%nat -> holds3 2 0 (ins r) (fld G) (getb bi (M0 r))) ->
  exec_all n (compute3 O rnorm f P scaled ro FORWARD bi bo) M0
    (fun r m => holds3 2 permute (outs r) (fld (fwd_val O P ro FORWARD G)) (getb bo m) /\ framed M0 bo (fun r => 2 * f_fftsize f r) r m).
Proof.
  intros Hl HP Hbi Hbo Hpl Ha Hin. pose proof (loose_facts _ _ _ _ _ _ _ _ Hl) as FA.
  destruct Hl as (A1 & A2 & HI & Hpk & Ti & Io & Lo & Es).
  pose proof (slow_tiles3 _ _ _ _ _ _ _ _ A1 A2 HI Es) as Ts.
  unfold compute3. eapply good_exec.
  - eapply good_conseq; [| |apply (forward_goodx O cexp rnorm n st N permute ins outs f P FA HI HP Ti Io Ts Lo Hpk bi bo M0 Hbi Hbo Ha scaled ro FORWARD G eq_refl Hpl)].
    + intros r m _ K. exact K.
    + intros r m Hrn (K1 & K2). split; [|exact K2]. eapply holds3_ext; [|exact K1]. intros p q _ _. reflexivity.
  - intros r Hrn. split; [apply Hin, Hrn|apply framed_refl].
Qed.
Lemma extract_any_2d esize ar n st N permute ins outs f P bi bo (M0 : nat -> @rmem F) scaled ro G :
  loose2 esize ar n st N permute ins outs f -> setup_ffts2 cexp N = Some P -> isdata bi -> isdata bo ->
  bi = bo \/ t_pre f = true -> arrays_ok2 f bo M0 ->
  (forall r, (r < n)%nat -> holds2 2 0 (ins r) (fld G) (getb bi (M0 r))) ->
  exec_all n (compute2 O rnorm esize f P scaled ro FORWARD bi bo) M0
    (fun r m => holds2 2 permute (outs r) (fld (fwd_val2 O P ro FORWARD G)) (getb bo m) /\ framed M0 bo (fun r => 2 * t_fftsize f r) r m).
Proof.
  intros Hl HP Hbi Hbo Hpl Ha Hin. pose proof (loose_facts2 _ _ _ _ _ _ _ _ _ Hl) as FA.
  destruct Hl as (A1 & A2 & HI & Hpk & He & Ti & Io & Lo & Es).
  pose proof (slow_tiles2 _ _ _ _ _ _ _ _ A1 A2 HI Es) as Ts.
  unfold compute2. eapply good_exec.
  - eapply good_conseq; [| |apply (forward_good2x O cexp rnorm esize n st N permute ins outs f P FA HI HP Ti Io Ts Lo Hpk He bi bo M0 Hbi Hbo Ha scaled ro FORWARD G eq_refl Hpl)].
    + intros r m _ K. exact K.
    + intros r m Hrn (K1 & K2). split; [|exact K2]. eapply holds2_ext; [|exact K1]. intros p q _ _. reflexivity.
  - intros r Hrn. split; [apply Hin, Hrn|apply framed_refl].
Qed.
End Calls.

Lemma extract_forward_3d ar n st N permute ins outs f bi bo (M0 : nat -> @rmem R) scaled x :
  loose3 ar n st N permute ins outs f -> isdata bi -> isdata bo -> bi = bo \/ f_pre f = true -> arrays_ok f bo M0 ->
  (forall r, (r < n)%nat -> holds3 2 0 (ins r) (fld x) (getb bi (M0 r))) ->
  exists P, setup_ffts3 cexpR N = Some P /\
  exec_all n (compute3 Rops rnormR f P scaled false FORWARD bi bo) M0
    (fun r m => holds3 2 permute (outs r) (fld (DFT3 false N x)) (getb bo m) /\ framed M0 bo (fun r => 2 * f_fftsize f r) r m).
Proof.
  intros Hl Hbi Hbo Hpl Ha Hx. pose proof (loose_facts _ _ _ _ _ _ _ _ Hl) as FA. pose proof Hl as (_ & _ & HI & _ & _ & Io & _).
  assert (exists P, setup_ffts3 cexpR N = Some P) as (P & HP).
  { pose proof (F_dims _ _ _ _ _ _ _ FA) as HD. pose proof (setup_ffts3_ok Rops cexpR N) as H. clear - HD HI H. destruct N as [[a b] c]. cbn in HI, HD. unfold dim_ok, INT_MAX in *.
    destruct H as (P & E & _); [lia|lia|lia|]. exists P. exact E. }
  exists P. split; [exact HP|].
  destruct (extract_any_3d Rops cexpR rnormR ar n st N permute ins outs f P bi bo M0 scaled false x Hl HP Hbi Hbo Hpl Ha Hx) as (M & HM & EM).
  exists M. split; [|exact EM]. intros r Hr. destruct (HM r Hr) as (K1 & K2). split; [|exact K2].
  eapply holds3_ext; [|exact K1]. intros p q Hp _. apply fld_ext. apply (fwd_real n st N permute ins outs f P FORWARD x p FA HI HP). apply (Io p r Hr Hp).
Qed.
Lemma extract_forward_2d esize ar n st N permute ins outs f bi bo (M0 : nat -> @rmem R) scaled x :
  loose2 esize ar n st N permute ins outs f -> isdata bi -> isdata bo -> bi = bo \/ t_pre f = true -> arrays_ok2 f bo M0 ->
  (forall r, (r < n)%nat -> holds2 2 0 (ins r) (fld x) (getb bi (M0 r))) ->
  exists P, setup_ffts2 cexpR N = Some P /\
  exec_all n (compute2 Rops rnormR esize f P scaled false FORWARD bi bo) M0
    (fun r m => holds2 2 permute (outs r) (fld (DFT2 false N x)) (getb bo m) /\ framed M0 bo (fun r => 2 * t_fftsize f r) r m).
Proof.
  intros Hl Hbi Hbo Hpl Ha Hx. pose proof (loose_facts2 _ _ _ _ _ _ _ _ _ Hl) as FA. pose proof Hl as (_ & _ & HI & _ & _ & _ & Io & _).
  assert (exists P, setup_ffts2 cexpR N = Some P) as (P & HP).
  { pose proof (T_dims _ _ _ _ _ _ _ FA) as HD. pose proof (setup_ffts2_ok Rops cexpR N) as H. clear - HD HI H. destruct N as [a b]. cbn in HI, HD. unfold dim_ok, INT_MAX in *.
    destruct H as (P & E & _); [lia|lia|]. exists P. exact E. }
  exists P. split; [exact HP|].
  destruct (extract_any_2d Rops cexpR rnormR esize ar n st N permute ins outs f P bi bo M0 scaled false x Hl HP Hbi Hbo Hpl Ha Hx) as (M & HM & EM).
  exists M. split; [|exact EM]. intros r Hr. destruct (HM r Hr) as (K1 & K2). split; [|exact K2].
  eapply holds2_ext; [|exact K1]. intros p q Hp _. unfold fld. rewrite (fwd_real2 n st N permute ins outs f P FORWARD x p FA HI HP); [reflexivity|]. apply (Io p r Hr Hp).
Qed.

(** ** remaps *)
Definition owned3 (n : nat) (t : nat -> box3) (p : pt3) : Prop := exists s, (s < n)%nat /\ inb3 p (t s).
Definition owned2 (n : nat) (t : nat -> box2) (p : pt2) : Prop := exists s, (s < n)%nat /\ inb2 p (t s).

Lemma extract_remap_3d {A : Type} n coll packflag nq permute ins outs din dout (g : pt3 -> Z -> A) M0 :
  perm_ok3 permute -> 0 < nq -> disjoint_owners3 n ins -> call_ok3 n nq permute ins outs coll packflag din dout M0 ->
  (forall r, (r < n)%nat -> holds3 nq 0 (ins r) g (getb din (M0 r))) ->
  exec_all n (remap3 n coll packflag nq permute ins outs din dout) M0 (fun r m => forall p q, inb3 p (outs r) -> 0 <= q < nq ->
    (owned3 n ins p -> zget (getb dout m) (cell3 nq permute (outs r) p q) = Some (g p q)) /\
    (~ owned3 n ins p -> zget (getb dout m) (cell3 nq permute (outs r) p q) = zget (getb dout (M0 r)) (cell3 nq permute (outs r) p q))).
Proof.
  intros Hp Hq Hd (Hf & Hdi & Hdo & Hl & Hb) Hg.
  destruct (remap3_delivers n coll packflag nq permute ins outs din dout Hf Hp Hq Hdi Hdo Hd g M0 Hg (fun r Hr => proj2 (Hl r Hr)) Hb) as (M' & HP & HE).
  exists M'. split; [|exact HE]. intros r Hr p q Hpb Hqq. destruct (HP r Hr) as (H1 & _ & _ & H4). split; [intros Ho; apply H1; assumption|].
  intros Hn. apply H4. intros p' q' Hpb' Ho Hq' E. apply Hn.
  destruct (cell3_inj nq permute (outs r) p' q' p q) as (-> & _); assumption.
Qed.
Lemma extract_remap_2d {A : Type} esize n coll packflag nq permute ins outs din dout (g : pt2 -> Z -> A) M0 :
  perm_ok2 permute -> 0 < nq -> disjoint_owners2 n ins -> call_ok2 esize n nq permute ins outs coll packflag din dout M0 ->
  (forall r, (r < n)%nat -> holds2 nq 0 (ins r) g (getb din (M0 r))) ->
  exec_all n (remap2 esize n coll packflag nq permute ins outs din dout) M0 (fun r m => forall p q, inb2 p (outs r) -> 0 <= q < nq ->
    (owned2 n ins p -> zget (getb dout m) (cell2 nq permute (outs r) p q) = Some (g p q)) /\
    (~ owned2 n ins p -> zget (getb dout m) (cell2 nq permute (outs r) p q) = zget (getb dout (M0 r)) (cell2 nq permute (outs r) p q))).
Proof.
  intros Hp Hq Hd (Hf & He & Hdi & Hdo & Hl & Hb) Hg.
  destruct (remap2_delivers esize n coll packflag nq permute ins outs din dout Hf Hp Hq He Hdi Hdo Hd g M0 Hg (fun r Hr => proj2 (Hl r Hr)) Hb) as (M' & HP & HE).
  exists M'. split; [|exact HE]. intros r Hr p q Hpb Hqq. destruct (HP r Hr) as (H1 & _ & _ & H4). split; [intros Ho; apply H1; assumption|].
  intros Hn. apply H4. intros p' q' Hpb' Ho Hq' E. apply Hn.
  destruct (cell2_inj nq permute (outs r) p' q' p q) as (-> & _); assumption.
Qed.
