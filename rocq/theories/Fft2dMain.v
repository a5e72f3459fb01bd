(** Fft2dMain.v : FFT2d::compute and the only_* calls, all executions, any scalar arithmetic. *)

From Verif Require Import Base Spec Pack2d Sched SchedProofs Phases Exec Remap RemapMain RemapInst
  Remap2d RemapThms RemapTop Layout LayoutProofs Setup3d Setup3dProofs Setup2d Setup2dProofs Kiss KissPure KissReal Fft1d Fft3d Frame Fft3dProofs Fft3dMain Fft2d.

(** ** renaming axes and permuting *)
Lemma perm_ok_mod2 a b : perm_ok2 a -> perm_ok2 b -> perm_ok2 ((a + b) mod 2).
Proof. intros [-> | ->] [-> | ->]; vm_compute; auto. Qed.

Lemma holds_rotgen2 {A} nq rot perm b (g : pt2 -> Z -> A) arr : perm_ok2 rot -> perm_ok2 perm ->
  holds2 nq perm (rotb2 rot b) (fun p => g (rotp2 rot p)) arr <-> holds2 nq ((rot + perm) mod 2) b g arr.
Proof.
  intros Hr Hp. rewrite (holds_rot2 nq perm) by exact Hp. rewrite (holds_rot2 nq ((rot + perm) mod 2)) by (apply perm_ok_mod2; assumption).
  destruct b as [a1 a2 b1 b2]; destruct Hr as [-> | ->]; destruct Hp as [-> | ->];
    split; intros H [i j] q Hb Hq; exact (H (i, j) q Hb Hq).
Qed.

Section Lines.
Context {F : Type} (O : sops F).

(** transform along axis [ax] (0 = i, 1 = j) of a field *)
Definition along2 (ax : Z) (T : (Z -> F * F) -> Z -> F * F) (G : pt2 -> F * F) (p : pt2) : F * F :=
  let '(i, j) := p in if ax =? 0 then T (fun t => G (t, j)) i else T (fun t => G (i, t)) j.

Lemma pencil_ffts2 cexp st inv L b (G : pt2 -> F * F) (l : list (F * F)) :
  plan_for cexp L inv st -> legal2 b -> ilo2 b = 0 -> ihi2 b = L - 1 -> psize2 b <= zlen l ->
  (forall p, inb2 p b -> zget l (pos2 0 b p) = Some (G p)) ->
  exists l', perform_ffts O st L (nj2 b * L) l = Some l' /\ zlen l' = zlen l /\
    (forall p, inb2 p b -> zget l' (pos2 0 b p) = Some (along2 0 (lineT O st) G p)) /\
    (forall a, ~ (0 <= a < psize2 b) -> zget l' a = zget l a).
Proof.
  intros HP (L1 & L2) Hlo Hhi Hz Hl.
  destruct (plan_facts O _ _ _ _ HP) as (E1 & E2 & E3 & E4).
  assert (Eni : ni2 b = L) by (unfold ni2; lia).
  assert (Eps : psize2 b = nj2 b * L) by (unfold psize2; rewrite Eni; ring).
  rewrite Eps in *.
  set (x := fun a => match zget l a with Some v => v | None => czero O end).
  assert (Hx : forall a, 0 <= a < nj2 b * L -> zget l a = Some (x a)).
  { intros a Ha. unfold x. destruct (zget_Some l a ltac:(lia)) as [v ->]. reflexivity. }
  destruct (perform_ok O st L (nj2 b) l x) as (l' & E & Hz' & Hs & Hu); auto; try nia.
  exists l'. split; [exact E|]. split; [exact Hz'|]. split; [|exact Hu].
  intros [i j] (Hi & Hj).
  set (li := j - jlo2 b).
  assert (Hli : 0 <= li < nj2 b) by (unfold li, nj2 in *; nia).
  assert (Hpos : forall t, pos2 0 b (t, j) = li * L + t).
  { intros t. unfold pos2. cbn [Z.eqb]. rewrite Eni, Hlo. unfold li. ring. }
  rewrite Hpos. rewrite Hs by lia. f_equal. cbn [along2 Z.eqb]. unfold lineT.
  apply (wk_ext O st (k_factors st) 1) with (L := L); [exact E3|lia|].
  intros t Ht. assert (Hin : inb2 (t, j) b) by (cbn; repeat split; lia).
  specialize (Hl _ Hin). rewrite Hpos in Hl. unfold x. rewrite Hl. reflexivity.
Qed.

Lemma holds_pairs2 perm b (G : pt2 -> F * F) (l : list F) p : holds2 2 perm b (fld G) l -> inb2 p b ->
  zget (fst (pairs l)) (pos2 perm b p) = Some (G p).
Proof.
  intros H Hp. rewrite holds2_cpx in H. destruct (H p Hp) as (H1 & H2).
  rewrite (pairs_get _ _ _ _ H1 H2). rewrite <- surjective_pairing. reflexivity.
Qed.

Lemma rot_legal2 rot b : legal2 b -> legal2 (rotb2 rot b).
Proof. intros (H1 & H2). unfold rotb2. destruct (rot =? 0); split; assumption. Qed.
Lemma rot_psize2 rot b : perm_ok2 rot -> psize2 (rotb2 rot b) = psize2 b.
Proof. intros [-> | ->]; unfold psize2, ni2, nj2; cbn; ring. Qed.
Lemma along_rot2 ax T (G : pt2 -> F * F) p : perm_ok2 ax ->
  along2 0 T (fun q => G (rotp2 ax q)) (rotp2 ax p) = along2 ax T G p.
Proof. destruct p as [i j]. intros [-> | ->]; reflexivity. Qed.

(** the transform along the contiguous axis of a pencil layout *)
Lemma ffts_step2 n eager (M0 : nat -> @rmem F) bo hi cexp st inv ax L (lay : nat -> box2) (tot : nat -> Z) (G : pt2 -> F * F) :
  isdata bo -> perm_ok2 ax -> plan_for cexp L inv st ->
  (forall r, (r < n)%nat -> legal2 (lay r) /\ ilo2 (rotb2 ax (lay r)) = 0 /\ ihi2 (rotb2 ax (lay r)) = L - 1) ->
  (forall r, (r < n)%nat -> tot r = nj2 (rotb2 ax (lay r)) * L) ->
  (forall r, (r < n)%nat -> 2 * psize2 (lay r) <= hi r <= zlen (getb bo (M0 r))) ->
  triple n eager (fun r m => holds2 2 ax (lay r) (fld G) (getb bo m) /\ framed M0 bo hi r m)
    (fun r => [ILocal (cview bo (perform_ffts O st L (tot r)))])
    (fun r m => holds2 2 ax (lay r) (fld (along2 ax (lineT O st) G)) (getb bo m) /\ framed M0 bo hi r m).
Proof.
  intros Hbo Hax HP Hlay Htot Hhi.
  apply (cview_step n eager M0 bo hi (fun r => perform_ffts O st L (tot r))
     (fun r l => holds2 2 ax (lay r) (fld G) l) (fun r l => holds2 2 ax (lay r) (fld (along2 ax (lineT O st) G)) l)); [exact Hbo|].
  intros r l Hr Hh Hl. destruct (Hlay r Hr) as (H1 & H2 & H3). specialize (Hhi r Hr).
  destruct (pencil_ffts2 cexp st inv L (rotb2 ax (lay r)) (fun q => G (rotp2 ax q)) (fst (pairs l))) as (l' & E & Z' & S & U); auto.
  { apply rot_legal2, H1. }
  { rewrite rot_psize2 by exact Hax. apply pairs_room. lia. }
  { intros p Hp. rewrite <- (rot_rot2 ax p Hax) in Hp |- *. rewrite rot_inb2 in Hp by exact Hax.
    rewrite rot_pos2 by exact Hax. rewrite rot_rot2 by exact Hax. apply holds_pairs2; assumption. }
  exists l', (psize2 (lay r)). rewrite (Htot r Hr). split; [exact E|]. split; [exact Z'|]. split; [lia|]. split.
  - intros i Hi. apply U. rewrite rot_psize2 by exact Hax. exact Hi.
  - intros l2 Hl2. rewrite holds2_cpx. intros p Hp.
    specialize (S (rotp2 ax p)). rewrite rot_inb2, rot_pos2, along_rot2 in S by exact Hax. specialize (S Hp).
    rewrite (surjective_pairing (along2 ax (lineT O st) G p)) in S. apply (Hl2 _ _ _ S).
Qed.

Lemma scale_step2 n eager (M0 : nat -> @rmem F) bo hi norm (num : nat -> Z) perm (lay : nat -> box2) (G : pt2 -> F * F) :
  isdata bo ->
  (forall r, (r < n)%nat -> 0 <= num r /\ 2 * num r <= hi r <= zlen (getb bo (M0 r))) ->
  triple n eager (fun r m => holds2 2 perm (lay r) (fld G) (getb bo m) /\ framed M0 bo hi r m)
    (fun r => [ILocal (cview bo (scale_ffts O norm (num r)))])
    (fun r m => holds2 2 perm (lay r) (fld (fun p => if pos2 perm (lay r) p <? num r then scl O norm (G p) else G p)) (getb bo m)
       /\ framed M0 bo hi r m).
Proof.
  intros Hbo Hn.
  apply (cview_step n eager M0 bo hi (fun r => scale_ffts O norm (num r))
     (fun r l => holds2 2 perm (lay r) (fld G) l)
     (fun r l => holds2 2 perm (lay r) (fld (fun p => if pos2 perm (lay r) p <? num r then scl O norm (G p) else G p)) l)); [exact Hbo|].
  intros r l Hr Hh Hl. destruct (Hn r Hr) as (H0 & H1).
  destruct (scale_ok O norm (num r) (fst (pairs l))) as (l' & E & Z' & S & U).
  { split; [exact H0|]. apply pairs_room. lia. }
  exists l', (num r). split; [exact E|]. split; [exact Z'|]. split; [lia|]. split; [exact U|].
  intros l2 Hl2. rewrite holds2_cpx. intros p Hp.
  pose proof (holds_pairs2 _ _ _ _ p Hh Hp) as Hg. pose proof (zget_inv _ _ _ Hg) as Hb.
  destruct (Z.ltb_spec (pos2 perm (lay r) p) (num r)).
  - specialize (S _ _ (conj (proj1 Hb) H) Hg). apply (Hl2 _ _ _ S).
  - rewrite (surjective_pairing (G p)) in Hg. rewrite <- U in Hg by lia. apply (Hl2 _ _ _ Hg).
Qed.
End Lines.

(** ** plans *)
Lemma setup_ffts2_ok {F} (O : sops F) cexp N : let '(x, z) := N in
  1 <= x < 2 ^ 31 -> 1 <= z < 2 ^ 31 ->
  exists P, setup_ffts2 (F := F) cexp N = Some P /\
    plan_for cexp x false (pt_ff P) /\ plan_for cexp x true (pt_fb P) /\
    plan_for cexp z false (pt_sf P) /\ plan_for cexp z true (pt_sb P).
Proof.
  destruct N as [x z]. intros Hx Hz. unfold setup_ffts2.
  destruct (alloc_ok O cexp x false Hx) as (ff & E1 & _). destruct (alloc_ok O cexp x true Hx) as (fb & E2 & _).
  destruct (alloc_ok O cexp z false Hz) as (sf & E5 & _). destruct (alloc_ok O cexp z true Hz) as (sb & E6 & _).
  rewrite E1, E2. cbn [bind]. unfold plan_for.
  destruct (Z.eqb_spec z x); subst; rewrite ?E5, ?E6; cbn [bind];
    eexists; (split; [reflexivity|]); cbn [pt_ff pt_fb pt_sf pt_sb]; repeat split; first [assumption | lia | congruence].
Qed.

(** the caller's arrays and the buffers are as big as setup says *)
Definition arrays_ok2 {F} (f : fft2) (b : bsel) (M0 : nat -> @rmem F) : Prop :=
  forall r, (r < t_n f)%nat -> 2 * t_fftsize f r <= zlen (getb b (M0 r)) /\
    t_sendsize f r <= zlen (m_send (M0 r)) /\ t_recvsize f r <= zlen (m_recv (M0 r)).

Lemma pos2_psize perm b p : perm_ok2 perm -> inb2 p b -> 0 <= pos2 perm b p < psize2 b.
Proof.
  intros Hp Hb. pose proof (cell2_bound 1 perm b p 0 Hb ltac:(lia)) as H. unfold cell2 in H. unfold psize2. lia.
Qed.

Section Main.
Context {F : Type} (O : sops F).
Variable cexp : bool -> Z -> Z -> F * F.
Variable rnorm : Z -> F.
Variables (esize : Z) (n : nat) (st : settings) (N : Z * Z) (permute : Z) (ins outs : nat -> box2) (f : fft2) (P : @plans2 F).
Hypothesis FA : facts2 n st N permute ins outs f.
Hypothesis HI : ints2 N.
Hypothesis HPl : setup_ffts2 cexp N = Some P.
Hypothesis Ti : tiling2 n N ins.
Hypothesis To : tiling2 n N outs.
Hypothesis Lo : forall r, (r < n)%nat -> legal2 (outs r).
Hypothesis Hpk : flag_ok (st_pack st).
Hypothesis He : esize = 8 \/ st_pack st <> 2.
Variables (bi bo : bsel) (M0 : nat -> @rmem F).
Hypothesis Hbi : isdata bi.
Hypothesis Hbo : isdata bo.
Hypothesis HA : arrays_ok2 f bo M0.

Local Notation hi := (fun r : nat => 2 * t_fftsize f r).
(** array [b] holds the complex field [G] in layout [lay] stored with permutation [perm] *)
Definition st2 (b : bsel) (perm : Z) (lay : nat -> box2) (g : pt2 -> Z -> F) (r : nat) (m : @rmem F) : Prop :=
  holds2 2 perm (lay r) g (getb b m) /\ framed M0 bo hi r m.

Lemma en2 : t_n f = n. Proof. apply (T_n _ _ _ _ _ _ _ FA). Qed.
Lemma epk2 : t_pack f = st_pack st. Proof. apply (T_pack _ _ _ _ _ _ _ FA). Qed.

Lemma counted_bufs2 m : In m (all_objs2 f) -> bufs2 n (rm2_coll m) (st_pack st) 2 (rm2_perm m) (rm2_in m) (rm2_out m) M0.
Proof.
  intros Hm r pl Hr Hs. destruct (HA r) as (_ & H1 & H2); [rewrite en2; exact Hr|].
  destruct (obj_sizes2 _ _ _ _ _ _ _ FA m r pl Hm Hs) as (H3 & H4). lia.
Qed.

Lemma layout_hi2 t r : layout2 f t -> (r < n)%nat -> 2 * vol2 (t r) <= 2 * t_fftsize f r <= zlen (getb bo (M0 r)).
Proof.
  intros Ht Hr. pose proof (layout_fftsize2 _ _ _ _ _ _ _ FA t r Ht Hr). destruct (HA r) as (H1 & _); [rewrite en2; exact Hr|]. lia.
Qed.

Lemma lay_tiles2 t : layout2 f t -> tiling2 n N t.
Proof. apply (layout_tiling2 _ _ _ _ _ _ _ FA t Ti To). Qed.

(** one remap object: renamed by [rot] on both sides *)
Lemma one_good2 di rot m a b g : isdata di -> perm_ok2 rot -> perm_ok2 (rm2_perm m) -> layout2 f a -> layout2 f b ->
  rm2_in m = (fun r => rotb2 rot (a r)) -> rm2_out m = (fun r => rotb2 rot (b r)) ->
  bufs2 n (rm2_coll m) (st_pack st) 2 (rm2_perm m) (rm2_in m) (rm2_out m) M0 ->
  good n (st2 di rot a g) [one_remap2 esize f m di bo] (st2 bo ((rot + rm2_perm m) mod 2) b g).
Proof.
  intros Hdi Hrot Hpm La Lb Ein Eout Hbuf. unfold one_remap2. rewrite en2, epk2.
  pose proof (lay_tiles2 a La) as Ta. pose proof (lay_tiles2 b Lb) as Tb.
  assert (Hd : disjoint_owners2 n (rm2_in m)) by (rewrite Ein; apply rot_disjoint2; [exact Hrot|apply Ta]).
  apply good_one.
  - apply remap2_wf; auto; lia.
  - eapply triple_conseq; [| |apply (remap2_framed esize n (rm2_coll m) (st_pack st) 2 (rm2_perm m) (rm2_in m) (rm2_out m) di bo Hpk Hpm ltac:(lia) He Hdi Hbo Hd strict
      (fun p => g (rotp2 rot p)) M0 hi)].
    + intros r m' Hr (H1 & H2). split; [|exact H2]. rewrite Ein. cbv beta. apply (proj1 (holds_rot2 2 rot (a r) g _ Hrot)); exact H1.
    + intros r m' Hr (H1 & H2). split; [|exact H2]. rewrite Eout in H1. cbv beta in H1. apply (proj1 (holds_rotgen2 2 rot (rm2_perm m) (b r) g _ Hrot Hpm)); exact H1.
    + rewrite Ein, Eout. apply rot_covered2; [exact Hrot|]. apply (tiling2_covered2 n N); assumption.
    + intros r Hr. rewrite Eout. rewrite rot_vol2 by exact Hrot. apply layout_hi2; assumption.
    + exact Hbuf.
Qed.

Lemma plain_good2 di rot perm a b g : isdata di -> perm_ok2 rot -> perm_ok2 perm -> layout2 f a -> layout2 f b ->
  (forall m, In m (objs2 (plain_pair2 st rot perm a b)) -> In m (all_objs2 f)) ->
  good n (st2 di rot a g) (remap_call2 esize f (plain_pair2 st rot perm a b) di bo) (st2 bo ((rot + perm) mod 2) b g).
Proof.
  intros Hdi Hrot Hpm La Lb Hc. unfold remap_call2. cbn [plain_pair2 fst snd].
  apply (one_good2 di rot (mkrm2 (coll_bp st) perm (fun r => rotb2 rot (a r)) (fun r => rotb2 rot (b r))) a b g); auto.
  apply counted_bufs2, Hc. left; reflexivity.
Qed.

Lemma brick_lay2 : st_exch st =? 0 = false -> layout2 f (t_brick f).
Proof. intros E. do 4 right. split; [|reflexivity]. rewrite (T_exch _ _ _ _ _ _ _ FA), E. reflexivity. Qed.

(** direct, or (in place only) through the brick layout *)
Lemma pencil_good2 di rot perm a b g : isdata di -> di = bo \/ st_exch st = 0 -> perm_ok2 rot -> perm_ok2 perm -> layout2 f a -> layout2 f b ->
  (forall m, In m (objs2 (pencil_pair2 st rot perm a (t_brick f) b)) -> In m (all_objs2 f)) ->
  good n (st2 di rot a g) (remap_call2 esize f (pencil_pair2 st rot perm a (t_brick f) b) di bo) (st2 bo ((rot + perm) mod 2) b g).
Proof.
  intros Hdi Hex Hrot Hpm La Lb Hc. unfold pencil_pair2 in *. destruct (st_exch st =? 0) eqn:Ee; unfold remap_call2; cbn [fst snd].
  - apply (one_good2 di rot (mkrm2 (coll_pp st) perm (fun r => rotb2 rot (a r)) (fun r => rotb2 rot (b r))) a b g); auto.
    apply counted_bufs2, Hc. left; reflexivity.
  - pose proof (brick_lay2 Ee) as Lk.
    assert (di = bo) as -> by (destruct Hex as [|E]; [assumption|rewrite E in Ee; discriminate]).
    change ([?x; ?y]) with ([x] ++ [y]).
    apply (good_app n _ [_] (st2 bo rot (t_brick f) g) [_]).
    + replace (st2 bo rot (t_brick f) g) with (st2 bo ((rot + 0) mod 2) (t_brick f) g)
        by (f_equal; destruct Hrot as [-> | ->]; reflexivity).
      apply (one_good2 bo rot (mkrm2 (coll_bp st) 0 (fun r => rotb2 rot (a r)) (fun r => rotb2 rot (t_brick f r))) a (t_brick f) g); auto.
      * left; reflexivity.
      * apply counted_bufs2, Hc. left; reflexivity.
    + apply (one_good2 bo rot (mkrm2 (coll_bp st) perm (fun r => rotb2 rot (t_brick f r)) (fun r => rotb2 rot (b r))) (t_brick f) b g); auto.
      apply counted_bufs2, Hc. right; left; reflexivity.
Qed.

(** layouts *)
Lemma L_in2 : layout2 f ins. Proof. left. symmetry. apply (T_fin _ _ _ _ _ _ _ FA). Qed.
Lemma L_out2 : layout2 f outs. Proof. right; left. symmetry. apply (T_fout _ _ _ _ _ _ _ FA). Qed.
Lemma L_fast2 : layout2 f (t_fast f). Proof. right; right; left; reflexivity. Qed.
Lemma L_slow2 : layout2 f (t_slow f). Proof. right; right; right; left; reflexivity. Qed.
Lemma q0 : perm_ok2 0. Proof. left; reflexivity. Qed.
Lemma q1 : perm_ok2 1. Proof. right; reflexivity. Qed.
Lemma qp : perm_ok2 permute. Proof. apply (T_perm _ _ _ _ _ _ _ FA). Qed.
Lemma qn : perm_ok2 ((permute + 1) mod 2). Proof. destruct qp as [-> | ->]; [right|left]; reflexivity. Qed.

Lemma in_pre m : In m (oobjs2 (t_prefast f)) -> In m (all_objs2 f).
Proof. intros H. unfold all_objs2, fwd_objs2. rewrite !in_app_iff. auto. Qed.
Lemma in_fs m : In m (objs2 (t_fastslow f)) -> In m (all_objs2 f).
Proof. intros H. unfold all_objs2, fwd_objs2. rewrite !in_app_iff. auto. Qed.
Lemma in_ps m : In m (oobjs2 (t_postslow f)) -> In m (all_objs2 f).
Proof. intros H. unfold all_objs2, fwd_objs2. rewrite !in_app_iff. auto. Qed.
Lemma in_prs m : In m (oobjs2 (t_preslow f)) -> In m (all_objs2 f).
Proof. intros H. unfold all_objs2, bwd_objs2. rewrite !in_app_iff. auto. Qed.
Lemma in_sf m : In m (oobjs2 (t_slowfast f)) -> In m (all_objs2 f).
Proof. intros H. unfold all_objs2, bwd_objs2. rewrite !in_app_iff. auto. Qed.
Lemma in_pf m : In m (oobjs2 (t_postfast f)) -> In m (all_objs2 f).
Proof. intros H. unfold all_objs2, bwd_objs2. rewrite !in_app_iff. auto. Qed.

(** the first step: remap, or memcpy (a no-op in place) *)
Lemma first_fast2 g : bi = bo \/ t_pre f = true ->
  good n (st2 bi 0 ins g)
    (match t_prefast f with Some p => remap_call2 esize f p bi bo | None => [copying2 (fun r => psize2 (t_in f r)) bi bo] end)
    (st2 bo 0 (t_fast f) g).
Proof.
  intros Hg. pose proof (T_prefast _ _ _ _ _ _ _ FA) as E. pose proof in_pre as Hc. rewrite E in Hc |- *.
  destruct (t_pre f) eqn:Epre.
  - apply (plain_good2 bi 0 0 ins (t_fast f) g Hbi q0 q0 L_in2 L_fast2 Hc).
  - destruct Hg as [Eb|]; [|discriminate]. rewrite (T_pre_fast _ _ _ _ _ _ _ FA Epre). unfold copying2. rewrite Eb.
    replace (bsel_eqb bo bo) with true by (destruct bo; reflexivity).
    apply good_one; [intros r _; constructor|]. apply (triple_nil n strict (st2 bo 0 ins g)).
Qed.

Lemma fastslow_good2 di g : isdata di -> di = bo \/ st_exch st = 0 ->
  good n (st2 di 0 (t_fast f) g) (remap_call2 esize f (t_fastslow f) di bo) (st2 bo 1 (t_slow f) g).
Proof.
  intros Hdi Hex. pose proof in_fs as Hc. rewrite (T_fastslow _ _ _ _ _ _ _ FA) in Hc |- *.
  apply (pencil_good2 di 0 1 (t_fast f) (t_slow f) g Hdi Hex q0 q1 L_fast2 L_slow2 Hc).
Qed.
Lemma postslow_good2 di g : isdata di -> di = bo \/ t_post f = true ->
  good n (st2 di 1 (t_slow f) g) (opt_remap2 esize f (t_postslow f) di bo) (st2 bo permute outs g).
Proof.
  intros Hdi Hpo. pose proof in_ps as Hc. rewrite (T_postslow _ _ _ _ _ _ _ FA) in Hc |- *.
  pose proof qp as Hp. destruct (t_post f) eqn:Ep.
  - cbn [opt_remap2].
    assert (E : (1 + (permute + 1) mod 2) mod 2 = permute) by (destruct Hp as [-> | ->]; reflexivity).
    replace (st2 bo permute outs g) with (st2 bo ((1 + (permute + 1) mod 2) mod 2) outs g) by (rewrite E; reflexivity).
    apply plain_good2; auto using q1, qn, L_slow2, L_out2.
  - destruct Hpo as [->|]; [|discriminate]. rewrite (T_post_slow _ _ _ _ _ _ _ FA Ep). destruct (proj1 (T_post _ _ _ _ _ _ _ FA) Ep) as (-> & _). apply good_nil.
Qed.

Lemma first_slow2 g : t_same f = false -> bi = bo \/ t_post f = true ->
  good n (st2 bi permute outs g)
    (match t_preslow f with Some p => remap_call2 esize f p bi bo | None => [copying2 (fun r => psize2 (t_out f r)) bi bo] end)
    (st2 bo 1 (t_slow f) g).
Proof.
  intros Es Hg. pose proof in_prs as Hc. rewrite (T_preslow _ _ _ _ _ _ _ FA), Es in Hc |- *.
  pose proof qp as Hp. destruct (t_post f) eqn:Ep.
  - assert (E : (permute + (permute + 1) mod 2) mod 2 = 1) by (destruct Hp as [-> | ->]; reflexivity).
    replace (st2 bo 1 (t_slow f) g) with (st2 bo ((permute + (permute + 1) mod 2) mod 2) (t_slow f) g) by (rewrite E; reflexivity).
    apply plain_good2; auto using qn, L_slow2, L_out2.
  - destruct Hg as [Eb|]; [|discriminate]. rewrite (T_post_slow _ _ _ _ _ _ _ FA Ep).
    destruct (proj1 (T_post _ _ _ _ _ _ _ FA) Ep) as (Ep2 & _). rewrite Ep2. unfold copying2. rewrite Eb.
    replace (bsel_eqb bo bo) with true by (destruct bo; reflexivity).
    apply good_one; [intros r _; constructor|]. apply (triple_nil n strict (st2 bo 1 outs g)).
Qed.
Lemma slowfast_good2 di g : isdata di -> di = bo \/ st_exch st = 0 -> t_same f = false ->
  good n (st2 di 1 (t_slow f) g) (opt_remap2 esize f (t_slowfast f) di bo) (st2 bo 0 (t_fast f) g).
Proof.
  intros Hdi Hex Es. pose proof in_sf as Hc. rewrite (T_slowfast _ _ _ _ _ _ _ FA), Es in Hc |- *. cbn [opt_remap2].
  apply (pencil_good2 di 1 1 (t_slow f) (t_fast f) g Hdi Hex q1 q1 L_slow2 L_fast2 Hc).
Qed.
Lemma postfast_good2 di g : t_same f = false -> isdata di -> di = bo \/ t_pre f = false ->
  good n (st2 bo 0 (t_fast f) g) (opt_remap2 esize f (t_postfast f) di bo) (st2 bo 0 ins g).
Proof.
  intros Es Hdi Hg. pose proof in_pf as Hc. rewrite (T_postfast _ _ _ _ _ _ _ FA), Es in Hc |- *. destruct (t_pre f) eqn:Epre.
  - destruct Hg as [->|]; [|discriminate]. cbn [opt_remap2].
    apply (plain_good2 bo 0 0 (t_fast f) ins g Hbo q0 q0 L_fast2 L_in2 Hc).
  - rewrite (T_pre_fast _ _ _ _ _ _ _ FA Epre). apply good_nil.
Qed.

(** the 1d transforms *)
Definition plan_fast2 (flag : Z) := if flag =? FORWARD then pt_ff P else pt_fb P.
Definition plan_slow2 (flag : Z) := if flag =? FORWARD then pt_sf P else pt_sb P.

Lemma plans_ok2 flag : plan_for cexp (fst N) (negb (flag =? FORWARD)) (plan_fast2 flag) /\
  plan_for cexp (snd N) (negb (flag =? FORWARD)) (plan_slow2 flag).
Proof.
  pose proof (setup_ffts2_ok O cexp N) as H. pose proof (T_dims _ _ _ _ _ _ _ FA) as HD. clear - HPl H HD HI.
  destruct N as [x z]. cbn in HI, HD. unfold dim_ok, INT_MAX in *.
  destruct H as (P' & E & H1 & H2 & H5 & H6); [lia|lia|]. assert (P' = P) by congruence. subst P'.
  unfold plan_fast2, plan_slow2. cbn [fst snd]. destruct (flag =? FORWARD); cbn [negb]; auto.
Qed.

Lemma fast_legal2 r : (r < n)%nat -> legal2 (t_fast f r). Proof. apply (T_fast_legal _ _ _ _ _ _ _ FA). Qed.
Lemma slow_legal2 r : (r < n)%nat -> legal2 (t_slow f r). Proof. apply (T_slow_legal _ _ _ _ _ _ _ FA Lo). Qed.

Lemma psize_hi2 t r : layout2 f t -> legal2 (t r) -> (r < n)%nat -> 2 * psize2 (t r) <= 2 * t_fftsize f r <= zlen (getb bo (M0 r)).
Proof. intros Ht Hl Hr. rewrite psize2_vol by exact Hl. apply layout_hi2; assumption. Qed.

Lemma fast_ffts2 flag G : good n (st2 bo 0 (t_fast f) (fld G)) [ffts_fast2 O f P flag bo] (st2 bo 0 (t_fast f) (fld (along2 0 (lineT O (plan_fast2 flag)) G))).
Proof.
  apply good_one; [apply local_wf|]. unfold ffts_fast2. fold (plan_fast2 flag). rewrite (T_N _ _ _ _ _ _ _ FA).
  apply (ffts_step2 O n strict M0 bo hi cexp (plan_fast2 flag) (negb (flag =? FORWARD)) 0 (fst N) (t_fast f)
    (fun r => nj2 (t_fast f r) * fst N) G Hbo q0 (proj1 (plans_ok2 flag))).
  - intros r Hr. split; [apply fast_legal2, Hr|]. apply (T_fast_span _ _ _ _ _ _ _ FA r Hr).
  - intros r Hr. reflexivity.
  - intros r Hr. apply (psize_hi2 (t_fast f) r L_fast2 (fast_legal2 r Hr) Hr).
Qed.
Lemma slow_ffts2 flag G : good n (st2 bo 1 (t_slow f) (fld G)) [ffts_slow2 O f P flag bo] (st2 bo 1 (t_slow f) (fld (along2 1 (lineT O (plan_slow2 flag)) G))).
Proof.
  apply good_one; [apply local_wf|]. unfold ffts_slow2. fold (plan_slow2 flag). rewrite (T_N _ _ _ _ _ _ _ FA).
  apply (ffts_step2 O n strict M0 bo hi cexp (plan_slow2 flag) (negb (flag =? FORWARD)) 1 (snd N) (t_slow f)
    (fun r => ni2 (t_slow f r) * snd N) G Hbo q1 (proj2 (plans_ok2 flag))).
  - intros r Hr. split; [apply slow_legal2, Hr|]. apply (T_slow_span _ _ _ _ _ _ _ FA r Hr).
  - intros r Hr. reflexivity.
  - intros r Hr. apply (psize_hi2 (t_slow f) r L_slow2 (slow_legal2 r Hr) Hr).
Qed.

(** optional transforms *)
Definition may2 (remaponly : bool) (ax : Z) (T : (Z -> F * F) -> Z -> F * F) (G : pt2 -> F * F) : pt2 -> F * F :=
  if remaponly then G else along2 ax T G.

Lemma fast_may2 (ro : bool) flag G : good n (st2 bo 0 (t_fast f) (fld G)) (if ro then [] else [ffts_fast2 O f P flag bo])
  (st2 bo 0 (t_fast f) (fld (may2 ro 0 (lineT O (plan_fast2 flag)) G))).
Proof. destruct ro; [apply good_nil|apply fast_ffts2]. Qed.
Lemma slow_may2 (ro : bool) flag G : good n (st2 bo 1 (t_slow f) (fld G)) (if ro then [] else [ffts_slow2 O f P flag bo])
  (st2 bo 1 (t_slow f) (fld (may2 ro 1 (lineT O (plan_slow2 flag)) G))).
Proof. destruct ro; [apply good_nil|apply slow_ffts2]. Qed.

Definition gridsize2 : Z := fst N * snd N.
(** value of point p after the optional scaling, stored at [pos2 perm (lay r) p] on rank r *)
Definition finish2 (scaled ro : bool) (flag perm : Z) (lay : nat -> box2) (r : nat) (G : pt2 -> F * F) (p : pt2) : F * F :=
  if (flag =? BACKWARD) && scaled && negb ro && (pos2 perm (lay r) p <? psize2 (outs r)) then scl O (rnorm gridsize2) (G p) else G p.

Lemma scale_good2 (scaled ro : bool) flag perm lay G :
  good n (st2 bo perm lay (fld G)) (if (flag =? BACKWARD) && scaled && negb ro then [scaling2 O rnorm f bo] else [])
    (fun r m => holds2 2 perm (lay r) (fld (finish2 scaled ro flag perm lay r G)) (getb bo m) /\ framed M0 bo hi r m).
Proof.
  unfold finish2. destruct ((flag =? BACKWARD) && scaled && negb ro).
  - cbn [andb]. apply good_one; [apply local_wf|]. unfold scaling2. rewrite (T_N _ _ _ _ _ _ _ FA), (T_fout _ _ _ _ _ _ _ FA).
    fold gridsize2. apply (scale_step2 O n strict M0 bo hi (rnorm gridsize2) (fun r => psize2 (outs r)) perm lay G Hbo).
    intros r Hr. split; [|apply (psize_hi2 outs r L_out2 (Lo r Hr) Hr)].
    rewrite psize2_vol by (apply Lo, Hr). unfold vol2. nia.
  - cbn [andb]. eapply good_conseq; [| |apply good_nil]; [intros r m Hr H; exact H|]. intros r m Hr H. exact H.
Qed.

(** *** forward path: input layout -> permuted output layout *)
Definition fwd_val2 (ro : bool) (flag : Z) (G : pt2 -> F * F) : pt2 -> F * F :=
  may2 ro 1 (lineT O (plan_slow2 flag)) (may2 ro 0 (lineT O (plan_fast2 flag)) G).
Definition bwd_val2 (ro : bool) (flag : Z) (G : pt2 -> F * F) : pt2 -> F * F :=
  may2 ro 0 (lineT O (plan_fast2 flag)) (may2 ro 1 (lineT O (plan_slow2 flag)) G).

Lemma forward_good2 scaled ro flag G : (flag =? FORWARD) || t_same f = true -> bi = bo \/ t_pre f = true ->
  good n (st2 bi 0 ins (fld G)) (pieces_compute2 O rnorm esize f P scaled ro flag bi bo)
    (fun r m => holds2 2 permute (outs r) (fld (finish2 scaled ro flag permute outs r (fwd_val2 ro flag G))) (getb bo m) /\ framed M0 bo hi r m).
Proof.
  intros Hfl Hg. unfold pieces_compute2. rewrite Hfl.
  eapply good_app; [|apply scale_good2].
  eapply good_app; [apply first_fast2, Hg|]. eapply good_app; [apply fast_may2|].
  eapply good_app; [apply fastslow_good2; auto|]. eapply good_app; [apply slow_may2|]. apply postslow_good2; auto.
Qed.

Lemma backward_good2 scaled ro flag G : (flag =? FORWARD) || t_same f = false -> bi = bo \/ (t_post f = true /\ t_pre f = false) ->
  good n (st2 bi permute outs (fld G)) (pieces_compute2 O rnorm esize f P scaled ro flag bi bo)
    (fun r m => holds2 2 0 (ins r) (fld (finish2 scaled ro flag 0 ins r (bwd_val2 ro flag G))) (getb bo m) /\ framed M0 bo hi r m).
Proof.
  intros Hfl Hg. unfold pieces_compute2. rewrite Hfl. apply orb_false_iff in Hfl as (_ & Es).
  eapply good_app; [|apply scale_good2].
  eapply good_app; [apply first_slow2; [exact Es|tauto]|]. eapply good_app; [apply slow_may2|].
  eapply good_app; [apply slowfast_good2; auto|]. eapply good_app; [apply fast_may2|]. apply postfast_good2; [exact Es|exact Hbi|tauto].
Qed.

(** only_remaps *)
Lemma only_remaps_fwd2 flag g : (flag =? FORWARD) || t_same f = true -> bi = bo \/ t_pre f = true ->
  good n (st2 bi 0 ins g) (pieces_only_remaps2 esize f flag bi bo) (st2 bo permute outs g).
Proof.
  intros Hfl Hg. unfold pieces_only_remaps2. rewrite Hfl.
  eapply good_app; [apply first_fast2, Hg|]. eapply good_app; [apply fastslow_good2; auto|]. apply postslow_good2; auto.
Qed.
Lemma only_remaps_bwd2 flag g : (flag =? FORWARD) || t_same f = false -> bi = bo \/ t_post f = true ->
  good n (st2 bi permute outs g) (pieces_only_remaps2 esize f flag bi bo) (st2 bo 0 ins g).
Proof.
  intros Hfl Hg. unfold pieces_only_remaps2. rewrite Hfl. apply orb_false_iff in Hfl as (_ & Es).
  eapply good_app; [apply first_slow2; [exact Es|exact Hg]|].
  eapply good_app; [apply slowfast_good2; auto|].
  apply postfast_good2; [exact Es|exact Hbo|left; reflexivity].
Qed.

(** a whole call, either direction *)
Definition fwdpath2 (flag : Z) : bool := (flag =? FORWARD) || t_same f.
Definition src_perm2 (flag : Z) : Z := if fwdpath2 flag then 0 else permute.
Definition src_lay2 (flag : Z) : nat -> box2 := if fwdpath2 flag then ins else outs.
Definition dst_perm2 (flag : Z) : Z := if fwdpath2 flag then permute else 0.
Definition dst_lay2 (flag : Z) : nat -> box2 := if fwdpath2 flag then outs else ins.
Definition call_val2 (scaled ro : bool) (flag : Z) (G : pt2 -> F * F) (r : nat) : pt2 -> F * F :=
  finish2 scaled ro flag (dst_perm2 flag) (dst_lay2 flag) r (if fwdpath2 flag then fwd_val2 ro flag G else bwd_val2 ro flag G).

Lemma compute_good2 scaled ro flag G :
  bi = bo \/ (if fwdpath2 flag then t_pre f = true else t_post f = true /\ t_pre f = false) ->
  good n (st2 bi (src_perm2 flag) (src_lay2 flag) (fld G)) (pieces_compute2 O rnorm esize f P scaled ro flag bi bo)
    (fun r m => holds2 2 (dst_perm2 flag) (dst_lay2 flag r) (fld (call_val2 scaled ro flag G r)) (getb bo m) /\ framed M0 bo hi r m).
Proof.
  unfold src_perm2, src_lay2, dst_perm2, dst_lay2, call_val2, dst_perm2, dst_lay2. destruct (fwdpath2 flag) eqn:E; intros Hg.
  - apply forward_good2; assumption.
  - apply backward_good2; auto.
Qed.

(** stages of only_one_remap *)
Definition stage_src2 (flag which : Z) : Z * (nat -> box2) :=
  if fwdpath2 flag then
    if which =? 1 then (0, ins) else if which =? 2 then (0, t_fast f) else (1, t_slow f)
  else if which =? 3 then (permute, outs) else if which =? 2 then (1, t_slow f) else (0, t_fast f).
Definition stage_dst2 (flag which : Z) : Z * (nat -> box2) :=
  if fwdpath2 flag then
    if which =? 1 then (0, t_fast f) else if which =? 2 then (1, t_slow f) else (permute, outs)
  else if which =? 3 then (1, t_slow f) else if which =? 2 then (0, t_fast f) else (0, ins).

Lemma one_remap_good2 flag which g : which = 1 \/ which = 2 \/ which = 3 ->
  bi = bo \/ (if which =? 1 then t_pre f = true else if which =? 3 then t_post f = true else st_exch st = 0) ->
  good n (st2 bi (fst (stage_src2 flag which)) (snd (stage_src2 flag which)) g) (pieces_one_remap2 esize f flag which bi bo)
    (st2 bo (fst (stage_dst2 flag which)) (snd (stage_dst2 flag which)) g).
Proof.
  unfold stage_src2, stage_dst2, fwdpath2, pieces_one_remap2.
  intros Hw Hg. destruct ((flag =? FORWARD) || t_same f) eqn:E.
  - destruct Hw as [-> | [-> | ->]]; cbn [Z.eqb Pos.eqb fst snd] in *.
    + apply first_fast2; assumption.
    + apply fastslow_good2; auto.
    + apply postslow_good2; auto.
  - apply orb_false_iff in E as (_ & Es). destruct Hw as [-> | [-> | ->]]; cbn [Z.eqb Pos.eqb fst snd] in *.
    + apply (good_conseq n (st2 bi 0 (t_fast f) g) _ (st2 bo 0 ins g)); auto. destruct Hg as [-> | Hp]; [apply postfast_good2; auto|].
      pose proof in_pf as Hc. rewrite (T_postfast _ _ _ _ _ _ _ FA), Es, Hp in Hc |- *.
      apply (plain_good2 bi 0 0 (t_fast f) ins g Hbi q0 q0 L_fast2 L_in2 Hc).
    + apply slowfast_good2; auto.
    + apply first_slow2; auto.
Qed.
End Main.
