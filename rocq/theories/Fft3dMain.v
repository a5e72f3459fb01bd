(** Fft3dMain.v : FFT3d::compute and the only_* calls, all executions, any scalar arithmetic. *)

From Verif Require Import Base Spec Pack3d Sched SchedProofs Phases Exec Remap RemapMain RemapInst
  Remap3d RemapThms RemapTop Layout LayoutProofs Setup3d Setup3dProofs Kiss KissPure KissReal Fft1d Fft3d Frame Fft3dProofs.

(** ** sequences of pieces *)
Section Good.
Context {A : Type}.
Variable n : nat.
(** [cs] run by all ranks to completion one piece after the other takes [pre] to [post] *)
Definition good (pre : nat -> @rmem A -> Prop) (cs : list (nat -> list instr)) (post : nat -> @rmem A -> Prop) : Prop :=
  Forall (wf_code n) cs /\ forall M, (forall r, (r < n)%nat -> pre r (M r)) ->
    exists M', (forall r, (r < n)%nat -> post r (M' r)) /\ one_by_one n cs M M'.

Lemma good_nil pre : good pre [] pre.
Proof. split; [constructor|]. intros M H. exists M. split; [exact H|constructor]. Qed.
Lemma good_one pre c post : wf_code n c -> triple n strict pre c post -> good pre [c] post.
Proof.
  intros W T. split; [constructor; [exact W|constructor]|]. intros M H.
  destruct (triple_exec n pre c post M T W H) as (M' & H1 & H2). exists M'. split; [exact H1|]. econstructor; [exact H2|constructor].
Qed.
Lemma obo_app c1 c2 (M M1 M2 : nat -> @rmem A) : one_by_one n c1 M M1 -> one_by_one n c2 M1 M2 -> one_by_one n (c1 ++ c2) M M2.
Proof. intros H1 H2. induction H1 as [|c cs Ma Mb Mc E H IH]; [exact H2|]. cbn. econstructor; [exact E|]. apply IH, H2. Qed.
Lemma good_app pre c1 mid c2 post : good pre c1 mid -> good mid c2 post -> good pre (c1 ++ c2) post.
Proof.
  intros (W1 & T1) (W2 & T2). split; [apply Forall_app; auto|].
  intros M H. destruct (T1 M H) as (M1 & H1 & E1). destruct (T2 M1 H1) as (M2 & H2 & E2).
  exists M2. split; [exact H2|]. eapply obo_app; eassumption.
Qed.
Lemma good_conseq (pre pre' post post' : nat -> @rmem A -> Prop) c :
  (forall r m, (r < n)%nat -> pre' r m -> pre r m) -> (forall r m, (r < n)%nat -> post r m -> post' r m) ->
  good pre c post -> good pre' c post'.
Proof.
  intros H1 H2 (W & T). split; [exact W|]. intros M H. destruct (T M) as (M' & Ha & Hb); [intros r Hr; apply H1; auto|].
  exists M'. split; [intros r Hr; apply H2; auto|exact Hb].
Qed.
Lemma good_lockstep pre cs post M : good pre cs post -> (forall r, (r < n)%nat -> pre r (M r)) ->
  exists M', (forall r, (r < n)%nat -> post r (M' r)) /\ one_by_one n cs M M' /\ exec_to n (together cs) M M'.
Proof.
  intros (W & T) H. destruct (T M H) as (M' & H1 & H2). exists M'. split; [exact H1|]. split; [exact H2|].
  apply one_by_one_together; assumption.
Qed.
Lemma good_exec pre cs post M : good pre cs post -> (forall r, (r < n)%nat -> pre r (M r)) -> exec_all n (together cs) M post.
Proof. intros G H. destruct (good_lockstep _ _ _ _ G H) as (M' & H1 & _ & H2). exists M'. auto. Qed.
Lemma good_opt (b : bool) pre c post : (b = true -> good pre [c] post) -> (b = false -> forall r m, (r < n)%nat -> pre r m -> post r m) ->
  good pre (if b then [c] else []) post.
Proof. intros H1 H2. destruct b; [auto|]. eapply good_conseq; [| |apply good_nil]; [intros r m Hr H; exact H|auto]. Qed.
Lemma local_wf (f : nat -> @rmem A -> option rmem) : wf_code n (fun r => [ILocal (f r)]).
Proof. intros r _. constructor; [intros x []|constructor]. Qed.
End Good.

(** the caller's arrays and the buffers are as big as setup says *)
Definition arrays_ok {F} (f : fft3) (b : bsel) (M0 : nat -> @rmem F) : Prop :=
  forall r, (r < f_n f)%nat -> 2 * f_fftsize f r <= zlen (getb b (M0 r)) /\
    f_sendsize f r <= zlen (m_send (M0 r)) /\ f_recvsize f r <= zlen (m_recv (M0 r)).

(** the buffers also suffice for the object that setup forgets (see C21) *)
Definition midfast_ok {F} (f : fft3) (M0 : nat -> @rmem F) : Prop :=
  forall q m, f_midfast f = Some q -> snd q = Some m ->
    bufs3 (f_n f) (rm_coll m) (f_pack f) 2 (rm_perm m) (rm_in m) (rm_out m) M0.

Lemma pos3_psize perm b p : perm_ok3 perm -> inb3 p b -> 0 <= pos3 perm b p < psize3 b.
Proof.
  intros Hp Hb. pose proof (cell3_bound 1 perm b p 0 Hb ltac:(lia)) as H. unfold cell3 in H. unfold psize3. lia.
Qed.

Section Main.
Context {F : Type} (O : sops F).
Variable cexp : bool -> Z -> Z -> F * F.
Variable rnorm : Z -> F.
Variables (n : nat) (st : settings) (N : Z * Z * Z) (permute : Z) (ins outs : nat -> box3) (f : fft3) (P : @plans3 F).
Hypothesis FA : facts3 n st N permute ins outs f.
Hypothesis HI : ints3 N.
Hypothesis HPl : setup_ffts3 cexp N = Some P.
Hypothesis Ti : tiling3 n N ins.
Hypothesis To : tiling3 n N outs.
Hypothesis Lo : forall r, (r < n)%nat -> legal3 (outs r).
Hypothesis Hpk : flag_ok (st_pack st).
Variables (bi bo : bsel) (M0 : nat -> @rmem F).
Hypothesis Hbi : isdata bi.
Hypothesis Hbo : isdata bo.
Hypothesis HA : arrays_ok f bo M0.

Local Notation hi := (fun r : nat => 2 * f_fftsize f r).
(** array [b] holds the complex field [G] in layout [lay] stored with permutation [perm] *)
Definition st3 (b : bsel) (perm : Z) (lay : nat -> box3) (g : pt3 -> Z -> F) (r : nat) (m : @rmem F) : Prop :=
  holds3 2 perm (lay r) g (getb b m) /\ framed M0 bo hi r m.

Lemma en : f_n f = n. Proof. apply (F_n _ _ _ _ _ _ _ FA). Qed.
Lemma epk : f_pack f = st_pack st. Proof. apply (F_pack _ _ _ _ _ _ _ FA). Qed.

Lemma counted_bufs m : In m (counted_objs f) -> bufs3 n (rm_coll m) (st_pack st) 2 (rm_perm m) (rm_in m) (rm_out m) M0.
Proof.
  intros Hm r pl Hr Hs. destruct (HA r) as (_ & H1 & H2); [rewrite en; exact Hr|].
  destruct (counted_sizes _ _ _ _ _ _ _ FA m r pl Hm Hs) as (H3 & H4). lia.
Qed.

Lemma layout_hi t r : layout3 f t -> (r < n)%nat -> 2 * vol3 (t r) <= 2 * f_fftsize f r <= zlen (getb bo (M0 r)).
Proof.
  intros Ht Hr. pose proof (layout_fftsize _ _ _ _ _ _ _ FA t r Ht Hr). destruct (HA r) as (H1 & _); [rewrite en; exact Hr|]. lia.
Qed.

Lemma lay_tiles t : layout3 f t -> tiling3 n N t.
Proof. apply (layout_tiling _ _ _ _ _ _ _ FA t Ti To). Qed.

(** one remap object: renamed by [rot] on both sides *)
Lemma one_good di rot m a b g : isdata di -> perm_ok3 rot -> perm_ok3 (rm_perm m) -> layout3 f a -> layout3 f b ->
  rm_in m = (fun r => rotb3 rot (a r)) -> rm_out m = (fun r => rotb3 rot (b r)) ->
  bufs3 n (rm_coll m) (st_pack st) 2 (rm_perm m) (rm_in m) (rm_out m) M0 ->
  good n (st3 di rot a g) [one_remap3 f m di bo] (st3 bo ((rot + rm_perm m) mod 3) b g).
Proof.
  intros Hdi Hrot Hpm La Lb Ein Eout Hbuf. unfold one_remap3. rewrite en, epk.
  pose proof (lay_tiles a La) as Ta. pose proof (lay_tiles b Lb) as Tb.
  assert (Hd : disjoint_owners3 n (rm_in m)) by (rewrite Ein; apply rot_disjoint3; [exact Hrot|apply Ta]).
  apply good_one.
  - apply remap3_wf; auto; lia.
  - eapply triple_conseq; [| |apply (remap3_framed n (rm_coll m) (st_pack st) 2 (rm_perm m) (rm_in m) (rm_out m) di bo Hpk Hpm ltac:(lia) Hdi Hbo Hd strict
      (fun p => g (rotp3 (back3 rot) p)) M0 hi)].
    + intros r m' Hr (H1 & H2). split; [|exact H2]. rewrite Ein. cbv beta. apply (proj1 (holds_rot3 2 rot (a r) g _ Hrot)); exact H1.
    + intros r m' Hr (H1 & H2). split; [|exact H2]. rewrite Eout in H1. cbv beta in H1. apply (proj1 (holds_rotgen 2 rot (rm_perm m) (b r) g _ Hrot Hpm)); exact H1.
    + rewrite Ein, Eout. apply rot_covered3; [exact Hrot|]. apply (tiling3_covered2 n N); assumption.
    + intros r Hr. rewrite Eout. rewrite rot_vol3 by exact Hrot. apply layout_hi; assumption.
    + exact Hbuf.
Qed.

Lemma plain_good di rot perm a b g : isdata di -> perm_ok3 rot -> perm_ok3 perm -> layout3 f a -> layout3 f b ->
  (forall m, In m (objs (plain_pair st rot perm a b)) -> In m (counted_objs f)) ->
  good n (st3 di rot a g) (remap_call3 f (plain_pair st rot perm a b) di bo) (st3 bo ((rot + perm) mod 3) b g).
Proof.
  intros Hdi Hrot Hpm La Lb Hc. unfold remap_call3. cbn [plain_pair fst snd].
  apply (one_good di rot (mkrm3 (coll_bp st) perm (fun r => rotb3 rot (a r)) (fun r => rotb3 rot (b r))) a b g); auto.
  apply counted_bufs, Hc. left; reflexivity.
Qed.

Lemma brick_layout3 : st_exch st =? 0 = false -> layout3 f (f_brick f).
Proof. intros E. do 5 right. split; [|reflexivity]. rewrite (F_exch _ _ _ _ _ _ _ FA), E. reflexivity. Qed.

(** direct, or (in place only) through the brick layout *)
Lemma pencil_good di rot perm a b g : isdata di -> di = bo \/ st_exch st = 0 -> perm_ok3 rot -> perm_ok3 perm -> layout3 f a -> layout3 f b ->
  (forall m, In m (objs (pencil_pair st rot perm a (f_brick f) b)) ->
     bufs3 n (rm_coll m) (st_pack st) 2 (rm_perm m) (rm_in m) (rm_out m) M0) ->
  good n (st3 di rot a g) (remap_call3 f (pencil_pair st rot perm a (f_brick f) b) di bo) (st3 bo ((rot + perm) mod 3) b g).
Proof.
  intros Hdi Hex Hrot Hpm La Lb Hc. unfold pencil_pair in *. destruct (st_exch st =? 0) eqn:Ee; unfold remap_call3; cbn [fst snd].
  - apply (one_good di rot (mkrm3 (coll_pp st) perm (fun r => rotb3 rot (a r)) (fun r => rotb3 rot (b r))) a b g); auto.
    apply Hc. left; reflexivity.
  - pose proof (brick_layout3 Ee) as Lk.
    assert (di = bo) as -> by (destruct Hex as [|E]; [assumption|rewrite E in Ee; discriminate]).
    change ([?x; ?y]) with ([x] ++ [y]).
    apply (good_app n _ [_] (st3 bo rot (f_brick f) g) [_]).
    + replace (st3 bo rot (f_brick f) g) with (st3 bo ((rot + 0) mod 3) (f_brick f) g)
        by (f_equal; destruct Hrot as [-> | [-> | ->]]; reflexivity).
      apply (one_good bo rot (mkrm3 (coll_bp st) 0 (fun r => rotb3 rot (a r)) (fun r => rotb3 rot (f_brick f r))) a (f_brick f) g); auto.
      * left; reflexivity.
      * apply Hc. left; reflexivity.
    + apply (one_good bo rot (mkrm3 (coll_bp st) perm (fun r => rotb3 rot (f_brick f r)) (fun r => rotb3 rot (b r))) (f_brick f) b g); auto.
      apply Hc. right; left; reflexivity.
Qed.

(** layouts *)
Lemma L_in : layout3 f ins. Proof. left. symmetry. apply (F_fin _ _ _ _ _ _ _ FA). Qed.
Lemma L_out : layout3 f outs. Proof. right; left. symmetry. apply (F_fout _ _ _ _ _ _ _ FA). Qed.
Lemma L_fast : layout3 f (f_fast f). Proof. right; right; left; reflexivity. Qed.
Lemma L_mid : layout3 f (f_mid f). Proof. right; right; right; left; reflexivity. Qed.
Lemma L_slow : layout3 f (f_slow f). Proof. do 4 right; left; reflexivity. Qed.
Lemma p0 : perm_ok3 0. Proof. left; reflexivity. Qed.
Lemma p1 : perm_ok3 1. Proof. right; left; reflexivity. Qed.
Lemma p2 : perm_ok3 2. Proof. right; right; reflexivity. Qed.

Lemma in_counted_pre m : In m (oobjs (f_prefast f)) -> In m (counted_objs f).
Proof. intros H. unfold counted_objs. apply in_or_app. left. exact H. Qed.
Lemma in_counted_fm m : In m (objs (f_fastmid f)) -> In m (counted_objs f).
Proof. intros H. unfold counted_objs. apply in_or_app. right. apply in_or_app. left. exact H. Qed.
Lemma in_counted_ms m : In m (objs (f_midslow f)) -> In m (counted_objs f).
Proof. intros H. unfold counted_objs. do 2 (apply in_or_app; right). apply in_or_app. left. exact H. Qed.
Lemma in_counted_ps m : In m (oobjs (f_postslow f)) -> In m (counted_objs f).
Proof. intros H. unfold counted_objs. do 3 (apply in_or_app; right). apply in_or_app. left. exact H. Qed.
Lemma in_counted_prs m : In m (oobjs (f_preslow f)) -> In m (counted_objs f).
Proof. intros H. unfold counted_objs. do 4 (apply in_or_app; right). apply in_or_app. left. exact H. Qed.
Lemma in_counted_sm m : In m (oobjs (f_slowmid f)) -> In m (counted_objs f).
Proof. intros H. unfold counted_objs. do 5 (apply in_or_app; right). apply in_or_app. left. exact H. Qed.
Lemma in_counted_mf m : In m (counted_midfast (f_midfast f)) -> In m (counted_objs f).
Proof. intros H. unfold counted_objs. do 6 (apply in_or_app; right). apply in_or_app. left. exact H. Qed.
Lemma in_counted_pf m : In m (oobjs (f_postfast f)) -> In m (counted_objs f).
Proof. intros H. unfold counted_objs. do 7 (apply in_or_app; right). exact H. Qed.

(** the first step: remap, or memcpy (a no-op in place) *)
Lemma first_fast g : bi = bo \/ f_pre f = true ->
  good n (st3 bi 0 ins g)
    (match f_prefast f with Some p => remap_call3 f p bi bo | None => [copying3 (fun r => psize3 (f_in f r)) bi bo] end)
    (st3 bo 0 (f_fast f) g).
Proof.
  intros Hg. pose proof (F_prefast _ _ _ _ _ _ _ FA) as E. pose proof in_counted_pre as Hc. rewrite E in Hc |- *.
  destruct (f_pre f) eqn:Epre.
  - apply (plain_good bi 0 0 ins (f_fast f) g Hbi p0 p0 L_in L_fast Hc).
  - destruct Hg as [Eb|]; [|discriminate]. rewrite (F_pre_fast _ _ _ _ _ _ _ FA Epre). unfold copying3. rewrite Eb.
    replace (bsel_eqb bo bo) with true by (destruct bo; reflexivity).
    apply good_one; [intros r _; constructor|]. apply (triple_nil n strict (st3 bo 0 ins g)).
Qed.

Lemma fastmid_good di g : isdata di -> di = bo \/ st_exch st = 0 ->
  good n (st3 di 0 (f_fast f) g) (remap_call3 f (f_fastmid f) di bo) (st3 bo 1 (f_mid f) g).
Proof.
  intros Hdi Hex. pose proof in_counted_fm as Hc. rewrite (F_fastmid _ _ _ _ _ _ _ FA) in Hc |- *.
  apply (pencil_good di 0 1 (f_fast f) (f_mid f) g Hdi Hex p0 p1 L_fast L_mid). intros m Hm. apply counted_bufs, Hc, Hm.
Qed.
Lemma midslow_good di g : isdata di -> di = bo \/ st_exch st = 0 ->
  good n (st3 di 1 (f_mid f) g) (remap_call3 f (f_midslow f) di bo) (st3 bo 2 (f_slow f) g).
Proof.
  intros Hdi Hex. pose proof in_counted_ms as Hc. rewrite (F_midslow _ _ _ _ _ _ _ FA) in Hc |- *.
  apply (pencil_good di 1 1 (f_mid f) (f_slow f) g Hdi Hex p1 p1 L_mid L_slow). intros m Hm. apply counted_bufs, Hc, Hm.
Qed.
Lemma postslow_good di g : isdata di -> di = bo \/ f_post f = true ->
  good n (st3 di 2 (f_slow f) g) (opt_remap3 f (f_postslow f) di bo) (st3 bo permute outs g).
Proof.
  intros Hdi Hpo. pose proof in_counted_ps as Hc. rewrite (F_postslow _ _ _ _ _ _ _ FA) in Hc |- *.
  pose proof (F_perm _ _ _ _ _ _ _ FA) as Hp. destruct (f_post f) eqn:Ep.
  - cbn [opt_remap3].
    assert (E : (2 + (permute + 1) mod 3) mod 3 = permute) by (destruct Hp as [-> | [-> | ->]]; reflexivity).
    replace (st3 bo permute outs g) with (st3 bo ((2 + (permute + 1) mod 3) mod 3) outs g) by (rewrite E; reflexivity).
    apply plain_good; auto using p2, L_slow, L_out. destruct Hp as [-> | [-> | ->]]; vm_compute; auto.
  - destruct Hpo as [->|]; [|discriminate]. rewrite (F_post_slow _ _ _ _ _ _ _ FA Ep). destruct (proj1 (F_post _ _ _ _ _ _ _ FA) Ep) as (-> & _). apply good_nil.
Qed.

Lemma first_slow g : f_same f = false -> bi = bo \/ f_post f = true ->
  good n (st3 bi permute outs g)
    (match f_preslow f with Some p => remap_call3 f p bi bo | None => [copying3 (fun r => psize3 (f_out f r)) bi bo] end)
    (st3 bo 2 (f_slow f) g).
Proof.
  intros Es Hg. pose proof in_counted_prs as Hc. rewrite (F_preslow _ _ _ _ _ _ _ FA), Es in Hc |- *.
  pose proof (F_perm _ _ _ _ _ _ _ FA) as Hp. destruct (f_post f) eqn:Ep.
  - assert (E : (permute + (5 - permute) mod 3) mod 3 = 2) by (destruct Hp as [-> | [-> | ->]]; reflexivity).
    replace (st3 bo 2 (f_slow f) g) with (st3 bo ((permute + (5 - permute) mod 3) mod 3) (f_slow f) g) by (rewrite E; reflexivity).
    apply plain_good; auto using L_slow, L_out. destruct Hp as [-> | [-> | ->]]; vm_compute; auto.
  - destruct Hg as [Eb|]; [|discriminate]. rewrite (F_post_slow _ _ _ _ _ _ _ FA Ep).
    destruct (proj1 (F_post _ _ _ _ _ _ _ FA) Ep) as (Ep2 & _). rewrite Ep2. unfold copying3. rewrite Eb.
    replace (bsel_eqb bo bo) with true by (destruct bo; reflexivity).
    apply good_one; [intros r _; constructor|]. apply (triple_nil n strict (st3 bo 2 outs g)).
Qed.
Lemma slowmid_good di g : isdata di -> di = bo \/ st_exch st = 0 -> f_same f = false ->
  good n (st3 di 2 (f_slow f) g) (opt_remap3 f (f_slowmid f) di bo) (st3 bo 1 (f_mid f) g).
Proof.
  intros Hdi Hex Es. pose proof in_counted_sm as Hc. rewrite (F_slowmid _ _ _ _ _ _ _ FA), Es in Hc |- *. cbn [opt_remap3].
  apply (pencil_good di 2 2 (f_slow f) (f_mid f) g Hdi Hex p2 p2 L_slow L_mid). intros m Hm. apply counted_bufs, Hc, Hm.
Qed.
Lemma midfast_good di g : isdata di -> di = bo \/ st_exch st = 0 -> f_same f = false -> midfast_ok f M0 ->
  good n (st3 di 1 (f_mid f) g) (opt_remap3 f (f_midfast f) di bo) (st3 bo 0 (f_fast f) g).
Proof.
  intros Hdi Hex Es Hmf. pose proof in_counted_mf as Hc. unfold midfast_ok in Hmf. rewrite (F_midfast _ _ _ _ _ _ _ FA), Es in Hc, Hmf |- *.
  rewrite en, epk in Hmf. cbn [opt_remap3].
  apply (pencil_good di 1 2 (f_mid f) (f_fast f) g Hdi Hex p1 p2 L_mid L_fast). intros m [<-|Hm].
  - apply counted_bufs, Hc. left; reflexivity.
  - apply (Hmf _ m eq_refl). destruct (snd (pencil_pair st 1 2 (f_mid f) (f_brick f) (f_fast f))); [|destruct Hm].
    destruct Hm as [-> | []]. reflexivity.
Qed.
Lemma postfast_good di g : f_same f = false -> isdata di -> di = bo \/ f_pre f = false ->
  good n (st3 bo 0 (f_fast f) g) (opt_remap3 f (f_postfast f) di bo) (st3 bo 0 ins g).
Proof.
  intros Es Hdi Hg. pose proof in_counted_pf as Hc. rewrite (F_postfast _ _ _ _ _ _ _ FA), Es in Hc |- *. destruct (f_pre f) eqn:Epre.
  - destruct Hg as [->|]; [|discriminate]. cbn [opt_remap3].
    apply (plain_good bo 0 0 (f_fast f) ins g Hbo p0 p0 L_fast L_in Hc).
  - rewrite (F_pre_fast _ _ _ _ _ _ _ FA Epre). apply good_nil.
Qed.

(** the 1d transforms *)
Definition plan_fast (flag : Z) := if flag =? FORWARD then pl_ff P else pl_fb P.
Definition plan_mid (flag : Z) := if flag =? FORWARD then pl_mf P else pl_mb P.
Definition plan_slow (flag : Z) := if flag =? FORWARD then pl_sf P else pl_sb P.

Lemma plans_ok flag : plan_for cexp (fst (fst N)) (negb (flag =? FORWARD)) (plan_fast flag) /\
  plan_for cexp (snd (fst N)) (negb (flag =? FORWARD)) (plan_mid flag) /\ plan_for cexp (snd N) (negb (flag =? FORWARD)) (plan_slow flag).
Proof.
  pose proof (setup_ffts3_ok O cexp N) as H. pose proof (F_dims _ _ _ _ _ _ _ FA) as HD. clear - HPl H HD HI.
  destruct N as [[x y] z]. cbn in HI, HD. unfold dim_ok, INT_MAX in *.
  destruct H as (P' & E & H1 & H2 & H3 & H4 & H5 & H6); [lia|lia|lia|]. assert (P' = P) by congruence. subst P'.
  unfold plan_fast, plan_mid, plan_slow. cbn [fst snd]. destruct (flag =? FORWARD); cbn [negb]; auto.
Qed.

Lemma fast_legal r : (r < n)%nat -> legal3 (f_fast f r). Proof. apply (F_fast_legal _ _ _ _ _ _ _ FA). Qed.
Lemma mid_legal r : (r < n)%nat -> legal3 (f_mid f r). Proof. apply (F_mid_legal _ _ _ _ _ _ _ FA). Qed.
Lemma slow_legal r : (r < n)%nat -> legal3 (f_slow f r). Proof. apply (F_slow_legal _ _ _ _ _ _ _ FA Lo). Qed.

Lemma psize_hi t r : layout3 f t -> legal3 (t r) -> (r < n)%nat -> 2 * psize3 (t r) <= 2 * f_fftsize f r <= zlen (getb bo (M0 r)).
Proof. intros Ht Hl Hr. rewrite psize3_vol by exact Hl. apply layout_hi; assumption. Qed.

Lemma fast_ffts flag G : good n (st3 bo 0 (f_fast f) (fld G)) [ffts_fast O f P flag bo] (st3 bo 0 (f_fast f) (fld (along 0 (lineT O (plan_fast flag)) G))).
Proof.
  apply good_one; [apply local_wf|]. unfold ffts_fast. fold (plan_fast flag). rewrite (F_N _ _ _ _ _ _ _ FA).
  apply (ffts_step O n strict M0 bo hi cexp (plan_fast flag) (negb (flag =? FORWARD)) 0 (fst (fst N)) (f_fast f)
    (fun r => nj (f_fast f r) * nk (f_fast f r) * fst (fst N)) G Hbo p0 (proj1 (plans_ok flag))).
  - intros r Hr. split; [apply fast_legal, Hr|]. apply (F_fast_span _ _ _ _ _ _ _ FA r Hr).
  - intros r Hr. reflexivity.
  - intros r Hr. apply (psize_hi (f_fast f) r L_fast (fast_legal r Hr) Hr).
Qed.
Lemma mid_ffts flag G : good n (st3 bo 1 (f_mid f) (fld G)) [ffts_mid O f P flag bo] (st3 bo 1 (f_mid f) (fld (along 1 (lineT O (plan_mid flag)) G))).
Proof.
  apply good_one; [apply local_wf|]. unfold ffts_mid. fold (plan_mid flag). rewrite (F_N _ _ _ _ _ _ _ FA).
  apply (ffts_step O n strict M0 bo hi cexp (plan_mid flag) (negb (flag =? FORWARD)) 1 (snd (fst N)) (f_mid f)
    (fun r => ni (f_mid f r) * nk (f_mid f r) * snd (fst N)) G Hbo p1 (proj1 (proj2 (plans_ok flag)))).
  - intros r Hr. split; [apply mid_legal, Hr|]. apply (F_mid_span _ _ _ _ _ _ _ FA r Hr).
  - intros r Hr. change (nj (rotb3 1 (f_mid f r))) with (nk (f_mid f r)). change (nk (rotb3 1 (f_mid f r))) with (ni (f_mid f r)). ring.
  - intros r Hr. apply (psize_hi (f_mid f) r L_mid (mid_legal r Hr) Hr).
Qed.
Lemma slow_ffts flag G : good n (st3 bo 2 (f_slow f) (fld G)) [ffts_slow O f P flag bo] (st3 bo 2 (f_slow f) (fld (along 2 (lineT O (plan_slow flag)) G))).
Proof.
  apply good_one; [apply local_wf|]. unfold ffts_slow. fold (plan_slow flag). rewrite (F_N _ _ _ _ _ _ _ FA).
  apply (ffts_step O n strict M0 bo hi cexp (plan_slow flag) (negb (flag =? FORWARD)) 2 (snd N) (f_slow f)
    (fun r => ni (f_slow f r) * nj (f_slow f r) * snd N) G Hbo p2 (proj2 (proj2 (plans_ok flag)))).
  - intros r Hr. split; [apply slow_legal, Hr|]. apply (F_slow_span _ _ _ _ _ _ _ FA r Hr).
  - intros r Hr. reflexivity.
  - intros r Hr. apply (psize_hi (f_slow f) r L_slow (slow_legal r Hr) Hr).
Qed.

(** optional transforms *)
Definition may (remaponly : bool) (ax : Z) (T : (Z -> F * F) -> Z -> F * F) (G : pt3 -> F * F) : pt3 -> F * F :=
  if remaponly then G else along ax T G.

Lemma fast_may (ro : bool) flag G : good n (st3 bo 0 (f_fast f) (fld G)) (if ro then [] else [ffts_fast O f P flag bo])
  (st3 bo 0 (f_fast f) (fld (may ro 0 (lineT O (plan_fast flag)) G))).
Proof. destruct ro; [apply good_nil|apply fast_ffts]. Qed.
Lemma mid_may (ro : bool) flag G : good n (st3 bo 1 (f_mid f) (fld G)) (if ro then [] else [ffts_mid O f P flag bo])
  (st3 bo 1 (f_mid f) (fld (may ro 1 (lineT O (plan_mid flag)) G))).
Proof. destruct ro; [apply good_nil|apply mid_ffts]. Qed.
Lemma slow_may (ro : bool) flag G : good n (st3 bo 2 (f_slow f) (fld G)) (if ro then [] else [ffts_slow O f P flag bo])
  (st3 bo 2 (f_slow f) (fld (may ro 2 (lineT O (plan_slow flag)) G))).
Proof. destruct ro; [apply good_nil|apply slow_ffts]. Qed.

Definition gridsize : Z := fst (fst N) * snd (fst N) * snd N.
(** value of point p after the optional scaling, stored at [pos3 perm (lay r) p] on rank r *)
Definition finish (scaled ro : bool) (flag perm : Z) (lay : nat -> box3) (r : nat) (G : pt3 -> F * F) (p : pt3) : F * F :=
  if (flag =? BACKWARD) && scaled && negb ro && (pos3 perm (lay r) p <? psize3 (outs r)) then scl O (rnorm gridsize) (G p) else G p.

Lemma scale_good (scaled ro : bool) flag perm lay G :
  good n (st3 bo perm lay (fld G)) (if (flag =? BACKWARD) && scaled && negb ro then [scaling3 O rnorm f bo] else [])
    (fun r m => holds3 2 perm (lay r) (fld (finish scaled ro flag perm lay r G)) (getb bo m) /\ framed M0 bo hi r m).
Proof.
  unfold finish. destruct ((flag =? BACKWARD) && scaled && negb ro).
  - cbn [andb]. apply good_one; [apply local_wf|]. unfold scaling3. rewrite (F_N _ _ _ _ _ _ _ FA), (F_fout _ _ _ _ _ _ _ FA).
    fold gridsize. apply (scale_step O n strict M0 bo hi (rnorm gridsize) (fun r => psize3 (outs r)) perm lay G Hbo).
    intros r Hr. split; [|apply (psize_hi outs r L_out (Lo r Hr) Hr)].
    rewrite psize3_vol by (apply Lo, Hr). unfold vol3. nia.
  - cbn [andb]. eapply good_conseq; [| |apply good_nil]; [intros r m Hr H; exact H|]. intros r m Hr H. exact H.
Qed.

(** *** forward path: input layout -> permuted output layout *)
Definition fwd_val (ro : bool) (flag : Z) (G : pt3 -> F * F) : pt3 -> F * F :=
  may ro 2 (lineT O (plan_slow flag)) (may ro 1 (lineT O (plan_mid flag)) (may ro 0 (lineT O (plan_fast flag)) G)).
Definition bwd_val (ro : bool) (flag : Z) (G : pt3 -> F * F) : pt3 -> F * F :=
  may ro 0 (lineT O (plan_fast flag)) (may ro 1 (lineT O (plan_mid flag)) (may ro 2 (lineT O (plan_slow flag)) G)).

Lemma forward_good scaled ro flag G : (flag =? FORWARD) || f_same f = true -> bi = bo \/ f_pre f = true ->
  good n (st3 bi 0 ins (fld G)) (pieces_compute3 O rnorm f P scaled ro flag bi bo)
    (fun r m => holds3 2 permute (outs r) (fld (finish scaled ro flag permute outs r (fwd_val ro flag G))) (getb bo m) /\ framed M0 bo hi r m).
Proof.
  intros Hfl Hg. unfold pieces_compute3. rewrite Hfl.
  eapply good_app; [|apply scale_good].
  eapply good_app; [apply first_fast, Hg|]. eapply good_app; [apply fast_may|].
  eapply good_app; [apply fastmid_good; auto|]. eapply good_app; [apply mid_may|].
  eapply good_app; [apply midslow_good; auto|]. eapply good_app; [apply slow_may|]. apply postslow_good; auto.
Qed.

Lemma backward_good scaled ro flag G : (flag =? FORWARD) || f_same f = false -> bi = bo \/ (f_post f = true /\ f_pre f = false) ->
  midfast_ok f M0 ->
  good n (st3 bi permute outs (fld G)) (pieces_compute3 O rnorm f P scaled ro flag bi bo)
    (fun r m => holds3 2 0 (ins r) (fld (finish scaled ro flag 0 ins r (bwd_val ro flag G))) (getb bo m) /\ framed M0 bo hi r m).
Proof.
  intros Hfl Hg Hmf. unfold pieces_compute3. rewrite Hfl. apply orb_false_iff in Hfl as (_ & Es).
  eapply good_app; [|apply scale_good].
  eapply good_app; [apply first_slow; [exact Es|tauto]|]. eapply good_app; [apply slow_may|].
  eapply good_app; [apply slowmid_good; auto|]. eapply good_app; [apply mid_may|].
  eapply good_app; [apply midfast_good; auto|]. eapply good_app; [apply fast_may|]. apply postfast_good; [exact Es|exact Hbi|tauto].
Qed.

(** only_remaps *)
Lemma only_remaps_fwd flag g : (flag =? FORWARD) || f_same f = true -> bi = bo \/ f_pre f = true ->
  good n (st3 bi 0 ins g) (pieces_only_remaps3 f flag bi bo) (st3 bo permute outs g).
Proof.
  intros Hfl Hg. unfold pieces_only_remaps3. rewrite Hfl.
  eapply good_app; [apply first_fast, Hg|]. eapply good_app; [apply fastmid_good; auto|].
  eapply good_app; [apply midslow_good; auto|]. apply postslow_good; auto.
Qed.
Lemma only_remaps_bwd flag g : (flag =? FORWARD) || f_same f = false -> bi = bo \/ f_post f = true -> midfast_ok f M0 ->
  good n (st3 bi permute outs g) (pieces_only_remaps3 f flag bi bo) (st3 bo 0 ins g).
Proof.
  intros Hfl Hg Hmf. unfold pieces_only_remaps3. rewrite Hfl. apply orb_false_iff in Hfl as (_ & Es).
  eapply good_app; [apply first_slow; [exact Es|exact Hg]|].
  eapply good_app; [apply slowmid_good; auto|]. eapply good_app; [apply midfast_good; auto|].
  apply postfast_good; [exact Es|exact Hbo|left; reflexivity].
Qed.

(** a whole call, either direction *)
Definition fwdpath (flag : Z) : bool := (flag =? FORWARD) || f_same f.
Definition src_perm (flag : Z) : Z := if fwdpath flag then 0 else permute.
Definition src_lay (flag : Z) : nat -> box3 := if fwdpath flag then ins else outs.
Definition dst_perm (flag : Z) : Z := if fwdpath flag then permute else 0.
Definition dst_lay (flag : Z) : nat -> box3 := if fwdpath flag then outs else ins.
Definition call_val (scaled ro : bool) (flag : Z) (G : pt3 -> F * F) (r : nat) : pt3 -> F * F :=
  finish scaled ro flag (dst_perm flag) (dst_lay flag) r (if fwdpath flag then fwd_val ro flag G else bwd_val ro flag G).

Lemma compute_good scaled ro flag G :
  bi = bo \/ (if fwdpath flag then f_pre f = true else f_post f = true /\ f_pre f = false) ->
  (fwdpath flag = false -> midfast_ok f M0) ->
  good n (st3 bi (src_perm flag) (src_lay flag) (fld G)) (pieces_compute3 O rnorm f P scaled ro flag bi bo)
    (fun r m => holds3 2 (dst_perm flag) (dst_lay flag r) (fld (call_val scaled ro flag G r)) (getb bo m) /\ framed M0 bo hi r m).
Proof.
  unfold src_perm, src_lay, dst_perm, dst_lay, call_val, dst_perm, dst_lay. destruct (fwdpath flag) eqn:E; intros Hg Hm.
  - apply forward_good; assumption.
  - apply backward_good; auto.
Qed.

(** stages of only_one_remap *)
Definition stage_src (flag which : Z) : Z * (nat -> box3) :=
  if fwdpath flag then
    if which =? 1 then (0, ins) else if which =? 2 then (0, f_fast f) else if which =? 3 then (1, f_mid f) else (2, f_slow f)
  else if which =? 4 then (permute, outs) else if which =? 3 then (2, f_slow f) else if which =? 2 then (1, f_mid f) else (0, f_fast f).
Definition stage_dst (flag which : Z) : Z * (nat -> box3) :=
  if fwdpath flag then
    if which =? 1 then (0, f_fast f) else if which =? 2 then (1, f_mid f) else if which =? 3 then (2, f_slow f) else (permute, outs)
  else if which =? 4 then (2, f_slow f) else if which =? 3 then (1, f_mid f) else if which =? 2 then (0, f_fast f) else (0, ins).
Definition stage_oop (which : Z) : Prop :=
  if which =? 1 then f_pre f = true else if which =? 4 then f_post f = true else st_exch st = 0.

Lemma one_remap_good flag which g : which = 1 \/ which = 2 \/ which = 3 \/ which = 4 ->
  bi = bo \/ stage_oop which -> (fwdpath flag = false -> which = 2 -> midfast_ok f M0) ->
  good n (st3 bi (fst (stage_src flag which)) (snd (stage_src flag which)) g) (pieces_one_remap3 f flag which bi bo)
    (st3 bo (fst (stage_dst flag which)) (snd (stage_dst flag which)) g).
Proof.
  unfold stage_src, stage_dst, stage_oop, fwdpath, pieces_one_remap3.
  intros Hw Hg Hm. destruct ((flag =? FORWARD) || f_same f) eqn:E.
  - destruct Hw as [-> | [-> | [-> | ->]]]; cbn [Z.eqb Pos.eqb fst snd] in *.
    + apply first_fast; assumption.
    + apply fastmid_good; auto.
    + apply midslow_good; auto.
    + apply postslow_good; auto.
  - apply orb_false_iff in E as (_ & Es). destruct Hw as [-> | [-> | [-> | ->]]]; cbn [Z.eqb Pos.eqb fst snd] in *.
    + apply (good_conseq n (st3 bi 0 (f_fast f) g) _ (st3 bo 0 ins g)); auto. destruct Hg as [-> | Hp]; [apply postfast_good; auto|].
      pose proof in_counted_pf as Hc. rewrite (F_postfast _ _ _ _ _ _ _ FA), Es, Hp in Hc |- *.
      apply (plain_good bi 0 0 (f_fast f) ins g Hbi p0 p0 L_fast L_in Hc).
    + apply midfast_good; auto.
    + apply slowmid_good; auto.
    + apply first_slow; auto.
Qed.
End Main.
