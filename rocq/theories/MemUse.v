(** MemUse.v : the [shape] that Life.v takes as input, computed from the models of setup (Setup3d.v, Setup2d.v) and of
    Remap3d::setup / Remap2d::setup (Remap.v); and the number reported in memusage compared with what was allocated. *)

From Coq Require Import Permutation.
From Verif Require Import Base Spec Pack3d Pack2d Sched Remap Remap3d Remap2d RemapPlan RemapMain RemapInst RemapThms Setup3d Setup3dProofs Setup2d Setup2dProofs Fft3dProofs Fft2dMain.
From Verif Require Import Life LifeProofs LifeFft LifeObj Tune TuneProofs Proto ProtoProofs.
Open Scope Z_scope.

(** ** counts of one remap object on rank [r] *)

(** nsend and nrecv before the self message is dropped, remap3d.cpp:230-236, 335-341; remap2d.cpp:222-228, 305-311 *)
Definition cnt_of {plan} (pl : @rplan plan) : rcnt :=
  mkrcnt (zlen (rp_send pl)) (zlen (rp_recv pl)) (rp_self pl) (zlen (rp_group pl)) (rp_sendsize pl) (rp_recvsize pl).
Definition nocnt : rcnt := mkrcnt 0 0 false 0 0 0.
Definition cflag (b : bool) : Z := if b then 1 else 0.

(** fft3d.cpp:1146-1154 and the like: collective, then setup with 2 values per point and memoryflag 0 *)
Definition cnt3 (n : nat) (pack : Z) (r : nat) (m : rm3) : Z * rcnt :=
  (cflag (rm_coll m),
   match setup3 n (rm_coll m) pack 2 (rm_perm m) (rm_in m) (rm_out m) r with Some pl => cnt_of pl | None => nocnt end).
Definition rmk3 (n : nat) (pack : Z) (r : nat) (p : remap_pair) : rmk :=
  mkrmk (cnt3 n pack r (fst p)) (option_map (cnt3 n pack r) (snd p)).
(** the FFT3d members in the order of Life.o_remaps *)
Definition shape3 (f : fft3) (r : nat) : shape :=
  let k := rmk3 (f_n f) (f_pack f) r in
  mkshape (let '(x, y, z) := f_N f in [x; y; z])
    [option_map k (f_prefast f); Some (k (f_fastmid f)); Some (k (f_midslow f)); option_map k (f_postslow f);
     option_map k (f_preslow f); option_map k (f_slowmid f); option_map k (f_midfast f); option_map k (f_postfast f)]
    (f_fftsize f r, f_sendsize f r, f_recvsize f r).

Definition cnt2 (n : nat) (pack : Z) (r : nat) (m : rm2) : Z * rcnt :=
  (cflag (rm2_coll m),
   match setup2 n (rm2_coll m) pack 2 (rm2_perm m) (rm2_in m) (rm2_out m) r with Some pl => cnt_of pl | None => nocnt end).
Definition rmk2 (n : nat) (pack : Z) (r : nat) (p : remap_pair2) : rmk :=
  mkrmk (cnt2 n pack r (fst p)) (option_map (cnt2 n pack r) (snd p)).
Definition shape2 (f : fft2) (r : nat) : shape :=
  let k := rmk2 (t_n f) (t_pack f) r in
  mkshape (let '(x, y) := t_N f in [x; y])
    [option_map k (t_prefast f); Some (k (t_fastslow f)); option_map k (t_postslow f);
     option_map k (t_preslow f); option_map k (t_slowfast f); option_map k (t_postfast f)]
    (t_fftsize f r, t_sendsize f r, t_recvsize f r).

Definition smap {X Y} (g : X -> Y) (s : sres X) : sres Y := match s with SErr m => SErr m | SUB => SUB | SOk x => SOk (g x) end.
(** what rank [r]'s setup() call does, fft3d.cpp:219-494 and fft2d.cpp:227-463 *)
Definition setup_shape3 ar n N permute ins outs (r : nat) (st : settings) : sres shape :=
  smap (fun f => shape3 f r) (setup3d ar n st N permute ins outs).
Definition setup_shape2 ar n N permute ins outs (r : nat) (st : settings) : sres shape :=
  smap (fun f => shape2 f r) (setup2d ar n st N permute ins outs).

(** ** lengths *)
Lemma shape3_len f r : shape_len true (shape3 f r) = true.
Proof. unfold shape_len, shape3. destruct (f_N f) as [[x y] z]. reflexivity. Qed.
Lemma shape2_len f r : shape_len false (shape2 f r) = true.
Proof. unfold shape_len, shape2. destruct (t_N f) as [x y]. reflexivity. Qed.

(** ** the counts are those of all the objects *)
Lemma kcnts3 n pack r p : kcnts (Some (rmk3 n pack r p)) = map (cnt3 n pack r) (objs p).
Proof. destruct p as [a [b|]]; reflexivity. Qed.
Lemma kcnts3o n pack r p : kcnts (option_map (rmk3 n pack r) p) = map (cnt3 n pack r) (oobjs p).
Proof. destruct p as [p|]; [apply kcnts3|reflexivity]. Qed.
Lemma shape3_cnts f r : all_cnts (shape3 f r) = map (cnt3 (f_n f) (f_pack f) r) (all_objs f).
Proof.
  unfold all_cnts, shape3, all_objs, fwd_objs, bwd_objs. cbn [s_remaps flat_map]. rewrite !kcnts3, !kcnts3o, !map_app, app_nil_r, <- !app_assoc. reflexivity.
Qed.
Lemma kcnts2 n pack r p : kcnts (Some (rmk2 n pack r p)) = map (cnt2 n pack r) (objs2 p).
Proof. destruct p as [a [b|]]; reflexivity. Qed.
Lemma kcnts2o n pack r p : kcnts (option_map (rmk2 n pack r) p) = map (cnt2 n pack r) (oobjs2 p).
Proof. destruct p as [p|]; [apply kcnts2|reflexivity]. Qed.
Lemma shape2_cnts f r : all_cnts (shape2 f r) = map (cnt2 (t_n f) (t_pack f) r) (all_objs2 f).
Proof.
  unfold all_cnts, shape2, all_objs2, fwd_objs2, bwd_objs2. cbn [s_remaps flat_map]. rewrite !kcnts2, !kcnts2o, !map_app, app_nil_r, <- !app_assoc. reflexivity.
Qed.

(** ** sizes of a plan are not negative *)
Lemma max_sizes_nonneg {plan} (l : list (@entry plan)) : 0 <= max_sizes l.
Proof.
  unfold max_sizes. assert (H : forall l s, 0 <= s -> 0 <= fold_left (fun s e => Z.max s (@e_size plan e)) l s).
  { induction l0 as [|e t IH]; intros s Hs; cbn [fold_left]; [exact Hs|]. apply IH. lia. }
  apply H. lia.
Qed.
Lemma sum_sizes_nonneg {plan} (l : list (@entry plan)) : (forall e, In e l -> 0 <= e_size e) -> 0 <= sum_sizes l.
Proof.
  unfold sum_sizes. induction l as [|e t IH]; intros H; cbn [fold_right]; [lia|].
  pose proof (H e (or_introl eq_refl)). specialize (IH (fun x I => H x (or_intror I))). lia.
Qed.

Section Gen.
Context {A ext plan : Type}.
Variable o : rops A ext plan.
Hypothesis size_nonneg : forall a b ov, o_collide o a b = Some ov -> 0 <= o_size o ov.
Lemma plan_nonneg n coll ins outs r pl : (r < n)%nat -> 0 <= o_outvol o (outs r) -> setup o n coll ins outs r = Some pl ->
  0 <= rp_sendsize pl /\ 0 <= rp_recvsize pl.
Proof using size_nonneg.
  intros Hr Ho E. destruct coll.
  - destruct (setup_coll o n ins outs r Hr) as (g & Hg & _). rewrite Hg in E. injection E as <-. cbn [rp_sendsize rp_recvsize].
    split; apply sum_sizes_nonneg; intros e He.
    + unfold send_entries in He. apply in_flat_map in He as (p & _ & He). destruct (o_collide o (ins r) (outs p)) as [ov|] eqn:C; [|destruct He].
      destruct He as [<-|[]]. cbn. eauto.
    + unfold recv_entries in He. apply in_flat_map in He as (p & _ & He). destruct (o_collide o (outs r) (ins p)) as [ov|] eqn:C; [|destruct He].
      destruct He as [<-|[]]. cbn. eauto.
  - rewrite (setup_p2p o n ins outs r Hr) in E. injection E as <-. cbn. split; [apply max_sizes_nonneg|exact Ho].
Qed.
End Gen.

Lemma size3_nonneg a b ov : collide3 a b = Some ov -> 0 <= size3 2 ov.
Proof.
  unfold collide3. set (v := mkbox3 _ _ _ _ _ _). destruct (_ || _) eqn:E; [discriminate|]. intros [= <-].
  rewrite !orb_false_iff, !Z.ltb_ge in E. unfold size3, ni, nj, nk. destruct E as [[E1 E2] E3].
  repeat apply Z.mul_nonneg_nonneg; lia.
Qed.
Lemma size2_nonneg a b ov : collide2 a b = Some ov -> 0 <= size2 2 ov.
Proof.
  unfold collide2. set (v := mkbox2 _ _ _ _). destruct (_ || _) eqn:E; [discriminate|]. intros [= <-].
  rewrite !orb_false_iff, !Z.ltb_ge in E. unfold size2, ni2, nj2. destruct E as [E1 E2].
  repeat apply Z.mul_nonneg_nonneg; lia.
Qed.

(** ** what the counts mean *)

(** exactly [k] ranks below [n] satisfy [P] *)
Definition how_many (n : nat) (P : nat -> Prop) (k : Z) : Prop :=
  exists l, NoDup l /\ (forall q, In q l <-> (q < n)%nat /\ P q) /\ k = zlen l.
(** two tiles share a point *)
Definition meet3 (a b : box3) : Prop := exists p, inb3 p a /\ inb3 p b.
Definition meet2 (a b : box2) : Prop := exists p, inb2 p a /\ inb2 p b.
(** connected by a chain of one or more messages, in either direction *)
Inductive chained (n : nat) (link : nat -> nat -> Prop) (r : nat) : nat -> Prop :=
  | chained_one q : (q < n)%nat -> link r q \/ link q r -> chained n link r q
  | chained_more q s : chained n link r q -> (s < n)%nat -> link q s \/ link s q -> chained n link r s.

(** the counts of a remap from [ins] to [outs] as rank [r] sees it; [link p q]: [p] has points for [q] *)
Definition counts (n : nat) (coll : bool) (link : nat -> nat -> Prop) (r : nat) (c : rcnt) : Prop :=
  how_many n (fun q => link r q) (c_nsend c) /\
  how_many n (fun q => link q r) (c_nrecv c) /\
  (coll = false -> (c_self c = true <-> link r r)) /\
  (coll = true -> c_self c = false) /\
  (if coll then how_many n (chained n link r) (c_ngroup c) else c_ngroup c = 0).

Section Cnt.
Context {A ext plan : Type}.
Variable o : rops A ext plan.
Variable meet : ext -> ext -> Prop.
Hypothesis sym : forall a b, o_collide o a b = o_collide o b a.
Hypothesis meets : forall a b, o_collide o a b <> None <-> meet a b.

Lemma meet_sym a b : meet a b <-> meet b a.
Proof using sym meets. rewrite <- !meets, sym. reflexivity. Qed.

Lemma chained_reach n ins outs r q : (r < n)%nat ->
  RemapPlan.reach o n ins outs r q <-> chained n (fun p q => meet (ins p) (outs q)) r q.
Proof using sym meets.
  intros Hr. split.
  - induction 1 as [q (H1 & H2 & H3) | q s H IH (H1 & H2 & H3)].
    + apply chained_one; [exact H2|]. rewrite !meets in H3. rewrite (meet_sym (ins q)). exact H3.
    + eapply chained_more; [exact IH|exact H2|]. rewrite !meets in H3. rewrite (meet_sym (ins s)). exact H3.
  - induction 1 as [q H1 H2 | q s H IH H1 H2].
    + apply reach_one. split; [exact Hr|split; [exact H1|]]. rewrite !meets, (meet_sym (outs r)). exact H2.
    + apply reach_step with q; [exact IH|]. split; [|split; [exact H1|rewrite !meets, (meet_sym (outs q)); exact H2]].
      inversion H; assumption.
Qed.

Lemma counts_of n coll ins outs r pl : (r < n)%nat -> setup o n coll ins outs r = Some pl ->
  counts n coll (fun p q => meet (ins p) (outs q)) r (cnt_of pl).
Proof using sym meets.
  intros Hr E.
  assert (how_many n (fun q => meet (ins r) (outs q)) (zlen (send_entries o n ins outs r)) /\
          how_many n (fun q => meet (ins q) (outs r)) (zlen (recv_entries o n ins outs r))) as [HS HR].
  { split.
    - exists (map e_proc (send_entries o n ins outs r)). split; [apply send_procs_NoDup, Hr|]. split; [|rewrite zlen_map; reflexivity].
      intros q. rewrite sends_procs by exact Hr. rewrite meets. tauto.
    - exists (map e_proc (recv_entries o n ins outs r)). split; [apply recv_procs_NoDup, Hr|]. split; [|rewrite zlen_map; reflexivity].
      intros q. rewrite recvs_procs by exact Hr. rewrite meets, meet_sym. tauto. }
  destruct coll.
  - destruct (setup_coll o n ins outs r Hr) as (g & Hg & G & f & Gf). rewrite Hg in E. injection E as <-.
    unfold counts, cnt_of. cbn [c_nsend c_nrecv c_self c_ngroup rp_send rp_recv rp_self rp_group].
    split; [exact HS|]. split; [exact HR|]. split; [discriminate|]. split; [reflexivity|].
    exists g. split; [rewrite Gf; apply NoDup_filter, seq_NoDup|]. split; [|reflexivity].
    intros q. rewrite G, chained_reach by exact Hr. split; [|tauto]. intros H. split; [inversion H; assumption|exact H].
  - rewrite (setup_p2p o n ins outs r Hr) in E. injection E as <-.
    unfold counts, cnt_of. cbn [c_nsend c_nrecv c_self c_ngroup rp_send rp_recv rp_self rp_group p_plan].
    split; [exact HS|]. split; [exact HR|]. split; [|split; [discriminate|reflexivity]].
    intros _. rewrite <- meets, sym. rewrite recv_entries_eq by exact Hr. rewrite app_length.
    change (flat_map (rcvd o ins outs r) (others n r)) with (orecv o n ins outs r). generalize (List.length (orecv o n ins outs r)). intros k.
    unfold rcvd. destruct (o_collide o (outs r) (ins r)) as [ov|]; cbn [List.length].
    + split; [intros _; discriminate|]. intros _. destruct (Nat.eqb_spec k (k + 1)); [lia|reflexivity].
    + rewrite Nat.add_0_r, Nat.eqb_refl. split; [discriminate|]. intros H. exfalso. apply H. reflexivity.
Qed.
End Cnt.

Lemma meets3 a b : collide3 a b <> None <-> meet3 a b.
Proof.
  split.
  - intros H. destruct (collide3 a b) as [ov|] eqn:E; [|congruence]. apply collide3_Some in E as ((H1 & H2 & H3) & _ & _ & E).
    exists (ilo ov, jlo ov, klo ov). apply E. unfold ni, nj, nk in *. cbn. lia.
  - intros (p & H1 & H2) E. exact (collide3_None a b p E H1 H2).
Qed.
Lemma meets2 a b : collide2 a b <> None <-> meet2 a b.
Proof.
  split.
  - intros H. destruct (collide2 a b) as [ov|] eqn:E; [|congruence]. apply collide2_Some in E as ((H1 & H2) & _ & _ & E).
    exists (ilo2 ov, jlo2 ov). apply E. unfold ni2, nj2 in *. cbn. lia.
  - intros (p & H1 & H2) E. exact (collide2_None a b p E H1 H2).
Qed.
Lemma collide3_sym a b : collide3 a b = collide3 b a.
Proof. unfold collide3. rewrite (Z.max_comm (ilo a)), (Z.max_comm (jlo a)), (Z.max_comm (klo a)), (Z.min_comm (ihi a)), (Z.min_comm (jhi a)), (Z.min_comm (khi a)). reflexivity. Qed.
Lemma collide2_sym a b : collide2 a b = collide2 b a.
Proof. unfold collide2. rewrite (Z.max_comm (ilo2 a)), (Z.max_comm (jlo2 a)), (Z.min_comm (ihi2 a)), (Z.min_comm (jhi2 a)). reflexivity. Qed.

Lemma cnt3_counts n pack r m : (r < n)%nat ->
  counts n (rm_coll m) (fun p q => meet3 (rm_in m p) (rm_out m q)) r (snd (cnt3 n pack r m)) /\ fst (cnt3 n pack r m) = cflag (rm_coll m).
Proof.
  intros Hr. unfold cnt3. cbn [fst snd]. split; [|reflexivity].
  destruct (setup_total (ops3 (A := Z) pack 2 (rm_perm m)) n (rm_coll m) (rm_in m) (rm_out m) r Hr) as (pl & E).
  unfold setup3. rewrite E. apply (counts_of (ops3 (A := Z) pack 2 (rm_perm m)) meet3 collide3_sym meets3 n (rm_coll m) (rm_in m) (rm_out m) r pl Hr E).
Qed.
Lemma cnt2_counts n pack r m : (r < n)%nat ->
  counts n (rm2_coll m) (fun p q => meet2 (rm2_in m p) (rm2_out m q)) r (snd (cnt2 n pack r m)) /\ fst (cnt2 n pack r m) = cflag (rm2_coll m).
Proof.
  intros Hr. unfold cnt2. cbn [fst snd]. split; [|reflexivity].
  destruct (setup_total (ops2 (A := Z) 8 pack 2 (rm2_perm m)) n (rm2_coll m) (rm2_in m) (rm2_out m) r Hr) as (pl & E).
  unfold setup2. rewrite E. apply (counts_of (ops2 (A := Z) 8 pack 2 (rm2_perm m)) meet2 collide2_sym meets2 n (rm2_coll m) (rm2_in m) (rm2_out m) r pl Hr E).
Qed.

(** ** the sizes cover every remap *)
Section Fits3.
Variables (n : nat) (st : settings) (N : Z * Z * Z) (permute : Z) (ins outs : nat -> box3) (f : fft3).
Hypothesis F : facts3 n st N permute ins outs f.
Hypothesis legal_out : forall r, (r < n)%nat -> legal3 (outs r).

Lemma layout_legal t r : layout3 f t -> (r < n)%nat -> legal3 (t r).
Proof using F legal_out.
  intros [-> | [-> | [-> | [-> | [-> | (He & ->)]]]]] Hr.
  - rewrite (F_fin _ _ _ _ _ _ _ F). pose proof (F_in _ _ _ _ _ _ _ F r Hr) as H. unfold inside3 in H. destruct N as [[x y] z]. apply H.
  - rewrite (F_fout _ _ _ _ _ _ _ F). auto.
  - apply (F_fast_legal _ _ _ _ _ _ _ F r Hr).
  - apply (F_mid_legal _ _ _ _ _ _ _ F r Hr).
  - apply (F_slow_legal _ _ _ _ _ _ _ F legal_out r Hr).
  - apply (F_brick_legal _ _ _ _ _ _ _ F He r Hr).
Qed.

Lemma cnt3_sizes m r pl : In m (all_objs f) -> (r < n)%nat ->
  setup3 n (rm_coll m) (st_pack st) 2 (rm_perm m) (rm_in m) (rm_out m) r = Some pl -> 0 <= rp_sendsize pl /\ 0 <= rp_recvsize pl.
Proof using F legal_out.
  intros Hm Hr E. apply (plan_nonneg (ops3 (A := Z) (st_pack st) 2 (rm_perm m)) size3_nonneg n (rm_coll m) (rm_in m) (rm_out m) r pl Hr); [|exact E].
  destruct (all_shape n st N permute ins outs f F m Hm) as (rot & a & b & Hrot & _ & La & Lb & _ & ->).
  cbn [o_outvol ops3]. pose proof (rot_legal3 rot _ (layout_legal b r Lb Hr)) as (H1 & H2 & H3). unfold outvol3.
  repeat apply Z.mul_nonneg_nonneg; lia.
Qed.

Lemma shape3_fits r : (r < n)%nat -> f_same f = true \/ f_exch f = false -> shape_fits (shape3 f r) = true.
Proof using F legal_out.
  intros Hr Hx. unfold shape_fits. destruct (s_sizes (shape3 f r)) as [[fs ss] rs] eqn:S. unfold shape3 in S. cbn [s_sizes] in S. injection S as <- <- <-.
  apply andb_true_intro. split.
  - apply Z.leb_le. pose proof (layout_fftsize n st N permute ins outs f F (f_mid f) r ltac:(unfold layout3; auto) Hr) as H. unfold vol3 in H. lia.
  - rewrite shape3_cnts. apply forallb_forall. intros c Hc. apply in_map_iff in Hc as (m & <- & Hm). unfold cnt3. cbn [snd].
    rewrite (F_n _ _ _ _ _ _ _ F), (F_pack _ _ _ _ _ _ _ F).
    destruct (setup_total (ops3 (A := Z) (st_pack st) 2 (rm_perm m)) n (rm_coll m) (rm_in m) (rm_out m) r Hr) as (pl & E).
    change (setup3 n (rm_coll m) (st_pack st) 2 (rm_perm m) (rm_in m) (rm_out m) r = Some pl) in E. rewrite E. cbn [cnt_of c_ssize c_rsize].
    pose proof (cnt3_sizes m r pl Hm Hr E) as [P1 P2].
    destruct (uncounted n st N permute ins outs f F m Hm) as [Hc|(X & Y & _)]; [|destruct Hx; congruence].
    destruct (counted_sizes n st N permute ins outs f F m r pl Hc E) as [P3 P4].
    rewrite !andb_true_iff, !Z.leb_le. lia.
Qed.
End Fits3.

Section Fits2.
Variables (n : nat) (st : settings) (N : Z * Z) (permute : Z) (ins outs : nat -> box2) (f : fft2).
Hypothesis F : facts2 n st N permute ins outs f.
Hypothesis legal_out : forall r, (r < n)%nat -> legal2 (outs r).

Lemma layout_legal2 t r : layout2 f t -> (r < n)%nat -> legal2 (t r).
Proof using F legal_out.
  intros [-> | [-> | [-> | [-> | (He & ->)]]]] Hr.
  - rewrite (T_fin _ _ _ _ _ _ _ F). pose proof (T_ins _ _ _ _ _ _ _ F r Hr) as H. unfold inside2 in H. destruct N as [x y]. apply H.
  - rewrite (T_fout _ _ _ _ _ _ _ F). auto.
  - apply (T_fast_legal _ _ _ _ _ _ _ F r Hr).
  - apply (T_slow_legal _ _ _ _ _ _ _ F legal_out r Hr).
  - apply (T_brick_legal _ _ _ _ _ _ _ F He r Hr).
Qed.

Lemma cnt2_sizes m r pl : In m (all_objs2 f) -> (r < n)%nat ->
  setup2 n (rm2_coll m) (st_pack st) 2 (rm2_perm m) (rm2_in m) (rm2_out m) r = Some pl -> 0 <= rp_sendsize pl /\ 0 <= rp_recvsize pl.
Proof using F legal_out.
  intros Hm Hr E. apply (plan_nonneg (ops2 (A := Z) 8 (st_pack st) 2 (rm2_perm m)) size2_nonneg n (rm2_coll m) (rm2_in m) (rm2_out m) r pl Hr); [|exact E].
  destruct (all_shape2 n st N permute ins outs f F m Hm) as (rot & a & b & Hrot & _ & La & Lb & _ & ->).
  cbn [o_outvol ops2]. pose proof (rot_legal2 rot _ (layout_legal2 b r Lb Hr)) as (H1 & H2). unfold outvol2.
  repeat apply Z.mul_nonneg_nonneg; lia.
Qed.

Lemma shape2_fits r : (r < n)%nat -> shape_fits (shape2 f r) = true.
Proof using F legal_out.
  intros Hr. unfold shape_fits. destruct (s_sizes (shape2 f r)) as [[fs ss] rs] eqn:S. unfold shape2 in S. cbn [s_sizes] in S. injection S as <- <- <-.
  apply andb_true_intro. split.
  - apply Z.leb_le. pose proof (layout_fftsize2 n st N permute ins outs f F (t_fast f) r ltac:(unfold layout2; auto) Hr) as H. unfold vol2 in H. lia.
  - rewrite shape2_cnts. apply forallb_forall. intros c Hc. apply in_map_iff in Hc as (m & <- & Hm). unfold cnt2. cbn [snd].
    rewrite (T_n _ _ _ _ _ _ _ F), (T_pack _ _ _ _ _ _ _ F).
    destruct (setup_total (ops2 (A := Z) 8 (st_pack st) 2 (rm2_perm m)) n (rm2_coll m) (rm2_in m) (rm2_out m) r Hr) as (pl & E).
    change (setup2 n (rm2_coll m) (st_pack st) 2 (rm2_perm m) (rm2_in m) (rm2_out m) r = Some pl) in E. rewrite E. cbn [cnt_of c_ssize c_rsize].
    pose proof (cnt2_sizes m r pl Hm Hr E) as [P1 P2].
    destruct (obj_sizes2 n st N permute ins outs f F m r pl Hm E) as [P3 P4].
    rewrite !andb_true_iff, !Z.leb_le. lia.
Qed.
End Fits2.

(** ** memusage *)

(** bytes of the arrays and buffers of the library that are live *)
Definition lib_bytes (h : heap) : Z := dbytes (filter is_lib (h_live h)).

Section Bytes.
Variable esize plsize rqsize ptsize nprocs xsize : Z.
Hypothesis esize_pos : 0 < esize.
Variable dim3 : bool.
Local Notation run' := (run false esize plsize rqsize ptsize nprocs xsize dim3).
Local Notation reach' := (reach false esize plsize rqsize ptsize nprocs xsize dim3).

(** what memusage leaves out for one Remap3d or Remap2d object: requests are counted with the size of a pointer, and a
    message to itself that was dropped from nsend and nrecv is not counted although the arrays have a slot for it *)
Definition left_out (c : Z * rcnt) : Z :=
  if (fst c =? 0) && c_self (snd c)
  then 12 + plsize + (16 + rqsize + plsize) + (c_nrecv (snd c) - 1) * (rqsize - ptsize)
  else c_nrecv (snd c) * (rqsize - ptsize).

Lemma bytes_left_out sh mf : own_bytes esize plsize rqsize sh mf = said_bytes esize plsize ptsize sh mf + zsum left_out (all_cnts sh).
Proof using Type.
  unfold own_bytes, said_bytes. enough (zsum (cbytes esize plsize rqsize) (all_cnts sh) = zsum (cusage esize plsize ptsize) (all_cnts sh) + zsum left_out (all_cnts sh)) by lia.
  induction (all_cnts sh) as [|c t IH]; [reflexivity|]. rewrite !zsum_cons, IH.
  enough (cbytes esize plsize rqsize c = cusage esize plsize ptsize c + left_out c) by lia.
  unfold cbytes, cusage, left_out, rbytes, rusage. destruct (fst c =? 0); cbn [negb andb]; destruct (c_self (snd c)); cbn [negb andb]; lia.
Qed.

Lemma lib_bytes_split h lib rest : split_heap h lib rest -> lib_bytes h = dbytes lib.
Proof using Type.
  intros ((W & P) & L & R). unfold lib_bytes. apply dbytes_perm.
  rewrite (Permutation_filter_blk _ _ _ P), filter_app, (filter_all _ lib), (filter_none _ rest), app_nil_r; [reflexivity| |].
  - eapply Forall_impl; [|exact R]. intros b E. unfold is_lib. rewrite E. reflexivity.
  - eapply Forall_impl; [|exact L]. intros b E. unfold is_lib. rewrite E. reflexivity.
Qed.

Lemma fresh_bytes cs o n h : reach' cs o n h -> ~ was_setup cs -> lib_bytes h = 0.
Proof using esize_pos.
  induction 1 as [prec n h0 o h W US TC E | cs c o n h o' n' h' R IH WF E | cs o n h h' R IH ST]; intros NS.
  - unfold new_fobj in E. unfold lbind, alloc in E. cbn [h_next h_live] in E.
    destruct (negb (prec =? 1) && negb (prec =? 2)); [discriminate|].
    destruct ((prec =? 1) && negb (esize =? 4) || (prec =? 2) && negb (esize =? 8)); [discriminate|].
    unfold lret in E. injection E as _ <-. unfold lib_bytes. cbn [h_live filter is_lib b_own].
    cbn [dbytes fold_right dbytes1 b_kind]. rewrite (filter_none _ (h_live h0)); [reflexivity|].
    apply Forall_forall. intros b I. unfold is_lib. rewrite (US b I). reflexivity.
  - assert (~ was_setup cs /\ ~ is_setup c) as [NS1 NC].
    { split; intros X; apply NS; unfold was_setup; apply Exists_app; [left; exact X|right; constructor; exact X]. }
    specialize (IH NS1). enough (h' = h) as -> by exact IH.
    destruct c as [s mf|res|us ur| | | | |f clk root flag niter tmax tflag]; cbn [run] in E; try (exfalso; apply NC; exact I).
    + unfold lret in E. injection E as _ _ <-. reflexivity.
    + unfold put, lbind, setup_memory in E. destruct (o_setup o); cbn [negb] in E; [|discriminate]. destruct (o_memflag o =? 0); [|discriminate].
      unfold lret in E. cbn in E. injection E as _ _ <-. reflexivity.
    + unfold keep, lbind in E. destruct (compute_life esize o h) as [| |[x h1]] eqn:C; try discriminate. unfold lret in E. injection E as _ _ <-. exact (compute_pure _ _ _ _ _ C).
    + unfold keep, lbind in E. destruct (only1d_life o h) as [| |[x h1]] eqn:C; try discriminate. unfold lret in E. injection E as _ _ <-. exact (only1d_pure _ _ _ _ C).
    + unfold keep, lbind in E. destruct (onlyremaps_life esize o h) as [| |[x h1]] eqn:C; try discriminate. unfold lret in E. injection E as _ _ <-. exact (onlyremaps_pure _ _ _ _ _ C).
    + unfold keep, lbind in E. destruct (oneremap_life esize o h) as [| |[x h1]] eqn:C; try discriminate. unfold lret in E. injection E as _ _ <-. exact (oneremap_pure _ _ _ _ _ C).
  - specialize (IH NS). destruct ST as (_ & F). unfold lib_bytes in *. rewrite F. exact IH.
Qed.

(** setup: all the library holds is what memusage says plus what is left out *)
Lemma setup_usage cs o n h sh o' n' h' : reach' cs o n h -> ~ was_setup cs -> shape_len dim3 sh = true ->
  run' (CSetup (SOk sh)) o n h = LOk ((o', n'), h') ->
  lib_bytes h' = o_usage o' + zsum left_out (all_cnts sh) /\ o_sizes o' = s_sizes sh /\
  o_usage o' = said_bytes esize plsize ptsize sh (memflag_after cs).
Proof using esize_pos.
  intros R NS SL E. pose proof (fresh_bytes cs o n h R NS) as Z0. destruct (reach_inv esize plsize rqsize ptsize nprocs xsize esize_pos dim3 cs o n h R) as [F _].
  pose proof F as (FM & FS & FB & PS & OWN). destruct (flags_b dim3 _ _ _ F) as ([[_ X]|[S _]] & _); [contradiction|].
  destruct (OWN S) as (lib & rest & IV & SP). pose proof (lib_bytes_split _ _ _ SP) as LB. rewrite Z0 in LB. destruct SP as (HH & LL & RR).
  destruct (setup_fobj_ok esize plsize rqsize ptsize nprocs xsize esize_pos dim3 o lib rest h sh IV S HH SL) as (o1 & h1 & nb & E1 & H1 & IV1 & AS & _ & _ & DB & US & _).
  cbn [run] in E. unfold put, lbind in E. rewrite E1 in E. unfold lret in E. injection E as <- <- <-.
  assert (split_heap h1 (nb ++ lib) rest) as SP1 by (split; [exact H1|split; [exact (inv_lib dim3 _ _ _ IV1)|exact RR]]).
  rewrite (lib_bytes_split _ _ _ SP1), dbytes_app, <- LB, DB, US, bytes_left_out, <- FM. split; [lia|]. split; [apply AS|reflexivity].
Qed.
End Bytes.
