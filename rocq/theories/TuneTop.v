(** TuneTop.v : tune() as a whole. *)

From Coq Require Import QArith Permutation.
From Verif Require Import Base Setup3d Life LifeProofs LifeFft LifeObj Tune TuneProofs TuneNum.
Open Scope Z_scope.

(** the values tune() may try, doc/api_tune.txt *)
Definition legal (s : settings) : Prop := 0 <= st_coll s <= 2 /\ 0 <= st_exch s <= 1 /\ 0 <= st_pack s <= 2.

(** [fastest n lo hi k]: trial k is the first of the fastest among trials lo .. hi-1 *)
Definition fastest (n : tobj) (lo hi k : Z) : Prop :=
  lo <= k < hi /\ exists t, zget (n_tfft n) k = Some t /\
  forall j u, lo <= j < hi -> zget (n_tfft n) j = Some u -> (t <= u)%Q /\ (j < k -> (t < u)%Q).

(** trial k used these settings *)
Definition tried (n : tobj) (k c e p : Z) : Prop :=
  zget (n_cflags n) k = Some c /\ zget (n_eflags n) k = Some e /\ zget (n_pflags n) k = Some p.

(** the settings chosen: trials lo .. mid-1 vary collective and exchange, trials mid .. ntrial-1 vary packflag *)
Definition chosen (n : tobj) (lo mid : Z) : Prop :=
  let hi := n_trial n in
  0 <= lo < mid /\ mid <= hi <= 9 /\
  exists k p, fastest n lo mid k /\ tried n k (n_cbest n) (n_ebest n) p /\
    (mid = hi -> p = n_pbest n) /\
    (mid < hi -> hi = mid + 3 /\ exists k', fastest n mid hi k' /\ tried n k' (n_cbest n) (n_ebest n) (n_pbest n) /\ zget (n_tfft n) k' = Some (n_besttime n)).

(** *** scaling *)
Lemma scale_get k s l i : 0 <= k <= zlen l -> 0 <= i < k -> zget (scale_list k s l) i = option_map (fun x => (x * s)%Q) (zget l i).
Proof.
  intros K I. unfold scale_list, zget. destruct (Z.ltb_spec i 0); [lia|]. unfold zlen in K.
  rewrite nth_error_app1 by (rewrite map_length, firstn_length; lia). rewrite nth_error_map.
  replace (nth_error (firstn (Z.to_nat k) l) (Z.to_nat i)) with (nth_error l (Z.to_nat i)); [reflexivity|].
  assert (Z.to_nat i < Z.to_nat k)%nat as L by lia. clear - L. revert l L. generalize (Z.to_nat k) as a. generalize (Z.to_nat i) as b. intros b. induction b as [|b IH]; intros [|a] [|x t] L; try lia; cbn; auto. apply IH. lia.
Qed.
Lemma scale_len k s l : 0 <= k <= zlen l -> zlen (scale_list k s l) = zlen l.
Proof. intros K. unfold scale_list, zlen in *. rewrite app_length, map_length, firstn_length, skipn_length. lia. Qed.

Lemma fastest_scale n m lo hi k s : (0 < s)%Q -> 0 <= lo -> (forall i, lo <= i < hi -> zget (n_tfft m) i = option_map (fun x => (x * s)%Q) (zget (n_tfft n) i)) ->
  fastest n lo hi k -> fastest m lo hi k.
Proof.
  intros S L G (K & t & E & M). split; [exact K|]. exists (t * s)%Q. split; [rewrite G, E; auto|]. intros j u J F. rewrite G in F by exact J.
  destruct (zget (n_tfft n) j) as [v|] eqn:V; [|discriminate]. cbn in F. injection F as <-. destruct (M j v J V) as [M1 M2]. split.
  - apply Qmult_le_compat_r; [exact M1 | apply Qlt_le_weak, S].
  - intros X. apply Qmult_lt_r; auto.
Qed.

Lemma chosen_scale n niter flag lo mid : tlen n -> 0 < niter -> chosen n lo mid -> chosen (scale_times niter flag n) lo mid.
Proof.
  intros (_ & _ & _ & L & _) N (A & B & k & p & F & T & C & D). cbv zeta in *.
  assert (0 < (let s := (1 / inject_Z niter)%Q in if flag =? 0 then (s * (1 # 2))%Q else s))%Q as S.
  { assert (0 < 1 / inject_Z niter)%Q as S1. { apply Qlt_shift_div_l; [|reflexivity]. change 0%Q with (inject_Z 0). rewrite <- Zlt_Qlt. exact N. }
    cbv zeta. destruct (flag =? 0); [|exact S1]. apply (Qmult_lt_0_compat _ _ S1). reflexivity. }
  assert (forall i, 0 <= i < n_trial n -> zget (n_tfft (scale_times niter flag n)) i = option_map (fun x => (x * (let s := (1 / inject_Z niter)%Q in if flag =? 0 then (s * (1 # 2))%Q else s))%Q) (zget (n_tfft n) i)) as G.
  { intros i I. unfold scale_times. cbn [n_tfft]. apply scale_get; lia. }
  unfold chosen. cbv zeta. change (n_trial (scale_times niter flag n)) with (n_trial n). split; [exact A|]. split; [exact B|]. exists k, p. split; [|split; [|split]].
  - eapply fastest_scale; [exact S | lia | | exact F]. intros i I. apply G. lia.
  - exact T.
  - exact C.
  - intros X. destruct (D X) as (HI & k' & F' & T' & Z'). split; [exact HI|]. exists k'. split; [|split; [exact T'|]].
    + eapply fastest_scale; [exact S | lia | | exact F']. intros i I. apply G. lia.
    + rewrite G, Z'; [reflexivity|]. destruct F' as [F' _]. lia.
Qed.

Lemma schedule_ok nruns cur first ces ps : schedule nruns cur = (first, ces, ps) ->
  (first = 0 \/ first = 1) /\ first + zlen ces + zlen ps <= 9 /\ (forall c e, In (c, e) ces -> legal (mkset c e pdefault)) /\
  (forall p, In p ps -> 0 <= p <= 2) /\ (ces = [] -> first = 1 /\ ps = []) /\ (ps = [] \/ zlen ps = 3).
Proof.
  assert (forall l, forallb (fun x : Z * Z => (0 <=? fst x) && (fst x <=? 2) && (0 <=? snd x) && (snd x <=? 1)) l = true -> forall c e, In (c, e) l -> legal (mkset c e pdefault)) as LG.
  { intros l F c e I. rewrite forallb_forall in F. specialize (F _ I). cbn [fst snd] in F. repeat (apply andb_prop in F as [F ?]). rewrite Z.leb_le in *.
    unfold legal, pdefault. cbn. lia. }
  unfold schedule. destruct (9 <=? nruns - 1); [|destruct (6 <=? nruns - 1); [|destruct (3 <=? nruns - 1); [|destruct (nruns - 1 =? 2); [|destruct ((nruns - 1 =? 1) && negb (default_set cur))]]]];
    intros E; injection E as <- <- <-; (split; [auto|]); (split; [cbn; lia|]); (split; [apply LG; reflexivity|]); (split; [cbn; intros p; intros; lia|]); split; try discriminate; auto.
Qed.

Section TuneTop.
Variable esize plsize rqsize ptsize nprocs xsize : Z.
Hypothesis esize_pos : 0 < esize.
Variable dim3 : bool.
Variable setup_fn : settings -> sres shape.
Variable clk : nat -> Q.
Hypothesis shapes : forall s sh, setup_fn s = SOk sh -> shape_len dim3 sh = true.
Variable P : settings -> Prop.
Variable H : string -> Prop.
Variable U : Prop.
Hypothesis HE : forall s e, P s -> setup_fn s = SErr e -> H e.
Hypothesis HU : forall s, P s -> setup_fn s = SUB -> U.
Hypothesis HF : forall s sh, P s -> setup_fn s = SOk sh -> shape_fits sh = false -> U.
(** no measured interval is 10^20 seconds or longer *)
Definition fast : Prop := forall i, (clk (S i) - clk i < BIG)%Q.
Hypothesis HP : forall s, legal s -> P s.
Hypothesis HX : fast \/ (forall s, P s).

Definition first_times (root : option (Q * Q)) (k : nat) : Q * Q :=
  match root with None => ((clk (S k) - clk k)%Q, (clk (S (S (S k))) - clk (S (S k)))%Q) | Some p => p end.

(** the setup of the final settings *)
Definition done (mf : Z) (best : settings) (base : list ptr) (rest : list blk) (o : fobj) (h : heap) : Prop :=
  exists sh lib, setup_fn best = SOk sh /\ inv dim3 (negb (mf =? 0)) o lib /\ after_setup sh mf best o /\ base_ptrs o = base /\ has h (lib ++ rest) /\
    (mf <> 0 -> buf esize lib (snd (fst (s_sizes sh))) (o_send o) /\ buf esize lib (snd (s_sizes sh)) (o_recv o)) /\
    (mf = 0 -> o_send o = PNull /\ o_recv o = PNull).

(** the settings of trials lo .. ntrial-1, as recorded *)
Definition recorded (n : tobj) (k : Z) : list settings :=
  match zget (n_cflags n) k, zget (n_eflags n) k, zget (n_pflags n) k with Some c, Some e, Some p => [mkset c e p] | _, _, _ => [] end.

Lemma measured_fast : fast -> forall rs, Forall (measured clk) rs -> rs <> [] -> ~ no_better BIG rs.
Proof using Type.
  intros F [|r t] M N X; [congruence|]. inversion M as [|? ? (i & E) _]. subst. specialize (X r (or_introl eq_refl)). unfold t3 in X. rewrite E in X. specialize (F i). apply Qlt_not_le in F. auto.
Qed.

Lemma fastest_of n lo hi ts k rs : (forall j r, nth_error rs j = Some r -> zget (n_tfft n) (lo + Z.of_nat j) = Some (t3 r)) -> hi = lo + zlen rs ->
  first_best ts rs k -> fastest n lo hi (lo + Z.of_nat k).
Proof using Type.
  intros G HI (r & E & _ & M). assert (k < List.length rs)%nat as K by (apply nth_error_Some; congruence). unfold zlen in HI.
  split; [lia|]. exists (t3 r). split; [apply G, E|]. intros j u J V. assert (exists r', nth_error rs (Z.to_nat (j - lo)) = Some r') as (r' & R).
  { destruct (nth_error rs (Z.to_nat (j - lo))) eqn:X; [eauto|]. apply nth_error_None in X. lia. }
  pose proof (G _ _ R) as V'. replace (lo + Z.of_nat (Z.to_nat (j - lo))) with j in V' by lia. rewrite V in V'. injection V' as ->. destruct (M _ _ R) as [M1 M2]. split; [exact M1|]. intros; apply M2; lia.
Qed.

(** the calls of the initial run and of the final setup *)
Definition ev_first (flag : Z) (cur : settings) : list tevent :=
  [TBarrier; TSetup cur; TBarrier] ++ ev_trial dim3 1 flag 0 ++ [TBcast; TBcast].
Definition ev_last (best : settings) : list tevent := [TBarrier; TSetup best; TBarrier].

Lemma tune_ok root flag niter tmax tflag o n lib rest st :
  inv dim3 false o lib -> o_setup o = false -> has (t_heap st) (lib ++ rest) -> tcond dim3 n ->
  -1 <= flag <= 1 -> 0 < niter -> (0 <= tmax)%Q -> 0 <= tflag <= 1 -> P (o_set o) ->
  (budget tmax (fst (first_times root (t_tick st))) (snd (first_times root (t_tick st))) niter tflag = None -> U) ->
  twp (tune false esize plsize rqsize ptsize nprocs xsize dim3 setup_fn clk root flag niter tmax tflag o n) st H U
   (fun x b => let '(o', n') := x in
      let best := mkset (n_cbest n') (n_ebest n') (n_pbest n') in
      done (o_memflag o) best (base_ptrs o) rest o' (t_heap b) /\ tcond dim3 n' /\
      exists niter' tflag' nruns first ces ps c1 e1,
        budget tmax (fst (first_times root (t_tick st))) (snd (first_times root (t_tick st))) niter tflag = Some (niter', tflag', nruns) /\
        schedule nruns (o_set o) = (first, ces, ps) /\ n_per n' = niter' /\
        (fast -> 0 < niter' -> chosen n' (match ces with [] => 0 | _ => first end) (n_trial n' - zlen ps)) /\
        n_trial n' = first + zlen ces + zlen ps /\
        (ces = [] -> best = o_set o) /\
        (fast -> ces <> [] -> legal best) /\ (ps <> [] -> c1 = n_cbest n' /\ e1 = n_ebest n') /\
        t_log b = t_log st ++ ev_first flag (o_set o) ++ ev_ces dim3 ces niter' flag tflag' ++ ev_ps dim3 c1 e1 ps niter' flag tflag' ++ ev_last best).
Proof using esize_pos shapes HE HU HF HP HX.
  intros IV ST Hs TC F1 N1 TM1 F2 PC BU. unfold tune. rewrite ST.
  replace ((flag <? -1) || (1 <? flag)) with false by (symmetry; apply orb_false_iff; rewrite !Z.ltb_ge; lia).
  replace ((niter <=? 0) || qlt tmax 0) with false.
  2:{ symmetry; apply orb_false_iff. rewrite Z.leb_gt. split; [lia|]. destruct (qlt_spec tmax 0) as [Q|Q]; [|reflexivity]. apply Qlt_not_le in Q. contradiction. }
  replace ((tflag <? 0) || (1 <? tflag)) with false by (symmetry; apply orb_false_iff; rewrite !Z.ltb_ge; lia).
  cbv zeta. set (k0 := t_tick st) in *. set (cur := o_set o) in *.
  eapply twp_bind; [apply wtime_ok|]. intros ta s1 (-> & K1 & A1 & B1). fold k0 in K1 |- *.
  assert (dinv esize (PNull, 0) []) as DI0 by (unfold dinv; cbn; split; [exact (ownl_nulls 1) | split; [lia | left; reflexivity]]).
  assert (idle esize dim3 o lib [] rest (PNull, 0) (t_heap s1)) as ID1.
  { unfold idle. spl; auto. rewrite app_nil_r, A1. exact Hs. }
  eapply twp_bind; [exact (setup_step esize plsize rqsize ptsize nprocs xsize esize_pos dim3 setup_fn shapes P H U HE HU HF cur o lib [] rest (PNull, 0) s1 PC ID1)|].
  intros o1 s2 (sh1 & lib1 & SF1 & R1 & AS1 & BP1 & H2 & K2 & G2). cbv beta in *.
  eapply twp_bind; [apply wtime_ok|]. intros tb s3 (-> & K3 & A3 & B3). cbv beta in *.
  rewrite <- A3 in H2.
  eapply twp_bind; [exact (grow_step esize esize_pos dim3 H U o1 lib1 [] rest (PNull, 0) s3 R1 DI0 H2)|].
  intros d1 s4 (dl1 & DI1 & H4 & L4 & K4 & G4). cbv beta in *.
  assert (trial_st esize dim3 U o1 lib1 dl1 rest d1 s4) as IS.
  { unfold trial_st. spl; auto. destruct (shape_fits sh1) eqn:SFI; [left; exact (fits_after _ _ _ _ AS1 SFI) | right; exact (HF _ _ PC SF1 SFI)]. }
  eapply twp_bind; [exact (tune_trial_ok esize esize_pos dim3 clk H U o1 lib1 dl1 rest d1 1 flag 0 s4 IS)|].
  intros r s5 (LR & TR & (A5 & B5)). cbv beta in *.
  assert (t_tick s2 = S k0 /\ t_tick s3 = S (S k0) /\ t_tick s4 = S (S k0)) as (KK2 & KK3 & KK4) by (repeat split; congruence).
  assert (tcond dim3 (set_trial 0 n)) as TC0 by exact TC.
  destruct (num_trial_ok dim3 cur r (set_trial 0 n) TC0 ltac:(cbn; lia) LR) as (m1 & m2 & _ & _ & _).
  (* record_times 0, then record_flags 0 *)
  assert (exists na nb, record_times 0 r (set_trial 0 n) = Some na /\ zget (n_tfft na) 0 = Some (t3 r) /\ record_flags 0 cur na = Some nb /\ tcond dim3 nb /\
    entry nb 0 = (Some (st_coll cur), Some (st_exch cur), Some (st_pack cur), Some (t3 r)) /\ record_flags 0 cur (set_trial 1 nb) = Some (set_trial 1 nb)) as (na & nb & RA & GA & RB & TCB & EB & RC).
  { destruct TC0 as ((L1 & L2 & L3 & L5 & L6 & L7 & L8) & LL). destruct r as [[[u3 u1] ur] urs]. cbn [snd] in LR.
    cbn [set_trial n_cflags n_eflags n_pflags n_tfft n_t1d n_tremap n_tremaps] in *.
    destruct (zset_ok (n_tfft n) 0 u3) as (x1 & E1 & X1); [lia|]. destruct (zset_ok (n_t1d n) 0 u1) as (x2 & E2 & X2); [lia|]. destruct (zset_ok (n_tremap n) 0 ur) as (x3 & E3 & X3); [lia|].
    destruct (set_all_ok (n_tremaps n) 0 urs L8 ltac:(lia) ltac:(lia)) as (x4 & E4 & X4 & X4').
    destruct (zset_ok (n_cflags n) 0 (st_coll cur)) as (y1 & V1 & Y1); [lia|]. destruct (zset_ok (n_eflags n) 0 (st_exch cur)) as (y2 & V2 & Y2); [lia|]. destruct (zset_ok (n_pflags n) 0 (st_pack cur)) as (y3 & V3 & Y3); [lia|].
    assert (forall (A : Type) (l : list A) i v l', zset l i v = Some l' -> zset l' i v = Some l') as AGAIN.
    { intros A l i v l' E. pose proof (zset_inv _ _ _ _ E) as B0. destruct (zset_Some l' i v) as (l2 & E2'); [rewrite (zset_len _ _ _ _ E); exact B0|]. rewrite E2'. f_equal.
      apply zget_ext. intros j. rewrite (zset_get _ _ _ _ _ E2'), (zset_get _ _ _ _ _ E). destruct (j =? i); reflexivity. }
    eexists _, _. split; [|split; [|split; [|split; [|split]]]].
    - unfold record_times. cbn [set_trial n_tfft n_t1d n_tremap n_tremaps]. rewrite E1, E2, E3, E4. reflexivity.
    - cbn [n_tfft]. rewrite (zset_get _ _ _ _ _ E1). reflexivity.
    - unfold record_flags. cbn [n_cflags n_eflags n_pflags]. cbn [set_trial n_cflags n_eflags n_pflags]. rewrite V1, V2, V3. reflexivity.
    - split; [|cbn; lia]. unfold tlen. cbn. spl; auto; lia.
    - unfold entry. cbn [n_cflags n_eflags n_pflags n_tfft]. rewrite (zset_get _ _ _ _ _ E1), (zset_get _ _ _ _ _ V1), (zset_get _ _ _ _ _ V2), (zset_get _ _ _ _ _ V3). reflexivity.
    - unfold record_flags. cbn [set_trial n_cflags n_eflags n_pflags]. rewrite (AGAIN _ _ _ _ _ V1), (AGAIN _ _ _ _ _ V2), (AGAIN _ _ _ _ _ V3). reflexivity. }
  clear m1 m2.
  eapply twp_bind with (R := fun x b => x = na /\ b = s5); [unfold topt; rewrite RA; apply twp_ret; auto|]. intros ? ? [-> ->].
  eapply twp_bind with (R := fun x b => x = t3 r /\ b = s5); [unfold topt; rewrite GA; apply twp_ret; auto|]. intros ? ? [-> ->].
  eapply twp_bind with (R := fun x b => x = nb /\ b = s5); [unfold topt; rewrite RB; apply twp_ret; auto|]. intros ? ? [-> ->].
  assert (has (t_heap s5) ((lib1 ++ dl1) ++ rest)) as H5 by (rewrite A5; exact H4).
  eapply twp_bind; [exact (dealloc_step esize dim3 H U o1 lib1 dl1 rest d1 s5 R1 DI1 H5)|].
  intros o6 s60 (lib6 & ID6 & BP6 & K6 & G60). cbv beta in *.
  eapply twp_bind with (R := fun _ b => b = mktst (t_heap s60) (t_tick s60) (t_log s60 ++ [TBcast])); [unfold twp, tlog; reflexivity|]. intros ? sx EX. cbv beta in EX. subst sx.
  eapply twp_bind with (R := fun _ b => b = mktst (t_heap s60) (t_tick s60) ((t_log s60 ++ [TBcast]) ++ [TBcast])); [unfold twp, tlog; reflexivity|]. intros ? sx EX. cbv beta in EX.
  remember sx as s6 eqn:EQS6. clear EQS6 sx.
  assert (t_log s6 = (t_log s5 ++ [TBcast]) ++ [TBcast] /\ t_heap s6 = t_heap s60) as [G6 HH6] by (rewrite EX, <- G60; split; reflexivity).
  rewrite <- HH6 in ID6. clear EX HH6 G60 K6.
  assert (match root with None => ((clk (t_tick s2) - clk k0)%Q, t3 r) | Some p => p end = first_times root k0) as FT.
  { unfold first_times. destruct root; [reflexivity|]. unfold t3. rewrite TR, KK2, KK4. reflexivity. }
  rewrite FT. destruct (first_times root k0) as [ts tf] eqn:FTE. cbn [fst snd] in BU.
  destruct (budget tmax ts tf niter tflag) as [[[niter' tflag'] nruns]|] eqn:BE.
  2:{ unfold twp, tbind, topt, tub. apply BU. reflexivity. }
  eapply twp_bind with (R := fun x b => x = (niter', tflag', nruns) /\ b = s6); [apply twp_ret; auto|]. intros ? ? [-> ->].
  destruct (schedule nruns cur) as [[first ces] ps] eqn:SC. destruct (schedule_ok _ _ _ _ _ SC) as (FI & LEN & LC & LP & EMP & LPS).
  assert (t_log s6 = t_log st ++ ev_first flag cur) as LOG6.
  { rewrite G6, B5, G4, B3, G2, B1. unfold ev_first. rewrite <- !app_assoc. reflexivity. }
  pose proof (zlen_nonneg ces) as ZC. pose proof (zlen_nonneg ps) as ZP.
  (* the trials *)
  eapply twp_bind with (R := fun x b => let '(o7, n7, d7) := x in exists lib7 dl7 c1 e1, idle esize dim3 o7 lib7 dl7 rest d7 (t_heap b) /\ base_ptrs o7 = base_ptrs o /\ tcond dim3 n7 /\
      n_trial n7 = first + zlen ces + zlen ps /\
      (fast -> chosen n7 (match ces with [] => 0 | _ => first end) (n_trial n7 - zlen ps)) /\
      (ces = [] -> mkset (n_cbest n7) (n_ebest n7) (n_pbest n7) = cur) /\
      (fast -> ces <> [] -> legal (mkset (n_cbest n7) (n_ebest n7) (n_pbest n7))) /\ (ps <> [] -> c1 = n_cbest n7 /\ e1 = n_ebest n7) /\
      t_log b = t_log s6 ++ ev_ces dim3 ces niter' flag tflag' ++ ev_ps dim3 c1 e1 ps niter' flag tflag').
  { destruct ces as [|ce ces'].
    - destruct (EMP eq_refl) as [-> ->].
      eapply twp_bind with (R := fun x b => x = set_trial 1 nb /\ b = s6); [unfold topt; rewrite RC; apply twp_ret; auto|]. intros ? ? [-> ->].
      apply twp_ret. exists lib6, dl1, 0, 0. spl; auto.
      + rewrite BP6. exact BP1.
      + intros _. unfold chosen. cbn [set_best set_trial n_trial n_cbest n_ebest n_pbest]. cbn [zlen List.length Z.of_nat]. split; [lia|]. split; [lia|].
        exists 0, (st_pack cur). unfold entry in EB. injection EB as EC EE EP ET. split; [|split; [|split]].
        * split; [lia|]. exists (t3 r). split; [exact ET|]. intros j u J V. replace j with 0 in * by lia. cbn [set_best set_trial n_tfft] in V. rewrite ET in V. injection V as <-. split; [apply Qle_refl | lia].
        * repeat split; assumption.
        * reflexivity.
        * lia.
      + cbn. destruct cur; auto.
      + intros _ X. congruence.
      + intros X. congruence.
      + cbn. rewrite app_nil_r. reflexivity.
    - set (ces := ce :: ces') in *.
      set (n8 := set_best BIG _ _ _ _).
      assert (tcond dim3 n8 /\ n_trial n8 = first /\ n_besttime n8 = BIG /\ (ps = [] -> n_pbest n8 = pdefault)) as (TC8 & T8 & B8 & P8).
      { unfold n8. destruct ps; spl; auto; try discriminate. }
      eapply twp_bind.
      { apply (ce_loop_ok esize plsize rqsize ptsize nprocs xsize esize_pos dim3 setup_fn clk shapes P H U HE HU HF ces niter' flag tflag' o6 n8 lib6 dl1 rest d1 s6);
          [intros; apply HP, LC; auto | exact TC8 | rewrite T8; lia | rewrite T8; lia | exact ID6]. }
      intros [[o9 n9] d9] s9 (lib9 & dl9 & rs & ID9 & BP9 & LRS & MRS & N9 & TC9 & T9 & G9). cbv beta in *.
      destruct (ce_num_spec ces rs n8 n9 N9 LRS) as (_ & PB9 & _ & EN9 & CH9).
      assert (rs <> []) as RNE by (destruct rs; [discriminate LRS | discriminate]).
      assert (fast -> exists k r', first_best BIG rs k /\ nth_error rs k = Some r' /\ nth_error ces k = Some (n_cbest n9, n_ebest n9) /\ n_besttime n9 = t3 r') as CH9'.
      { intros FA. rewrite B8 in CH9. destruct CH9 as [(X & _)|X]; [exfalso; exact (measured_fast FA rs MRS RNE X) | exact X]. }
      assert (fast -> forall p, 0 <= p <= 2 -> legal (mkset (n_cbest n9) (n_ebest n9) p)) as LG9.
      { intros FA p LPp. destruct (CH9' FA) as (k & r' & _ & _ & E & _). apply nth_error_In in E. destruct (LC _ _ E) as (Q1 & Q2 & _). unfold legal in *. cbn in *. auto. }
      assert (zlen rs = zlen ces) as ZRS by (unfold zlen; congruence).
      destruct ps as [|p ps'].
      + apply twp_ret. exists lib9, dl9, 0, 0. spl; auto.
        * rewrite BP9, BP6. exact BP1.
        * rewrite T9, T8. change (zlen (@nil Z)) with 0. lia.
        * intros FA. destruct (CH9' FA) as (k & r' & FB & ER & EC & EBt). assert (n_trial n9 = first + zlen ces) as T9' by (rewrite T9, T8; reflexivity). unfold chosen. change (zlen (@nil Z)) with 0 in *. rewrite !T9'. rewrite T8 in EN9. unfold ces at 1.
          assert (k < List.length ces)%nat as KL by (apply nth_error_Some; congruence). unfold zlen in *.
          split; [unfold ces; cbn [List.length]; lia|]. split; [lia|]. exists (first + Z.of_nat k), (n_pbest n9).
          pose proof (EN9 k _ _ _ EC ER) as EE. unfold entry in EE. injection EE as E1 E2 E3 E4. split; [|split; [|split; [reflexivity|lia]]].
          -- apply (fastest_of n9 first _ BIG k rs); [|unfold zlen; lia | exact FB]. intros j r0 J.
             assert (exists ce0, nth_error ces j = Some ce0) as ([c0 e0] & J').
             { destruct (nth_error ces j) eqn:X; [eauto|]. apply nth_error_None in X. assert (j < List.length rs)%nat by (apply nth_error_Some; congruence). lia. }
             pose proof (EN9 j _ _ _ J' J) as Q. unfold entry in Q. injection Q as _ _ _ Q. exact Q.
          -- split; [exact E1|]. split; [exact E2|]. rewrite E3, PB9, P8; reflexivity.
        * discriminate.
        * intros FA _. apply LG9; auto. rewrite PB9, P8 by reflexivity. unfold pdefault. lia.
        * intros X. congruence.
        * rewrite G9. cbn [ev_ps map List.concat]. rewrite app_nil_r. reflexivity.
      + destruct LPS as [X|LPS]; [discriminate X|]. set (ps := p :: ps') in *.
        set (n10 := set_best BIG (n_cbest n9) (n_ebest n9) (n_pbest n9) n9).
        eapply twp_mono.
        { apply (p_loop_ok esize plsize rqsize ptsize nprocs xsize esize_pos dim3 setup_fn clk shapes P H U HE HU HF ps niter' flag tflag' o9 n10 lib9 dl9 rest d9 s9);
            [|exact TC9 | cbn; lia | cbn [n10 set_best n_trial]; lia | exact ID9].
          intros p0 IP. destruct HX as [FA|ALL]; [|apply ALL]. apply HP, LG9; auto. }
        intros [[o11 n11] d11] s11 (lib11 & dl11 & rs2 & ID11 & BP11 & LRS2 & MRS2 & N11 & TC11 & T11 & G11). cbv beta in *.
        destruct (p_num_spec ps rs2 n10 n11 N11 LRS2) as (_ & CB11 & EB11 & EO11 & EN11 & CH11). cbn [n10 set_best n_cbest n_ebest n_trial n_besttime] in *.
        assert (rs2 <> []) as RNE2 by (destruct rs2; [discriminate LRS2 | discriminate]).
        assert (fast -> exists k r', first_best BIG rs2 k /\ nth_error rs2 k = Some r' /\ nth_error ps k = Some (n_pbest n11) /\ n_besttime n11 = t3 r') as CH11'.
        { intros FA. destruct CH11 as [(X & _)|X]; [exfalso; exact (measured_fast FA rs2 MRS2 RNE2 X) | exact X]. }
        exists lib11, dl11, (n_cbest n9), (n_ebest n9). spl; auto.
        * rewrite BP11, BP9, BP6. exact BP1.
        * rewrite T11. unfold n10. cbn [set_best n_trial]. rewrite T9, T8. lia.
        * intros FA. destruct (CH9' FA) as (k & r' & FB & ER & EC & EBt). destruct (CH11' FA) as (k2 & r2 & FB2 & ER2 & EC2 & EBt2).
          assert (n_trial n11 = first + zlen ces + zlen ps) as TT by (rewrite T11; unfold n10; cbn [set_best n_trial]; rewrite T9, T8; lia).
          assert (n_trial n11 - zlen ps = n_trial n9) as MID by (rewrite TT, T9, T8; lia).
          assert (k < List.length ces)%nat as KL by (apply nth_error_Some; congruence).
          assert (k2 < List.length ps)%nat as KL2 by (apply nth_error_Some; congruence).
          assert (forall j, first <= j < n_trial n9 -> entry n11 j = entry n9 j) as OLD by (intros j J; rewrite EO11 by (unfold n10; cbn [set_best n_trial]; lia); reflexivity).
          unfold chosen. rewrite MID. split; [rewrite T9, T8; unfold zlen, ces; cbn [List.length]; lia|]. split; [rewrite TT, T9, T8; lia|].
          exists (first + Z.of_nat k), pdefault. unfold zlen in *.
          pose proof (EN9 k _ _ _ EC ER) as EE. rewrite T8 in EE. rewrite <- OLD in EE by (rewrite T9, T8; lia). unfold entry in EE. injection EE as E1 E2 E3 E4.
          split; [|split; [|split]].
          -- apply (fastest_of n11 first _ BIG k rs); [|rewrite T9, T8; unfold zlen; lia | exact FB]. intros j r0 J.
             assert (exists ce0, nth_error ces j = Some ce0) as ([c0 e0] & J').
             { destruct (nth_error ces j) eqn:X; [eauto|]. apply nth_error_None in X. assert (j < List.length rs)%nat by (apply nth_error_Some; congruence). lia. }
             assert (j < List.length ces)%nat as JL by (apply nth_error_Some; congruence).
             pose proof (EN9 j _ _ _ J' J) as Q. rewrite T8 in Q. rewrite <- OLD in Q by (rewrite T9, T8; lia). unfold entry in Q. injection Q as _ _ _ Q. exact Q.
          -- rewrite CB11, EB11. repeat split; assumption.
          -- rewrite TT, T9, T8. unfold zlen. lia.
          -- intros _. split; [rewrite TT, T9, T8; lia|]. exists (n_trial n9 + Z.of_nat k2). rewrite CB11, EB11.
             pose proof (EN11 k2 _ _ EC2 ER2) as Q. unfold n10 in Q. cbn [set_best n_trial n_cbest n_ebest] in Q. unfold entry in Q. injection Q as Q1 Q2 Q3 Q4.
             split; [|split; [repeat split; assumption | rewrite EBt2; exact Q4]].
             apply (fastest_of n11 (n_trial n9) _ BIG k2 rs2); [|rewrite TT, T9, T8; unfold zlen; lia | exact FB2]. intros j r0 J.
             assert (exists p0, nth_error ps j = Some p0) as (p0 & J').
             { destruct (nth_error ps j) eqn:X; [eauto|]. apply nth_error_None in X. assert (j < List.length rs2)%nat by (apply nth_error_Some; congruence). lia. }
             pose proof (EN11 j _ _ J' J) as W. unfold n10 in W. cbn [set_best n_trial n_cbest n_ebest] in W. unfold entry in W. injection W as _ _ _ W. exact W.
        * discriminate.
        * intros FA _. rewrite CB11, EB11. apply LG9; auto. destruct (CH11' FA) as (k2 & r2 & _ & _ & EC2 & _). apply LP. eapply nth_error_In; eauto.
        * rewrite G11, G9, <- app_assoc. reflexivity. }
  intros [[o7 n7] d7] s7 (lib7 & dl7 & c1 & e1 & ID7 & BP7 & TC7 & T7 & CH7 & EM7 & LG7 & CE7 & LOG7). cbv beta in *. cbv zeta.
  destruct ID7 as (IV7 & ST7 & (DO7 & _) & H7).
  (* free data *)
  destruct (free_own_ok (fst d7) dl7 (lib7 ++ rest) (t_heap s7) DO7) as (h8 & E8 & H8).
  { eapply has_perm; [|exact H7]. rewrite <- app_assoc. apply perm_mid. }
  eapply twp_bind with (R := fun _ b => b = mktst h8 (t_tick s7) (t_log s7)).
  { unfold twp, tlift. rewrite sfree_lenient, E8. reflexivity. }
  intros ? s8 E. cbv beta in E. subst s8. eapply twp_bind; [apply wtime_ok|]. intros tc s9 (_ & _ & A9 & B9). cbn [t_heap t_log] in *.
  set (best := mkset (n_cbest (scale_times niter' flag n7)) (n_ebest (scale_times niter' flag n7)) (n_pbest (scale_times niter' flag n7))).
  assert (P best) as PB.
  { destruct HX as [FA|ALL]; [|apply ALL]. destruct ces as [|ce ces'].
    - specialize (EM7 eq_refl). unfold best. change (P (mkset (n_cbest n7) (n_ebest n7) (n_pbest n7))). rewrite EM7. exact PC.
    - apply HP. apply (LG7 FA). discriminate. }
  eapply twp_bind with (R := fun o' b => done (o_memflag o) best (base_ptrs o) rest o' (t_heap b) /\ t_log b = t_log s9 ++ [TSetup best]).
  { unfold t_setup, twp, tbind, tlog, tlift. cbn [t_heap t_tick t_log with_settings o_set]. fold best. destruct (setup_fn best) as [e| |sh] eqn:E.
    - unfold setup_fobj. cbn [with_settings o_setup]. rewrite ST7, andb_false_r. exact (HE _ _ PB E).
    - unfold setup_fobj. cbn [with_settings o_setup]. rewrite ST7, andb_false_r. exact (HU _ PB E).
    - rewrite <- A9 in H8.
      destruct (setup_fobj_ok esize plsize rqsize ptsize nprocs xsize esize_pos dim3 (with_settings best (o_memflag o) o7) lib7 rest (t_heap s9) sh (inv_settings _ _ _ _ best (o_memflag o) IV7) ST7 H8 (shapes _ _ E))
        as (o' & h' & nb' & E1 & H1 & IV1 & AS & BUF & BUN & _ & _ & BP).
      rewrite E1. split; [|reflexivity]. exists sh, (nb' ++ lib7). cbn [with_settings o_memflag o_set] in *. spl; auto.
      + rewrite BP. exact BP7.
      + intros M. destruct (BUF M) as [X Y]. split; (eapply buf_incl; [|eassumption]; intros z J; apply in_or_app; auto). }
  intros o' s10 (DN & G10). cbv beta in *. eapply twp_bind; [apply wtime_ok|]. intros td s11 (_ & _ & A11 & B11). apply twp_ret.
  cbv zeta. rewrite A11. cbn [set_setuptime n_cbest n_ebest n_pbest]. fold best. split; [exact DN|]. split.
  { destruct TC7 as ((L1 & L2 & L3 & L5 & L6 & L7 & L8) & LT7). split; [|cbn [set_setuptime scale_times n_tremaps]; rewrite map_length; exact LT7]. unfold tlen, scale_times, set_setuptime. cbn [n_cflags n_eflags n_pflags n_tfft n_t1d n_tremap n_tremaps].
    rewrite !scale_len by lia. spl; auto. apply Forall_map. eapply Forall_impl; [|exact L8]. intros l X. cbn beta in X. rewrite scale_len; lia. }
  exists niter', tflag', nruns, first, ces, ps, c1, e1. spl; auto.
  - intros FA NP. apply (chosen_scale n7 niter' flag); [apply TC7 | exact NP | apply CH7, FA].
  - rewrite B11, G10, B9, LOG7, LOG6, <- !app_assoc. reflexivity.
Qed.
End TuneTop.
