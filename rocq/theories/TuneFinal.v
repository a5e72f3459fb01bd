(** TuneFinal.v : the statements about tune() in terms of call histories, and the life of a Remap object. *)

From Coq Require Import QArith Lqa Permutation.
From Verif Require Import Base Setup3d Life LifeProofs LifeFft LifeObj Tune TuneProofs TuneNum TuneTop Proto ProtoProofs.
Open Scope Z_scope.

(** ** when the run-time estimate of tune() is computable.  [ts], [tf]: rank 0's times of the initial setup and
    transform; the quotients that are converted to int must fit in an int. *)
Definition two31 : Q := inject_Z 2147483648.
Definition countable (tmax ts tf : Q) (niter : Z) : Prop :=
  (0 < tf)%Q /\ (0 <= ts)%Q /\ (ts < two31 * tf)%Q /\ (tmax < two31 * tf)%Q /\ 3 * niter <= 2147483647.

Lemma cast_some q : (- two31 < q)%Q -> (q < two31)%Q -> exists z, cast_int q = Some z.
Proof.
  intros A B. unfold cast_int, qtrunc. destruct q as [a b]. unfold two31, Qlt, inject_Z in *. cbn in *. set (d := Z.pos b) in *. assert (0 < d) by (unfold d; lia).
  assert (- 2147483648 * d < a) by lia. assert (a < 2147483648 * d) by lia.
  assert (-2147483648 <= Z.quot a d <= 2147483647).
  { assert (Z.quot a d < 2147483648 /\ -2147483648 < Z.quot a d); [|lia]. destruct (Z_le_gt_dec 0 a).
    - split; [apply Z.quot_lt_upper_bound; lia|]. pose proof (Z.quot_pos a d). lia.
    - replace a with (- (- a)) by lia. rewrite Z.quot_opp_l by lia. pose proof (Z.quot_pos (- a) d). pose proof (Z.quot_lt_upper_bound (- a) d 2147483648). lia. }
  unfold int_ok. replace ((-2147483648 <=? Z.quot a d) && (Z.quot a d <=? 2147483647)) with true; [eauto|]. symmetry. apply andb_true_iff. rewrite !Z.leb_le. lia.
Qed.

Lemma qdiv_some a b : (0 < b)%Q -> qdiv a b = Some (a / b)%Q.
Proof. intros B. unfold qdiv. destruct (Qeq_bool b 0) eqn:E; [|reflexivity]. apply Qeq_bool_eq in E. rewrite E in B. discriminate B. Qed.

Lemma budget_some tmax ts tf niter tflag : countable tmax ts tf niter -> 0 < niter -> (0 <= tmax)%Q ->
  exists ni tf' nr, budget tmax ts tf niter tflag = Some (ni, tf', nr) /\ 0 < ni.
Proof.
  intros (T & S & A & B & C) N M. unfold budget.
  replace (negb (tflag =? 0) && negb (int_ok (3 * niter))) with false.
  2:{ symmetry. apply andb_false_iff. right. apply negb_false_iff. unfold int_ok. apply andb_true_iff. rewrite !Z.leb_le. lia. }
  destruct (qlt 0 tmax && _); [|eauto 6].
  assert (0 < two31)%Q as TP by reflexivity.
  assert (0 < ts + tf)%Q as P by lra.
  assert (tmax / 10 == tmax * (1 # 10))%Q as TE by reflexivity.
  set (a := (tmax / 10 - ts)%Q). assert (a == tmax * (1 # 10) - ts)%Q as AE by (unfold a; rewrite TE; reflexivity). clearbody a.
  assert (a / tf < two31)%Q as Q1 by (apply Qlt_shift_div_r; [exact T | lra]).
  assert (- two31 < a / tf)%Q as Q2 by (apply Qlt_shift_div_l; [exact T | lra]).
  rewrite (qdiv_some _ _ T). cbn [bind].
  assert (exists z, cast_int (if tflag =? 0 then (a / tf)%Q else (a / tf / 3)%Q) = Some z) as (z1 & ->).
  { destruct (tflag =? 0); [apply cast_some; assumption|]. apply cast_some.
    - apply Qlt_shift_div_l; [reflexivity|]. lra.
    - apply Qlt_shift_div_r; [reflexivity|]. lra. }
  cbn [bind]. destruct (Z.leb_spec z1 0); [|eauto 6]. destruct (cast_some _ Q2 Q1) as (z2 & ->). cbn [bind]. destruct (Z.leb_spec z2 0); [|eauto 6].
  rewrite (qdiv_some _ _ P). cbn [bind]. destruct (cast_some (tmax / (ts + tf))%Q) as (z3 & ->).
  - apply Qlt_shift_div_l; [exact P|]. nra.
  - apply Qlt_shift_div_r; [exact P|]. nra.
  - cbn [bind]. exists 1, 0, z3. split; [reflexivity | lia].
Qed.

Section TuneFinal.
Variable esize plsize rqsize ptsize nprocs xsize : Z.
Hypothesis esize_pos : 0 < esize.
Variable dim3 : bool.
Local Notation reach' := (reach false esize plsize rqsize ptsize nprocs xsize dim3).
Local Notation run' := (run false esize plsize rqsize ptsize nprocs xsize dim3).

(** every setting that may be tried can be set up *)
Definition can_setup (f : settings -> sres shape) (cur : settings) : Prop :=
  forall s, s = cur \/ legal s -> exists sh, f s = SOk sh /\ shape_fits sh = true.

Lemma tune_final cs o n h f clk root flag niter tmax tflag :
  reach' cs o n h -> ~ was_setup cs -> wf_call dim3 (CTune f clk root flag niter tmax tflag) -> (forall m, ~ misuse cs (CTune f clk root flag niter tmax tflag) m) ->
  can_setup f (o_set o) -> fast clk -> countable tmax (fst (first_times clk root 0)) (snd (first_times clk root 0)) niter ->
  exists o' n' h' lib rest log niter' lo mid,
    tune false esize plsize rqsize ptsize nprocs xsize dim3 f clk root flag niter tmax tflag o n (mktst h 0 []) = LOk ((o', n'), log) /\ t_heap log = h' /\
    split_heap h lib rest /\
    done esize dim3 f (o_memflag o) (mkset (n_cbest n') (n_ebest n') (n_pbest n')) (base_ptrs o) rest o' h' /\ tcond dim3 n' /\
    n_per n' = niter' /\ 0 < niter' /\ chosen n' lo mid /\ (lo = 0 \/ lo = 1 /\ n_trial n' = 2) /\ 1 <= n_trial n' <= 9 /\
    (mkset (n_cbest n') (n_ebest n') (n_pbest n') = o_set o \/ legal (mkset (n_cbest n') (n_ebest n') (n_pbest n'))).
Proof using esize_pos.
  intros R NS WF NM CS FA CT. destruct (reach_inv _ _ _ _ _ _ esize_pos dim3 cs o n h R) as [F TC]. destruct (flags_b _ _ _ _ F) as ([[_ W]|[S _]] & _); [contradiction|].
  destruct F as (_ & _ & _ & _ & OWN). destruct (OWN S) as (lib & rest & IV & SP).
  assert (-1 <= flag <= 1 /\ (0 < niter /\ (0 <= tmax)%Q) /\ 0 <= tflag <= 1) as (A1 & (A2 & A3) & A4).
  { assert (-1 <= flag <= 1 \/ ~ -1 <= flag <= 1) as [X|X] by lia; [|exfalso; eapply NM; right; left; eauto]. split; [exact X|].
    assert (0 < niter /\ (0 <= tmax)%Q) as Y.
    { destruct (Z_lt_le_dec 0 niter) as [Y1|Y1]; [|exfalso; eapply NM; right; right; left; spl; eauto; lia]. split; [exact Y1|]. destruct (Qlt_le_dec tmax 0) as [Y2|Y2]; [|exact Y2].
      exfalso. eapply NM; right; right; left. split; [exact NS|]. split; [exact X|]. split; [|reflexivity]. intros [_ Q]. apply Qlt_not_le in Y2. contradiction. }
    split; [exact Y|]. destruct Y. assert (0 <= tflag <= 1 \/ ~ 0 <= tflag <= 1) as [Z0|Z0] by lia; [exact Z0|]. exfalso. eapply NM; right; right; right; eauto 10. }
  destruct (budget_some tmax _ _ niter tflag CT A2 A3) as (ni & tf' & nr & BE & NI).
  assert (twp (tune false esize plsize rqsize ptsize nprocs xsize dim3 f clk root flag niter tmax tflag o n) (mktst h 0 []) (fun _ => False) False
     (fun x b => exists lo mid, done esize dim3 f (o_memflag o) (mkset (n_cbest (snd x)) (n_ebest (snd x)) (n_pbest (snd x))) (base_ptrs o) rest (fst x) (t_heap b) /\ tcond dim3 (snd x) /\ 
        n_per (snd x) = ni /\ chosen (snd x) lo mid /\ (lo = 0 \/ lo = 1 /\ n_trial (snd x) = 2) /\ 1 <= n_trial (snd x) <= 9 /\
        (mkset (n_cbest (snd x)) (n_ebest (snd x)) (n_pbest (snd x)) = o_set o \/ legal (mkset (n_cbest (snd x)) (n_ebest (snd x)) (n_pbest (snd x)))))) as TW.
  { eapply twp_mono; [apply (tune_ok esize plsize rqsize ptsize nprocs xsize esize_pos dim3 f clk WF (fun s => s = o_set o \/ legal s) (fun _ => False) False) with (lib := lib) (rest := rest)|]; auto.
    - intros s e P E. destruct (CS s P) as (sh & E' & _). congruence.
    - intros s P E. destruct (CS s P) as (sh & E' & _). congruence.
    - intros s sh P E E2. destruct (CS s P) as (sh' & E' & E3). congruence.
    - apply SP.
    - cbn [t_tick]. congruence.
    - intros [ox nx] b (D & TL & ni' & tfl & nruns & fst0 & ces & ps & c1 & e1 & BE' & SC & PER & CH & NT & EM & LG & _ & _). cbn [fst snd t_tick] in *. rewrite BE in BE'. injection BE' as <- <- <-.
      destruct (schedule_ok _ _ _ _ _ SC) as (FI & LE & _ & _ & EMP & _). specialize (CH FA NI).
      eexists _, _. spl; [exact D | exact TL | exact PER | exact CH | | | | ].
      + destruct ces as [|ce ces']; [left; reflexivity|]. destruct FI as [-> | ->]; [left; reflexivity|right]. split; [reflexivity|].
        unfold schedule in SC. destruct (9 <=? nr - 1); [discriminate SC|]. destruct (6 <=? nr - 1); [discriminate SC|]. destruct (3 <=? nr - 1); [discriminate SC|]. destruct (nr - 1 =? 2); [discriminate SC|].
        destruct ((nr - 1 =? 1) && negb (default_set (o_set o))); [|discriminate SC]. injection SC as <- <- <-. rewrite NT. reflexivity.
      + destruct CH as (X & Y & _). lia.
      + lia.
      + destruct ces as [|ce ces']; [left; apply EM; reflexivity | right; apply LG; [exact FA | discriminate]]. }
  unfold twp in TW. destruct (tune _ _ _ _ _ _ _ _ _ _ _ _ _ _ _ o n (mktst h 0 [])) as [?| |[[o' n'] b]] eqn:T; try contradiction TW. cbn [fst snd] in TW. destruct TW as (lo & mid & D & TL & PER & CH & LO & NT & LG).
  exists o', n', (t_heap b), lib, rest, b, ni, lo, mid. spl; auto; lia.
Qed.

(** C39 *)
Theorem tune_ready cs o n h f clk root flag niter tmax tflag :
  reach' cs o n h -> ~ was_setup cs -> wf_call dim3 (CTune f clk root flag niter tmax tflag) -> (forall m, ~ misuse cs (CTune f clk root flag niter tmax tflag) m) ->
  can_setup f (o_set o) -> fast clk -> countable tmax (fst (first_times clk root 0)) (snd (first_times clk root 0)) niter ->
  exists o' n' h', run' (CTune f clk root flag niter tmax tflag) o n h = LOk ((o', n'), h') /\
    let best := mkset (n_cbest n') (n_ebest n') (n_pbest n') in
    (* set up with the settings reported as best *)
    o_setup o' = true /\ o_set o' = best /\ (exists sh, f best = SOk sh /\ o_sizes o' = s_sizes sh /\ o_dims o' = Some (s_dims sh)) /\
    (* legal values, or the ones the caller chose *)
    (best = o_set o \/ legal best) /\
    (* and one of the recorded trials *)
    (exists k, 0 <= k < n_trial n' /\ tried n' k (n_cbest n') (n_ebest n') (n_pbest n')) /\
    (* memory ownership *)
    o_memflag o' = o_memflag o /\ (o_smem o' = true <-> o_memflag o <> 0) /\
    Permutation (filter (fun b => negb (is_lib b)) (h_live h')) (filter (fun b => negb (is_lib b)) (h_live h)) /\
    (* trials and result vectors *)
    1 <= n_trial n' <= 9 /\ 0 < n_per n' /\ tcond dim3 n'.
Proof using esize_pos.
  intros R NS WF NM CS FA CT. destruct (tune_final cs o n h f clk root flag niter tmax tflag R NS WF NM CS FA CT) as (o' & n' & h' & lib & rest & log & ni & lo & mid & T & <- & SP & D & TL & PER & NI & CH & LO & NT & LG).
  exists o', n', (t_heap log). split; [cbn [run]; rewrite T; reflexivity|]. cbv zeta. destruct D as (sh & lib' & SF & IV & (B1 & B2 & B3 & B4 & B5 & B6 & _) & _ & Hs & _).
  split; [exact B1|]. split; [exact B2|]. split; [eauto|]. split; [exact LG|]. split.
  { destruct CH as (X & Y & k & p & FK & TK & EQ & LT). destruct (Z.eq_dec mid (n_trial n')) as [E|E].
    - exists k. rewrite <- (EQ E). split; [|exact TK]. destruct FK. lia.
    - destruct LT as (_ & k' & [FK' _] & TK' & _); [lia|]. exists k'. split; [lia | exact TK']. }
  split; [exact B3|]. split.
  { rewrite B4. destruct (Z.eqb_spec (o_memflag o) 0); cbn; split; intros; congruence. }
  split.
  { destruct SP as ((_ & P) & LL & LR). destruct Hs as (_ & P'). pose proof (inv_lib _ _ _ _ IV) as LL'.
    rewrite (Permutation_filter_blk _ _ _ P), (Permutation_filter_blk _ _ _ P'), !filter_app.
    rewrite (filter_none _ lib), (filter_none _ lib'); [reflexivity | |]; (eapply Forall_impl; [|eassumption]); intros b X; unfold is_lib; rewrite X; reflexivity. }
  split; [exact NT|]. split; [lia | exact TL].
Qed.

(** C40 *)
Theorem tune_choice cs o n h f clk root flag niter tmax tflag :
  reach' cs o n h -> ~ was_setup cs -> wf_call dim3 (CTune f clk root flag niter tmax tflag) -> (forall m, ~ misuse cs (CTune f clk root flag niter tmax tflag) m) ->
  can_setup f (o_set o) -> fast clk -> countable tmax (fst (first_times clk root 0)) (snd (first_times clk root 0)) niter ->
  exists o' n' h' lo mid, run' (CTune f clk root flag niter tmax tflag) o n h = LOk ((o', n'), h') /\ chosen n' lo mid /\ (lo = 0 \/ lo = 1 /\ n_trial n' = 2).
Proof using esize_pos.
  intros R NS WF NM CS FA CT. destruct (tune_final cs o n h f clk root flag niter tmax tflag R NS WF NM CS FA CT) as (o' & n' & h' & lib & rest & log & ni & lo & mid & T & <- & SP & D & TL & PER & NI & CH & LO & NT & LG).
  exists o', n', (t_heap log), lo, mid. split; [cbn [run]; rewrite T; reflexivity|]. auto.
Qed.

(** the calls of a tune() that returns *)
Lemma tune_log ff ck rt flag niter tmax tflag oo nn hh cc xx ss : reach' cc oo nn hh -> wf_call dim3 (CTune ff ck rt flag niter tmax tflag) ->
  tune false esize plsize rqsize ptsize nprocs xsize dim3 ff ck rt flag niter tmax tflag oo nn (mktst hh 0 []) = LOk (xx, ss) ->
  (-1 <= flag <= 1 /\ 0 < niter /\ (0 <= tmax)%Q /\ 0 <= tflag <= 1) /\
  exists niter' tflag' nruns first ces ps, budget tmax (fst (first_times ck rt 0)) (snd (first_times ck rt 0)) niter tflag = Some (niter', tflag', nruns) /\ schedule nruns (o_set oo) = (first, ces, ps) /\
    n_per (snd xx) = niter' /\ n_trial (snd xx) = first + zlen ces + zlen ps /\
    t_log ss = ev_first dim3 flag (o_set oo) ++ ev_ces dim3 ces niter' flag tflag' ++ ev_ps dim3 (n_cbest (snd xx)) (n_ebest (snd xx)) ps niter' flag tflag' ++ ev_last (mkset (n_cbest (snd xx)) (n_ebest (snd xx)) (n_pbest (snd xx))).
Proof using esize_pos.
  intros R WF T. destruct (reach_inv _ _ _ _ _ _ esize_pos dim3 cc oo nn hh R) as [F TC]. pose proof F as (_ & _ & _ & _ & OWN).
  assert (o_setup oo = false /\ -1 <= flag <= 1 /\ 0 < niter /\ (0 <= tmax)%Q /\ 0 <= tflag <= 1) as (ST & A1 & A2 & A3 & A4).
  { unfold tune in T. destruct (o_setup oo); [discriminate|]. split; [reflexivity|].
    destruct ((flag <? -1) || (1 <? flag)) eqn:C1; [discriminate|]. destruct ((niter <=? 0) || qlt tmax 0) eqn:C2; [discriminate|]. destruct ((tflag <? 0) || (1 <? tflag)) eqn:C3; [discriminate|].
    apply orb_false_iff in C1 as [? ?], C2 as [? C2], C3 as [? ?]. rewrite Z.ltb_ge, Z.leb_gt in *. spl; try lia. apply qlt_false. assumption. }
  split; [auto|]. destruct (OWN ST) as (lib & rest & IV & SP).
  assert (twp (tune false esize plsize rqsize ptsize nprocs xsize dim3 ff ck rt flag niter tmax tflag oo nn) (mktst hh 0 []) (fun _ => True) True
   (fun x b => exists niter' tflag' nruns first ces ps, budget tmax (fst (first_times ck rt 0)) (snd (first_times ck rt 0)) niter tflag = Some (niter', tflag', nruns) /\ schedule nruns (o_set oo) = (first, ces, ps) /\
    n_per (snd x) = niter' /\ n_trial (snd x) = first + zlen ces + zlen ps /\
    t_log b = ev_first dim3 flag (o_set oo) ++ ev_ces dim3 ces niter' flag tflag' ++ ev_ps dim3 (n_cbest (snd x)) (n_ebest (snd x)) ps niter' flag tflag' ++ ev_last (mkset (n_cbest (snd x)) (n_ebest (snd x)) (n_pbest (snd x))))) as W.
  { eapply twp_mono; [apply (tune_ok esize plsize rqsize ptsize nprocs xsize esize_pos dim3 ff ck WF (fun _ => True) (fun _ => True) True) with (lib := lib) (rest := rest); auto; apply SP|].
    intros [ox nx] b (_ & _ & ni & tf & nr & fi & ces & ps & c1 & e1 & BE & SC & PE & _ & NT & _ & _ & CE & LG). cbn [fst snd t_tick t_log] in *. exists ni, tf, nr, fi, ces, ps. spl; auto.
    rewrite LG. destruct ps as [|p ps']; [reflexivity|]. destruct (CE ltac:(discriminate)) as [-> ->]. reflexivity. }
  unfold twp in W. rewrite T in W. exact W.
Qed.

(** the MPI calls of two ranks whose choices agree *)
Theorem tune_lockstep f f' clk clk' root root' flag niter tmax tflag o o1 n n1 h h1 cs cs1 x y s s1 :
  reach' cs o n h -> reach' cs1 o1 n1 h1 -> o_set o = o_set o1 ->
  wf_call dim3 (CTune f clk root flag niter tmax tflag) -> wf_call dim3 (CTune f' clk' root' flag niter tmax tflag) ->
  first_times clk root 0 = first_times clk' root' 0 ->
  tune false esize plsize rqsize ptsize nprocs xsize dim3 f clk root flag niter tmax tflag o n (mktst h 0 []) = LOk (x, s) ->
  tune false esize plsize rqsize ptsize nprocs xsize dim3 f' clk' root' flag niter tmax tflag o1 n1 (mktst h1 0 []) = LOk (y, s1) ->
  n_cbest (snd x) = n_cbest (snd y) -> n_ebest (snd x) = n_ebest (snd y) -> n_pbest (snd x) = n_pbest (snd y) ->
  t_log s = t_log s1.
Proof using esize_pos.
  intros R R1 ES WF WF1 FT T T1 EC EE EP.
  destruct (tune_log _ _ _ _ _ _ _ _ _ _ _ _ _ R WF T) as (_ & a1 & a2 & a3 & a4 & a5 & a6 & B & S & _ & _ & L). destruct (tune_log _ _ _ _ _ _ _ _ _ _ _ _ _ R1 WF1 T1) as (_ & b1 & b2 & b3 & b4 & b5 & b6 & B' & S' & _ & _ & L').
  rewrite FT in B. rewrite B in B'. injection B' as <- <- <-. rewrite ES in S. rewrite S in S'. injection S' as <- <- <-. rewrite L, L', ES, EC, EE, EP. reflexivity.
Qed.
End TuneFinal.

(** ** a Remap3d or Remap2d object used by itself *)
Definition set_coll (c : Z) (r : robj) : robj :=
  mkrobj (r_mem r) (r_err r) (r_setup r) c (r_memflag r) (r_comm r) (r_pgroup r) (r_arr r) (r_carr r) (r_send r) (r_recv r) (r_need r) (r_usage r).

Section RemapLife.
Variable esize plsize rqsize ptsize nprocs xsize : Z.

(** constructed, variable collective assigned, set up once with memoryflag [mf], then any number of remap() calls *)
Inductive rreach : robj -> heap -> Prop :=
  | rr_setup coll c mf h0 r0 h1 r h : wf h0 -> (forall b, In b (h_live h0) -> b_own b = OUser) -> new_robj h0 = LOk (r0, h1) ->
      setup_robj false esize plsize rqsize ptsize nprocs xsize c mf (set_coll coll r0) h1 = LOk (r, h) -> rreach r h
  | rr_remap r h us ur r' h' : rreach r h -> remap_robj esize us ur r h = LOk (r', h') -> rreach r' h'
  | rr_user r h h' : rreach r h -> user_step h h' -> rreach r h'.

Lemma rreach_inv r h : rreach r h -> exists lib rest mf, ownl (robj_ptrs r) lib /\ split_heap h lib rest /\ r_memflag r = Some mf.
Proof.
  induction 1 as [coll c mf h0 r0 h1 r h W US N S | r h us ur r' h' R (lib & rest & mf & O & SP & M) E | r h h' R (lib & rest & mf & O & SP & M) U].
  - assert (has h0 (h_live h0)) as H0 by (split; [exact W | reflexivity]).
    destruct (new_robj_ok _ _ H0) as (r1 & h2 & mb & eb & E1 & H1 & F & Om & Oe & _ & _). rewrite E1 in N. injection N as -> ->.
    assert (fresh_robj mb eb (set_coll coll r0)) as F0 by (destruct F as (? & ? & ? & ? & ? & ? & ? & ?); unfold fresh_robj; spl; assumption).
    destruct (setup_robj_ok esize plsize rqsize ptsize nprocs xsize mb eb c mf (set_coll coll r0) h1 _ F0 H1 ltac:(right; left; reflexivity)) as (r' & h3 & nb & E3 & H3 & Rm & Re & Rc & Rf & Rs & Rn & O & _). rewrite E3 in S. injection S as -> ->.
    exists ([mb] ++ [eb] ++ nb), (h_live h0), mf.
    assert (ownl (robj_ptrs r) ([mb] ++ [eb] ++ nb)) as OW.
    { change (robj_ptrs r) with ([r_mem r] ++ [r_err r] ++ skipn 2 (robj_ptrs r)). destruct F0 as (X & Y & _). rewrite Rm, Re, X, Y. repeat apply ownl_app; auto; apply ownl_one; assumption. }
    split; [exact OW|]. split; [|exact Rf]. split; [|split; [destruct OW as (_ & _ & X); exact X | apply Forall_forall; exact US]].
    eapply has_perm; [|exact H3]. cbn [app]. rewrite <- !Permutation_middle. rewrite (perm_swap mb eb). reflexivity.
  - exists lib, rest, mf. pose proof (remap_robj_pure _ _ _ _ _ _ _ E) as ->. unfold remap_robj in E. destruct (negb (r_setup r)); [discriminate|]. rewrite M in E.
    unfold lbind in E. destruct (use_buf _ _ _ h) as [?| |[? h1]]; try discriminate. destruct (use_buf _ _ _ h1) as [?| |[? h2]]; try discriminate. unfold lret in E. injection E as <- _.
    split; [|split; [exact SP | reflexivity]]. unfold robj_ptrs in *. cbn [r_mem r_err r_coll r_comm r_pgroup r_arr r_carr r_memflag r_send r_recv]. rewrite M in *. destruct (mf =? 0); exact O.
  - destruct (user_step_split _ _ _ _ SP U) as (rest' & SP'). exists lib, rest', mf. auto.
Qed.

Theorem remap_del_ok r h : rreach r h -> exists h', del_robj false r h = LOk (tt, h') /\ wf h' /\ Permutation (h_live h') (filter (fun b => negb (is_lib b)) (h_live h)).
Proof.
  intros R. destruct (rreach_inv r h R) as (lib & rest & mf & O & (Hs & LL & LR) & M).
  destruct (free_all_ok _ _ _ _ O Hs) as (h' & E & H'). exists h'. rewrite (del_robj_eq _ _ _ M); [|apply O]. split; [exact E|].
  destruct H' as (W' & P'). split; [exact W'|]. rewrite P'. destruct Hs as (_ & P). rewrite (Permutation_filter_blk _ _ _ P), filter_app.
  rewrite (filter_none _ lib), (filter_all _ rest); [reflexivity | |]; (eapply Forall_impl; [|eassumption]); intros b X; unfold is_lib; rewrite X; reflexivity.
Qed.

End RemapLife.
