(** TuneTime.v : which trials tune() makes, and how long it takes, as the manual describes it (doc/api_tune.txt:64-121). *)

From Coq Require Import QArith Lqa.
From Verif Require Import Base Setup3d Life LifeProofs LifeFft LifeObj Tune TuneProofs TuneNum TuneTop Proto ProtoProofs TuneFinal TuneStat.
Open Scope Z_scope.

(** ** specification *)

(** the calls of one trial with these settings: the setup, [p] rounds of transforms, and, if the details are asked
    for, [p] rounds of the 1d transforms, of all remaps and of each remap; the clock is read in between *)
Definition trial_calls (dim3 : bool) (p flag detail : Z) (s : settings) : list tevent :=
  TSetup s :: TBarrier :: rounds p flag TCompute ++ TBarrier ::
  (if detail =? 0 then [] else rounds p flag TOnly1d ++ TBarrier :: rounds p flag TOnlyRemaps ++ TBarrier ::
   List.concat (map (fun w => rounds p flag (fun f => TOneRemap f w) ++ [TBarrier]) (if dim3 then [1; 2; 3; 4] else [1; 2; 3]))).

(** the settings of the trials when there is time for [k] of them; [c], [e]: the fastest of the first six *)
Definition trial_settings (k c e : Z) : list settings :=
  if k =? 9 then [mkset 0 0 2; mkset 0 1 2; mkset 1 0 2; mkset 1 1 2; mkset 2 0 2; mkset 2 1 2; mkset c e 0; mkset c e 1; mkset c e 2]
  else if k =? 6 then [mkset 0 0 2; mkset 0 1 2; mkset 1 0 2; mkset 1 1 2; mkset 2 0 2; mkset 2 1 2]
  else if k =? 3 then [mkset 0 0 2; mkset 1 0 2; mkset 2 0 2]
  else if k =? 2 then [mkset 1 0 2; mkset 2 0 2]
  else if k =? 1 then [mkset 2 0 2]
  else [].

(** all calls of tune(): the test run, rank 0's times, the trials, the final setup *)
Definition tune_calls (dim3 : bool) (k p flag detail : Z) (cur best : settings) : list tevent :=
  TBarrier :: TSetup cur :: TBarrier :: TBarrier :: rounds 1 flag TCompute ++ TBarrier :: TBcast :: TBcast ::
  List.concat (map (trial_calls dim3 p flag detail) (trial_settings k (st_coll best) (st_exch best))) ++ [TBarrier; TSetup best; TBarrier].

(** [j] runs of one setup and one round of transforms take no longer than tmax *)
Definition fits (tmax ts tf : Q) (j : Z) : Prop := (tmax == 0)%Q \/ (inject_Z j * (ts + tf) <= tmax)%Q.

(** how many trials there is time for, one run being the test run *)
Definition enough (tmax ts tf : Q) (cur : settings) (k : Z) : Prop :=
  k = 9 /\ fits tmax ts tf 10 \/
  k = 6 /\ ~ fits tmax ts tf 10 /\ fits tmax ts tf 7 \/
  k = 3 /\ ~ fits tmax ts tf 7 /\ fits tmax ts tf 4 \/
  k = 2 /\ ~ fits tmax ts tf 4 /\ fits tmax ts tf 3 \/
  k = 1 /\ ~ fits tmax ts tf 3 /\ fits tmax ts tf 2 /\ cur <> mkset 2 0 2 \/
  k = 0 /\ (~ fits tmax ts tf 2 \/ ~ fits tmax ts tf 3 /\ cur = mkset 2 0 2).

(** the estimated time of ten runs with [p] rounds each; the details take twice as long as the transforms *)
Definition ten_runs (ts tf : Q) (p detail : Z) : Q := (10 * (ts + inject_Z (p * (if detail =? 0 then 1 else 3)) * tf))%Q.

(** the rounds per trial, and whether the details are measured, for [niter] rounds and details [tflag] asked for *)
Definition per_trial (tmax ts tf : Q) (niter tflag p detail : Z) : Prop :=
  (* as asked for *)
  p = niter /\ detail = tflag /\ ((tmax == 0)%Q \/ (ten_runs ts tf niter tflag <= tmax)%Q) \/
  (* fewer rounds: as many as there is time for *)
  1 <= p < niter /\ detail = tflag /\ (ten_runs ts tf p tflag <= tmax < ten_runs ts tf (p + 1) tflag)%Q \/
  (* the details are left out *)
  1 <= p /\ tflag = 1 /\ detail = 0 /\ (0 < tmax < ten_runs ts tf 1 1)%Q /\ (ten_runs ts tf p 0 <= tmax < ten_runs ts tf (p + 1) 0)%Q \/
  (* fewer than nine trials *)
  p = 1 /\ detail = 0 /\ (0 < tmax < ten_runs ts tf 1 0)%Q.

(** *** the time *)
Fixpoint total (w : tevent -> Q) (l : list tevent) : Q := match l with [] => 0%Q | e :: t => (w e + total w t)%Q end.

(** [w] bounds the times of the calls: no setup takes longer than [ts], no round of transforms longer than [tf];
    neither do the 1d transforms and the remaps together, nor the single remaps together; waiting takes no time *)
Record costs (dim3 : bool) (w : tevent -> Q) (flag : Z) (ts tf : Q) : Prop := {
  c_wait : (w TBarrier == 0)%Q /\ (w TBcast == 0)%Q;
  c_setup : forall s, (w (TSetup s) <= ts)%Q;
  c_fft : (total w (rounds 1 flag TCompute) <= tf)%Q;
  c_parts : (total w (rounds 1 flag TOnly1d) + total w (rounds 1 flag TOnlyRemaps) <= tf)%Q;
  c_remaps : (total w (List.concat (map (fun i => rounds 1 flag (fun f => TOneRemap f i)) (if dim3 then [1; 2; 3; 4] else [1; 2; 3])%Z)) <= tf)%Q
}.
(** between two readings the clock advances by no more than the calls made there take *)
Definition explained (w : tevent -> Q) (clk : nat -> Q) (log : list tevent) : Prop :=
  forall k calls, interval log k = Some calls -> (clk (S k) - clk k <= total w calls)%Q.
(** from the first reading to the last *)
Definition elapsed (clk : nat -> Q) (log : list tevent) : Q := (clk (bars log - 1)%nat - clk 0%nat)%Q.

(** ** proofs *)
Lemma cast_spec q z : cast_int q = Some z -> (1 <= z -> (inject_Z z <= q)%Q /\ (q < inject_Z (z + 1))%Q) /\ (z <= 0 -> (q < 1)%Q).
Proof.
  unfold cast_int, qtrunc. destruct (int_ok _); [|discriminate]. intros E. injection E as E. destruct q as [a b]. cbn [Qnum Qden] in E.
  unfold Qle, Qlt, inject_Z. cbn [Qnum Qden]. set (d := Z.pos b) in *. assert (0 < d) by (unfold d; lia).
  pose proof (Z.quot_rem a d ltac:(lia)) as QR. pose proof (Z.rem_bound_abs a d ltac:(lia)) as RB. pose proof (Z.rem_sign_nz a d ltac:(lia)) as RS. rewrite E in QR.
  assert (Z.rem a d = 0 \/ (0 < Z.rem a d /\ 0 < a) \/ (Z.rem a d < 0 /\ a < 0)) as C.
  { destruct (Z.eq_dec (Z.rem a d) 0) as [X|X]; [auto|]. specialize (RS X). destruct (Z.sgn_spec (Z.rem a d)) as [(Y & S)|[(Y & S)|(Y & S)]], (Z.sgn_spec a) as [(Y' & S')|[(Y' & S')|(Y' & S')]]; lia. }
  split; [intros Z1; split | intros Z1]; rewrite ?Z.mul_1_r; nia.
Qed.

Lemma inject_lt a b : a < b -> (inject_Z a < inject_Z b)%Q.
Proof. intros H. rewrite <- Zlt_Qlt. exact H. Qed.

Lemma div_le x y tf : (0 < tf)%Q -> (x <= y / tf <-> x * tf <= y)%Q.
Proof.
  intros T. split; intros H.
  - apply (Qmult_le_r _ _ tf T) in H. assert (y / tf * tf == y)%Q as E by (field; intros X; rewrite X in T; discriminate). lra.
  - apply Qle_shift_div_l; assumption.
Qed.
Lemma div_lt x y tf : (0 < tf)%Q -> (y / tf < x <-> y < x * tf)%Q.
Proof.
  intros T. split; intros H.
  - apply (Qmult_lt_r _ _ tf T) in H. assert (y / tf * tf == y)%Q as E by (field; intros X; rewrite X in T; discriminate). lra.
  - apply Qlt_shift_div_r; assumption.
Qed.

(** the estimate *)
Lemma budget_spec tmax ts tf niter tflag p detail nr : (0 < tf)%Q -> (0 <= ts)%Q -> 0 < niter -> (0 <= tmax)%Q -> 0 <= tflag <= 1 ->
  budget tmax ts tf niter tflag = Some (p, detail, nr) ->
  per_trial tmax ts tf niter tflag p detail /\ forall j, 1 <= j <= 10 -> (j <= nr <-> fits tmax ts tf j).
Proof.
  intros T S N M F B. unfold budget in B. destruct (negb (tflag =? 0) && negb (int_ok (3 * niter))); [discriminate|]. cbv zeta in B.
  set (m := if tflag =? 0 then 1 else 3).
  assert (1 <= m) as M1 by (unfold m; destruct (tflag =? 0); lia).
  assert (forall x, ten_runs ts tf x tflag == 10 * (ts + inject_Z x * (inject_Z m * tf)))%Q as TR.
  { intros x. unfold ten_runs. fold m. rewrite inject_Z_mult. ring. }
  assert (forall x, ten_runs ts tf x 0 == 10 * (ts + inject_Z x * tf))%Q as TR0.
  { intros x. unfold ten_runs. cbn [Z.eqb]. rewrite inject_Z_mult. ring. }
  assert (0 < inject_Z m * tf)%Q as MT.
  { assert (0 < inject_Z m)%Q by (apply (inject_lt 0); lia). nra. }
  assert (tf <= inject_Z m * tf)%Q as MT1.
  { assert (1 <= inject_Z m)%Q by (rewrite (Zle_Qle 1 m) in M1; exact M1). nra. }
  assert (10 * (ts + inject_Z (if tflag =? 0 then niter else 3 * niter) * tf) == ten_runs ts tf niter tflag)%Q as TT.
  { rewrite TR. unfold m. destruct (tflag =? 0); rewrite ?inject_Z_mult; [change (inject_Z 1) with 1%Q | change (inject_Z 3) with 3%Q]; ring. }
  assert (forall x, 1 <= x -> (tf <= inject_Z x * tf)%Q) as XT.
  { intros x X. assert (1 <= inject_Z x)%Q by (rewrite (Zle_Qle 1 x) in X; exact X). nra. }
  assert (forall j, 1 <= j <= 10 -> (10 * (ts + tf) <= tmax)%Q -> fits tmax ts tf j) as ALL.
  { intros j J H. right. assert (inject_Z j <= 10)%Q by (rewrite (Zle_Qle j 10) in J; apply J). nra. }
  assert (((tmax == 0)%Q \/ (ten_runs ts tf niter tflag <= tmax)%Q) -> p = niter -> detail = tflag -> nr = 10 ->
     per_trial tmax ts tf niter tflag p detail /\ forall j, 1 <= j <= 10 -> (j <= nr <-> fits tmax ts tf j)) as ASK.
  { intros H -> -> ->. split; [left; auto|]. intros j J. split; [intros _|lia]. destruct H as [H|H]; [left; exact H|]. apply ALL; [exact J|]. rewrite TR in H. pose proof (XT niter ltac:(lia)).
    assert (1 <= inject_Z niter)%Q by (assert (1 <= niter) as X by lia; rewrite Zle_Qle in X; exact X). nra. }
  destruct (qlt 0 tmax && _) eqn:C.
  2:{ injection B as <- <- <-. apply ASK; auto. apply andb_false_iff in C. destruct C as [C|C]; apply qlt_false in C; [left; lra|]. right. rewrite <- TT. exact C. }
  apply andb_true_iff in C as [C1 C2]. assert (0 < tmax)%Q as TP by (destruct (qlt_spec 0 tmax); [assumption | discriminate]).
  assert (tmax < ten_runs ts tf niter tflag)%Q as TQ by (rewrite <- TT; match type of C2 with qlt ?a ?b = true => destruct (qlt_spec a b); [assumption | discriminate] end). clear C1 C2 TT ASK.
  rewrite (qdiv_some _ _ T) in B. cbn [bind] in B.
  set (q := ((tmax / 10 - ts) / tf)%Q) in *.
  assert (forall x, inject_Z x <= q <-> ten_runs ts tf x 0 <= tmax)%Q as QL.
  { intros x. unfold q. rewrite (div_le _ _ _ T), TR0. assert (tmax / 10 == tmax * (1 # 10))%Q as E by reflexivity. rewrite E. split; intros H; lra. }
  assert (forall x, q < inject_Z x <-> tmax < ten_runs ts tf x 0)%Q as QG.
  { intros x. unfold q. rewrite (div_lt _ _ _ T), TR0. assert (tmax / 10 == tmax * (1 # 10))%Q as E by reflexivity. rewrite E. split; intros H; lra. }
  set (q1 := if tflag =? 0 then q else (q / 3)%Q) in *.
  assert (q1 == q / inject_Z m)%Q as Q1 by (unfold q1, m; destruct (tflag =? 0); [change (inject_Z 1) with 1%Q; field | reflexivity]).
  assert (0 < inject_Z m)%Q as MP by (apply (inject_lt 0); lia).
  assert (forall x, inject_Z x <= q1 <-> ten_runs ts tf x tflag <= tmax)%Q as Q1L.
  { intros x. rewrite Q1, (div_le _ _ _ MP). rewrite <- inject_Z_mult, QL, TR0, TR, inject_Z_mult. split; intros H; lra. }
  assert (forall x, q1 < inject_Z x <-> tmax < ten_runs ts tf x tflag)%Q as Q1G.
  { intros x. rewrite Q1, (div_lt _ _ _ MP). rewrite <- inject_Z_mult, QG, TR0, TR, inject_Z_mult. split; intros H; lra. }
  destruct (cast_int q1) as [z1|] eqn:K1; [|discriminate]. cbn [bind] in B. destruct (cast_spec _ _ K1) as (Z1 & Z1'). destruct (Z.leb_spec z1 0) as [Y1|Y1].
  2:{ injection B as <- <- <-. destruct (Z1 ltac:(lia)) as (A1 & A2). rewrite Q1L in A1. rewrite Q1G in A2. split.
      - right; left. split; [|auto]. split; [lia|]. apply Z.lt_nge. intros X. apply (Qlt_not_le _ _ TQ). apply Qle_trans with (ten_runs ts tf z1 tflag); [|exact A1]. rewrite !TR. rewrite Zle_Qle in X. nra.
      - intros j J. split; [intros _|lia]. apply ALL; [exact J|]. rewrite TR in A1. assert (1 <= inject_Z z1)%Q by (assert (1 <= z1) as X by lia; rewrite Zle_Qle in X; exact X). nra. }
  assert (tmax < ten_runs ts tf 1 tflag)%Q as S1 by (apply Q1G, Z1', Y1). clear Z1 Z1'.
  destruct (cast_int q) as [z2|] eqn:K2; [|discriminate]. cbn [bind] in B. destruct (cast_spec _ _ K2) as (Z2 & Z2'). destruct (Z.leb_spec z2 0) as [Y2|Y2].
  2:{ injection B as <- <- <-. destruct (Z2 ltac:(lia)) as (A1 & A2). rewrite QL in A1. rewrite QG in A2. split.
      - right; right; left. split; [lia|]. assert (tflag = 1) as ->; [|auto]. destruct (Z.eq_dec tflag 0) as [X|X]; [|lia]. subst tflag. exfalso. apply (Qlt_not_le _ _ S1). apply Qle_trans with (ten_runs ts tf z2 0); [|exact A1].
        rewrite !TR0. pose proof (XT z2 ltac:(lia)). change (inject_Z 1) with 1%Q. lra.
      - intros j J. split; [intros _|lia]. apply ALL; [exact J|]. rewrite TR0 in A1. pose proof (XT z2 ltac:(lia)). lra. }
  assert (tmax < ten_runs ts tf 1 0)%Q as S2 by (apply QG, Z2', Y2). clear Z2 Z2'.
  assert (0 < ts + tf)%Q as P by lra. rewrite (qdiv_some _ _ P) in B. cbn [bind] in B. destruct (cast_int (tmax / (ts + tf))) as [z3|] eqn:K3; [|discriminate]. cbn [bind] in B. injection B as <- <- <-.
  destruct (cast_spec _ _ K3) as (Z3 & Z3'). split; [right; right; right; auto|]. intros j J. unfold fits.
  rewrite <- (div_le (inject_Z j) tmax _ P). split.
  - intros L. right. destruct (Z3 ltac:(lia)) as (A1 & _). rewrite Zle_Qle in L. lra.
  - intros [X|X]; [lra|]. destruct (Z_le_gt_dec z3 0) as [Y3|Y3].
    + exfalso. specialize (Z3' Y3). assert (1 <= inject_Z j)%Q by (destruct J as (J & _); rewrite Zle_Qle in J; exact J). lra.
    + destruct (Z3 ltac:(lia)) as (_ & A2). assert (inject_Z j < inject_Z (z3 + 1))%Q as L by lra. rewrite <- Zlt_Qlt in L. lia.
Qed.

(** the trials *)
Lemma default_set_spec cur : reflect (cur = mkset 2 0 2) (default_set cur).
Proof.
  unfold default_set, cdefault, edefault, pdefault. destruct cur as [c e p]. cbn [st_coll st_exch st_pack].
  destruct (Z.eqb_spec c 2) as [-> |X]; [|constructor; congruence]. destruct (Z.eqb_spec e 0) as [-> |X]; [|constructor; congruence]. destruct (Z.eqb_spec p 2) as [-> |X]; constructor; congruence.
Qed.

Definition number_of_trials (k : Z) : Z := if k =? 1 then 2 else if k =? 0 then 1 else k.

Lemma schedule_spec tmax ts tf nr cur first ces ps : schedule nr cur = (first, ces, ps) -> (forall j, 1 <= j <= 10 -> (j <= nr <-> fits tmax ts tf j)) ->
  exists k, enough tmax ts tf cur k /\ first + zlen ces + zlen ps = number_of_trials k /\
    forall c e, map (fun x => mkset (fst x) (snd x) pdefault) ces ++ map (mkset c e) ps = trial_settings k c e.
Proof.
  intros SC FT. unfold schedule in SC. pose proof (FT 10 ltac:(lia)) as F10. pose proof (FT 7 ltac:(lia)) as F7. pose proof (FT 4 ltac:(lia)) as F4. pose proof (FT 3 ltac:(lia)) as F3. pose proof (FT 2 ltac:(lia)) as F2.
  destruct (Z.leb_spec 9 (nr - 1)); [injection SC as <- <- <-; exists 9; split; [left; split; [reflexivity | apply F10; lia] | split; [reflexivity | intros; reflexivity]]|].
  destruct (Z.leb_spec 6 (nr - 1)); [injection SC as <- <- <-; exists 6; split; [right; left; split; [reflexivity | split; [rewrite <- F10; lia | apply F7; lia]] | split; [reflexivity | intros; reflexivity]]|].
  destruct (Z.leb_spec 3 (nr - 1)); [injection SC as <- <- <-; exists 3; split; [right; right; left; split; [reflexivity | split; [rewrite <- F7; lia | apply F4; lia]] | split; [reflexivity | intros; reflexivity]]|].
  destruct (Z.eqb_spec (nr - 1) 2); [injection SC as <- <- <-; exists 2; split; [right; right; right; left; split; [reflexivity | split; [rewrite <- F4; lia | apply F3; lia]] | split; [reflexivity | intros; reflexivity]]|].
  destruct (Z.eqb_spec (nr - 1) 1); [destruct (default_set_spec cur)|]; cbn [andb negb] in SC; injection SC as <- <- <-.
  - exists 0. split; [right; right; right; right; right; split; [reflexivity | right; split; [rewrite <- F3; lia | assumption]] | split; [reflexivity | intros; reflexivity]].
  - exists 1. split; [right; right; right; right; left; split; [reflexivity | split; [rewrite <- F3; lia | split; [apply F2; lia | assumption]]] | split; [reflexivity | intros; reflexivity]].
  - exists 0. split; [right; right; right; right; right; split; [reflexivity | left; rewrite <- F2; lia] | split; [reflexivity | intros; reflexivity]].
Qed.

Lemma trial_calls_eq dim3 p flag detail s : TSetup s :: ev_trial dim3 p flag detail = trial_calls dim3 p flag detail s.
Proof. reflexivity. Qed.

Section TuneTime.
Variable esize plsize rqsize ptsize nprocs xsize : Z.
Hypothesis esize_pos : 0 < esize.
Variable dim3 : bool.

Theorem tune_trials cs o n h f clk root flag niter tmax tflag o' n' b :
  reach false esize plsize rqsize ptsize nprocs xsize dim3 cs o n h -> wf_call dim3 (CTune f clk root flag niter tmax tflag) ->
  tune false esize plsize rqsize ptsize nprocs xsize dim3 f clk root flag niter tmax tflag o n (mktst h 0 []) = LOk ((o', n'), b) ->
  (0 <= fst (first_times clk root 0))%Q -> (0 < snd (first_times clk root 0))%Q ->
  exists k detail, let ts := fst (first_times clk root 0) in let tf := snd (first_times clk root 0) in
    enough tmax ts tf (o_set o) k /\ per_trial tmax ts tf niter tflag (n_per n') detail /\ n_trial n' = number_of_trials k /\
    t_log b = tune_calls dim3 k (n_per n') flag detail (o_set o) (mkset (n_cbest n') (n_ebest n') (n_pbest n')) /\
    results dim3 clk root flag detail n' (t_log b).
Proof using esize_pos.
  intros R WF T S F.
  assert (List.length (n_tremaps n) = (if dim3 then 4 else 3)%nat) as LT.
  { destruct (reach_inv _ _ _ _ _ _ esize_pos dim3 cs o n h R) as [_ (_ & L)]. rewrite whichs_len in L. exact L. }
  destruct (tune_results _ _ _ _ _ _ _ _ _ _ _ _ _ _ _ _ _ _ _ _ _ LT T) as (detail' & nr' & BU' & RES).
  destruct (tune_log _ _ _ _ _ _ esize_pos _ _ _ _ _ _ _ _ _ _ _ _ _ _ R WF T) as ((A1 & A2 & A3 & A4) & p & detail & nr & first & ces & ps & BU & SC & PE & NT & LG). cbn [snd] in *.
  destruct (budget_spec _ _ _ _ _ _ _ _ F S A2 A3 A4 BU) as (PT & FT). destruct (schedule_spec _ _ _ _ _ _ _ _ SC FT) as (k & EN & NK & TS). exists k, detail. cbv zeta. rewrite PE.
  split; [exact EN|]. split; [exact PT|]. split; [congruence|]. split; [|rewrite BU in BU'; injection BU' as _ <- _; exact RES]. rewrite LG. unfold tune_calls, ev_first, ev_last, ev_trial. cbn [app st_coll st_exch]. do 4 f_equal. change (0 =? 0) with true. cbv iota. rewrite <- !app_assoc. f_equal. cbn [app]. do 3 f_equal.
  rewrite <- TS, map_app, concat_app, <- app_assoc. f_equal; [|f_equal]; unfold ev_ces, ev_ps; rewrite map_map; reflexivity.
Qed.

(** *** the time *)
Lemma total_app w a b : (total w (a ++ b) == total w a + total w b)%Q.
Proof. induction a as [|e a IH]; cbn [app total]; [ring|]. rewrite IH. ring. Qed.
Lemma rounds_app p flag g : 0 <= p -> rounds (p + 1) flag g = rounds 1 flag g ++ rounds p flag g.
Proof. intros P. unfold rounds. replace (Z.to_nat (p + 1)) with (S (Z.to_nat p)) by lia. change (Z.to_nat 1) with 1%nat. cbn [repeat List.concat]. rewrite app_nil_r. reflexivity. Qed.
Lemma total_rounds w p flag g : 0 <= p -> (total w (rounds p flag g) == inject_Z p * total w (rounds 1 flag g))%Q.
Proof.
  intros P. revert p P. apply natlike_ind.
  - unfold rounds at 1. cbn [Z.to_nat repeat List.concat total]. change (inject_Z 0) with 0%Q. ring.
  - intros p P IH. rewrite <- Z.add_1_r, (rounds_app _ _ _ P), total_app, IH, inject_Z_plus. change (inject_Z 1) with 1%Q. ring.
Qed.
Lemma total_which w p flag ws : 0 <= p -> (w TBarrier == 0)%Q ->
  (total w (List.concat (map (fun i => rounds p flag (fun f => TOneRemap f i) ++ [TBarrier]) ws)) == inject_Z p * total w (List.concat (map (fun i => rounds 1 flag (fun f => TOneRemap f i)) ws)))%Q.
Proof.
  intros P B. induction ws as [|i ws IH]; cbn [map List.concat]; [cbn [total]; ring|]. rewrite !total_app, IH, (total_rounds w p) by exact P. cbn [total]. rewrite B. ring.
Qed.

Lemma trial_cost w flag ts tf p detail s : costs dim3 w flag ts tf -> 0 <= p -> (total w (trial_calls dim3 p flag detail s) <= ts + inject_Z (p * (if (detail =? 0)%Z then 1 else 3)) * tf)%Q.
Proof using Type.
  intros [[B _] S F PA RE] P. unfold trial_calls. cbn [total]. rewrite total_app, (total_rounds w p) by exact P. cbn [total]. specialize (S s).
  assert (0 <= inject_Z p)%Q as PQ by (rewrite Zle_Qle in P; exact P). rewrite inject_Z_mult. destruct (detail =? 0).
  - cbn [total]. change (inject_Z 1) with 1%Q. nra.
  - rewrite total_app, (total_rounds w p) by exact P. cbn [total]. rewrite total_app, (total_rounds w p) by exact P. cbn [total]. rewrite (total_which w p flag _ P B). change (inject_Z 3) with 3%Q.
    set (a := total w (rounds 1 flag TCompute)) in *. set (b := total w (rounds 1 flag TOnly1d)) in *. set (c := total w (rounds 1 flag TOnlyRemaps)) in *. set (d := total w (List.concat _)) in *. nra.
Qed.

Lemma trials_cost w flag ts tf p detail l : costs dim3 w flag ts tf -> 0 <= p ->
  (total w (List.concat (map (trial_calls dim3 p flag detail) l)) <= inject_Z (zlen l) * (ts + inject_Z (p * (if (detail =? 0)%Z then 1 else 3)) * tf))%Q.
Proof using Type.
  intros C P. induction l as [|s l IH]; cbn [map List.concat].
  - cbn [total]. change (inject_Z (zlen [])) with 0%Q. lra.
  - rewrite total_app. pose proof (trial_cost w flag ts tf p detail s C P) as T. replace (zlen (s :: l)) with (1 + zlen l) by (unfold zlen; cbn [List.length]; lia). rewrite inject_Z_plus. change (inject_Z 1) with 1%Q. lra.
Qed.

Lemma trial_settings_len k c e : k = 9 \/ k = 6 \/ k = 3 \/ k = 2 \/ k = 1 \/ k = 0 -> zlen (trial_settings k c e) = k.
Proof. intros [-> |[-> |[-> |[-> |[-> | ->]]]]]; reflexivity. Qed.

Lemma calls_cost w flag ts tf k p detail cur best : costs dim3 w flag ts tf -> 0 <= p -> k = 9 \/ k = 6 \/ k = 3 \/ k = 2 \/ k = 1 \/ k = 0 ->
  (total w (tune_calls dim3 k p flag detail cur best) <= ts + tf + inject_Z k * (ts + inject_Z (p * (if (detail =? 0)%Z then 1 else 3)) * tf) + ts)%Q.
Proof using Type.
  intros C P K. pose proof (trials_cost w flag ts tf p detail (trial_settings k (st_coll best) (st_exch best)) C P) as T. rewrite (trial_settings_len _ _ _ K) in T.
  destruct C as [[B B2] S F _ _]. unfold tune_calls. cbn [total]. rewrite total_app. cbn [total]. rewrite total_app. cbn [total]. pose proof (S cur). pose proof (S best). lra.
Qed.

(** the elapsed time is at most that of all calls *)
Lemma split_barrier t : bars t = O \/ exists l t', t = l ++ TBarrier :: t' /\ bars l = O.
Proof.
  induction t as [|e t IH]; [left; reflexivity|]. destruct e; [right; exists [], t; split; reflexivity|..];
  (destruct IH as [IH|(l & t' & -> & IH)]; [left; exact IH | right; eexists (_ :: l), t'; split; [reflexivity | exact IH]]).
Qed.
Lemma elapsed_from w clk log : (w TBarrier == 0)%Q -> explained w clk log -> forall m t a, bars t = m -> log = a ++ TBarrier :: t ++ [TBarrier] ->
  (clk (bars a + S m)%nat - clk (bars a) <= total w t)%Q.
Proof.
  intros B E. induction m as [|m IH]; intros t a M L.
  - rewrite Nat.add_1_r. apply E. rewrite L. apply interval_here; [reflexivity | exact M].
  - destruct (split_barrier t) as [X|(l & t' & -> & BL)]; [lia|]. rewrite bars_app in M. cbn [bars] in M.
    specialize (IH t' (a ++ TBarrier :: l)). rewrite bars_app in IH. cbn [bars] in IH. rewrite BL in IH.
    assert (clk (S (bars a)) - clk (bars a) <= total w l)%Q as H1.
    { apply E. rewrite L, <- app_assoc. cbn [app]. apply interval_here; [reflexivity | exact BL]. }
    assert (clk (bars a + S (S m))%nat - clk (S (bars a)) <= total w t')%Q as H2.
    { replace (bars a + S (S m))%nat with ((bars a + 1) + S m)%nat by lia. replace (S (bars a)) with (bars a + 1)%nat by lia. apply IH; [lia|]. rewrite L. repeat (rewrite <- ?app_assoc; cbn [app]). reflexivity. }
    rewrite total_app. cbn [total]. lra.
Qed.
Lemma elapsed_total w clk log t : (w TBarrier == 0)%Q -> explained w clk log -> log = TBarrier :: t ++ [TBarrier] -> (elapsed clk log <= total w log)%Q.
Proof.
  intros B E L. pose proof (elapsed_from w clk log B E (bars t) t [] eq_refl L) as H. cbn [bars Nat.add] in H. unfold elapsed.
  assert (bars log - 1 = S (bars t))%nat as -> by (rewrite L; cbn [bars]; rewrite bars_app; cbn [bars]; lia).
  rewrite L. cbn [total]. rewrite total_app. cbn [total]. lra.
Qed.

Theorem tune_time cs o n h f clk root flag niter tmax tflag o' n' b w :
  reach false esize plsize rqsize ptsize nprocs xsize dim3 cs o n h -> wf_call dim3 (CTune f clk root flag niter tmax tflag) ->
  tune false esize plsize rqsize ptsize nprocs xsize dim3 f clk root flag niter tmax tflag o n (mktst h 0 []) = LOk ((o', n'), b) ->
  let ts := fst (first_times clk root 0) in let tf := snd (first_times clk root 0) in
  (0 <= ts)%Q -> (0 < tf)%Q -> costs dim3 w flag ts tf -> explained w clk (t_log b) ->
  ((tmax == 0)%Q -> (elapsed clk (t_log b) <= ten_runs ts tf niter tflag + ts)%Q) /\
  ((0 < tmax)%Q -> (ts + tf <= tmax)%Q -> (elapsed clk (t_log b) <= tmax + ts)%Q) /\
  ((0 < tmax)%Q -> (tmax < ts + tf)%Q -> (elapsed clk (t_log b) <= ts + tf + ts)%Q).
Proof using esize_pos.
  intros R WF T ts tf S F C E. destruct (tune_trials _ _ _ _ _ _ _ _ _ _ _ _ _ _ R WF T S F) as (k & detail & EN & PT & _ & LG & _). fold ts tf in EN, PT.
  assert (k = 9 \/ k = 6 \/ k = 3 \/ k = 2 \/ k = 1 \/ k = 0) as K by (unfold enough in EN; tauto).
  destruct (tune_log _ _ _ _ _ _ esize_pos _ _ _ _ _ _ _ _ _ _ _ _ _ _ R WF T) as ((A1 & A2 & A3 & A4) & _).
  assert (0 < n_per n') as NP by (unfold per_trial in PT; lia).
  assert (elapsed clk (t_log b) <= total w (t_log b))%Q as EL.
  { assert (exists t, tune_calls dim3 k (n_per n') flag detail (o_set o) (mkset (n_cbest n') (n_ebest n') (n_pbest n')) = TBarrier :: t ++ [TBarrier]) as (t & X).
    { unfold tune_calls. eexists (TSetup _ :: TBarrier :: TBarrier :: rounds 1 flag TCompute ++ TBarrier :: TBcast :: TBcast :: List.concat _ ++ [TBarrier; TSetup _]). cbn [app]. do 4 f_equal. rewrite <- app_assoc. f_equal. cbn [app]. do 3 f_equal. rewrite <- app_assoc. reflexivity. }
    apply (elapsed_total w clk (t_log b) t); [apply C | exact E | rewrite LG; exact X]. }
  rewrite LG in EL at 2. pose proof (calls_cost w flag ts tf k (n_per n') detail (o_set o) (mkset (n_cbest n') (n_ebest n') (n_pbest n')) C ltac:(lia) K) as CC.
  set (E0 := elapsed clk (t_log b)) in *. clearbody E0. set (per := n_per n') in *. set (m := if detail =? 0 then 1 else 3) in *.
  assert (tf <= inject_Z (per * m) * tf)%Q as PM.
  { assert (1 <= per * m) as X by (unfold m; destruct (detail =? 0); lia). rewrite Zle_Qle in X. change (inject_Z 1) with 1%Q in X. nra. }
  assert (E0 <= ts + tf + inject_Z k * (ts + inject_Z (per * m) * tf) + ts)%Q as B by lra. clear EL CC.
  assert (k = 9 -> (E0 <= ten_runs ts tf per detail + ts)%Q) as B9.
  { intros ->. unfold ten_runs. fold m. change (inject_Z 9) with 9%Q in B. lra. }
  split; [|split].
  - intros Z. assert (k = 9) as K9 by (unfold enough, fits in EN; clear - EN Z; tauto). specialize (B9 K9).
    destruct PT as [(P1 & P2 & _)|[(P1 & P2 & P3)|[(P1 & P2 & P3 & P4 & _)|(P1 & P2 & P4)]]]; [rewrite P1, P2 in B9; exact B9| | |]; exfalso.
    + destruct P3 as (P3 & _). unfold ten_runs in P3. assert (tf <= inject_Z (per * (if (tflag =? 0)%Z then 1 else 3)) * tf)%Q; [|lra].
      assert (1 <= per * (if tflag =? 0 then 1 else 3)) as X by (destruct (tflag =? 0); lia). rewrite Zle_Qle in X. change (inject_Z 1) with 1%Q in X. nra.
    + lra.
    + lra.
  - intros TP TF. destruct (Z.eq_dec k 9) as [K9|K9].
    + specialize (B9 K9). apply Qle_trans with (ten_runs ts tf per detail + ts)%Q; [exact B9|]. apply Qplus_le_l.
      destruct PT as [(P1 & P2 & P3)|[(P1 & P2 & P3)|[(P1 & P2 & P3 & P4 & P5)|(P1 & P2 & P4)]]].
      * rewrite P1, P2. destruct P3 as [P3|P3]; [lra | exact P3].
      * rewrite P2. apply P3.
      * rewrite P3. apply P5.
      * exfalso. destruct EN as [(_ & [X|X])|EN]; [lra| |lia]. unfold ten_runs in P4. cbn [Z.eqb] in P4. change (inject_Z (1 * 1)) with 1%Q in P4. change (inject_Z 10) with 10%Q in X. lra.
    + assert (inject_Z (per * m) == 1 /\ inject_Z (k + 1) * (ts + tf) <= tmax)%Q as (P1 & FI).
      { assert (~ (10 * (ts + tf) <= tmax)%Q) as N10.
        { intros X. assert (fits tmax ts tf 10) as F10 by (right; exact X). assert (forall j, 1 <= j <= 10 -> fits tmax ts tf j) as FJ.
          { intros j J. right. assert (inject_Z j <= 10)%Q by (destruct J as (_ & J); rewrite Zle_Qle in J; exact J). nra. }
          pose proof (FJ 7 ltac:(lia)). pose proof (FJ 4 ltac:(lia)). pose proof (FJ 3 ltac:(lia)). pose proof (FJ 2 ltac:(lia)). unfold enough in EN. tauto. }
        split.
        - assert (forall p d, 1 <= p -> (10 * (ts + tf) <= ten_runs ts tf p d)%Q) as TR.
          { intros p d P. unfold ten_runs. assert (1 <= p * (if d =? 0 then 1 else 3)) as X by (destruct (d =? 0); lia). rewrite Zle_Qle in X. change (inject_Z 1) with 1%Q in X. nra. }
          destruct PT as [(P1 & P2 & [P3|P3])|[(P1 & P2 & P3 & _)|[(P1 & P2 & P3 & P4 & P5 & _)|(P1 & P2 & P4)]]].
          + lra.
          + exfalso. apply N10. eapply Qle_trans; [apply (TR niter tflag); lia | exact P3].
          + exfalso. apply N10. eapply Qle_trans; [apply (TR per tflag); lia | exact P3].
          + exfalso. apply N10. eapply Qle_trans; [apply (TR per 0); lia | exact P5].
          + unfold m. rewrite P1, P2. reflexivity.
        - destruct EN as [(-> & _)|[(-> & _ & [X|X])|[(-> & _ & [X|X])|[(-> & _ & [X|X])|[(-> & _ & [X|X] & _)|(-> & _)]]]]]; try lra; try (exfalso; apply K9; reflexivity); try exact X.
          change (inject_Z (0 + 1)) with 1%Q. lra. }
      rewrite P1 in B. rewrite inject_Z_plus in FI. change (inject_Z 1) with 1%Q in FI. lra.
  - intros TP TF. assert (k = 0) as ->.
    { assert (forall j, 1 <= j -> ~ fits tmax ts tf j) as NF.
      { intros j J [X|X]; [lra|]. rewrite Zle_Qle in J. change (inject_Z 1) with 1%Q in J. nra. }
      pose proof (NF 10 ltac:(lia)). pose proof (NF 7 ltac:(lia)). pose proof (NF 4 ltac:(lia)). pose proof (NF 3 ltac:(lia)). pose proof (NF 2 ltac:(lia)). unfold enough in EN. tauto. }
    change (inject_Z 0) with 0%Q in B. lra.
Qed.

Theorem tune_rounds cs o n h f clk root flag niter tmax tflag o' n' b :
  reach false esize plsize rqsize ptsize nprocs xsize dim3 cs o n h -> wf_call dim3 (CTune f clk root flag niter tmax tflag) ->
  tune false esize plsize rqsize ptsize nprocs xsize dim3 f clk root flag niter tmax tflag o n (mktst h 0 []) = LOk ((o', n'), b) ->
  (0 <= fst (first_times clk root 0))%Q -> (0 < snd (first_times clk root 0))%Q ->
  1 <= n_per n' <= Z.max niter 2 /\ (tflag = 0 -> n_per n' <= niter) /\ ((tmax == 0)%Q -> n_per n' = niter).
Proof using esize_pos.
  intros R WF T S F. destruct (tune_trials _ _ _ _ _ _ _ _ _ _ _ _ _ _ R WF T S F) as (k & detail & _ & PT & _ & _ & _).
  destruct (tune_log _ _ _ _ _ _ esize_pos _ _ _ _ _ _ _ _ _ _ _ _ _ _ R WF T) as ((_ & NI & _ & _) & _).
  set (ts := fst (first_times clk root 0)) in *. set (tf := snd (first_times clk root 0)) in *. set (p := n_per n') in *.
  destruct PT as [(P1 & P2 & P3)|[(P1 & P2 & P3)|[(P1 & P2 & P3 & P4 & P5)|(P1 & P2 & P4)]]].
  - split; [lia|]. split; intros; lia.
  - split; [lia|]. split; [intros; lia|]. intros Z. exfalso. destruct P3 as (P3 & _). unfold ten_runs in P3.
    assert (1 <= p * (if tflag =? 0 then 1 else 3)) as X by (destruct (tflag =? 0); lia). rewrite Zle_Qle in X. change (inject_Z 1) with 1%Q in X. nra.
  - split; [|split; [intros; lia | intros; exfalso; lra]]. split; [lia|]. destruct P5 as (P5 & _). destruct P4 as (_ & P4). unfold ten_runs in *. cbn [Z.eqb] in *. change (inject_Z (1 * 3)) with 3%Q in P4.
    assert (inject_Z (p * 1) * tf < 3 * tf)%Q as X by lra. apply Qmult_lt_r in X; [|exact F]. change 3%Q with (inject_Z 3) in X. rewrite <- Zlt_Qlt in X. lia.
  - split; [lia|]. split; [intros; lia|]. intros Z. exfalso. lra.
Qed.
End TuneTime.
