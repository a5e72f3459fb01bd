(** TestNorm.v : runs of the test programs in rounded arithmetic: the Euclidean norm of the error, and the reported error (C71). *)

From Coq Require Import Reals Psatz Lra Floats.SpecFloat.
From Verif Require Import Base Spec Pack3d Sched SchedProofs Phases Exec Remap RemapMain RemapInst
  Remap3d RemapThms RemapTop Remap2d Layout LayoutProofs Setup3d Setup3dProofs Setup2d Setup2dProofs LayoutFinal ExRemap Kiss KissPure KissAlg KissReal Fft1d KissFinal
  Fft3d Frame Fft3dProofs Fft3dMain DftMulti Fft3dTop Fft3dFinal Fft2d Fft2dMain Fft2dTop Fft2dFinal
  TestProg TestLayProofs TestDataProofs TestRunProofs TestMainProofs TestTop
  Round RoundKiss RoundFft RoundThms Binary RoundDouble RoundTable RoundFinal RoundL2 RoundL2Fft RoundL2Thms RoundL2Final TestRound TestRoundRun.
Local Open Scope R_scope.

(** a bound for the norm of the data initialize() stores at [G] points: numbers up to [top], each stored with relative error [uc];
    the last term is that of [nsize3] *)
Definition start_norm (uc mu : R) (G top : Z) : R :=
  sqrt (IZR G) * (17 / 12 * (IZR top + uc * (IZR top + 1))) + 32 * mu * (IZR G * IZR G).
(** roundings of a round trip, in the norm *)
Definition ntrip3 (t s : nat) (N : Z * Z * Z) : nat := (2 * ncost3 t N + scale_cost s true)%nat.
Definition ntrip2 (t s : nat) (N : Z * Z) : nat := (2 * ncost2 t N + scale_cost s true)%nat.

(** ** repeating a step that is nearly the identity *)
Section Iter.
Context {F pt : Type}.
Variables (val : F -> R) (fin : F -> Prop) (n : nat) (St : (pt -> F * F) -> nat -> @rmem F -> Prop) (cs : list (nat -> list (@instr F))) (grid : pt -> Prop).
Variables (q Kc om : R) (size : (pt -> F * F) -> R) (nd : (pt -> F * F) -> (pt -> F * F) -> R).
Hypothesis Hq : 1 <= q.
Hypothesis HK : 0 <= Kc.
Hypothesis size_pos : forall x, 0 <= size x.
Hypothesis size_step : forall x y, size y <= size x + nd y x.
Hypothesis nd_refl : forall x, nd x x = 0.
Hypothesis nd_tri : forall x y z, nd z x <= nd z y + nd y x.
Hypothesis step : forall x, (forall p, grid p -> cfin fin (x p)) -> Kc * size x <= om ->
  exists y, good n (St x) cs (St y) /\ (forall p, grid p -> cfin fin (y p)) /\ nd y x <= (q - 1) * size x.
Lemma iter_norm k : forall x, (forall p, grid p -> cfin fin (x p)) -> Kc * (q ^ k * size x) <= om ->
  exists y, good n (St x) (concat (repeat cs k)) (St y) /\ (forall p, grid p -> cfin fin (y p)) /\ nd y x <= (q ^ k - 1) * size x.
Proof.
  induction k as [|k IH]; intros x Hx Ho.
  { exists x. split; [apply good_nil|]. split; [exact Hx|]. rewrite nd_refl. cbn [pow]. lra. }
  assert (Qk : 1 <= q ^ k) by (apply pow_R1_Rle, Hq).
  assert (Qs : 1 <= q ^ S k) by (apply pow_R1_Rle, Hq).
  pose proof (size_pos x) as Sx.
  destruct (step x Hx) as (x1 & G1 & F1 & N1).
  { eapply Rle_trans; [|exact Ho]. apply Rmult_le_compat_l; [exact HK|]. nra. }
  assert (S1 : size x1 <= q * size x) by (pose proof (size_step x x1); lra).
  destruct (IH x1 F1) as (y & G2 & F2 & N2).
  - eapply Rle_trans; [|exact Ho]. apply Rmult_le_compat_l; [exact HK|].
    replace (q ^ S k * size x) with (q ^ k * (q * size x)) by (cbn [pow]; ring). apply Rmult_le_compat_l; lra.
  - exists y. split; [cbn [repeat concat]; eapply good_app; eauto|]. split; [exact F2|].
    eapply Rle_trans; [apply (nd_tri x x1 y)|].
    assert (E : (q ^ S k - 1) * size x = (q ^ k - 1) * (q * size x) + (q - 1) * size x) by (cbn [pow]; ring).
    rewrite E. apply Rplus_le_compat; [|exact N1]. eapply Rle_trans; [exact N2|]. apply Rmult_le_compat_l; lra.
Qed.
End Iter.

(** ** 3d *)
Section Run3.
Context {F : Type}.
Variables (u mu om : R) (O : sops F) (val : F -> R) (fin : F -> Prop) (t s : nat) (cexp : bool -> Z -> Z -> F * F) (rnorm : Z -> F).
Variables (uc : R) (cv : spec_float -> F) (dist : F -> spec_float -> spec_float).
Hypothesis RO : rounding u mu om O val fin.
Hypothesis HT : forall inv L, (L < 2 ^ 31)%Z -> table_ok u val fin t cexp inv L.
Hypothesis HN : forall k, (1 <= k < 2 ^ 63)%Z -> norm_ok u val fin s rnorm k.
Hypothesis Huc : 0 <= uc.
Hypothesis CV : conv_ok fin val uc cv.
Hypothesis HD : dist_ok fin val dist.
Hypothesis Hom : om <= SFom 53 1024.
Variables (ar : areas) (n : nat) (sts : settings) (N : Z * Z * Z) (permute : Z) (ins outs : nat -> box3) (f : fft3).
Hypothesis Hr : ready3 ar n sts N permute ins outs f.
Hypothesis Hg : (grid_points N < 2 ^ 63)%Z.
Hypothesis Hsz : forall r, (r < n)%nat -> (psize3 (ins r) <= psize3 (outs r))%Z.
Variables (k : init) (sd : nat -> Z).
Hypothesis Hs : forall r, (r < n)%nat -> legal3 (ins r) /\ seed_ok k (sd r).
Local Notation K := (2 * cost3 t N + scale_cost s true)%nat.
Local Notation G := (IZR (grid_points N)).
Local Notation pw := ((1 + u) ^ K).
Local Notation q := ((1 + u) ^ ntrip3 t s N).
Local Notation S := (start_norm uc mu (grid_points N) (top3 k N)).
Local Notation want := (fun r p c => want3 dint drand k (sd r) N (ins r) p c).
Local Notation in_ := (fun r => initialize3 dint drand cv k (sd r) N (ins r)).

Local Notation want_ok := (want_ok3 val fin uc cv Huc CV ar n sts N permute ins outs f Hr k sd Hs).
Local Notation nd y x := (norm3 N (minus val y (vals val x))).
Lemma nd_tri3 x y z : nd z x <= nd z y + nd y x.
Proof.
  destruct (dims_pos3 ar n sts N permute ins outs f Hr) as (D1 & D2 & D3 & D4). rewrite !norm3_l2 by assumption.
  eapply Rle_trans; [|apply (l2_plus _ _ (summing_3 N))]. apply (l2_mono _ _ (summing_3 N)). intros p _. rewrite !minus_dist. split; [apply cmod_nonneg|].
  apply cdist_tri.
Qed.
Lemma nd_refl3 x : nd x x = 0.
Proof.
  destruct (dims_pos3 ar n sts N permute ins outs f Hr) as (D1 & D2 & D3 & D4). rewrite norm3_l2 by assumption.
  rewrite (l2_ext _ _ (summing_3 N) _ (fun _ => 0)) by (intros p _; rewrite minus_dist; apply cdist_refl).
  unfold l2. rewrite (sm_ext _ _ (summing_3 N) _ (fun _ => 0)) by (intros; ring). rewrite (sm_0 _ _ (summing_3 N)). apply sqrt_0.
Qed.
Lemma nsize_step3 x y : nsize3 mu N (vals val y) <= nsize3 mu N (vals val x) + nd y x.
Proof.
  destruct (dims_pos3 ar n sts N permute ins outs f Hr) as (D1 & D2 & D3 & D4). unfold nsize3.
  enough (norm3 N (vals val y) <= norm3 N (vals val x) + nd y x) by lra. rewrite !norm3_l2 by assumption.
  eapply Rle_trans; [|apply (l2_plus _ _ (summing_3 N))]. apply (l2_mono _ _ (summing_3 N)). intros p _. rewrite minus_dist. split; [apply cmod_nonneg|].
  apply cmod_dist.
Qed.
(** the sum of the moduli, by Cauchy and Schwarz *)
Lemma size_nsize3 x : size3 mu N x <= sqrt G * nsize3 mu N x.
Proof.
  destruct (dims_pos3 ar n sts N permute ins outs f Hr) as (D1 & D2 & D3 & D4). assert (HG : 1 <= G) by (apply IZR_le; lia).
  pose proof (r_mu _ _ _ _ _ _ RO) as Hmu. rewrite <- ssum3_size by assumption.
  rewrite (sm_ext _ _ (summing_3 N) _ (fun p => 1 * (cmod (x p) + 32 * mu))) by (intros; ring).
  assert (E1 : l2 (ssum3 N) (fun _ : Z * Z * Z => 1) = sqrt G).
  { unfold l2. f_equal. rewrite ssum3_const by assumption. ring. }
  apply Rle_trans with (sqrt G * l2 (ssum3 N) (fun p => cmod (x p) + 32 * mu)); [rewrite <- E1; apply (l2_cs _ _ (summing_3 N))|].
  apply Rmult_le_compat_l; [apply sqrt_pos|].
  eapply Rle_trans; [apply (l2_plus _ _ (summing_3 N))|]. unfold nsize3. rewrite norm3_l2 by assumption. apply Rplus_le_compat_l.
  apply l2_le; [apply Rmult_le_pos; [lra|nra]|]. rewrite ssum3_const by assumption.
  replace (32 * mu * (G * G) * (32 * mu * (G * G))) with (32 * mu * (32 * mu) * (G * (G * (G * G)))) by ring.
  apply Rmult_le_compat_l; [apply Rmult_le_pos; lra|]. assert (1 <= G * G) by nra. assert (1 <= G * (G * G)) by nra. nra.
Qed.
Lemma norm3_le x B : 0 <= B -> (forall p, in_grid N p -> cmod (vals val x p) <= B) -> norm3 N (vals val x) <= sqrt G * B.
Proof.
  intros HB H. destruct (dims_pos3 ar n sts N permute ins outs f Hr) as (D1 & D2 & D3 & D4). assert (HG : 1 <= G) by (apply IZR_le; lia). rewrite norm3_l2 by assumption.
  apply l2_le; [apply Rmult_le_pos; [apply sqrt_pos|exact HB]|].
  replace (sqrt G * B * (sqrt G * B)) with (B * B * (sqrt G * sqrt G)) by ring. rewrite sqrt_sqrt by lra. rewrite <- ssum3_const by assumption.
  unfold ssum3. apply rsum_le. intros l Hl. apply rsum_le. intros j Hj. apply rsum_le. intros i Hi.
  assert (Hp : in_grid N (i, j, l)) by (destruct N as [[? ?] ?]; unfold in_grid; cbn in *; lia). pose proof (H _ Hp).
  pose proof (cmod_nonneg (vals val x (i, j, l))). apply Rmult_le_compat; assumption.
Qed.

Theorem run_norm3 (M0 : nat -> @rmem F) nloop : room3 f BACKWARD BWORK M0 ->
  pw * (4 * (sqrt G * (q ^ nloop * S) * G)) <= om ->
  exists P M' x y e E, setup_ffts3 cexp N = Some P /\
    exec_to n (test3 O rnorm f P false nloop in_) M0 M' /\
    (forall r, (r < n)%nat -> framed M0 BWORK (fun r => (2 * f_fftsize f r)%Z) r (M' r)) /\
    (forall r p c, (r < n)%nat -> inb3 p (ins r) -> (0 <= c < 2)%Z -> fld x p c = cv (want r p c)) /\
    (forall r, (r < n)%nat -> holds3 2 0 (ins r) (fld y) (getb BWORK (M' r))) /\
    (forall p, in_grid N p -> cfin fin (x p) /\ cfin fin (y p)) /\
    nsize3 mu N (vals val x) <= S /\ norm3 N (minus val y (vals val x)) <= (q ^ nloop - 1) * nsize3 mu N (vals val x) /\
    allmax dgt dzero n (fun r => validate3 dint drand dist dgt dzero k (sd r) N (ins r) (getb BWORK (M' r))) = Some e /\ SFfin 53 1024 e /\
    worst (fun d => exists r p c a, (r < n)%nat /\ inb3 p (ins r) /\ (0 <= c < 2)%Z /\ zget (getb BWORK (M' r)) (cell3 2 0 (ins r) p c) = Some a /\
             d = Rabs (val a - SFval (want r p c))) E /\
    E <= (q ^ nloop - 1) * nsize3 mu N (vals val x) + uc * (IZR (top3 k N) + 1) /\
    Rabs (SFval e - E) <= SFu 53 * E.
Proof.
  intros Ha Ho. destruct (ready_plans O cexp _ _ _ _ _ _ _ _ Hr) as (P & HP).
  pose proof Hr as (_ & _ & HI & _ & Ti & _). destruct (dims_pos3 ar n sts N permute ins outs f Hr) as (D1 & D2 & D3 & D4).
  pose proof (top3_range k N HI D1 D2 D3) as HTop. pose proof (r_u _ _ _ _ _ _ RO) as Hu. pose proof (r_mu _ _ _ _ _ _ RO) as Hmu.
  assert (HG : 1 <= G) by (apply IZR_le; lia).
  assert (Hpw : 1 <= pw) by (apply pow_R1_Rle; lra).
  assert (Hq : 1 <= q) by (apply pow_R1_Rle; lra).
  assert (Hqn : 1 <= q ^ nloop) by (apply pow_R1_Rle, Hq).
  assert (Hut : 0 <= uc * (IZR (top3 k N) + 1)) by (apply Rmult_le_pos; lra).
  assert (Hsq : 1 <= sqrt G) by (rewrite <- sqrt_1 at 1; apply sqrt_le_1_alt; exact HG).
  assert (Hmg : 0 <= 32 * mu * (G * G)) by (apply Rmult_le_pos; [lra|nra]).
  set (B := 17 / 12 * (IZR (top3 k N) + uc * (IZR (top3 k N) + 1))).
  assert (HB : uc * (IZR (top3 k N) + 1) <= B) by (unfold B; lra).
  assert (HB1 : B <= sqrt G * B) by nra.
  assert (HS : uc * (IZR (top3 k N) + 1) <= S) by (unfold start_norm; fold B; lra).
  assert (HS0 : 0 <= S) by lra.
  (* the field that initialize() stores *)
  set (img := fun r => map (fun i => cv (wanti3 dint drand k (sd r) N (ins r) i)) (zrange (2 * psize3 (ins r)))).
  destruct (some_field O n N (fun r => setb BWORK (img r) (M0 r)) BWORK 0 ins (or_introl eq_refl) Ti) as (x0 & Hx0).
  { intros r Hrn. rewrite getb_setb_work. unfold img. rewrite zlen_map, zlen_zrange. pose proof (vol3_le_psize (ins r)).
    pose proof (psize3_nonneg _ (proj1 (Hs r Hrn))). lia. }
  assert (X0 : forall r p c, (r < n)%nat -> inb3 p (ins r) -> (0 <= c < 2)%Z -> fld x0 p c = cv (want r p c)).
  { intros r p c Hrn Hp Hc. pose proof (Hx0 r Hrn p c Hp Hc) as E. rewrite getb_setb_work in E. unfold img in E.
    pose proof (cell3_lt (ins r) p c Hp Hc) as Hl. rewrite zget_map, zget_zrange in E by exact Hl. cbn [option_map] in E. injection E as E.
    rewrite <- E. rewrite wanti3_ok; [reflexivity|apply (proj1 Ti p r Hrn Hp)|exact Hp|exact Hc]. }
  assert (Fx : forall p, in_grid N p -> cfin fin (x0 p) /\ cmod (vals val x0 p) <= B).
  { intros p Hp. destruct (proj2 (proj2 Ti) p Hp) as (r & Hrn & Hb).
    assert (Z0 : (0 <= 0 < 2)%Z) by lia. assert (Z1 : (0 <= 1 < 2)%Z) by lia.
    pose proof (X0 r p 0%Z Hrn Hb Z0) as E0. pose proof (X0 r p 1%Z Hrn Hb Z1) as E1. unfold fld in E0, E1. cbn [Z.eqb] in E0, E1.
    destruct (want_ok r p 0%Z Hrn Hb Z0) as (_ & A0 & B0 & C0). destruct (want_ok r p 1%Z Hrn Hb Z1) as (_ & A1 & B1 & C1).
    rewrite <- E0 in B0, C0. rewrite <- E1 in B1, C1. split; [split; assumption|].
    unfold B; apply cmod_box; unfold vals, cval; cbn [fst snd]; eapply Rle_trans; try (apply Rabs_near; eassumption); lra. }
  assert (Sz : nsize3 mu N (vals val x0) <= S).
  { unfold nsize3, start_norm. fold B. apply Rplus_le_compat_r. apply norm3_le; [lra|]. intros p Hp. apply (Fx p Hp). }
  (* the loop *)
  destruct (iter_norm fin n (fun x => st3 f BWORK M0 BWORK 0 ins (fld x))
    (pieces_compute3 O rnorm f P true false FORWARD BWORK BWORK ++ pieces_compute3 O rnorm f P true false BACKWARD BWORK BWORK)
    (in_grid N) q (pw * (4 * (sqrt G * G))) om (fun x => nsize3 mu N (vals val x)) (fun y x => nd y x) Hq) with (k := nloop) (x := x0) as (y & Gd & Fy & Ny).
  - apply Rmult_le_pos; [lra|]. apply Rmult_le_pos; [lra|]. apply Rmult_le_pos; lra.
  - intros x. apply (nsize3_pos u mu om O val fin RO ar n sts N permute ins outs f Hr).
  - intros x z. apply nsize_step3.
  - apply nd_refl3.
  - intros x z w. apply nd_tri3.
  - intros x Fxx Hx.
    destruct (c_trip_good u mu om O val fin RO t cexp rnorm s ar n sts N permute ins outs f Hr P HP BWORK M0 true true x (or_introl eq_refl) Ha) as (z & G1 & F1 & N1); auto.
    + apply (tables3_all u val fin t cexp HT), HI.
    + apply (tables3_all u val fin t cexp HT), HI.
    + eapply Rle_trans; [|exact Hx].
      replace (pw * (4 * (sqrt G * G)) * nsize3 mu N (vals val x)) with (pw * (4 * (sqrt G * nsize3 mu N (vals val x) * G))) by ring.
      apply Rmult_le_compat_l; [lra|]. apply Rmult_le_compat_l; [lra|]. apply Rmult_le_compat_r; [lra|]. apply size_nsize3.
    + exists z. split; [exact G1|]. split; [exact F1|]. rewrite Rmult_1_r in N1. eapply Rle_trans; [|exact N1]. right.
      destruct (dims_pos3 ar n sts N permute ins outs f Hr) as (D1' & D2' & D3' & D4'). rewrite !norm3_l2 by assumption.
      apply (l2_ext _ _ (summing_3 N)). intros p _. rewrite !minus_dist, rmulc_1. reflexivity.
  - intros p Hp. apply (Fx p Hp).
  - eapply Rle_trans; [|exact Ho].
    replace (pw * (4 * (sqrt G * (q ^ nloop * S) * G))) with (pw * (4 * (sqrt G * G)) * (q ^ nloop * S)) by ring.
    apply Rmult_le_compat_l; [apply Rmult_le_pos; [lra|]; apply Rmult_le_pos; [lra|]; apply Rmult_le_pos; lra|]. apply Rmult_le_compat_l; [lra|exact Sz].
  - pose proof (nsize3_pos u mu om O val fin RO ar n sts N permute ins outs f Hr (vals val x0)) as Sp.
    assert (Gi : good n (framed M0 BWORK (fun r => (2 * f_fftsize f r)%Z))
      ([fun r => [start_with (initialize3 dint drand cv k (sd r) N (ins r))]] ++
       concat (repeat (pieces_compute3 O rnorm f P true false FORWARD BWORK BWORK ++ pieces_compute3 O rnorm f P true false BACKWARD BWORK BWORK) nloop))
      (st3 f BWORK M0 BWORK 0 ins (fld y))).
    { eapply good_app; [|exact Gd]. apply good_one; [apply local_wf|].
      apply (triple_local n strict (framed M0 BWORK (fun r => (2 * f_fftsize f r)%Z))
        (fun r => [fun m => w <- initialize3 dint drand cv k (sd r) N (ins r) (getb BWORK m); Some (setb BWORK w m)])).
      intros r m Hrn Hf. pose proof (work_room3 ar n sts N permute ins outs f M0 Hr Ha r Hrn) as Hwr.
      destruct (init_fills3 dint drand cv n N ins k sd Hs r (getb BWORK m) Hrn) as (w & E & Hfi); [destruct Hf as (A & _); rewrite A; lia|].
      exists (setb BWORK w m). cbn [seqf]. rewrite E. cbn [bind]. split; [reflexivity|]. split.
      - rewrite getb_setb_work. intros p c Hp Hc. destruct Hfi as (_ & Hfi & _). rewrite Hfi by (apply cell3_lt; assumption).
        rewrite (X0 r p c Hrn Hp Hc), wanti3_ok; [reflexivity|apply (proj1 Ti p r Hrn Hp)|exact Hp|exact Hc].
      - eapply (framed_init3 cv ar n sts N permute ins outs f M0 (fun r => wanti3 dint drand k (sd r) N (ins r)) Hr Ha (fun r H => proj1 (Hs r H))); eassumption. }
    destruct (good_exec n _ _ _ M0 Gi) as (M' & H1 & L & H2); [intros r _; apply framed_refl|].
    assert (W : forall r p c, (r < n)%nat -> inb3 p (ins r) -> (0 <= c < 2)%Z ->
      zget (getb BWORK (M' r)) (cell3 2 0 (ins r) p c) = Some (fld y p c) /\ fin (fld y p c) /\
      Rabs (val (fld y p c) - SFval (want r p c)) <= (q ^ nloop - 1) * nsize3 mu N (vals val x0) + uc * (IZR (top3 k N) + 1)).
    { intros r p c Hrn Hp Hc. destruct (H1 r Hrn) as (A & _). split; [apply A; assumption|].
      assert (Hgp : in_grid N p) by apply (proj1 Ti p r Hrn Hp). destruct (Fy p Hgp) as (B1 & B2).
      assert (C0 : fin (fld y p c)) by (unfold fld; destruct (c =? 0)%Z; assumption). split; [exact C0|].
      assert (C1 : Rabs (val (fld y p c) - val (fld x0 p c)) <= (q ^ nloop - 1) * nsize3 mu N (vals val x0)).
      { eapply Rle_trans; [|exact Ny]. eapply Rle_trans; [|apply (C70_element_3d_proof N _ p Hgp)]. rewrite minus_dist.
        unfold fld, vals, cval. destruct (c =? 0)%Z;
            [apply (cdist_fst (val (fst (y p)), val (snd (y p))) (val (fst (x0 p)), val (snd (x0 p))))|apply (cdist_snd (val (fst (y p)), val (snd (y p))) (val (fst (x0 p)), val (snd (x0 p))))]. }
      rewrite (X0 r p c Hrn Hp Hc) in C1. destruct (want_ok r p c Hrn Hp Hc) as (_ & _ & _ & C2).
      replace (val (fld y p c) - SFval (want r p c)) with ((val (fld y p c) - val (cv (want r p c))) + (val (cv (want r p c)) - SFval (want r p c))) by ring.
      eapply Rle_trans; [apply Rabs_triang|]. lra. }
    assert (Hb : (q ^ nloop - 1) * S + uc * (IZR (top3 k N) + 1) <= SFom 53 1024).
    { eapply Rle_trans; [|exact Hom]. eapply Rle_trans; [|exact Ho]. apply Rle_trans with (q ^ nloop * S); [nra|].
      assert (Y : 0 <= q ^ nloop * S) by nra. assert (GG : 1 <= sqrt G * G) by nra.
      replace (pw * (4 * (sqrt G * (q ^ nloop * S) * G))) with ((pw * 4) * ((sqrt G * G) * (q ^ nloop * S))) by ring.
      set (y0 := q ^ nloop * S) in *. clearbody y0. set (g := sqrt G * G) in *. clearbody g. assert (y0 <= g * y0) by nra. nra. }
    destruct (validateD3_all fin val dist HD (s0 O) k sd N n ins (fun r => getb BWORK (M' r)) HI) as (e & E & Ee & Fe & We & Re).
    { intros r Hrn. split; [apply (Hs r Hrn)|]. split; [intros p Hp; apply (proj1 Ti p r Hrn Hp)|apply (Hs r Hrn)]. }
    { intros r p c Hrn Hp Hc. destruct (W r p c Hrn Hp Hc) as (A & B0 & C). exists (fld y p c). split; [exact A|]. split; [exact B0|].
      pose proof (Rmult_le_compat_l (q ^ nloop - 1) _ _ ltac:(lra) Sz). lra. }
    exists P, M', x0, y, e, E. split; [exact HP|]. split.
    { exists L. assert (Es : start n (test3 O rnorm f P false nloop in_) M0 = start n (together ([fun r => [start_with (initialize3 dint drand cv k (sd r) N (ins r))]] ++
       concat (repeat (pieces_compute3 O rnorm f P true false FORWARD BWORK BWORK ++ pieces_compute3 O rnorm f P true false BACKWARD BWORK BWORK) nloop))) M0).
      { unfold start. f_equal. apply map_ext. intros r. unfold test3.
        erewrite (times_ext nloop (round3 O rnorm f P false)).
        - unfold together at 1. rewrite map_app, concat_app. cbn [map concat app]. f_equal. symmetry. apply together_times.
        - unfold round3, together, compute3, together. rewrite map_app, concat_app. reflexivity. }
      rewrite Es. exact H2. }
    split; [intros r Hrn; apply (H1 r Hrn)|].
    split; [exact X0|]. split; [intros r Hrn; apply (H1 r Hrn)|]. split; [intros p Hp; split; [apply (Fx p Hp)|apply Fy, Hp]|].
    split; [exact Sz|]. split; [exact Ny|].
    split; [exact Ee|]. split; [exact Fe|]. split; [exact We|]. split; [|exact Re].
    destruct We as (_ & _ & [-> | (r & p & c & a & Hrn & Hp & Hc & Ea & ->)]); [apply Rplus_le_le_0_compat; [apply Rmult_le_pos; lra|lra]|].
    destruct (W r p c Hrn Hp Hc) as (A & _ & C). rewrite A in Ea. injection Ea as <-. exact C.
Qed.
End Run3.


(** ** 2d *)
Section Run2.
Context {F : Type}.
Variables (u mu om : R) (O : sops F) (val : F -> R) (fin : F -> Prop) (t s : nat) (cexp : bool -> Z -> Z -> F * F) (rnorm : Z -> F).
Variables (uc : R) (cv : spec_float -> F) (dist : F -> spec_float -> spec_float).
Hypothesis RO : rounding u mu om O val fin.
Hypothesis HT : forall inv L, (L < 2 ^ 31)%Z -> table_ok u val fin t cexp inv L.
Hypothesis HN : forall k, (1 <= k < 2 ^ 63)%Z -> norm_ok u val fin s rnorm k.
Hypothesis Huc : 0 <= uc.
Hypothesis CV : conv_ok fin val uc cv.
Hypothesis HD : dist_ok fin val dist.
Hypothesis Hom : om <= SFom 53 1024.
Variables (esize : Z) (ar : areas) (n : nat) (sts : settings) (N : Z * Z) (permute : Z) (ins outs : nat -> box2) (f : fft2).
Hypothesis Hr : ready2 esize ar n sts N permute ins outs f.
Hypothesis Hg : (grid_points2 N < 2 ^ 63)%Z.
Hypothesis Hsz : forall r, (r < n)%nat -> (psize2 (ins r) <= psize2 (outs r))%Z.
Variables (k : init) (sd : nat -> Z).
Hypothesis Hs : forall r, (r < n)%nat -> legal2 (ins r) /\ seed_ok k (sd r).
Local Notation K := (2 * cost2 t N + scale_cost s true)%nat.
Local Notation G := (IZR (grid_points2 N)).
Local Notation pw := ((1 + u) ^ K).
Local Notation q := ((1 + u) ^ ntrip2 t s N).
Local Notation S := (start_norm uc mu (grid_points2 N) (top2 k N)).
Local Notation want := (fun r p c => want2 dint drand k (sd r) N (ins r) p c).
Local Notation in_ := (fun r => initialize2 dint drand cv k (sd r) N (ins r)).

Local Notation want_ok := (want_ok2 val fin uc cv Huc CV esize ar n sts N permute ins outs f Hr k sd Hs).
Local Notation nd y x := (norm2 N (minus val y (vals val x))).
Lemma nd_tri2 x y z : nd z x <= nd z y + nd y x.
Proof.
  destruct (dims_pos2 esize ar n sts N permute ins outs f Hr) as (D1 & D2 & D4). rewrite !norm2_l2 by assumption.
  eapply Rle_trans; [|apply (l2_plus _ _ (summing_2 N))]. apply (l2_mono _ _ (summing_2 N)). intros p _. rewrite !minus_dist. split; [apply cmod_nonneg|].
  apply cdist_tri.
Qed.
Lemma nd_refl2 x : nd x x = 0.
Proof.
  destruct (dims_pos2 esize ar n sts N permute ins outs f Hr) as (D1 & D2 & D4). rewrite norm2_l2 by assumption.
  rewrite (l2_ext _ _ (summing_2 N) _ (fun _ => 0)) by (intros p _; rewrite minus_dist; apply cdist_refl).
  unfold l2. rewrite (sm_ext _ _ (summing_2 N) _ (fun _ => 0)) by (intros; ring). rewrite (sm_0 _ _ (summing_2 N)). apply sqrt_0.
Qed.
Lemma nsize_step2 x y : nsize2 mu N (vals val y) <= nsize2 mu N (vals val x) + nd y x.
Proof.
  destruct (dims_pos2 esize ar n sts N permute ins outs f Hr) as (D1 & D2 & D4). unfold nsize2.
  enough (norm2 N (vals val y) <= norm2 N (vals val x) + nd y x) by lra. rewrite !norm2_l2 by assumption.
  eapply Rle_trans; [|apply (l2_plus _ _ (summing_2 N))]. apply (l2_mono _ _ (summing_2 N)). intros p _. rewrite minus_dist. split; [apply cmod_nonneg|].
  apply cmod_dist.
Qed.
(** the sum of the moduli, by Cauchy and Schwarz *)
Lemma size_nsize2 x : size2 mu N x <= sqrt G * nsize2 mu N x.
Proof.
  destruct (dims_pos2 esize ar n sts N permute ins outs f Hr) as (D1 & D2 & D4). assert (HG : 1 <= G) by (apply IZR_le; lia).
  pose proof (r_mu _ _ _ _ _ _ RO) as Hmu. rewrite <- ssum2_size by assumption.
  rewrite (sm_ext _ _ (summing_2 N) _ (fun p => 1 * (cmod (x p) + 32 * mu))) by (intros; ring).
  assert (E1 : l2 (ssum2 N) (fun _ : Z * Z => 1) = sqrt G).
  { unfold l2. f_equal. rewrite ssum2_const by assumption. ring. }
  apply Rle_trans with (sqrt G * l2 (ssum2 N) (fun p => cmod (x p) + 32 * mu)); [rewrite <- E1; apply (l2_cs _ _ (summing_2 N))|].
  apply Rmult_le_compat_l; [apply sqrt_pos|].
  eapply Rle_trans; [apply (l2_plus _ _ (summing_2 N))|]. unfold nsize2. rewrite norm2_l2 by assumption. apply Rplus_le_compat_l.
  apply l2_le; [apply Rmult_le_pos; [lra|nra]|]. rewrite ssum2_const by assumption.
  replace (32 * mu * (G * G) * (32 * mu * (G * G))) with (32 * mu * (32 * mu) * (G * (G * (G * G)))) by ring.
  apply Rmult_le_compat_l; [apply Rmult_le_pos; lra|]. assert (1 <= G * G) by nra. assert (1 <= G * (G * G)) by nra. nra.
Qed.
Lemma norm2_le x B : 0 <= B -> (forall p, in_grid2 N p -> cmod (vals val x p) <= B) -> norm2 N (vals val x) <= sqrt G * B.
Proof.
  intros HB H. destruct (dims_pos2 esize ar n sts N permute ins outs f Hr) as (D1 & D2 & D4). assert (HG : 1 <= G) by (apply IZR_le; lia). rewrite norm2_l2 by assumption.
  apply l2_le; [apply Rmult_le_pos; [apply sqrt_pos|exact HB]|].
  replace (sqrt G * B * (sqrt G * B)) with (B * B * (sqrt G * sqrt G)) by ring. rewrite sqrt_sqrt by lra. rewrite <- ssum2_const by assumption.
  unfold ssum2. apply rsum_le. intros j Hj. apply rsum_le. intros i Hi.
  assert (Hp : in_grid2 N (i, j)) by (destruct N as [? ?]; unfold in_grid2; cbn in *; lia). pose proof (H _ Hp).
  pose proof (cmod_nonneg (vals val x (i, j))). apply Rmult_le_compat; assumption.
Qed.

Theorem run_norm2 (M0 : nat -> @rmem F) nloop : arrays_ok2 f BWORK M0 ->
  pw * (4 * (sqrt G * (q ^ nloop * S) * G)) <= om ->
  exists P M' x y e E, setup_ffts2 cexp N = Some P /\
    exec_to n (test2 O rnorm esize f P false nloop in_) M0 M' /\
    (forall r, (r < n)%nat -> framed M0 BWORK (fun r => (2 * t_fftsize f r)%Z) r (M' r)) /\
    (forall r p c, (r < n)%nat -> inb2 p (ins r) -> (0 <= c < 2)%Z -> fld x p c = cv (want r p c)) /\
    (forall r, (r < n)%nat -> holds2 2 0 (ins r) (fld y) (getb BWORK (M' r))) /\
    (forall p, in_grid2 N p -> cfin fin (x p) /\ cfin fin (y p)) /\
    nsize2 mu N (vals val x) <= S /\ norm2 N (minus val y (vals val x)) <= (q ^ nloop - 1) * nsize2 mu N (vals val x) /\
    allmax dgt dzero n (fun r => validate2 dint drand dist dgt dzero k (sd r) N (ins r) (getb BWORK (M' r))) = Some e /\ SFfin 53 1024 e /\
    worst (fun d => exists r p c a, (r < n)%nat /\ inb2 p (ins r) /\ (0 <= c < 2)%Z /\ zget (getb BWORK (M' r)) (cell2 2 0 (ins r) p c) = Some a /\
             d = Rabs (val a - SFval (want r p c))) E /\
    E <= (q ^ nloop - 1) * nsize2 mu N (vals val x) + uc * (IZR (top2 k N) + 1) /\
    Rabs (SFval e - E) <= SFu 53 * E.
Proof.
  intros Ha Ho. destruct (ready_plans2 O cexp _ _ _ _ _ _ _ _ _ Hr) as (P & HP).
  pose proof Hr as (_ & _ & HI & _ & _ & Ti & _). destruct (dims_pos2 esize ar n sts N permute ins outs f Hr) as (D1 & D2 & D4).
  pose proof (top2_range k N HI D1 D2) as HTop. pose proof (r_u _ _ _ _ _ _ RO) as Hu. pose proof (r_mu _ _ _ _ _ _ RO) as Hmu.
  assert (HG : 1 <= G) by (apply IZR_le; lia).
  assert (Hpw : 1 <= pw) by (apply pow_R1_Rle; lra).
  assert (Hq : 1 <= q) by (apply pow_R1_Rle; lra).
  assert (Hqn : 1 <= q ^ nloop) by (apply pow_R1_Rle, Hq).
  assert (Hut : 0 <= uc * (IZR (top2 k N) + 1)) by (apply Rmult_le_pos; lra).
  assert (Hsq : 1 <= sqrt G) by (rewrite <- sqrt_1 at 1; apply sqrt_le_1_alt; exact HG).
  assert (Hmg : 0 <= 32 * mu * (G * G)) by (apply Rmult_le_pos; [lra|nra]).
  set (B := 17 / 12 * (IZR (top2 k N) + uc * (IZR (top2 k N) + 1))).
  assert (HB : uc * (IZR (top2 k N) + 1) <= B) by (unfold B; lra).
  assert (HB1 : B <= sqrt G * B) by nra.
  assert (HS : uc * (IZR (top2 k N) + 1) <= S) by (unfold start_norm; fold B; lra).
  assert (HS0 : 0 <= S) by lra.
  (* the field that initialize() stores *)
  set (img := fun r => map (fun i => cv (wanti2 dint drand k (sd r) N (ins r) i)) (zrange (2 * psize2 (ins r)))).
  destruct (some_field2 O n N (fun r => setb BWORK (img r) (M0 r)) BWORK 0 ins (or_introl eq_refl) Ti) as (x0 & Hx0).
  { intros r Hrn. rewrite getb_setb_work. unfold img. rewrite zlen_map, zlen_zrange. pose proof (vol2_le_psize (ins r)).
    pose proof (psize2_nonneg _ (proj1 (Hs r Hrn))). lia. }
  assert (X0 : forall r p c, (r < n)%nat -> inb2 p (ins r) -> (0 <= c < 2)%Z -> fld x0 p c = cv (want r p c)).
  { intros r p c Hrn Hp Hc. pose proof (Hx0 r Hrn p c Hp Hc) as E. rewrite getb_setb_work in E. unfold img in E.
    pose proof (cell2_lt (ins r) p c Hp Hc) as Hl. rewrite zget_map, zget_zrange in E by exact Hl. cbn [option_map] in E. injection E as E.
    rewrite <- E. rewrite wanti2_ok; [reflexivity|apply (proj1 Ti p r Hrn Hp)|exact Hp|exact Hc]. }
  assert (Fx : forall p, in_grid2 N p -> cfin fin (x0 p) /\ cmod (vals val x0 p) <= B).
  { intros p Hp. destruct (proj2 (proj2 Ti) p Hp) as (r & Hrn & Hb).
    assert (Z0 : (0 <= 0 < 2)%Z) by lia. assert (Z1 : (0 <= 1 < 2)%Z) by lia.
    pose proof (X0 r p 0%Z Hrn Hb Z0) as E0. pose proof (X0 r p 1%Z Hrn Hb Z1) as E1. unfold fld in E0, E1. cbn [Z.eqb] in E0, E1.
    destruct (want_ok r p 0%Z Hrn Hb Z0) as (_ & A0 & B0 & C0). destruct (want_ok r p 1%Z Hrn Hb Z1) as (_ & A1 & B1 & C1).
    rewrite <- E0 in B0, C0. rewrite <- E1 in B1, C1. split; [split; assumption|].
    unfold B; apply cmod_box; unfold vals, cval; cbn [fst snd]; eapply Rle_trans; try (apply Rabs_near; eassumption); lra. }
  assert (Sz : nsize2 mu N (vals val x0) <= S).
  { unfold nsize2, start_norm. fold B. apply Rplus_le_compat_r. apply norm2_le; [lra|]. intros p Hp. apply (Fx p Hp). }
  (* the loop *)
  destruct (iter_norm fin n (fun x => st2 f BWORK M0 BWORK 0 ins (fld x))
    (pieces_compute2 O rnorm esize f P true false FORWARD BWORK BWORK ++ pieces_compute2 O rnorm esize f P true false BACKWARD BWORK BWORK)
    (in_grid2 N) q (pw * (4 * (sqrt G * G))) om (fun x => nsize2 mu N (vals val x)) (fun y x => nd y x) Hq) with (k := nloop) (x := x0) as (y & Gd & Fy & Ny).
  - apply Rmult_le_pos; [lra|]. apply Rmult_le_pos; [lra|]. apply Rmult_le_pos; lra.
  - intros x. apply (nsize2_pos u mu om O val fin RO esize ar n sts N permute ins outs f Hr).
  - intros x z. apply nsize_step2.
  - apply nd_refl2.
  - intros x z w. apply nd_tri2.
  - intros x Fxx Hx.
    destruct (c_trip_good2 u mu om O val fin RO t cexp rnorm s esize ar n sts N permute ins outs f Hr P HP BWORK M0 true true x (or_introl eq_refl) Ha) as (z & G1 & F1 & N1); auto.
    + apply (tables2_all u val fin t cexp HT), HI.
    + apply (tables2_all u val fin t cexp HT), HI.
    + eapply Rle_trans; [|exact Hx].
      replace (pw * (4 * (sqrt G * G)) * nsize2 mu N (vals val x)) with (pw * (4 * (sqrt G * nsize2 mu N (vals val x) * G))) by ring.
      apply Rmult_le_compat_l; [lra|]. apply Rmult_le_compat_l; [lra|]. apply Rmult_le_compat_r; [lra|]. apply size_nsize2.
    + exists z. split; [exact G1|]. split; [exact F1|]. rewrite Rmult_1_r in N1. eapply Rle_trans; [|exact N1]. right.
      destruct (dims_pos2 esize ar n sts N permute ins outs f Hr) as (D1' & D2' & D4'). rewrite !norm2_l2 by assumption.
      apply (l2_ext _ _ (summing_2 N)). intros p _. rewrite !minus_dist, rmulc_1. reflexivity.
  - intros p Hp. apply (Fx p Hp).
  - eapply Rle_trans; [|exact Ho].
    replace (pw * (4 * (sqrt G * (q ^ nloop * S) * G))) with (pw * (4 * (sqrt G * G)) * (q ^ nloop * S)) by ring.
    apply Rmult_le_compat_l; [apply Rmult_le_pos; [lra|]; apply Rmult_le_pos; [lra|]; apply Rmult_le_pos; lra|]. apply Rmult_le_compat_l; [lra|exact Sz].
  - pose proof (nsize2_pos u mu om O val fin RO esize ar n sts N permute ins outs f Hr (vals val x0)) as Sp.
    assert (Gi : good n (framed M0 BWORK (fun r => (2 * t_fftsize f r)%Z))
      ([fun r => [start_with (initialize2 dint drand cv k (sd r) N (ins r))]] ++
       concat (repeat (pieces_compute2 O rnorm esize f P true false FORWARD BWORK BWORK ++ pieces_compute2 O rnorm esize f P true false BACKWARD BWORK BWORK) nloop))
      (st2 f BWORK M0 BWORK 0 ins (fld y))).
    { eapply good_app; [|exact Gd]. apply good_one; [apply local_wf|].
      apply (triple_local n strict (framed M0 BWORK (fun r => (2 * t_fftsize f r)%Z))
        (fun r => [fun m => w <- initialize2 dint drand cv k (sd r) N (ins r) (getb BWORK m); Some (setb BWORK w m)])).
      intros r m Hrn Hf. pose proof (work_room2 esize ar n sts N permute ins outs f M0 Hr Ha r Hrn) as Hwr.
      destruct (init_fills2 dint drand cv n N ins k sd Hs r (getb BWORK m) Hrn) as (w & E & Hfi); [destruct Hf as (A & _); rewrite A; lia|].
      exists (setb BWORK w m). cbn [seqf]. rewrite E. cbn [bind]. split; [reflexivity|]. split.
      - rewrite getb_setb_work. intros p c Hp Hc. destruct Hfi as (_ & Hfi & _). rewrite Hfi by (apply cell2_lt; assumption).
        rewrite (X0 r p c Hrn Hp Hc), wanti2_ok; [reflexivity|apply (proj1 Ti p r Hrn Hp)|exact Hp|exact Hc].
      - eapply (framed_init2 cv esize ar n sts N permute ins outs f M0 (fun r => wanti2 dint drand k (sd r) N (ins r)) Hr Ha (fun r H => proj1 (Hs r H))); eassumption. }
    destruct (good_exec n _ _ _ M0 Gi) as (M' & H1 & L & H2); [intros r _; apply framed_refl|].
    assert (W : forall r p c, (r < n)%nat -> inb2 p (ins r) -> (0 <= c < 2)%Z ->
      zget (getb BWORK (M' r)) (cell2 2 0 (ins r) p c) = Some (fld y p c) /\ fin (fld y p c) /\
      Rabs (val (fld y p c) - SFval (want r p c)) <= (q ^ nloop - 1) * nsize2 mu N (vals val x0) + uc * (IZR (top2 k N) + 1)).
    { intros r p c Hrn Hp Hc. destruct (H1 r Hrn) as (A & _). split; [apply A; assumption|].
      assert (Hgp : in_grid2 N p) by apply (proj1 Ti p r Hrn Hp). destruct (Fy p Hgp) as (B1 & B2).
      assert (C0 : fin (fld y p c)) by (unfold fld; destruct (c =? 0)%Z; assumption). split; [exact C0|].
      assert (C1 : Rabs (val (fld y p c) - val (fld x0 p c)) <= (q ^ nloop - 1) * nsize2 mu N (vals val x0)).
      { eapply Rle_trans; [|exact Ny]. eapply Rle_trans; [|apply (C70_element_2d_proof N _ p Hgp)]. rewrite minus_dist.
        unfold fld, vals, cval. destruct (c =? 0)%Z;
            [apply (cdist_fst (val (fst (y p)), val (snd (y p))) (val (fst (x0 p)), val (snd (x0 p))))|apply (cdist_snd (val (fst (y p)), val (snd (y p))) (val (fst (x0 p)), val (snd (x0 p))))]. }
      rewrite (X0 r p c Hrn Hp Hc) in C1. destruct (want_ok r p c Hrn Hp Hc) as (_ & _ & _ & C2).
      replace (val (fld y p c) - SFval (want r p c)) with ((val (fld y p c) - val (cv (want r p c))) + (val (cv (want r p c)) - SFval (want r p c))) by ring.
      eapply Rle_trans; [apply Rabs_triang|]. lra. }
    assert (Hb : (q ^ nloop - 1) * S + uc * (IZR (top2 k N) + 1) <= SFom 53 1024).
    { eapply Rle_trans; [|exact Hom]. eapply Rle_trans; [|exact Ho]. apply Rle_trans with (q ^ nloop * S); [nra|].
      assert (Y : 0 <= q ^ nloop * S) by nra. assert (GG : 1 <= sqrt G * G) by nra.
      replace (pw * (4 * (sqrt G * (q ^ nloop * S) * G))) with ((pw * 4) * ((sqrt G * G) * (q ^ nloop * S))) by ring.
      set (y0 := q ^ nloop * S) in *. clearbody y0. set (g := sqrt G * G) in *. clearbody g. assert (y0 <= g * y0) by nra. nra. }
    destruct (validateD2_all fin val dist HD (s0 O) k sd N n ins (fun r => getb BWORK (M' r)) HI) as (e & E & Ee & Fe & We & Re).
    { intros r Hrn. split; [apply (Hs r Hrn)|]. split; [intros p Hp; apply (proj1 Ti p r Hrn Hp)|apply (Hs r Hrn)]. }
    { intros r p c Hrn Hp Hc. destruct (W r p c Hrn Hp Hc) as (A & B0 & C). exists (fld y p c). split; [exact A|]. split; [exact B0|].
      pose proof (Rmult_le_compat_l (q ^ nloop - 1) _ _ ltac:(lra) Sz). lra. }
    exists P, M', x0, y, e, E. split; [exact HP|]. split.
    { exists L. assert (Es : start n (test2 O rnorm esize f P false nloop in_) M0 = start n (together ([fun r => [start_with (initialize2 dint drand cv k (sd r) N (ins r))]] ++
       concat (repeat (pieces_compute2 O rnorm esize f P true false FORWARD BWORK BWORK ++ pieces_compute2 O rnorm esize f P true false BACKWARD BWORK BWORK) nloop))) M0).
      { unfold start. f_equal. apply map_ext. intros r. unfold test2.
        erewrite (times_ext nloop (round2 O rnorm esize f P false)).
        - unfold together at 1. rewrite map_app, concat_app. cbn [map concat app]. f_equal. symmetry. apply together_times.
        - unfold round2, together, compute2, together. rewrite map_app, concat_app. reflexivity. }
      rewrite Es. exact H2. }
    split; [intros r Hrn; apply (H1 r Hrn)|].
    split; [exact X0|]. split; [intros r Hrn; apply (H1 r Hrn)|]. split; [intros p Hp; split; [apply (Fx p Hp)|apply Fy, Hp]|].
    split; [exact Sz|]. split; [exact Ny|].
    split; [exact Ee|]. split; [exact Fe|]. split; [exact We|]. split; [|exact Re].
    destruct We as (_ & _ & [-> | (r & p & c & a & Hrn & Hp & Hc & Ea & ->)]); [apply Rplus_le_le_0_compat; [apply Rmult_le_pos; lra|lra]|].
    destruct (W r p c Hrn Hp Hc) as (A & _ & C). rewrite A in Ea. injection Ea as <-. exact C.
Qed.
End Run2.

