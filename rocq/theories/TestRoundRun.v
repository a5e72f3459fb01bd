(** TestRoundRun.v : runs of the test programs in rounded arithmetic: the reported error is bounded. *)

From Coq Require Import Reals Psatz Lra Floats.SpecFloat.
From Verif Require Import Base Spec Pack3d Sched SchedProofs Phases Exec Remap RemapMain RemapInst
  Remap3d RemapThms RemapTop Remap2d Layout LayoutProofs Setup3d Setup3dProofs Setup2d Setup2dProofs LayoutFinal ExRemap Kiss KissPure KissAlg KissReal Fft1d KissFinal
  Fft3d Frame Fft3dProofs Fft3dMain DftMulti Fft3dTop Fft3dFinal Fft2d Fft2dMain Fft2dTop Fft2dFinal
  TestProg TestLayProofs TestDataProofs TestRunProofs TestMainProofs TestTop
  Round RoundKiss RoundFft RoundThms Binary RoundDouble RoundTable RoundFinal TestRound.
Local Open Scope R_scope.

(** the factor by which one round trip can enlarge the data: K roundings on G points *)
Definition growth (u : R) (K : nat) (G : Z) : R := 1 + IZR G * ((1 + u) ^ K - 1).
(** a bound for the modulus of the data initialize() stores: numbers up to [top], each stored with relative error [uc] *)
Definition start_size (uc mu : R) (top : Z) : R := 17 / 12 * (IZR top + uc * (IZR top + 1)) + 32 * mu.

(** ** repeating a step that is nearly the identity *)
Section Iter.
Context {F pt : Type}.
Variables (val : F -> R) (fin : F -> Prop) (n : nat) (St : (pt -> F * F) -> nat -> @rmem F -> Prop) (cs : list (nat -> list (@instr F))) (grid : pt -> Prop).
Variables (G c Kc om : R) (size : (pt -> F * F) -> R).
Hypothesis HG : 1 <= G.
Hypothesis Hc : 0 <= c.
Hypothesis HK : 0 <= Kc.
Hypothesis size_pos : forall x, 0 <= size x.
Hypothesis size_step : forall x y d, 0 <= d -> (forall p, grid p -> cdist (vals val y p) (vals val x p) <= d) -> size y <= size x + G * d.
Hypothesis step : forall x, (forall p, grid p -> cfin fin (x p)) -> Kc * size x <= om ->
  exists y, good n (St x) cs (St y) /\ forall p, grid p -> within val fin (c * size x) (y p) (vals val x p).
Lemma iter_near k : forall x, (forall p, grid p -> cfin fin (x p)) -> Kc * ((1 + G * c) ^ k * size x) <= om ->
  exists y, good n (St x) (concat (repeat cs k)) (St y) /\ forall p, grid p -> within val fin (((1 + G * c) ^ k - 1) * (size x / G)) (y p) (vals val x p).
Proof.
  assert (Q : 1 <= 1 + G * c) by nra.
  induction k as [|k IH]; intros x Hx Ho.
  { exists x. split; [apply good_nil|]. intros p Hp. split; [apply Hx, Hp|]. unfold vals. rewrite cdist_refl. cbn [pow]. lra. }
  assert (Qk : 1 <= (1 + G * c) ^ k) by (apply pow_R1_Rle, Q).
  assert (Qs : 1 <= (1 + G * c) ^ S k) by (apply pow_R1_Rle, Q).
  pose proof (size_pos x) as Sx.
  destruct (step x Hx) as (x1 & G1 & N1).
  { eapply Rle_trans; [|exact Ho]. apply Rmult_le_compat_l; [exact HK|]. nra. }
  assert (S1 : size x1 <= (1 + G * c) * size x).
  { replace ((1 + G * c) * size x) with (size x + G * (c * size x)) by ring. apply size_step; [nra|]. intros p Hp. apply (N1 p Hp). }
  destruct (IH x1) as (y & G2 & N2).
  - intros p Hp. apply (N1 p Hp).
  - eapply Rle_trans; [|exact Ho]. apply Rmult_le_compat_l; [exact HK|].
    replace ((1 + G * c) ^ S k * size x) with ((1 + G * c) ^ k * ((1 + G * c) * size x)) by (cbn [pow]; ring). apply Rmult_le_compat_l; lra.
  - exists y. split; [cbn [repeat concat]; eapply good_app; eauto|]. intros p Hp. destruct (N1 p Hp) as (_ & D1). destruct (N2 p Hp) as (F2 & D2). split; [exact F2|].
    eapply Rle_trans; [apply (cdist_tri _ (vals val x1 p))|].
    eapply Rle_trans; [apply Rplus_le_compat; [exact D2|exact D1]|].
    assert (E : ((1 + G * c) ^ S k - 1) * (size x / G) = ((1 + G * c) ^ k - 1) * ((1 + G * c) * size x / G) + c * size x).
    { cbn [pow]. field. lra. }
    rewrite E. apply Rplus_le_compat_r. apply Rmult_le_compat_l; [lra|]. unfold Rdiv. apply Rmult_le_compat_r; [|exact S1].
    left. apply Rinv_0_lt_compat. lra.
Qed.
End Iter.

Lemma rmulc_1 z : rmulc 1 z = z.
Proof. unfold rmulc. destruct z. cbn. f_equal; ring. Qed.
Lemma getb_setb_work {A} w (m : @rmem A) : getb BWORK (setb BWORK w m) = w.
Proof. destruct m. reflexivity. Qed.
Lemma Rabs_near x y d : Rabs (x - y) <= d -> Rabs x <= Rabs y + d.
Proof. intros H. apply Rabs_le_inv' in H. unfold Rabs in *. destruct (Rcase_abs x), (Rcase_abs y); lra. Qed.
Lemma cdist_fst a b : Rabs (fst a - fst b) <= cdist a b.
Proof. apply (cmod_fst (fst a - fst b, snd a - snd b)). Qed.
Lemma cdist_snd a b : Rabs (snd a - snd b) <= cdist a b.
Proof. apply (cmod_snd (fst a - fst b, snd a - snd b)). Qed.

(** ** 3d *)
Lemma top3_range k N : ints3 N -> (1 <= fst (fst N))%Z -> (1 <= snd (fst N))%Z -> (1 <= snd N)%Z -> 0 <= IZR (top3 k N) <= 2 ^ 40.
Proof.
  destruct N as [[x y] z]. intros (A & B & C) D1 D2 D3. unfold INT_MAX in *. cbn [fst snd] in *. rewrite pow_IZR.
  change (2 ^ Z.of_nat 40)%Z with 1099511627776%Z. split; apply IZR_le; destruct k; cbn [top3]; lia.
Qed.
Section Run3.
Context {F : Type}.
Variables (u mu om : R) (O : sops F) (val : F -> R) (fin : F -> Prop) (t s : nat) (cexp : bool -> Z -> Z -> F * F) (rnorm : Z -> F).
Variables (uc : R) (cv : spec_float -> F) (dist : F -> spec_float -> spec_float).
Hypothesis RO : rounding u mu om O val fin.
Hypothesis HT : forall inv L, (L < 2 ^ 31)%Z -> table_ok u val fin t cexp inv L.
Hypothesis HN : forall k, (1 <= k < 2 ^ 63)%Z -> norm_ok u val fin s rnorm k.
Hypothesis Huc : 0 <= uc.
Hypothesis CV : conv_ok fin val uc cv.
Hypothesis HD : dist_ok fin val dist.
Hypothesis Hom : om <= SFom 53 1024.
Variables (ar : areas) (n : nat) (sts : settings) (N : Z * Z * Z) (permute : Z) (ins outs : nat -> box3) (f : fft3).
Hypothesis Hr : ready3 ar n sts N permute ins outs f.
Hypothesis Hg : (grid_points N < 2 ^ 63)%Z.
Hypothesis Hsz : forall r, (r < n)%nat -> (psize3 (ins r) <= psize3 (outs r))%Z.
Variables (k : init) (sd : nat -> Z).
Hypothesis Hs : forall r, (r < n)%nat -> legal3 (ins r) /\ seed_ok k (sd r).
Local Notation K := (2 * cost3 t N + scale_cost s true)%nat.
Local Notation G := (IZR (grid_points N)).
Local Notation pw := ((1 + u) ^ K).
Local Notation q := (growth u K (grid_points N)).
Local Notation S := (start_size uc mu (top3 k N)).
Local Notation want := (fun r p c => want3 dint drand k (sd r) N (ins r) p c).
Local Notation in_ x := (fun r => initialize3 dint drand cv k (sd r) N (ins r)).

Lemma size3_step x y d : 0 <= d -> (forall p, in_grid N p -> cdist (vals val y p) (vals val x p) <= d) ->
  size3 mu N (vals val y) <= size3 mu N (vals val x) + G * d.
Proof.
  intros Hd H. destruct (dims_pos3 ar n sts N permute ins outs f Hr) as (D1 & D2 & D3 & D4).
  replace (size3 mu N (vals val x) + G * d) with (size3 (mu + d / 32) N (vals val x)) by (unfold size3; field).
  rewrite <- !ssum3_size by assumption. unfold ssum3. apply rsum_le. intros l Hl. apply rsum_le. intros j Hj. apply rsum_le. intros i Hi.
  assert (Hp : in_grid N (i, j, l)) by (destruct N as [[? ?] ?]; unfold in_grid; cbn in *; lia).
  pose proof (cmod_dist (vals val y (i, j, l)) (vals val x (i, j, l))). pose proof (H _ Hp). lra.
Qed.
Lemma size3_le x B : (forall p, in_grid N p -> cmod (vals val x p) <= B) -> size3 mu N (vals val x) <= G * (B + 32 * mu).
Proof.
  intros H. destruct (dims_pos3 ar n sts N permute ins outs f Hr) as (D1 & D2 & D3 & D4).
  rewrite <- ssum3_size by assumption. rewrite (Rmult_comm G). rewrite <- ssum3_const by assumption.
  unfold ssum3. apply rsum_le. intros l Hl. apply rsum_le. intros j Hj. apply rsum_le. intros i Hi.
  assert (Hp : in_grid N (i, j, l)) by (destruct N as [[? ?] ?]; unfold in_grid; cbn in *; lia). pose proof (H _ Hp). lra.
Qed.
Lemma size3_nonneg x : 0 <= size3 mu N x.
Proof.
  pose proof (size3_ge mu ar n sts N permute ins outs f Hr x) as H.
  destruct (dims_pos3 ar n sts N permute ins outs f Hr) as (D1 & D2 & D3 & D4). assert (1 <= G) by (apply IZR_le; lia).
  pose proof (r_mu _ _ _ _ _ _ RO). nra.
Qed.
Lemma want_ok3 r p c : (r < n)%nat -> inb3 p (ins r) -> (0 <= c < 2)%Z ->
  SFfin 53 1024 (want r p c) /\ Rabs (SFval (want r p c)) <= IZR (top3 k N) /\ fin (cv (want r p c)) /\
  Rabs (val (cv (want r p c)) - SFval (want r p c)) <= uc * (IZR (top3 k N) + 1).
Proof.
  intros Hrn Hp Hc. pose proof Hr as (_ & _ & HI & _ & Ti & _). destruct (dims_pos3 ar n sts N permute ins outs f Hr) as (D1 & D2 & D3 & D4).
  destruct (want_fin3 k (sd r) N (ins r) p c HI (proj1 Ti p r Hrn Hp) Hp Hc (proj2 (Hs r Hrn))) as (A & B).
  pose proof (top3_range k N HI D1 D2 D3) as T. destruct (CV _ A ltac:(lra)) as (C & D).
  split; [exact A|]. split; [exact B|]. split; [exact C|]. eapply Rle_trans; [exact D|]. apply Rmult_le_compat_l; [exact Huc|]. lra.
Qed.

Theorem run_near3 (M0 : nat -> @rmem F) nloop : room3 f BACKWARD BWORK M0 ->
  pw * (4 * (q ^ nloop * (G * S) * G)) <= om ->
  exists P M' e E, setup_ffts3 cexp N = Some P /\
    exec_to n (test3 O rnorm f P false nloop (in_ x)) M0 M' /\
    (forall r, (r < n)%nat -> framed M0 BWORK (fun r => (2 * f_fftsize f r)%Z) r (M' r)) /\
    (forall r p c, (r < n)%nat -> inb3 p (ins r) -> (0 <= c < 2)%Z -> exists a, zget (getb BWORK (M' r)) (cell3 2 0 (ins r) p c) = Some a /\ fin a) /\
    allmax dgt dzero n (fun r => validate3 dint drand dist dgt dzero k (sd r) N (ins r) (getb BWORK (M' r))) = Some e /\ SFfin 53 1024 e /\
    worst (fun d => exists r p c a, (r < n)%nat /\ inb3 p (ins r) /\ (0 <= c < 2)%Z /\ zget (getb BWORK (M' r)) (cell3 2 0 (ins r) p c) = Some a /\
             d = Rabs (val a - SFval (want r p c))) E /\
    E <= (q ^ nloop - 1) * S + uc * (IZR (top3 k N) + 1) /\
    Rabs (SFval e - E) <= SFu 53 * E.
Proof.
  intros Ha Ho. destruct (ready_plans O cexp _ _ _ _ _ _ _ _ Hr) as (P & HP).
  pose proof Hr as (_ & _ & HI & _ & Ti & _). destruct (dims_pos3 ar n sts N permute ins outs f Hr) as (D1 & D2 & D3 & D4).
  pose proof (top3_range k N HI D1 D2 D3) as HTop. pose proof (r_u _ _ _ _ _ _ RO) as Hu. pose proof (r_mu _ _ _ _ _ _ RO) as Hmu.
  assert (HG : 1 <= G) by (apply IZR_le; lia).
  assert (Hpw : 1 <= pw) by (apply pow_R1_Rle; lra).
  assert (Hq : 1 <= q) by (unfold growth; nra).
  assert (Hqn : 1 <= q ^ nloop) by (apply pow_R1_Rle, Hq).
  assert (Hut : 0 <= uc * (IZR (top3 k N) + 1)) by (apply Rmult_le_pos; lra).
  assert (HS : uc * (IZR (top3 k N) + 1) <= S) by (unfold start_size; lra).
  assert (HS0 : 0 <= S) by lra.
  (* the field that initialize() stores *)
  set (img := fun r => map (fun i => cv (wanti3 dint drand k (sd r) N (ins r) i)) (zrange (2 * psize3 (ins r)))).
  destruct (some_field O n N (fun r => setb BWORK (img r) (M0 r)) BWORK 0 ins (or_introl eq_refl) Ti) as (x0 & Hx0).
  { intros r Hrn. rewrite getb_setb_work. unfold img. rewrite zlen_map, zlen_zrange. pose proof (vol3_le_psize (ins r)).
    pose proof (psize3_nonneg _ (proj1 (Hs r Hrn))). lia. }
  assert (X0 : forall r p c, (r < n)%nat -> inb3 p (ins r) -> (0 <= c < 2)%Z -> fld x0 p c = cv (want r p c)).
  { intros r p c Hrn Hp Hc. pose proof (Hx0 r Hrn p c Hp Hc) as E. rewrite getb_setb_work in E. unfold img in E.
    pose proof (cell3_lt (ins r) p c Hp Hc) as Hl. rewrite zget_map, zget_zrange in E by exact Hl. cbn [option_map] in E. injection E as E.
    rewrite <- E. rewrite wanti3_ok; [reflexivity|apply (proj1 Ti p r Hrn Hp)|exact Hp|exact Hc]. }
  assert (Fx : forall p, in_grid N p -> cfin fin (x0 p) /\ cmod (vals val x0 p) <= 17 / 12 * (IZR (top3 k N) + uc * (IZR (top3 k N) + 1))).
  { intros p Hp. destruct (proj2 (proj2 Ti) p Hp) as (r & Hrn & Hb).
    assert (Z0 : (0 <= 0 < 2)%Z) by lia. assert (Z1 : (0 <= 1 < 2)%Z) by lia.
    pose proof (X0 r p 0%Z Hrn Hb Z0) as E0. pose proof (X0 r p 1%Z Hrn Hb Z1) as E1. unfold fld in E0, E1. cbn [Z.eqb] in E0, E1.
    destruct (want_ok3 r p 0%Z Hrn Hb Z0) as (_ & A0 & B0 & C0). destruct (want_ok3 r p 1%Z Hrn Hb Z1) as (_ & A1 & B1 & C1).
    rewrite <- E0 in B0, C0. rewrite <- E1 in B1, C1. split; [split; assumption|].
    apply cmod_box; unfold vals, cval; cbn [fst snd]; eapply Rle_trans; try (apply Rabs_near; eassumption); lra. }
  assert (Sz : size3 mu N (vals val x0) <= G * S) by (apply size3_le; intros p Hp; apply (Fx p Hp)).
  (* the loop *)
  destruct (iter_near val fin n (fun x => st3 f BWORK M0 BWORK 0 ins (fld x))
    (pieces_compute3 O rnorm f P true false FORWARD BWORK BWORK ++ pieces_compute3 O rnorm f P true false BACKWARD BWORK BWORK)
    (in_grid N) G (pw - 1) (pw * (4 * G)) om (fun x => size3 mu N (vals val x)) HG) with (k := nloop) (x := x0) as (y & Gd & Ny).
  - lra.
  - nra.
  - intros x. apply size3_nonneg.
  - intros x z d. apply size3_step.
  - intros x Fxx Hx. destruct (trip_good3 u mu om O val fin RO t cexp rnorm s ar n sts N permute ins outs f Hr P BWORK M0 true true x HP (or_introl eq_refl) Ha) as (z & G1 & N1); auto.
    + apply (tables3_all u val fin t cexp HT), HI.
    + apply (tables3_all u val fin t cexp HT), HI.
    + eapply Rle_trans; [|exact Hx]. right. ring.
    + exists z. split; [exact G1|]. intros p Hp. specialize (N1 p Hp). cbn iota in N1. rewrite rmulc_1, Rmult_1_r in N1. exact N1.
  - intros p Hp. apply (Fx p Hp).
  - eapply Rle_trans; [|exact Ho]. unfold growth. fold (growth u K (grid_points N)).
    replace (pw * (4 * (q ^ nloop * (G * S) * G))) with (pw * (4 * G) * (q ^ nloop * (G * S))) by ring.
    apply Rmult_le_compat_l; [nra|]. apply Rmult_le_compat_l; [lra|exact Sz].
  - change (1 + G * (pw - 1)) with q in Ny.
    assert (Gi : good n (framed M0 BWORK (fun r => (2 * f_fftsize f r)%Z))
      ([fun r => [start_with (initialize3 dint drand cv k (sd r) N (ins r))]] ++
       concat (repeat (pieces_compute3 O rnorm f P true false FORWARD BWORK BWORK ++ pieces_compute3 O rnorm f P true false BACKWARD BWORK BWORK) nloop))
      (st3 f BWORK M0 BWORK 0 ins (fld y))).
    { eapply good_app; [|exact Gd]. apply good_one; [apply local_wf|].
      apply (triple_local n strict (framed M0 BWORK (fun r => (2 * f_fftsize f r)%Z))
        (fun r => [fun m => w <- initialize3 dint drand cv k (sd r) N (ins r) (getb BWORK m); Some (setb BWORK w m)])).
      intros r m Hrn Hf. pose proof (work_room3 ar n sts N permute ins outs f M0 Hr Ha r Hrn) as Hwr.
      destruct (init_fills3 dint drand cv n N ins k sd Hs r (getb BWORK m) Hrn) as (w & E & Hfi); [destruct Hf as (A & _); rewrite A; lia|].
      exists (setb BWORK w m). cbn [seqf]. rewrite E. cbn [bind]. split; [reflexivity|]. split.
      - rewrite getb_setb_work. intros p c Hp Hc. destruct Hfi as (_ & Hfi & _). rewrite Hfi by (apply cell3_lt; assumption).
        rewrite (X0 r p c Hrn Hp Hc), wanti3_ok; [reflexivity|apply (proj1 Ti p r Hrn Hp)|exact Hp|exact Hc].
      - eapply (framed_init3 cv ar n sts N permute ins outs f M0 (fun r => wanti3 dint drand k (sd r) N (ins r)) Hr Ha (fun r H => proj1 (Hs r H))); eassumption. }
    destruct (good_exec n _ _ _ M0 Gi) as (M' & H1 & L & H2); [intros r _; apply framed_refl|].
    assert (W : forall r p c, (r < n)%nat -> inb3 p (ins r) -> (0 <= c < 2)%Z ->
      zget (getb BWORK (M' r)) (cell3 2 0 (ins r) p c) = Some (fld y p c) /\ fin (fld y p c) /\
      Rabs (val (fld y p c) - SFval (want r p c)) <= (q ^ nloop - 1) * S + uc * (IZR (top3 k N) + 1)).
    { intros r p c Hrn Hp Hc. destruct (H1 r Hrn) as (A & _). split; [apply A; assumption|].
      assert (Hgp : in_grid N p) by apply (proj1 Ti p r Hrn Hp). destruct (Ny p Hgp) as ((B1 & B2) & B3).
      assert (C0 : fin (fld y p c)) by (unfold fld; destruct (c =? 0)%Z; assumption). split; [exact C0|].
      assert (C1 : Rabs (val (fld y p c) - val (fld x0 p c)) <= (q ^ nloop - 1) * S).
      { apply Rle_trans with ((q ^ nloop - 1) * (size3 mu N (vals val x0) / G)).
        - eapply Rle_trans; [|exact B3]. unfold fld, vals, cval. destruct (c =? 0)%Z;
            [apply (cdist_fst (val (fst (y p)), val (snd (y p))) (val (fst (x0 p)), val (snd (x0 p))))|apply (cdist_snd (val (fst (y p)), val (snd (y p))) (val (fst (x0 p)), val (snd (x0 p))))].
        - apply Rmult_le_compat_l; [lra|]. apply Rmult_le_reg_r with G; [lra|]. unfold Rdiv. rewrite Rmult_assoc, Rinv_l, Rmult_1_r by lra. lra. }
      rewrite (X0 r p c Hrn Hp Hc) in C1. destruct (want_ok3 r p c Hrn Hp Hc) as (_ & _ & _ & C2).
      replace (val (fld y p c) - SFval (want r p c)) with ((val (fld y p c) - val (cv (want r p c))) + (val (cv (want r p c)) - SFval (want r p c))) by ring.
      eapply Rle_trans; [apply Rabs_triang|]. lra. }
    assert (Hb : (q ^ nloop - 1) * S + uc * (IZR (top3 k N) + 1) <= SFom 53 1024).
    { eapply Rle_trans; [|exact Hom]. eapply Rle_trans; [|exact Ho]. apply Rle_trans with (q ^ nloop * S); [nra|].
      assert (Y : 0 <= q ^ nloop * S) by nra. assert (GG : 1 <= G * G) by nra.
      replace (pw * (4 * (q ^ nloop * (G * S) * G))) with ((pw * 4) * ((G * G) * (q ^ nloop * S))) by ring.
      set (y0 := q ^ nloop * S) in *. clearbody y0. set (g := G * G) in *. clearbody g. assert (y0 <= g * y0) by nra. nra. }
    destruct (validateD3_all fin val dist HD (s0 O) k sd N n ins (fun r => getb BWORK (M' r)) HI) as (e & E & Ee & Fe & We & Re).
    { intros r Hrn. split; [apply (Hs r Hrn)|]. split; [intros p Hp; apply (proj1 Ti p r Hrn Hp)|apply (Hs r Hrn)]. }
    { intros r p c Hrn Hp Hc. destruct (W r p c Hrn Hp Hc) as (A & B & C). exists (fld y p c). split; [exact A|]. split; [exact B|]. lra. }
    exists P, M', e, E. split; [exact HP|]. split.
    { exists L. assert (Es : start n (test3 O rnorm f P false nloop (in_ x)) M0 = start n (together ([fun r => [start_with (initialize3 dint drand cv k (sd r) N (ins r))]] ++
       concat (repeat (pieces_compute3 O rnorm f P true false FORWARD BWORK BWORK ++ pieces_compute3 O rnorm f P true false BACKWARD BWORK BWORK) nloop))) M0).
      { unfold start. f_equal. apply map_ext. intros r. unfold test3.
        erewrite (times_ext nloop (round3 O rnorm f P false)).
        - unfold together at 1. rewrite map_app, concat_app. cbn [map concat app]. f_equal. symmetry. apply together_times.
        - unfold round3, together, compute3, together. rewrite map_app, concat_app. reflexivity. }
      rewrite Es. exact H2. }
    split; [intros r Hrn; apply (H1 r Hrn)|].
    split; [intros r p c Hrn Hp Hc; destruct (W r p c Hrn Hp Hc) as (A & B & _); eauto|].
    split; [exact Ee|]. split; [exact Fe|]. split; [exact We|]. split; [|exact Re].
    destruct We as (_ & _ & [-> | (r & p & c & a & Hrn & Hp & Hc & Ea & ->)]); [nra|].
    destruct (W r p c Hrn Hp Hc) as (A & _ & C). rewrite A in Ea. injection Ea as <-. exact C.
Qed.
End Run3.

(** ** 2d *)
Lemma top2_range k N : ints2 N -> (1 <= fst N)%Z -> (1 <= snd N)%Z -> 0 <= IZR (top2 k N) <= 2 ^ 40.
Proof.
  destruct N as [x y]. intros (A & B) D1 D2. unfold INT_MAX in *. cbn [fst snd] in *. rewrite pow_IZR.
  change (2 ^ Z.of_nat 40)%Z with 1099511627776%Z. split; apply IZR_le; destruct k; cbn [top2]; lia.
Qed.
Section Run2.
Context {F : Type}.
Variables (u mu om : R) (O : sops F) (val : F -> R) (fin : F -> Prop) (t s : nat) (cexp : bool -> Z -> Z -> F * F) (rnorm : Z -> F).
Variables (uc : R) (cv : spec_float -> F) (dist : F -> spec_float -> spec_float).
Hypothesis RO : rounding u mu om O val fin.
Hypothesis HT : forall inv L, (L < 2 ^ 31)%Z -> table_ok u val fin t cexp inv L.
Hypothesis HN : forall k, (1 <= k < 2 ^ 63)%Z -> norm_ok u val fin s rnorm k.
Hypothesis Huc : 0 <= uc.
Hypothesis CV : conv_ok fin val uc cv.
Hypothesis HD : dist_ok fin val dist.
Hypothesis Hom : om <= SFom 53 1024.
Variables (esize : Z) (ar : areas) (n : nat) (sts : settings) (N : Z * Z) (permute : Z) (ins outs : nat -> box2) (f : fft2).
Hypothesis Hr : ready2 esize ar n sts N permute ins outs f.
Hypothesis Hg : (grid_points2 N < 2 ^ 63)%Z.
Hypothesis Hsz : forall r, (r < n)%nat -> (psize2 (ins r) <= psize2 (outs r))%Z.
Variables (k : init) (sd : nat -> Z).
Hypothesis Hs : forall r, (r < n)%nat -> legal2 (ins r) /\ seed_ok k (sd r).
Local Notation K := (2 * cost2 t N + scale_cost s true)%nat.
Local Notation G := (IZR (grid_points2 N)).
Local Notation pw := ((1 + u) ^ K).
Local Notation q := (growth u K (grid_points2 N)).
Local Notation S := (start_size uc mu (top2 k N)).
Local Notation want := (fun r p c => want2 dint drand k (sd r) N (ins r) p c).
Local Notation in_ x := (fun r => initialize2 dint drand cv k (sd r) N (ins r)).

Lemma size2_step x y d : 0 <= d -> (forall p, in_grid2 N p -> cdist (vals val y p) (vals val x p) <= d) ->
  size2 mu N (vals val y) <= size2 mu N (vals val x) + G * d.
Proof.
  intros Hd H. destruct (dims_pos2 esize ar n sts N permute ins outs f Hr) as (D1 & D2 & D4).
  replace (size2 mu N (vals val x) + G * d) with (size2 (mu + d / 32) N (vals val x)) by (unfold size2; field).
  rewrite <- !ssum2_size by assumption. unfold ssum2. apply rsum_le. intros j Hj. apply rsum_le. intros i Hi.
  assert (Hp : in_grid2 N (i, j)) by (destruct N as [? ?]; unfold in_grid2; cbn in *; lia).
  pose proof (cmod_dist (vals val y (i, j)) (vals val x (i, j))). pose proof (H _ Hp). lra.
Qed.
Lemma size2_le x B : (forall p, in_grid2 N p -> cmod (vals val x p) <= B) -> size2 mu N (vals val x) <= G * (B + 32 * mu).
Proof.
  intros H. destruct (dims_pos2 esize ar n sts N permute ins outs f Hr) as (D1 & D2 & D4).
  rewrite <- ssum2_size by assumption. rewrite (Rmult_comm G). rewrite <- ssum2_const by assumption.
  unfold ssum2. apply rsum_le. intros j Hj. apply rsum_le. intros i Hi.
  assert (Hp : in_grid2 N (i, j)) by (destruct N as [? ?]; unfold in_grid2; cbn in *; lia). pose proof (H _ Hp). lra.
Qed.
Lemma size2_nonneg x : 0 <= size2 mu N x.
Proof.
  pose proof (size2_ge mu esize ar n sts N permute ins outs f Hr x) as H.
  destruct (dims_pos2 esize ar n sts N permute ins outs f Hr) as (D1 & D2 & D4). assert (1 <= G) by (apply IZR_le; lia).
  pose proof (r_mu _ _ _ _ _ _ RO). nra.
Qed.
Lemma want_ok2 r p c : (r < n)%nat -> inb2 p (ins r) -> (0 <= c < 2)%Z ->
  SFfin 53 1024 (want r p c) /\ Rabs (SFval (want r p c)) <= IZR (top2 k N) /\ fin (cv (want r p c)) /\
  Rabs (val (cv (want r p c)) - SFval (want r p c)) <= uc * (IZR (top2 k N) + 1).
Proof.
  intros Hrn Hp Hc. pose proof Hr as (_ & _ & HI & _ & _ & Ti & _). destruct (dims_pos2 esize ar n sts N permute ins outs f Hr) as (D1 & D2 & D4).
  destruct (want_fin2 k (sd r) N (ins r) p c HI (proj1 Ti p r Hrn Hp) Hp Hc (proj2 (Hs r Hrn))) as (A & B).
  pose proof (top2_range k N HI D1 D2) as T. destruct (CV _ A ltac:(lra)) as (C & D).
  split; [exact A|]. split; [exact B|]. split; [exact C|]. eapply Rle_trans; [exact D|]. apply Rmult_le_compat_l; [exact Huc|]. lra.
Qed.

Theorem run_near2 (M0 : nat -> @rmem F) nloop : arrays_ok2 f BWORK M0 ->
  pw * (4 * (q ^ nloop * (G * S) * G)) <= om ->
  exists P M' e E, setup_ffts2 cexp N = Some P /\
    exec_to n (test2 O rnorm esize f P false nloop (in_ x)) M0 M' /\
    (forall r, (r < n)%nat -> framed M0 BWORK (fun r => (2 * t_fftsize f r)%Z) r (M' r)) /\
    (forall r p c, (r < n)%nat -> inb2 p (ins r) -> (0 <= c < 2)%Z -> exists a, zget (getb BWORK (M' r)) (cell2 2 0 (ins r) p c) = Some a /\ fin a) /\
    allmax dgt dzero n (fun r => validate2 dint drand dist dgt dzero k (sd r) N (ins r) (getb BWORK (M' r))) = Some e /\ SFfin 53 1024 e /\
    worst (fun d => exists r p c a, (r < n)%nat /\ inb2 p (ins r) /\ (0 <= c < 2)%Z /\ zget (getb BWORK (M' r)) (cell2 2 0 (ins r) p c) = Some a /\
             d = Rabs (val a - SFval (want r p c))) E /\
    E <= (q ^ nloop - 1) * S + uc * (IZR (top2 k N) + 1) /\
    Rabs (SFval e - E) <= SFu 53 * E.
Proof.
  intros Ha Ho. destruct (ready_plans2 O cexp _ _ _ _ _ _ _ _ _ Hr) as (P & HP).
  pose proof Hr as (_ & _ & HI & _ & _ & Ti & _). destruct (dims_pos2 esize ar n sts N permute ins outs f Hr) as (D1 & D2 & D4).
  pose proof (top2_range k N HI D1 D2) as HTop. pose proof (r_u _ _ _ _ _ _ RO) as Hu. pose proof (r_mu _ _ _ _ _ _ RO) as Hmu.
  assert (HG : 1 <= G) by (apply IZR_le; lia).
  assert (Hpw : 1 <= pw) by (apply pow_R1_Rle; lra).
  assert (Hq : 1 <= q) by (unfold growth; nra).
  assert (Hqn : 1 <= q ^ nloop) by (apply pow_R1_Rle, Hq).
  assert (Hut : 0 <= uc * (IZR (top2 k N) + 1)) by (apply Rmult_le_pos; lra).
  assert (HS : uc * (IZR (top2 k N) + 1) <= S) by (unfold start_size; lra).
  assert (HS0 : 0 <= S) by lra.
  (* the field that initialize() stores *)
  set (img := fun r => map (fun i => cv (wanti2 dint drand k (sd r) N (ins r) i)) (zrange (2 * psize2 (ins r)))).
  destruct (some_field2 O n N (fun r => setb BWORK (img r) (M0 r)) BWORK 0 ins (or_introl eq_refl) Ti) as (x0 & Hx0).
  { intros r Hrn. rewrite getb_setb_work. unfold img. rewrite zlen_map, zlen_zrange. pose proof (vol2_le_psize (ins r)).
    pose proof (psize2_nonneg _ (proj1 (Hs r Hrn))). lia. }
  assert (X0 : forall r p c, (r < n)%nat -> inb2 p (ins r) -> (0 <= c < 2)%Z -> fld x0 p c = cv (want r p c)).
  { intros r p c Hrn Hp Hc. pose proof (Hx0 r Hrn p c Hp Hc) as E. rewrite getb_setb_work in E. unfold img in E.
    pose proof (cell2_lt (ins r) p c Hp Hc) as Hl. rewrite zget_map, zget_zrange in E by exact Hl. cbn [option_map] in E. injection E as E.
    rewrite <- E. rewrite wanti2_ok; [reflexivity|apply (proj1 Ti p r Hrn Hp)|exact Hp|exact Hc]. }
  assert (Fx : forall p, in_grid2 N p -> cfin fin (x0 p) /\ cmod (vals val x0 p) <= 17 / 12 * (IZR (top2 k N) + uc * (IZR (top2 k N) + 1))).
  { intros p Hp. destruct (proj2 (proj2 Ti) p Hp) as (r & Hrn & Hb).
    assert (Z0 : (0 <= 0 < 2)%Z) by lia. assert (Z1 : (0 <= 1 < 2)%Z) by lia.
    pose proof (X0 r p 0%Z Hrn Hb Z0) as E0. pose proof (X0 r p 1%Z Hrn Hb Z1) as E1. unfold fld in E0, E1. cbn [Z.eqb] in E0, E1.
    destruct (want_ok2 r p 0%Z Hrn Hb Z0) as (_ & A0 & B0 & C0). destruct (want_ok2 r p 1%Z Hrn Hb Z1) as (_ & A1 & B1 & C1).
    rewrite <- E0 in B0, C0. rewrite <- E1 in B1, C1. split; [split; assumption|].
    apply cmod_box; unfold vals, cval; cbn [fst snd]; eapply Rle_trans; try (apply Rabs_near; eassumption); lra. }
  assert (Sz : size2 mu N (vals val x0) <= G * S) by (apply size2_le; intros p Hp; apply (Fx p Hp)).
  (* the loop *)
  destruct (iter_near val fin n (fun x => st2 f BWORK M0 BWORK 0 ins (fld x))
    (pieces_compute2 O rnorm esize f P true false FORWARD BWORK BWORK ++ pieces_compute2 O rnorm esize f P true false BACKWARD BWORK BWORK)
    (in_grid2 N) G (pw - 1) (pw * (4 * G)) om (fun x => size2 mu N (vals val x)) HG) with (k := nloop) (x := x0) as (y & Gd & Ny).
  - lra.
  - nra.
  - intros x. apply size2_nonneg.
  - intros x z d. apply size2_step.
  - intros x Fxx Hx. destruct (trip_good2 u mu om O val fin RO t cexp rnorm s esize ar n sts N permute ins outs f Hr P BWORK M0 true true x HP (or_introl eq_refl) Ha) as (z & G1 & N1); auto.
    + apply (tables2_all u val fin t cexp HT), HI.
    + apply (tables2_all u val fin t cexp HT), HI.
    + eapply Rle_trans; [|exact Hx]. right. ring.
    + exists z. split; [exact G1|]. intros p Hp. specialize (N1 p Hp). cbn iota in N1. rewrite rmulc_1, Rmult_1_r in N1. exact N1.
  - intros p Hp. apply (Fx p Hp).
  - eapply Rle_trans; [|exact Ho]. unfold growth. fold (growth u K (grid_points2 N)).
    replace (pw * (4 * (q ^ nloop * (G * S) * G))) with (pw * (4 * G) * (q ^ nloop * (G * S))) by ring.
    apply Rmult_le_compat_l; [nra|]. apply Rmult_le_compat_l; [lra|exact Sz].
  - change (1 + G * (pw - 1)) with q in Ny.
    assert (Gi : good n (framed M0 BWORK (fun r => (2 * t_fftsize f r)%Z))
      ([fun r => [start_with (initialize2 dint drand cv k (sd r) N (ins r))]] ++
       concat (repeat (pieces_compute2 O rnorm esize f P true false FORWARD BWORK BWORK ++ pieces_compute2 O rnorm esize f P true false BACKWARD BWORK BWORK) nloop))
      (st2 f BWORK M0 BWORK 0 ins (fld y))).
    { eapply good_app; [|exact Gd]. apply good_one; [apply local_wf|].
      apply (triple_local n strict (framed M0 BWORK (fun r => (2 * t_fftsize f r)%Z))
        (fun r => [fun m => w <- initialize2 dint drand cv k (sd r) N (ins r) (getb BWORK m); Some (setb BWORK w m)])).
      intros r m Hrn Hf. pose proof (work_room2 esize ar n sts N permute ins outs f M0 Hr Ha r Hrn) as Hwr.
      destruct (init_fills2 dint drand cv n N ins k sd Hs r (getb BWORK m) Hrn) as (w & E & Hfi); [destruct Hf as (A & _); rewrite A; lia|].
      exists (setb BWORK w m). cbn [seqf]. rewrite E. cbn [bind]. split; [reflexivity|]. split.
      - rewrite getb_setb_work. intros p c Hp Hc. destruct Hfi as (_ & Hfi & _). rewrite Hfi by (apply cell2_lt; assumption).
        rewrite (X0 r p c Hrn Hp Hc), wanti2_ok; [reflexivity|apply (proj1 Ti p r Hrn Hp)|exact Hp|exact Hc].
      - eapply (framed_init2 cv esize ar n sts N permute ins outs f M0 (fun r => wanti2 dint drand k (sd r) N (ins r)) Hr Ha (fun r H => proj1 (Hs r H))); eassumption. }
    destruct (good_exec n _ _ _ M0 Gi) as (M' & H1 & L & H2); [intros r _; apply framed_refl|].
    assert (W : forall r p c, (r < n)%nat -> inb2 p (ins r) -> (0 <= c < 2)%Z ->
      zget (getb BWORK (M' r)) (cell2 2 0 (ins r) p c) = Some (fld y p c) /\ fin (fld y p c) /\
      Rabs (val (fld y p c) - SFval (want r p c)) <= (q ^ nloop - 1) * S + uc * (IZR (top2 k N) + 1)).
    { intros r p c Hrn Hp Hc. destruct (H1 r Hrn) as (A & _). split; [apply A; assumption|].
      assert (Hgp : in_grid2 N p) by apply (proj1 Ti p r Hrn Hp). destruct (Ny p Hgp) as ((B1 & B2) & B3).
      assert (C0 : fin (fld y p c)) by (unfold fld; destruct (c =? 0)%Z; assumption). split; [exact C0|].
      assert (C1 : Rabs (val (fld y p c) - val (fld x0 p c)) <= (q ^ nloop - 1) * S).
      { apply Rle_trans with ((q ^ nloop - 1) * (size2 mu N (vals val x0) / G)).
        - eapply Rle_trans; [|exact B3]. unfold fld, vals, cval. destruct (c =? 0)%Z;
            [apply (cdist_fst (val (fst (y p)), val (snd (y p))) (val (fst (x0 p)), val (snd (x0 p))))|apply (cdist_snd (val (fst (y p)), val (snd (y p))) (val (fst (x0 p)), val (snd (x0 p))))].
        - apply Rmult_le_compat_l; [lra|]. apply Rmult_le_reg_r with G; [lra|]. unfold Rdiv. rewrite Rmult_assoc, Rinv_l, Rmult_1_r by lra. lra. }
      rewrite (X0 r p c Hrn Hp Hc) in C1. destruct (want_ok2 r p c Hrn Hp Hc) as (_ & _ & _ & C2).
      replace (val (fld y p c) - SFval (want r p c)) with ((val (fld y p c) - val (cv (want r p c))) + (val (cv (want r p c)) - SFval (want r p c))) by ring.
      eapply Rle_trans; [apply Rabs_triang|]. lra. }
    assert (Hb : (q ^ nloop - 1) * S + uc * (IZR (top2 k N) + 1) <= SFom 53 1024).
    { eapply Rle_trans; [|exact Hom]. eapply Rle_trans; [|exact Ho]. apply Rle_trans with (q ^ nloop * S); [nra|].
      assert (Y : 0 <= q ^ nloop * S) by nra. assert (GG : 1 <= G * G) by nra.
      replace (pw * (4 * (q ^ nloop * (G * S) * G))) with ((pw * 4) * ((G * G) * (q ^ nloop * S))) by ring.
      set (y0 := q ^ nloop * S) in *. clearbody y0. set (g := G * G) in *. clearbody g. assert (y0 <= g * y0) by nra. nra. }
    destruct (validateD2_all fin val dist HD (s0 O) k sd N n ins (fun r => getb BWORK (M' r)) HI) as (e & E & Ee & Fe & We & Re).
    { intros r Hrn. split; [apply (Hs r Hrn)|]. split; [intros p Hp; apply (proj1 Ti p r Hrn Hp)|apply (Hs r Hrn)]. }
    { intros r p c Hrn Hp Hc. destruct (W r p c Hrn Hp Hc) as (A & B & C). exists (fld y p c). split; [exact A|]. split; [exact B|]. lra. }
    exists P, M', e, E. split; [exact HP|]. split.
    { exists L. assert (Es : start n (test2 O rnorm esize f P false nloop (in_ x)) M0 = start n (together ([fun r => [start_with (initialize2 dint drand cv k (sd r) N (ins r))]] ++
       concat (repeat (pieces_compute2 O rnorm esize f P true false FORWARD BWORK BWORK ++ pieces_compute2 O rnorm esize f P true false BACKWARD BWORK BWORK) nloop))) M0).
      { unfold start. f_equal. apply map_ext. intros r. unfold test2.
        erewrite (times_ext nloop (round2 O rnorm esize f P false)).
        - unfold together at 1. rewrite map_app, concat_app. cbn [map concat app]. f_equal. symmetry. apply together_times.
        - unfold round2, together, compute2, together. rewrite map_app, concat_app. reflexivity. }
      rewrite Es. exact H2. }
    split; [intros r Hrn; apply (H1 r Hrn)|].
    split; [intros r p c Hrn Hp Hc; destruct (W r p c Hrn Hp Hc) as (A & B & _); eauto|].
    split; [exact Ee|]. split; [exact Fe|]. split; [exact We|]. split; [|exact Re].
    destruct We as (_ & _ & [-> | (r & p & c & a & Hrn & Hp & Hc & Ea & ->)]); [nra|].
    destruct (W r p c Hrn Hp Hc) as (A & _ & C). rewrite A in Ea. injection Ea as <-. exact C.
Qed.
End Run2.
