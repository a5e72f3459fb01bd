(** TestRound.v : validate() of the test programs in IEEE arithmetic: the operations it
    uses, and what it reports for given contents of the work array. *)

From Coq Require Import Reals Psatz Lra Floats.SpecFloat.
From Verif Require Import Base Spec Pack3d Sched RemapInst Remap3d Remap2d RemapThms Layout Setup3d Setup2d Setup3dProofs Setup2dProofs Kiss Fft3d Fft3dMain Fft2dMain TestProg TestLayProofs TestDataProofs TestRunProofs Round Binary RoundDouble RoundTable.
Local Open Scope Z_scope.

(** ** the double operations of the test programs *)
(** an int assigned to a double, test3d.cpp:657, 763 *)
Definition dint (z : Z) : spec_float := SFofZ 53 1024 z.
(** AM and AM*seed, test3d.cpp:109, 1020 *)
Definition AM : spec_float := SFdiv 53 1024 (SFone 53) (dint IM).
Definition drand (seed : Z) : spec_float := SFmul 53 1024 AM (dint seed).
(** delta > epsilon, test3d.cpp:727 *)
Definition dgt (a b : spec_float) : bool := SFltb b a.
Definition dzero : spec_float := S754_zero false.
(** fabs(work[m]-value), test3d.cpp:747; with FFT_SINGLE work[m] is widened to double *)
Definition distD (w v : spec_float) : spec_float := SFabs (SFsub 53 1024 w v).
Definition distF (w v : spec_float) : spec_float := SFabs (SFsub 53 1024 (SFconv 53 1024 w) v).
(** work[m] = value, test3d.cpp:636; with FFT_SINGLE the value is rounded to float.  The values of ZERO, STEP and INDEX are
    small integers, so that it does not matter whether they are converted by way of double *)
Definition toD (v : spec_float) : spec_float := v.
Definition toF (v : spec_float) : spec_float := SFconv 24 128 v.

Lemma Rabs_le_inv' x a : (Rabs x <= a)%R -> (- a <= x <= a)%R.
Proof. unfold Rabs. destruct (Rcase_abs x); lra. Qed.

(** ** comparison *)
Section Cmp.
Variables prec emax : Z.
Hypothesis Hprec : 2 <= prec.
Hypothesis Hemax : prec < emax.
Local Notation fin := (SFfin prec emax).

Lemma mant_bound m e : bounded prec emax m e = true -> Zpos m < 2 ^ prec.
Proof.
  intros H. destruct (bounded_elim prec emax m e H) as (H1 & _). pose proof (digits_spec m) as [_ H2].
  rewrite fexp_max in H1. assert (2 ^ Zpos (digits2_pos m) <= 2 ^ prec) by (apply Z.pow_le_mono_r; lia). lia.
Qed.
Lemma smaller_exp m1 e1 m2 e2 : bounded prec emax m1 e1 = true -> bounded prec emax m2 e2 = true -> e1 < e2 ->
  (IZR (Zpos m1) * bpow e1 < IZR (Zpos m2) * bpow e2)%R.
Proof.
  intros H1 H2 He. pose proof (mant_bound m1 e1 H1) as B1. destruct (bounded_elim prec emax m1 e1 H1) as (_ & _ & E1).
  destruct (bounded_elim prec emax m2 e2 H2) as (F2 & _ & _). rewrite fexp_max in F2.
  assert (D : Zpos (digits2_pos m2) = prec) by lia. pose proof (digits_spec m2) as [B2 _]. rewrite D in B2.
  assert (X : 2 * Zpos m2 >= 2 ^ prec). { replace prec with (1 + (prec - 1)) by lia. rewrite Z.pow_add_r by lia. change (2 ^ 1) with 2. lia. }
  assert (Y : (2 * bpow e1 <= bpow e2)%R). { rewrite <- bpow_1, <- bpow_add. apply bpow_mono. lia. }
  pose proof (bpow_pos e1) as P1. assert (Z1 : (IZR (Zpos m1) < 2 * IZR (Zpos m2))%R). { rewrite <- mult_IZR. apply IZR_lt. lia. }
  assert (Z2 : (0 < IZR (Zpos m2))%R) by (apply IZR_lt; lia). nra.
Qed.
Lemma finite_val s m e : SFval (S754_finite s m e) = ((if s then -1 else 1) * (IZR (Zpos m) * bpow e))%R.
Proof. cbn [SFval]. fold (bpow e). ring. Qed.
Lemma cmp_mag m1 e1 m2 e2 : bounded prec emax m1 e1 = true -> bounded prec emax m2 e2 = true ->
  match (match Z.compare e1 e2 with Eq => Pcompare m1 m2 Eq | c => c end) with
  | Lt => (IZR (Zpos m1) * bpow e1 < IZR (Zpos m2) * bpow e2)%R
  | Gt => (IZR (Zpos m2) * bpow e2 < IZR (Zpos m1) * bpow e1)%R
  | Eq => (IZR (Zpos m1) * bpow e1 = IZR (Zpos m2) * bpow e2)%R
  end.
Proof.
  intros H1 H2. destruct (Z.compare_spec e1 e2) as [<-|L|L].
  - change (Pcompare m1 m2 Eq) with (Pos.compare m1 m2). pose proof (bpow_pos e1) as P. destruct (Pos.compare_spec m1 m2) as [-> | L | L]; [reflexivity| |];
      (apply Rmult_lt_compat_r; [exact P|apply IZR_lt; lia]).
  - apply smaller_exp; assumption.
  - apply smaller_exp; assumption.
Qed.
Lemma SFltb_spec a b : fin a -> fin b -> SFltb a b = Rgtb (SFval b) (SFval a).
Proof.
  assert (Z : forall m e, (0 < IZR (Zpos m) * bpow e)%R) by (intros m e; apply Rmult_lt_0_compat; [apply IZR_lt; lia|apply bpow_pos]).
  unfold Rgtb, SFltb. destruct a as [sa|sa| |sa ma ea], b as [sb|sb| |sb mb eb]; cbn [SFfin]; intros Ha Hb; try contradiction; cbn [SFcompare].
  - cbn [SFval]. destruct (Rlt_dec 0 0); [lra|reflexivity].
  - rewrite finite_val. cbn [SFval]. pose proof (Z mb eb). destruct sb; [destruct (Rlt_dec _ _); [lra|reflexivity]|]. destruct (Rlt_dec _ _); [reflexivity|lra].
  - rewrite finite_val. cbn [SFval]. pose proof (Z ma ea). destruct sa; destruct (Rlt_dec _ _); try reflexivity; lra.
  - rewrite !finite_val. pose proof (Z ma ea). pose proof (Z mb eb). pose proof (cmp_mag ma ea mb eb Ha Hb) as C.
    destruct sa, sb.
    + destruct (Z.compare ea eb); [|destruct (Rlt_dec _ _); [lra|reflexivity]|destruct (Rlt_dec _ _); [reflexivity|lra]].
      destruct (Pcompare ma mb Eq); cbn [CompOpp]; destruct (Rlt_dec _ _); try reflexivity; lra.
    + destruct (Rlt_dec _ _); [reflexivity|lra].
    + destruct (Rlt_dec _ _); [lra|reflexivity].
    + destruct (Z.compare ea eb); [|destruct (Rlt_dec _ _); [reflexivity|lra]|destruct (Rlt_dec _ _); [lra|reflexivity]].
      destruct (Pcompare ma mb Eq); destruct (Rlt_dec _ _); try reflexivity; lra.
Qed.
Lemma SFabs_spec a : fin a -> fin (SFabs a) /\ SFval (SFabs a) = Rabs (SFval a).
Proof.
  destruct a as [s|s| |s m e]; cbn [SFfin SFabs]; intros H; try contradiction.
  - split; [exact I|]. cbn [SFval]. rewrite Rabs_R0. reflexivity.
  - split; [exact H|]. rewrite (val_abs s m e). rewrite finite_val. ring.
Qed.
End Cmp.

(** ** the operations of the double and of the float build *)
Local Notation u53 := (SFu 53).
Local Notation fin53 := (SFfin 53 1024).
Local Notation om53 := (SFom 53 1024).
Local Open Scope R_scope.
Lemma p53 : (2 <= 53)%Z. Proof. lia. Qed.
Lemma e53 : (53 < 1024)%Z. Proof. lia. Qed.
Lemma p24 : (2 <= 24)%Z. Proof. lia. Qed.
Lemma e24 : (24 < 128)%Z. Proof. lia. Qed.

Lemma dgt_spec a b : fin53 a -> fin53 b -> dgt a b = Rgtb (SFval a) (SFval b).
Proof. intros Ha Hb. apply (SFltb_spec 53 1024 p53); assumption. Qed.

Lemma dint_exact z : (0 <= z < 2 ^ 53)%Z -> fin53 (dint z) /\ SFval (dint z) = IZR z.
Proof. intros [H1 H2]. apply (SFofZ_exact 53 1024 p53 e53); assumption. Qed.

Lemma drand_spec s : (1 <= s <= IM - 1)%Z -> fin53 (drand s) /\ Rabs (SFval (drand s)) <= 1.
Proof.
  intros Hs. destruct (dint_exact IM) as [I1 I2]; [vm_compute; split; [discriminate|reflexivity]|].
  destruct (dint_exact s) as [S1 S2]; [unfold IM in Hs; change (2 ^ 53)%Z with 9007199254740992%Z; lia|].
  assert (A : fin53 AM /\ Rabs (SFval AM - / 2147483647) <= u53 * / 2147483647).
  { destruct (SFone_spec 53 1024 p53 e53) as [O1 O2].
    pose proof (SFdiv_spec 53 1024 p53 e53 (SFone 53) (dint IM) O1 I1) as H. rewrite I2, O2 in H. fold AM in H. change (IZR IM) with 2147483647 in H.
    assert (Q : 0 <= 1 / 2147483647 <= 1) by lra.
    destruct H as [H1 H2]; [lra|apply om_ge; rewrite Rabs_right; lra|]. split; [exact H1|].
    pose proof u_val as Uv. pose proof mu_small as [M1 M2]. rewrite (Rabs_right (1 / 2147483647)) in H2 by lra.
    replace (/ 2147483647) with (1 / 2147483647) by lra. destruct H2 as [H2|H2]; (eapply Rle_trans; [exact H2|]); rewrite Uv in *; lra. }
  destruct A as [A1 A2]. assert (R1 : 1 <= IZR s) by (apply IZR_le; lia). assert (R2 : IZR s <= 2147483646) by (apply IZR_le; unfold IM in Hs; lia).
  pose proof u_val as Uv. pose proof mu_small as [M1 M2].
  assert (P : Rabs (SFval AM * IZR s) <= 1 - 4 * u53).
  { apply Rabs_le. apply Rabs_le_inv' in A2. rewrite Uv in *. nra. }
  unfold drand. destruct (SFmul_spec 53 1024 p53 e53 AM (dint s) A1 S1) as [D1 D2].
  { rewrite S2. apply om_ge. rewrite Uv in P. lra. }
  split; [exact D1|]. rewrite S2 in D2. set (y := SFval (SFmul 53 1024 AM (dint s))) in *. set (x := SFval AM * IZR s) in *. pose proof (Rabs_pos x).
  replace y with ((y - x) + x) by ring. eapply Rle_trans; [apply Rabs_triang|]. rewrite Uv in *. nra.
Qed.

(** what the theorems need of a build: [cv] converts a double, [dist] is the deviation *)
Definition conv_ok {F} (fin : F -> Prop) (val : F -> R) (uc : R) (cv : spec_float -> F) : Prop :=
  forall v, fin53 v -> Rabs (SFval v) <= 2 ^ 40 -> fin (cv v) /\ Rabs (val (cv v) - SFval v) <= uc * (Rabs (SFval v) + 1).
Definition dist_ok {F} (fin : F -> Prop) (val : F -> R) (dist : F -> spec_float -> spec_float) : Prop :=
  forall w v, fin w -> fin53 v -> Rabs (val w - SFval v) <= om53 ->
  fin53 (dist w v) /\ Rabs (SFval (dist w v) - Rabs (val w - SFval v)) <= u53 * Rabs (val w - SFval v).

Lemma conv_D : conv_ok fin53 SFval 0 toD.
Proof. intros v Hv _. split; [exact Hv|]. unfold toD. rewrite Rminus_eq_0, Rabs_R0. lra. Qed.
Lemma dist_D : dist_ok fin53 SFval distD.
Proof.
  intros w v Hw Hv Ho. destruct (SFsub_spec 53 1024 p53 e53 w v Hw Hv Ho) as [H1 H2]. unfold distD.
  destruct (SFabs_spec 53 1024 _ H1) as [H3 H4]. split; [exact H3|]. rewrite H4. eapply Rle_trans; [apply Rabs_triang_inv2|exact H2].
Qed.
Lemma conv_F : conv_ok (SFfin 24 128) SFval (SFu 24) toF.
Proof.
  intros v Hv Hb. unfold toF. destruct (SFconv_spec 24 128 p24 e24 53 1024 v Hv) as [H1 H2].
  - eapply Rle_trans; [exact Hb|]. unfold SFom. fold (bpow (128 - 24)). apply Rle_trans with (1 * bpow (128 - 24)).
    + rewrite Rmult_1_l, (bpow_IZR (128 - 24)) by lia. rewrite pow_IZR. apply IZR_le. vm_compute. discriminate.
    + apply Rmult_le_compat_r; [left; apply bpow_pos|]. apply IZR_le. lia.
  - split; [exact H1|]. eapply Rle_trans; [exact H2|]. apply Rmult_le_compat_l; [left; apply bpow_pos|].
    assert (SFmu 128 <= 1); [|lra]. unfold SFmu. change 1 with (bpow 0). apply bpow_mono. lia.
Qed.
Lemma widen_exact w : SFfin 24 128 w -> fin53 (SFconv 53 1024 w) /\ SFval (SFconv 53 1024 w) = SFval w.
Proof.
  destruct w as [s|s| |s m e]; cbn [SFfin]; intros H; try contradiction; [split; [exact I|reflexivity]|]. cbn [SFconv].
  assert (E : binary_normalize 53 1024 (cond_Zopp s (Zpos m)) e s = binary_round 53 1024 s m e) by (destruct s; reflexivity). rewrite E.
  pose proof (mant_bound 24 128 p24 m e H) as B. destruct (bounded_elim 24 128 m e H) as (_ & H2 & H3).
  destruct (binary_round_gen 53 1024 p53 e53 s m e) as (K1 & _ & K3).
  - unfold SFom. fold (bpow (1024 - 53)). apply Rmult_le_compat; [apply IZR_le; lia|left; apply bpow_pos| |apply bpow_mono; lia].
    apply IZR_le. change (2 ^ 24)%Z with 16777216%Z in B. change (2 ^ 53 - 1)%Z with 9007199254740991%Z. lia.
  - split; [exact K1|]. rewrite K3, finite_val; [reflexivity|]. pose proof (digits_le m 24 ltac:(lia) B). rewrite fexp_max. lia.
Qed.
Lemma dist_F : dist_ok (SFfin 24 128) SFval distF.
Proof.
  intros w v Hw Hv Ho. destruct (widen_exact w Hw) as [H1 H2]. rewrite <- H2 in Ho |- *. apply dist_D; assumption.
Qed.

(** ** the maximum *)
Lemma maxof_val l : Forall fin53 l ->
  fin53 (maxof dgt dzero l) /\ SFval (maxof dgt dzero l) = maxof Rgtb 0 (map SFval l).
Proof.
  intros H. unfold maxof. assert (G : forall l e, Forall fin53 l -> fin53 e ->
    fin53 (fold_left (fun e d => if dgt d e then d else e) l e) /\
    SFval (fold_left (fun e d => if dgt d e then d else e) l e) = fold_left (fun e d => if Rgtb d e then d else e) (map SFval l) (SFval e)).
  { clear. induction l as [|d l IH]; intros e Hl He; [split; [exact He|reflexivity]|]. cbn [fold_left map]. inversion Hl as [|x y Hd Hl']; subst.
    rewrite (dgt_spec d e Hd He). destruct (Rgtb (SFval d) (SFval e)); apply IH; assumption. }
  destruct (G l dzero H I) as [A B]. split; [exact A|exact B].
Qed.
(** each element off by a factor 1+-u: so is the largest *)
Lemma worst_near {I : Type} (S : I -> Prop) (x y : I -> R) u e E : 0 <= u <= 1 ->
  (forall i, S i -> 0 <= x i /\ Rabs (y i - x i) <= u * x i) ->
  worst (fun d => exists i, S i /\ d = y i) e -> worst (fun d => exists i, S i /\ d = x i) E -> Rabs (e - E) <= u * E.
Proof.
  intros Hu H (A1 & A2 & A3) (B1 & B2 & B3).
  assert (U1 : e <= (1 + u) * E).
  { destruct A3 as [-> | (i & Hi & ->)]; [nra|]. destruct (H i Hi) as (H1 & H2). apply Rabs_le_inv' in H2.
    assert (x i <= E) by (apply B2; eauto). nra. }
  assert (U2 : (1 - u) * E <= e).
  { destruct B3 as [-> | (i & Hi & ->)]; [nra|]. destruct (H i Hi) as (H1 & H2). apply Rabs_le_inv' in H2.
    assert (y i <= e) by (apply A2; eauto). nra. }
  apply Rabs_le. lra.
Qed.

Lemma u53_small : 0 <= u53 <= 1.
Proof. rewrite u_val. lra. Qed.

(** ** what validate reports *)
Section Report.
Context {F : Type} (fin : F -> Prop) (val : F -> R) (dist : F -> spec_float -> spec_float).
Hypothesis HD : dist_ok fin val dist.

Lemma report n (len : nat -> Z) (a : nat -> Z -> F) (v : nat -> Z -> spec_float) :
  (forall r i, (r < n)%nat -> (0 <= i < len r)%Z -> fin (a r i) /\ fin53 (v r i) /\ Rabs (val (a r i) - SFval (v r i)) <= om53) ->
  let e := maxof dgt dzero (map (fun r => dev dist dgt dzero (a r) (v r) (len r)) (seq 0 n)) in
  exists E, fin53 e /\ worst (fun d => exists r i, (r < n)%nat /\ (0 <= i < len r)%Z /\ d = Rabs (val (a r i) - SFval (v r i))) E /\
    Rabs (SFval e - E) <= u53 * E.
Proof.
  intros H e.
  assert (HF : forall r, (r < n)%nat -> Forall fin53 (map (fun i => dist (a r i) (v r i)) (zrange (len r)))).
  { intros r Hr. apply Forall_forall. intros d Hd. apply in_map_iff in Hd. destruct Hd as (i & <- & Hi). apply In_zrange in Hi.
    destruct (H r i Hr Hi) as (A & B & C). apply HD; assumption. }
  destruct (maxof_val (map (fun r => dev dist dgt dzero (a r) (v r) (len r)) (seq 0 n))) as (F1 & F2).
  { apply Forall_forall. intros d Hd. apply in_map_iff in Hd. destruct Hd as (r & <- & Hr). apply in_seq in Hr. apply maxof_val, HF. lia. }
  fold e in F1, F2. rewrite map_map in F2.
  assert (G : forall (g : nat -> Z -> R), (forall r i, (r < n)%nat -> (0 <= i < len r)%Z -> 0 <= g r i) ->
    worst (fun d => exists r, (r < n)%nat /\ exists i, (0 <= i < len r)%Z /\ d = g r i) (maxof Rgtb 0 (map (fun r => maxof Rgtb 0 (map (g r) (zrange (len r)))) (seq 0 n)))).
  { intros g Hg. apply (worst_all n (fun r d => exists i, (0 <= i < len r)%Z /\ d = g r i)). intros r Hr. apply worst_maxof.
    - apply Forall_forall. intros d Hd. apply in_map_iff in Hd. destruct Hd as (i & <- & Hi). apply In_zrange in Hi. auto.
    - intros d. rewrite in_map_iff. split; [intros (i & Hi & ->); exists i; split; [reflexivity|apply In_zrange, Hi]|].
      intros (i & <- & Hi). exists i. split; [apply In_zrange, Hi|reflexivity]. }
  assert (Hd : forall r i, (r < n)%nat -> (0 <= i < len r)%Z -> 0 <= SFval (dist (a r i) (v r i))).
  { intros r i Hr Hi. destruct (H r i Hr Hi) as (A & B & C). destruct (HD _ _ A B C) as (_ & D). apply Rabs_le_inv' in D.
    pose proof (Rabs_pos (val (a r i) - SFval (v r i))). pose proof u53_small. nra. }
  pose proof (G (fun r i => SFval (dist (a r i) (v r i))) Hd) as W1.
  pose proof (G (fun r i => Rabs (val (a r i) - SFval (v r i))) (fun r i _ _ => Rabs_pos _)) as W2.
  set (E := maxof Rgtb 0 (map (fun r => maxof Rgtb 0 (map (fun i => Rabs (val (a r i) - SFval (v r i))) (zrange (len r)))) (seq 0 n))) in *.
  exists E. split; [exact F1|]. split.
  - destruct W2 as (A & B & C). split; [exact A|]. split; [intros d (r & i & Hr & Hi & Ed); apply B; eauto|]. destruct C as [C | (r & Hr & i & Hi & C)]; [left; exact C|right; eauto].
  - set (S := fun ri : nat * Z => (fst ri < n)%nat /\ (0 <= snd ri < len (fst ri))%Z).
    apply (worst_near S (fun ri => Rabs (val (a (fst ri) (snd ri)) - SFval (v (fst ri) (snd ri)))) (fun ri => SFval (dist (a (fst ri) (snd ri)) (v (fst ri) (snd ri)))) u53).
    + exact u53_small.
    + intros (r, i) (Hr & Hi). cbn [fst snd] in *. split; [apply Rabs_pos|]. destruct (H r i Hr Hi) as (A & B & C). apply HD; assumption.
    + assert (Ee : SFval e = maxof Rgtb 0 (map (fun r => maxof Rgtb 0 (map (fun i => SFval (dist (a r i) (v r i))) (zrange (len r)))) (seq 0 n))).
      { rewrite F2. f_equal. apply map_ext_in. intros r Hr. apply in_seq in Hr. unfold dev. rewrite (proj2 (maxof_val _ (HF r ltac:(lia)))), map_map. reflexivity. }
      rewrite Ee. destruct W1 as (A & B & C). split; [exact A|]. split.
      * intros d ((r, i) & (Hr & Hi) & ->). apply B. cbn [fst snd] in *. eauto.
      * destruct C as [C | (r & Hr & i & Hi & C)]; [left; exact C|right; exists (r, i); split; [split; assumption|exact C]].
    + destruct W2 as (A & B & C). split; [exact A|]. split.
      * intros d ((r, i) & (Hr & Hi) & ->). apply B. cbn [fst snd] in *. eauto.
      * destruct C as [C | (r & Hr & i & Hi & C)]; [left; exact C|right; exists (r, i); split; [split; assumption|exact C]].
Qed.

(** the values initialize() computes are finite and of moderate size *)
Definition top3 (k : init) (N : Z * Z * Z) : Z :=
  match k with ZERO => 0 | INDEX => let '(x, y, z) := N in x + y + z - 2 | _ => 1 end%Z.
Definition top2 (k : init) (N : Z * Z) : Z :=
  match k with ZERO => 0 | INDEX => let '(x, y) := N in x + y - 1 | _ => 1 end%Z.
Lemma want_fin3 k seed N b p q : ints3 N -> inb3 p (grid3 N) -> inb3 p b -> (0 <= q < 2)%Z -> seed_ok k seed ->
  fin53 (want3 dint drand k seed N b p q) /\ Rabs (SFval (want3 dint drand k seed N b p q)) <= IZR (top3 k N).
Proof.
  intros HI Hg Hp Hq Hs. destruct N as [[nx ny] nz], p as [[x y] z]. destruct HI as (I1 & I2 & I3). unfold INT_MAX in *. cbn in Hg.
  assert (V : k <> RANDOM -> (0 <= value3 k (nx, ny, nz) (x, y, z) <= top3 k (nx, ny, nz))%Z).
  { intros Hk. destruct k; cbn [value3 top3]; try lia; try congruence. destruct (_ && _ && _)%bool; lia. }
  assert (T : k <> RANDOM -> (top3 k (nx, ny, nz) < 2 ^ 40)%Z).
  { intros Hk. change (2 ^ 40)%Z with 1099511627776%Z. destruct k; cbn [top3]; lia || congruence. }
  assert (X : k <> RANDOM -> fin53 (want3 dint drand k seed (nx, ny, nz) b (x, y, z) q) /\ Rabs (SFval (want3 dint drand k seed (nx, ny, nz) b (x, y, z) q)) <= IZR (top3 k (nx, ny, nz))).
  { intros Hk. specialize (V Hk). specialize (T Hk).
    assert (Ew : want3 dint drand k seed (nx, ny, nz) b (x, y, z) q = dint (if (q =? 0)%Z then value3 k (nx, ny, nz) (x, y, z) else 0%Z)) by (destruct k; congruence || reflexivity).
    rewrite Ew. set (c := if (q =? 0)%Z then _ else _). assert (Hc : (0 <= c <= top3 k (nx, ny, nz))%Z) by (unfold c; destruct (q =? 0)%Z; lia).
    destruct (dint_exact c) as (A & B); [change (2 ^ 40)%Z with 1099511627776%Z in T; change (2 ^ 53)%Z with 9007199254740992%Z; lia|].
    split; [exact A|]. rewrite B. rewrite Rabs_right by (apply Rle_ge, IZR_le; lia). apply IZR_le. lia. }
  destruct k; try (apply X; discriminate). cbn [want3 top3]. apply drand_spec. apply lehmer_range; [apply Hs; reflexivity|].
  pose proof (pos3_psize 0 b (x, y, z) (or_introl eq_refl) Hp). lia.
Qed.
Lemma want_fin2 k seed N b p q : ints2 N -> inb2 p (grid2 N) -> inb2 p b -> (0 <= q < 2)%Z -> seed_ok k seed ->
  fin53 (want2 dint drand k seed N b p q) /\ Rabs (SFval (want2 dint drand k seed N b p q)) <= IZR (top2 k N).
Proof.
  intros HI Hg Hp Hq Hs. destruct N as [nx ny], p as [x y]. destruct HI as (I1 & I2). unfold INT_MAX in *. cbn in Hg.
  assert (V : k <> RANDOM -> (0 <= value2 k (nx, ny) (x, y) <= top2 k (nx, ny))%Z).
  { intros Hk. destruct k; cbn [value2 top2]; try lia; try congruence. destruct (_ && _)%bool; lia. }
  assert (T : k <> RANDOM -> (top2 k (nx, ny) < 2 ^ 40)%Z).
  { intros Hk. change (2 ^ 40)%Z with 1099511627776%Z. destruct k; cbn [top2]; lia || congruence. }
  assert (X : k <> RANDOM -> fin53 (want2 dint drand k seed (nx, ny) b (x, y) q) /\ Rabs (SFval (want2 dint drand k seed (nx, ny) b (x, y) q)) <= IZR (top2 k (nx, ny))).
  { intros Hk. specialize (V Hk). specialize (T Hk).
    assert (Ew : want2 dint drand k seed (nx, ny) b (x, y) q = dint (if (q =? 0)%Z then value2 k (nx, ny) (x, y) else 0%Z)) by (destruct k; congruence || reflexivity).
    rewrite Ew. set (c := if (q =? 0)%Z then _ else _). assert (Hc : (0 <= c <= top2 k (nx, ny))%Z) by (unfold c; destruct (q =? 0)%Z; lia).
    destruct (dint_exact c) as (A & B); [change (2 ^ 40)%Z with 1099511627776%Z in T; change (2 ^ 53)%Z with 9007199254740992%Z; lia|].
    split; [exact A|]. rewrite B. rewrite Rabs_right by (apply Rle_ge, IZR_le; lia). apply IZR_le. lia. }
  destruct k; try (apply X; discriminate). cbn [want2 top2]. apply drand_spec. apply lehmer_range; [apply Hs; reflexivity|].
  pose proof (pos2_psize 0 b (x, y) (or_introl eq_refl) Hp). lia.
Qed.
Lemma validateD3_all (d0 : F) k sd N n (ins : nat -> box3) (w : nat -> list F) : ints3 N ->
  (forall r, (r < n)%nat -> legal3 (ins r) /\ (forall p, inb3 p (ins r) -> inb3 p (grid3 N)) /\ seed_ok k (sd r)) ->
  (forall r p q, (r < n)%nat -> inb3 p (ins r) -> (0 <= q < 2)%Z -> exists a, zget (w r) (cell3 2 0 (ins r) p q) = Some a /\ fin a /\
     Rabs (val a - SFval (want3 dint drand k (sd r) N (ins r) p q)) <= om53) ->
  exists e E, allmax dgt dzero n (fun r => validate3 dint drand dist dgt dzero k (sd r) N (ins r) (w r)) = Some e /\ fin53 e /\
    worst (fun d => exists r p q a, (r < n)%nat /\ inb3 p (ins r) /\ (0 <= q < 2)%Z /\ zget (w r) (cell3 2 0 (ins r) p q) = Some a /\
             d = Rabs (val a - SFval (want3 dint drand k (sd r) N (ins r) p q))) E /\
    Rabs (SFval e - E) <= u53 * E.
Proof.
  intros HI H Hw. set (a := fun r => readsof (w r) d0).
  assert (J : forall r i, (r < n)%nat -> (0 <= i < 2 * psize3 (ins r))%Z -> exists p q, inb3 p (ins r) /\ (0 <= q < 2)%Z /\ cell3 2 0 (ins r) p q = i /\
    zget (w r) i = Some (a r i) /\ fin (a r i) /\ fin53 (wanti3 dint drand k (sd r) N (ins r) i) /\
    wanti3 dint drand k (sd r) N (ins r) i = want3 dint drand k (sd r) N (ins r) p q /\
    Rabs (val (a r i) - SFval (wanti3 dint drand k (sd r) N (ins r) i)) <= om53).
  { intros r i Hr Hi. destruct (H r Hr) as (Hl & Hg & Hs). destruct (cell3_at (ins r) i Hl Hi) as (A & B & C).
    destruct (Hw r _ _ Hr A B) as (b & E1 & E2 & E3). exists (pt_at3 (ins r) (i / 2)), (i mod 2)%Z. rewrite C in E1.
    assert (Ew : wanti3 dint drand k (sd r) N (ins r) i = want3 dint drand k (sd r) N (ins r) (pt_at3 (ins r) (i / 2)) (i mod 2)).
    { rewrite <- (wanti3_ok dint drand k (sd r) N (ins r) _ _ (Hg _ A) A B), C. reflexivity. }
    rewrite Ew. unfold a, readsof. rewrite E1. destruct (want_fin3 k (sd r) N (ins r) _ _ HI (Hg _ A) A B Hs). auto 10. }
  destruct (report n (fun r => 2 * psize3 (ins r))%Z a (fun r => wanti3 dint drand k (sd r) N (ins r))) as (E & F1 & W & F2).
  { intros r i Hr Hi. destruct (J r i Hr Hi) as (p & q & _ & _ & _ & _ & A & B & _ & C). auto. }
  eexists. exists E. split; [|split; [exact F1|]; split; [|exact F2]].
  - apply allmax_ok. intros r Hr. destruct (H r Hr) as (Hl & Hg & Hs). apply validate3_ok; [exact Hl| |exact Hs].
    intros i Hi. destruct (J r i Hr Hi) as (p & q & _ & _ & _ & A & _). exact A.
  - destruct W as (A & B & C). split; [exact A|]. split.
    + intros d (r & p & q & b & Hr & Hp & Hq & Eb & ->). apply B. exists r, (cell3 2 0 (ins r) p q). split; [exact Hr|]. split; [apply cell3_lt; assumption|].
      destruct (H r Hr) as (Hl & Hg & Hs). rewrite wanti3_ok by auto. unfold a, readsof. rewrite Eb. reflexivity.
    + destruct C as [C | (r & i & Hr & Hi & C)]; [left; exact C|right]. destruct (J r i Hr Hi) as (p & q & Hp & Hq & Ec & Eb & _ & _ & Ew & _).
      exists r, p, q, (a r i). rewrite Ec, <- Ew. auto.
Qed.
Lemma validateD2_all (d0 : F) k sd N n (ins : nat -> box2) (w : nat -> list F) : ints2 N ->
  (forall r, (r < n)%nat -> legal2 (ins r) /\ (forall p, inb2 p (ins r) -> inb2 p (grid2 N)) /\ seed_ok k (sd r)) ->
  (forall r p q, (r < n)%nat -> inb2 p (ins r) -> (0 <= q < 2)%Z -> exists a, zget (w r) (cell2 2 0 (ins r) p q) = Some a /\ fin a /\
     Rabs (val a - SFval (want2 dint drand k (sd r) N (ins r) p q)) <= om53) ->
  exists e E, allmax dgt dzero n (fun r => validate2 dint drand dist dgt dzero k (sd r) N (ins r) (w r)) = Some e /\ fin53 e /\
    worst (fun d => exists r p q a, (r < n)%nat /\ inb2 p (ins r) /\ (0 <= q < 2)%Z /\ zget (w r) (cell2 2 0 (ins r) p q) = Some a /\
             d = Rabs (val a - SFval (want2 dint drand k (sd r) N (ins r) p q))) E /\
    Rabs (SFval e - E) <= u53 * E.
Proof.
  intros HI H Hw. set (a := fun r => readsof (w r) d0).
  assert (J : forall r i, (r < n)%nat -> (0 <= i < 2 * psize2 (ins r))%Z -> exists p q, inb2 p (ins r) /\ (0 <= q < 2)%Z /\ cell2 2 0 (ins r) p q = i /\
    zget (w r) i = Some (a r i) /\ fin (a r i) /\ fin53 (wanti2 dint drand k (sd r) N (ins r) i) /\
    wanti2 dint drand k (sd r) N (ins r) i = want2 dint drand k (sd r) N (ins r) p q /\
    Rabs (val (a r i) - SFval (wanti2 dint drand k (sd r) N (ins r) i)) <= om53).
  { intros r i Hr Hi. destruct (H r Hr) as (Hl & Hg & Hs). destruct (cell2_at (ins r) i Hl Hi) as (A & B & C).
    destruct (Hw r _ _ Hr A B) as (b & E1 & E2 & E3). exists (pt_at2 (ins r) (i / 2)), (i mod 2)%Z. rewrite C in E1.
    assert (Ew : wanti2 dint drand k (sd r) N (ins r) i = want2 dint drand k (sd r) N (ins r) (pt_at2 (ins r) (i / 2)) (i mod 2)).
    { rewrite <- (wanti2_ok dint drand k (sd r) N (ins r) _ _ (Hg _ A) A B), C. reflexivity. }
    rewrite Ew. unfold a, readsof. rewrite E1. destruct (want_fin2 k (sd r) N (ins r) _ _ HI (Hg _ A) A B Hs). auto 10. }
  destruct (report n (fun r => 2 * psize2 (ins r))%Z a (fun r => wanti2 dint drand k (sd r) N (ins r))) as (E & F1 & W & F2).
  { intros r i Hr Hi. destruct (J r i Hr Hi) as (p & q & _ & _ & _ & _ & A & B & _ & C). auto. }
  eexists. exists E. split; [|split; [exact F1|]; split; [|exact F2]].
  - apply allmax_ok. intros r Hr. destruct (H r Hr) as (Hl & Hg & Hs). apply validate2_ok; [exact Hl| |exact Hs].
    intros i Hi. destruct (J r i Hr Hi) as (p & q & _ & _ & _ & A & _). exact A.
  - destruct W as (A & B & C). split; [exact A|]. split.
    + intros d (r & p & q & b & Hr & Hp & Hq & Eb & ->). apply B. exists r, (cell2 2 0 (ins r) p q). split; [exact Hr|]. split; [apply cell2_lt; assumption|].
      destruct (H r Hr) as (Hl & Hg & Hs). rewrite wanti2_ok by auto. unfold a, readsof. rewrite Eb. reflexivity.
    + destruct C as [C | (r & i & Hr & Hi & C)]; [left; exact C|right]. destruct (J r i Hr Hi) as (p & q & Hp & Hq & Ec & Eb & _ & _ & Ew & _).
      exists r, p, q, (a r i). rewrite Ec, <- Ew. auto.
Qed.
End Report.
