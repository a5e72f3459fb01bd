(** RoundFft.v : rounding error of 1d, 2d and 3d transforms. *)

From Coq Require Import Reals Lra Psatz.
From Verif Require Import Base Spec Pack3d Pack2d Sched SchedProofs Phases Exec Remap RemapMain RemapInst
  Remap3d Remap2d RemapThms RemapTop Layout LayoutProofs Setup3d Setup3dProofs Setup2d Setup2dProofs LayoutFinal Kiss KissPure KissAlg KissFactor KissReal Fft1d KissFinal
  Fft3d Frame Fft3dProofs Fft3dMain DftMulti Fft3dTop Fft3dFinal Fft2d Fft2dMain Fft2dTop Fft2dFinal Round RoundKiss.
Local Open Scope R_scope.

(** ** specification *)
(** the twiddle table of length L is accurate up to t roundings (of numbers of modulus 1) *)
Definition table_ok {F} (u : R) (val : F -> R) (fin : F -> Prop) (t : nat) (cexp : bool -> Z -> Z -> F * F) (inv : bool) (L : Z) : Prop :=
  forall i, (0 <= i < L)%Z -> cfin fin (cexp inv i L) /\
  cdist (cval val (cexp inv i L)) (cos (angle inv L i 1), sin (angle inv L i 1)) <= (1 + u) ^ t - 1.

(** the number of successive roundings between an input and an output of a 1d transform of length L *)
Definition roundings (t : nat) (L : Z) : nat :=
  match kf_factor L with Some facs => facs_cost t facs | None => 0 end.

Definition abs_sum1 (n : Z) (x : Z -> R * R) : R := sum1 n (fun a => cmod (x a)).
Definition abs_sum2 (N : Z * Z) (x : pt2 -> R * R) : R := sum2 (fst N) (snd N) (fun a b => cmod (x (a, b))).
Definition abs_sum3 (N : Z * Z * Z) (x : pt3 -> R * R) : R :=
  sum3 (fst (fst N)) (snd (fst N)) (snd N) (fun a b c => cmod (x (a, b, c))).

(** ** proofs *)
Lemma rsum_sum1 n f : (1 <= n)%Z -> rsum n f = sum1 n f.
Proof.
  intros Hn. unfold rsum, sum1. replace (Z.to_nat n) with (S (Z.to_nat (n - 1))) by lia.
  induction (Z.to_nat (n - 1)) as [|m IH]; [cbn; ring|].
  cbn [nrsum sum_f_R0] in *. rewrite <- IH. reflexivity.
Qed.

Lemma rsum_swap n m (f : Z -> Z -> R) : rsum n (fun i => rsum m (fun j => f i j)) = rsum m (fun j => rsum n (fun i => f i j)).
Proof.
  pose proof (csum_swap Rops Rlaws n m (fun i j => (f i j, 0))) as H.
  rewrite (csum_ext Rops n _ (fun i => (rsum m (fun j => f i j), 0))) in H by (intros; apply rsum_csum).
  rewrite (csum_ext Rops m _ (fun j => (rsum n (fun i => f i j), 0))) in H by (intros; apply rsum_csum).
  rewrite !rsum_csum in H. now injection H.
Qed.

Section Err.
Context {F : Type}.
Variables u mu om : R.
Variable O : sops F.
Variable val : F -> R.
Variable fin : F -> Prop.
Hypothesis RO : rounding u mu om O val fin.
Variable t : nat.
Variable cexp : bool -> Z -> Z -> F * F.
Local Notation pw k := ((1 + u) ^ k).
Local Notation near := (near u val fin).
Local Notation pw_1 := (pw_1 u mu om O val fin RO).
Local Notation pw_le := (pw_le u mu om O val fin RO).

Lemma guard_le K k S B : pw K * (4 * S) <= om -> (k <= K)%nat -> 0 <= B <= S -> pw k * (4 * B) <= om.
Proof.
  intros H Hk HB. eapply Rle_trans; [|exact H]. apply Rmult_le_compat; try lra.
  - pose proof (pw_1 k). lra.
  - apply pw_le, Hk.
Qed.

Lemma line_near L inv st k S x x' j : plan_for cexp L inv st -> table_ok u val fin t cexp inv L -> (0 <= j < L)%Z ->
  (forall i, (0 <= i < L)%Z -> near k (S i) (x i) (x' i) /\ 32 * mu <= S i) ->
  pw (k + roundings t L) * (4 * rsum L S) <= om ->
  near (k + roundings t L) (rsum L S) (lineT O st x j) (DFT inv L x' j).
Proof.
  intros (HL & E) Ht Hj Hx Hf.
  destruct (alloc_ok O cexp L inv HL) as (st1 & E1 & A1 & A2 & A3 & A4 & A5). assert (st1 = st) by congruence. subst st1.
  destruct (alloc_ok Rops cexpR L inv HL) as (stR & E2 & B1 & B2 & B3 & B4 & B5).
  assert (EF : k_factors stR = k_factors st /\ roundings t L = facs_cost t (k_factors st)).
  { unfold roundings. clear - E E2. unfold kiss_fft_alloc in *. destruct (kf_factor L) as [facs|]; [|discriminate]. cbn [bind] in *.
    injection E as <-. injection E2 as <-. cbn [k_factors]. auto. }
  destruct EF as (EF & EC). rewrite EC in *.
  replace (DFT inv L x' j) with (wk Rops stR (k_factors st) 1 x' j).
  - unfold lineT. apply (wk_err u mu om O val fin RO t inv L ltac:(lia) st stR A1 B1 A2 B2); auto; try lia.
    intros i Hi. rewrite A5 by exact Hi. destruct (Ht i Hi) as (F1 & F2). split; [exact F1|]. unfold cexpR. rewrite angle_phase, Z.mul_1_r in F2. rewrite Rmult_1_r. exact F2.
  - rewrite <- EF. rewrite (wk_real L inv stR x' j) by (auto; lia). apply DFT_dft. lia.
Qed.

(** *** three dimensions *)
Definition cost3 (N : Z * Z * Z) : nat := roundings t (fst (fst N)) + roundings t (snd (fst N)) + roundings t (snd N).
Definition ssum3 (N : Z * Z * Z) (S : pt3 -> R) : R :=
  rsum (snd N) (fun c => rsum (snd (fst N)) (fun b => rsum (fst (fst N)) (fun a => S (a, b, c)))).
Definition tables3 (N : Z * Z * Z) (inv : bool) : Prop :=
  table_ok u val fin t cexp inv (fst (fst N)) /\ table_ok u val fin t cexp inv (snd (fst N)) /\ table_ok u val fin t cexp inv (snd N).

Section Three.
Variables (n : nat) (sts : settings) (N : Z * Z * Z) (permute : Z) (ins outs : nat -> box3) (f : fft3) (P : @plans3 F).
Hypothesis FA : facts3 n sts N permute ins outs f.
Hypothesis HI : ints3 N.
Hypothesis HP : setup_ffts3 cexp N = Some P.

Lemma fwd_near flag k S G G' p : tables3 N (negb (flag =? FORWARD)%Z) ->
  (forall q, in_grid N q -> near k (S q) (G q) (G' q) /\ 32 * mu <= S q) ->
  pw (k + cost3 N) * (4 * ssum3 N S) <= om -> in_grid N p ->
  near (k + cost3 N) (ssum3 N S) (fwd_val O P false flag G p) (DFT3 (negb (flag =? FORWARD)%Z) N G' p).
Proof.
  intros (T1 & T2 & T3) HG Hf Hp. destruct (plans_ok O cexp n sts N permute ins outs f P FA HI HP flag) as (H1 & H2 & H3).
  unfold cost3, ssum3 in *. destruct N as [[n1 n2] n3]. destruct p as [[i j] l]. cbn in Hp. cbn [fst snd] in *.
  set (inv := negb (flag =? FORWARD)%Z) in *.
  assert (HG' : forall a b c, (0 <= a < n1)%Z -> (0 <= b < n2)%Z -> (0 <= c < n3)%Z ->
     near k (S (a, b, c)) (G (a, b, c)) (G' (a, b, c)) /\ 32 * mu <= S (a, b, c) /\ 0 <= S (a, b, c)).
  { intros a b c Ha Hb Hc. destruct (HG (a, b, c)) as (X & Y); [cbn; lia|]. split; [exact X|]. split; [exact Y|]. exact (near_B _ _ _ _ _ _ _ X). }
  set (S1 := fun b c => rsum n1 (fun a => S (a, b, c))) in *. set (S2 := fun c => rsum n2 (fun b => S1 b c)) in *.
  change (rsum n3 (fun c => rsum n2 (fun b => rsum n1 (fun a => S (a, b, c))))) with (rsum n3 S2) in *.
  assert (P1 : forall b c, (0 <= b < n2)%Z -> (0 <= c < n3)%Z -> 0 <= S1 b c /\ 32 * mu <= S1 b c).
  { intros b c Hb Hc. split; [apply rsum_pos; intros a Ha; apply HG'; lia|].
    eapply Rle_trans; [apply (HG' 0%Z b c); lia|]. apply (rsum_elem n1 (fun a => S (a, b, c)) 0%Z); [intros a Ha; apply HG'; lia|lia]. }
  assert (P2 : forall c, (0 <= c < n3)%Z -> 0 <= S2 c /\ 32 * mu <= S2 c).
  { intros c Hc. split; [apply rsum_pos; intros b Hb; apply P1; lia|].
    eapply Rle_trans; [apply (P1 0%Z c); lia|]. apply (rsum_elem n2 (fun b => S1 b c) 0%Z); [intros b Hb; apply P1; lia|lia]. }
  assert (U2 : forall c, (0 <= c < n3)%Z -> S2 c <= rsum n3 S2) by (intros c Hc; apply rsum_elem; [intros; apply P2; assumption|assumption]).
  assert (U1 : forall b c, (0 <= b < n2)%Z -> (0 <= c < n3)%Z -> S1 b c <= rsum n3 S2).
  { intros b c Hb Hc. eapply Rle_trans; [|apply (U2 c Hc)]. apply (rsum_elem n2 (fun b => S1 b c)); [intros; apply P1; assumption|assumption]. }
  unfold fwd_val, may, along. cbn [Z.eqb]. rewrite <- DFT3_fwd by lia.
  replace (k + (roundings t n1 + roundings t n2 + roundings t n3))%nat with (k + roundings t n1 + roundings t n2 + roundings t n3)%nat in * by lia.
  apply (line_near n3 inv _ _ S2); auto; [lia|]. intros c Hc. split; [|apply P2, Hc].
  apply (line_near n2 inv _ _ (fun b => S1 b c)); auto; [lia| |].
  2:{ eapply guard_le; [exact Hf|lia|]. split; [apply P2, Hc|apply U2, Hc]. }
  intros b Hb. split; [|apply P1; assumption].
  apply (line_near n1 inv _ _ (fun a => S (a, b, c))); auto; [lia| |].
  2:{ eapply guard_le; [exact Hf|lia|]. split; [apply P1; assumption|apply U1; assumption]. }
  intros a Ha. split; apply HG'; assumption.
Qed.

Lemma bwd_near flag k S G G' p : tables3 N (negb (flag =? FORWARD)%Z) ->
  (forall q, in_grid N q -> near k (S q) (G q) (G' q) /\ 32 * mu <= S q) ->
  pw (k + cost3 N) * (4 * ssum3 N S) <= om -> in_grid N p ->
  near (k + cost3 N) (ssum3 N S) (bwd_val O P false flag G p) (DFT3 (negb (flag =? FORWARD)%Z) N G' p).
Proof.
  intros (T1 & T2 & T3) HG Hf Hp. destruct (plans_ok O cexp n sts N permute ins outs f P FA HI HP flag) as (H1 & H2 & H3).
  unfold cost3, ssum3 in *. destruct N as [[n1 n2] n3]. destruct p as [[i j] l]. cbn in Hp. cbn [fst snd] in *.
  set (inv := negb (flag =? FORWARD)%Z) in *.
  assert (HG' : forall a b c, (0 <= a < n1)%Z -> (0 <= b < n2)%Z -> (0 <= c < n3)%Z ->
     near k (S (a, b, c)) (G (a, b, c)) (G' (a, b, c)) /\ 32 * mu <= S (a, b, c) /\ 0 <= S (a, b, c)).
  { intros a b c Ha Hb Hc. destruct (HG (a, b, c)) as (X & Y); [cbn; lia|]. split; [exact X|]. split; [exact Y|]. exact (near_B _ _ _ _ _ _ _ X). }
  assert (SW : rsum n3 (fun c => rsum n2 (fun b => rsum n1 (fun a => S (a, b, c)))) = rsum n1 (fun a => rsum n2 (fun b => rsum n3 (fun c => S (a, b, c))))).
  { rewrite (rsum_swap n3 n2). rewrite (rsum_ext n2 _ (fun b => rsum n1 (fun a => rsum n3 (fun c => S (a, b, c))))) by (intros; apply rsum_swap).
    apply (rsum_swap n2 n1). }
  rewrite SW in *. clear SW.
  set (S1 := fun a b => rsum n3 (fun c => S (a, b, c))) in *. set (S2 := fun a => rsum n2 (fun b => S1 a b)) in *.
  change (rsum n1 (fun a => rsum n2 (fun b => rsum n3 (fun c => S (a, b, c))))) with (rsum n1 S2) in *.
  assert (P1 : forall a b, (0 <= a < n1)%Z -> (0 <= b < n2)%Z -> 0 <= S1 a b /\ 32 * mu <= S1 a b).
  { intros a b Ha Hb. split; [apply rsum_pos; intros c Hc; apply HG'; lia|].
    eapply Rle_trans; [apply (HG' a b 0%Z); lia|]. apply (rsum_elem n3 (fun c => S (a, b, c)) 0%Z); [intros c Hc; apply HG'; lia|lia]. }
  assert (P2 : forall a, (0 <= a < n1)%Z -> 0 <= S2 a /\ 32 * mu <= S2 a).
  { intros a Ha. split; [apply rsum_pos; intros b Hb; apply P1; lia|].
    eapply Rle_trans; [apply (P1 a 0%Z); lia|]. apply (rsum_elem n2 (fun b => S1 a b) 0%Z); [intros b Hb; apply P1; lia|lia]. }
  assert (U2 : forall a, (0 <= a < n1)%Z -> S2 a <= rsum n1 S2) by (intros a Ha; apply rsum_elem; [intros; apply P2; assumption|assumption]).
  assert (U1 : forall a b, (0 <= a < n1)%Z -> (0 <= b < n2)%Z -> S1 a b <= rsum n1 S2).
  { intros a b Ha Hb. eapply Rle_trans; [|apply (U2 a Ha)]. apply (rsum_elem n2 (fun b => S1 a b)); [intros; apply P1; assumption|assumption]. }
  unfold bwd_val, may, along. cbn [Z.eqb]. rewrite <- DFT3_bwd by lia.
  replace (k + (roundings t n1 + roundings t n2 + roundings t n3))%nat with (k + roundings t n3 + roundings t n2 + roundings t n1)%nat in * by lia.
  apply (line_near n1 inv _ _ S2); auto; [lia|]. intros a Ha. split; [|apply P2, Ha].
  apply (line_near n2 inv _ _ (fun b => S1 a b)); auto; [lia| |].
  2:{ eapply guard_le; [exact Hf|lia|]. split; [apply P2, Ha|apply U2, Ha]. }
  intros b Hb. split; [|apply P1; assumption].
  apply (line_near n3 inv _ _ (fun c => S (a, b, c))); auto; [lia| |].
  2:{ eapply guard_le; [exact Hf|lia|]. split; [apply P1; assumption|apply U1; assumption]. }
  intros c Hc. split; apply HG'; assumption.
Qed.
End Three.

(** *** scaling *)
Lemma scl_near k s B c (m : Z) v z : (1 <= m)%Z -> fin c -> Rabs (val c - / IZR m) <= (pw s - 1) * / IZR m ->
  2 * mu <= B * / IZR m -> near k B v z -> pw (k + s) * (4 * B) <= om ->
  near (k + s + 2) (B * / IZR m) (scl O c v) (rmulc (/ IZR m) z).
Proof.
  intros Hm Fc Hc Hmu Hv0 Hf. pose proof (near_B _ _ _ _ _ _ _ Hv0) as B0. destruct Hv0 as (Fv & Hv).
  assert (M0 : 0 < / IZR m) by (apply Rinv_0_lt_compat, IZR_lt; lia).
  assert (M1 : / IZR m <= 1) by (rewrite <- Rinv_1; apply Rinv_le_contravar; [lra|apply IZR_le; lia]).
  assert (Hs : rnear u s (/ IZR m) (val c, 0) (/ IZR m, 0)).
  { assert (K : forall x, cmod (x, 0) = Rabs x).
    { intros x. unfold cmod. cbn [fst snd]. replace (x * x + 0 * 0) with (Rsqr x) by (unfold Rsqr; ring). apply sqrt_Rsqr_abs. }
    split.
    - unfold cdist. cbn [fst snd]. replace (0 - 0) with 0 by ring. rewrite K. exact Hc.
    - rewrite K, Rabs_right by lra. lra. }
  pose proof (rnear_times u _ _ _ _ _ _ _ _ Hv Hs) as H.
  assert (E : forall z x, c_mul Rops z (x, 0) = (fst z * x, snd z * x)).
  { intros y x. unfold c_mul. cbn. f_equal; ring. }
  rewrite !E in H. replace (rmulc (/ IZR m) z) with (fst z * / IZR m, snd z * / IZR m) by (unfold rmulc; f_equal; ring).
  replace (k + s + 2)%nat with (S (S (k + s))) by lia.
  assert (Hf' : pw (k + s) * (B * / IZR m) <= om).
  { eapply Rle_trans; [|exact Hf]. apply Rmult_le_compat_l; [pose proof (pw_1 (k + s)); lra|]. nra. }
  apply (near_round_abs u mu om O val fin RO _ _ _ _ _ Hmu H).
  - apply (r_mul _ _ _ _ _ _ RO); [apply Fv|exact Fc|]. exact (size_re _ _ _ _ _ _ H Hf').
  - apply (r_mul _ _ _ _ _ _ RO); [apply Fv|exact Fc|]. exact (size_im _ _ _ _ _ _ H Hf').
Qed.

(** *** two dimensions *)
Definition cost2 (N : Z * Z) : nat := roundings t (fst N) + roundings t (snd N).
Definition ssum2 (N : Z * Z) (S : pt2 -> R) : R := rsum (snd N) (fun b => rsum (fst N) (fun a => S (a, b))).
Definition tables2 (N : Z * Z) (inv : bool) : Prop := table_ok u val fin t cexp inv (fst N) /\ table_ok u val fin t cexp inv (snd N).

Section Two.
Variables (n : nat) (sts : settings) (N : Z * Z) (permute : Z) (ins outs : nat -> box2) (f : fft2) (P : @plans2 F).
Hypothesis FA : facts2 n sts N permute ins outs f.
Hypothesis HI : ints2 N.
Hypothesis HP : setup_ffts2 cexp N = Some P.

Lemma fwd_near2 flag k S G G' p : tables2 N (negb (flag =? FORWARD)%Z) ->
  (forall q, in_grid2 N q -> near k (S q) (G q) (G' q) /\ 32 * mu <= S q) ->
  pw (k + cost2 N) * (4 * ssum2 N S) <= om -> in_grid2 N p ->
  near (k + cost2 N) (ssum2 N S) (fwd_val2 O P false flag G p) (DFT2 (negb (flag =? FORWARD)%Z) N G' p).
Proof.
  intros (T1 & T2) HG Hf Hp. destruct (plans_ok2 O cexp n sts N permute ins outs f P FA HI HP flag) as (H1 & H2).
  unfold cost2, ssum2 in *. destruct N as [n1 n2]. destruct p as [i j]. cbn in Hp. cbn [fst snd] in *.
  set (inv := negb (flag =? FORWARD)%Z) in *.
  assert (HG' : forall a b, (0 <= a < n1)%Z -> (0 <= b < n2)%Z ->
     near k (S (a, b)) (G (a, b)) (G' (a, b)) /\ 32 * mu <= S (a, b) /\ 0 <= S (a, b)).
  { intros a b Ha Hb. destruct (HG (a, b)) as (X & Y); [cbn; lia|]. split; [exact X|]. split; [exact Y|]. exact (near_B _ _ _ _ _ _ _ X). }
  set (S1 := fun b => rsum n1 (fun a => S (a, b))) in *.
  change (rsum n2 (fun b => rsum n1 (fun a => S (a, b)))) with (rsum n2 S1) in *.
  assert (P1 : forall b, (0 <= b < n2)%Z -> 0 <= S1 b /\ 32 * mu <= S1 b).
  { intros b Hb. split; [apply rsum_pos; intros a Ha; apply HG'; lia|].
    eapply Rle_trans; [apply (HG' 0%Z b); lia|]. apply (rsum_elem n1 (fun a => S (a, b)) 0%Z); [intros a Ha; apply HG'; lia|lia]. }
  assert (U1 : forall b, (0 <= b < n2)%Z -> S1 b <= rsum n2 S1) by (intros b Hb; apply rsum_elem; [intros; apply P1; assumption|assumption]).
  unfold fwd_val2, may2, along2. cbn [Z.eqb]. rewrite <- DFT2_fwd by lia.
  replace (k + (roundings t n1 + roundings t n2))%nat with (k + roundings t n1 + roundings t n2)%nat in * by lia.
  apply (line_near n2 inv _ _ S1); auto; [lia|]. intros b Hb. split; [|apply P1, Hb].
  apply (line_near n1 inv _ _ (fun a => S (a, b))); auto; [lia| |].
  2:{ eapply guard_le; [exact Hf|lia|]. split; [apply P1, Hb|apply U1, Hb]. }
  intros a Ha. split; apply HG'; assumption.
Qed.

Lemma bwd_near2 flag k S G G' p : tables2 N (negb (flag =? FORWARD)%Z) ->
  (forall q, in_grid2 N q -> near k (S q) (G q) (G' q) /\ 32 * mu <= S q) ->
  pw (k + cost2 N) * (4 * ssum2 N S) <= om -> in_grid2 N p ->
  near (k + cost2 N) (ssum2 N S) (bwd_val2 O P false flag G p) (DFT2 (negb (flag =? FORWARD)%Z) N G' p).
Proof.
  intros (T1 & T2) HG Hf Hp. destruct (plans_ok2 O cexp n sts N permute ins outs f P FA HI HP flag) as (H1 & H2).
  unfold cost2, ssum2 in *. destruct N as [n1 n2]. destruct p as [i j]. cbn in Hp. cbn [fst snd] in *.
  set (inv := negb (flag =? FORWARD)%Z) in *.
  assert (HG' : forall a b, (0 <= a < n1)%Z -> (0 <= b < n2)%Z ->
     near k (S (a, b)) (G (a, b)) (G' (a, b)) /\ 32 * mu <= S (a, b) /\ 0 <= S (a, b)).
  { intros a b Ha Hb. destruct (HG (a, b)) as (X & Y); [cbn; lia|]. split; [exact X|]. split; [exact Y|]. exact (near_B _ _ _ _ _ _ _ X). }
  rewrite (rsum_swap n2 n1) in *.
  set (S1 := fun a => rsum n2 (fun b => S (a, b))) in *.
  change (rsum n1 (fun a => rsum n2 (fun b => S (a, b)))) with (rsum n1 S1) in *.
  assert (P1 : forall a, (0 <= a < n1)%Z -> 0 <= S1 a /\ 32 * mu <= S1 a).
  { intros a Ha. split; [apply rsum_pos; intros b Hb; apply HG'; lia|].
    eapply Rle_trans; [apply (HG' a 0%Z); lia|]. apply (rsum_elem n2 (fun b => S (a, b)) 0%Z); [intros b Hb; apply HG'; lia|lia]. }
  assert (U1 : forall a, (0 <= a < n1)%Z -> S1 a <= rsum n1 S1) by (intros a Ha; apply rsum_elem; [intros; apply P1; assumption|assumption]).
  unfold bwd_val2, may2, along2. cbn [Z.eqb]. rewrite <- DFT2_bwd by lia.
  replace (k + (roundings t n1 + roundings t n2))%nat with (k + roundings t n2 + roundings t n1)%nat in * by lia.
  apply (line_near n1 inv _ _ S1); auto; [lia|]. intros a Ha. split; [|apply P1, Ha].
  apply (line_near n2 inv _ _ (fun b => S (a, b))); auto; [lia| |].
  2:{ eapply guard_le; [exact Hf|lia|]. split; [apply P1, Ha|apply U1, Ha]. }
  intros b Hb. split; apply HG'; assumption.
Qed.
End Two.
End Err.
