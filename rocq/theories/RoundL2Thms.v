(** RoundL2Thms.v : proofs behind PropertiesL2.v. *)

From Coq Require Import Reals Lra Psatz.
From Verif Require Import Base Spec Pack3d Pack2d Sched SchedProofs Phases Exec Remap RemapMain RemapInst
  Remap3d Remap2d RemapThms RemapTop Layout LayoutProofs Setup3d Setup3dProofs Setup2d Setup2dProofs LayoutFinal Kiss KissPure KissAlg KissFactor KissReal Fft1d KissFinal
  Fft3d Frame Fft3dProofs Fft3dMain DftMulti Fft3dTop Fft3dFinal Fft2d Fft2dMain Fft2dTop Fft2dFinal Round RoundKiss RoundFft RoundThms RoundL2 RoundL2Fft.
Local Open Scope R_scope.

(** a line sum first *)
Lemma fiber3_0 n1 n2 n3 f : ssum3 (n1, n2, n3) f = ssum2 (n2, n3) (fun l => rsum n1 (fun j => f (j, fst l, snd l))).
Proof. reflexivity. Qed.
Lemma fiber3_1 n1 n2 n3 f : ssum3 (n1, n2, n3) f = ssum2 (n1, n3) (fun l => rsum n2 (fun j => f (fst l, j, snd l))).
Proof. unfold ssum3, ssum2. cbn [fst snd]. apply rsum_ext. intros c _. apply rsum_swap. Qed.
Lemma fiber3_2 n1 n2 n3 f : ssum3 (n1, n2, n3) f = ssum2 (n1, n2) (fun l => rsum n3 (fun j => f (fst l, snd l, j))).
Proof. unfold ssum3, ssum2. cbn [fst snd]. rewrite rsum_swap. apply rsum_ext. intros b _. apply rsum_swap. Qed.
Lemma fiber2_0 n1 n2 f : ssum2 (n1, n2) f = rsum n2 (fun l => rsum n1 (fun j => f (j, l))).
Proof. reflexivity. Qed.
Lemma fiber2_1 n1 n2 f : ssum2 (n1, n2) f = rsum n1 (fun l => rsum n2 (fun j => f (l, j))).
Proof. unfold ssum2. cbn [fst snd]. apply rsum_swap. Qed.

Lemma minus_dist {F I : Type} val (y : I -> F * F) z p : cmod (minus val y z p) = cdist (cval val (y p)) (z p).
Proof. reflexivity. Qed.

Section Thms.
Context {F : Type}.
Variables u mu om : R.
Variable O : sops F.
Variable val : F -> R.
Variable fin : F -> Prop.
Hypothesis RO : rounding u mu om O val fin.
Variable t : nat.
Variable cexp : bool -> Z -> Z -> F * F.
Local Notation pw k := ((1 + u) ^ k).
Local Notation near := (near u val fin).
Local Notation cval := (cval val).
Local Notation cfin := (cfin fin).
Local Notation vals := (vals val).
Local Notation Hmu := (r_mu _ _ _ _ _ _ RO).
Local Notation pw_1 := (pw_1 u mu om O val fin RO).
Local Notation guard := (guard_le u mu om O val fin RO).
Local Notation safe_line := (safe_line u mu om val fin t).
Local Notation start_near := (start_near u mu om O val fin RO).

Lemma near_mod k B y z : near k B y z -> cfin y /\ cmod (cval y) <= pw k * B.
Proof. intros (H1 & H2). split; [exact H1|]. exact (rnear_size _ _ _ _ _ H2). Qed.

Lemma safe_near L k S x x' : (forall i, (0 <= i < L)%Z -> near k (S i) (x i) (x' i) /\ 32 * mu <= S i) ->
  pw (k + roundings t L) * (4 * rsum L S) <= om -> safe_line L x.
Proof.
  intros Hx Hf. exists (fun i => pw k * S i). split.
  - intros i Hi. destruct (Hx i Hi) as (N & M). destruct (near_mod _ _ _ _ N) as (N1 & N2). split; [exact N1|]. split; [exact N2|].
    pose proof (pw_1 k). pose proof Hmu. nra.
  - rewrite (sm_mul _ _ (summing_rsum L)). rewrite pow_add in Hf. lra.
Qed.

Lemma nclose_start {I : Type} (dom : I -> Prop) sm c Q (x : I -> F * F) : summing dom sm -> l2 sm (fun p => wt c (vals x p)) <= Q -> nclose u val c sm 0 Q x (vals x).
Proof.
  intros SM H. split; [|exact H]. apply Req_le. rewrite pow_O. replace ((1 - 1) * Q) with 0 by ring.
  unfold l2. rewrite <- sqrt_0. f_equal. rewrite (sm_ext _ _ SM _ (fun _ => 0)).
  - exact (sm_0 _ _ SM).
  - intros i _. unfold RoundThms.vals. rewrite cdist_refl. ring.
Qed.

Lemma nclose_ext {I : Type} (dom : I -> Prop) sm c k Q (y y' : I -> F * F) z z' : summing dom sm ->
  (forall i, dom i -> y i = y' i /\ z i = z' i) -> nclose u val c sm k Q y z -> nclose u val c sm k Q y' z'.
Proof.
  intros SM H (H1 & H2). split.
  - rewrite (l2_ext _ _ SM _ (fun i => cdist (cval (y i)) (z i))); [exact H1|]. intros i Hi. destruct (H i Hi) as (-> & ->). reflexivity.
  - rewrite (l2_ext _ _ SM _ (fun i => wt c (z i))); [exact H2|]. intros i Hi. destruct (H i Hi) as (_ & ->). reflexivity.
Qed.

(** *** one dimension *)
Lemma line_norm L inv st x : plan_for cexp L inv st -> table_ok u val fin t cexp inv L ->
  (forall i, (0 <= i < L)%Z -> cfin (x i)) ->
  pw (roundings t L) * (4 * size1 mu L (vals x)) <= om ->
  norm1 L (minus val (lineT O st x) (DFT inv L (vals x))) <= (pw (nroundings t L) - 1) * (sqrt (IZR L) * nsize1 mu L (vals x)).
Proof.
  intros HP Ht Hx Hf. assert (L1 : (1 <= L)%Z) by (destruct HP; lia). pose proof Hmu as Hm.
  assert (G1 : 1 <= IZR L) by (apply IZR_le; lia).
  assert (E : rsum L (fun i => cmod (vals x i) + 32 * mu) = size1 mu L (vals x)).
  { rewrite rsum_shift' by lia. unfold size1, abs_sum1. rewrite rsum_sum1 by lia. reflexivity. }
  rewrite norm1_l2 by exact L1.
  rewrite (l2_ext _ _ (summing_rsum L) _ (fun j => cdist (cval (lineT O st x j)) (DFT inv L (fun i => cval (x i)) j))) by (intros; reflexivity).
  eapply Rle_trans; [apply (line_l2 u mu om O val fin RO t cexp (32 * mu) (Rle_refl _) L inv st x HP Ht)|].
  - apply (safe_near L 0 (fun i => cmod (vals x i) + 32 * mu) x (vals x)); [intros i Hi; apply start_near, Hx, Hi|]. rewrite E. exact Hf.
  - apply Rmult_le_compat_l; [pose proof (pw_1 (nroundings t L)); lra|]. apply Rmult_le_compat_l; [apply sqrt_pos|].
    eapply Rle_trans; [apply (l2_wt _ (rsum L) (32 * mu) (IZR L) (fun i => cval (x i)) (summing_rsum L)); [lra|exact G1|]|].
    + pose proof (rsum_shift' L (fun _ => 0) (32 * mu * (32 * mu)) L1) as H. rewrite (rsum_ext L _ (fun _ => 32 * mu * (32 * mu))) in H by (intros; ring).
      rewrite H. rewrite (sm_0 _ _ (summing_rsum L)). ring.
    + unfold nsize1. rewrite norm1_l2 by exact L1. apply Rplus_le_compat; [apply Rle_refl|]. apply Rmult_le_compat_l; [lra|nra].
Qed.

Lemma C70_line_proof : forall inv n, (1 <= n < 2 ^ 31)%Z -> table_ok u val fin t cexp inv n ->
  exists st, kiss_fft_alloc cexp n inv = Some st /\
  (forall ist src i out o x,
     (forall j, (0 <= j < n)%Z -> zget src (i + j * ist) = Some (x j) /\ cfin (x j)) -> (0 <= o)%Z -> (o + n <= zlen out)%Z ->
     pw (roundings t n) * (4 * size1 mu n (vals x)) <= om ->
     exists out' y, kiss_fft_outplace O st ist src i out o = Some out' /\ zlen out' = zlen out /\
       (forall k, (0 <= k < n)%Z -> zget out' (o + k) = Some (y k) /\ cfin (y k)) /\
       norm1 n (minus val y (DFT inv n (vals x))) <= (pw (nroundings t n) - 1) * (sqrt (IZR n) * nsize1 mu n (vals x)) /\
       (forall a, ~ (o <= a < o + n)%Z -> zget out' a = zget out a)) /\
  (forall tmp arr o x, zlen tmp = n ->
     (forall j, (0 <= j < n)%Z -> zget arr (o + j) = Some (x j) /\ cfin (x j)) -> (0 <= o)%Z -> (o + n <= zlen arr)%Z ->
     pw (roundings t n) * (4 * size1 mu n (vals x)) <= om ->
     exists arr' y, kiss_fft_inplace O st tmp 1 arr o = Some arr' /\ zlen arr' = zlen arr /\
       (forall k, (0 <= k < n)%Z -> zget arr' (o + k) = Some (y k) /\ cfin (y k)) /\
       norm1 n (minus val y (DFT inv n (vals x))) <= (pw (nroundings t n) - 1) * (sqrt (IZR n) * nsize1 mu n (vals x)) /\
       (forall a, ~ (o <= a < o + n)%Z -> zget arr' a = zget arr a)).
Proof.
  intros inv n Hn Ht. destruct (alloc_ok O cexp n inv Hn) as (st & E & H1 & H2 & H3 & H4 & H5).
  exists st. split; [exact E|]. split.
  - intros ist src i out o x Hx Ho Hl Hf.
    destruct (kiss_outplace_ok O st n ist src i out o x H1 H4 H3 (fun t Htt => proj1 (Hx t Htt)) Ho Hl) as (out' & E' & Hz & Hs & Hnt).
    exists out', (lineT O st x). split; [exact E'|]. split; [exact Hz|].
    assert (Hfx : forall j, (0 <= j < n)%Z -> cfin (x j)) by (intros; apply Hx; assumption).
    split; [|split; [apply line_norm; auto; split; auto|exact Hnt]].
    intros k Hk. rewrite Hs by exact Hk. split; [reflexivity|].
    exact (proj1 (line_start u mu om O val fin RO t cexp n inv st x k (conj Hn E) Ht Hk Hfx Hf)).
  - intros tmp arr o x Htmp Hx Ho Hl Hf.
    destruct (kiss_inplace_ok O st n tmp 1 arr o x H1 H4 H3 Htmp) as (out' & E' & Hz & Hs & Hnt); auto.
    { intros i Hi. rewrite Z.mul_1_r. apply Hx, Hi. }
    exists out', (lineT O st x). split; [exact E'|]. split; [exact Hz|].
    assert (Hfx : forall j, (0 <= j < n)%Z -> cfin (x j)) by (intros; apply Hx; assumption).
    split; [|split; [apply line_norm; auto; split; auto|exact Hnt]].
    intros k Hk. rewrite Hs by exact Hk. split; [reflexivity|].
    exact (proj1 (line_start u mu om O val fin RO t cexp n inv st x k (conj Hn E) Ht Hk Hfx Hf)).
Qed.

(** *** three dimensions *)
Section Three.
Variable rnorm : Z -> F.
Variable s : nat.
Variables (ar : areas) (n : nat) (sts : settings) (N : Z * Z * Z) (permute : Z) (ins outs : nat -> box3) (f : fft3).
Hypothesis Hr : ready3 ar n sts N permute ins outs f.
Variable P : @plans3 F.
Hypothesis HP : setup_ffts3 cexp N = Some P.
Local Notation dims_pos3 := (dims_pos3 ar n sts N permute ins outs f Hr).
Local Notation size3_ge := (size3_ge mu ar n sts N permute ins outs f Hr).
Local Notation bcost := (scale_cost s).
Local Notation bfac := (scale_by (grid_points N)).

Let c := 32 * mu * IZR (grid_points N).
Lemma c_ge : 32 * mu <= c.
Proof.
  destruct dims_pos3 as (_ & _ & _ & D4). pose proof Hmu as Hm. unfold c.
  assert (1 <= IZR (grid_points N)) by (apply IZR_le; lia). assert (0 <= 32 * mu) by lra. nra.
Qed.

Lemma sqrt_grid Q : sqrt (IZR (snd N)) * (sqrt (IZR (snd (fst N))) * (sqrt (IZR (fst (fst N))) * Q)) = sqrt (IZR (grid_points N)) * Q.
Proof.
  destruct dims_pos3 as (D1 & D2 & D3 & D4). unfold grid_points. destruct N as [[n1 n2] n3]. cbn [fst snd] in *.
  assert (0 <= IZR n1 /\ 0 <= IZR n2 /\ 0 <= IZR n3) as (A & B & C) by (repeat split; apply IZR_le; lia).
  rewrite !mult_IZR. rewrite !sqrt_mult by (try apply Rmult_le_pos; assumption). ring.
Qed.

(** the transform of data with an error, by the steps of either order *)
Lemma path_norm flag k S kn Q G G' : tables3 u val fin t cexp N (negb (flag =? FORWARD)%Z) ->
  (forall q, in_grid N q -> near k (S q) (G q) (G' q) /\ 32 * mu <= S q) ->
  pw (k + cost3 t N) * (4 * ssum3 N S) <= om -> 0 <= Q ->
  nclose u val c (ssum3 N) kn Q G G' ->
  nclose u val c (ssum3 N) (kn + ncost3 t N) (sqrt (IZR (grid_points N)) * Q)
    (if fwdpath f flag then fwd_val O P false flag G else bwd_val O P false flag G) (DFT3 (negb (flag =? FORWARD)%Z) N G').
Proof.
  intros (T1 & T2 & T3) HG Hf HQ HC. rewrite <- sqrt_grid.
  pose proof (ready_facts _ _ _ _ _ _ _ _ Hr) as FA. pose proof Hr as (_ & _ & HI & _).
  destruct (plans_ok O cexp n sts N permute ins outs f P FA HI HP flag) as (H1 & H2 & H3).
  pose proof c_ge as Hc. pose proof dims_pos3 as (D1 & D2 & D3 & _).
  pose proof (summing_3 N) as SM.
  unfold cost3, ncost3 in *. generalize dependent c. intros c1 HC Hc. clear c HI FA Hr HP. rename c1 into c. destruct N as [[n1 n2] n3]. cbn [fst snd] in *.
  set (inv := negb (flag =? FORWARD)%Z) in *.
  assert (HG' : forall a b c, (0 <= a < n1)%Z -> (0 <= b < n2)%Z -> (0 <= c < n3)%Z ->
     near k (S (a, b, c)) (G (a, b, c)) (G' (a, b, c)) /\ 32 * mu <= S (a, b, c) /\ 0 <= S (a, b, c)).
  { intros a b d Ha Hb Hd. destruct (HG (a, b, d)) as (X & Y); [cbn; lia|]. split; [exact X|]. split; [exact Y|]. exact (near_B _ _ _ _ _ _ _ X). }
  destruct (fwdpath f flag).
  - unfold ssum3 in Hf. cbn [fst snd] in Hf.
    set (S1 := fun b c => rsum n1 (fun a => S (a, b, c))) in *. set (S2 := fun c => rsum n2 (fun b => S1 b c)) in *.
    change (rsum n3 (fun c => rsum n2 (fun b => rsum n1 (fun a => S (a, b, c))))) with (rsum n3 S2) in *.
    assert (P1 : forall b c, (0 <= b < n2)%Z -> (0 <= c < n3)%Z -> 0 <= S1 b c /\ 32 * mu <= S1 b c).
    { intros b d Hb Hd. split; [apply rsum_pos; intros a Ha; apply HG'; lia|].
      eapply Rle_trans; [apply (HG' 0%Z b d); lia|]. apply (rsum_elem n1 (fun a => S (a, b, d)) 0%Z); [intros a Ha; apply HG'; lia|lia]. }
    assert (P2 : forall c, (0 <= c < n3)%Z -> 0 <= S2 c /\ 32 * mu <= S2 c).
    { intros d Hd. split; [apply rsum_pos; intros b Hb; apply P1; lia|].
      eapply Rle_trans; [apply (P1 0%Z d); lia|]. apply (rsum_elem n2 (fun b => S1 b d) 0%Z); [intros b Hb; apply P1; lia|lia]. }
    assert (U2 : forall c, (0 <= c < n3)%Z -> S2 c <= rsum n3 S2) by (intros d Hd; apply rsum_elem; [intros; apply P2; assumption|assumption]).
    assert (U1 : forall b c, (0 <= b < n2)%Z -> (0 <= c < n3)%Z -> S1 b c <= rsum n3 S2).
    { intros b d Hb Hd. eapply Rle_trans; [|apply (U2 d Hd)]. apply (rsum_elem n2 (fun b => S1 b d)); [intros; apply P1; assumption|assumption]. }
    replace (k + (roundings t n1 + roundings t n2 + roundings t n3))%nat with (k + roundings t n1 + roundings t n2 + roundings t n3)%nat in Hf by lia.
    replace (kn + (nroundings t n1 + nroundings t n2 + nroundings t n3))%nat with (kn + nroundings t n1 + nroundings t n2 + nroundings t n3)%nat by lia.
    set (G1 := along 0 (lineT O (plan_fast P flag)) G). set (G2 := along 1 (lineT O (plan_mid P flag)) G1). set (G3 := along 2 (lineT O (plan_slow P flag)) G2).
    set (R1 := along 0 (DFT inv n1) G'). set (R2 := along 1 (DFT inv n2) R1). set (R3 := along 2 (DFT inv n3) R2).
    apply (nclose_ext _ _ c _ _ G3 _ R3 _ SM).
    { intros [[a b] d] Hp. apply dom3_grid in Hp. split; [reflexivity|]. cbn in Hp. rewrite <- DFT3_fwd by lia. reflexivity. }
    assert (B1 : forall a b d, (0 <= a < n1)%Z -> (0 <= b < n2)%Z -> (0 <= d < n3)%Z -> near (k + roundings t n1) (S1 b d) (G1 (a, b, d)) (R1 (a, b, d))).
    { intros a b d Ha Hb Hd. unfold G1, R1, along. cbn [Z.eqb]. apply (line_near u mu om O val fin RO t cexp n1 inv _ _ (fun a => S (a, b, d))); auto.
      - intros a' Ha'. split; apply HG'; assumption.
      - eapply guard; [exact Hf|lia|]. split; [apply P1; assumption|apply U1; assumption]. }
    assert (B2 : forall a b d, (0 <= a < n1)%Z -> (0 <= b < n2)%Z -> (0 <= d < n3)%Z -> near (k + roundings t n1 + roundings t n2) (S2 d) (G2 (a, b, d)) (R2 (a, b, d))).
    { intros a b d Ha Hb Hd. unfold G2, R2, along. cbn [Z.eqb]. apply (line_near u mu om O val fin RO t cexp n2 inv _ _ (fun b => S1 b d)); auto.
      - intros b' Hb'. split; [apply B1; assumption|apply P1; assumption].
      - eapply guard; [exact Hf|lia|]. split; [apply P2; assumption|apply U2; assumption]. }
    assert (0 <= sqrt (IZR n1) * Q) by (apply Rmult_le_pos; [apply sqrt_pos|exact HQ]).
    assert (0 <= sqrt (IZR n2) * (sqrt (IZR n1) * Q)) by (apply Rmult_le_pos; [apply sqrt_pos|assumption]).
    apply (stage u mu om O val fin RO t cexp c Hc (dom3 (n1, n2, n3)) _ SM (dom2 (n1, n2)) _ (summing_2 (n1, n2)) n3 (fun l j => (fst l, snd l, j)) (fiber3_2 n1 n2 n3)
      inv _ H3 T3 (along 2 (lineT O (plan_slow P flag))) (along 2 (DFT inv n3))); [reflexivity|reflexivity|assumption| |].
    { intros [a b] (Ha & Hb). cbn [fst snd] in *. apply (safe_near n3 (k + roundings t n1 + roundings t n2) S2 _ (fun d => R2 (a, b, d))); [|exact Hf].
      intros d Hd. split; [apply B2; assumption|apply P2; assumption]. }
    apply (stage u mu om O val fin RO t cexp c Hc (dom3 (n1, n2, n3)) _ SM (dom2 (n1, n3)) _ (summing_2 (n1, n3)) n2 (fun l j => (fst l, j, snd l)) (fiber3_1 n1 n2 n3)
      inv _ H2 T2 (along 1 (lineT O (plan_mid P flag))) (along 1 (DFT inv n2))); [reflexivity|reflexivity|assumption| |].
    { intros [a d] (Ha & Hd). cbn [fst snd] in *. apply (safe_near n2 (k + roundings t n1) (fun b => S1 b d) _ (fun b => R1 (a, b, d))).
      - intros b Hb. split; [apply B1; assumption|apply P1; assumption].
      - eapply guard; [exact Hf|lia|]. split; [apply P2; assumption|apply U2; assumption]. }
    apply (stage u mu om O val fin RO t cexp c Hc (dom3 (n1, n2, n3)) _ SM (dom2 (n2, n3)) _ (summing_2 (n2, n3)) n1 (fun l j => (j, fst l, snd l)) (fiber3_0 n1 n2 n3)
      inv _ H1 T1 (along 0 (lineT O (plan_fast P flag))) (along 0 (DFT inv n1))); [reflexivity|reflexivity|assumption| |exact HC].
    intros [b d] (Hb & Hd). cbn [fst snd] in *. apply (safe_near n1 k (fun a => S (a, b, d)) _ (fun a => G' (a, b, d))).
    + intros a Ha. split; apply HG'; assumption.
    + eapply guard; [exact Hf|lia|]. split; [apply P1; assumption|apply U1; assumption].
  - unfold ssum3 in Hf. cbn [fst snd] in Hf.
    assert (SW : rsum n3 (fun c => rsum n2 (fun b => rsum n1 (fun a => S (a, b, c)))) = rsum n1 (fun a => rsum n2 (fun b => rsum n3 (fun c => S (a, b, c))))).
    { rewrite (rsum_swap n3 n2). rewrite (rsum_ext n2 _ (fun b => rsum n1 (fun a => rsum n3 (fun c => S (a, b, c))))) by (intros; apply rsum_swap).
      apply (rsum_swap n2 n1). }
    rewrite SW in Hf. clear SW.
    set (S1 := fun a b => rsum n3 (fun c => S (a, b, c))) in *. set (S2 := fun a => rsum n2 (fun b => S1 a b)) in *.
    change (rsum n1 (fun a => rsum n2 (fun b => rsum n3 (fun c => S (a, b, c))))) with (rsum n1 S2) in *.
    assert (P1 : forall a b, (0 <= a < n1)%Z -> (0 <= b < n2)%Z -> 0 <= S1 a b /\ 32 * mu <= S1 a b).
    { intros a b Ha Hb. split; [apply rsum_pos; intros d Hd; apply HG'; lia|].
      eapply Rle_trans; [apply (HG' a b 0%Z); lia|]. apply (rsum_elem n3 (fun c => S (a, b, c)) 0%Z); [intros d Hd; apply HG'; lia|lia]. }
    assert (P2 : forall a, (0 <= a < n1)%Z -> 0 <= S2 a /\ 32 * mu <= S2 a).
    { intros a Ha. split; [apply rsum_pos; intros b Hb; apply P1; lia|].
      eapply Rle_trans; [apply (P1 a 0%Z); lia|]. apply (rsum_elem n2 (fun b => S1 a b) 0%Z); [intros b Hb; apply P1; lia|lia]. }
    assert (U2 : forall a, (0 <= a < n1)%Z -> S2 a <= rsum n1 S2) by (intros a Ha; apply rsum_elem; [intros; apply P2; assumption|assumption]).
    assert (U1 : forall a b, (0 <= a < n1)%Z -> (0 <= b < n2)%Z -> S1 a b <= rsum n1 S2).
    { intros a b Ha Hb. eapply Rle_trans; [|apply (U2 a Ha)]. apply (rsum_elem n2 (fun b => S1 a b)); [intros; apply P1; assumption|assumption]. }
    replace (k + (roundings t n1 + roundings t n2 + roundings t n3))%nat with (k + roundings t n3 + roundings t n2 + roundings t n1)%nat in Hf by lia.
    replace (kn + (nroundings t n1 + nroundings t n2 + nroundings t n3))%nat with (kn + nroundings t n3 + nroundings t n2 + nroundings t n1)%nat by lia.
    replace (sqrt (IZR n3) * (sqrt (IZR n2) * (sqrt (IZR n1) * Q))) with (sqrt (IZR n1) * (sqrt (IZR n2) * (sqrt (IZR n3) * Q))) by ring.
    set (G1 := along 2 (lineT O (plan_slow P flag)) G). set (G2 := along 1 (lineT O (plan_mid P flag)) G1). set (G3 := along 0 (lineT O (plan_fast P flag)) G2).
    set (R1 := along 2 (DFT inv n3) G'). set (R2 := along 1 (DFT inv n2) R1). set (R3 := along 0 (DFT inv n1) R2).
    apply (nclose_ext _ _ c _ _ G3 _ R3 _ SM).
    { intros [[a b] d] Hp. apply dom3_grid in Hp. split; [reflexivity|]. cbn in Hp. rewrite <- DFT3_bwd by lia. reflexivity. }
    assert (B1 : forall a b d, (0 <= a < n1)%Z -> (0 <= b < n2)%Z -> (0 <= d < n3)%Z -> near (k + roundings t n3) (S1 a b) (G1 (a, b, d)) (R1 (a, b, d))).
    { intros a b d Ha Hb Hd. unfold G1, R1, along. cbn [Z.eqb]. apply (line_near u mu om O val fin RO t cexp n3 inv _ _ (fun d => S (a, b, d))); auto.
      - intros a' Ha'. split; apply HG'; assumption.
      - eapply guard; [exact Hf|lia|]. split; [apply P1; assumption|apply U1; assumption]. }
    assert (B2 : forall a b d, (0 <= a < n1)%Z -> (0 <= b < n2)%Z -> (0 <= d < n3)%Z -> near (k + roundings t n3 + roundings t n2) (S2 a) (G2 (a, b, d)) (R2 (a, b, d))).
    { intros a b d Ha Hb Hd. unfold G2, R2, along. cbn [Z.eqb]. apply (line_near u mu om O val fin RO t cexp n2 inv _ _ (fun b => S1 a b)); auto.
      - intros b' Hb'. split; [apply B1; assumption|apply P1; assumption].
      - eapply guard; [exact Hf|lia|]. split; [apply P2; assumption|apply U2; assumption]. }
    assert (0 <= sqrt (IZR n3) * Q) by (apply Rmult_le_pos; [apply sqrt_pos|exact HQ]).
    assert (0 <= sqrt (IZR n2) * (sqrt (IZR n3) * Q)) by (apply Rmult_le_pos; [apply sqrt_pos|assumption]).
    apply (stage u mu om O val fin RO t cexp c Hc (dom3 (n1, n2, n3)) _ SM (dom2 (n2, n3)) _ (summing_2 (n2, n3)) n1 (fun l j => (j, fst l, snd l)) (fiber3_0 n1 n2 n3)
      inv _ H1 T1 (along 0 (lineT O (plan_fast P flag))) (along 0 (DFT inv n1))); [reflexivity|reflexivity|assumption| |].
    { intros [b d] (Hb & Hd). cbn [fst snd] in *. apply (safe_near n1 (k + roundings t n3 + roundings t n2) S2 _ (fun a => R2 (a, b, d))); [|exact Hf].
      intros a Ha. split; [apply B2; assumption|apply P2; assumption]. }
    apply (stage u mu om O val fin RO t cexp c Hc (dom3 (n1, n2, n3)) _ SM (dom2 (n1, n3)) _ (summing_2 (n1, n3)) n2 (fun l j => (fst l, j, snd l)) (fiber3_1 n1 n2 n3)
      inv _ H2 T2 (along 1 (lineT O (plan_mid P flag))) (along 1 (DFT inv n2))); [reflexivity|reflexivity|assumption| |].
    { intros [a d] (Ha & Hd). cbn [fst snd] in *. apply (safe_near n2 (k + roundings t n3) (fun b => S1 a b) _ (fun b => R1 (a, b, d))).
      - intros b Hb. split; [apply B1; assumption|apply P1; assumption].
      - eapply guard; [exact Hf|lia|]. split; [apply P2; assumption|apply U2; assumption]. }
    apply (stage u mu om O val fin RO t cexp c Hc (dom3 (n1, n2, n3)) _ SM (dom2 (n1, n2)) _ (summing_2 (n1, n2)) n3 (fun l j => (fst l, snd l, j)) (fiber3_2 n1 n2 n3)
      inv _ H3 T3 (along 2 (lineT O (plan_slow P flag))) (along 2 (DFT inv n3))); [reflexivity|reflexivity|assumption| |exact HC].
    intros [a b] (Ha & Hb). cbn [fst snd] in *. apply (safe_near n3 k (fun d => S (a, b, d)) _ (fun d => G' (a, b, d))).
    + intros d Hd. split; apply HG'; assumption.
    + eapply guard; [exact Hf|lia|]. split; [apply P1; assumption|apply U1; assumption].
Qed.

Lemma nsize3_wt x : l2 (ssum3 N) (fun p => wt c (x p)) <= nsize3 mu N x.
Proof.
  destruct dims_pos3 as (D1 & D2 & D3 & D4). pose proof Hmu as Hm. pose proof c_ge as Hc.
  assert (G1 : 1 <= IZR (grid_points N)) by (apply IZR_le; lia).
  eapply Rle_trans; [apply (l2_wt _ (ssum3 N) c (IZR (grid_points N)) x (summing_3 N)); [lra|exact G1|apply ssum3_const; assumption]|].
  unfold nsize3. rewrite norm3_l2 by assumption. unfold c. lra.
Qed.
Lemma nsize3_pos x : 0 <= nsize3 mu N x.
Proof. eapply Rle_trans; [|apply nsize3_wt]. apply l2_nonneg. Qed.

(** what a backward call leaves *)
Definition bwd_out (scaled : bool) (y : pt3 -> F * F) (p : pt3) : F * F :=
  let v := (if fwdpath f BACKWARD then fwd_val O P false BACKWARD y else bwd_val O P false BACKWARD y) p in
  if scaled then scl O (rnorm (grid_points N)) v else v.

Lemma bwd_run3 b (M0 : nat -> @rmem F) scaled : isdata b -> room3 f BACKWARD b M0 ->
  (scaled = true -> forall r, (r < n)%nat -> (psize3 (ins r) <= psize3 (outs r))%Z) ->
  forall y,
  good n (st3 f b M0 b permute outs (fld y)) (pieces_compute3 O rnorm f P scaled false BACKWARD b b)
    (fun r m => holds3 2 0 (ins r) (fld (bwd_out scaled y)) (getb b m) /\ framed M0 b (fun r => (2 * f_fftsize f r)%Z) r m).
Proof.
  intros Hb Hro Hsz y.
  assert (Ey : forall r p, (r < n)%nat -> inb3 p (ins r) -> call_val O rnorm N permute ins outs f P scaled false BACKWARD y r p = bwd_out scaled y p).
  { intros r p Hrn Hp. destruct (src_out ar n sts N permute ins outs f BACKWARD r Hr ltac:(discriminate) Hrn) as (_ & _ & E3 & E4).
    unfold call_val, finish, bwd_out. rewrite E3, E4. rewrite Z.eqb_refl. cbn [negb andb]. rewrite andb_true_r.
    destruct scaled; [|reflexivity]. rewrite (scaled_all ins outs r p (Hsz eq_refl r Hrn) Hp). reflexivity. }
  eapply good_conseq; [| |apply (call_good O cexp rnorm ar n sts N permute ins outs f P b b M0 scaled false BACKWARD y); auto; left; reflexivity].
  - intros r m Hrn (K1 & K2). split; [|exact K2].
    destruct (src_out ar n sts N permute ins outs f BACKWARD r Hr ltac:(discriminate) Hrn) as (E1 & E2 & E3 & E4). rewrite E1, E2. exact K1.
  - intros r m Hrn (K1 & K2). split; [|exact K2].
    destruct (src_out ar n sts N permute ins outs f BACKWARD r Hr ltac:(discriminate) Hrn) as (E1 & E2 & E3 & E4). rewrite E3, E4 in K1.
    eapply holds3_ext; [|exact K1]. intros p q Hp _. apply fld_ext. apply Ey; assumption.
Qed.

Lemma bwd_out_norm scaled k S kn Q y x : tables3 u val fin t cexp N true -> (scaled = true -> norm_ok u val fin s rnorm (grid_points N)) ->
  (forall q, in_grid N q -> near k (S q) (y q) (x q) /\ 32 * mu <= S q) ->
  32 * mu * IZR (grid_points N) <= ssum3 N S ->
  pw (k + cost3 t N + bcost scaled) * (4 * ssum3 N S) <= om -> 0 <= Q ->
  nclose u val c (ssum3 N) kn Q y x ->
  (forall p, in_grid N p -> cfin (bwd_out scaled y p)) /\
  l2 (ssum3 N) (fun p => cdist (cval (bwd_out scaled y p)) (rmulc (bfac scaled) (DFT3 true N x p))) <=
  (pw (kn + ncost3 t N + bcost scaled) - 1) * (sqrt (IZR (grid_points N)) * Q * bfac scaled).
Proof.
  intros HT Hno HS Hmu' Hf HQ HC. destruct dims_pos3 as (D1 & D2 & D3 & D4). pose proof Hmu as Hm.
  assert (G0 : 1 <= IZR (grid_points N)) by (apply IZR_le; lia).
  assert (S0 : 0 <= ssum3 N S) by (eapply Rle_trans; [|exact Hmu']; apply Rmult_le_pos; lra).
  pose proof (ready_facts _ _ _ _ _ _ _ _ Hr) as FA. pose proof Hr as (_ & _ & HI & _).
  assert (Hf1 : pw (k + cost3 t N) * (4 * ssum3 N S) <= om) by (eapply guard; [exact Hf|lia|lra]).
  pose proof (path_norm BACKWARD k S kn Q y x HT HS Hf1 HQ HC) as HN.
  set (v := if fwdpath f BACKWARD then fwd_val O P false BACKWARD y else bwd_val O P false BACKWARD y) in *.
  assert (Hv : forall p, in_grid N p -> near (k + cost3 t N) (ssum3 N S) (v p) (DFT3 true N x p)).
  { intros p Hp. unfold v. destruct (fwdpath f BACKWARD).
    - apply (fwd_near u mu om O val fin RO t cexp n sts N permute ins outs f P FA HI HP BACKWARD k S y x p HT HS Hf1 Hp).
    - apply (bwd_near u mu om O val fin RO t cexp n sts N permute ins outs f P FA HI HP BACKWARD k S y x p HT HS Hf1 Hp). }
  assert (EO : forall p, bwd_out scaled y p = if scaled then scl O (rnorm (grid_points N)) (v p) else v p).
  { intros p. unfold bwd_out. fold v. reflexivity. }
  destruct scaled; cbn [scale_cost scale_by] in *.
  - destruct (Hno eq_refl) as (Fr & Er).
    assert (Hfs : pw (k + cost3 t N + s) * (4 * ssum3 N S) <= om) by (eapply guard; [exact Hf|lia|lra]).
    split.
    + intros p Hp. rewrite EO.
      apply (scl_near u mu om O val fin RO (k + cost3 t N) s (ssum3 N S) _ (grid_points N) (v p) (DFT3 true N x p)); [lia|exact Fr|exact Er| |apply Hv, Hp|exact Hfs].
      apply Rle_trans with (32 * mu); [lra|]. apply Rmult_le_reg_r with (IZR (grid_points N)); [lra|].
      replace (ssum3 N S * / IZR (grid_points N) * IZR (grid_points N)) with (ssum3 N S) by (field; lra). exact Hmu'.
    + rewrite (l2_ext _ _ (summing_3 N) _ (fun p => cdist (cval (scl O (rnorm (grid_points N)) (v p))) (rmulc (/ IZR (grid_points N)) (DFT3 true N x p)))) by (intros p _; now rewrite EO).
      apply (nclose_scale u mu om O val fin RO c c_ge (dom3 N) (ssum3 N) (summing_3 N) (kn + ncost3 t N) s (sqrt (IZR (grid_points N)) * Q) _ (grid_points N) v); auto.
      * unfold c. nra.
      * intros p Hp. apply dom3_grid in Hp. destruct (near_mod _ _ _ _ (Hv p Hp)) as (V1 & V2). split; [exact V1|].
        eapply Rle_trans; [|exact Hfs]. rewrite (pow_add _ _ s). pose proof (pw_1 s).
        replace (pw (k + cost3 t N) * pw s * (4 * ssum3 N S)) with (pw s * (4 * (pw (k + cost3 t N) * ssum3 N S))) by ring.
        apply Rmult_le_compat_l; [lra|]. lra.
      * eapply guard; [exact Hfs|lia|]. split; [apply Rmult_le_pos; lra|]. eapply Rle_trans; [|exact Hmu']. apply Rmult_le_compat_r; lra.
  - split; [intros p Hp; rewrite EO; apply (Hv p Hp)|]. rewrite Nat.add_0_r, Rmult_1_r.
    rewrite (l2_ext _ _ (summing_3 N) _ (fun p => cdist (cval (v p)) (DFT3 true N x p))); [apply HN|].
    intros p _. rewrite EO. f_equal. unfold rmulc. rewrite !Rmult_1_l. destruct (DFT3 true N x p). reflexivity.
Qed.
Lemma c_forward bi bo (M0 : nat -> @rmem F) scaled x :
  isdata bi -> isdata bo -> bi = bo \/ f_pre f = true -> arrays_ok f bo M0 ->
  tables3 u val fin t cexp N false ->
  (forall p, in_grid N p -> cfin (x p)) ->
  (forall r, (r < n)%nat -> holds3 2 0 (ins r) (fld x) (getb bi (M0 r))) ->
  pw (cost3 t N) * (4 * size3 mu N (vals x)) <= om ->
  exists y,
  exec_all n (compute3 O rnorm f P scaled false FORWARD bi bo) M0
    (fun r m => holds3 2 permute (outs r) (fld y) (getb bo m) /\ framed M0 bo (fun r => (2 * f_fftsize f r)%Z) r m) /\
  (forall p, in_grid N p -> cfin (y p)) /\
  norm3 N (minus val y (DFT3 false N (vals x))) <= (pw (ncost3 t N) - 1) * (sqrt (IZR (grid_points N)) * nsize3 mu N (vals x)).
Proof.
  intros Hbi Hbo Hpl Ha HT Hfx Hx Hf. destruct dims_pos3 as (D1 & D2 & D3 & D4).
  exists (fwd_val O P false FORWARD x). split; [|split].
  - pose proof (call_runs O cexp rnorm ar n sts N permute ins outs f P bi bo M0 scaled false FORWARD x Hr HP Hbi Hbo) as H.
    destruct (forward_dirs permute ins outs f) as (E1 & E2 & E3 & E4). rewrite E1, E2, E3, E4 in H.
    apply H; auto. split; [exact Ha|]. cbn. discriminate.
  - intros p Hp. pose proof (ready_facts _ _ _ _ _ _ _ _ Hr) as FA. pose proof Hr as (_ & _ & HI & _).
    pose proof (fwd_near u mu om O val fin RO t cexp n sts N permute ins outs f P FA HI HP FORWARD 0 (fun q => cmod (vals x q) + 32 * mu) x (vals x) p HT) as H.
    rewrite ssum3_size in H by assumption. apply H; [intros q Hq; apply start_near, Hfx, Hq|exact Hf|exact Hp].
  - rewrite norm3_l2 by assumption.
    pose proof (path_norm FORWARD 0 (fun q => cmod (vals x q) + 32 * mu) 0 (nsize3 mu N (vals x)) x (vals x) HT) as H.
    rewrite ssum3_size in H by assumption. apply H; [intros q Hq; apply start_near, Hfx, Hq|exact Hf|apply nsize3_pos|].
    apply (nclose_start _ _ _ _ _ (summing_3 N)), nsize3_wt.
Qed.

Lemma c_backward b (M0 : nat -> @rmem F) scaled x :
  isdata b -> room3 f BACKWARD b M0 ->
  (scaled = true -> forall r, (r < n)%nat -> (psize3 (ins r) <= psize3 (outs r))%Z) ->
  tables3 u val fin t cexp N true -> (scaled = true -> norm_ok u val fin s rnorm (grid_points N)) ->
  (forall p, in_grid N p -> cfin (x p)) ->
  (forall r, (r < n)%nat -> holds3 2 permute (outs r) (fld x) (getb b (M0 r))) ->
  pw (cost3 t N + bcost scaled) * (4 * size3 mu N (vals x)) <= om ->
  exists y,
  exec_all n (compute3 O rnorm f P scaled false BACKWARD b b) M0
    (fun r m => holds3 2 0 (ins r) (fld y) (getb b m) /\ framed M0 b (fun r => (2 * f_fftsize f r)%Z) r m) /\
  (forall p, in_grid N p -> cfin (y p)) /\
  norm3 N (minus val y (fun p => rmulc (bfac scaled) (DFT3 true N (vals x) p))) <=
  (pw (ncost3 t N + bcost scaled) - 1) * (sqrt (IZR (grid_points N)) * nsize3 mu N (vals x) * bfac scaled).
Proof.
  intros Hb Hro Hsz HT Hno Hfx Hx Hf. destruct dims_pos3 as (D1 & D2 & D3 & D4).
  exists (bwd_out scaled x). split.
  - unfold compute3. eapply good_exec; [apply bwd_run3; assumption|]. intros r Hrn. split; [apply Hx, Hrn|apply framed_refl].
  - rewrite norm3_l2 by assumption.
    pose proof (bwd_out_norm scaled 0 (fun q => cmod (vals x q) + 32 * mu) 0 (nsize3 mu N (vals x)) x (vals x) HT Hno) as H.
    rewrite ssum3_size in H by assumption.
    apply H; [intros q Hq; apply start_near, Hfx, Hq|apply size3_ge|exact Hf|apply nsize3_pos|].
    apply (nclose_start _ _ _ _ _ (summing_3 N)), nsize3_wt.
Qed.

Lemma c_trip_good b (M0 : nat -> @rmem F) s1 scaled x :
  isdata b -> room3 f BACKWARD b M0 ->
  (scaled = true -> forall r, (r < n)%nat -> (psize3 (ins r) <= psize3 (outs r))%Z) ->
  tables3 u val fin t cexp N false -> tables3 u val fin t cexp N true -> (scaled = true -> norm_ok u val fin s rnorm (grid_points N)) ->
  (forall p, in_grid N p -> cfin (x p)) ->
  pw (2 * cost3 t N + bcost scaled) * (4 * (size3 mu N (vals x) * IZR (grid_points N))) <= om ->
  exists y,
  good n (st3 f b M0 b 0 ins (fld x)) (pieces_compute3 O rnorm f P s1 false FORWARD b b ++ pieces_compute3 O rnorm f P scaled false BACKWARD b b) (st3 f b M0 b 0 ins (fld y)) /\
  (forall p, in_grid N p -> cfin (y p)) /\
  norm3 N (minus val y (fun p => rmulc (if scaled then 1 else IZR (grid_points N)) (vals x p))) <=
  (pw (2 * ncost3 t N + bcost scaled) - 1) * (nsize3 mu N (vals x) * (if scaled then 1 else IZR (grid_points N))).
Proof.
  intros Hb Hro Hsz HTf HTb Hno Hfx Hf. destruct dims_pos3 as (D1 & D2 & D3 & D4). pose proof Hmu as Hmu0.
  assert (G : 1 <= IZR (grid_points N)) by (apply IZR_le; lia).
  pose proof (size3_ge (vals x)) as Hge.
  assert (Hg1 : 32 * mu <= size3 mu N (vals x)) by nra.
  set (z := fwd_val O P false FORWARD x).
  exists (bwd_out scaled z). split.
  - assert (Gf : good n (st3 f b M0 b 0 ins (fld x)) (pieces_compute3 O rnorm f P s1 false FORWARD b b) (st3 f b M0 b permute outs (fld z))).
    { pose proof (call_good O cexp rnorm ar n sts N permute ins outs f P b b M0 s1 false FORWARD x Hr HP Hb Hb (or_introl eq_refl)) as H.
      destruct (forward_dirs permute ins outs f) as (E1 & E2 & E3 & E4). rewrite E1, E2, E3, E4 in H.
      apply H. split; [apply Hro|]. cbn. discriminate. }
    exact (good_app _ _ _ _ _ _ Gf (bwd_run3 b M0 scaled Hb Hro Hsz z)).
  - rewrite norm3_l2 by assumption.
    assert (Hf1 : pw (cost3 t N) * (4 * size3 mu N (vals x)) <= om) by (eapply guard; [exact Hf|lia|split; [lra|nra]]).
    assert (HN : nclose u val c (ssum3 N) (ncost3 t N) (sqrt (IZR (grid_points N)) * nsize3 mu N (vals x)) z (DFT3 false N (vals x))).
    { pose proof (path_norm FORWARD 0 (fun q => cmod (vals x q) + 32 * mu) 0 (nsize3 mu N (vals x)) x (vals x) HTf) as H.
      rewrite ssum3_size in H by assumption. apply H; [intros q Hq; apply start_near, Hfx, Hq|exact Hf1|apply nsize3_pos|].
      apply (nclose_start _ _ _ _ _ (summing_3 N)), nsize3_wt. }
    pose proof (bwd_out_norm scaled (cost3 t N) (fun _ => size3 mu N (vals x)) (ncost3 t N) (sqrt (IZR (grid_points N)) * nsize3 mu N (vals x)) z (DFT3 false N (vals x)) HTb Hno) as H.
    rewrite ssum3_const in H by assumption.
    destruct H as (V1 & V2).
    + intros q Hq. split; [|exact Hg1]. pose proof (ready_facts _ _ _ _ _ _ _ _ Hr) as FA. pose proof Hr as (_ & _ & HI & _).
      pose proof (fwd_near u mu om O val fin RO t cexp n sts N permute ins outs f P FA HI HP FORWARD 0 (fun q => cmod (vals x q) + 32 * mu) x (vals x) q HTf) as H.
      rewrite ssum3_size in H by assumption. apply H; [intros q1 Hq1; apply start_near, Hfx, Hq1|exact Hf1|exact Hq].
    + apply Rmult_le_compat_r; lra.
    + replace (cost3 t N + cost3 t N + bcost scaled)%nat with (2 * cost3 t N + bcost scaled)%nat by lia. exact Hf.
    + apply Rmult_le_pos; [apply sqrt_pos|apply nsize3_pos].
    + exact HN.
    + split; [exact V1|].
      rewrite (l2_ext _ _ (summing_3 N) _ (fun p => cdist (cval (bwd_out scaled z p)) (rmulc (bfac scaled) (DFT3 true N (DFT3 false N (vals x)) p)))).
      * eapply Rle_trans; [exact V2|]. apply Req_le.
        replace (ncost3 t N + ncost3 t N + bcost scaled)%nat with (2 * ncost3 t N + bcost scaled)%nat by lia. f_equal.
        transitivity (sqrt (IZR (grid_points N)) * sqrt (IZR (grid_points N)) * nsize3 mu N (vals x) * bfac scaled); [ring|].
        rewrite sqrt_sqrt by lra. unfold scale_by. destruct scaled; field. lra.
      * intros p Hp. apply dom3_grid in Hp. rewrite minus_dist. f_equal.
        pose proof (inverse3 false N (vals x) p Hp) as Ei. cbn [negb] in Ei. rewrite Ei, rmulc_mul. f_equal.
        unfold scale_by. destruct scaled; field. lra.
Qed.
Lemma c_trip b (M0 : nat -> @rmem F) s1 scaled x :
  isdata b -> room3 f BACKWARD b M0 ->
  (scaled = true -> forall r, (r < n)%nat -> (psize3 (ins r) <= psize3 (outs r))%Z) ->
  tables3 u val fin t cexp N false -> tables3 u val fin t cexp N true -> (scaled = true -> norm_ok u val fin s rnorm (grid_points N)) ->
  (forall p, in_grid N p -> cfin (x p)) ->
  (forall r, (r < n)%nat -> holds3 2 0 (ins r) (fld x) (getb b (M0 r))) ->
  pw (2 * cost3 t N + bcost scaled) * (4 * (size3 mu N (vals x) * IZR (grid_points N))) <= om ->
  exists y,
  exec_all n (fun r => compute3 O rnorm f P s1 false FORWARD b b r ++ compute3 O rnorm f P scaled false BACKWARD b b r) M0
    (fun r m => holds3 2 0 (ins r) (fld y) (getb b m) /\ framed M0 b (fun r => (2 * f_fftsize f r)%Z) r m) /\
  (forall p, in_grid N p -> cfin (y p)) /\
  norm3 N (minus val y (fun p => rmulc (if scaled then 1 else IZR (grid_points N)) (vals x p))) <=
  (pw (2 * ncost3 t N + bcost scaled) - 1) * (nsize3 mu N (vals x) * (if scaled then 1 else IZR (grid_points N))).
Proof.
  intros Hb Hro Hsz HTf HTb Hno Hfx Hx Hf.
  destruct (c_trip_good b M0 s1 scaled x Hb Hro Hsz HTf HTb Hno Hfx Hf) as (y & Ga & Hy). exists y. split; [|exact Hy].
  destruct (good_exec n _ _ _ M0 Ga) as (M' & H1 & H2).
  { intros r Hrn. split; [apply Hx, Hrn|apply framed_refl]. }
  exists M'. split; [exact H1|]. destruct H2 as (L & H2). exists L. unfold compute3.
  assert (E : start n (fun r => together (pieces_compute3 O rnorm f P s1 false FORWARD b b) r ++ together (pieces_compute3 O rnorm f P scaled false BACKWARD b b) r) M0
    = start n (together (pieces_compute3 O rnorm f P s1 false FORWARD b b ++ pieces_compute3 O rnorm f P scaled false BACKWARD b b)) M0).
  { unfold start. f_equal. apply map_ext. intros r. unfold together. rewrite map_app, concat_app. reflexivity. }
  rewrite E. exact H2.
Qed.
End Three.

(** *** two dimensions *)
Section Two.
Variable rnorm : Z -> F.
Variable s : nat.
Variables (esize : Z) (ar : areas) (n : nat) (sts : settings) (N : Z * Z) (permute : Z) (ins outs : nat -> box2) (f : fft2).
Hypothesis Hr : ready2 esize ar n sts N permute ins outs f.
Variable P : @plans2 F.
Hypothesis HP : setup_ffts2 cexp N = Some P.
Local Notation dims_pos2 := (dims_pos2 esize ar n sts N permute ins outs f Hr).
Local Notation size2_ge := (size2_ge mu esize ar n sts N permute ins outs f Hr).
Local Notation bcost := (scale_cost s).
Local Notation bfac := (scale_by (grid_points2 N)).

Let c := 32 * mu * IZR (grid_points2 N).
Lemma c_ge2 : 32 * mu <= c.
Proof.
  destruct dims_pos2 as (_ & _ & D4). pose proof Hmu as Hm. unfold c.
  assert (1 <= IZR (grid_points2 N)) by (apply IZR_le; lia). assert (0 <= 32 * mu) by lra. nra.
Qed.

Lemma sqrt_grid2 Q : sqrt (IZR (snd N)) * (sqrt (IZR (fst N)) * Q) = sqrt (IZR (grid_points2 N)) * Q.
Proof.
  destruct dims_pos2 as (D1 & D2 & D4). unfold grid_points2. destruct N as [n1 n2]. cbn [fst snd] in *.
  assert (0 <= IZR n1 /\ 0 <= IZR n2) as (A & B) by (repeat split; apply IZR_le; lia).
  rewrite !mult_IZR. rewrite !sqrt_mult by (try apply Rmult_le_pos; assumption). ring.
Qed.

(** the transform of data with an error, by the steps of either order *)
Lemma path_norm2 flag k S kn Q G G' : tables2 u val fin t cexp N (negb (flag =? FORWARD)%Z) ->
  (forall q, in_grid2 N q -> near k (S q) (G q) (G' q) /\ 32 * mu <= S q) ->
  pw (k + cost2 t N) * (4 * ssum2 N S) <= om -> 0 <= Q ->
  nclose u val c (ssum2 N) kn Q G G' ->
  nclose u val c (ssum2 N) (kn + ncost2 t N) (sqrt (IZR (grid_points2 N)) * Q)
    (if fwdpath2 f flag then fwd_val2 O P false flag G else bwd_val2 O P false flag G) (DFT2 (negb (flag =? FORWARD)%Z) N G').
Proof.
  intros (T1 & T2) HG Hf HQ HC. rewrite <- sqrt_grid2.
  pose proof (ready_facts2 _ _ _ _ _ _ _ _ _ Hr) as FA. pose proof Hr as (_ & _ & HI & _).
  destruct (plans_ok2 O cexp n sts N permute ins outs f P FA HI HP flag) as (H1 & H2).
  pose proof c_ge2 as Hc. pose proof dims_pos2 as (D1 & D2 & _).
  pose proof (summing_2 N) as SM.
  unfold cost2, ncost2 in *. generalize dependent c. intros c1 HC Hc. clear c HI FA Hr HP. rename c1 into c. destruct N as [n1 n2]. cbn [fst snd] in *.
  set (inv := negb (flag =? FORWARD)%Z) in *.
  assert (HG' : forall a b, (0 <= a < n1)%Z -> (0 <= b < n2)%Z ->
     near k (S (a, b)) (G (a, b)) (G' (a, b)) /\ 32 * mu <= S (a, b) /\ 0 <= S (a, b)).
  { intros a b Ha Hb. destruct (HG (a, b)) as (X & Y); [cbn; lia|]. split; [exact X|]. split; [exact Y|]. exact (near_B _ _ _ _ _ _ _ X). }
  destruct (fwdpath2 f flag).
  - unfold ssum2 in Hf. cbn [fst snd] in Hf.
    set (S1 := fun b => rsum n1 (fun a => S (a, b))) in *.
    change (rsum n2 (fun b => rsum n1 (fun a => S (a, b)))) with (rsum n2 S1) in *.
    assert (P1 : forall b, (0 <= b < n2)%Z -> 0 <= S1 b /\ 32 * mu <= S1 b).
    { intros b Hb. split; [apply rsum_pos; intros a Ha; apply HG'; lia|].
      eapply Rle_trans; [apply (HG' 0%Z b); lia|]. apply (rsum_elem n1 (fun a => S (a, b)) 0%Z); [intros a Ha; apply HG'; lia|lia]. }
    assert (U1 : forall b, (0 <= b < n2)%Z -> S1 b <= rsum n2 S1) by (intros b Hb; apply rsum_elem; [intros; apply P1; assumption|assumption]).
    replace (k + (roundings t n1 + roundings t n2))%nat with (k + roundings t n1 + roundings t n2)%nat in Hf by lia.
    replace (kn + (nroundings t n1 + nroundings t n2))%nat with (kn + nroundings t n1 + nroundings t n2)%nat by lia.
    set (G1 := along2 0 (lineT O (plan_fast2 P flag)) G). set (G2 := along2 1 (lineT O (plan_slow2 P flag)) G1).
    set (R1 := along2 0 (DFT inv n1) G'). set (R2 := along2 1 (DFT inv n2) R1).
    apply (nclose_ext _ _ c _ _ G2 _ R2 _ SM).
    { intros [a b] Hp. apply dom2_grid in Hp. split; [reflexivity|]. cbn in Hp. rewrite <- DFT2_fwd by lia. reflexivity. }
    assert (B1 : forall a b, (0 <= a < n1)%Z -> (0 <= b < n2)%Z -> near (k + roundings t n1) (S1 b) (G1 (a, b)) (R1 (a, b))).
    { intros a b Ha Hb. unfold G1, R1, along2. cbn [Z.eqb]. apply (line_near u mu om O val fin RO t cexp n1 inv _ _ (fun a => S (a, b))); auto.
      - intros a' Ha'. split; apply HG'; assumption.
      - eapply guard; [exact Hf|lia|]. split; [apply P1; assumption|apply U1; assumption]. }
    assert (0 <= sqrt (IZR n1) * Q) by (apply Rmult_le_pos; [apply sqrt_pos|exact HQ]).
    apply (stage u mu om O val fin RO t cexp c Hc (dom2 (n1, n2)) _ SM (fun a => (0 <= a < n1)%Z) _ (summing_rsum n1) n2 (fun l j => (l, j)) (fiber2_1 n1 n2)
      inv _ H2 T2 (along2 1 (lineT O (plan_slow2 P flag))) (along2 1 (DFT inv n2))); [reflexivity|reflexivity|assumption| |].
    { intros a Ha. apply (safe_near n2 (k + roundings t n1) S1 _ (fun b => R1 (a, b))); [|exact Hf].
      intros b Hb. split; [apply B1; assumption|apply P1; assumption]. }
    apply (stage u mu om O val fin RO t cexp c Hc (dom2 (n1, n2)) _ SM (fun b => (0 <= b < n2)%Z) _ (summing_rsum n2) n1 (fun l j => (j, l)) (fiber2_0 n1 n2)
      inv _ H1 T1 (along2 0 (lineT O (plan_fast2 P flag))) (along2 0 (DFT inv n1))); [reflexivity|reflexivity|assumption| |exact HC].
    intros b Hb. apply (safe_near n1 k (fun a => S (a, b)) _ (fun a => G' (a, b))).
    + intros a Ha. split; apply HG'; assumption.
    + eapply guard; [exact Hf|lia|]. split; [apply P1; assumption|apply U1; assumption].
  - unfold ssum2 in Hf. cbn [fst snd] in Hf. rewrite (rsum_swap n2 n1) in Hf.
    set (S1 := fun a => rsum n2 (fun b => S (a, b))) in *.
    change (rsum n1 (fun a => rsum n2 (fun b => S (a, b)))) with (rsum n1 S1) in *.
    assert (P1 : forall a, (0 <= a < n1)%Z -> 0 <= S1 a /\ 32 * mu <= S1 a).
    { intros a Ha. split; [apply rsum_pos; intros b Hb; apply HG'; lia|].
      eapply Rle_trans; [apply (HG' a 0%Z); lia|]. apply (rsum_elem n2 (fun b => S (a, b)) 0%Z); [intros b Hb; apply HG'; lia|lia]. }
    assert (U1 : forall a, (0 <= a < n1)%Z -> S1 a <= rsum n1 S1) by (intros a Ha; apply rsum_elem; [intros; apply P1; assumption|assumption]).
    replace (k + (roundings t n1 + roundings t n2))%nat with (k + roundings t n2 + roundings t n1)%nat in Hf by lia.
    replace (kn + (nroundings t n1 + nroundings t n2))%nat with (kn + nroundings t n2 + nroundings t n1)%nat by lia.
    replace (sqrt (IZR n2) * (sqrt (IZR n1) * Q)) with (sqrt (IZR n1) * (sqrt (IZR n2) * Q)) by ring.
    set (G1 := along2 1 (lineT O (plan_slow2 P flag)) G). set (G2 := along2 0 (lineT O (plan_fast2 P flag)) G1).
    set (R1 := along2 1 (DFT inv n2) G'). set (R2 := along2 0 (DFT inv n1) R1).
    apply (nclose_ext _ _ c _ _ G2 _ R2 _ SM).
    { intros [a b] Hp. apply dom2_grid in Hp. split; [reflexivity|]. cbn in Hp. rewrite <- DFT2_bwd by lia. reflexivity. }
    assert (B1 : forall a b, (0 <= a < n1)%Z -> (0 <= b < n2)%Z -> near (k + roundings t n2) (S1 a) (G1 (a, b)) (R1 (a, b))).
    { intros a b Ha Hb. unfold G1, R1, along2. cbn [Z.eqb]. apply (line_near u mu om O val fin RO t cexp n2 inv _ _ (fun b => S (a, b))); auto.
      - intros b' Hb'. split; apply HG'; assumption.
      - eapply guard; [exact Hf|lia|]. split; [apply P1; assumption|apply U1; assumption]. }
    assert (0 <= sqrt (IZR n2) * Q) by (apply Rmult_le_pos; [apply sqrt_pos|exact HQ]).
    apply (stage u mu om O val fin RO t cexp c Hc (dom2 (n1, n2)) _ SM (fun b => (0 <= b < n2)%Z) _ (summing_rsum n2) n1 (fun l j => (j, l)) (fiber2_0 n1 n2)
      inv _ H1 T1 (along2 0 (lineT O (plan_fast2 P flag))) (along2 0 (DFT inv n1))); [reflexivity|reflexivity|assumption| |].
    { intros b Hb. apply (safe_near n1 (k + roundings t n2) S1 _ (fun a => R1 (a, b))); [|exact Hf].
      intros a Ha. split; [apply B1; assumption|apply P1; assumption]. }
    apply (stage u mu om O val fin RO t cexp c Hc (dom2 (n1, n2)) _ SM (fun a => (0 <= a < n1)%Z) _ (summing_rsum n1) n2 (fun l j => (l, j)) (fiber2_1 n1 n2)
      inv _ H2 T2 (along2 1 (lineT O (plan_slow2 P flag))) (along2 1 (DFT inv n2))); [reflexivity|reflexivity|assumption| |exact HC].
    intros a Ha. apply (safe_near n2 k (fun b => S (a, b)) _ (fun b => G' (a, b))).
    + intros b Hb. split; apply HG'; assumption.
    + eapply guard; [exact Hf|lia|]. split; [apply P1; assumption|apply U1; assumption].
Qed.

Lemma nsize2_wt x : l2 (ssum2 N) (fun p => wt c (x p)) <= nsize2 mu N x.
Proof.
  destruct dims_pos2 as (D1 & D2 & D4). pose proof Hmu as Hm. pose proof c_ge2 as Hc.
  assert (G1 : 1 <= IZR (grid_points2 N)) by (apply IZR_le; lia).
  eapply Rle_trans; [apply (l2_wt _ (ssum2 N) c (IZR (grid_points2 N)) x (summing_2 N)); [lra|exact G1|apply ssum2_const; assumption]|].
  unfold nsize2. rewrite norm2_l2 by assumption. unfold c. lra.
Qed.
Lemma nsize2_pos x : 0 <= nsize2 mu N x.
Proof. eapply Rle_trans; [|apply nsize2_wt]. apply l2_nonneg. Qed.

(** what a backward call leaves *)
Definition bwd_out2 (scaled : bool) (y : pt2 -> F * F) (p : pt2) : F * F :=
  let v := (if fwdpath2 f BACKWARD then fwd_val2 O P false BACKWARD y else bwd_val2 O P false BACKWARD y) p in
  if scaled then scl O (rnorm (grid_points2 N)) v else v.

Lemma bwd_run_2 b (M0 : nat -> @rmem F) scaled : isdata b -> arrays_ok2 f b M0 ->
  (scaled = true -> forall r, (r < n)%nat -> (psize2 (ins r) <= psize2 (outs r))%Z) ->
  forall y,
  good n (st2 f b M0 b permute outs (fld y)) (pieces_compute2 O rnorm esize f P scaled false BACKWARD b b)
    (fun r m => holds2 2 0 (ins r) (fld (bwd_out2 scaled y)) (getb b m) /\ framed M0 b (fun r => (2 * t_fftsize f r)%Z) r m).
Proof.
  intros Hb Hro Hsz y.
  assert (Ey : forall r p, (r < n)%nat -> inb2 p (ins r) -> call_val2 O rnorm N permute ins outs f P scaled false BACKWARD y r p = bwd_out2 scaled y p).
  { intros r p Hrn Hp. destruct (src_out2 esize ar n sts N permute ins outs f BACKWARD r Hr ltac:(discriminate) Hrn) as (_ & _ & E3 & E4).
    unfold call_val2, finish2, bwd_out2. rewrite E3, E4. rewrite Z.eqb_refl. cbn [negb andb]. rewrite andb_true_r.
    destruct scaled; [|reflexivity]. rewrite (scaled_all2 ins outs r p (Hsz eq_refl r Hrn) Hp). reflexivity. }
  eapply good_conseq; [| |apply (call_good2 O cexp rnorm esize ar n sts N permute ins outs f P b b M0 scaled false BACKWARD y); auto; left; reflexivity].
  - intros r m Hrn (K1 & K2). split; [|exact K2].
    destruct (src_out2 esize ar n sts N permute ins outs f BACKWARD r Hr ltac:(discriminate) Hrn) as (E1 & E2 & E3 & E4). rewrite E1, E2. exact K1.
  - intros r m Hrn (K1 & K2). split; [|exact K2].
    destruct (src_out2 esize ar n sts N permute ins outs f BACKWARD r Hr ltac:(discriminate) Hrn) as (E1 & E2 & E3 & E4). rewrite E3, E4 in K1.
    eapply holds2_ext; [|exact K1]. intros p q Hp _. apply fld_ext2. apply Ey; assumption.
Qed.

Lemma bwd_out_norm2 scaled k S kn Q y x : tables2 u val fin t cexp N true -> (scaled = true -> norm_ok u val fin s rnorm (grid_points2 N)) ->
  (forall q, in_grid2 N q -> near k (S q) (y q) (x q) /\ 32 * mu <= S q) ->
  32 * mu * IZR (grid_points2 N) <= ssum2 N S ->
  pw (k + cost2 t N + bcost scaled) * (4 * ssum2 N S) <= om -> 0 <= Q ->
  nclose u val c (ssum2 N) kn Q y x ->
  (forall p, in_grid2 N p -> cfin (bwd_out2 scaled y p)) /\
  l2 (ssum2 N) (fun p => cdist (cval (bwd_out2 scaled y p)) (rmulc (bfac scaled) (DFT2 true N x p))) <=
  (pw (kn + ncost2 t N + bcost scaled) - 1) * (sqrt (IZR (grid_points2 N)) * Q * bfac scaled).
Proof.
  intros HT Hno HS Hmu' Hf HQ HC. destruct dims_pos2 as (D1 & D2 & D4). pose proof Hmu as Hm.
  assert (G0 : 1 <= IZR (grid_points2 N)) by (apply IZR_le; lia).
  assert (S0 : 0 <= ssum2 N S) by (eapply Rle_trans; [|exact Hmu']; apply Rmult_le_pos; lra).
  pose proof (ready_facts2 _ _ _ _ _ _ _ _ _ Hr) as FA. pose proof Hr as (_ & _ & HI & _).
  assert (Hf1 : pw (k + cost2 t N) * (4 * ssum2 N S) <= om) by (eapply guard; [exact Hf|lia|lra]).
  pose proof (path_norm2 BACKWARD k S kn Q y x HT HS Hf1 HQ HC) as HN.
  set (v := if fwdpath2 f BACKWARD then fwd_val2 O P false BACKWARD y else bwd_val2 O P false BACKWARD y) in *.
  assert (Hv : forall p, in_grid2 N p -> near (k + cost2 t N) (ssum2 N S) (v p) (DFT2 true N x p)).
  { intros p Hp. unfold v. destruct (fwdpath2 f BACKWARD).
    - apply (fwd_near2 u mu om O val fin RO t cexp n sts N permute ins outs f P FA HI HP BACKWARD k S y x p HT HS Hf1 Hp).
    - apply (bwd_near2 u mu om O val fin RO t cexp n sts N permute ins outs f P FA HI HP BACKWARD k S y x p HT HS Hf1 Hp). }
  assert (EO : forall p, bwd_out2 scaled y p = if scaled then scl O (rnorm (grid_points2 N)) (v p) else v p).
  { intros p. unfold bwd_out2. fold v. reflexivity. }
  destruct scaled; cbn [scale_cost scale_by] in *.
  - destruct (Hno eq_refl) as (Fr & Er).
    assert (Hfs : pw (k + cost2 t N + s) * (4 * ssum2 N S) <= om) by (eapply guard; [exact Hf|lia|lra]).
    split.
    + intros p Hp. rewrite EO.
      apply (scl_near u mu om O val fin RO (k + cost2 t N) s (ssum2 N S) _ (grid_points2 N) (v p) (DFT2 true N x p)); [lia|exact Fr|exact Er| |apply Hv, Hp|exact Hfs].
      apply Rle_trans with (32 * mu); [lra|]. apply Rmult_le_reg_r with (IZR (grid_points2 N)); [lra|].
      replace (ssum2 N S * / IZR (grid_points2 N) * IZR (grid_points2 N)) with (ssum2 N S) by (field; lra). exact Hmu'.
    + rewrite (l2_ext _ _ (summing_2 N) _ (fun p => cdist (cval (scl O (rnorm (grid_points2 N)) (v p))) (rmulc (/ IZR (grid_points2 N)) (DFT2 true N x p)))) by (intros p _; now rewrite EO).
      apply (nclose_scale u mu om O val fin RO c c_ge2 (dom2 N) (ssum2 N) (summing_2 N) (kn + ncost2 t N) s (sqrt (IZR (grid_points2 N)) * Q) _ (grid_points2 N) v); auto.
      * unfold c. nra.
      * intros p Hp. apply dom2_grid in Hp. destruct (near_mod _ _ _ _ (Hv p Hp)) as (V1 & V2). split; [exact V1|].
        eapply Rle_trans; [|exact Hfs]. rewrite (pow_add _ _ s). pose proof (pw_1 s).
        replace (pw (k + cost2 t N) * pw s * (4 * ssum2 N S)) with (pw s * (4 * (pw (k + cost2 t N) * ssum2 N S))) by ring.
        apply Rmult_le_compat_l; [lra|]. lra.
      * eapply guard; [exact Hfs|lia|]. split; [apply Rmult_le_pos; lra|]. eapply Rle_trans; [|exact Hmu']. apply Rmult_le_compat_r; lra.
  - split; [intros p Hp; rewrite EO; apply (Hv p Hp)|]. rewrite Nat.add_0_r, Rmult_1_r.
    rewrite (l2_ext _ _ (summing_2 N) _ (fun p => cdist (cval (v p)) (DFT2 true N x p))); [apply HN|].
    intros p _. rewrite EO. f_equal. unfold rmulc. rewrite !Rmult_1_l. destruct (DFT2 true N x p). reflexivity.
Qed.
Lemma c_forward2 bi bo (M0 : nat -> @rmem F) scaled x :
  isdata bi -> isdata bo -> bi = bo \/ t_pre f = true -> arrays_ok2 f bo M0 ->
  tables2 u val fin t cexp N false ->
  (forall p, in_grid2 N p -> cfin (x p)) ->
  (forall r, (r < n)%nat -> holds2 2 0 (ins r) (fld x) (getb bi (M0 r))) ->
  pw (cost2 t N) * (4 * size2 mu N (vals x)) <= om ->
  exists y,
  exec_all n (compute2 O rnorm esize f P scaled false FORWARD bi bo) M0
    (fun r m => holds2 2 permute (outs r) (fld y) (getb bo m) /\ framed M0 bo (fun r => (2 * t_fftsize f r)%Z) r m) /\
  (forall p, in_grid2 N p -> cfin (y p)) /\
  norm2 N (minus val y (DFT2 false N (vals x))) <= (pw (ncost2 t N) - 1) * (sqrt (IZR (grid_points2 N)) * nsize2 mu N (vals x)).
Proof.
  intros Hbi Hbo Hpl Ha HT Hfx Hx Hf. destruct dims_pos2 as (D1 & D2 & D4).
  exists (fwd_val2 O P false FORWARD x). split; [|split].
  - pose proof (call_runs2 O cexp rnorm esize ar n sts N permute ins outs f P bi bo M0 scaled false FORWARD x Hr HP Hbi Hbo) as H.
    destruct (forward_dirs2 permute ins outs f) as (E1 & E2 & E3 & E4). rewrite E1, E2, E3, E4 in H.
    apply H; auto.
  - intros p Hp. pose proof (ready_facts2 _ _ _ _ _ _ _ _ _ Hr) as FA. pose proof Hr as (_ & _ & HI & _).
    pose proof (fwd_near2 u mu om O val fin RO t cexp n sts N permute ins outs f P FA HI HP FORWARD 0 (fun q => cmod (vals x q) + 32 * mu) x (vals x) p HT) as H.
    rewrite ssum2_size in H by assumption. apply H; [intros q Hq; apply start_near, Hfx, Hq|exact Hf|exact Hp].
  - rewrite norm2_l2 by assumption.
    pose proof (path_norm2 FORWARD 0 (fun q => cmod (vals x q) + 32 * mu) 0 (nsize2 mu N (vals x)) x (vals x) HT) as H.
    rewrite ssum2_size in H by assumption. apply H; [intros q Hq; apply start_near, Hfx, Hq|exact Hf|apply nsize2_pos|].
    apply (nclose_start _ _ _ _ _ (summing_2 N)), nsize2_wt.
Qed.

Lemma c_backward2 b (M0 : nat -> @rmem F) scaled x :
  isdata b -> arrays_ok2 f b M0 ->
  (scaled = true -> forall r, (r < n)%nat -> (psize2 (ins r) <= psize2 (outs r))%Z) ->
  tables2 u val fin t cexp N true -> (scaled = true -> norm_ok u val fin s rnorm (grid_points2 N)) ->
  (forall p, in_grid2 N p -> cfin (x p)) ->
  (forall r, (r < n)%nat -> holds2 2 permute (outs r) (fld x) (getb b (M0 r))) ->
  pw (cost2 t N + bcost scaled) * (4 * size2 mu N (vals x)) <= om ->
  exists y,
  exec_all n (compute2 O rnorm esize f P scaled false BACKWARD b b) M0
    (fun r m => holds2 2 0 (ins r) (fld y) (getb b m) /\ framed M0 b (fun r => (2 * t_fftsize f r)%Z) r m) /\
  (forall p, in_grid2 N p -> cfin (y p)) /\
  norm2 N (minus val y (fun p => rmulc (bfac scaled) (DFT2 true N (vals x) p))) <=
  (pw (ncost2 t N + bcost scaled) - 1) * (sqrt (IZR (grid_points2 N)) * nsize2 mu N (vals x) * bfac scaled).
Proof.
  intros Hb Hro Hsz HT Hno Hfx Hx Hf. destruct dims_pos2 as (D1 & D2 & D4).
  exists (bwd_out2 scaled x). split.
  - unfold compute2. eapply good_exec; [apply bwd_run_2; assumption|]. intros r Hrn. split; [apply Hx, Hrn|apply framed_refl].
  - rewrite norm2_l2 by assumption.
    pose proof (bwd_out_norm2 scaled 0 (fun q => cmod (vals x q) + 32 * mu) 0 (nsize2 mu N (vals x)) x (vals x) HT Hno) as H.
    rewrite ssum2_size in H by assumption.
    apply H; [intros q Hq; apply start_near, Hfx, Hq|apply size2_ge|exact Hf|apply nsize2_pos|].
    apply (nclose_start _ _ _ _ _ (summing_2 N)), nsize2_wt.
Qed.

Lemma c_trip_good2 b (M0 : nat -> @rmem F) s1 scaled x :
  isdata b -> arrays_ok2 f b M0 ->
  (scaled = true -> forall r, (r < n)%nat -> (psize2 (ins r) <= psize2 (outs r))%Z) ->
  tables2 u val fin t cexp N false -> tables2 u val fin t cexp N true -> (scaled = true -> norm_ok u val fin s rnorm (grid_points2 N)) ->
  (forall p, in_grid2 N p -> cfin (x p)) ->
  pw (2 * cost2 t N + bcost scaled) * (4 * (size2 mu N (vals x) * IZR (grid_points2 N))) <= om ->
  exists y,
  good n (st2 f b M0 b 0 ins (fld x)) (pieces_compute2 O rnorm esize f P s1 false FORWARD b b ++ pieces_compute2 O rnorm esize f P scaled false BACKWARD b b) (st2 f b M0 b 0 ins (fld y)) /\
  (forall p, in_grid2 N p -> cfin (y p)) /\
  norm2 N (minus val y (fun p => rmulc (if scaled then 1 else IZR (grid_points2 N)) (vals x p))) <=
  (pw (2 * ncost2 t N + bcost scaled) - 1) * (nsize2 mu N (vals x) * (if scaled then 1 else IZR (grid_points2 N))).
Proof.
  intros Hb Hro Hsz HTf HTb Hno Hfx Hf. destruct dims_pos2 as (D1 & D2 & D4). pose proof Hmu as Hmu0.
  assert (G : 1 <= IZR (grid_points2 N)) by (apply IZR_le; lia).
  pose proof (size2_ge (vals x)) as Hge.
  assert (Hg1 : 32 * mu <= size2 mu N (vals x)) by nra.
  set (z := fwd_val2 O P false FORWARD x).
  exists (bwd_out2 scaled z). split.
  - assert (Gf : good n (st2 f b M0 b 0 ins (fld x)) (pieces_compute2 O rnorm esize f P s1 false FORWARD b b) (st2 f b M0 b permute outs (fld z))).
    { pose proof (call_good2 O cexp rnorm esize ar n sts N permute ins outs f P b b M0 s1 false FORWARD x Hr HP Hb Hb (or_introl eq_refl)) as H.
      destruct (forward_dirs2 permute ins outs f) as (E1 & E2 & E3 & E4). rewrite E1, E2, E3, E4 in H.
      apply H. exact Hro. }
    exact (good_app _ _ _ _ _ _ Gf (bwd_run_2 b M0 scaled Hb Hro Hsz z)).
  - rewrite norm2_l2 by assumption.
    assert (Hf1 : pw (cost2 t N) * (4 * size2 mu N (vals x)) <= om) by (eapply guard; [exact Hf|lia|split; [lra|nra]]).
    assert (HN : nclose u val c (ssum2 N) (ncost2 t N) (sqrt (IZR (grid_points2 N)) * nsize2 mu N (vals x)) z (DFT2 false N (vals x))).
    { pose proof (path_norm2 FORWARD 0 (fun q => cmod (vals x q) + 32 * mu) 0 (nsize2 mu N (vals x)) x (vals x) HTf) as H.
      rewrite ssum2_size in H by assumption. apply H; [intros q Hq; apply start_near, Hfx, Hq|exact Hf1|apply nsize2_pos|].
      apply (nclose_start _ _ _ _ _ (summing_2 N)), nsize2_wt. }
    pose proof (bwd_out_norm2 scaled (cost2 t N) (fun _ => size2 mu N (vals x)) (ncost2 t N) (sqrt (IZR (grid_points2 N)) * nsize2 mu N (vals x)) z (DFT2 false N (vals x)) HTb Hno) as H.
    rewrite ssum2_const in H by assumption.
    destruct H as (V1 & V2).
    + intros q Hq. split; [|exact Hg1]. pose proof (ready_facts2 _ _ _ _ _ _ _ _ _ Hr) as FA. pose proof Hr as (_ & _ & HI & _).
      pose proof (fwd_near2 u mu om O val fin RO t cexp n sts N permute ins outs f P FA HI HP FORWARD 0 (fun q => cmod (vals x q) + 32 * mu) x (vals x) q HTf) as H.
      rewrite ssum2_size in H by assumption. apply H; [intros q1 Hq1; apply start_near, Hfx, Hq1|exact Hf1|exact Hq].
    + apply Rmult_le_compat_r; lra.
    + replace (cost2 t N + cost2 t N + bcost scaled)%nat with (2 * cost2 t N + bcost scaled)%nat by lia. exact Hf.
    + apply Rmult_le_pos; [apply sqrt_pos|apply nsize2_pos].
    + exact HN.
    + split; [exact V1|].
      rewrite (l2_ext _ _ (summing_2 N) _ (fun p => cdist (cval (bwd_out2 scaled z p)) (rmulc (bfac scaled) (DFT2 true N (DFT2 false N (vals x)) p)))).
      * eapply Rle_trans; [exact V2|]. apply Req_le.
        replace (ncost2 t N + ncost2 t N + bcost scaled)%nat with (2 * ncost2 t N + bcost scaled)%nat by lia. f_equal.
        transitivity (sqrt (IZR (grid_points2 N)) * sqrt (IZR (grid_points2 N)) * nsize2 mu N (vals x) * bfac scaled); [ring|].
        rewrite sqrt_sqrt by lra. unfold scale_by. destruct scaled; field. lra.
      * intros p Hp. apply dom2_grid in Hp. rewrite minus_dist. f_equal.
        pose proof (inverse2 false N (vals x) p Hp) as Ei. cbn [negb] in Ei. rewrite Ei, rmulc_mul. f_equal.
        unfold scale_by. destruct scaled; field. lra.
Qed.
Lemma c_trip2 b (M0 : nat -> @rmem F) s1 scaled x :
  isdata b -> arrays_ok2 f b M0 ->
  (scaled = true -> forall r, (r < n)%nat -> (psize2 (ins r) <= psize2 (outs r))%Z) ->
  tables2 u val fin t cexp N false -> tables2 u val fin t cexp N true -> (scaled = true -> norm_ok u val fin s rnorm (grid_points2 N)) ->
  (forall p, in_grid2 N p -> cfin (x p)) ->
  (forall r, (r < n)%nat -> holds2 2 0 (ins r) (fld x) (getb b (M0 r))) ->
  pw (2 * cost2 t N + bcost scaled) * (4 * (size2 mu N (vals x) * IZR (grid_points2 N))) <= om ->
  exists y,
  exec_all n (fun r => compute2 O rnorm esize f P s1 false FORWARD b b r ++ compute2 O rnorm esize f P scaled false BACKWARD b b r) M0
    (fun r m => holds2 2 0 (ins r) (fld y) (getb b m) /\ framed M0 b (fun r => (2 * t_fftsize f r)%Z) r m) /\
  (forall p, in_grid2 N p -> cfin (y p)) /\
  norm2 N (minus val y (fun p => rmulc (if scaled then 1 else IZR (grid_points2 N)) (vals x p))) <=
  (pw (2 * ncost2 t N + bcost scaled) - 1) * (nsize2 mu N (vals x) * (if scaled then 1 else IZR (grid_points2 N))).
Proof.
  intros Hb Hro Hsz HTf HTb Hno Hfx Hx Hf.
  destruct (c_trip_good2 b M0 s1 scaled x Hb Hro Hsz HTf HTb Hno Hfx Hf) as (y & Ga & Hy). exists y. split; [|exact Hy].
  destruct (good_exec n _ _ _ M0 Ga) as (M' & H1 & H2).
  { intros r Hrn. split; [apply Hx, Hrn|apply framed_refl]. }
  exists M'. split; [exact H1|]. destruct H2 as (L & H2). exists L. unfold compute2.
  assert (E : start n (fun r => together (pieces_compute2 O rnorm esize f P s1 false FORWARD b b) r ++ together (pieces_compute2 O rnorm esize f P scaled false BACKWARD b b) r) M0
    = start n (together (pieces_compute2 O rnorm esize f P s1 false FORWARD b b ++ pieces_compute2 O rnorm esize f P scaled false BACKWARD b b)) M0).
  { unfold start. f_equal. apply map_ext. intros r. unfold together. rewrite map_app, concat_app. reflexivity. }
  rewrite E. exact H2.
Qed.
End Two.
End Thms.
