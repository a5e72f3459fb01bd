(** RoundKiss.v : the rounding error of the built-in 1d FFT (Kiss.v), by induction over its factor list.
    Exact arithmetic is the same program run with [Rops]. *)

From Coq Require Import Reals Lra Psatz.
From Verif Require Import Base Kiss KissPure KissAlg KissFactor KissReal Fft1d KissFinal Round.
Local Open Scope R_scope.

(** ** finite sums of reals *)
Fixpoint nrsum (n : nat) (f : Z -> R) : R :=
  match n with Datatypes.O => 0 | S m => nrsum m f + f (Z.of_nat m) end.
Definition rsum (n : Z) (f : Z -> R) : R := nrsum (Z.to_nat n) f.

Lemma nrsum_csum n f : nsum Rops n (fun i => (f i, 0)) = (nrsum n f, 0).
Proof.
  induction n as [|n IH]; [reflexivity|]. cbn [nsum nrsum]. rewrite IH. unfold c_add. cbn. f_equal. ring.
Qed.
Lemma rsum_csum n f : csum Rops n (fun i => (f i, 0)) = (rsum n f, 0).
Proof. apply nrsum_csum. Qed.

Lemma nrsum_ext n f g : (forall i, (0 <= i < Z.of_nat n)%Z -> f i = g i) -> nrsum n f = nrsum n g.
Proof. induction n as [|n IH]; intros H; [reflexivity|]. cbn. rewrite IH, H by (intros; try apply H; lia). reflexivity. Qed.
Lemma rsum_ext n f g : (forall i, (0 <= i < n)%Z -> f i = g i) -> rsum n f = rsum n g.
Proof. intros H. apply nrsum_ext. intros i Hi. apply H. lia. Qed.
Lemma nrsum_le n f g : (forall i, (0 <= i < Z.of_nat n)%Z -> f i <= g i) -> nrsum n f <= nrsum n g.
Proof.
  induction n as [|n IH]; intros H; [cbn; lra|]. cbn. apply Rplus_le_compat; [apply IH; intros; apply H; lia|apply H; lia].
Qed.
Lemma rsum_le n f g : (forall i, (0 <= i < n)%Z -> f i <= g i) -> rsum n f <= rsum n g.
Proof. intros H. apply nrsum_le. intros i Hi. apply H. lia. Qed.
Lemma nrsum_mul n f c : nrsum n (fun i => c * f i) = c * nrsum n f.
Proof. induction n as [|n IH]; cbn; [ring|rewrite IH; ring]. Qed.
Lemma rsum_mul n f c : rsum n (fun i => c * f i) = c * rsum n f.
Proof. apply nrsum_mul. Qed.
Lemma nrsum_plus n f g : nrsum n (fun i => f i + g i) = nrsum n f + nrsum n g.
Proof. induction n as [|n IH]; cbn; [ring|rewrite IH; ring]. Qed.
Lemma rsum_plus n f g : rsum n (fun i => f i + g i) = rsum n f + rsum n g.
Proof. apply nrsum_plus. Qed.
Lemma nrsum_const n c : nrsum n (fun _ => c) = INR n * c.
Proof. induction n as [|n IH]; [cbn; ring|]. cbn [nrsum]. rewrite IH, S_INR. ring. Qed.
Lemma rsum_const n c : (0 <= n)%Z -> rsum n (fun _ => c) = IZR n * c.
Proof. intros H. unfold rsum. rewrite nrsum_const, INR_IZR_INZ, Z2Nat.id by exact H. reflexivity. Qed.
Lemma rsum_pos n f : (forall i, (0 <= i < n)%Z -> 0 <= f i) -> 0 <= rsum n f.
Proof.
  intros H. replace 0 with (rsum n (fun i => 0 * 0)); [apply rsum_le; intros i Hi; specialize (H i Hi); lra|].
  unfold rsum. rewrite nrsum_const. ring.
Qed.
Lemma rsum_split p m f : (0 <= p)%Z -> (0 <= m)%Z ->
  rsum (p * m) f = rsum p (fun q => rsum m (fun i => f (q + p * i)%Z)).
Proof.
  intros Hp Hm. pose proof (csum_split Rops Rlaws p m (fun i => (f i, 0)) Hp Hm) as H.
  rewrite rsum_csum in H. apply (f_equal fst) in H. cbn [fst] in H. rewrite H.
  rewrite (csum_ext Rops p _ (fun q => (rsum m (fun i => f (q + p * i)%Z), 0))); [now rewrite rsum_csum|].
  intros q _. apply rsum_csum.
Qed.
Lemma rsum_elem n f i : (forall i, (0 <= i < n)%Z -> 0 <= f i) -> (0 <= i < n)%Z -> f i <= rsum n f.
Proof.
  intros H Hi. unfold rsum. assert (K : forall k, (i < Z.of_nat k)%Z -> (Z.of_nat k <= n)%Z -> f i <= nrsum k f).
  { induction k as [|k IH]; intros H1 H2; [lia|]. cbn [nrsum].
    assert (P : 0 <= nrsum k f).
    { pose proof (rsum_pos (Z.of_nat k) f) as Q. unfold rsum in Q. rewrite Nat2Z.id in Q. apply Q. intros j Hj. apply H. lia. }
    destruct (Z.eq_dec i (Z.of_nat k)) as [->|]; [lra|].
    specialize (IH ltac:(lia) ltac:(lia)). specialize (H (Z.of_nat k) ltac:(lia)). lra. }
  apply K; lia.
Qed.

Ltac rs := unfold rsum, Z.to_nat, Pos.to_nat; cbn [Pos.iter_op Nat.add nrsum Z.of_nat Pos.of_succ_nat Pos.succ].
Lemma rsum_1 f : rsum 1 f = f 0%Z.
Proof. rs. ring. Qed.
Lemma rsum_2 f : rsum 2 f = f 0%Z + f 1%Z.
Proof. rs. ring. Qed.
Lemma rsum_3 f : rsum 3 f = f 0%Z + f 1%Z + f 2%Z.
Proof. rs. ring. Qed.
Lemma rsum_4 f : rsum 4 f = f 0%Z + f 1%Z + f 2%Z + f 3%Z.
Proof. rs. ring. Qed.
Lemma rsum_5 f : rsum 5 f = f 0%Z + f 1%Z + f 2%Z + f 3%Z + f 4%Z.
Proof. rs. ring. Qed.

(** triangle inequality *)
Lemma nsum_mod n (f : Z -> R * R) : cmod (nsum Rops n f) <= nrsum n (fun i => cmod (f i)).
Proof.
  induction n as [|n IH]; cbn [nsum nrsum].
  - apply cmod_le; [lra|]. cbn. lra.
  - eapply Rle_trans; [apply (cmod_tri (nsum Rops n f) (f (Z.of_nat n)))|]. lra.
Qed.
Lemma csum_mod n (f : Z -> R * R) : cmod (csum Rops n f) <= rsum n (fun i => cmod (f i)).
Proof. apply nsum_mod. Qed.
Lemma nsum_dist n (f g : Z -> R * R) : cdist (nsum Rops n f) (nsum Rops n g) <= nrsum n (fun i => cdist (f i) (g i)).
Proof.
  induction n as [|n IH]; cbn [nsum nrsum].
  - rewrite cdist_refl. lra.
  - eapply Rle_trans; [|apply Rplus_le_compat_r, IH].
    eapply Rle_trans; [|apply (cmod_tri (fst (nsum Rops n f) - fst (nsum Rops n g), snd (nsum Rops n f) - snd (nsum Rops n g))
      (fst (f (Z.of_nat n)) - fst (g (Z.of_nat n)), snd (f (Z.of_nat n)) - snd (g (Z.of_nat n))))].
    apply Req_le. unfold cdist, c_add. cbn [fst snd Rops sadd]. f_equal. f_equal; ring.
Qed.
Lemma csum_dist n (f g : Z -> R * R) : cdist (csum Rops n f) (csum Rops n g) <= rsum n (fun i => cdist (f i) (g i)).
Proof. apply nsum_dist. Qed.

Lemma cmod_cexpR inv a n : cmod (cexpR inv a n) = 1.
Proof.
  unfold cmod, cexpR. cbn [fst snd]. pose proof (sin2_cos2 (phase inv a n)) as H. unfold Rsqr in H.
  replace (cos _ * cos _ + sin _ * sin _) with 1 by lra. apply sqrt_1.
Qed.

(** ** how many roundings a butterfly of radix p costs, when the twiddles are off by t roundings *)
Definition radix_cost (t : nat) (p : Z) : nat :=
  if (p =? 2)%Z then t + 4
  else if (p =? 3)%Z then 3 * t + 12
  else if (p =? 4)%Z then t + 5
  else if (p =? 5)%Z then 4 * t + 18
  else t + 3 + Z.to_nat (p - 1).
Fixpoint facs_cost (t : nat) (facs : list (Z * Z)) : nat :=
  match facs with [] => 0 | (p, _) :: rest => radix_cost t p + facs_cost t rest end.

Section Err.
Context {F : Type}.
Variables u mu om : R.
Variable O : sops F.
Variable val : F -> R.
Variable fin : F -> Prop.
Hypothesis RO : rounding u mu om O val fin.
Local Notation Hu := (r_u _ _ _ _ _ _ RO).
Local Notation Hmu := (r_mu _ _ _ _ _ _ RO).
Local Notation pw k := ((1 + u) ^ k).
Local Notation near := (near u val fin).
Local Notation cnear := (cnear u mu val fin).
Local Notation cval := (cval val).
Local Notation cfin := (cfin fin).
Local Notation pw_1 := (pw_1 u mu om O val fin RO).
Local Notation pw_le := (pw_le u mu om O val fin RO).
(** y is z up to K roundings of size S *)
Definition off (K : nat) (S : R) (y : F * F) (z : R * R) : Prop := cfin y /\ cdist (cval y) z <= (pw K - 1) * S.

(** a constant in front of the error as a power *)
Lemma pw_two k : 1 + 2 * (pw k - 1) <= pw (2 * k).
Proof. replace (2 * k)%nat with (k + k)%nat by lia. rewrite pow_add. pose proof (Rle_0_sqr (pw k - 1)) as H. unfold Rsqr in H. lra. Qed.
Lemma pw_three_halves k : 1 + 3 / 2 * (pw (2 * k) - 1) <= pw (3 * k).
Proof.
  replace (2 * k)%nat with (k + k)%nat by lia. replace (3 * k)%nat with (k + k + k)%nat by lia. rewrite !pow_add.
  pose proof (pw_1 k) as H1. set (v := pw k) in *.
  assert (H : 0 <= (v - 1) * (v - 1) * (v + 1 / 2)) by (apply Rmult_le_pos; [apply Rle_0_sqr|lra]). lra.
Qed.

Variable t : nat.
Variable inv : bool.
Variable n : Z.
Hypothesis Hn : (0 < n)%Z.
Local Notation w := (fun a => cexpR inv a n).
Variable st : @cfg F.
Variable stR : @cfg R.
Hypothesis Hnf : k_nfft st = n.
Hypothesis HnfR : k_nfft stR = n.
Hypothesis Hinv : k_inverse st = inv.
Hypothesis HinvR : k_inverse stR = inv.
Hypothesis Htw : forall i, (0 <= i < n)%Z -> off t 1 (twf O st i) (w i).
Hypothesis HtwR : forall i, (0 <= i < n)%Z -> twf Rops stR i = w i.

Lemma tw_near i : (0 <= i < n)%Z -> near t 1 (twf O st i) (twf Rops stR i).
Proof.
  intros Hi. rewrite HtwR by exact Hi. destruct (Htw i Hi) as (H1 & H2). split; [exact H1|]. split; [exact H2|]. rewrite cmod_cexpR. lra.
Qed.

Lemma tw_mul i g g' G : (0 <= i < n)%Z -> near 0 G g g' -> 32 * mu <= G -> pw (t + 2) * (2 * G) <= om ->
  cnear (t + 3) G (c_mul O g (twf O st i)) (c_mul Rops g' (twf Rops stR i)).
Proof.
  intros Hi Hg Hm Hf. pose proof (cnear_mul u mu om O val fin RO 0 t G 1 g g' (twf O st i) (twf Rops stR i)) as H. rewrite Rmult_1_r in H.
  apply H; [exact Hm|exact Hg|apply tw_near, Hi|exact Hf].
Qed.

Lemma tw_re i : (0 <= i < n)%Z -> fin (fst (twf O st i)) /\ Rabs (fst (twf Rops stR i)) <= 1 /\ Rabs (val (fst (twf O st i)) - fst (twf Rops stR i)) <= pw t - 1.
Proof.
  intros Hi. destruct (tw_near i Hi) as (H0 & H1 & H2). split; [apply H0|]. split; [eapply Rle_trans; [apply cmod_fst|exact H2]|].
  rewrite Rmult_1_r in H1. eapply Rle_trans; [|exact H1]. apply (cmod_fst (_, _)).
Qed.
Lemma tw_im i : (0 <= i < n)%Z -> fin (snd (twf O st i)) /\ Rabs (snd (twf Rops stR i)) <= 1 /\ Rabs (val (snd (twf O st i)) - snd (twf Rops stR i)) <= pw t - 1.
Proof.
  intros Hi. destruct (tw_near i Hi) as (H0 & H1 & H2). split; [apply H0|]. split; [eapply Rle_trans; [apply cmod_snd|exact H2]|].
  rewrite Rmult_1_r in H1. eapply Rle_trans; [|exact H1]. apply (cmod_snd (_, _)).
Qed.

(** from the invariant to the bound of one butterfly *)
Lemma fin_1 k K S y z : (k <= K)%nat -> cnear k S y z -> off K S y z.
Proof. intros Hk H. apply (cnear_near u mu om O val fin RO) in H. apply (near_mono u mu om O val fin RO k K S S) in H; [|exact Hk|lra]. split; apply H. Qed.
Lemma fin_32 k m S y z B : (k <= 2 * m)%nat -> B <= 3 / 2 * S -> cnear k B y z -> off (3 * m) S y z.
Proof.
  intros Hk HB H. apply (cnear_near u mu om O val fin RO) in H. pose proof (near_B _ _ _ _ _ _ _ H). apply (near_mono u mu om O val fin RO k (2 * m) B (3 / 2 * S)) in H; [|exact Hk|exact HB].
  destruct H as (Hc & H & _). split; [exact Hc|]. pose proof (pw_three_halves m). eapply Rle_trans; [exact H|].
  replace ((pw (2 * m) - 1) * (3 / 2 * S)) with ((3 / 2 * (pw (2 * m) - 1)) * S) by ring.
  apply Rmult_le_compat_r; lra.
Qed.
Lemma fin_2 k S y z B : B <= 2 * S -> cnear k B y z -> off (2 * k) S y z.
Proof.
  intros HB H. apply (cnear_near u mu om O val fin RO) in H. pose proof (near_B _ _ _ _ _ _ _ H). apply (near_mono u mu om O val fin RO k k B (2 * S)) in H; [|lia|exact HB].
  destruct H as (Hc & H & _). split; [exact Hc|]. pose proof (pw_two k). eapply Rle_trans; [exact H|].
  replace ((pw k - 1) * (2 * S)) with ((2 * (pw k - 1)) * S) by ring.
  apply Rmult_le_compat_r; lra.
Qed.

Section Bfly.
Variables (fs m p k : Z) (g : Z -> F * F) (g' : Z -> R * R) (G : Z -> R).
Hypothesis Hfs : (0 < fs)%Z.
Hypothesis Hm : (0 < m)%Z.
Hypothesis HN : (fs * (p * m) = n)%Z.
Hypothesis Hk : (0 <= k < m)%Z.
Hypothesis HG : forall q, (0 <= q < p)%Z -> near 0 (G q) (g q) (g' q) /\ 32 * mu <= G q.

Lemma G_pos q : (0 <= q < p)%Z -> 0 <= G q.
Proof. intros Hq. destruct (HG q Hq) as (H & _). exact (near_B _ _ _ _ _ _ _ H). Qed.

Lemma g_start q : (0 <= q < p)%Z -> cnear 1 (G q) (g q) (g' q).
Proof. intros Hq. destruct (HG q Hq) as (H1 & H2). apply (cnear_start u mu om O val fin RO); [|exact H1]. pose proof Hmu. lra. Qed.

(** side conditions "no overflow": a smaller power times a smaller size *)
Lemma fit K k' S B : pw K * (4 * S) <= om -> (k' <= K)%nat -> 0 <= B <= 4 * S -> pw k' * B <= om.
Proof.
  intros H Hk' HB. eapply Rle_trans; [|exact H]. apply Rmult_le_compat; try lra.
  - pose proof (pw_1 k'). lra.
  - apply pw_le, Hk'.
Qed.

Ltac lev := match goal with H : cnear ?a ?B ?y ?z |- cnear ?b ?C ?y ?z => apply (cnear_mono u mu om O val fin RO a b B C); [lia|lra|exact H] end.

Lemma err_2 q : p = 2%Z -> (0 <= q < 2)%Z -> pw (t + 4) * (4 * rsum 2 G) <= om ->
  off (t + 4) (rsum 2 G) (b2 O (twf O st) fs m k g q) (b2 Rops (twf Rops stR) fs m k g' q).
Proof.
  intros Ep Hq Hf. pose proof HN as HN'. rewrite Ep in HN'. rewrite rsum_2 in *. pose proof (G_pos 0 ltac:(lia)). pose proof (G_pos 1 ltac:(lia)).
  destruct (HG 0 ltac:(lia)) as (A0 & M0), (HG 1 ltac:(lia)) as (A1 & M1).
  assert (T : cnear (t + 3) (G 1%Z) (c_mul O (g 1%Z) (twf O st (k * fs))) (c_mul Rops (g' 1%Z) (twf Rops stR (k * fs)))).
  { apply tw_mul; auto; [clear HN; nia|]. eapply fit; [exact Hf|lia|lra]. }
  assert (Z0 : cnear (t + 3) (G 0%Z) (g 0%Z) (g' 0%Z)).
  { apply (cnear_mono u mu om O val fin RO 1 _ (G 0%Z)); [lia|lra|]. apply g_start. lia. }
  unfold b2. cbv zeta.
  apply (fin_1 (S (t + 3))); [lia|]. destruct (q =? 0)%Z; [apply (cnear_add u mu om O val fin RO)|apply (cnear_sub u mu om O val fin RO)]; auto;
    (eapply fit; [exact Hf|lia|lra]).
Qed.

Lemma err_4 q : p = 4%Z -> (0 <= q < 4)%Z -> pw (t + 5) * (4 * rsum 4 G) <= om ->
  off (t + 5) (rsum 4 G) (b4 O inv (twf O st) fs m k g q) (b4 Rops inv (twf Rops stR) fs m k g' q).
Proof.
  intros Ep Hq Hf. pose proof HN as HN'. rewrite Ep in HN'. rewrite rsum_4 in *.
  pose proof (G_pos 0 ltac:(lia)). pose proof (G_pos 1 ltac:(lia)). pose proof (G_pos 2 ltac:(lia)). pose proof (G_pos 3 ltac:(lia)).
  destruct (HG 0 ltac:(lia)) as (A0 & M0), (HG 1 ltac:(lia)) as (A1 & M1), (HG 2 ltac:(lia)) as (A2 & M2), (HG 3 ltac:(lia)) as (A3 & M3).
  assert (T0 : cnear (t + 3) (G 1%Z) (c_mul O (g 1%Z) (twf O st (k * fs))) (c_mul Rops (g' 1%Z) (twf Rops stR (k * fs)))).
  { apply tw_mul; auto; [clear HN; nia|]. eapply fit; [exact Hf|lia|lra]. }
  assert (T1 : cnear (t + 3) (G 2%Z) (c_mul O (g 2%Z) (twf O st (k * (fs * 2)))) (c_mul Rops (g' 2%Z) (twf Rops stR (k * (fs * 2))))).
  { apply tw_mul; auto; [clear HN; nia|]. eapply fit; [exact Hf|lia|lra]. }
  assert (T2 : cnear (t + 3) (G 3%Z) (c_mul O (g 3%Z) (twf O st (k * (fs * 3)))) (c_mul Rops (g' 3%Z) (twf Rops stR (k * (fs * 3))))).
  { apply tw_mul; auto; [clear HN; nia|]. eapply fit; [exact Hf|lia|lra]. }
  assert (Z0 : cnear (t + 3) (G 0%Z) (g 0%Z) (g' 0%Z)).
  { apply (cnear_mono u mu om O val fin RO 1 _ (G 0%Z)); [lia|lra|]. apply g_start. lia. }
  unfold b4. cbv zeta.
  set (t0 := c_mul O (g 1%Z) _) in *. set (t1 := c_mul O (g 2%Z) _) in *. set (t2 := c_mul O (g 3%Z) _) in *.
  set (e0 := c_mul Rops (g' 1%Z) _) in *. set (e1 := c_mul Rops (g' 2%Z) _) in *. set (e2 := c_mul Rops (g' 3%Z) _) in *.
  assert (F5 : cnear (S (t + 3)) (G 0%Z + G 2%Z) (c_sub O (g 0%Z) t1) (c_sub Rops (g' 0%Z) e1)).
  { apply (cnear_sub u mu om O val fin RO); auto. eapply fit; [exact Hf|lia|lra]. }
  assert (F0 : cnear (S (t + 3)) (G 0%Z + G 2%Z) (c_add O (g 0%Z) t1) (c_add Rops (g' 0%Z) e1)).
  { apply (cnear_add u mu om O val fin RO); auto. eapply fit; [exact Hf|lia|lra]. }
  assert (F3 : cnear (S (t + 3)) (G 1%Z + G 3%Z) (c_add O t0 t2) (c_add Rops e0 e2)).
  { apply (cnear_add u mu om O val fin RO); auto. eapply fit; [exact Hf|lia|lra]. }
  assert (F4 : cnear (S (t + 3)) (G 1%Z + G 3%Z) (c_sub O t0 t2) (c_sub Rops e0 e2)).
  { apply (cnear_sub u mu om O val fin RO); auto. eapply fit; [exact Hf|lia|lra]. }
  replace (G 0%Z + G 1%Z + G 2%Z + G 3%Z) with ((G 0%Z + G 2%Z) + (G 1%Z + G 3%Z)) in * by ring.
  apply (fin_1 (S (S (t + 3)))); [lia|].
  assert (V : forall b : bool, cnear (S (S (t + 3))) (G 0%Z + G 2%Z + (G 1%Z + G 3%Z))
     (if b then (ssub O (fst (c_sub O (g 0%Z) t1)) (snd (c_sub O t0 t2)), sadd O (snd (c_sub O (g 0%Z) t1)) (fst (c_sub O t0 t2)))
      else (sadd O (fst (c_sub O (g 0%Z) t1)) (snd (c_sub O t0 t2)), ssub O (snd (c_sub O (g 0%Z) t1)) (fst (c_sub O t0 t2))))
     (if b then (ssub Rops (fst (c_sub Rops (g' 0%Z) e1)) (snd (c_sub Rops e0 e2)), sadd Rops (snd (c_sub Rops (g' 0%Z) e1)) (fst (c_sub Rops e0 e2)))
      else (sadd Rops (fst (c_sub Rops (g' 0%Z) e1)) (snd (c_sub Rops e0 e2)), ssub Rops (snd (c_sub Rops (g' 0%Z) e1)) (fst (c_sub Rops e0 e2))))).
  { intros [].
    - apply (cnear_addi u mu om O val fin RO); auto. eapply fit; [exact Hf|lia|lra].
    - apply (cnear_subi u mu om O val fin RO); auto. eapply fit; [exact Hf|lia|lra]. }
  pose proof (V true) as V1. pose proof (V false) as V2. cbv iota in V1, V2. clear V.
  destruct (q =? 0)%Z; [apply (cnear_add u mu om O val fin RO); auto; (eapply fit; [exact Hf|lia|lra])|].
  destruct (q =? 1)%Z; [destruct inv; assumption|].
  destruct (q =? 2)%Z; [apply (cnear_sub u mu om O val fin RO); auto; (eapply fit; [exact Hf|lia|lra])|].
  destruct inv; assumption.
Qed.

Lemma err_3 q : p = 3%Z -> (0 <= q < 3)%Z -> pw (3 * t + 12) * (4 * rsum 3 G) <= om ->
  off (3 * t + 12) (rsum 3 G) (b3 O (twf O st) fs m k g q) (b3 Rops (twf Rops stR) fs m k g' q).
Proof.
  intros Ep Hq Hf. pose proof HN as HN'. rewrite Ep in HN'. rewrite rsum_3 in *.
  pose proof (G_pos 0 ltac:(lia)). pose proof (G_pos 1 ltac:(lia)). pose proof (G_pos 2 ltac:(lia)).
  destruct (HG 0 ltac:(lia)) as (A0 & M0), (HG 1 ltac:(lia)) as (A1 & M1), (HG 2 ltac:(lia)) as (A2 & M2).
  pose proof Hmu.
  assert (T1 : cnear (t + 3) (G 1%Z) (c_mul O (g 1%Z) (twf O st (k * fs))) (c_mul Rops (g' 1%Z) (twf Rops stR (k * fs)))).
  { apply tw_mul; auto; [clear HN; nia|]. eapply fit; [exact Hf|lia|lra]. }
  assert (T2 : cnear (t + 3) (G 2%Z) (c_mul O (g 2%Z) (twf O st (k * (fs * 2)))) (c_mul Rops (g' 2%Z) (twf Rops stR (k * (fs * 2))))).
  { apply tw_mul; auto; [clear HN; nia|]. eapply fit; [exact Hf|lia|lra]. }
  assert (Z0 : cnear 1 (G 0%Z) (g 0%Z) (g' 0%Z)) by (apply g_start; lia).
  unfold b3. cbv zeta.
  set (t1 := c_mul O (g 1%Z) _) in *. set (t2 := c_mul O (g 2%Z) _) in *.
  set (e1 := c_mul Rops (g' 1%Z) _) in *. set (e2 := c_mul Rops (g' 2%Z) _) in *.
  assert (F3 : cnear (S (t + 3)) (G 1%Z + G 2%Z) (c_add O t1 t2) (c_add Rops e1 e2)).
  { apply (cnear_add u mu om O val fin RO); auto. eapply fit; [exact Hf|lia|lra]. }
  assert (F0 : cnear (S (t + 3)) (G 1%Z + G 2%Z) (c_sub O t1 t2) (c_sub Rops e1 e2)).
  { apply (cnear_sub u mu om O val fin RO); auto. eapply fit; [exact Hf|lia|lra]. }
  replace (3 * t + 12)%nat with (3 * (t + 4))%nat in * by lia.
  destruct (q =? 0)%Z.
  { apply (fin_32 (S (S (t + 3))) (t + 4) _ _ _ (G 0%Z + (G 1%Z + G 2%Z))); [lia|lra|].
    apply (cnear_add u mu om O val fin RO); auto; [lev|]. eapply fit; [exact Hf|lia|lra]. }
  set (t3 := c_add O t1 t2) in *. set (e3 := c_add Rops e1 e2) in *.
  set (t0 := c_sub O t1 t2) in *. set (e0 := c_sub Rops e1 e2) in *.
  destruct (tw_im (fs * m) ltac:(clear HN; nia)) as (I0 & I1 & I2).
  assert (FS : cnear (S (t + 3) + t + 2) (G 1%Z + G 2%Z) (c_scale O t0 (snd (twf O st (fs * m)))) (c_scale Rops e0 (snd (twf Rops stR (fs * m))))).
  { apply (cnear_scale u mu om O val fin RO); auto; [lra|]. eapply fit; [exact Hf|lia|lra]. }
  assert (FH : cnear (S (t + 3) + 2) ((G 1%Z + G 2%Z) / 2) (shalf O (fst t3), shalf O (snd t3)) (shalf Rops (fst e3), shalf Rops (snd e3))).
  { apply (cnear_half u mu om O val fin RO); auto; [lra|]. eapply fit; [exact Hf|lia|lra]. }
  assert (FM : cnear (S (S (t + 3) + 2)) (G 0%Z + (G 1%Z + G 2%Z) / 2) (c_sub O (g 0%Z) (shalf O (fst t3), shalf O (snd t3)))
     (c_sub Rops (g' 0%Z) (shalf Rops (fst e3), shalf Rops (snd e3)))).
  { apply (cnear_sub u mu om O val fin RO); auto; [lev|]. eapply fit; [exact Hf|lia|lra]. }
  set (fm := c_sub O (g 0%Z) _) in FM. set (em := c_sub Rops (g' 0%Z) _) in FM.
  change (ssub O (fst (g 0%Z)) (shalf O (fst t3)), ssub O (snd (g 0%Z)) (shalf O (snd t3))) with fm.
  change (ssub Rops (fst (g' 0%Z)) (shalf Rops (fst e3)), ssub Rops (snd (g' 0%Z)) (shalf Rops (snd e3))) with em.
  set (ts := c_scale O t0 _) in *. set (es := c_scale Rops e0 _) in *.
  assert (FM' : cnear (S (t + 3) + t + 2 + 1) (G 0%Z + (G 1%Z + G 2%Z) / 2) fm em) by lev.
  assert (FS' : cnear (S (t + 3) + t + 2 + 1) (G 1%Z + G 2%Z) ts es) by lev.
  apply (fin_32 (S (S (t + 3) + t + 2 + 1)) (t + 4) _ _ _ ((G 0%Z + (G 1%Z + G 2%Z) / 2) + (G 1%Z + G 2%Z))); [lia|lra|].
  destruct (q =? 1)%Z; [apply (cnear_addi u mu om O val fin RO)|apply (cnear_subi u mu om O val fin RO)]; auto; (eapply fit; [exact Hf|lia|lra]).
Qed.

Lemma err_5 q : p = 5%Z -> (0 <= q < 5)%Z -> pw (4 * t + 18) * (4 * rsum 5 G) <= om ->
  off (4 * t + 18) (rsum 5 G) (b5 O (twf O st) fs m k g q) (b5 Rops (twf Rops stR) fs m k g' q).
Proof.
  intros Ep Hq Hf. pose proof HN as HN'. rewrite Ep in HN'. rewrite rsum_5 in *.
  pose proof (G_pos 0 ltac:(lia)). pose proof (G_pos 1 ltac:(lia)). pose proof (G_pos 2 ltac:(lia)).
  pose proof (G_pos 3 ltac:(lia)). pose proof (G_pos 4 ltac:(lia)).
  destruct (HG 0 ltac:(lia)) as (A0 & M0), (HG 1 ltac:(lia)) as (A1 & M1), (HG 2 ltac:(lia)) as (A2 & M2),
    (HG 3 ltac:(lia)) as (A3 & M3), (HG 4 ltac:(lia)) as (A4 & M4).
  pose proof Hmu.
  assert (T1 : cnear (t + 3) (G 1%Z) (c_mul O (g 1%Z) (twf O st (k * fs))) (c_mul Rops (g' 1%Z) (twf Rops stR (k * fs)))).
  { apply tw_mul; auto; [clear HN; nia|]. eapply fit; [exact Hf|lia|lra]. }
  assert (T2 : cnear (t + 3) (G 2%Z) (c_mul O (g 2%Z) (twf O st (2 * k * fs))) (c_mul Rops (g' 2%Z) (twf Rops stR (2 * k * fs)))).
  { apply tw_mul; auto; [clear HN; nia|]. eapply fit; [exact Hf|lia|lra]. }
  assert (T3 : cnear (t + 3) (G 3%Z) (c_mul O (g 3%Z) (twf O st (3 * k * fs))) (c_mul Rops (g' 3%Z) (twf Rops stR (3 * k * fs)))).
  { apply tw_mul; auto; [clear HN; nia|]. eapply fit; [exact Hf|lia|lra]. }
  assert (T4 : cnear (t + 3) (G 4%Z) (c_mul O (g 4%Z) (twf O st (4 * k * fs))) (c_mul Rops (g' 4%Z) (twf Rops stR (4 * k * fs)))).
  { apply tw_mul; auto; [clear HN; nia|]. eapply fit; [exact Hf|lia|lra]. }
  assert (Z0 : cnear 1 (G 0%Z) (g 0%Z) (g' 0%Z)) by (apply g_start; lia).
  unfold b5. cbv zeta.
  set (t1 := c_mul O (g 1%Z) _) in *. set (t2 := c_mul O (g 2%Z) _) in *. set (t3 := c_mul O (g 3%Z) _) in *. set (t4 := c_mul O (g 4%Z) _) in *.
  set (e1 := c_mul Rops (g' 1%Z) _) in *. set (e2 := c_mul Rops (g' 2%Z) _) in *. set (e3 := c_mul Rops (g' 3%Z) _) in *. set (e4 := c_mul Rops (g' 4%Z) _) in *.
  set (G0 := G 0%Z) in *. set (P := G 1%Z + G 4%Z). set (Q := G 2%Z + G 3%Z).
  assert (HS : G0 + G 1%Z + G 2%Z + G 3%Z + G 4%Z = G0 + P + Q) by (unfold P, Q; ring). rewrite HS in *.
  assert (HP : 0 <= P /\ 32 * mu <= P) by (unfold P; lra). assert (HQ : 0 <= Q /\ 32 * mu <= Q) by (unfold Q; lra).
  assert (F7 : cnear (S (t + 3)) P (c_add O t1 t4) (c_add Rops e1 e4)).
  { apply (cnear_add u mu om O val fin RO); auto. eapply fit; [exact Hf|lia|fold P; lra]. }
  assert (F10 : cnear (S (t + 3)) P (c_sub O t1 t4) (c_sub Rops e1 e4)).
  { apply (cnear_sub u mu om O val fin RO); auto. eapply fit; [exact Hf|lia|fold P; lra]. }
  assert (F8 : cnear (S (t + 3)) Q (c_add O t2 t3) (c_add Rops e2 e3)).
  { apply (cnear_add u mu om O val fin RO); auto. eapply fit; [exact Hf|lia|fold Q; lra]. }
  assert (F9 : cnear (S (t + 3)) Q (c_sub O t2 t3) (c_sub Rops e2 e3)).
  { apply (cnear_sub u mu om O val fin RO); auto. eapply fit; [exact Hf|lia|fold Q; lra]. }
  clearbody P Q. clear HS.
  replace (4 * t + 18)%nat with (2 * (2 * t + 9))%nat in * by lia.
  set (t7 := c_add O t1 t4) in *. set (e7 := c_add Rops e1 e4) in *. set (t8 := c_add O t2 t3) in *. set (e8 := c_add Rops e2 e3) in *.
  set (t10 := c_sub O t1 t4) in *. set (e10 := c_sub Rops e1 e4) in *. set (t9 := c_sub O t2 t3) in *. set (e9 := c_sub Rops e2 e3) in *.
  destruct (q =? 0)%Z.
  { apply (fin_2 (2 * t + 9) _ _ _ (G0 + (P + Q))); [lra|].
    assert (F78 : cnear (S (S (t + 3))) (P + Q) (c_add O t7 t8) (c_add Rops e7 e8)).
    { apply (cnear_add u mu om O val fin RO); auto. eapply fit; [exact Hf|lia|lra]. }
    apply (cnear_mono u mu om O val fin RO (S (S (S (t + 3)))) _ (G0 + (P + Q))); [lia|lra|].
    apply (cnear_add u mu om O val fin RO _ _ _ (g 0%Z) (g' 0%Z) (c_add O t7 t8) (c_add Rops e7 e8)); auto; [lev|]. eapply fit; [exact Hf|lia|lra]. }
  set (ya := twf O st (fs * m)) in *. set (za := twf Rops stR (fs * m)) in *.
  set (yb := twf O st (fs * 2 * m)) in *. set (zb := twf Rops stR (fs * 2 * m)) in *.
  destruct (tw_re (fs * m) ltac:(clear HN; nia)) as (Ra0 & Ra1 & Ra2). destruct (tw_im (fs * m) ltac:(clear HN; nia)) as (Ia0 & Ia1 & Ia2).
  destruct (tw_re (fs * 2 * m) ltac:(clear HN; nia)) as (Rb0 & Rb1 & Rb2). destruct (tw_im (fs * 2 * m) ltac:(clear HN; nia)) as (Ib0 & Ib1 & Ib2).
  fold ya in Ra0, Ia0. fold yb in Rb0, Ib0. fold ya za in Ra1, Ra2, Ia1, Ia2. fold yb zb in Rb1, Rb2, Ib1, Ib2.
  (* the scaled terms *)
  assert (SC : forall B x ex s es, cnear (S (t + 3)) B x ex -> 0 <= B -> 32 * mu <= B -> B <= G0 + P + Q -> fin s -> Rabs es <= 1 -> Rabs (val s - es) <= pw t - 1 ->
     cnear (2 * t + 6) B (c_scale O x s) (c_scale Rops ex es)).
  { intros B x ex s es Y1 Y2 Y3 Y4 Y0 Y5 Y6. replace (2 * t + 6)%nat with (S (t + 3) + t + 2)%nat by lia.
    apply (cnear_scale u mu om O val fin RO); auto; [lra|]. eapply fit; [exact Hf|lia|lra]. }
  (* t5 and t11 *)
  assert (ST : forall s es s' es', fin s -> Rabs es <= 1 -> Rabs (val s - es) <= pw t - 1 -> fin s' -> Rabs es' <= 1 -> Rabs (val s' - es') <= pw t - 1 ->
     cnear (2 * t + 8) (G0 + P + Q) (c_add O (c_add O (g 0%Z) (c_scale O t7 s)) (c_scale O t8 s'))
       (c_add Rops (c_add Rops (g' 0%Z) (c_scale Rops e7 es)) (c_scale Rops e8 es'))).
  { intros s es s' es' Y0 Y1 Y2 Y0' Y3 Y4. replace (2 * t + 8)%nat with (S (S (2 * t + 6))) by lia.
    pose proof (SC P t7 e7 s es F7 ltac:(lra) ltac:(lra) ltac:(lra) Y0 Y1 Y2) as X7.
    pose proof (SC Q t8 e8 s' es' F8 ltac:(lra) ltac:(lra) ltac:(lra) Y0' Y3 Y4) as X8.
    apply (cnear_add u mu om O val fin RO).
    - apply (cnear_add u mu om O val fin RO); auto; [lev|]. eapply fit; [exact Hf|lia|lra].
    - lev.
    - eapply fit; [exact Hf|lia|lra]. }
  (* t6 *)
  assert (S6 : cnear (S (2 * t + 6)) (P + Q)
     (sadd O (smul O (snd t10) (snd ya)) (smul O (snd t9) (snd yb)), ssub O (sopp O (smul O (fst t10) (snd ya))) (smul O (fst t9) (snd yb)))
     (sadd Rops (smul Rops (snd e10) (snd za)) (smul Rops (snd e9) (snd zb)), ssub Rops (sopp Rops (smul Rops (fst e10) (snd za))) (smul Rops (fst e9) (snd zb)))).
  { apply (cnear_t6 u mu om O val fin RO _ _ _ (c_scale O t10 (snd ya)) (c_scale Rops e10 (snd za)) (c_scale O t9 (snd yb)) (c_scale Rops e9 (snd zb))).
    - apply SC; auto; lra.
    - apply SC; auto; lra.
    - eapply fit; [exact Hf|lia|lra]. }
  (* t12 *)
  assert (S12 : cnear (S (2 * t + 6)) (P + Q)
     (sadd O (sopp O (smul O (snd t10) (snd yb))) (smul O (snd t9) (snd ya)), ssub O (smul O (fst t10) (snd yb)) (smul O (fst t9) (snd ya)))
     (sadd Rops (sopp Rops (smul Rops (snd e10) (snd zb))) (smul Rops (snd e9) (snd za)), ssub Rops (smul Rops (fst e10) (snd zb)) (smul Rops (fst e9) (snd za)))).
  { apply (cnear_t12 u mu om O val fin RO _ _ _ (c_scale O t10 (snd yb)) (c_scale Rops e10 (snd zb)) (c_scale O t9 (snd ya)) (c_scale Rops e9 (snd za))).
    - apply SC; auto; lra.
    - apply SC; auto; lra.
    - eapply fit; [exact Hf|lia|lra]. }
  pose proof (ST (fst ya) (fst za) (fst yb) (fst zb) Ra0 Ra1 Ra2 Rb0 Rb1 Rb2) as S5.
  pose proof (ST (fst yb) (fst zb) (fst ya) (fst za) Rb0 Rb1 Rb2 Ra0 Ra1 Ra2) as S11.
  apply (fin_2 (2 * t + 9) _ _ _ ((G0 + P + Q) + (P + Q))); [lra|]. replace (2 * t + 9)%nat with (S (2 * t + 8)) by lia.
  assert (L6 : pw (2 * t + 8) * (G0 + P + Q + (P + Q)) <= om) by (eapply fit; [exact Hf|lia|lra]).
  destruct (q =? 1)%Z.
  { refine (cnear_sub u mu om O val fin RO _ _ _ _ _ _ _ S5 _ L6). lev. }
  destruct (q =? 2)%Z.
  { refine (cnear_add u mu om O val fin RO _ _ _ _ _ _ _ S11 _ L6). lev. }
  destruct (q =? 3)%Z.
  { refine (cnear_sub u mu om O val fin RO _ _ _ _ _ _ _ S11 _ L6). lev. }
  refine (cnear_add u mu om O val fin RO _ _ _ _ _ _ _ S5 _ L6). lev.
Qed.

Lemma err_gen q : (1 <= p)%Z -> (0 <= q < p)%Z -> pw (t + 3 + Z.to_nat (p - 1)) * (4 * rsum p G) <= om ->
  off (t + 3 + Z.to_nat (p - 1)) (rsum p G) (bgen O (twf O st) n fs m p k g q) (bgen Rops (twf Rops stR) n fs m p k g' q).
Proof.
  intros Hp Hq Hf. unfold bgen. set (step := (fs * (k + q * m))%Z).
  assert (Hstep : (0 <= step < n)%Z) by (subst step; assert (0 <= k + q * m < p * m)%Z by nia; nia).
  pose proof Hmu.
  assert (K : forall c, (Z.of_nat c <= p - 1)%Z ->
    fst (gacc O (twf O st) n step g c) = fst (gacc Rops (twf Rops stR) n step g' c) /\
    cnear (t + 3 + c) (rsum (Z.of_nat c + 1) G) (snd (gacc O (twf O st) n step g c)) (snd (gacc Rops (twf Rops stR) n step g' c))).
  { assert (RS : forall c, (Z.of_nat c <= p - 1)%Z -> 0 <= rsum (Z.of_nat c + 1) G <= rsum p G).
    { intros c Hc. split; [apply rsum_pos; intros; apply G_pos; lia|].
      unfold rsum. assert (M : forall a b, (a <= b)%nat -> (Z.of_nat b <= p)%Z -> nrsum a G <= nrsum b G).
      { intros a b Hab. induction Hab as [|b Hab IH]; intros Hb; [lra|]. cbn [nrsum].
        specialize (IH ltac:(lia)). pose proof (G_pos (Z.of_nat b) ltac:(lia)). lra. }
      apply M; lia. }
    induction c as [|c IH]; intros Hc.
    - cbn [gacc fst snd]. split; [reflexivity|]. change (Z.of_nat 0 + 1)%Z with 1%Z.
      apply (cnear_mono u mu om O val fin RO 1 _ (G 0%Z)); [lia|rewrite rsum_1; apply Rle_refl|]. apply g_start. lia.
    - destruct (IH ltac:(lia)) as (E1 & E2). clear IH.
      pose proof (gacc_range Rops (twf Rops stR) n step g' (S c) Hstep) as HR.
      cbn [gacc] in *. cbv zeta in *. cbn [fst snd] in *. rewrite E1 in *. split; [reflexivity|].
      replace (t + 3 + S c)%nat with (S (t + 3 + c)) by lia.
      replace (rsum (Z.of_nat (S c) + 1) G) with (rsum (Z.of_nat c + 1) G + G (Z.of_nat c + 1)%Z).
      2:{ unfold rsum. replace (Z.to_nat (Z.of_nat (S c) + 1)) with (S (Z.to_nat (Z.of_nat c + 1))) by lia. cbn [nrsum].
          rewrite Z2Nat.id by lia. reflexivity. }
      destruct (HG (Z.of_nat c + 1) ltac:(lia)) as (Hg1 & Hg2).
      pose proof (RS c ltac:(lia)). pose proof (RS (S c) Hc) as RS2.
      replace (rsum (Z.of_nat (S c) + 1) G) with (rsum (Z.of_nat c + 1) G + G (Z.of_nat c + 1)%Z) in RS2.
      2:{ unfold rsum. replace (Z.to_nat (Z.of_nat (S c) + 1)) with (S (Z.to_nat (Z.of_nat c + 1))) by lia. cbn [nrsum].
          rewrite Z2Nat.id by lia. reflexivity. }
      assert (G1 : 0 <= G (Z.of_nat c + 1)%Z) by (apply G_pos; lia).
      apply (cnear_add u mu om O val fin RO); [exact E2| |eapply fit; [exact Hf|lia|lra]].
      apply (cnear_mono u mu om O val fin RO (t + 3) _ (G (Z.of_nat c + 1)%Z)); [lia|lra|].
      apply tw_mul; auto. eapply fit; [exact Hf|lia|lra]. }
  destruct (K (Z.to_nat (p - 1)) ltac:(lia)) as (_ & E). replace (Z.of_nat (Z.to_nat (p - 1)) + 1)%Z with p in E by lia.
  eapply fin_1; [|exact E]. lia.
Qed.

Lemma bfly_err q : (1 <= p)%Z -> (0 <= q < p)%Z -> pw (radix_cost t p) * (4 * rsum p G) <= om ->
  off (radix_cost t p) (rsum p G) (bfly O st fs m p k g q) (bfly Rops stR fs m p k g' q).
Proof.
  intros Hp Hq Hf. unfold bfly, radix_cost in *. rewrite Hnf, HnfR, Hinv, HinvR.
  destruct (Z.eqb_spec p 2) as [E|_]; [rewrite E in Hq, Hf; rewrite E; apply err_2; auto|].
  destruct (Z.eqb_spec p 3) as [E|_]; [rewrite E in Hq, Hf; rewrite E; apply err_3; auto|].
  destruct (Z.eqb_spec p 4) as [E|_]; [rewrite E in Hq, Hf; rewrite E; apply err_4; auto|].
  destruct (Z.eqb_spec p 5) as [E|_]; [rewrite E in Hq, Hf; rewrite E; apply err_5; auto|].
  apply err_gen; auto.
Qed.
End Bfly.

(** exact butterflies do not amplify *)
Lemma bfly_lin fs m p k g g' q : (0 < fs)%Z -> (0 < m)%Z -> (1 <= p)%Z -> (fs * (p * m) = n)%Z -> (0 <= k < m)%Z -> (0 <= q < p)%Z ->
  cdist (bfly Rops stR fs m p k g q) (bfly Rops stR fs m p k g' q) <= rsum p (fun q => cdist (g q) (g' q)).
Proof.
  intros H1 H2 H3 H4 H5 H6.
  rewrite !(bfly_dft Rops Rlaws inv n (fun a => cexpR inv a n) Hn (cexpR_roots inv n Hn) stR HnfR HinvR HtwR) by assumption.
  eapply Rle_trans; [apply csum_dist|]. apply Req_le, rsum_ext. intros i _.
  transitivity (cdist (g i) (g' i) * 1); [|ring]. rewrite <- (cmod_cexpR inv (fs * i * (k + q * m)) n).
  unfold cdist. rewrite <- cmod_mul. unfold c_mul. cbn [fst snd Rops sadd ssub smul]. f_equal. f_equal; ring.
Qed.
Lemma bfly_size fs m p k g q : (0 < fs)%Z -> (0 < m)%Z -> (1 <= p)%Z -> (fs * (p * m) = n)%Z -> (0 <= k < m)%Z -> (0 <= q < p)%Z ->
  cmod (bfly Rops stR fs m p k g q) <= rsum p (fun q => cmod (g q)).
Proof.
  intros H1 H2 H3 H4 H5 H6.
  rewrite !(bfly_dft Rops Rlaws inv n (fun a => cexpR inv a n) Hn (cexpR_roots inv n Hn) stR HnfR HinvR HtwR) by assumption.
  eapply Rle_trans; [apply csum_mod|]. apply Req_le, rsum_ext. intros i _. rewrite cmod_mul, cmod_cexpR. ring.
Qed.

(** ** the whole transform; the inputs may already carry an error *)
Lemma wk_err facs : forall fs L k x x' S j, (0 < fs)%Z -> chain facs L -> (fs * L = n)%Z -> (0 <= j < L)%Z ->
  (forall i, (0 <= i < L)%Z -> near k (S i) (x i) (x' i) /\ 32 * mu <= S i) ->
  pw (k + facs_cost t facs) * (4 * rsum L S) <= om ->
  near (k + facs_cost t facs) (rsum L S) (wk O st facs fs x j) (wk Rops stR facs fs x' j).
Proof.
  induction facs as [|[p m] rest IH]; intros fs L k x x' S j Hfs Hch HL Hj Hx Hf; [contradiction|].
  cbn [chain] in Hch. destruct Hch as (Hp & Hm & HpmL & Hrest).
  pose proof (Z.mod_pos_bound j m ltac:(lia)) as Hmod.
  assert (Hq : (0 <= j / m < p)%Z) by (split; [apply Z.div_pos; lia|apply Z.div_lt_upper_bound; nia]).
  assert (HS0 : forall i, (0 <= i < L)%Z -> 0 <= S i) by (intros i Hi; apply (near_B _ _ _ _ _ _ _ (proj1 (Hx i Hi)))).
  set (SG := fun q => rsum m (fun i => S (q + p * i)%Z)).
  assert (HSG : rsum L S = rsum p SG) by (rewrite <- HpmL; apply rsum_split; lia).
  assert (HSG0 : forall q, (0 <= q < p)%Z -> 0 <= SG q) by (intros q Hq0; apply rsum_pos; intros i Hi; apply HS0; nia).
  assert (HSGm : forall q, (0 <= q < p)%Z -> 32 * mu <= SG q).
  { intros q Hq0. apply Rle_trans with (S (q + p * 0)%Z); [apply Hx; nia|].
    apply (rsum_elem m (fun i => S (q + p * i)%Z) 0); [intros i Hi; apply HS0; nia|lia]. }
  cbn [facs_cost wk] in *. set (cp := radix_cost t p) in *. set (cr := facs_cost t rest) in *.
  set (ga := fun q => if (m =? 1)%Z then x q else wk O st rest (fs * p) (fun i => x (q + p * i)%Z) (j mod m)).
  set (gb := fun q => if (m =? 1)%Z then x' q else wk Rops stR rest (fs * p) (fun i => x' (q + p * i)%Z) (j mod m)).
  assert (HF0 : forall k' B, (k' <= k + (cp + cr))%nat -> 0 <= B <= 4 * rsum L S -> pw k' * B <= om).
  { intros k' B H1 H2. eapply Rle_trans; [|exact Hf]. apply Rmult_le_compat; try lra.
    - pose proof (pw_1 k'). lra.
    - apply pw_le, H1. }
  assert (Hin : forall q, (0 <= q < p)%Z -> near (k + cr) (SG q) (ga q) (gb q)).
  { intros q Hq0. unfold ga, gb. destruct (Z.eqb_spec m 1) as [Em|Em].
    - apply (near_mono u mu om O val fin RO k _ (S q)); [lia| |apply Hx; nia].
      unfold SG. rewrite Em, rsum_1. replace (q + p * 0)%Z with q by ring. lra.
    - apply (IH (fs * p)%Z m k); try assumption; try nia.
      + destruct Hrest as [E|(_ & H)]; [contradiction|exact H].
      + intros i Hi. apply Hx. nia.
      + apply HF0; [lia|]. pose proof (HSG0 q Hq0). fold (SG q). split; [lra|]. apply Rmult_le_compat_l; [lra|].
        rewrite HSG. apply (rsum_elem p SG q HSG0 Hq0). }
  assert (HG : forall q, (0 <= q < p)%Z -> near 0 (pw (k + cr) * SG q) (ga q) (cval (ga q)) /\ 32 * mu <= pw (k + cr) * SG q).
  { intros q Hq0. split; [apply near_0; [apply (Hin q Hq0)|apply (near_size _ _ _ _ _ _ _ (Hin q Hq0))]|].
    pose proof (HSGm q Hq0). pose proof (pw_1 (k + cr)). pose proof (HSG0 q Hq0). nra. }
  assert (HN : (fs * (p * m) = n)%Z) by (rewrite HpmL; exact HL).
  pose proof (bfly_err fs m p (j mod m) ga (fun q => cval (ga q)) (fun q => pw (k + cr) * SG q) Hfs ltac:(lia) HN Hmod HG (j / m)%Z Hp Hq) as E1.
  rewrite rsum_mul in E1. rewrite <- HSG in E1. fold cp in E1. set (gv := fun q => cval (ga q)) in *.
  assert (EP : pw (k + (cp + cr)) = pw cp * pw (k + cr)).
  { rewrite <- pow_add. f_equal. lia. }
  pose proof (rsum_pos L S HS0) as HT0.
  specialize (E1 ltac:(replace (pw cp * (4 * (pw (k + cr) * rsum L S))) with (pw (k + (cp + cr)) * (4 * rsum L S)) by (rewrite EP; ring); exact Hf)).
  assert (Hm0 : (0 < m)%Z) by lia.
  pose proof (bfly_lin fs m p (j mod m) gv gb (j / m)%Z Hfs Hm0 Hp HN Hmod Hq) as E2.
  pose proof (bfly_size fs m p (j mod m) gb (j / m)%Z Hfs Hm0 Hp HN Hmod Hq) as E3.
  assert (E2' : rsum p (fun q => cdist (gv q) (gb q)) <= (pw (k + cr) - 1) * rsum L S).
  { rewrite HSG, <- rsum_mul. apply rsum_le. intros q Hq0. apply (Hin q Hq0). }
  assert (E3' : rsum p (fun q => cmod (gb q)) <= rsum L S).
  { rewrite HSG. apply rsum_le. intros q Hq0. apply (Hin q Hq0). }
  destruct E1 as (E0 & E1). split; [exact E0|]. split; [|exact (Rle_trans _ _ _ E3 E3')].
  change (cdist (cval (bfly O st fs m p (j mod m) ga (j / m))) (bfly Rops stR fs m p (j mod m) gb (j / m)) <= (pw (k + (cp + cr)) - 1) * rsum L S).
  eapply Rle_trans; [apply (cdist_tri _ (bfly Rops stR fs m p (j mod m) gv (j / m)))|].
  rewrite EP.
  replace ((pw cp * pw (k + cr) - 1) * rsum L S) with ((pw cp - 1) * (pw (k + cr) * rsum L S) + (pw (k + cr) - 1) * rsum L S) by ring.
  lra.
Qed.
End Err.
