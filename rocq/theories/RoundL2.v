(** RoundL2.v : the rounding error of the built-in 1d FFT in the Euclidean norm.  The transform multiplies norms by the square root
    of its length (Parseval), so errors relative to the norm of the data only add up over the stages. *)

From Coq Require Import Reals Lra Psatz.
From Verif Require Import Base Kiss KissPure KissAlg KissFactor KissReal Fft1d KissFinal DftMulti Round RoundKiss RoundFft.
Local Open Scope R_scope.

(** ** sums over a finite set of indices, and the norm they define *)
Record summing {I : Type} (dom : I -> Prop) (sm : (I -> R) -> R) : Prop := mksumming {
  sm_le : forall f g, (forall i, dom i -> f i <= g i) -> sm f <= sm g;
  sm_plus : forall f g, sm (fun i => f i + g i) = sm f + sm g;
  sm_mul : forall c f, sm (fun i => c * f i) = c * sm f }.

Definition l2 {I : Type} (sm : (I -> R) -> R) (f : I -> R) : R := sqrt (sm (fun i => f i * f i)).

Section Norm.
Context {I : Type}.
Variable dom : I -> Prop.
Variable sm : (I -> R) -> R.
Hypothesis SM : summing dom sm.

Lemma sm_ext f g : (forall i, dom i -> f i = g i) -> sm f = sm g.
Proof. intros H. apply Rle_antisym; apply (sm_le _ _ SM); intros i Hi; rewrite (H i Hi); apply Rle_refl. Qed.
Lemma sm_0 : sm (fun _ => 0) = 0.
Proof. rewrite (sm_ext _ (fun i => 0 * 0)) by (intros; ring). rewrite (sm_mul _ _ SM). ring. Qed.
Lemma sm_pos f : (forall i, dom i -> 0 <= f i) -> 0 <= sm f.
Proof. intros H. rewrite <- sm_0. apply (sm_le _ _ SM). exact H. Qed.
Lemma sm_sq f : 0 <= sm (fun i => f i * f i).
Proof. apply sm_pos. intros i _. apply Rle_0_sqr. Qed.

Lemma l2_nonneg f : 0 <= l2 sm f.
Proof. apply sqrt_pos. Qed.
Lemma l2_sq f : l2 sm f * l2 sm f = sm (fun i => f i * f i).
Proof. apply sqrt_sqrt, sm_sq. Qed.
Lemma l2_le f b : 0 <= b -> sm (fun i => f i * f i) <= b * b -> l2 sm f <= b.
Proof. intros Hb H. unfold l2. rewrite <- (sqrt_square b Hb). apply sqrt_le_1_alt, H. Qed.
Lemma l2_mono f g : (forall i, dom i -> 0 <= f i <= g i) -> l2 sm f <= l2 sm g.
Proof. intros H. apply sqrt_le_1_alt, (sm_le _ _ SM). intros i Hi. specialize (H i Hi). nra. Qed.
Lemma l2_ext f g : (forall i, dom i -> f i = g i) -> l2 sm f = l2 sm g.
Proof. intros H. unfold l2. f_equal. apply sm_ext. intros i Hi. rewrite (H i Hi). reflexivity. Qed.
Lemma l2_scale c f : 0 <= c -> l2 sm (fun i => c * f i) = c * l2 sm f.
Proof.
  intros Hc. unfold l2. rewrite (sm_ext _ (fun i => (c * c) * (f i * f i))) by (intros; ring). rewrite (sm_mul _ _ SM).
  rewrite sqrt_mult by (try apply sm_sq; nra). rewrite sqrt_square by exact Hc. reflexivity.
Qed.

Lemma sm_bilin c d f g : sm (fun i => (c * f i - d * g i) * (c * f i - d * g i)) =
  c * c * sm (fun i => f i * f i) - 2 * c * d * sm (fun i => f i * g i) + d * d * sm (fun i => g i * g i).
Proof.
  rewrite (sm_ext _ (fun i => (c * c) * (f i * f i) + ((- (2 * c * d)) * (f i * g i) + (d * d) * (g i * g i)))) by (intros; ring).
  rewrite !(sm_plus _ _ SM), !(sm_mul _ _ SM). ring.
Qed.

(** Cauchy-Schwarz *)
Lemma l2_cs f g : sm (fun i => f i * g i) <= l2 sm f * l2 sm g.
Proof.
  pose proof (l2_nonneg f) as A0. pose proof (l2_nonneg g) as B0. pose proof (l2_sq f) as A2. pose proof (l2_sq g) as B2.
  set (a := l2 sm f) in *. set (b := l2 sm g) in *. set (c := sm (fun i => f i * g i)).
  assert (K : forall s t, 0 <= s * s * (a * a) - 2 * s * t * c + t * t * (b * b)).
  { intros s t. rewrite A2, B2. unfold c. rewrite <- sm_bilin. apply sm_sq. }
  destruct (Req_dec a 0) as [Ea|Ea].
  - rewrite Ea in *. destruct (Rle_dec c 0); [lra|]. exfalso. assert (0 < c) by lra.
    pose proof (K ((b * b + 1) / (2 * c)) 1) as K0. replace (2 * ((b * b + 1) / (2 * c)) * 1 * c) with (b * b + 1) in K0 by (field; lra). lra.
  - destruct (Req_dec b 0) as [Eb|Eb].
    + rewrite Eb in *. destruct (Rle_dec c 0); [lra|]. exfalso. assert (0 < c) by lra.
      pose proof (K 1 ((a * a + 1) / (2 * c))) as K0. replace (2 * 1 * ((a * a + 1) / (2 * c)) * c) with (a * a + 1) in K0 by (field; lra). lra.
    + pose proof (K b a) as K0. assert (0 < a) by lra. assert (0 < b) by lra. assert (P : 0 < a * b) by nra.
      apply Rmult_le_reg_l with (a * b); [exact P|]. nra.
Qed.

(** Minkowski *)
Lemma l2_plus f g : l2 sm (fun i => f i + g i) <= l2 sm f + l2 sm g.
Proof.
  pose proof (l2_nonneg f). pose proof (l2_nonneg g). pose proof (l2_cs f g) as C. pose proof (l2_sq f). pose proof (l2_sq g).
  apply l2_le; [lra|].
  rewrite (sm_ext _ (fun i => f i * f i + (2 * (f i * g i) + g i * g i))) by (intros; ring).
  rewrite !(sm_plus _ _ SM), (sm_mul _ _ SM). nra.
Qed.
End Norm.

Lemma summing_rsum n : summing (fun i => (0 <= i < n)%Z) (rsum n).
Proof. split; [apply rsum_le|intros; apply nrsum_plus|intros; apply rsum_mul]. Qed.

(** the square of a sum of n terms *)
Lemma rsum_square n f : (0 <= n)%Z -> rsum n f * rsum n f <= IZR n * rsum n (fun i => f i * f i).
Proof.
  intros Hn. pose proof (sm_bilin _ _ (summing_rsum n)) as B. 
  assert (N0 : 0 <= IZR n) by (apply IZR_le, Hn).
  specialize (B (IZR n) (rsum n f) f (fun _ => 1)). cbv beta in B.
  rewrite (rsum_ext n (fun i => f i * 1) f) in B by (intros; ring).
  rewrite (rsum_ext n (fun _ => 1 * 1) (fun _ => 1)) in B by (intros; ring). rewrite (rsum_const n 1 Hn) in B.
  pose proof (sm_sq _ _ (summing_rsum n) (fun i => IZR n * f i - rsum n f * 1)) as P. cbv beta in P. rewrite B in P.
  destruct (Req_dec (IZR n) 0) as [E|E].
  - apply eq_IZR in E. subst n. cbn. lra.
  - assert (0 < IZR n) by lra. apply Rmult_le_reg_l with (IZR n); [assumption|]. nra.
Qed.

(** ** Parseval *)
Definition csq (z : R * R) : R := fst z * fst z + snd z * snd z.
Lemma csq_cmod z : cmod z * cmod z = csq z.
Proof. apply cmod_sq. Qed.

Lemma csum_conj n f : c_conj Rops (csum Rops n f) = csum Rops n (fun i => c_conj Rops (f i)).
Proof.
  unfold csum. induction (Z.to_nat n) as [|m IH]; cbn [nsum].
  - unfold c_conj, czero; cbn. f_equal. ring.
  - rewrite <- IH. unfold c_conj, c_add; cbn. f_equal. ring.
Qed.

Lemma parseval inv n x : (0 < n)%Z ->
  rsum n (fun j => csq (dft Rops (fun a => cexpR inv a n) n x j)) = IZR n * rsum n (fun i => csq (x i)).
Proof.
  intros Hn. set (X := dft Rops (fun a => cexpR inv a n) n x).
  assert (A : forall z, (csq z, 0) = c_mul Rops z (c_conj Rops z)).
  { intros [a b]. unfold csq, c_mul, c_conj; cbn. f_equal; ring. }
  assert (E : csum Rops n (fun j => (csq (X j), 0)) = csum Rops n (fun i => (IZR n * csq (x i), 0))).
  { transitivity (csum Rops n (fun j => csum Rops n (fun i => c_mul Rops (c_mul Rops (x i) (cexpR inv (i * j) n)) (c_conj Rops (X j))))).
    { apply (csum_ext Rops). intros j _. rewrite A. unfold X at 1. unfold dft. symmetry. apply (csum_mul_r Rops Rlaws). }
    rewrite (csum_swap Rops Rlaws). apply (csum_ext Rops). intros i Hi.
    transitivity (c_mul Rops (x i) (c_conj Rops (dft Rops (fun a => cexpR (negb inv) a n) n X i))).
    { unfold dft. rewrite csum_conj, <- (csum_mul_l Rops Rlaws). apply (csum_ext Rops). intros j _.
      rewrite <- cexpR_neg. pose proof (cexpR_roots inv n Hn) as W.
      assert (CE : c_conj Rops (cexpR inv (- (j * i)) n) = cexpR inv (i * j) n).
      { pose proof (R_conj _ _ _ _ W (- (j * i))%Z) as C. cbv beta in C. rewrite <- C. f_equal. ring. }
      rewrite <- CE. generalize (x i) (X j) (cexpR inv (- (j * i)) n). intros [a1 a2] [b1 b2] [d1 d2]. unfold c_mul, c_conj; cbn. f_equal; ring. }
    unfold X. rewrite dft_inverse by assumption. destruct (x i) as [a b]. unfold csq, c_mul, c_conj; cbn. f_equal; ring. }
  rewrite !rsum_csum in E. injection E as E. rewrite E. apply rsum_mul.
Qed.

(** a transform of length L inside one of length fs * L *)
Lemma cexpR_reduce inv fs L a : (0 < fs)%Z -> (0 < L)%Z -> cexpR inv (fs * a) (fs * L) = cexpR inv a L.
Proof.
  intros Hf HL. unfold cexpR. assert (E : phase inv (fs * a) (fs * L) = phase inv a L).
  { unfold phase. rewrite !mult_IZR. assert (IZR fs <> 0) by (apply IZR_neq; lia). assert (IZR L <> 0) by (apply IZR_neq; lia).
    destruct inv; field; auto. }
  rewrite E. reflexivity.
Qed.

Lemma parseval_sub inv fs L n x : (0 < fs)%Z -> (0 < L)%Z -> (fs * L = n)%Z ->
  rsum L (fun j => csq (csum Rops L (fun i => c_mul Rops (x i) (cexpR inv (fs * i * j) n)))) = IZR L * rsum L (fun i => csq (x i)).
Proof.
  intros Hf HL E. rewrite <- (parseval inv L x HL). apply rsum_ext. intros j _. f_equal. unfold dft. apply (csum_ext Rops). intros i _.
  f_equal. rewrite <- E. replace (fs * i * j)%Z with (fs * (i * j))%Z by ring. apply cexpR_reduce; assumption.
Qed.

Lemma csq_mul a b : csq (c_mul Rops a b) = csq a * csq b.
Proof. unfold csq, c_mul; cbn. ring. Qed.
Lemma csq_cexpR inv a n : csq (cexpR inv a n) = 1.
Proof. rewrite <- csq_cmod, cmod_cexpR. ring. Qed.

(** ** difference of complex fields *)
Definition csubf (a b : R * R) : R * R := (fst a - fst b, snd a - snd b).
Lemma cdist_sq a b : cdist a b * cdist a b = csq (csubf a b).
Proof. unfold cdist. apply csq_cmod. Qed.

Lemma dft_sub w n x y k : csubf (csum Rops n (fun i => c_mul Rops (x i) (w i k))) (csum Rops n (fun i => c_mul Rops (y i) (w i k))) =
  csum Rops n (fun i : Z => c_mul Rops (csubf (x i) (y i)) (w i (k : Z))).
Proof.
  unfold csum. induction (Z.to_nat n) as [|m IH]; cbn [nsum].
  - unfold csubf, czero; cbn. f_equal; ring.
  - rewrite <- IH. unfold csubf, c_add, c_mul; cbn. f_equal; ring.
Qed.

(** ** weights: the modulus, but not below c *)
Definition wt (c : R) (z : R * R) : R := cmod (cmod z, c).
Lemma wt_sq c z : wt c z * wt c z = csq z + c * c.
Proof. unfold wt. rewrite cmod_sq. cbn [fst snd]. rewrite csq_cmod. reflexivity. Qed.
Lemma wt_nonneg c z : 0 <= wt c z.
Proof. apply cmod_nonneg. Qed.
Lemma wt_mod c z : cmod z <= wt c z.
Proof. pose proof (cmod_fst (cmod z, c)) as H. cbn [fst] in H. rewrite Rabs_right in H; [exact H|]. apply Rle_ge, cmod_nonneg. Qed.
Lemma wt_c c z : 0 <= c -> c <= wt c z.
Proof. intros Hc. pose proof (cmod_snd (cmod z, c)) as H. cbn [snd] in H. rewrite Rabs_right in H; [exact H|lra]. Qed.
Lemma wt_dist c a b : wt c a <= wt c b + cdist a b.
Proof.
  pose proof (cmod_dist a b) as H. pose proof (cmod_nonneg a). pose proof (cmod_nonneg b). pose proof (cdist_nonneg a b).
  pose proof (wt_nonneg c b) as W. pose proof (wt_sq c b) as W2. rewrite <- csq_cmod in W2.
  unfold wt at 1. apply cmod_le; [lra|]. cbn [fst snd].
  assert (cmod b <= wt c b) by apply wt_mod. nra.
Qed.

(** ** roundings in the norm: a stage of radix p counts sqrt p times (rounded up) what it counts for single values *)
Definition root_up (p : Z) : nat := Z.to_nat (Z.sqrt_up p).
Fixpoint norm_cost (t : nat) (facs : list (Z * Z)) : nat :=
  match facs with [] => 0 | (p, _) :: rest => root_up p * radix_cost t p + norm_cost t rest end.

Lemma root_up_sq p : (0 <= p)%Z -> IZR p <= INR (root_up p) * INR (root_up p).
Proof.
  intros Hp. unfold root_up. rewrite INR_IZR_INZ, Z2Nat.id by apply Z.sqrt_up_nonneg. rewrite <- mult_IZR. apply IZR_le.
  destruct (Z.eq_dec p 0) as [->|]; [reflexivity|]. pose proof (Z.sqrt_up_spec p ltac:(lia)). lia.
Qed.

Section Err.
Context {F : Type}.
Variables u mu om : R.
Variable O : sops F.
Variable val : F -> R.
Variable fin : F -> Prop.
Hypothesis RO : rounding u mu om O val fin.
Local Notation Hu := (r_u _ _ _ _ _ _ RO).
Local Notation Hmu := (r_mu _ _ _ _ _ _ RO).
Local Notation pw k := ((1 + u) ^ k).
Local Notation near := (near u val fin).
Local Notation cval := (cval val).
Local Notation cfin := (cfin fin).
Local Notation pw_1 := (pw_1 u mu om O val fin RO).
Local Notation pw_le := (pw_le u mu om O val fin RO).

(** a factor in front of the error as a power *)
Lemma pw_times s k : 1 + INR s * (pw k - 1) <= pw (s * k).
Proof.
  induction s as [|s IH]; [cbn; lra|]. rewrite S_INR. cbn [Nat.mul]. rewrite pow_add.
  pose proof (pw_1 k). pose proof (pos_INR s). assert (0 <= INR s * (pw k - 1)) by (apply Rmult_le_pos; lra). nra.
Qed.

Variable t : nat.
Variable inv : bool.
Variable n : Z.
Hypothesis Hn : (0 < n)%Z.
Local Notation w := (fun a => cexpR inv a n).
Variable st : @cfg F.
Variable stR : @cfg R.
Hypothesis Hnf : k_nfft st = n.
Hypothesis HnfR : k_nfft stR = n.
Hypothesis Hinv : k_inverse st = inv.
Hypothesis HinvR : k_inverse stR = inv.
Hypothesis Htw : forall i, (0 <= i < n)%Z -> off u val fin t 1 (twf O st i) (w i).
Hypothesis HtwR : forall i, (0 <= i < n)%Z -> twf Rops stR i = w i.
Variable c : R.
Hypothesis Hc : 32 * mu <= c.

(** exact butterflies: Parseval *)
Lemma bfly_parseval fs m p k g g' : (0 < fs)%Z -> (0 < m)%Z -> (1 <= p)%Z -> (fs * (p * m) = n)%Z -> (0 <= k < m)%Z ->
  rsum p (fun q => csq (csubf (bfly Rops stR fs m p k g q) (bfly Rops stR fs m p k g' q))) = IZR p * rsum p (fun q => csq (csubf (g q) (g' q))).
Proof.
  intros H1 H2 H3 H4 H5.
  transitivity (rsum p (fun q => csq (csum Rops p (fun i => c_mul Rops (c_mul Rops (csubf (g i) (g' i)) (w (fs * i * k)%Z)) (cexpR inv ((fs * m) * i * q) n))))).
  - apply rsum_ext. intros q Hq. f_equal.
    rewrite !(bfly_dft Rops Rlaws inv n (fun a => cexpR inv a n) Hn (cexpR_roots inv n Hn) stR HnfR HinvR HtwR) by assumption.
    rewrite (dft_sub (fun i q => cexpR inv (fs * i * (k + q * m)) n)). apply (csum_ext Rops). intros i _.
    pose proof (R_add _ _ _ _ (cexpR_roots inv n Hn) (fs * i * k) (fs * m * i * q)) as HA. cbv beta in HA.
    replace (fs * i * (k + q * m))%Z with (fs * i * k + fs * m * i * q)%Z by ring. rewrite HA.
    generalize (csubf (g i) (g' i)) (cexpR inv (fs * i * k) n) (cexpR inv (fs * m * i * q) n). intros [a1 a2] [b1 b2] [d1 d2]. unfold c_mul; cbn. f_equal; ring.
  - rewrite (parseval_sub inv (fs * m) p n) by nia. f_equal. apply rsum_ext. intros i _. rewrite csq_mul, csq_cexpR. ring.
Qed.

Lemma wk_parseval facs fs L x : (0 < fs)%Z -> chain facs L -> (fs * L = n)%Z -> (0 < L)%Z ->
  rsum L (fun j => csq (wk Rops stR facs fs x j)) = IZR L * rsum L (fun i => csq (x i)).
Proof.
  intros H1 H2 H3 H4. rewrite <- (parseval_sub inv fs L n x) by lia. apply rsum_ext. intros j Hj. f_equal.
  apply (wk_dft Rops Rlaws inv n (fun a => cexpR inv a n) Hn (cexpR_roots inv n Hn) stR HnfR HinvR HtwR); assumption.
Qed.

Lemma chain_pos facs L : chain facs L -> (0 < L)%Z.
Proof. destruct facs as [|[p m] rest]; cbn [chain]; intros H; [contradiction|]. destruct H as (H1 & H2 & H3 & _). nia. Qed.

(** sums of squares instead of norms *)
Local Notation W L x := (rsum L (fun i => wt c (cval (x i)) * wt c (cval (x i)))).

Lemma W_nonneg L x : 0 <= W L x.
Proof. exact (sm_sq _ _ (summing_rsum L) (fun i => wt c (cval (x i)))). Qed.

Lemma wk_l2 facs : forall fs L x S, (0 < fs)%Z -> chain facs L -> (fs * L = n)%Z ->
  (forall i, (0 <= i < L)%Z -> cfin (x i) /\ cmod (cval (x i)) <= S i /\ 32 * mu <= S i) ->
  pw (facs_cost t facs) * (4 * rsum L S) <= om ->
  l2 (rsum L) (fun j => cdist (cval (wk O st facs fs x j)) (wk Rops stR facs fs (fun i => cval (x i)) j)) <=
  (pw (norm_cost t facs) - 1) * sqrt (IZR L * W L x).
Proof.
  induction facs as [|[p m] rest IH]; intros fs L x S Hfs Hch HL Hx Hf; [contradiction|].
  pose proof (chain_pos _ _ Hch) as L0. pose proof Hch as Hch0.
  cbn [chain] in Hch. destruct Hch as (Hp & Hm & HpmL & Hrest).
  assert (Hm0 : (0 < m)%Z) by lia.
  assert (HN : (fs * (p * m) = n)%Z) by (rewrite HpmL; exact HL).
  assert (HS0 : forall i, (0 <= i < L)%Z -> 0 <= S i).
  { intros i Hi. destruct (Hx i Hi) as (_ & H & _). pose proof (cmod_nonneg (cval (x i))). lra. }
  set (SG := fun q => rsum m (fun i => S (q + p * i)%Z)).
  assert (HSG : rsum L S = rsum p SG) by (rewrite <- HpmL; apply rsum_split; lia).
  assert (HSG0 : forall q, (0 <= q < p)%Z -> 0 <= SG q) by (intros q Hq0; apply rsum_pos; intros i Hi; apply HS0; nia).
  assert (HSGm : forall q, (0 <= q < p)%Z -> 32 * mu <= SG q).
  { intros q Hq0. apply Rle_trans with (S (q + p * 0)%Z); [apply Hx; nia|].
    apply (rsum_elem m (fun i => S (q + p * i)%Z) 0); [intros i Hi; apply HS0; nia|lia]. }
  cbn [facs_cost norm_cost] in *. set (cp := radix_cost t p) in *. set (cr := facs_cost t rest) in *.
  set (nr := norm_cost t rest) in *. set (sp := root_up p).
  pose (ga := fun k q => if (m =? 1)%Z then x q else wk O st rest (fs * p) (fun i => x (q + p * i)%Z) k).
  pose (gb := fun k q => if (m =? 1)%Z then cval (x q) else wk Rops stR rest (fs * p) (fun i => cval (x (q + p * i)%Z)) k).
  set (Wq := fun q => W m (fun i => x (q + p * i)%Z)).
  assert (HW : W L x = rsum p Wq) by (rewrite <- HpmL; apply (rsum_split p m); lia).
  assert (HW0 : forall q, 0 <= Wq q) by (intros q; apply W_nonneg).
  assert (Gx : forall q, (0 <= q < p)%Z -> forall i, (0 <= i < m)%Z -> cfin (x (q + p * i)%Z) /\ cmod (cval (x (q + p * i)%Z)) <= S (q + p * i)%Z /\ 32 * mu <= S (q + p * i)%Z).
  { intros q Hq i Hi. apply Hx. nia. }
  assert (Gr : forall q, (0 <= q < p)%Z -> pw cr * (4 * SG q) <= om).
  { intros q Hq. eapply Rle_trans; [|exact Hf]. pose proof (HSG0 q Hq). apply Rmult_le_compat.
    - pose proof (pw_1 cr). lra.
    - lra.
    - apply pw_le. lia.
    - apply Rmult_le_compat_l; [lra|]. rewrite HSG. apply (rsum_elem p SG q HSG0 Hq). }
  (* the parts *)
  assert (Hnear : forall k q, (0 <= k < m)%Z -> (0 <= q < p)%Z -> near cr (SG q) (ga k q) (gb k q)).
  { intros k q Hk Hq. unfold ga, gb. destruct (Z.eqb_spec m 1) as [Em|Em].
    - apply (near_mono u mu om O val fin RO 0 _ (S q)); [lia| |].
      + unfold SG. rewrite Em, rsum_1. replace (q + p * 0)%Z with q by ring. lra.
      + apply near_0; apply Hx; nia.
    - apply (wk_err u mu om O val fin RO t inv n Hn st stR Hnf HnfR Hinv HinvR Htw HtwR rest (fs * p)%Z m 0); try assumption; try nia.
      + destruct Hrest as [E|(_ & H)]; [contradiction|exact H].
      + intros i Hi. destruct (Gx q Hq i Hi) as (X1 & X2 & X3). split; [apply near_0; assumption|exact X3].
      + apply Gr, Hq. }
  assert (Hdist : forall q, (0 <= q < p)%Z -> l2 (rsum m) (fun k => cdist (cval (ga k q)) (gb k q)) <= (pw nr - 1) * sqrt (IZR m * Wq q)).
  { intros q Hq. unfold ga, gb. destruct (Z.eqb_spec m 1) as [Em|Em].
    - apply l2_le; [|].
      + apply Rmult_le_pos; [pose proof (pw_1 nr); lra|apply sqrt_pos].
      + rewrite (rsum_ext m _ (fun _ => 0)) by (intros; rewrite cdist_refl; ring). rewrite rsum_const by lia. rewrite Rmult_0_r. apply Rle_0_sqr.
    - apply (IH (fs * p)%Z m (fun i => x (q + p * i)%Z) (fun i => S (q + p * i)%Z)); try assumption; try nia.
      + destruct Hrest as [E|(_ & H)]; [contradiction|exact H].
      + apply Gx, Hq.
      + apply Gr, Hq. }
  (* size of the parts *)
  assert (P1 : forall k, 1 <= pw k) by exact pw_1.
  assert (Hsize : forall q, (0 <= q < p)%Z -> rsum m (fun k => wt c (cval (ga k q)) * wt c (cval (ga k q))) <= pw nr * pw nr * (IZR m * Wq q)).
  { intros q Hq.
    assert (M1 : 1 <= IZR m) by (apply IZR_le; lia).
    assert (MW : 0 <= IZR m * Wq q) by (apply Rmult_le_pos; [lra|apply HW0]).
    assert (E : rsum m (fun k => wt c (gb k q) * wt c (gb k q)) <= IZR m * Wq q).
    { rewrite (rsum_ext m _ (fun k => csq (gb k q) + c * c)) by (intros; apply wt_sq).
      unfold Wq. rewrite (rsum_ext m (fun i => wt c (cval (x (q + p * i)%Z)) * wt c (cval (x (q + p * i)%Z))) (fun i => csq (cval (x (q + p * i)%Z)) + c * c)) by (intros; apply wt_sq).
      rewrite !(sm_plus _ _ (summing_rsum m)).
      rewrite !rsum_const by lia.
      assert (E1 : rsum m (fun i => csq (gb i q)) = IZR m * rsum m (fun i => csq (cval (x (q + p * i)%Z)))).
      { unfold gb. destruct (Z.eqb_spec m 1) as [Em|Em].
        - rewrite Em, !rsum_1. replace (q + p * 0)%Z with q by ring. ring.
        - apply (wk_parseval rest (fs * p) m (fun i => cval (x (q + p * i)%Z))); try nia.
          destruct Hrest as [E|(_ & H)]; [contradiction|exact H]. }
      rewrite E1. assert (0 <= c * c) by apply Rle_0_sqr. assert (0 <= IZR m * (c * c)) by (apply Rmult_le_pos; lra). nra. }
    assert (Q : l2 (rsum m) (fun k => wt c (cval (ga k q))) <= pw nr * sqrt (IZR m * Wq q)).
    { apply Rle_trans with (l2 (rsum m) (fun k => wt c (gb k q) + cdist (cval (ga k q)) (gb k q))).
      - apply (l2_mono _ _ (summing_rsum m)). intros k Hk. split; [apply wt_nonneg|apply wt_dist].
      - eapply Rle_trans; [apply (l2_plus _ _ (summing_rsum m))|]. specialize (Hdist q Hq).
        assert (l2 (rsum m) (fun k => wt c (gb k q)) <= sqrt (IZR m * Wq q)) by (unfold l2; apply sqrt_le_1_alt; exact E). lra. }
    pose proof (l2_nonneg (rsum m) (fun k => wt c (cval (ga k q)))) as Q0.
    rewrite <- (l2_sq _ _ (summing_rsum m) (fun k => wt c (cval (ga k q)))).
    replace (pw nr * pw nr * (IZR m * Wq q)) with ((pw nr * sqrt (IZR m * Wq q)) * (pw nr * sqrt (IZR m * Wq q))).
    2:{ transitivity (pw nr * pw nr * (sqrt (IZR m * Wq q) * sqrt (IZR m * Wq q))); [ring|]. rewrite (sqrt_sqrt _ MW). reflexivity. }
    apply Rmult_le_compat; assumption. }
  (* output index j = k + m q *)
  set (ya := fun j => bfly O st fs m p (j mod m) (ga (j mod m)%Z) (j / m)).
  set (yv := fun j => bfly Rops stR fs m p (j mod m) (fun q => cval (ga (j mod m)%Z q)) (j / m)).
  set (yb := fun j => bfly Rops stR fs m p (j mod m) (gb (j mod m)%Z) (j / m)).
  change (l2 (rsum L) (fun j => cdist (cval (ya j)) (yb j)) <= (pw (sp * cp + nr) - 1) * sqrt (IZR L * W L x)).
  assert (SPL : forall f, rsum L f = rsum m (fun k => rsum p (fun q => f (k + m * q)%Z))).
  { intros f. rewrite <- HpmL. replace (p * m)%Z with (m * p)%Z by ring. apply rsum_split; lia. }
  assert (DM : forall k q, (0 <= k < m)%Z -> ((k + m * q) mod m = k /\ (k + m * q) / m = q)%Z).
  { intros k q Hk. replace (k + m * q)%Z with (k + q * m)%Z by ring. rewrite Z.mod_add, Z.div_add by lia. rewrite Z.mod_small, Z.div_small by lia. lia. }
  assert (LW : 0 <= IZR L * W L x) by (apply Rmult_le_pos; [apply IZR_le; lia|apply W_nonneg]).
  assert (ELW : IZR L * W L x = IZR p * (IZR m * rsum p Wq)) by (rewrite HW, <- HpmL, mult_IZR; ring).
  assert (p0 : 0 <= IZR p) by (apply IZR_le; lia). assert (m0 : 0 <= IZR m) by (apply IZR_le; lia).
  assert (Bound2 : l2 (rsum L) (fun j => cdist (yv j) (yb j)) <= (pw nr - 1) * sqrt (IZR L * W L x)).
  { apply l2_le; [apply Rmult_le_pos; [pose proof (P1 nr); lra|apply sqrt_pos]|].
    replace ((pw nr - 1) * sqrt (IZR L * W L x) * ((pw nr - 1) * sqrt (IZR L * W L x))) with (((pw nr - 1) * (pw nr - 1)) * (IZR L * W L x)).
    2:{ transitivity ((pw nr - 1) * (pw nr - 1) * (sqrt (IZR L * W L x) * sqrt (IZR L * W L x))); [|ring]. rewrite (sqrt_sqrt _ LW). reflexivity. }
    rewrite SPL. rewrite ELW.
    rewrite (rsum_ext m _ (fun k => IZR p * rsum p (fun q => csq (csubf (cval (ga k q)) (gb k q))))).
    2:{ intros k Hk. rewrite <- (bfly_parseval fs m p k) by assumption. apply rsum_ext. intros q Hq.
        rewrite cdist_sq. unfold yv, yb. destruct (DM k q Hk) as (-> & ->). reflexivity. }
    rewrite rsum_mul. rewrite (rsum_swap m p).
    replace ((pw nr - 1) * (pw nr - 1) * (IZR p * (IZR m * rsum p Wq))) with (IZR p * rsum p (fun q => ((pw nr - 1) * (pw nr - 1) * IZR m) * Wq q)) by (rewrite rsum_mul; ring).
    apply Rmult_le_compat_l; [exact p0|]. apply rsum_le. intros q Hq.
    specialize (Hdist q Hq). pose proof (l2_nonneg (rsum m) (fun k => cdist (cval (ga k q)) (gb k q))) as D0.
    rewrite (rsum_ext m _ (fun k => cdist (cval (ga k q)) (gb k q) * cdist (cval (ga k q)) (gb k q))) by (intros; rewrite cdist_sq; reflexivity).
    rewrite <- (l2_sq _ _ (summing_rsum m) (fun k => cdist (cval (ga k q)) (gb k q))).
    assert (MW : 0 <= IZR m * Wq q) by (apply Rmult_le_pos; [exact m0|apply HW0]).
    replace ((pw nr - 1) * (pw nr - 1) * IZR m * Wq q) with (((pw nr - 1) * sqrt (IZR m * Wq q)) * ((pw nr - 1) * sqrt (IZR m * Wq q))).
    2:{ transitivity ((pw nr - 1) * (pw nr - 1) * (sqrt (IZR m * Wq q) * sqrt (IZR m * Wq q))); [ring|]. rewrite (sqrt_sqrt _ MW). ring. }
    apply Rmult_le_compat; assumption. }
  assert (Bound1 : l2 (rsum L) (fun j => cdist (cval (ya j)) (yv j)) <= INR sp * (pw cp - 1) * pw nr * sqrt (IZR L * W L x)).
  { assert (R0 : 0 <= INR sp * (pw cp - 1) * pw nr).
    { apply Rmult_le_pos; [apply Rmult_le_pos; [apply pos_INR|pose proof (P1 cp); lra]|pose proof (P1 nr); lra]. }
    apply l2_le; [apply Rmult_le_pos; [exact R0|apply sqrt_pos]|].
    apply Rle_trans with ((pw cp - 1) * (pw cp - 1) * (IZR p * (IZR p * (pw nr * pw nr * (IZR m * rsum p Wq))))).
    - rewrite SPL.
      apply Rle_trans with (rsum m (fun k => rsum p (fun _ => ((pw cp - 1) * (pw cp - 1)) * (IZR p * rsum p (fun q => wt c (cval (ga k q)) * wt c (cval (ga k q))))))).
      + apply rsum_le. intros k Hk. apply rsum_le. intros q Hq. unfold ya, yv. destruct (DM k q Hk) as (-> & ->).
        pose (G := fun q => Rmax (cmod (cval (ga k q))) (32 * mu)).
        assert (HGs : forall q, (0 <= q < p)%Z -> G q <= pw cr * SG q).
        { intros q0 Hq0. apply Rmax_lub; [apply (near_size _ _ _ _ _ _ _ (Hnear k q0 Hk Hq0))|].
          pose proof (HSGm q0 Hq0). pose proof (HSG0 q0 Hq0). pose proof (P1 cr). nra. }
        assert (HG : forall q, (0 <= q < p)%Z -> near 0 (G q) (ga k q) (cval (ga k q)) /\ 32 * mu <= G q).
        { intros q0 Hq0. split; [apply near_0; [apply (Hnear k q0 Hk Hq0)|apply Rmax_l]|apply Rmax_r]. }
        pose proof (bfly_err u mu om O val fin RO t inv n Hn st stR Hnf HnfR Hinv HinvR Htw HtwR fs m p k (ga k) (fun q => cval (ga k q)) G Hfs Hm0 HN Hk HG q Hp Hq) as E1.
        fold cp in E1.
        assert (Gs : rsum p G <= pw cr * rsum p SG).
        { rewrite <- rsum_mul. apply rsum_le. exact HGs. }
        assert (G0 : 0 <= rsum p G).
        { apply rsum_pos. intros q0 Hq0. unfold G. eapply Rle_trans; [apply cmod_nonneg|apply Rmax_l]. }
        destruct E1 as (_ & E1).
        { eapply Rle_trans; [|exact Hf]. rewrite HSG, pow_add. pose proof (P1 cp). nra. }
        assert (Gw : rsum p G <= rsum p (fun q => wt c (cval (ga k q)))).
        { apply rsum_le. intros q0 _. apply Rmax_lub; [apply wt_mod|]. eapply Rle_trans; [exact Hc|]. apply wt_c. pose proof Hmu. lra. }
        pose proof (rsum_square p (fun q => wt c (cval (ga k q))) ltac:(lia)) as SQ.
        pose proof (P1 cp) as Pcp.
        pose proof (cdist_nonneg (cval (bfly O st fs m p k (ga k) q)) (bfly Rops stR fs m p k (fun q0 => cval (ga k q0)) q)) as D0.
        set (D := cdist _ _) in *. set (E := pw cp - 1) in *. assert (E0 : 0 <= E) by (unfold E; lra).
        apply Rle_trans with ((E * rsum p (fun q => wt c (cval (ga k q)))) * (E * rsum p (fun q => wt c (cval (ga k q))))).
        * assert (D <= E * rsum p (fun q => wt c (cval (ga k q)))) by (eapply Rle_trans; [exact E1|]; apply Rmult_le_compat_l; assumption).
          apply Rmult_le_compat; assumption.
        * replace (E * rsum p (fun q => wt c (cval (ga k q))) * (E * rsum p (fun q => wt c (cval (ga k q))))) with
            (E * E * (rsum p (fun q => wt c (cval (ga k q))) * rsum p (fun q => wt c (cval (ga k q))))) by ring.
          apply Rmult_le_compat_l; [nra|exact SQ].
      + rewrite (rsum_ext m _ (fun k => ((pw cp - 1) * (pw cp - 1) * (IZR p * IZR p)) * rsum p (fun q => wt c (cval (ga k q)) * wt c (cval (ga k q))))).
        2:{ intros k _. rewrite rsum_const by lia. ring. }
        rewrite rsum_mul. rewrite (rsum_swap m p).
        replace ((pw cp - 1) * (pw cp - 1) * (IZR p * (IZR p * (pw nr * pw nr * (IZR m * rsum p Wq))))) with
          (((pw cp - 1) * (pw cp - 1) * (IZR p * IZR p)) * rsum p (fun q => (pw nr * pw nr) * (IZR m * Wq q))) by (rewrite !rsum_mul; ring).
        apply Rmult_le_compat_l; [apply Rmult_le_pos; [apply Rle_0_sqr|apply Rmult_le_pos; exact p0]|]. apply rsum_le. intros q Hq. apply Hsize, Hq.
    - replace (INR sp * (pw cp - 1) * pw nr * sqrt (IZR L * W L x) * (INR sp * (pw cp - 1) * pw nr * sqrt (IZR L * W L x))) with
        ((INR sp * INR sp) * ((pw cp - 1) * (pw cp - 1) * (pw nr * pw nr) * (sqrt (IZR L * W L x) * sqrt (IZR L * W L x)))) by ring.
      rewrite (sqrt_sqrt _ LW), ELW. 
      replace ((pw cp - 1) * (pw cp - 1) * (IZR p * (IZR p * (pw nr * pw nr * (IZR m * rsum p Wq))))) with
        (IZR p * ((pw cp - 1) * (pw cp - 1) * (pw nr * pw nr) * (IZR p * (IZR m * rsum p Wq)))) by ring.
      apply Rmult_le_compat_r; [|apply root_up_sq; lia].
      assert (0 <= rsum p Wq) by (apply rsum_pos; intros; apply HW0).
      repeat apply Rmult_le_pos; try assumption; try (pose proof (P1 cp); lra); try (pose proof (P1 nr); lra). }
  apply Rle_trans with (l2 (rsum L) (fun j => cdist (cval (ya j)) (yv j) + cdist (yv j) (yb j))).
  - apply (l2_mono _ _ (summing_rsum L)). intros j _. split; [apply cdist_nonneg|apply cdist_tri].
  - eapply Rle_trans; [apply (l2_plus _ _ (summing_rsum L))|].
    eapply Rle_trans; [apply Rplus_le_compat; [exact Bound1|exact Bound2]|].
    rewrite <- Rmult_plus_distr_r. apply Rmult_le_compat_r; [apply sqrt_pos|].
    rewrite pow_add. pose proof (pw_times sp cp). pose proof (P1 nr). nra.
Qed.
End Err.
