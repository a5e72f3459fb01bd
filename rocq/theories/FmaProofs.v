(** FmaProofs.v : the fused arithmetic meets the hypotheses of the rounding analysis. *)

From Coq Require Import Reals Lra Psatz Floats.SpecFloat.
From Verif Require Import Base Kiss Round RoundFft RoundThms Binary RoundDouble Fma.
Local Open Scope Z_scope.

Section Fuse.
Variables prec emax : Z.
Hypothesis Hprec : 2 <= prec.
Hypothesis Hemax : prec < emax.
Variable fuse : hist -> hist -> bool.
Local Notation u := (SFu prec).
Local Notation mu := (SFmu emax).
Local Notation om := (SFom prec emax).
Local Notation fin := (SFfin prec emax).
Local Notation xfin x := (f_fin (mkf x (Given 0))).
Local Notation sgn s := (if s : bool then (-1)%R else 1%R).
Local Notation u_pos := (u_pos prec).
Local Notation mu_pos := (mu_pos emax).

Lemma fin_xfin x : fin x -> xfin x.
Proof. destruct x; cbn; auto. Qed.

Lemma val_sgn s m e : SFval (S754_finite s m e) = (sgn s * (IZR (Zpos m) * bpow e))%R.
Proof. cbn [SFval]. unfold bpow. ring. Qed.

Lemma err_0 r : (Rabs (r - r) <= u * (Rabs r + mu))%R.
Proof.
  replace (r - r)%R with 0%R by ring. rewrite Rabs_R0. pose proof mu_pos. pose proof (Rabs_pos r).
  apply Rmult_le_pos; [left; apply u_pos|lra].
Qed.

Lemma round_gen s m e : (IZR (Zpos m) * bpow e <= om)%R ->
  fin (binary_round prec emax s m e) /\
  (Rabs (SFval (binary_round prec emax s m e) - sgn s * (IZR (Zpos m) * bpow e)) <= u * (IZR (Zpos m) * bpow e + mu))%R.
Proof.
  intros Hom. destruct (binary_round_gen prec emax Hprec Hemax s m e Hom) as (H1 & H2 & _). split; [exact H1|].
  eapply Rle_trans; [exact H2|]. apply Rmult_le_compat_l; [left; apply u_pos|]. apply Rplus_le_compat_l.
  pose proof mu_pos. destruct (Z.leb _ e); lra.
Qed.

Lemma xround_spec x : xfin x -> (Rabs (SFval x) <= om)%R ->
  xfin (xround prec emax x) /\ (Rabs (SFval (xround prec emax x) - SFval x) <= u * (Rabs (SFval x) + mu))%R.
Proof.
  intros Hx Hom. destruct x as [s|s| |s m e]; try contradiction; cbn [xround].
  - split; [exact I|apply err_0].
  - rewrite val_abs in *. destruct (round_gen s m e Hom) as (H1 & H2). split; [apply fin_xfin, H1|]. rewrite val_sgn. exact H2.
Qed.

Lemma normalize_gen M e z : (Rabs (IZR M * bpow e) <= om)%R ->
  xfin (binary_normalize prec emax M e z) /\
  (Rabs (SFval (binary_normalize prec emax M e z) - IZR M * bpow e) <= u * (Rabs (IZR M * bpow e) + mu))%R.
Proof.
  intros Hom. pose proof (bpow_pos e) as Pe. destruct M as [|m|m]; cbn [binary_normalize].
  - split; [exact I|]. cbn [SFval]. rewrite Rmult_0_l. apply err_0.
  - assert (E : (Rabs (IZR (Zpos m) * bpow e) = IZR (Zpos m) * bpow e)%R).
    { apply Rabs_right. left. apply Rmult_lt_0_compat; [apply IZR_lt; lia|exact Pe]. }
    rewrite E in *. destruct (round_gen false m e Hom) as (H1 & H2). split; [apply fin_xfin, H1|]. rewrite Rmult_1_l in H2. exact H2.
  - change (Zneg m) with (- Zpos m) in *. rewrite opp_IZR in *.
    assert (E : (Rabs (- IZR (Zpos m) * bpow e) = IZR (Zpos m) * bpow e)%R).
    { rewrite Ropp_mult_distr_l_reverse, Rabs_Ropp. apply Rabs_right. left. apply Rmult_lt_0_compat; [apply IZR_lt; lia|exact Pe]. }
    rewrite E in *. destruct (round_gen true m e Hom) as (H1 & H2). split; [apply fin_xfin, H1|].
    replace (- IZR (Zpos m) * bpow e)%R with (-1 * (IZR (Zpos m) * bpow e))%R by ring. exact H2.
Qed.

Lemma xsum_spec x y : xfin x -> xfin y -> (Rabs (SFval x + SFval y) <= om)%R ->
  xfin (xsum prec emax x y) /\ (Rabs (SFval (xsum prec emax x y) - (SFval x + SFval y)) <= u * (Rabs (SFval x + SFval y) + mu))%R.
Proof.
  intros Hx Hy Hom. destruct x as [s|s| |s m e], y as [s'|s'| |s' m' e']; try contradiction; cbn [xsum].
  - cbn [SFval] in *. rewrite Rplus_0_l. cbn [SFadd]. destruct (Bool.eqb s s'); (split; [exact I|]); cbn [SFval]; apply err_0.
  - change (SFval (S754_zero s)) with 0%R in *. rewrite Rplus_0_l in *. apply xround_spec; assumption.
  - change (SFval (S754_zero s')) with 0%R in *. rewrite Rplus_0_r in *. apply xround_spec; assumption.
  - cbn [SFadd].
    rewrite <- (aligned s m e (Z.min e e')), <- (aligned s' m' e' (Z.min e e')), <- Rmult_plus_distr_r, <- plus_IZR in * by lia.
    apply normalize_gen, Hom.
Qed.

(** sums are numbers of the format, whatever is added *)
Lemma xsum_fin x y : xfin x -> xfin y -> (Rabs (SFval x + SFval y) <= om)%R -> fin (xsum prec emax x y).
Proof.
  intros Hx Hy Hom. destruct x as [s|s| |s m e], y as [s'|s'| |s' m' e']; try contradiction; cbn [xsum].
  - cbn [SFadd]. destruct (Bool.eqb s s'); exact I.
  - change (SFval (S754_zero s)) with 0%R in *. rewrite Rplus_0_l, val_abs in Hom. apply round_gen, Hom.
  - change (SFval (S754_zero s')) with 0%R in *. rewrite Rplus_0_r, val_abs in Hom. apply round_gen, Hom.
  - cbn [SFadd].
    rewrite <- (aligned s m e (Z.min e e')), <- (aligned s' m' e' (Z.min e e')), <- Rmult_plus_distr_r, <- plus_IZR in * by lia.
    set (M := _ + _) in *. set (e0 := Z.min e e') in *. clearbody M e0. pose proof (bpow_pos e0) as Pe.
    destruct M as [|k|k]; cbn [binary_normalize]; [exact I|..].
    + rewrite Rabs_right in Hom by (left; apply Rmult_lt_0_compat; [apply IZR_lt; lia|exact Pe]). apply round_gen, Hom.
    + change (Zneg k) with (- Zpos k) in Hom. rewrite opp_IZR, Ropp_mult_distr_l_reverse, Rabs_Ropp in Hom.
      rewrite Rabs_right in Hom by (left; apply Rmult_lt_0_compat; [apply IZR_lt; lia|exact Pe]). apply round_gen, Hom.
Qed.

Lemma xprod_spec x y : xfin x -> xfin y -> xfin (xprod prec emax x y) /\ SFval (xprod prec emax x y) = (SFval x * SFval y)%R.
Proof.
  intros Hx Hy. destruct x as [s|s| |s m e], y as [s'|s'| |s' m' e']; try contradiction; cbn [xprod SFmul]; (split; [exact I|]);
    try (cbn [SFval]; ring).
  rewrite !val_sgn, bpow_add, Pos2Z.inj_mul, mult_IZR. destruct s, s'; cbn [xorb]; ring.
Qed.

Lemma xopp_spec x : xfin x -> xfin (SFopp x) /\ SFval (SFopp x) = (- SFval x)%R.
Proof.
  intros Hx. destruct x as [s|s| |s m e]; try contradiction; cbn [SFopp]; (split; [exact I|]); [cbn [SFval]; ring|].
  rewrite !val_sgn. destruct s; cbn [negb]; ring.
Qed.

Lemma f_mul_spec a b : f_fin a -> f_fin b -> (Rabs (f_val a * f_val b) <= om)%R ->
  f_fin (f_mul prec emax fuse a b) /\ (Rabs (f_val (f_mul prec emax fuse a b) - f_val a * f_val b) <= u * (Rabs (f_val a * f_val b) + mu))%R.
Proof.
  destruct a as [x h], b as [y k]. unfold f_val, f_mul. cbn [f_x f_h]. intros Hx Hy Hom.
  destruct (xprod_spec x y Hx Hy) as (P1 & P2). rewrite <- P2 in *. destruct (fuse h k).
  - split; [exact P1|apply err_0].
  - apply xround_spec; assumption.
Qed.

(** a fused sum and difference: the exact product, one rounding *)
Lemma fused_proof a b c : fin (f_x a) -> fin (f_x b) -> fin (f_x c) -> fuse (f_h a) (f_h b) = true ->
  let O := Fops prec emax fuse in
  let p := (f_val a * f_val b)%R in let q := f_val c in
  ((Rabs (p + q) <= om)%R -> fin (f_x (sadd O (smul O a b) c)) /\
     (Rabs (f_val (sadd O (smul O a b) c) - (p + q)) <= u * (Rabs (p + q) + mu))%R) /\
  ((Rabs (p - q) <= om)%R -> fin (f_x (ssub O (smul O a b) c)) /\
     (Rabs (f_val (ssub O (smul O a b) c) - (p - q)) <= u * (Rabs (p - q) + mu))%R) /\
  ((Rabs (q - p) <= om)%R -> fin (f_x (ssub O c (smul O a b))) /\
     (Rabs (f_val (ssub O c (smul O a b)) - (q - p)) <= u * (Rabs (q - p) + mu))%R).
Proof.
  destruct a as [x h], b as [y k], c as [z l]. cbv zeta. unfold f_val. cbn [Fops sadd ssub smul f_add f_sub f_mul f_x f_h]. intros Hx Hy Hz ->.
  apply fin_xfin in Hx, Hy, Hz. destruct (xprod_spec x y Hx Hy) as (P1 & P2). rewrite <- P2.
  destruct (xopp_spec z Hz) as (Z1 & Z2). destruct (xopp_spec _ P1) as (Q1 & Q2). 
  change (SFval (xprod prec emax x y) - SFval z)%R with (SFval (xprod prec emax x y) + - SFval z)%R.
  change (SFval z - SFval (xprod prec emax x y))%R with (SFval z + - SFval (xprod prec emax x y))%R. rewrite <- Z2, <- Q2.
  split; [|split]; intros Hom; (split; [apply xsum_fin|apply xsum_spec]); assumption.
Qed.

Lemma Frounding : rounding u mu om (Fops prec emax fuse) f_val f_fin.
Proof.
  constructor.
  - left. apply u_pos.
  - left. apply mu_pos.
  - intros [x h] [y k] Hx Hy Hom. exact (xsum_spec x y Hx Hy Hom).
  - intros [x h] [y k] Hx Hy Hom. destruct (xopp_spec y Hy) as (O1 & O2). unfold f_val in *. cbn [Fops ssub f_sub f_x] in *.
    replace (SFval x - SFval y)%R with (SFval x + SFval (SFopp y))%R in * by (rewrite O2; ring).
    exact (xsum_spec x (SFopp y) Hx O1 Hom).
  - intros a b. apply f_mul_spec.
  - intros a Ha Hom. cbn [Fops shalf]. destruct (SFhalf_spec prec emax Hprec Hemax) as [H1 H2].
    pose proof (f_mul_spec a (f_half prec) Ha (fin_xfin _ H1)) as H.
    assert (E : f_val (f_half prec) = (/ 2)%R) by exact H2. rewrite E in H. apply H. exact Hom.
  - intros [x h] Hx. exact (xopp_spec x Hx).
Qed.

(** ** without fusing it is the arithmetic of Binary.v *)
Local Notation em := (3 - emax - prec).
Lemma shl_none m e e' : e <= e' -> shl_align m e e' = (m, e).
Proof. intros H. unfold shl_align. destruct (e' - e) eqn:E; [reflexivity|reflexivity|lia]. Qed.

Lemma xround_id x : fin x -> xround prec emax x = x.
Proof.
  destruct x as [s|s| |s m e]; try reflexivity. cbn [SFfin xround]. intros H.
  destruct (bounded_elim prec emax m e H) as (H1 & H2 & H3).
  assert (Hm : Zpos m < 2 ^ prec).
  { pose proof (digits_spec m) as (_ & D). eapply Z.lt_le_trans; [exact D|]. apply Z.pow_le_mono_r; [lia|].
    rewrite (fexp_max prec emax) in H1. lia. }
  unfold binary_round. rewrite H1, shl_none by lia. unfold binary_round_aux.
  rewrite (second_shift prec emax Hprec) by lia. cbn [shr_m loc_of_shr_record round_nearest_even].
  rewrite (second_shift prec emax Hprec) by lia. cbn [shr_m]. rewrite (Zle_imp_le_bool _ _ H2). reflexivity.
Qed.

Lemma xprod_round x y : fin x -> fin y -> xround prec emax (xprod prec emax x y) = SFmul prec emax x y.
Proof.
  destruct x as [s|s| |s m e], y as [s'|s'| |s' m' e']; try contradiction; try reflexivity. cbn [SFfin xprod xround SFmul]. intros Ha Hb.
  apply (bounded_elim prec emax) in Ha. apply (bounded_elim prec emax) in Hb. destruct Ha as (A1 & A2 & A3), Hb as (B1 & B2 & B3).
  pose proof (digits_mul m m') as Hd. unfold binary_round. rewrite shl_none; [reflexivity|].
  rewrite (fexp_max prec emax) in *. lia.
Qed.

Lemma xsum_add x y : fin x -> fin y -> xsum prec emax x y = SFadd prec emax x y.
Proof.
  intros Hx Hy. destruct x as [s|s| |s m e], y as [s'|s'| |s' m' e']; try contradiction; try reflexivity.
  - exact (xround_id _ Hy).
  - exact (xround_id _ Hx).
Qed.

Lemma xsum_sub x y : fin x -> fin y -> xsum prec emax x (SFopp y) = SFsub prec emax x y.
Proof.
  intros Hx Hy. destruct (SFopp_spec prec emax y Hy) as (O1 & _). rewrite xsum_add by assumption.
  destruct x as [s|s| |s m e], y as [s'|s'| |s' m' e']; try contradiction; try reflexivity.
  cbn [SFopp SFadd SFsub]. f_equal. destruct s'; cbn [negb cond_Zopp]; lia.
Qed.
End Fuse.

Definition same_as_plain (prec emax : Z) (fuse : hist -> hist -> bool) : Prop := forall a b,
  SFfin prec emax (f_x a) -> SFfin prec emax (f_x b) ->
  f_x (sadd (Fops prec emax fuse) a b) = sadd (SFops prec emax) (f_x a) (f_x b) /\
  f_x (ssub (Fops prec emax fuse) a b) = ssub (SFops prec emax) (f_x a) (f_x b) /\
  (fuse (f_h a) (f_h b) = false -> f_x (smul (Fops prec emax fuse) a b) = smul (SFops prec emax) (f_x a) (f_x b)) /\
  (fuse (f_h a) (Given (-3)) = false -> f_x (shalf (Fops prec emax fuse) a) = shalf (SFops prec emax) (f_x a)) /\
  f_x (sopp (Fops prec emax fuse) a) = sopp (SFops prec emax) (f_x a).

Lemma plain_proof prec emax fuse : 2 <= prec -> prec < emax -> same_as_plain prec emax fuse.
Proof.
  intros Hp He [x h] [y k] Hx Hy. cbn [f_x f_h] in *. cbn [Fops SFops sadd ssub smul shalf sopp f_add f_sub f_mul f_opp f_half f_x f_h].
  split; [apply xsum_add; assumption|]. split; [apply xsum_sub; assumption|].
  split; [intros ->; apply xprod_round; assumption|]. split; [|reflexivity].
  intros ->. apply xprod_round; auto. apply (SFhalf_spec prec emax); assumption.
Qed.

(** tables with histories are as good as tables without *)
Lemma tagged_table prec emax t cexp h inv L : table_ok (SFu prec) SFval (SFfin prec emax) t cexp inv L ->
  table_ok (SFu prec) f_val f_fin t (tagged2 h cexp) inv L.
Proof.
  intros H i Hi. destruct (H i Hi) as ((F1 & F2) & D). split; [|exact D]. split.
  - unfold tagged2, f_fin. cbn [fst snd f_x]. destruct (fst (cexp inv i L)); cbn [SFfin] in F1; auto.
  - unfold tagged2, f_fin. cbn [fst snd f_x]. destruct (snd (cexp inv i L)); cbn [SFfin] in F2; auto.
Qed.
Lemma tagged_norm prec emax s rnorm h k : norm_ok (SFu prec) SFval (SFfin prec emax) s rnorm k ->
  norm_ok (SFu prec) f_val f_fin s (tagged1 h rnorm) k.
Proof.
  intros (F1 & D). split; [|exact D]. unfold tagged1, f_fin. cbn [f_x]. destruct (rnorm k); cbn [SFfin] in F1; auto.
Qed.
