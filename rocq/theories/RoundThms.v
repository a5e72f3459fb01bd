(** RoundThms.v : proofs behind PropertiesRound.v. *)

From Coq Require Import Reals Lra Psatz Znumtheory.
From Verif Require Import Base Spec Pack3d Pack2d Sched SchedProofs Phases Exec Remap RemapMain RemapInst
  Remap3d Remap2d RemapThms RemapTop Layout LayoutProofs Setup3d Setup3dProofs Setup2d Setup2dProofs LayoutFinal Kiss KissPure KissAlg KissFactor KissReal Fft1d KissFinal
  Fft3d Frame Fft3dProofs Fft3dMain DftMulti Fft3dTop Fft3dFinal Fft2d Fft2dMain Fft2dTop Fft2dFinal Round RoundKiss RoundFft.
Local Open Scope R_scope.

(** ** specification *)
(** Size of the data.  The term in mu allows for results too small for a normalised
    number; mu is 2^-1022 for double precision. *)
Definition size1 (mu : R) (n : Z) (x : Z -> R * R) : R := abs_sum1 n x + 32 * mu * IZR n.
Definition size2 (mu : R) (N : Z * Z) (x : pt2 -> R * R) : R := abs_sum2 N x + 32 * mu * IZR (grid_points2 N).
Definition size3 (mu : R) (N : Z * Z * Z) (x : pt3 -> R * R) : R := abs_sum3 N x + 32 * mu * IZR (grid_points N).

(** rnorm k is 1/k up to s roundings *)
Definition norm_ok {F} (u : R) (val : F -> R) (fin : F -> Prop) (s : nat) (rnorm : Z -> F) (k : Z) : Prop :=
  fin (rnorm k) /\ Rabs (val (rnorm k) - / IZR k) <= ((1 + u) ^ s - 1) * / IZR k.

(** the values of a field of [F] numbers *)
Definition vals {F I : Type} (val : F -> R) (x : I -> F * F) : I -> R * R := fun p => cval val (x p).

(** y is finite and within e of z *)
Definition within {F} (val : F -> R) (fin : F -> Prop) (e : R) (y : F * F) (z : R * R) : Prop :=
  cfin fin y /\ cdist (cval val y) z <= e.

(** what scaling multiplies by, and its price in roundings *)
Definition scale_by (k : Z) (scaled : bool) : R := if scaled then / IZR k else 1.
Definition scale_cost (s : nat) (scaled : bool) : nat := if scaled then s + 2 else 0.

(** ** sums *)
Lemma rsum_shift n f c : rsum n (fun i => f i + c) = rsum n f + c * IZR (Z.max 0 n).
Proof.
  unfold rsum. replace (IZR (Z.max 0 n)) with (INR (Z.to_nat n)) by (rewrite INR_IZR_INZ; f_equal; lia).
  induction (Z.to_nat n) as [|m IH]; [cbn; ring|]. rewrite S_INR. cbn [nrsum]. rewrite IH. ring.
Qed.
Lemma rsum_shift' n f c : (1 <= n)%Z -> rsum n (fun i => f i + c) = rsum n f + c * IZR n.
Proof. intros H. rewrite rsum_shift. replace (Z.max 0 n) with n by lia. reflexivity. Qed.

Lemma ssum3_size mu N x : (1 <= fst (fst N))%Z -> (1 <= snd (fst N))%Z -> (1 <= snd N)%Z ->
  ssum3 N (fun q => cmod (x q) + 32 * mu) = size3 mu N x.
Proof.
  destruct N as [[n1 n2] n3]. unfold ssum3, size3, abs_sum3, sum3, sum2, grid_points. cbn [fst snd]. intros H1 H2 H3.
  rewrite (rsum_ext n3 _ (fun c => rsum n2 (fun b => rsum n1 (fun a => cmod (x (a, b, c)))) + (32 * mu * IZR n1) * IZR n2)).
  - rewrite rsum_shift' by lia. rewrite !mult_IZR. f_equal; [|ring]. rewrite <- rsum_sum1 by lia. apply rsum_ext. intros c _.
    rewrite <- rsum_sum1 by lia. apply rsum_ext. intros b _. apply rsum_sum1. lia.
  - intros c _. rewrite <- rsum_shift' by lia. apply rsum_ext. intros b _. apply rsum_shift'. lia.
Qed.
Lemma ssum2_size mu N x : (1 <= fst N)%Z -> (1 <= snd N)%Z ->
  ssum2 N (fun q => cmod (x q) + 32 * mu) = size2 mu N x.
Proof.
  destruct N as [n1 n2]. unfold ssum2, size2, abs_sum2, sum2, grid_points2. cbn [fst snd]. intros H1 H2.
  rewrite (rsum_ext n2 _ (fun b => rsum n1 (fun a => cmod (x (a, b))) + (32 * mu * IZR n1))).
  - rewrite rsum_shift' by lia. rewrite !mult_IZR. f_equal; [|ring]. rewrite <- rsum_sum1 by lia. apply rsum_ext. intros c _.
    apply rsum_sum1. lia.
  - intros b _. apply rsum_shift'. lia.
Qed.
Lemma ssum3_const N c : (1 <= fst (fst N))%Z -> (1 <= snd (fst N))%Z -> (1 <= snd N)%Z ->
  ssum3 N (fun _ => c) = c * IZR (grid_points N).
Proof.
  destruct N as [[n1 n2] n3]. unfold ssum3, grid_points. cbn [fst snd]. intros H1 H2 H3.
  assert (K : forall n d, (1 <= n)%Z -> rsum n (fun _ => d) = d * IZR n).
  { intros n d Hn. rewrite (rsum_ext n _ (fun _ => 0 + d)) by (intros; ring). rewrite (rsum_shift' n (fun _ => 0) d Hn).
    replace (rsum n (fun _ => 0)) with 0; [ring|]. symmetry. unfold rsum. induction (Z.to_nat n) as [|m IH]; [reflexivity|]. cbn [nrsum]. rewrite IH. ring. }
  rewrite !K by lia. rewrite !mult_IZR. ring.
Qed.
Lemma ssum2_const N c : (1 <= fst N)%Z -> (1 <= snd N)%Z -> ssum2 N (fun _ => c) = c * IZR (grid_points2 N).
Proof.
  destruct N as [n1 n2]. unfold ssum2, grid_points2. cbn [fst snd]. intros H1 H2.
  assert (K : forall n d, (1 <= n)%Z -> rsum n (fun _ => d) = d * IZR n).
  { intros n d Hn. rewrite (rsum_ext n _ (fun _ => 0 + d)) by (intros; ring). rewrite (rsum_shift' n (fun _ => 0) d Hn).
    replace (rsum n (fun _ => 0)) with 0; [ring|]. symmetry. unfold rsum. induction (Z.to_nat n) as [|m IH]; [reflexivity|]. cbn [nrsum]. rewrite IH. ring. }
  rewrite !K by lia. rewrite !mult_IZR. ring.
Qed.

(** ** the theorems *)
Section Thms.
Context {F : Type}.
Variables u mu om : R.
Variable O : sops F.
Variable val : F -> R.
Variable fin : F -> Prop.
Hypothesis RO : rounding u mu om O val fin.
Variable t : nat.
Variable cexp : bool -> Z -> Z -> F * F.
Local Notation pw k := ((1 + u) ^ k).
Local Notation near := (near u val fin).
Local Notation cval := (cval val).
Local Notation cfin := (cfin fin).
Local Notation vals := (vals val).
Local Notation within := (within val fin).
Local Notation Hu := (r_u _ _ _ _ _ _ RO).
Local Notation Hmu := (r_mu _ _ _ _ _ _ RO).
Local Notation pw_1 := (pw_1 u mu om O val fin RO).
Local Notation pw_le := (pw_le u mu om O val fin RO).

Lemma start_near z : cfin z -> near 0 (cmod (cval z) + 32 * mu) z (cval z) /\ 32 * mu <= cmod (cval z) + 32 * mu.
Proof.
  intros Hz. pose proof (cmod_nonneg (cval z)). pose proof Hmu. split; [|lra]. apply near_0; [exact Hz|lra].
Qed.
Lemma near_within k B y z : near k B y z -> within ((pw k - 1) * B) y z.
Proof. intros (H1 & H2 & _). split; assumption. Qed.

(** *** one dimension *)
Lemma line_start L inv st x j : plan_for cexp L inv st -> table_ok u val fin t cexp inv L -> (0 <= j < L)%Z ->
  (forall i, (0 <= i < L)%Z -> cfin (x i)) ->
  pw (roundings t L) * (4 * size1 mu L (vals x)) <= om ->
  within ((pw (roundings t L) - 1) * size1 mu L (vals x)) (lineT O st x j) (DFT inv L (vals x) j).
Proof.
  intros HP Ht Hj Hx Hf.
  assert (E : rsum L (fun i => cmod (vals x i) + 32 * mu) = size1 mu L (vals x)).
  { rewrite rsum_shift' by lia. unfold size1, abs_sum1. rewrite rsum_sum1 by lia. reflexivity. }
  pose proof (line_near u mu om O val fin RO t cexp L inv st 0 (fun i => cmod (vals x i) + 32 * mu) x (vals x) j HP Ht Hj) as H.
  rewrite E in H. apply near_within, H; [|exact Hf]. intros i Hi. apply start_near, Hx, Hi.
Qed.

Lemma C51_proof : forall inv n, (1 <= n < 2 ^ 31)%Z -> table_ok u val fin t cexp inv n ->
  exists st, kiss_fft_alloc cexp n inv = Some st /\
  (forall ist src i out o x,
     (forall j, (0 <= j < n)%Z -> zget src (i + j * ist) = Some (x j) /\ cfin (x j)) -> (0 <= o)%Z -> (o + n <= zlen out)%Z ->
     pw (roundings t n) * (4 * size1 mu n (vals x)) <= om ->
     exists out', kiss_fft_outplace O st ist src i out o = Some out' /\ zlen out' = zlen out /\
       (forall k, (0 <= k < n)%Z -> exists y, zget out' (o + k) = Some y /\
          within ((pw (roundings t n) - 1) * size1 mu n (vals x)) y (DFT inv n (vals x) k)) /\
       (forall a, ~ (o <= a < o + n)%Z -> zget out' a = zget out a)) /\
  (forall tmp arr o x, zlen tmp = n ->
     (forall j, (0 <= j < n)%Z -> zget arr (o + j) = Some (x j) /\ cfin (x j)) -> (0 <= o)%Z -> (o + n <= zlen arr)%Z ->
     pw (roundings t n) * (4 * size1 mu n (vals x)) <= om ->
     exists arr', kiss_fft_inplace O st tmp 1 arr o = Some arr' /\ zlen arr' = zlen arr /\
       (forall k, (0 <= k < n)%Z -> exists y, zget arr' (o + k) = Some y /\
          within ((pw (roundings t n) - 1) * size1 mu n (vals x)) y (DFT inv n (vals x) k)) /\
       (forall a, ~ (o <= a < o + n)%Z -> zget arr' a = zget arr a)).
Proof.
  intros inv n Hn Ht. destruct (alloc_ok O cexp n inv Hn) as (st & E & H1 & H2 & H3 & H4 & H5).
  exists st. split; [exact E|]. split.
  - intros ist src i out o x Hx Ho Hl Hf.
    destruct (kiss_outplace_ok O st n ist src i out o x H1 H4 H3 (fun t Htt => proj1 (Hx t Htt)) Ho Hl) as (out' & E' & Hz & Hs & Hnt).
    exists out'. split; [exact E'|]. split; [exact Hz|]. split; [|exact Hnt].
    intros k Hk. rewrite Hs by exact Hk. eexists. split; [reflexivity|].
    apply (line_start n inv st x k); auto; [split; auto|]. intros i0 Hi0. apply Hx, Hi0.
  - intros tmp arr o x Htmp Hx Ho Hl Hf.
    destruct (kiss_inplace_ok O st n tmp 1 arr o x H1 H4 H3 Htmp) as (out' & E' & Hz & Hs & Hnt); auto.
    { intros i Hi. rewrite Z.mul_1_r. apply Hx, Hi. }
    exists out'. split; [exact E'|]. split; [exact Hz|]. split; [|exact Hnt].
    intros k Hk. rewrite Hs by exact Hk. eexists. split; [reflexivity|].
    apply (line_start n inv st x k); auto; [split; auto|]. intros i0 Hi0. apply Hx, Hi0.
Qed.

(** *** three dimensions *)
Section Three.
Variable rnorm : Z -> F.
Variable s : nat.
Variables (ar : areas) (n : nat) (sts : settings) (N : Z * Z * Z) (permute : Z) (ins outs : nat -> box3) (f : fft3).
Hypothesis Hr : ready3 ar n sts N permute ins outs f.

Lemma dims_pos3 : (1 <= fst (fst N))%Z /\ (1 <= snd (fst N))%Z /\ (1 <= snd N)%Z /\ (1 <= grid_points N)%Z.
Proof.
  pose proof (F_dims _ _ _ _ _ _ _ (ready_facts _ _ _ _ _ _ _ _ Hr)) as HD. destruct N as [[x y] z]. cbn in HD. unfold dim_ok, grid_points in *. cbn [fst snd].
  assert (1 <= x /\ 1 <= y /\ 1 <= z)%Z as (A & B & C) by lia.
  repeat split; auto. assert (1 <= x * y)%Z by nia. nia.
Qed.

Lemma bcost_le k K S : (k <= K)%nat -> 0 <= S -> pw K * (4 * S) <= om -> pw k * (4 * S) <= om.
Proof. intros H1 H2 H3. eapply (guard_le u mu om O val fin RO); [exact H3|exact H1|lra]. Qed.

(** one call, on data with an error *)
Lemma call_near P scaled flag k S y x r p : setup_ffts3 cexp N = Some P -> flag = FORWARD \/ flag = BACKWARD ->
  tables3 u val fin t cexp N (negb (flag =? FORWARD)%Z) -> (flag = BACKWARD -> scaled = true -> norm_ok u val fin s rnorm (grid_points N)) ->
  (forall q, in_grid N q -> near k (S q) (y q) (x q) /\ 32 * mu <= S q) ->
  (flag = BACKWARD -> scaled = true -> 32 * mu * IZR (grid_points N) <= ssum3 N S) ->
  pw (k + cost3 t N + (if (flag =? BACKWARD)%Z && scaled then s else 0)) * (4 * ssum3 N S) <= om -> in_grid N p ->
  let fac := factor3 N outs scaled flag (dst_perm permute f flag) (dst_lay ins outs f flag) r p in
  near (k + cost3 t N + (if (flag =? BACKWARD)%Z && scaled then s + 2 else 0)) (ssum3 N S * fac)
    (call_val O rnorm N permute ins outs f P scaled false flag y r p) (rmulc fac (DFT3 (negb (flag =? FORWARD)%Z) N x p)).
Proof.
  intros HP Hfl HT Hno HS Hmu' Hf Hp fac. pose proof (ready_facts _ _ _ _ _ _ _ _ Hr) as FA. pose proof Hr as (_ & _ & HI & _).
  assert (E : near (k + cost3 t N) (ssum3 N S) ((if fwdpath f flag then fwd_val O P false flag y else bwd_val O P false flag y) p)
      (DFT3 (negb (flag =? FORWARD)%Z) N x p)).
  { assert (Hf' : pw (k + cost3 t N) * (4 * ssum3 N S) <= om).
    { eapply bcost_le; [|  |exact Hf]; [lia|]. destruct N as [[n1 n2] n3]. destruct p as [[a b] c]. cbn in Hp.
      unfold ssum3; cbn [fst snd]. apply rsum_pos. intros i Hi. apply rsum_pos. intros j Hj. apply rsum_pos. intros l Hl.
      destruct (HS (l, j, i)) as (X & _); [cbn; lia|]. exact (near_B _ _ _ _ _ _ _ X). }
    destruct (fwdpath f flag); [eapply fwd_near|eapply bwd_near]; eassumption. }
  unfold call_val, finish. cbn [negb]. rewrite andb_true_r. unfold fac, factor3.
  destruct ((flag =? BACKWARD)%Z && scaled) eqn:Eb; cbn [andb].
  - apply andb_prop in Eb. destruct Eb as (Eb & ->). apply Z.eqb_eq in Eb. destruct dims_pos3 as (D1 & D2 & D3 & D4).
    destruct (pos3 _ _ p <? psize3 (outs r))%Z.
    + replace (k + cost3 t N + (s + 2))%nat with (k + cost3 t N + s + 2)%nat by lia.
      apply (scl_near u mu om O val fin RO); [lia|apply (Hno Eb eq_refl)|apply (Hno Eb eq_refl)| |exact E|exact Hf].
      specialize (Hmu' Eb eq_refl).
      assert (G : 0 < IZR (grid_points N)) by (apply IZR_lt; lia).
      apply Rle_trans with (32 * mu); [pose proof Hmu as K; clear - K; lra|].
      apply Rmult_le_reg_r with (IZR (grid_points N)); [exact G|].
      replace (ssum3 N S * / IZR (grid_points N) * IZR (grid_points N)) with (ssum3 N S) by (field; lra). exact Hmu'.
    + rewrite Rmult_1_r. eapply (near_mono u mu om O val fin RO); [|apply Rle_refl|]; [apply Nat.le_add_r|].
      unfold rmulc. rewrite !Rmult_1_l. destruct (DFT3 _ _ _ _). exact E.
  - rewrite Rmult_1_r. rewrite Nat.add_0_r. unfold rmulc. rewrite !Rmult_1_l. destruct (DFT3 _ _ _ _). exact E.
Qed.

Lemma C52_forward_proof bi bo (M0 : nat -> @rmem F) scaled x :
  isdata bi -> isdata bo -> bi = bo \/ f_pre f = true -> arrays_ok f bo M0 ->
  tables3 u val fin t cexp N false ->
  (forall p, in_grid N p -> cfin (x p)) ->
  (forall r, (r < n)%nat -> holds3 2 0 (ins r) (fld x) (getb bi (M0 r))) ->
  pw (cost3 t N) * (4 * size3 mu N (vals x)) <= om ->
  exists P y, setup_ffts3 cexp N = Some P /\
  exec_all n (compute3 O rnorm f P scaled false FORWARD bi bo) M0
    (fun r m => holds3 2 permute (outs r) (fld y) (getb bo m) /\ framed M0 bo (fun r => (2 * f_fftsize f r)%Z) r m) /\
  (forall p, in_grid N p -> within ((pw (cost3 t N) - 1) * size3 mu N (vals x)) (y p) (DFT3 false N (vals x) p)).
Proof.
  intros Hbi Hbo Hpl Ha HT Hfx Hx Hf. destruct (ready_plans O cexp _ _ _ _ _ _ _ _ Hr) as (P & HP).
  destruct dims_pos3 as (D1 & D2 & D3 & D4).
  exists P, (fwd_val O P false FORWARD x). split; [exact HP|]. split.
  - pose proof (call_runs O cexp rnorm ar n sts N permute ins outs f P bi bo M0 scaled false FORWARD x Hr HP Hbi Hbo) as H.
    destruct (forward_dirs permute ins outs f) as (E1 & E2 & E3 & E4). rewrite E1, E2, E3, E4 in H.
    apply H; auto. split; [exact Ha|]. cbn. discriminate.
  - intros p Hp. pose proof (ready_facts _ _ _ _ _ _ _ _ Hr) as FA. pose proof Hr as (_ & _ & HI & _).
    pose proof (fwd_near u mu om O val fin RO t cexp n sts N permute ins outs f P FA HI HP FORWARD 0 (fun q => cmod (vals x q) + 32 * mu) x (vals x) p HT) as H.
    rewrite ssum3_size in H by assumption. apply near_within, H; [intros q Hq; apply start_near, Hfx, Hq|exact Hf|exact Hp].
Qed.

Lemma size3_ge x : 32 * mu * IZR (grid_points N) <= size3 mu N x.
Proof.
  destruct dims_pos3 as (D1 & D2 & D3 & D4). unfold size3. enough (0 <= abs_sum3 N x) by lra.
  pose proof (ssum3_size 0 N x D1 D2 D3) as E. unfold size3 in E. rewrite Rmult_0_r, Rmult_0_l, Rplus_0_r in E. rewrite <- E.
  unfold ssum3. apply rsum_pos. intros c _. apply rsum_pos. intros b _. apply rsum_pos. intros a _. pose proof (cmod_nonneg (x (a, b, c))). lra.
Qed.

Local Notation bcost := (scale_cost s).
Local Notation bfac := (scale_by (grid_points N)).

(** backward call under the proviso of C26, data with an error *)
Lemma bwd_near3 P b (M0 : nat -> @rmem F) scaled : setup_ffts3 cexp N = Some P -> isdata b -> room3 f BACKWARD b M0 ->
  (scaled = true -> forall r, (r < n)%nat -> (psize3 (ins r) <= psize3 (outs r))%Z) ->
  forall y, exists y',
  good n (st3 f b M0 b permute outs (fld y)) (pieces_compute3 O rnorm f P scaled false BACKWARD b b)
    (fun r m => holds3 2 0 (ins r) (fld y') (getb b m) /\ framed M0 b (fun r => (2 * f_fftsize f r)%Z) r m) /\
  (forall k S x p, tables3 u val fin t cexp N true -> (scaled = true -> norm_ok u val fin s rnorm (grid_points N)) ->
    (forall q, in_grid N q -> near k (S q) (y q) (x q) /\ 32 * mu <= S q) ->
    32 * mu * IZR (grid_points N) <= ssum3 N S ->
    pw (k + cost3 t N + bcost scaled) * (4 * ssum3 N S) <= om -> in_grid N p ->
    near (k + cost3 t N + bcost scaled) (ssum3 N S * bfac scaled) (y' p) (rmulc (bfac scaled) (DFT3 true N x p))).
Proof.
  intros HP Hb Hro Hsz y. pose proof Hr as (_ & _ & _ & _ & Ti & _).
  set (y' := fun p => let v := (if fwdpath f BACKWARD then fwd_val O P false BACKWARD y else bwd_val O P false BACKWARD y) p in
                      if scaled then scl O (rnorm (grid_points N)) v else v).
  assert (Ey : forall r p, (r < n)%nat -> inb3 p (ins r) -> call_val O rnorm N permute ins outs f P scaled false BACKWARD y r p = y' p).
  { intros r p Hrn Hp. destruct (src_out ar n sts N permute ins outs f BACKWARD r Hr ltac:(discriminate) Hrn) as (_ & _ & E3 & E4).
    unfold call_val, finish, y'. rewrite E3, E4. rewrite Z.eqb_refl. cbn [negb andb]. rewrite andb_true_r.
    destruct scaled; [|reflexivity]. rewrite (scaled_all ins outs r p (Hsz eq_refl r Hrn) Hp). reflexivity. }
  exists y'. split.
  - eapply good_conseq; [| |apply (call_good O cexp rnorm ar n sts N permute ins outs f P b b M0 scaled false BACKWARD y); auto; left; reflexivity].
    + intros r m Hrn (K1 & K2). split; [|exact K2].
      destruct (src_out ar n sts N permute ins outs f BACKWARD r Hr ltac:(discriminate) Hrn) as (E1 & E2 & E3 & E4). rewrite E1, E2. exact K1.
    + intros r m Hrn (K1 & K2). split; [|exact K2].
      destruct (src_out ar n sts N permute ins outs f BACKWARD r Hr ltac:(discriminate) Hrn) as (E1 & E2 & E3 & E4). rewrite E3, E4 in K1.
      eapply holds3_ext; [|exact K1]. intros p q Hp _. apply fld_ext. apply Ey; assumption.
  - intros k S x p HT Hno HS Hmu' Hf Hp. destruct (proj2 (proj2 Ti) p Hp) as (r & Hrn & Hpr).
    rewrite <- (Ey r p Hrn Hpr).
    assert (Ef : factor3 N outs scaled BACKWARD (dst_perm permute f BACKWARD) (dst_lay ins outs f BACKWARD) r p = bfac scaled).
    { destruct (src_out ar n sts N permute ins outs f BACKWARD r Hr ltac:(discriminate) Hrn) as (_ & _ & E3 & E4).
      unfold factor3, scale_by. rewrite E3, E4, Z.eqb_refl. cbn [andb]. destruct scaled; [|reflexivity].
      rewrite (scaled_all ins outs r p (Hsz eq_refl r Hrn) Hpr). reflexivity. }
    pose proof (call_near P scaled BACKWARD k S y x r p HP (or_intror eq_refl) HT (fun _ => Hno) HS (fun _ _ => Hmu')) as H.
    cbv zeta in H. rewrite Ef in H. rewrite Z.eqb_refl in H. cbn [andb] in H.
    apply H; [|exact Hp]. pose proof (dims_pos3) as (D1 & D2 & D3 & D4). pose proof Hmu.
    eapply bcost_le; [| |exact Hf]; [unfold scale_cost; destruct scaled; lia|].
    eapply Rle_trans; [|exact Hmu']. apply Rmult_le_pos; [lra|]. apply IZR_le. lia.
Qed.

Lemma C52_backward_proof b (M0 : nat -> @rmem F) scaled x :
  isdata b -> room3 f BACKWARD b M0 ->
  (scaled = true -> forall r, (r < n)%nat -> (psize3 (ins r) <= psize3 (outs r))%Z) ->
  tables3 u val fin t cexp N true -> (scaled = true -> norm_ok u val fin s rnorm (grid_points N)) ->
  (forall p, in_grid N p -> cfin (x p)) ->
  (forall r, (r < n)%nat -> holds3 2 permute (outs r) (fld x) (getb b (M0 r))) ->
  pw (cost3 t N + bcost scaled) * (4 * size3 mu N (vals x)) <= om ->
  exists P y, setup_ffts3 cexp N = Some P /\
  exec_all n (compute3 O rnorm f P scaled false BACKWARD b b) M0
    (fun r m => holds3 2 0 (ins r) (fld y) (getb b m) /\ framed M0 b (fun r => (2 * f_fftsize f r)%Z) r m) /\
  (forall p, in_grid N p -> within ((pw (cost3 t N + bcost scaled) - 1) * (size3 mu N (vals x) * bfac scaled)) (y p)
     (rmulc (bfac scaled) (DFT3 true N (vals x) p))).
Proof.
  intros Hb Hro Hsz HT Hno Hfx Hx Hf. destruct (ready_plans O cexp _ _ _ _ _ _ _ _ Hr) as (P & HP).
  destruct dims_pos3 as (D1 & D2 & D3 & D4).
  destruct (bwd_near3 P b M0 scaled HP Hb Hro Hsz x) as (y & Hg & Hn). exists P, y. split; [exact HP|]. split.
  - unfold compute3. eapply good_exec; [exact Hg|]. intros r Hrn. split; [apply Hx, Hrn|apply framed_refl].
  - intros p Hp. specialize (Hn 0%nat (fun q => cmod (vals x q) + 32 * mu) (vals x) p HT Hno). rewrite ssum3_size in Hn by assumption.
    apply near_within, Hn; [intros q Hq; apply start_near, Hfx, Hq|apply size3_ge|exact Hf|exact Hp].
Qed.

Lemma trip_good3 P b (M0 : nat -> @rmem F) s1 scaled x :
  setup_ffts3 cexp N = Some P -> isdata b -> room3 f BACKWARD b M0 ->
  (scaled = true -> forall r, (r < n)%nat -> (psize3 (ins r) <= psize3 (outs r))%Z) ->
  tables3 u val fin t cexp N false -> tables3 u val fin t cexp N true -> (scaled = true -> norm_ok u val fin s rnorm (grid_points N)) ->
  (forall p, in_grid N p -> cfin (x p)) ->
  pw (2 * cost3 t N + bcost scaled) * (4 * (size3 mu N (vals x) * IZR (grid_points N))) <= om ->
  exists y, good n (st3 f b M0 b 0 ins (fld x))
    (pieces_compute3 O rnorm f P s1 false FORWARD b b ++ pieces_compute3 O rnorm f P scaled false BACKWARD b b) (st3 f b M0 b 0 ins (fld y)) /\
  (forall p, in_grid N p ->
     within ((pw (2 * cost3 t N + bcost scaled) - 1) * (size3 mu N (vals x) * (if scaled then 1 else IZR (grid_points N)))) (y p)
     (rmulc (if scaled then 1 else IZR (grid_points N)) (vals x p))).
Proof.
  intros HP Hb Hro Hsz HTf HTb Hno Hfx Hf.
  destruct dims_pos3 as (D1 & D2 & D3 & D4). pose proof Hmu as Hmu0.
  assert (G : 1 <= IZR (grid_points N)) by (apply IZR_le; lia).
  pose proof (size3_ge (vals x)) as Hge.
  assert (Hg1 : 32 * mu <= size3 mu N (vals x)) by nra.
  set (z := fwd_val O P false FORWARD x).
  destruct (bwd_near3 P b M0 scaled HP Hb Hro Hsz z) as (y & Hg & Hn). exists y. split.
  - assert (Gf : good n (st3 f b M0 b 0 ins (fld x)) (pieces_compute3 O rnorm f P s1 false FORWARD b b) (st3 f b M0 b permute outs (fld z))).
    { pose proof (call_good O cexp rnorm ar n sts N permute ins outs f P b b M0 s1 false FORWARD x Hr HP Hb Hb (or_introl eq_refl)) as H.
      destruct (forward_dirs permute ins outs f) as (E1 & E2 & E3 & E4). rewrite E1, E2, E3, E4 in H.
      apply H. split; [apply Hro|]. cbn. discriminate. }
    exact (good_app _ _ _ _ _ _ Gf Hg).
  - intros p Hp.
    specialize (Hn (cost3 t N) (fun _ => size3 mu N (vals x)) (DFT3 false N (vals x)) p HTb Hno). rewrite ssum3_const in Hn by assumption.
    pose proof (inverse3 false N (vals x) p Hp) as Ei. cbn [negb] in Ei. rewrite Ei, rmulc_mul in Hn.
    assert (Eb : size3 mu N (vals x) * IZR (grid_points N) * bfac scaled = size3 mu N (vals x) * (if scaled then 1 else IZR (grid_points N)) /\
                 bfac scaled * IZR (grid_points N) = (if scaled then 1 else IZR (grid_points N))).
    { unfold scale_by. destruct scaled; split; try field; lra. }
    destruct Eb as (Eb1 & Eb2). rewrite Eb1, Eb2 in Hn.
    replace (cost3 t N + cost3 t N + bcost scaled)%nat with (2 * cost3 t N + bcost scaled)%nat in Hn by lia.
    apply near_within, Hn; [| |exact Hf|exact Hp].
    + intros q Hq. split; [|exact Hg1]. pose proof (ready_facts _ _ _ _ _ _ _ _ Hr) as FA. pose proof Hr as (_ & _ & HI & _).
      pose proof (fwd_near u mu om O val fin RO t cexp n sts N permute ins outs f P FA HI HP FORWARD 0 (fun q => cmod (vals x q) + 32 * mu) x (vals x) q HTf) as H.
      rewrite ssum3_size in H by assumption. apply H; [intros q1 Hq1; apply start_near, Hfx, Hq1| |exact Hq].
      eapply (guard_le u mu om O val fin RO); [exact Hf|lia|]. split; [lra|]. nra.
    + apply Rmult_le_compat_r; lra.
Qed.
Lemma C52_round_trip_proof b (M0 : nat -> @rmem F) s1 scaled x :
  isdata b -> room3 f BACKWARD b M0 ->
  (scaled = true -> forall r, (r < n)%nat -> (psize3 (ins r) <= psize3 (outs r))%Z) ->
  tables3 u val fin t cexp N false -> tables3 u val fin t cexp N true -> (scaled = true -> norm_ok u val fin s rnorm (grid_points N)) ->
  (forall p, in_grid N p -> cfin (x p)) ->
  (forall r, (r < n)%nat -> holds3 2 0 (ins r) (fld x) (getb b (M0 r))) ->
  pw (2 * cost3 t N + bcost scaled) * (4 * (size3 mu N (vals x) * IZR (grid_points N))) <= om ->
  exists P y, setup_ffts3 cexp N = Some P /\
  exec_all n (fun r => compute3 O rnorm f P s1 false FORWARD b b r ++ compute3 O rnorm f P scaled false BACKWARD b b r) M0
    (fun r m => holds3 2 0 (ins r) (fld y) (getb b m) /\ framed M0 b (fun r => (2 * f_fftsize f r)%Z) r m) /\
  (forall p, in_grid N p ->
     within ((pw (2 * cost3 t N + bcost scaled) - 1) * (size3 mu N (vals x) * (if scaled then 1 else IZR (grid_points N)))) (y p)
     (rmulc (if scaled then 1 else IZR (grid_points N)) (vals x p))).
Proof.
  intros Hb Hro Hsz HTf HTb Hno Hfx Hx Hf. destruct (ready_plans O cexp _ _ _ _ _ _ _ _ Hr) as (P & HP).
  destruct (trip_good3 P b M0 s1 scaled x HP Hb Hro Hsz HTf HTb Hno Hfx Hf) as (y & Ga & Hy). exists P, y. split; [exact HP|]. split; [|exact Hy].
  destruct (good_exec n _ _ _ M0 Ga) as (M' & H1 & H2).
  { intros r Hrn. split; [apply Hx, Hrn|apply framed_refl]. }
  exists M'. split; [exact H1|]. destruct H2 as (L & H2). exists L. unfold compute3.
  assert (E : start n (fun r => together (pieces_compute3 O rnorm f P s1 false FORWARD b b) r ++ together (pieces_compute3 O rnorm f P scaled false BACKWARD b b) r) M0
    = start n (together (pieces_compute3 O rnorm f P s1 false FORWARD b b ++ pieces_compute3 O rnorm f P scaled false BACKWARD b b)) M0).
  { unfold start. f_equal. apply map_ext. intros r. unfold together. rewrite map_app, concat_app. reflexivity. }
  rewrite E. exact H2.
Qed.
End Three.
(** *** two dimensions *)
Section Two.
Variable rnorm : Z -> F.
Variable s : nat.
Variables (esize : Z) (ar : areas) (n : nat) (sts : settings) (N : Z * Z) (permute : Z) (ins outs : nat -> box2) (f : fft2).
Hypothesis Hr : ready2 esize ar n sts N permute ins outs f.

Lemma dims_pos2 : (1 <= fst N)%Z /\ (1 <= snd N)%Z /\ (1 <= grid_points2 N)%Z.
Proof.
  pose proof (T_dims _ _ _ _ _ _ _ (ready_facts2 _ _ _ _ _ _ _ _ _ Hr)) as HD. destruct N as [x y]. cbn in HD. unfold dim_ok, grid_points2 in *. cbn [fst snd].
  assert (1 <= x /\ 1 <= y)%Z as (A & B) by lia.
  repeat split; auto. nia.
Qed.


(** one call, on data with an error *)
Lemma call_near2 P scaled flag k S y x r p : setup_ffts2 cexp N = Some P -> flag = FORWARD \/ flag = BACKWARD ->
  tables2 u val fin t cexp N (negb (flag =? FORWARD)%Z) -> (flag = BACKWARD -> scaled = true -> norm_ok u val fin s rnorm (grid_points2 N)) ->
  (forall q, in_grid2 N q -> near k (S q) (y q) (x q) /\ 32 * mu <= S q) ->
  (flag = BACKWARD -> scaled = true -> 32 * mu * IZR (grid_points2 N) <= ssum2 N S) ->
  pw (k + cost2 t N + (if (flag =? BACKWARD)%Z && scaled then s else 0)) * (4 * ssum2 N S) <= om -> in_grid2 N p ->
  let fac := factor2 N outs scaled flag (dst_perm2 permute f flag) (dst_lay2 ins outs f flag) r p in
  near (k + cost2 t N + (if (flag =? BACKWARD)%Z && scaled then s + 2 else 0)) (ssum2 N S * fac)
    (call_val2 O rnorm N permute ins outs f P scaled false flag y r p) (rmulc fac (DFT2 (negb (flag =? FORWARD)%Z) N x p)).
Proof.
  intros HP Hfl HT Hno HS Hmu' Hf Hp fac. pose proof (ready_facts2 _ _ _ _ _ _ _ _ _ Hr) as FA. pose proof Hr as (_ & _ & HI & _).
  assert (E : near (k + cost2 t N) (ssum2 N S) ((if fwdpath2 f flag then fwd_val2 O P false flag y else bwd_val2 O P false flag y) p)
      (DFT2 (negb (flag =? FORWARD)%Z) N x p)).
  { assert (Hf' : pw (k + cost2 t N) * (4 * ssum2 N S) <= om).
    { eapply bcost_le; [|  |exact Hf]; [lia|]. destruct N as [n1 n2]. destruct p as [a b]. cbn in Hp.
      unfold ssum2; cbn [fst snd]. apply rsum_pos. intros j Hj. apply rsum_pos. intros l Hl.
      destruct (HS (l, j)) as (X & _); [cbn; lia|]. exact (near_B _ _ _ _ _ _ _ X). }
    destruct (fwdpath2 f flag); [eapply fwd_near2|eapply bwd_near2]; eassumption. }
  unfold call_val2, finish2. cbn [negb]. rewrite andb_true_r. unfold fac, factor2.
  destruct ((flag =? BACKWARD)%Z && scaled) eqn:Eb; cbn [andb].
  - apply andb_prop in Eb. destruct Eb as (Eb & ->). apply Z.eqb_eq in Eb. destruct dims_pos2 as (D1 & D2 & D4).
    destruct (pos2 _ _ p <? psize2 (outs r))%Z.
    + replace (k + cost2 t N + (s + 2))%nat with (k + cost2 t N + s + 2)%nat by lia.
      apply (scl_near u mu om O val fin RO); [lia|apply (Hno Eb eq_refl)|apply (Hno Eb eq_refl)| |exact E|exact Hf].
      specialize (Hmu' Eb eq_refl).
      assert (G : 0 < IZR (grid_points2 N)) by (apply IZR_lt; lia).
      apply Rle_trans with (32 * mu); [pose proof Hmu as K; clear - K; lra|].
      apply Rmult_le_reg_r with (IZR (grid_points2 N)); [exact G|].
      replace (ssum2 N S * / IZR (grid_points2 N) * IZR (grid_points2 N)) with (ssum2 N S) by (field; lra). exact Hmu'.
    + rewrite Rmult_1_r. eapply (near_mono u mu om O val fin RO); [|apply Rle_refl|]; [apply Nat.le_add_r|].
      unfold rmulc. rewrite !Rmult_1_l. destruct (DFT2 _ _ _ _). exact E.
  - rewrite Rmult_1_r. rewrite Nat.add_0_r. unfold rmulc. rewrite !Rmult_1_l. destruct (DFT2 _ _ _ _). exact E.
Qed.

Lemma C52_forward_proof2 bi bo (M0 : nat -> @rmem F) scaled x :
  isdata bi -> isdata bo -> bi = bo \/ t_pre f = true -> arrays_ok2 f bo M0 ->
  tables2 u val fin t cexp N false ->
  (forall p, in_grid2 N p -> cfin (x p)) ->
  (forall r, (r < n)%nat -> holds2 2 0 (ins r) (fld x) (getb bi (M0 r))) ->
  pw (cost2 t N) * (4 * size2 mu N (vals x)) <= om ->
  exists P y, setup_ffts2 cexp N = Some P /\
  exec_all n (compute2 O rnorm esize f P scaled false FORWARD bi bo) M0
    (fun r m => holds2 2 permute (outs r) (fld y) (getb bo m) /\ framed M0 bo (fun r => (2 * t_fftsize f r)%Z) r m) /\
  (forall p, in_grid2 N p -> within ((pw (cost2 t N) - 1) * size2 mu N (vals x)) (y p) (DFT2 false N (vals x) p)).
Proof.
  intros Hbi Hbo Hpl Ha HT Hfx Hx Hf. destruct (ready_plans2 O cexp _ _ _ _ _ _ _ _ _ Hr) as (P & HP).
  destruct dims_pos2 as (D1 & D2 & D4).
  exists P, (fwd_val2 O P false FORWARD x). split; [exact HP|]. split.
  - pose proof (call_runs2 O cexp rnorm esize ar n sts N permute ins outs f P bi bo M0 scaled false FORWARD x Hr HP Hbi Hbo) as H.
    destruct (forward_dirs2 permute ins outs f) as (E1 & E2 & E3 & E4). rewrite E1, E2, E3, E4 in H.
    apply H; auto.
  - intros p Hp. pose proof (ready_facts2 _ _ _ _ _ _ _ _ _ Hr) as FA. pose proof Hr as (_ & _ & HI & _).
    pose proof (fwd_near2 u mu om O val fin RO t cexp n sts N permute ins outs f P FA HI HP FORWARD 0 (fun q => cmod (vals x q) + 32 * mu) x (vals x) p HT) as H.
    rewrite ssum2_size in H by assumption. apply near_within, H; [intros q Hq; apply start_near, Hfx, Hq|exact Hf|exact Hp].
Qed.

Lemma size2_ge x : 32 * mu * IZR (grid_points2 N) <= size2 mu N x.
Proof.
  destruct dims_pos2 as (D1 & D2 & D4). unfold size2. enough (0 <= abs_sum2 N x) by lra.
  pose proof (ssum2_size 0 N x D1 D2) as E. unfold size2 in E. rewrite Rmult_0_r, Rmult_0_l, Rplus_0_r in E. rewrite <- E.
  unfold ssum2. apply rsum_pos. intros b _. apply rsum_pos. intros a _. pose proof (cmod_nonneg (x (a, b))). lra.
Qed.

Local Notation bcost := (scale_cost s).
Local Notation bfac2 := (scale_by (grid_points2 N)).

(** backward call under the proviso of C26, data with an error *)
Lemma bwd_near_2 P b (M0 : nat -> @rmem F) scaled : setup_ffts2 cexp N = Some P -> isdata b -> arrays_ok2 f b M0 ->
  (scaled = true -> forall r, (r < n)%nat -> (psize2 (ins r) <= psize2 (outs r))%Z) ->
  forall y, exists y',
  good n (st2 f b M0 b permute outs (fld y)) (pieces_compute2 O rnorm esize f P scaled false BACKWARD b b)
    (fun r m => holds2 2 0 (ins r) (fld y') (getb b m) /\ framed M0 b (fun r => (2 * t_fftsize f r)%Z) r m) /\
  (forall k S x p, tables2 u val fin t cexp N true -> (scaled = true -> norm_ok u val fin s rnorm (grid_points2 N)) ->
    (forall q, in_grid2 N q -> near k (S q) (y q) (x q) /\ 32 * mu <= S q) ->
    32 * mu * IZR (grid_points2 N) <= ssum2 N S ->
    pw (k + cost2 t N + bcost scaled) * (4 * ssum2 N S) <= om -> in_grid2 N p ->
    near (k + cost2 t N + bcost scaled) (ssum2 N S * bfac2 scaled) (y' p) (rmulc (bfac2 scaled) (DFT2 true N x p))).
Proof.
  intros HP Hb Hro Hsz y. pose proof Hr as (_ & _ & _ & _ & _ & Ti & _).
  set (y' := fun p => let v := (if fwdpath2 f BACKWARD then fwd_val2 O P false BACKWARD y else bwd_val2 O P false BACKWARD y) p in
                      if scaled then scl O (rnorm (grid_points2 N)) v else v).
  assert (Ey : forall r p, (r < n)%nat -> inb2 p (ins r) -> call_val2 O rnorm N permute ins outs f P scaled false BACKWARD y r p = y' p).
  { intros r p Hrn Hp. destruct (src_out2 esize ar n sts N permute ins outs f BACKWARD r Hr ltac:(discriminate) Hrn) as (_ & _ & E3 & E4).
    unfold call_val2, finish2, y'. rewrite E3, E4. rewrite Z.eqb_refl. cbn [negb andb]. rewrite andb_true_r.
    destruct scaled; [|reflexivity]. rewrite (scaled_all2 ins outs r p (Hsz eq_refl r Hrn) Hp). reflexivity. }
  exists y'. split.
  - eapply good_conseq; [| |apply (call_good2 O cexp rnorm esize ar n sts N permute ins outs f P b b M0 scaled false BACKWARD y); auto; left; reflexivity].
    + intros r m Hrn (K1 & K2). split; [|exact K2].
      destruct (src_out2 esize ar n sts N permute ins outs f BACKWARD r Hr ltac:(discriminate) Hrn) as (E1 & E2 & E3 & E4). rewrite E1, E2. exact K1.
    + intros r m Hrn (K1 & K2). split; [|exact K2].
      destruct (src_out2 esize ar n sts N permute ins outs f BACKWARD r Hr ltac:(discriminate) Hrn) as (E1 & E2 & E3 & E4). rewrite E3, E4 in K1.
      eapply holds2_ext; [|exact K1]. intros p q Hp _. apply fld_ext2. apply Ey; assumption.
  - intros k S x p HT Hno HS Hmu' Hf Hp. destruct (proj2 (proj2 Ti) p Hp) as (r & Hrn & Hpr).
    rewrite <- (Ey r p Hrn Hpr).
    assert (Ef : factor2 N outs scaled BACKWARD (dst_perm2 permute f BACKWARD) (dst_lay2 ins outs f BACKWARD) r p = bfac2 scaled).
    { destruct (src_out2 esize ar n sts N permute ins outs f BACKWARD r Hr ltac:(discriminate) Hrn) as (_ & _ & E3 & E4).
      unfold factor2, scale_by. rewrite E3, E4, Z.eqb_refl. cbn [andb]. destruct scaled; [|reflexivity].
      rewrite (scaled_all2 ins outs r p (Hsz eq_refl r Hrn) Hpr). reflexivity. }
    pose proof (call_near2 P scaled BACKWARD k S y x r p HP (or_intror eq_refl) HT (fun _ => Hno) HS (fun _ _ => Hmu')) as H.
    cbv zeta in H. rewrite Ef in H. rewrite Z.eqb_refl in H. cbn [andb] in H.
    apply H; [|exact Hp]. pose proof (dims_pos2) as (D1 & D2 & D4). pose proof Hmu.
    eapply bcost_le; [| |exact Hf]; [unfold scale_cost; destruct scaled; lia|].
    eapply Rle_trans; [|exact Hmu']. apply Rmult_le_pos; [lra|]. apply IZR_le. lia.
Qed.

Lemma C52_backward_proof2 b (M0 : nat -> @rmem F) scaled x :
  isdata b -> arrays_ok2 f b M0 ->
  (scaled = true -> forall r, (r < n)%nat -> (psize2 (ins r) <= psize2 (outs r))%Z) ->
  tables2 u val fin t cexp N true -> (scaled = true -> norm_ok u val fin s rnorm (grid_points2 N)) ->
  (forall p, in_grid2 N p -> cfin (x p)) ->
  (forall r, (r < n)%nat -> holds2 2 permute (outs r) (fld x) (getb b (M0 r))) ->
  pw (cost2 t N + bcost scaled) * (4 * size2 mu N (vals x)) <= om ->
  exists P y, setup_ffts2 cexp N = Some P /\
  exec_all n (compute2 O rnorm esize f P scaled false BACKWARD b b) M0
    (fun r m => holds2 2 0 (ins r) (fld y) (getb b m) /\ framed M0 b (fun r => (2 * t_fftsize f r)%Z) r m) /\
  (forall p, in_grid2 N p -> within ((pw (cost2 t N + bcost scaled) - 1) * (size2 mu N (vals x) * bfac2 scaled)) (y p)
     (rmulc (bfac2 scaled) (DFT2 true N (vals x) p))).
Proof.
  intros Hb Hro Hsz HT Hno Hfx Hx Hf. destruct (ready_plans2 O cexp _ _ _ _ _ _ _ _ _ Hr) as (P & HP).
  destruct dims_pos2 as (D1 & D2 & D4).
  destruct (bwd_near_2 P b M0 scaled HP Hb Hro Hsz x) as (y & Hg & Hn). exists P, y. split; [exact HP|]. split.
  - unfold compute2. eapply good_exec; [exact Hg|]. intros r Hrn. split; [apply Hx, Hrn|apply framed_refl].
  - intros p Hp. specialize (Hn 0%nat (fun q => cmod (vals x q) + 32 * mu) (vals x) p HT Hno). rewrite ssum2_size in Hn by assumption.
    apply near_within, Hn; [intros q Hq; apply start_near, Hfx, Hq|apply size2_ge|exact Hf|exact Hp].
Qed.

Lemma trip_good2 P b (M0 : nat -> @rmem F) s1 scaled x :
  setup_ffts2 cexp N = Some P -> isdata b -> arrays_ok2 f b M0 ->
  (scaled = true -> forall r, (r < n)%nat -> (psize2 (ins r) <= psize2 (outs r))%Z) ->
  tables2 u val fin t cexp N false -> tables2 u val fin t cexp N true -> (scaled = true -> norm_ok u val fin s rnorm (grid_points2 N)) ->
  (forall p, in_grid2 N p -> cfin (x p)) ->
  pw (2 * cost2 t N + bcost scaled) * (4 * (size2 mu N (vals x) * IZR (grid_points2 N))) <= om ->
  exists y, good n (st2 f b M0 b 0 ins (fld x))
    (pieces_compute2 O rnorm esize f P s1 false FORWARD b b ++ pieces_compute2 O rnorm esize f P scaled false BACKWARD b b) (st2 f b M0 b 0 ins (fld y)) /\
  (forall p, in_grid2 N p ->
     within ((pw (2 * cost2 t N + bcost scaled) - 1) * (size2 mu N (vals x) * (if scaled then 1 else IZR (grid_points2 N)))) (y p)
     (rmulc (if scaled then 1 else IZR (grid_points2 N)) (vals x p))).
Proof.
  intros HP Hb Hro Hsz HTf HTb Hno Hfx Hf.
  destruct dims_pos2 as (D1 & D2 & D4). pose proof Hmu as Hmu0.
  assert (G : 1 <= IZR (grid_points2 N)) by (apply IZR_le; lia).
  pose proof (size2_ge (vals x)) as Hge.
  assert (Hg1 : 32 * mu <= size2 mu N (vals x)) by nra.
  set (z := fwd_val2 O P false FORWARD x).
  destruct (bwd_near_2 P b M0 scaled HP Hb Hro Hsz z) as (y & Hg & Hn). exists y. split.
  - assert (Gf : good n (st2 f b M0 b 0 ins (fld x)) (pieces_compute2 O rnorm esize f P s1 false FORWARD b b) (st2 f b M0 b permute outs (fld z))).
    { pose proof (call_good2 O cexp rnorm esize ar n sts N permute ins outs f P b b M0 s1 false FORWARD x Hr HP Hb Hb (or_introl eq_refl)) as H.
      destruct (forward_dirs2 permute ins outs f) as (E1 & E2 & E3 & E4). rewrite E1, E2, E3, E4 in H.
      apply H. apply Hro. }
    exact (good_app _ _ _ _ _ _ Gf Hg).
  - intros p Hp.
    specialize (Hn (cost2 t N) (fun _ => size2 mu N (vals x)) (DFT2 false N (vals x)) p HTb Hno). rewrite ssum2_const in Hn by assumption.
    pose proof (inverse2 false N (vals x) p Hp) as Ei. cbn [negb] in Ei. rewrite Ei, rmulc_mul in Hn.
    assert (Eb : size2 mu N (vals x) * IZR (grid_points2 N) * bfac2 scaled = size2 mu N (vals x) * (if scaled then 1 else IZR (grid_points2 N)) /\
                 bfac2 scaled * IZR (grid_points2 N) = (if scaled then 1 else IZR (grid_points2 N))).
    { unfold scale_by. destruct scaled; split; try field; lra. }
    destruct Eb as (Eb1 & Eb2). rewrite Eb1, Eb2 in Hn.
    replace (cost2 t N + cost2 t N + bcost scaled)%nat with (2 * cost2 t N + bcost scaled)%nat in Hn by lia.
    apply near_within, Hn; [| |exact Hf|exact Hp].
    + intros q Hq. split; [|exact Hg1]. pose proof (ready_facts2 _ _ _ _ _ _ _ _ _ Hr) as FA. pose proof Hr as (_ & _ & HI & _).
      pose proof (fwd_near2 u mu om O val fin RO t cexp n sts N permute ins outs f P FA HI HP FORWARD 0 (fun q => cmod (vals x q) + 32 * mu) x (vals x) q HTf) as H.
      rewrite ssum2_size in H by assumption. apply H; [intros q1 Hq1; apply start_near, Hfx, Hq1| |exact Hq].
      eapply (guard_le u mu om O val fin RO); [exact Hf|lia|]. split; [lra|]. nra.
    + apply Rmult_le_compat_r; lra.
Qed.
Lemma C52_round_trip_proof2 b (M0 : nat -> @rmem F) s1 scaled x :
  isdata b -> arrays_ok2 f b M0 ->
  (scaled = true -> forall r, (r < n)%nat -> (psize2 (ins r) <= psize2 (outs r))%Z) ->
  tables2 u val fin t cexp N false -> tables2 u val fin t cexp N true -> (scaled = true -> norm_ok u val fin s rnorm (grid_points2 N)) ->
  (forall p, in_grid2 N p -> cfin (x p)) ->
  (forall r, (r < n)%nat -> holds2 2 0 (ins r) (fld x) (getb b (M0 r))) ->
  pw (2 * cost2 t N + bcost scaled) * (4 * (size2 mu N (vals x) * IZR (grid_points2 N))) <= om ->
  exists P y, setup_ffts2 cexp N = Some P /\
  exec_all n (fun r => compute2 O rnorm esize f P s1 false FORWARD b b r ++ compute2 O rnorm esize f P scaled false BACKWARD b b r) M0
    (fun r m => holds2 2 0 (ins r) (fld y) (getb b m) /\ framed M0 b (fun r => (2 * t_fftsize f r)%Z) r m) /\
  (forall p, in_grid2 N p ->
     within ((pw (2 * cost2 t N + bcost scaled) - 1) * (size2 mu N (vals x) * (if scaled then 1 else IZR (grid_points2 N)))) (y p)
     (rmulc (if scaled then 1 else IZR (grid_points2 N)) (vals x p))).
Proof.
  intros Hb Hro Hsz HTf HTb Hno Hfx Hx Hf. destruct (ready_plans2 O cexp _ _ _ _ _ _ _ _ _ Hr) as (P & HP).
  destruct (trip_good2 P b M0 s1 scaled x HP Hb Hro Hsz HTf HTb Hno Hfx Hf) as (y & Ga & Hy). exists P, y. split; [exact HP|]. split; [|exact Hy].
  destruct (good_exec n _ _ _ M0 Ga) as (M' & H1 & H2).
  { intros r Hrn. split; [apply Hx, Hrn|apply framed_refl]. }
  exists M'. split; [exact H1|]. destruct H2 as (L & H2). exists L. unfold compute2.
  assert (E : start n (fun r => together (pieces_compute2 O rnorm esize f P s1 false FORWARD b b) r ++ together (pieces_compute2 O rnorm esize f P scaled false BACKWARD b b) r) M0
    = start n (together (pieces_compute2 O rnorm esize f P s1 false FORWARD b b ++ pieces_compute2 O rnorm esize f P scaled false BACKWARD b b)) M0).
  { unfold start. f_equal. apply map_ext. intros r. unfold together. rewrite map_app, concat_app. reflexivity. }
  rewrite E. exact H2.
Qed.
End Two.
End Thms.
