(** Laws.v : laws of the transforms as relations between runs of compute() (C84): none of the statements mentions the
    transform itself. *)

From Coq Require Import Reals Lra.
From Verif Require Import Base Spec Pack3d Pack2d Sched SchedProofs Phases Exec Remap RemapMain RemapInst
  Remap3d Remap2d RemapThms RemapTop Layout LayoutProofs Setup3d Setup3dProofs Setup2d Setup2dProofs Kiss KissPure KissAlg KissReal Fft1d KissFinal
  Fft3d Frame Fft3dProofs Fft3dMain DftMulti Fft3dTop Fft3dFinal Fft2d Fft2dMain Fft2dTop Fft2dFinal Ops OpsSeq OpsProofs RoundL2 RoundL2Fft RoundL2Thms RoundL2Final ConvMath Convolve SymMath.
Local Open Scope Z_scope.

(** ** specification *)
(** real and imaginary part as fields of their own *)
Definition re_part {I : Type} (z : I -> R * R) (p : I) : R * R := (fst (z p), 0%R).
Definition im_part {I : Type} (z : I -> R * R) (p : I) : R * R := (snd (z p), 0%R).
(** sum of the squares of the absolute values *)
Definition energy3 (N : Z * Z * Z) (x : pt3 -> R * R) : R :=
  sum3 (fst (fst N)) (snd (fst N)) (snd N) (fun a b c => abs2 (x (a, b, c))).
Definition energy2 (N : Z * Z) (x : pt2 -> R * R) : R := sum2 (fst N) (snd N) (fun a b => abs2 (x (a, b))).

(** ** proofs *)
Lemma sum1_pos n f : (forall a, (0 <= f a)%R) -> (0 <= sum1 n f)%R.
Proof. intros H. unfold sum1. apply cond_pos_sum. intros. apply H. Qed.
Lemma abs2_pos z : (0 <= abs2 z)%R.
Proof. unfold abs2. nra. Qed.
Lemma energy3_pos N x : (0 <= energy3 N x)%R.
Proof. unfold energy3, sum3, sum2. repeat (apply sum1_pos; intros). apply abs2_pos. Qed.
Lemma energy2_pos N x : (0 <= energy2 N x)%R.
Proof. unfold energy2, sum2. repeat (apply sum1_pos; intros). apply abs2_pos. Qed.
Lemma sqrt_law a b c : (0 <= a -> 0 <= b -> 0 <= c -> sqrt a = sqrt b * sqrt c -> a = b * c)%R.
Proof.
  intros Ha Hb Hc E. rewrite <- sqrt_mult in E by assumption. apply sqrt_inj; [exact Ha|apply Rmult_le_pos; assumption|exact E].
Qed.

(** *** 3d *)
Lemma ready_grid3 ar n st N permute ins outs f r p : ready3 ar n st N permute ins outs f -> (r < n)%nat ->
  (inb3 p (ins r) -> in_grid N p) /\ (inb3 p (outs r) -> in_grid N p).
Proof.
  intros Hr Hrn. destruct Hr as (_ & _ & _ & _ & Ti & To & _). split; intros H; [exact (proj1 Ti p r Hrn H)|exact (proj1 To p r Hrn H)].
Qed.
Lemma ready_dims3 ar n st N permute ins outs f : ready3 ar n st N permute ins outs f -> dims_ok3 N.
Proof. intros Hr. exact (F_dims _ _ _ _ _ _ _ (ready_facts _ _ _ _ _ _ _ _ Hr)). Qed.
Lemma DFT3_conj_at inv N z p : in_grid N p -> DFT3 inv N (fun t => conjc (z t)) p = conjc (DFT3 inv N z (opp3 N p)).
Proof.
  intros Hp. rewrite <- (opp3_opp3 N p Hp) at 1. pose proof (opp3_in N p Hp) as Hq. destruct (opp3 N p) as [[i j] k]. destruct N as [[n1 n2] n3].
  apply in_grid_xyz in Hq. apply DFT3_conj; lia.
Qed.
(** the transforms of the two parts from the transform of the whole *)
Lemma DFT3_re inv N z p : in_grid N p -> DFT3 inv N (re_part z) p = rmulc (1 / 2) (plusc (DFT3 inv N z p) (conjc (DFT3 inv N z (opp3 N p)))).
Proof.
  intros Hp. rewrite <- (DFT3_conj_at inv N z p Hp). destruct N as [[n1 n2] n3]. destruct p as [[i j] k]. apply in_grid_xyz in Hp.
  rewrite <- DFT3_plus, <- DFT3_scale by lia. apply DFT3_ext; try lia. intros a b c _ _ _. unfold re_part, rmulc, plusc, conjc. cbn [fst snd]. f_equal; field.
Qed.
Lemma DFT3_im inv N z p : in_grid N p ->
  DFT3 inv N (im_part z) p = cprod (0, - (1 / 2))%R (plusc (DFT3 inv N z p) (rmulc (-1) (conjc (DFT3 inv N z (opp3 N p))))).
Proof.
  intros Hp. rewrite <- (DFT3_conj_at inv N z p Hp). destruct N as [[n1 n2] n3]. destruct p as [[i j] k]. apply in_grid_xyz in Hp.
  rewrite <- DFT3_scale, <- DFT3_plus by lia. rewrite cprod_cmul, <- DFT3_cmul_l by lia. apply DFT3_ext; try lia. intros a b c _ _ _. rewrite <- cprod_cmul.
  unfold im_part, rmulc, plusc, conjc, cprod. cbn [fst snd]. f_equal; field.
Qed.

Section Fwd3.
Variables (ar : areas) (n : nat) (st : settings) (N : Z * Z * Z) (permute : Z) (ins outs : nat -> box3) (f : fft3) (bi bo : bsel).
Hypothesis (Hr : ready3 ar n st N permute ins outs f).
Hypothesis (Hbi : isdata bi) (Hbo : isdata bo).

Section F3.
Hypothesis (Hpl : bi = bo \/ f_pre f = true).
(** one forward call, with the plans chosen first *)
Lemma fwd_run3 P scaled (M : nat -> @rmem R) x g : setup_ffts3 cexpR N = Some P -> arrays_ok f bo M ->
  (forall r, (r < n)%nat -> holds3 2 0 (ins r) (fld x) (getb bi (M r))) -> (forall p, in_grid N p -> DFT3 false N x p = g p) ->
  exec_all n (compute3 Rops rnormR f P scaled false FORWARD bi bo) M (fun r m => holds3 2 permute (outs r) (fld g) (getb bo m)).
Proof.
  intros HP Ha Hx Hg. destruct (C25_proof ar n st N permute ins outs f bi bo M scaled x Hr Hbi Hbo Hpl Ha Hx) as (P' & HP' & M' & K & E).
  assert (P' = P) by congruence. subst P'. exists M'. split; [|exact E]. intros r Hrn. destruct (K r Hrn) as (H & _).
  eapply holds3_ext; [|exact H]. intros p q Hp _. apply fld_ext. apply Hg. eapply ready_grid3; eauto.
Qed.
Theorem linear_3d s1 s2 s3 (M1 M2 M3 : nat -> @rmem R) a b x y : arrays_ok f bo M1 -> arrays_ok f bo M2 -> arrays_ok f bo M3 ->
  (forall r, (r < n)%nat -> holds3 2 0 (ins r) (fld x) (getb bi (M1 r))) ->
  (forall r, (r < n)%nat -> holds3 2 0 (ins r) (fld y) (getb bi (M2 r))) ->
  (forall r, (r < n)%nat -> holds3 2 0 (ins r) (fld (fun p => plusc (cprod a (x p)) (cprod b (y p)))) (getb bi (M3 r))) ->
  exists P X Y, setup_ffts3 cexpR N = Some P /\
  exec_all n (compute3 Rops rnormR f P s1 false FORWARD bi bo) M1 (fun r m => holds3 2 permute (outs r) (fld X) (getb bo m)) /\
  exec_all n (compute3 Rops rnormR f P s2 false FORWARD bi bo) M2 (fun r m => holds3 2 permute (outs r) (fld Y) (getb bo m)) /\
  exec_all n (compute3 Rops rnormR f P s3 false FORWARD bi bo) M3
    (fun r m => holds3 2 permute (outs r) (fld (fun p => plusc (cprod a (X p)) (cprod b (Y p)))) (getb bo m)).
Proof.
  intros A1 A2 A3 H1 H2 H3. destruct (ready_plans Rops cexpR _ _ _ _ _ _ _ _ Hr) as (P & HP). exists P, (DFT3 false N x), (DFT3 false N y). split; [exact HP|].
  repeat split; (eapply fwd_run3; [exact HP|assumption|eassumption|]); try reflexivity.
  intros p Hp. pose proof (ready_dims3 _ _ _ _ _ _ _ _ Hr) as D. destruct N as [[n1 n2] n3]. unfold dims_ok3, dim_ok in D. cbn in D. apply DFT3_lin; lia.
Qed.
Theorem shift_3d s1 s2 (M1 M2 : nat -> @rmem R) d x : arrays_ok f bo M1 -> arrays_ok f bo M2 -> in_grid N d ->
  (forall r, (r < n)%nat -> holds3 2 0 (ins r) (fld x) (getb bi (M1 r))) ->
  (forall r, (r < n)%nat -> holds3 2 0 (ins r) (fld (shifted3 N d x)) (getb bi (M2 r))) ->
  exists P X, setup_ffts3 cexpR N = Some P /\
  exec_all n (compute3 Rops rnormR f P s1 false FORWARD bi bo) M1 (fun r m => holds3 2 permute (outs r) (fld X) (getb bo m)) /\
  exec_all n (compute3 Rops rnormR f P s2 false FORWARD bi bo) M2
    (fun r m => holds3 2 permute (outs r) (fld (fun p => cprod (X p) (expi (turn3 false N d p)))) (getb bo m)).
Proof.
  intros A1 A2 Hd H1 H2. destruct (ready_plans Rops cexpR _ _ _ _ _ _ _ _ Hr) as (P & HP). exists P, (DFT3 false N x). split; [exact HP|].
  split; (eapply fwd_run3; [exact HP|assumption|eassumption|]); try reflexivity. intros p Hp. apply DFT3_shifted; assumption.
Qed.
Theorem real_3d s1 (M : nat -> @rmem R) x : arrays_ok f bo M -> real3 N x ->
  (forall r, (r < n)%nat -> holds3 2 0 (ins r) (fld x) (getb bi (M r))) ->
  exists P X, setup_ffts3 cexpR N = Some P /\
  exec_all n (compute3 Rops rnormR f P s1 false FORWARD bi bo) M (fun r m => holds3 2 permute (outs r) (fld X) (getb bo m)) /\ hermitian3 N X.
Proof.
  intros A1 Hx H1. destruct (ready_plans Rops cexpR _ _ _ _ _ _ _ _ Hr) as (P & HP). exists P, (DFT3 false N x). split; [exact HP|].
  split; [|intros p Hp; apply DFT3_real; assumption]. eapply fwd_run3; [exact HP|assumption|eassumption|]. reflexivity.
Qed.
Theorem two_real_3d s1 s2 s3 (M M1 M2 : nat -> @rmem R) z : arrays_ok f bo M -> arrays_ok f bo M1 -> arrays_ok f bo M2 ->
  (forall r, (r < n)%nat -> holds3 2 0 (ins r) (fld z) (getb bi (M r))) ->
  (forall r, (r < n)%nat -> holds3 2 0 (ins r) (fld (re_part z)) (getb bi (M1 r))) ->
  (forall r, (r < n)%nat -> holds3 2 0 (ins r) (fld (im_part z)) (getb bi (M2 r))) ->
  exists P Y, setup_ffts3 cexpR N = Some P /\
  exec_all n (compute3 Rops rnormR f P s1 false FORWARD bi bo) M (fun r m => holds3 2 permute (outs r) (fld Y) (getb bo m)) /\
  exec_all n (compute3 Rops rnormR f P s2 false FORWARD bi bo) M1
    (fun r m => holds3 2 permute (outs r) (fld (fun p => rmulc (1 / 2) (plusc (Y p) (conjc (Y (opp3 N p)))))) (getb bo m)) /\
  exec_all n (compute3 Rops rnormR f P s3 false FORWARD bi bo) M2
    (fun r m => holds3 2 permute (outs r) (fld (fun p => cprod (0, - (1 / 2))%R (plusc (Y p) (rmulc (-1) (conjc (Y (opp3 N p))))))) (getb bo m)).
Proof.
  intros A A1 A2 H H1 H2. destruct (ready_plans Rops cexpR _ _ _ _ _ _ _ _ Hr) as (P & HP). exists P, (DFT3 false N z). split; [exact HP|].
  repeat split; (eapply fwd_run3; [exact HP|assumption|eassumption|]); try reflexivity; intros p Hp; [apply DFT3_re|apply DFT3_im]; exact Hp.
Qed.
Theorem energy_3d s1 (M : nat -> @rmem R) x : arrays_ok f bo M ->
  (forall r, (r < n)%nat -> holds3 2 0 (ins r) (fld x) (getb bi (M r))) ->
  exists P X, setup_ffts3 cexpR N = Some P /\
  exec_all n (compute3 Rops rnormR f P s1 false FORWARD bi bo) M (fun r m => holds3 2 permute (outs r) (fld X) (getb bo m)) /\
  energy3 N X = (IZR (grid_points N) * energy3 N x)%R.
Proof.
  intros A1 H1. destruct (ready_plans Rops cexpR _ _ _ _ _ _ _ _ Hr) as (P & HP). exists P, (DFT3 false N x). split; [exact HP|].
  split; [eapply fwd_run3; [exact HP|assumption|eassumption|]; reflexivity|].
  pose proof (ready_dims3 _ _ _ _ _ _ _ _ Hr) as D. apply sqrt_law; [apply energy3_pos|apply IZR_le; destruct N as [[n1 n2] n3]; unfold dims_ok3, dim_ok in D; cbn in D; change (0 <= n1 * n2 * n3); repeat apply Z.mul_nonneg_nonneg; lia|apply energy3_pos|].
  apply C70_parseval_3d_proof; destruct N as [[n1 n2] n3]; unfold dims_ok3, dim_ok in D; cbn in D |- *; lia.
Qed.
End F3.

(** backward: Hermitian data becomes real, whatever is scaled *)
Theorem hermitian_3d scaled (M : nat -> @rmem R) x : place3 f BACKWARD bi bo -> Fft3dTop.room3 f BACKWARD bo M -> hermitian3 N x ->
  (forall r, (r < n)%nat -> holds3 2 permute (outs r) (fld x) (getb bi (M r))) ->
  exists P, setup_ffts3 cexpR N = Some P /\
  exec_all n (compute3 Rops rnormR f P scaled false BACKWARD bi bo) M
    (fun r m => forall p, inb3 p (ins r) -> exists v, zget (getb bo m) (cell3 2 0 (ins r) p 0) = Some v /\ zget (getb bo m) (cell3 2 0 (ins r) p 1) = Some 0%R).
Proof.
  intros Hpl Ha Hx H. destruct (C26_proof ar n st N permute ins outs f bi bo M scaled x Hr Hbi Hbo Hpl Ha H) as (P & HP & M' & K & E).
  exists P. split; [exact HP|]. exists M'. split; [|exact E]. intros r Hrn p Hp. destruct (K r Hrn) as (K1 & _). eexists. split; [apply K1; [exact Hp|lia]|].
  rewrite (K1 p 1 Hp ltac:(lia)). f_equal. unfold fld, rmulc. cbn [Z.eqb Pos.eqb snd].
  rewrite (DFT3_hermitian true N x Hx p) by (exact (proj1 (ready_grid3 _ _ _ _ _ _ _ _ r p Hr Hrn) Hp)). ring.
Qed.
End Fwd3.

(** filtering real data with a Hermitian multiplier gives real data *)
Lemma CONV3_real N x g p : in_grid N p -> real3 N x -> real3 N g -> snd (CONV3 N x g p) = 0%R.
Proof.
  destruct N as [[n1 n2] n3], p as [[i j] k]. intros Hp Hx Hg. apply in_grid_xyz in Hp. rewrite CONV3_csum by lia. apply conjc_real.
  rewrite conjc_csum by lia. apply (csum_ext Rops). intros c Hc. rewrite conjc_csum by lia. apply (csum_ext Rops). intros b Hb. rewrite conjc_csum by lia. apply (csum_ext Rops). intros a Ha.
  rewrite conjc_cmul. f_equal; apply conjc_real; [apply Hx|apply Hg]; apply in_grid_xyz; repeat split; try lia; apply Z.mod_pos_bound; lia.
Qed.
Theorem filter_3d ar n st N permute ins outs f b (M0 : nat -> @rmem R) s1 scaled x w G :
  ready3 ar n st N permute ins outs f -> isdata b -> Fft3dTop.room3 f BACKWARD b M0 ->
  (scaled = true -> forall r, (r < n)%nat -> psize3 (ins r) <= psize3 (outs r)) -> multiplies3 n permute outs w G ->
  real3 N x -> hermitian3 N G -> (forall r, (r < n)%nat -> holds3 2 0 (ins r) (fld x) (getb b (M0 r))) ->
  exists P y, setup_ffts3 cexpR N = Some P /\
  exec_all n (fun r => compute3 Rops rnormR f P s1 false FORWARD b b r ++ filling b w r ++ compute3 Rops rnormR f P scaled false BACKWARD b b r) M0
    (fun r m => holds3 2 0 (ins r) (fld (fun p => (y p, 0%R))) (getb b m)).
Proof.
  intros Hr Hb Ha Hs Hw Hx HG H. destruct (convolve_any_3d ar n st N permute ins outs f b M0 s1 scaled x w G Hr Hb Ha Hs Hw H) as (P & HP & M' & K & E).
  exists P, (fun p => fst (rmulc (if scaled then / IZR (grid_points N) else 1)%R (CONV3 N x (DFT3 true N G) p))). split; [exact HP|].
  exists M'. split; [|exact E]. intros r Hrn. destruct (K r Hrn) as (K1 & _). eapply holds3_ext; [|exact K1]. intros p q Hp _. apply fld_ext.
  assert (Hg : in_grid N p) by (exact (proj1 (ready_grid3 _ _ _ _ _ _ _ _ r p Hr Hrn) Hp)).
  pose proof (CONV3_real N x (DFT3 true N G) p Hg Hx (DFT3_hermitian true N G HG)) as Z0. unfold rmulc. cbn [fst snd]. rewrite Z0. f_equal. ring.
Qed.

(** *** 2d *)
Lemma ready_grid2 esize ar n st N permute ins outs f r p : ready2 esize ar n st N permute ins outs f -> (r < n)%nat ->
  (inb2 p (ins r) -> in_grid2 N p) /\ (inb2 p (outs r) -> in_grid2 N p).
Proof.
  intros Hr Hrn. destruct Hr as (_ & _ & _ & _ & _ & Ti & To & _). split; intros H; [exact (proj1 Ti p r Hrn H)|exact (proj1 To p r Hrn H)].
Qed.
Lemma ready_dims2 esize ar n st N permute ins outs f : ready2 esize ar n st N permute ins outs f -> dims_ok2 N.
Proof. intros Hr. exact (T_dims _ _ _ _ _ _ _ (ready_facts2 _ _ _ _ _ _ _ _ _ Hr)). Qed.
Lemma DFT2_conj_at inv N z p : in_grid2 N p -> DFT2 inv N (fun t => conjc (z t)) p = conjc (DFT2 inv N z (opp2 N p)).
Proof.
  intros Hp. rewrite <- (opp2_opp2 N p Hp) at 1. pose proof (opp2_in N p Hp) as Hq. destruct (opp2 N p) as [i j]. destruct N as [n1 n2].
  apply in_grid2_xy in Hq. apply DFT2_conj; lia.
Qed.
(** the transforms of the two parts from the transform of the whole *)
Lemma DFT2_re inv N z p : in_grid2 N p -> DFT2 inv N (re_part z) p = rmulc (1 / 2) (plusc (DFT2 inv N z p) (conjc (DFT2 inv N z (opp2 N p)))).
Proof.
  intros Hp. rewrite <- (DFT2_conj_at inv N z p Hp). destruct N as [n1 n2]. destruct p as [i j]. apply in_grid2_xy in Hp.
  rewrite <- DFT2_plus, <- DFT2_scale by lia. apply DFT2_ext; try lia. intros a b _ _. unfold re_part, rmulc, plusc, conjc. cbn [fst snd]. f_equal; field.
Qed.
Lemma DFT2_im inv N z p : in_grid2 N p ->
  DFT2 inv N (im_part z) p = cprod (0, - (1 / 2))%R (plusc (DFT2 inv N z p) (rmulc (-1) (conjc (DFT2 inv N z (opp2 N p))))).
Proof.
  intros Hp. rewrite <- (DFT2_conj_at inv N z p Hp). destruct N as [n1 n2]. destruct p as [i j]. apply in_grid2_xy in Hp.
  rewrite <- DFT2_scale, <- DFT2_plus by lia. rewrite cprod_cmul, <- DFT2_cmul_l by lia. apply DFT2_ext; try lia. intros a b _ _. rewrite <- cprod_cmul.
  unfold im_part, rmulc, plusc, conjc, cprod. cbn [fst snd]. f_equal; field.
Qed.

Section Fwd2.
Variables (esize : Z) (ar : areas) (n : nat) (st : settings) (N : Z * Z) (permute : Z) (ins outs : nat -> box2) (f : fft2) (bi bo : bsel).
Hypothesis (Hr : ready2 esize ar n st N permute ins outs f).
Hypothesis (Hbi : isdata bi) (Hbo : isdata bo).

Section F2.
Hypothesis (Hpl : bi = bo \/ t_pre f = true).
(** one forward call, with the plans chosen first *)
Lemma fwd_run2 P scaled (M : nat -> @rmem R) x g : setup_ffts2 cexpR N = Some P -> arrays_ok2 f bo M ->
  (forall r, (r < n)%nat -> holds2 2 0 (ins r) (fld x) (getb bi (M r))) -> (forall p, in_grid2 N p -> DFT2 false N x p = g p) ->
  exec_all n (compute2 Rops rnormR esize f P scaled false FORWARD bi bo) M (fun r m => holds2 2 permute (outs r) (fld g) (getb bo m)).
Proof.
  intros HP Ha Hx Hg. destruct (C25_proof2 esize ar n st N permute ins outs f bi bo M scaled x Hr Hbi Hbo Hpl Ha Hx) as (P' & HP' & M' & K & E).
  assert (P' = P) by congruence. subst P'. exists M'. split; [|exact E]. intros r Hrn. destruct (K r Hrn) as (H & _).
  eapply holds2_ext; [|exact H]. intros p q Hp _. apply fld_ext2. apply Hg. eapply ready_grid2; eauto.
Qed.
Theorem linear_2d s1 s2 s3 (M1 M2 M3 : nat -> @rmem R) a b x y : arrays_ok2 f bo M1 -> arrays_ok2 f bo M2 -> arrays_ok2 f bo M3 ->
  (forall r, (r < n)%nat -> holds2 2 0 (ins r) (fld x) (getb bi (M1 r))) ->
  (forall r, (r < n)%nat -> holds2 2 0 (ins r) (fld y) (getb bi (M2 r))) ->
  (forall r, (r < n)%nat -> holds2 2 0 (ins r) (fld (fun p => plusc (cprod a (x p)) (cprod b (y p)))) (getb bi (M3 r))) ->
  exists P X Y, setup_ffts2 cexpR N = Some P /\
  exec_all n (compute2 Rops rnormR esize f P s1 false FORWARD bi bo) M1 (fun r m => holds2 2 permute (outs r) (fld X) (getb bo m)) /\
  exec_all n (compute2 Rops rnormR esize f P s2 false FORWARD bi bo) M2 (fun r m => holds2 2 permute (outs r) (fld Y) (getb bo m)) /\
  exec_all n (compute2 Rops rnormR esize f P s3 false FORWARD bi bo) M3
    (fun r m => holds2 2 permute (outs r) (fld (fun p => plusc (cprod a (X p)) (cprod b (Y p)))) (getb bo m)).
Proof.
  intros A1 A2 A3 H1 H2 H3. destruct (ready_plans2 Rops cexpR _ _ _ _ _ _ _ _ _ Hr) as (P & HP). exists P, (DFT2 false N x), (DFT2 false N y). split; [exact HP|].
  repeat split; (eapply fwd_run2; [exact HP|assumption|eassumption|]); try reflexivity.
  intros p Hp. pose proof (ready_dims2 _ _ _ _ _ _ _ _ _ Hr) as D. destruct N as [n1 n2]. unfold dims_ok2, dim_ok in D. cbn in D. apply DFT2_lin; lia.
Qed.
Theorem shift_2d s1 s2 (M1 M2 : nat -> @rmem R) d x : arrays_ok2 f bo M1 -> arrays_ok2 f bo M2 -> in_grid2 N d ->
  (forall r, (r < n)%nat -> holds2 2 0 (ins r) (fld x) (getb bi (M1 r))) ->
  (forall r, (r < n)%nat -> holds2 2 0 (ins r) (fld (shifted2 N d x)) (getb bi (M2 r))) ->
  exists P X, setup_ffts2 cexpR N = Some P /\
  exec_all n (compute2 Rops rnormR esize f P s1 false FORWARD bi bo) M1 (fun r m => holds2 2 permute (outs r) (fld X) (getb bo m)) /\
  exec_all n (compute2 Rops rnormR esize f P s2 false FORWARD bi bo) M2
    (fun r m => holds2 2 permute (outs r) (fld (fun p => cprod (X p) (expi (turn2 false N d p)))) (getb bo m)).
Proof.
  intros A1 A2 Hd H1 H2. destruct (ready_plans2 Rops cexpR _ _ _ _ _ _ _ _ _ Hr) as (P & HP). exists P, (DFT2 false N x). split; [exact HP|].
  split; (eapply fwd_run2; [exact HP|assumption|eassumption|]); try reflexivity. intros p Hp. apply DFT2_shifted; assumption.
Qed.
Theorem real_2d s1 (M : nat -> @rmem R) x : arrays_ok2 f bo M -> real2 N x ->
  (forall r, (r < n)%nat -> holds2 2 0 (ins r) (fld x) (getb bi (M r))) ->
  exists P X, setup_ffts2 cexpR N = Some P /\
  exec_all n (compute2 Rops rnormR esize f P s1 false FORWARD bi bo) M (fun r m => holds2 2 permute (outs r) (fld X) (getb bo m)) /\ hermitian2 N X.
Proof.
  intros A1 Hx H1. destruct (ready_plans2 Rops cexpR _ _ _ _ _ _ _ _ _ Hr) as (P & HP). exists P, (DFT2 false N x). split; [exact HP|].
  split; [|intros p Hp; apply DFT2_real; assumption]. eapply fwd_run2; [exact HP|assumption|eassumption|]. reflexivity.
Qed.
Theorem two_real_2d s1 s2 s3 (M M1 M2 : nat -> @rmem R) z : arrays_ok2 f bo M -> arrays_ok2 f bo M1 -> arrays_ok2 f bo M2 ->
  (forall r, (r < n)%nat -> holds2 2 0 (ins r) (fld z) (getb bi (M r))) ->
  (forall r, (r < n)%nat -> holds2 2 0 (ins r) (fld (re_part z)) (getb bi (M1 r))) ->
  (forall r, (r < n)%nat -> holds2 2 0 (ins r) (fld (im_part z)) (getb bi (M2 r))) ->
  exists P Y, setup_ffts2 cexpR N = Some P /\
  exec_all n (compute2 Rops rnormR esize f P s1 false FORWARD bi bo) M (fun r m => holds2 2 permute (outs r) (fld Y) (getb bo m)) /\
  exec_all n (compute2 Rops rnormR esize f P s2 false FORWARD bi bo) M1
    (fun r m => holds2 2 permute (outs r) (fld (fun p => rmulc (1 / 2) (plusc (Y p) (conjc (Y (opp2 N p)))))) (getb bo m)) /\
  exec_all n (compute2 Rops rnormR esize f P s3 false FORWARD bi bo) M2
    (fun r m => holds2 2 permute (outs r) (fld (fun p => cprod (0, - (1 / 2))%R (plusc (Y p) (rmulc (-1) (conjc (Y (opp2 N p))))))) (getb bo m)).
Proof.
  intros A A1 A2 H H1 H2. destruct (ready_plans2 Rops cexpR _ _ _ _ _ _ _ _ _ Hr) as (P & HP). exists P, (DFT2 false N z). split; [exact HP|].
  repeat split; (eapply fwd_run2; [exact HP|assumption|eassumption|]); try reflexivity; intros p Hp; [apply DFT2_re|apply DFT2_im]; exact Hp.
Qed.
Theorem energy_2d s1 (M : nat -> @rmem R) x : arrays_ok2 f bo M ->
  (forall r, (r < n)%nat -> holds2 2 0 (ins r) (fld x) (getb bi (M r))) ->
  exists P X, setup_ffts2 cexpR N = Some P /\
  exec_all n (compute2 Rops rnormR esize f P s1 false FORWARD bi bo) M (fun r m => holds2 2 permute (outs r) (fld X) (getb bo m)) /\
  energy2 N X = (IZR (grid_points2 N) * energy2 N x)%R.
Proof.
  intros A1 H1. destruct (ready_plans2 Rops cexpR _ _ _ _ _ _ _ _ _ Hr) as (P & HP). exists P, (DFT2 false N x). split; [exact HP|].
  split; [eapply fwd_run2; [exact HP|assumption|eassumption|]; reflexivity|].
  pose proof (ready_dims2 _ _ _ _ _ _ _ _ _ Hr) as D. apply sqrt_law; [apply energy2_pos|apply IZR_le; destruct N as [n1 n2]; unfold dims_ok2, dim_ok in D; cbn in D; change (0 <= n1 * n2); repeat apply Z.mul_nonneg_nonneg; lia|apply energy2_pos|].
  apply C70_parseval_2d_proof; destruct N as [n1 n2]; unfold dims_ok2, dim_ok in D; cbn in D |- *; lia.
Qed.
End F2.

(** backward: Hermitian data becomes real, whatever is scaled *)
Theorem hermitian_2d scaled (M : nat -> @rmem R) x : place2 f BACKWARD bi bo -> arrays_ok2 f bo M -> hermitian2 N x ->
  (forall r, (r < n)%nat -> holds2 2 permute (outs r) (fld x) (getb bi (M r))) ->
  exists P, setup_ffts2 cexpR N = Some P /\
  exec_all n (compute2 Rops rnormR esize f P scaled false BACKWARD bi bo) M
    (fun r m => forall p, inb2 p (ins r) -> exists v, zget (getb bo m) (cell2 2 0 (ins r) p 0) = Some v /\ zget (getb bo m) (cell2 2 0 (ins r) p 1) = Some 0%R).
Proof.
  intros Hpl Ha Hx H. destruct (C26_proof2 esize ar n st N permute ins outs f bi bo M scaled x Hr Hbi Hbo Hpl Ha H) as (P & HP & M' & K & E).
  exists P. split; [exact HP|]. exists M'. split; [|exact E]. intros r Hrn p Hp. destruct (K r Hrn) as (K1 & _). eexists. split; [apply K1; [exact Hp|lia]|].
  rewrite (K1 p 1 Hp ltac:(lia)). f_equal. unfold fld, rmulc. cbn [Z.eqb Pos.eqb snd].
  rewrite (DFT2_hermitian true N x Hx p) by (exact (proj1 (ready_grid2 _ _ _ _ _ _ _ _ _ r p Hr Hrn) Hp)). ring.
Qed.
End Fwd2.

(** filtering real data with a Hermitian multiplier gives real data *)
Lemma CONV2_real N x g p : in_grid2 N p -> real2 N x -> real2 N g -> snd (CONV2 N x g p) = 0%R.
Proof.
  destruct N as [n1 n2], p as [i j]. intros Hp Hx Hg. apply in_grid2_xy in Hp. rewrite CONV2_csum by lia. apply conjc_real.
  rewrite conjc_csum by lia. apply (csum_ext Rops). intros b Hb. rewrite conjc_csum by lia. apply (csum_ext Rops). intros a Ha.
  rewrite conjc_cmul. f_equal; apply conjc_real; [apply Hx|apply Hg]; apply in_grid2_xy; repeat split; try lia; apply Z.mod_pos_bound; lia.
Qed.
Theorem filter_2d esize ar n st N permute ins outs f b (M0 : nat -> @rmem R) s1 scaled x w G :
  ready2 esize ar n st N permute ins outs f -> isdata b -> arrays_ok2 f b M0 ->
  (scaled = true -> forall r, (r < n)%nat -> psize2 (ins r) <= psize2 (outs r)) -> multiplies2 n permute outs w G ->
  real2 N x -> hermitian2 N G -> (forall r, (r < n)%nat -> holds2 2 0 (ins r) (fld x) (getb b (M0 r))) ->
  exists P y, setup_ffts2 cexpR N = Some P /\
  exec_all n (fun r => compute2 Rops rnormR esize f P s1 false FORWARD b b r ++ filling b w r ++ compute2 Rops rnormR esize f P scaled false BACKWARD b b r) M0
    (fun r m => holds2 2 0 (ins r) (fld (fun p => (y p, 0%R))) (getb b m)).
Proof.
  intros Hr Hb Ha Hs Hw Hx HG H. destruct (convolve_any_2d esize ar n st N permute ins outs f b M0 s1 scaled x w G Hr Hb Ha Hs Hw H) as (P & HP & M' & K & E).
  exists P, (fun p => fst (rmulc (if scaled then / IZR (grid_points2 N) else 1)%R (CONV2 N x (DFT2 true N G) p))). split; [exact HP|].
  exists M'. split; [|exact E]. intros r Hrn. destruct (K r Hrn) as (K1 & _). eapply holds2_ext; [|exact K1]. intros p q Hp _. apply fld_ext2.
  assert (Hg : in_grid2 N p) by (exact (proj1 (ready_grid2 _ _ _ _ _ _ _ _ _ r p Hr Hrn) Hp)).
  pose proof (CONV2_real N x (DFT2 true N G) p Hg Hx (DFT2_hermitian true N G HG)) as Z0. unfold rmulc. cbn [fst snd]. rewrite Z0. f_equal. ring.
Qed.
