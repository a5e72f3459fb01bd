(** PortData.v : array contents, checks, output and timing of the Fortran and Python test programs. *)

From Coq Require Import Reals Lra String.
From Verif Require Import Base Spec Sched Layout Setup3d Setup2d RemapInst Wrap Kiss RemapTop Fft3d Fft2d TestProg TestLayProofs TestDataProofs TestOpt Ops Port.
Local Open Scope string_scope.
Local Open Scope list_scope.
Local Open Scope Z_scope.

Section Fo.
Context {F V D : Type}.
Variables (vz vr : Z -> V) (cv : V -> F) (dist : F -> V -> D) (gtb : D -> D -> bool) (zero : D).

Lemma fset_next (w : list F) m x : fset w (m + 1) x = zset w m x.
Proof. unfold fset. f_equal. lia. Qed.
Lemma fo_worse_next work m v e : fo_worse dist gtb work (m + 1) v e = worse dist gtb work m v e.
Proof. unfold fo_worse, worse, fget. replace (m + 1 - 1) with m by lia. reflexivity. Qed.
Lemma fo_fill_zero_eq nfft w : fo_fill_zero vz cv nfft w = fill_zero vz cv nfft w.
Proof. apply for_ext. intros. apply fset_next. Qed.
Lemma fo_fill_random_eq nfft seed w : fo_fill_random vr cv nfft seed w = fill_random vr cv nfft seed w.
Proof.
  unfold fo_fill_random, fill_random. f_equal. apply for_ext. intros j (w', s) _. destruct (random s) as [s'|]; [|reflexivity]. cbn [bind]. rewrite fset_next. reflexivity.
Qed.
Lemma fo_check_zero_eq nfft w : fo_check_zero vz dist gtb zero nfft w = check_zero vz dist gtb zero nfft w.
Proof. apply for_ext. intros. apply fo_worse_next. Qed.
Lemma fo_check_random_eq nfft seed w : fo_check_random vr dist gtb zero nfft seed w = check_random vr dist gtb zero nfft seed w.
Proof.
  unfold fo_check_random, check_random. f_equal. apply for_ext. intros j (e, s) _. destruct (random s) as [s'|]; [|reflexivity]. cbn [bind]. rewrite fo_worse_next. reflexivity.
Qed.
Lemma fo_check_eq nfft val w : fo_check vz dist gtb zero nfft val w = check_points vz dist gtb zero nfft val w.
Proof.
  apply for_ext. intros j e _. destruct (val j) as [v|]; [|reflexivity]. cbn [bind]. rewrite fo_worse_next.
  destruct (worse dist gtb w (2 * j) (vz v) e) as [e'|]; [|reflexivity]. cbn [bind]. replace (2 * j + 2) with (2 * j + 1 + 1) by lia. apply fo_worse_next.
Qed.
Lemma fo_validate3_eq k seed N b w : fo_validate3 vz vr dist gtb zero k seed N b w = validate3 vz vr dist gtb zero k seed N b w.
Proof. destruct k; cbn [fo_validate3 validate3]; [apply fo_check_zero_eq|apply fo_check_eq|apply fo_check_eq|apply fo_check_random_eq]. Qed.
Lemma fo_validate2_eq k seed N b w : fo_validate2 vz vr dist gtb zero k seed N b w = validate2 vz vr dist gtb zero k seed N b w.
Proof. destruct k; cbn [fo_validate2 validate2]; [apply fo_check_zero_eq|apply fo_check_eq|apply fo_check_eq|apply fo_check_random_eq]. Qed.

(** *** initialize *)
Theorem fo_init3_ok k seed N b w0 : k = ZERO \/ k = RANDOM -> legal3 b -> 2 * psize3 b <= zlen w0 -> seed_ok k seed ->
  exists w, fo_init3 vz vr cv k seed N b w0 = Some w /\ filled cv (2 * psize3 b) (wanti3 vz vr k seed N b) w0 w.
Proof.
  intros Hk Hb Hl Hs. destruct (initialize3_ok vz vr cv k seed N b w0 Hb Hl Hs) as (w & E & H). exists w. split; [|exact H].
  rewrite <- E. destruct Hk as [-> | ->]; cbn [fo_init3 initialize3]; [apply fo_fill_zero_eq|apply fo_fill_random_eq].
Qed.
Theorem fo_init2_ok k seed N b w0 : k = ZERO \/ k = RANDOM -> legal2 b -> 2 * psize2 b <= zlen w0 -> seed_ok k seed ->
  exists w, fo_init2 vz vr cv k seed N b w0 = Some w /\ filled cv (2 * psize2 b) (wanti2 vz vr k seed N b) w0 w.
Proof.
  intros Hk Hb Hl Hs. destruct (initialize2_ok vz vr cv k seed N b w0 Hb Hl Hs) as (w & E & H). exists w. split; [|exact H].
  rewrite <- E. destruct Hk as [-> | ->]; cbn [fo_init2 initialize2]; [apply fo_fill_zero_eq|apply fo_fill_random_eq].
Qed.
Lemma for_first_none {S} n (f : Z -> S -> option S) s : 1 <= n -> f 0 s = None -> for_ n f s = None.
Proof.
  intros Hn H. unfold for_. destruct (Z.to_nat n) as [|m] eqn:E; [lia|]. cbn. rewrite H. reflexivity.
Qed.
(** in 3d a step or an index writes before the array *)
Theorem fo_init3_outside k seed N b w0 : k = STEP \/ k = INDEX -> 1 <= psize3 b -> fo_init3 vz vr cv k seed N b w0 = None.
Proof.
  intros Hk Hn. destruct Hk as [-> | ->]; cbn [fo_init3]; (apply for_first_none; [exact Hn|]); cbv beta;
    (destruct (at3 b 0) as [p|]; [|reflexivity]); cbn [bind]; unfold fset; cbn; unfold zset; reflexivity.
Qed.
(** 2d: the index counts from 1 in both directions; inside the step the second value keeps what it had *)
Theorem fo_init2_index seed N b w0 : legal2 b -> 2 * psize2 b <= zlen w0 ->
  exists w, fo_init2 vz vr cv INDEX seed N b w0 = Some w /\ filled cv (2 * psize2 b) (wanti2 vz vr INDEX seed N b) w0 w.
Proof.
  intros Hb Hl. destruct (initialize2_ok vz vr cv INDEX seed N b w0 Hb Hl) as (w & E & H); [discriminate|]. exists w. split; [|exact H].
  rewrite <- E. cbn [fo_init2 initialize2]. apply for_ext. intros m w' _. destruct (at2 b m) as [p|]; [|reflexivity]. cbn [bind]. rewrite fset_next.
  destruct (zset w' (2 * m) _) as [w2|]; [|reflexivity]. cbn [bind]. replace (2 * m + 2) with (2 * m + 1 + 1) by lia. apply fset_next.
Qed.
Definition stepped (k : Z) (N : Z * Z) (b : box2) (w0 w : list F) : Prop := zlen w = zlen w0 /\
  (forall m, 0 <= m < k -> zget w (2 * m) = Some (cv (vz (stepval2 N (pt_at2 b m)))) /\
     zget w (2 * m + 1) = if stepval2 N (pt_at2 b m) =? 1 then zget w0 (2 * m + 1) else Some (cv (vz 0))) /\
  (forall i, 2 * k <= i -> zget w i = zget w0 i).
Theorem fo_init2_step seed N b w0 : legal2 b -> 2 * psize2 b <= zlen w0 ->
  exists w, fo_init2 vz vr cv STEP seed N b w0 = Some w /\ stepped (psize2 b) N b w0 w.
Proof.
  intros Hb Hl. pose proof (psize2_nonneg b Hb) as Hp. cbn [fo_init2].
  apply (for_inv (fun m w => stepped m N b w0 w)); [exact Hp|split; [reflexivity|]; split; [intros; lia|reflexivity]|].
  intros m w Hm (H1 & H2 & H3). rewrite (at2_ok b m Hb Hm). cbn [bind]. set (v := stepval2 N (pt_at2 b m)) in *.
  rewrite fset_next. assert (Vv : v = 1 \/ v = 0) by (unfold v, stepval2; destruct N as (nx, ny), (pt_at2 b m) as (i, j); destruct ((i <? _) && (j <? _)); auto).
  destruct Vv as [Vv|Vv]; rewrite Vv; cbn [Z.eqb Pos.eqb].
  - destruct (zset_Some w (2 * m) (cv (vz 1))) as (w' & E); [lia|]. exists w'. split; [exact E|]. pose proof (zset_len _ _ _ _ E). split; [congruence|]. split.
    + intros i Hi. destruct (Z.eq_dec i m) as [-> | Hne].
      * fold v. rewrite Vv. cbn [Z.eqb Pos.eqb]. split; [apply (zget_zset_same _ _ _ _ E)|]. rewrite (zget_zset_other _ _ _ _ _ E) by lia. apply H3. lia.
      * rewrite !(zget_zset_other _ _ _ _ _ E) by lia. apply H2. lia.
    + intros i Hi. rewrite (zget_zset_other _ _ _ _ _ E) by lia. apply H3. lia.
  - rewrite fset_next. destruct (zset_Some w (2 * m) (cv (vz 0))) as (w1 & E1); [lia|]. rewrite E1. cbn [bind]. pose proof (zset_len _ _ _ _ E1).
    replace (2 * m + 2) with (2 * m + 1 + 1) by lia. rewrite fset_next.
    destruct (zset_Some w1 (2 * m + 1) (cv (vz 0))) as (w' & E); [lia|]. exists w'. split; [exact E|]. pose proof (zset_len _ _ _ _ E). split; [congruence|]. split.
    + intros i Hi. destruct (Z.eq_dec i m) as [-> | Hne].
      * fold v. rewrite Vv. cbn [Z.eqb]. split; [|apply (zget_zset_same _ _ _ _ E)]. rewrite (zget_zset_other _ _ _ _ _ E) by lia. apply (zget_zset_same _ _ _ _ E1).
      * rewrite !(zget_zset_other _ _ _ _ _ E), !(zget_zset_other _ _ _ _ _ E1) by lia. apply H2. lia.
    + intros i Hi. rewrite (zget_zset_other _ _ _ _ _ E), (zget_zset_other _ _ _ _ _ E1) by lia. apply H3. lia.
Qed.

(** *** simple_f90: work(n) = n *)
Lemma fo_simple_init_ok b w0 : legal3 b -> 2 * psize3 b <= zlen w0 ->
  exists w, fo_simple_init vz cv b w0 = Some w /\ filled cv (2 * psize3 b) (fun i => vz (i + 1)) w0 w.
Proof.
  unfold legal3, psize3. intros (A & B & C) Hl. unfold fo_simple_init.
  set (body := fun (_ : Z) (s : list F * Z) => let '(w, n) := s in w <- fset w n (cv (vz n)); w <- fset w (n + 1) (cv (vz (n + 1))); Some (w, n + 2)).
  set (I := fun m (s : list F * Z) => snd s = 2 * m + 1 /\ filled cv (2 * m) (fun i => vz (i + 1)) w0 (fst s)).
  destruct (for_inv (fun z => I (z * nj b * ni b)) (nk b) (fun _ s => for_ (nj b) (fun _ s => for_ (ni b) body s) s) (w0, 1)) as (s & E & H); [lia| | |].
  - split; [reflexivity|apply filled_0].
  - intros z s Hz Hs. destruct (for_inv (fun y => I ((z * nj b + y) * ni b)) (nj b) (fun _ s => for_ (ni b) body s) s) as (s1 & E1 & H1); [lia| | |].
    + rewrite Z.add_0_r. exact Hs.
    + intros y s' Hy Hs'. destruct (for_inv (fun x => I ((z * nj b + y) * ni b + x)) (ni b) body s') as (s2 & E2 & H2); [lia| | |].
      * rewrite Z.add_0_r. exact Hs'.
      * intros x (w, n) Hx (Hn & Hw). cbn [fst snd] in *. subst n. unfold body.
        assert (Bd : 0 <= (z * nj b + y) * ni b + x < ni b * nj b * nk b)
          by (assert (0 <= z * nj b + y <= nk b * nj b - 1) by nia; assert ((z * nj b + y) * ni b <= (nk b * nj b - 1) * ni b) by (apply Z.mul_le_mono_nonneg_r; lia); nia).
        rewrite Z.add_assoc. remember ((z * nj b + y) * ni b + x) as m eqn:Em. clear Em. rewrite fset_next.
        destruct (filled_S cv (2 * m) _ w0 w _ ltac:(lia) Hw eq_refl) as (w1 & E3 & H3). rewrite E3. cbn [bind]. rewrite fset_next.
        destruct (filled_S cv (2 * m + 1) _ w0 w1 _ ltac:(lia) H3 eq_refl) as (w2 & E4 & H4). rewrite E4. cbn [bind].
        eexists. split; [reflexivity|]. unfold I. cbn [fst snd].
        replace (2 * m + 1 + 1) with (2 * (m + 1)) in H4 by lia. split; [lia|exact H4].
      * exists s2. split; [exact E2|]. replace ((z * nj b + (y + 1)) * ni b) with ((z * nj b + y) * ni b + ni b) by lia. exact H2.
    + exists s1. split; [exact E1|]. replace ((z + 1) * nj b * ni b) with ((z * nj b + nj b) * ni b) by lia. exact H1.
  - rewrite E. cbn [bind]. exists (fst s). split; [reflexivity|]. destruct H as (_ & H).
    replace (ni b * nj b * nk b) with (nk b * nj b * ni b) by lia. exact H.
Qed.
Lemma fo_simple_diff_ok b work a : legal3 b -> reads work a (2 * psize3 b) ->
  fo_simple_diff vz dist gtb zero b work = Some (dev dist gtb zero a (fun i => vz (i + 1)) (2 * psize3 b)).
Proof.
  unfold legal3, psize3. intros (A & B & C) Ha. unfold fo_simple_diff. set (vz1 := fun i => vz (i + 1)).
  set (body := fun (_ : Z) (s : D * Z) => let '(e, n) := s in e <- fo_worse dist gtb work n (vz n) e; e <- fo_worse dist gtb work (n + 1) (vz (n + 1)) e; Some (e, n + 2)).
  set (I := fun m (s : D * Z) => s = (dev dist gtb zero a vz1 (2 * m), 2 * m + 1)).
  destruct (for_inv (fun z => I (z * nj b * ni b)) (nk b) (fun _ s => for_ (nj b) (fun _ s => for_ (ni b) body s) s) (zero, 1)) as (s & E & H); [lia|reflexivity| |].
  - intros z s Hz Hs. destruct (for_inv (fun y => I ((z * nj b + y) * ni b)) (nj b) (fun _ s => for_ (ni b) body s) s) as (s1 & E1 & H1); [lia| | |].
    + rewrite Z.add_0_r. exact Hs.
    + intros y s' Hy Hs'. destruct (for_inv (fun x => I ((z * nj b + y) * ni b + x)) (ni b) body s') as (s2 & E2 & H2); [lia| | |].
      * rewrite Z.add_0_r. exact Hs'.
      * intros x s3 Hx ->. unfold body.
        assert (Bd : 0 <= (z * nj b + y) * ni b + x < ni b * nj b * nk b)
          by (assert (0 <= z * nj b + y <= nk b * nj b - 1) by nia; assert ((z * nj b + y) * ni b <= (nk b * nj b - 1) * ni b) by (apply Z.mul_le_mono_nonneg_r; lia); nia).
        rewrite Z.add_assoc. remember ((z * nj b + y) * ni b + x) as m eqn:Em. clear Em. rewrite fo_worse_next.
        rewrite (dev_S dist gtb zero a vz1 (2 * m) work) by (try lia; try (apply Ha; lia); reflexivity). cbn [bind]. rewrite fo_worse_next.
        rewrite (dev_S dist gtb zero a vz1 (2 * m + 1) work) by (try lia; try (apply Ha; lia); reflexivity). cbn [bind].
        eexists. split; [reflexivity|]. unfold I. f_equal; [f_equal|]; lia.
      * exists s2. split; [exact E2|]. replace ((z * nj b + (y + 1)) * ni b) with ((z * nj b + y) * ni b + ni b) by lia. exact H2.
    + exists s1. split; [exact E1|]. replace ((z + 1) * nj b * ni b) with ((z * nj b + nj b) * ni b) by lia. exact H1.
  - rewrite E. cbn [bind]. rewrite H. cbn [fst]. do 2 f_equal. lia.
Qed.

(** *** output reads before the array *)
Theorem fo_output3_outside n b nfft me (work : list F) : (1 <= n)%nat -> 1 <= nfft -> fo_output3 n b nfft me work = None.
Proof.
  intros Hn Hf. unfold fo_output3. apply for_first_none; [lia|]. apply for_first_none; [exact Hf|]. destruct (at3 b 0); reflexivity.
Qed.
Theorem fo_output2_outside n b nfft me (work : list F) : (1 <= n)%nat -> 1 <= nfft -> fo_output2 n b nfft me work = None.
Proof.
  intros Hn Hf. unfold fo_output2. apply for_first_none; [lia|]. apply for_first_none; [exact Hf|]. destruct (at2 b 0); reflexivity.
Qed.
End Fo.

(** ** the deviation found on rank me after an undisturbed random start *)
Lemma lehmer_1 s : lehmer 1 s = (16807 * s) mod (2 ^ 31 - 1).
Proof. reflexivity. Qed.
Lemma lehmer_1_inj s t : 1 <= s <= IM - 1 -> 1 <= t <= IM - 1 -> s <> t -> lehmer 1 s <> lehmer 1 t.
Proof.
  unfold IM. rewrite !lehmer_1. intros Hs Ht Hne E.
  assert (D : (16807 * (s - t)) mod (2 ^ 31 - 1) = 0).
  { replace (16807 * (s - t)) with (16807 * s - 16807 * t) by ring. rewrite Zminus_mod, E, Z.sub_diag. reflexivity. }
  destruct (Z.lt_ge_cases t s).
  - apply (mul_nonzero (s - t)); [unfold IM; lia|exact D].
  - apply (mul_nonzero (t - s)); [unfold IM; lia|]. apply Z.mod_divide in D; [|lia]. apply Z.mod_divide; [lia|].
    replace (16807 * (t - s)) with (- (16807 * (s - t))) by ring. apply Z.divide_opp_r, D.
Qed.
(** exact arithmetic: vr s = s * am, am = 2^-31 *)
Definition am : R := (/ 2 ^ 31)%R.
Definition vrR (s : Z) : R := (IZR s * am)%R.
Definition distR (w v : R) : R := Rabs (w - v).
Lemma am_pos : (0 < am)%R.
Proof. unfold am. apply Rinv_0_lt_compat. apply pow_lt. lra. Qed.
Lemma vrR_far s t : s <> t -> (am <= distR (vrR s) (vrR t))%R.
Proof.
  intros H. unfold distR, vrR. pose proof am_pos. rewrite <- Rmult_minus_distr_r, Rabs_mult, (Rabs_right am) by lra.
  assert (1 <= Rabs (IZR s - IZR t))%R.
  { rewrite <- minus_IZR, <- abs_IZR. apply IZR_le. lia. }
  nra.
Qed.
Lemma dev_head (a : Z -> R) cell k : 1 <= k -> (distR (a 0%Z) (cell 0%Z) <= dev distR Rgtb 0%R a cell k)%R.
Proof.
  intros Hk. unfold dev. apply maxofR.
  - apply Forall_forall. intros d Hd. apply in_map_iff in Hd as (i & <- & _). apply Rabs_pos.
  - apply in_map_iff. exists 0. split; [reflexivity|]. unfold zrange. apply In_zseq. lia.
Qed.
Lemma dev_zero (a : Z -> R) cell k : (forall i, 0 <= i < k -> a i = cell i) -> dev distR Rgtb 0%R a cell k = 0%R.
Proof.
  intros H. unfold dev. set (l := map _ _).
  assert (Z0 : forall d, In d l -> d = 0%R).
  { intros d Hd. apply in_map_iff in Hd as (i & <- & Hi). unfold zrange in Hi. apply In_zseq in Hi. rewrite H by lia. unfold distR. rewrite Rminus_diag_eq, Rabs_R0; reflexivity. }
  destruct (maxofR l) as (_ & _ & M); [apply Forall_forall; intros d Hd; rewrite (Z0 d Hd); lra|]. destruct M as [M|M]; [exact M|]. apply Z0, M.
Qed.
Theorem fo_validate_random3 seedinit me N b w0 : legal3 b -> 1 <= psize3 b -> 2 * psize3 b <= zlen w0 ->
  1 <= seedinit -> 0 <= me -> seedinit + me <= IM - 1 ->
  exists w e, fo_init3 IZR vrR (fun x => x) RANDOM (seedinit + me) N b w0 = Some w /\
    fo_validate3 IZR vrR distR Rgtb 0%R RANDOM seedinit N b w = Some e /\
    (me = 0 -> e = 0%R) /\ (1 <= me -> (am <= e)%R).
Proof.
  intros Hb Hp Hl Hs Hm Hi.
  destruct (fo_init3_ok IZR vrR (fun x => x) RANDOM (seedinit + me) N b w0) as (w & E & (_ & H & _)); auto; [intros _; lia|].
  exists w. pose proof (validate3_ok IZR vrR distR Rgtb 0%R RANDOM seedinit N b w (wanti3 IZR vrR RANDOM (seedinit + me) N b) Hb H ltac:(intros _; lia)) as K.
  rewrite <- fo_validate3_eq in K. eexists. split; [exact E|]. split; [exact K|]. split.
  - intros ->. apply dev_zero. intros i _. rewrite Z.add_0_r. reflexivity.
  - intros H1. eapply Rle_trans; [|apply dev_head; lia]. cbn [wanti3]. apply vrR_far. apply lehmer_1_inj; lia.
Qed.
Theorem fo_validate_random2 seedinit me N b w0 : legal2 b -> 1 <= psize2 b -> 2 * psize2 b <= zlen w0 ->
  1 <= seedinit -> 0 <= me -> seedinit + me <= IM - 1 ->
  exists w e, fo_init2 IZR vrR (fun x => x) RANDOM (seedinit + me) N b w0 = Some w /\
    fo_validate2 IZR vrR distR Rgtb 0%R RANDOM seedinit N b w = Some e /\
    (me = 0 -> e = 0%R) /\ (1 <= me -> (am <= e)%R).
Proof.
  intros Hb Hp Hl Hs Hm Hi.
  destruct (fo_init2_ok IZR vrR (fun x => x) RANDOM (seedinit + me) N b w0) as (w & E & (_ & H & _)); auto; [intros _; lia|].
  exists w. pose proof (validate2_ok IZR vrR distR Rgtb 0%R RANDOM seedinit N b w (wanti2 IZR vrR RANDOM (seedinit + me) N b) Hb H ltac:(intros _; lia)) as K.
  rewrite <- fo_validate2_eq in K. eexists. split; [exact E|]. split; [exact K|]. split.
  - intros ->. apply dev_zero. intros i _. rewrite Z.add_0_r. reflexivity.
  - intros H1. eapply Rle_trans; [|apply dev_head; lia]. cbn [wanti2]. apply vrR_far. apply lehmer_1_inj; lia.
Qed.
(** zero start *)
Theorem fo_validate_zero3 seed seedinit N b w0 : legal3 b -> 2 * psize3 b <= zlen w0 ->
  exists w, fo_init3 IZR vrR (fun x => x) ZERO seed N b w0 = Some w /\ fo_validate3 IZR vrR distR Rgtb 0%R ZERO seedinit N b w = Some 0%R.
Proof.
  intros Hb Hl. destruct (fo_init3_ok IZR vrR (fun x => x) ZERO seed N b w0) as (w & E & (_ & H & _)); auto; [discriminate|].
  exists w. split; [exact E|]. rewrite fo_validate3_eq.
  rewrite (validate3_ok IZR vrR distR Rgtb 0%R ZERO seedinit N b w (wanti3 IZR vrR ZERO seed N b) Hb H) by discriminate. f_equal. apply dev_zero. reflexivity.
Qed.
Theorem fo_simple_undisturbed b w0 : legal3 b -> 2 * psize3 b <= zlen w0 ->
  exists w, fo_simple_init IZR (fun x => x) b w0 = Some w /\ fo_simple_diff IZR distR Rgtb 0%R b w = Some 0%R.
Proof.
  intros Hb Hl. destruct (fo_simple_init_ok IZR (fun x : R => x) b w0 Hb Hl) as (w & E & (_ & H & _)). exists w. split; [exact E|].
  rewrite (fo_simple_diff_ok IZR distR Rgtb 0%R b w (fun i => IZR (i + 1)) Hb H). f_equal. apply dev_zero. reflexivity.
Qed.

(** ** report *)
Theorem fo_report_never {D} v (e : D) : fo_report v e = (if v then RUnset else RNothing).
Proof. destruct v; reflexivity. Qed.

(** ** timing: the last loops do no remap in modes 2 and 3, and only the forward one in modes 0 and 1 *)
Lemma one_remap_5 {F : Type} f flag bi bo r : only_one_remap3 (F := F) f flag 5 bi bo r = [].
Proof. unfold only_one_remap3, pieces_one_remap3. destruct (_ || _); reflexivity. Qed.
Theorem fo_last_nothing {F : Type} (O : sops F) rnorm f P mode nloop r : 2 <= mode -> acts_code3 O rnorm f P (fo_last mode nloop) r = [].
Proof.
  intros Hm. unfold fo_last. destruct (Z.ltb_spec mode 2); [lia|]. induction nloop as [|n IH]; [reflexivity|].
  cbn [repeat List.concat app]. unfold acts_code3, together in *. cbn [map List.concat act_code3]. rewrite ?one_remap_5. cbn [app]. rewrite IH. reflexivity.
Qed.
Theorem fo_last_forward {F : Type} (O : sops F) rnorm f P mode nloop r : mode < 2 ->
  acts_code3 O rnorm f P (fo_last mode nloop) r = List.concat (repeat (only_one_remap3 f 1 4 BWORK BWORK r) nloop).
Proof.
  intros Hm. unfold fo_last. destruct (Z.ltb_spec mode 2); [|lia]. induction nloop as [|n IH]; [reflexivity|].
  cbn [repeat List.concat app]. unfold acts_code3, together in *. cbn [map List.concat act_code3]. rewrite ?one_remap_5. cbn [app]. rewrite IH. reflexivity.
Qed.

Lemma port_acts_app {F : Type} (O : sops F) rnorm f P l l' r : acts_code3 O rnorm f P (l ++ l') r = acts_code3 O rnorm f P l r ++ acts_code3 O rnorm f P l' r.
Proof. unfold acts_code3, together. rewrite !map_app, concat_app. reflexivity. Qed.
(** what timing() executes on rank [r]: up to the last loop the Fortran program and the C++ program do the same *)
Theorem fo_timing_code {F : Type} (O : sops F) rnorm f P mode nloop zero :
  exists pre : nat -> list (@instr F), forall r,
    acts_code3 O rnorm f P (timing [1; 2; 3; 4] mode true nloop zero) r = pre r ++
      List.concat (repeat (only_one_remap3 f 1 4 BWORK BWORK r ++ (if mode <? 2 then only_one_remap3 f (-1) 4 BWORK BWORK r else [])) nloop) ++ barrier (f_n f) r /\
    acts_code3 O rnorm f P (fo_timing3 mode true nloop zero) r = pre r ++
      (if mode <? 2 then List.concat (repeat (only_one_remap3 f 1 4 BWORK BWORK r) nloop) else []) ++ barrier (f_n f) r.
Proof.
  exists (acts_code3 O rnorm f P (timing [1; 2; 3] mode true nloop zero)). intros r. split.
  - replace (timing [1; 2; 3; 4] mode true nloop zero) with (timing [1; 2; 3] mode true nloop zero ++ there_and_back mode nloop (fun f => AOne f 4 BWORK BWORK) ++ [ABarrier]).
    2: { unfold timing. cbn [map List.concat]. rewrite ?app_nil_r, <- ?app_assoc. reflexivity. }
    rewrite !port_acts_app. apply f_equal. apply (f_equal2 (@app _)); [|unfold acts_code3, together; cbn [map List.concat act_code3]; apply app_nil_r].
    unfold there_and_back. induction nloop as [|n IH]; [reflexivity|]. cbn [repeat List.concat]. rewrite port_acts_app, IH. f_equal.
    destruct (mode <? 2); unfold acts_code3, together; cbn [map List.concat act_code3]; rewrite ?app_nil_r; reflexivity.
  - unfold fo_timing3. rewrite !port_acts_app. apply f_equal. apply (f_equal2 (@app _)); [|unfold acts_code3, together; cbn [map List.concat act_code3]; apply app_nil_r].
    destruct (Z.ltb_spec mode 2); [apply fo_last_forward|apply fo_last_nothing]; assumption.
Qed.

(** ** keywords *)
Definition fo_keywords : list string := ["remaponly"; "collective"; "exchange"; "pack"].
Lemma append_longer a b : String.length (a ++ b)%string = (String.length a + String.length b)%nat.
Proof. induction a as [|c a IH]; [reflexivity|]. cbn. rewrite IH. reflexivity. Qed.
Lemma append_nil a b : (a ++ b)%string = a -> b = "".
Proof. intros E. apply (f_equal String.length) in E. rewrite append_longer in E. destruct b; [reflexivity|cbn in E; lia]. Qed.
Lemma append_cancel a : forall b c, (a ++ b)%string = (a ++ c)%string -> b = c.
Proof. induction a as [|x a IH]; intros b c E; [exact E|]. injection E as E. apply IH, E. Qed.
Theorem fo_set_ignored p kw c t v : In kw fo_keywords -> fft_set p (fo_keyword kw (String c t)) v = p.
Proof.
  intros H. unfold fft_set, fo_keyword.
  assert (N : forall w, In w ["collective"; "exchange"; "pack"; "memory"; "scale"; "remaponly"] -> String.eqb (append kw (String c t)) w = false).
  { intros w Hw. apply String.eqb_neq. intros E. cbn in H, Hw.
    repeat (destruct H as [<- | H]; [repeat (destruct Hw as [<- | Hw]; [discriminate E|]); destruct Hw|]). destruct H. }
  rewrite !N by (cbn; tauto). reflexivity.
Qed.
Theorem fo_set_done p kw v : In kw fo_keywords -> fft_set p (fo_keyword kw "") v = fft_set p kw v.
Proof. intros H. cbn in H. repeat (destruct H as [<- | H]; [reflexivity|]). destruct H. Qed.

(** ** Python *)
Theorem py_random_eq s : 0 <= s <= IM -> random s = Some (py_random s) /\ py_random s = (16807 * s) mod (2 ^ 31 - 1).
Proof.
  intros H. pose proof (random_spec s H) as E. assert (K : random s = Some (py_random s)).
  { revert E. unfold random, py_random. unfold IM in H. rewrite cdiv_pos by (unfold IQ; lia). cbn [bind]. unfold IQ, IA, IR, IM.
    pose proof (Z.div_mod s 127773 ltac:(lia)) as D. pose proof (Z.mod_pos_bound s 127773 ltac:(lia)) as B.
    set (q := s / 127773) in *. set (m := s mod 127773) in *. clearbody q m. assert (Q : 0 <= q <= 16807) by lia. intros _.
    rewrite (c32_ok (q * 127773)) by lia. cbn [bind]. rewrite (c32_ok (s - q * 127773)) by lia. cbn [bind].
    rewrite (c32_ok (16807 * (s - q * 127773))) by lia. cbn [bind]. rewrite (c32_ok (2836 * q)) by lia. cbn [bind].
    rewrite (c32_ok (16807 * (s - q * 127773) - 2836 * q)) by lia. cbn [bind].
    destruct (Z.ltb_spec (16807 * (s - q * 127773) - 2836 * q) 0); [apply c32_ok; lia|reflexivity]. }
  split; [exact K|]. congruence.
Qed.
Theorem py_run3_fails {F} mode rflag nloop (w0 : nat -> list F -> option (list F)) : 2 <= mode -> (1 <= nloop)%nat -> py_run3 mode rflag nloop w0 = None.
Proof. intros Hm Hn. unfold py_run3. destruct (Z.ltb_spec mode 2); [lia|]. destruct nloop; [lia|reflexivity]. Qed.
Theorem py_run3_same {F} mode rflag nloop (w0 : nat -> list F -> option (list F)) : mode < 2 -> py_run3 mode rflag nloop w0 = Some (run_part mode rflag nloop w0).
Proof. intros Hm. unfold py_run3. destruct (Z.ltb_spec mode 2); [reflexivity|lia]. Qed.
Theorem py_output_fails {F} n me b nfft (work : list F) : (2 <= n)%nat -> (me < n)%nat -> py_output n me b nfft work = None.
Proof.
  intros Hn Hm. unfold py_output. destruct (Nat.leb_spec 1 me); [reflexivity|]. assert (me = 0)%nat by lia. subst me.
  destruct (for_ _ _ _) as [l|]; [|reflexivity]. cbn [bind]. destruct (Nat.ltb_spec 0 (n - 1)); [reflexivity|lia].
Qed.
Theorem py_output_one {F} b nfft (work : list F) : py_output 1 0 b nfft work = out_rank2 b nfft 0 work.
Proof. unfold py_output, out_rank2. cbn [Nat.leb Nat.ltb Nat.sub]. destruct (for_ _ _ _); reflexivity. Qed.
Theorem py_simple_refuted : exists mydiff : nat -> option Z, allmax Z.gtb 0 2 mydiff = Some 5 /\ py_simple_report mydiff = Some 0.
Proof. exists (fun r => Some (if (r =? 1)%nat then 5 else 0)). vm_compute. auto. Qed.
