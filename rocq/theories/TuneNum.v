(** TuneNum.v : which settings tune() selects; pure facts about [ce_num] and [p_num]. *)

From Coq Require Import QArith.
From Verif Require Import Base Setup3d Life LifeProofs LifeFft LifeObj Tune TuneProofs.
Open Scope Z_scope.

Definition t3 (r : tres) : Q := fst (fst (fst r)).
(** what is recorded for trial [i] *)
Definition entry (n : tobj) (i : Z) : option Z * option Z * option Z * option Q :=
  (zget (n_cflags n) i, zget (n_eflags n) i, zget (n_pflags n) i, zget (n_tfft n) i).

Lemma zset_get {A} (l : list A) i v l' j : zset l i v = Some l' -> zget l' j = if j =? i then Some v else zget l j.
Proof. intros E. rewrite (zget_zset _ _ _ _ E), Z.eqb_sym. reflexivity. Qed.

Lemma num_trial_entry s r n n' : num_trial s r n = Some n' ->
  n_trial n' = n_trial n /\
  entry n' (n_trial n) = (Some (st_coll s), Some (st_exch s), Some (st_pack s), Some (t3 r)) /\
  (forall j, j <> n_trial n -> entry n' j = entry n j).
Proof.
  unfold num_trial, record_flags, record_times. destruct r as [[[u3 u1] ur] urs].
  destruct (zset (n_cflags n) _ (st_coll s)) eqn:E1; [|discriminate]. destruct (zset (n_eflags n) _ (st_exch s)) eqn:E2; [|discriminate].
  destruct (zset (n_pflags n) _ (st_pack s)) eqn:E3; [|discriminate]. cbn [bind n_trial n_tfft n_t1d n_tremap n_tremaps].
  destruct (zset (n_tfft n) _ u3) eqn:E4; [|discriminate]. destruct (zset (n_t1d n) _ u1); [|discriminate]. destruct (zset (n_tremap n) _ ur); [|discriminate]. destruct (set_all _ _ _); [|discriminate].
  cbn [bind]. intros E. injection E as <-. unfold entry. cbn [n_trial n_cflags n_eflags n_pflags n_tfft t3 fst]. split; [reflexivity|]. split.
  - rewrite (zset_get _ _ _ _ _ E1), (zset_get _ _ _ _ _ E2), (zset_get _ _ _ _ _ E3), (zset_get _ _ _ _ _ E4), Z.eqb_refl. reflexivity.
  - intros j N. rewrite (zset_get _ _ _ _ _ E1), (zset_get _ _ _ _ _ E2), (zset_get _ _ _ _ _ E3), (zset_get _ _ _ _ _ E4).
    apply Z.eqb_neq in N. rewrite N. reflexivity.
Qed.

(** [first_best b rs k]: trial [k] is the first of the fastest in [rs], and faster than [b] *)
Definition first_best (b : Q) (rs : list tres) (k : nat) : Prop :=
  exists r, nth_error rs k = Some r /\ (t3 r < b)%Q /\
    forall j r', nth_error rs j = Some r' -> (t3 r <= t3 r')%Q /\ ((j < k)%nat -> (t3 r < t3 r')%Q).
Definition no_better (b : Q) (rs : list tres) : Prop := forall r, In r rs -> (b <= t3 r)%Q.

Lemma qlt_spec a b : reflect (a < b)%Q (qlt a b).
Proof.
  unfold qlt. destruct (Qle_bool b a) eqn:E; constructor.
  - apply Qle_bool_iff in E. apply Qle_not_lt, E.
  - apply Qnot_le_lt. intros L. apply Qle_bool_iff in L. congruence.
Qed.

Lemma no_better_cons b r rs : (b <= t3 r)%Q -> no_better b rs -> no_better b (r :: rs).
Proof. intros A B x [<-|I]; auto. Qed.
Lemma first_best_skip b r rs k : (b <= t3 r)%Q -> first_best b rs k -> first_best b (r :: rs) (S k).
Proof.
  intros A (x & E & L & M). exists x. split; [exact E|]. split; [exact L|]. intros [|j] r' N; cbn in N.
  - injection N as <-. split; [apply Qlt_le_weak|intros _]; eapply Qlt_le_trans; eauto.
  - destruct (M j r' N) as [M1 M2]. split; [exact M1|]. intros J. apply M2. lia.
Qed.
Lemma first_best_later b r rs k : (t3 r < b)%Q -> first_best (t3 r) rs k -> first_best b (r :: rs) (S k).
Proof.
  intros A (x & E & L & M). exists x. split; [exact E|]. split; [eapply Qlt_trans; eauto|]. intros [|j] r' N; cbn in N.
  - injection N as <-. split; [apply Qlt_le_weak|intros _]; exact L.
  - destruct (M j r' N) as [M1 M2]. split; [exact M1|]. intros J. apply M2. lia.
Qed.
Lemma first_best_here b r rs : (t3 r < b)%Q -> no_better (t3 r) rs -> first_best b (r :: rs) 0.
Proof.
  intros A N. exists r. split; [reflexivity|]. split; [exact A|]. intros [|j] r' E; cbn in E.
  - injection E as <-. split; [apply Qle_refl | lia].
  - split; [apply N; eapply nth_error_In; eauto | lia].
Qed.

Lemma ce_num_spec ces : forall rs n n', ce_num ces rs n = Some n' -> List.length rs = List.length ces ->
  n_trial n' = n_trial n + zlen ces /\ n_pbest n' = n_pbest n /\
  (forall j, j < n_trial n -> entry n' j = entry n j) /\
  (forall k c e r, nth_error ces k = Some (c, e) -> nth_error rs k = Some r -> entry n' (n_trial n + Z.of_nat k) = (Some c, Some e, Some pdefault, Some (t3 r))) /\
  ((no_better (n_besttime n) rs /\ n_besttime n' = n_besttime n /\ n_cbest n' = n_cbest n /\ n_ebest n' = n_ebest n) \/
   (exists k r, first_best (n_besttime n) rs k /\ nth_error rs k = Some r /\ nth_error ces k = Some (n_cbest n', n_ebest n') /\ n_besttime n' = t3 r)).
Proof.
  induction ces as [|[c e] t IH]; intros rs n n' E L.
  - cbn in E. injection E as <-. split; [cbn; lia|]. split; [reflexivity|]. split; [auto|]. split; [intros [|k]; discriminate|].
    left. destruct rs; [|discriminate]. repeat split. intros r [].
  - destruct rs as [|r rs]; [discriminate|]. cbn [ce_num] in E. destruct (num_trial _ r n) as [n1|] eqn:N1; [|discriminate]. cbn [bind] in E.
    destruct (num_trial_entry _ _ _ _ N1) as (T1 & EN1 & EO1). destruct (num_trial_best _ _ _ _ N1) as (BC & BE & BP & BB & _).
    assert (zget (n_tfft n1) (n_trial n1) = Some (t3 r)) as G by (unfold entry in EN1; rewrite T1; injection EN1; auto).
    rewrite G in E. cbn [bind] in E.
    set (n2 := if qlt (t3 r) (n_besttime n1) then set_best (t3 r) c e (n_pbest n1) n1 else n1) in *.
    assert (n_trial n2 = n_trial n /\ n_pbest n2 = n_pbest n /\ forall j, entry n2 j = entry n1 j) as (T2 & P2 & EO2).
    { unfold n2. destruct (qlt (t3 r) (n_besttime n1)); split; auto; split; auto. }
    cbn in L. destruct (IH rs _ n' E ltac:(lia)) as (A & B & C & D & F). cbn [set_trial n_trial n_pbest n_besttime n_cbest n_ebest] in *.
    assert (forall k j, entry (set_trial k n2) j = entry n1 j) as EO3 by (intros; apply EO2).
    rewrite zlen_cons. split; [lia|]. split; [congruence|]. split; [|split].
    + intros j J. rewrite C, EO3, EO1; auto; lia.
    + intros [|k] c' e' r' H1 H2; cbn in H1, H2.
      * injection H1 as <- <-. injection H2 as <-. rewrite Z.add_0_r. rewrite C, EO3, EN1; [reflexivity | lia].
      * replace (n_trial n + Z.of_nat (S k)) with (n_trial n2 + 1 + Z.of_nat k) by lia. eapply D; eauto.
    + unfold n2 in F. rewrite BB in F. destruct (qlt_spec (t3 r) (n_besttime n)) as [Q|Q]; cbn [set_best n_besttime n_cbest n_ebest] in F.
      * right. destruct F as [(F1 & F2 & F3 & F4)|(k & r' & F1 & F2 & F3 & F4)].
        -- exists 0%nat, r. split; [apply first_best_here; auto|]. split; [reflexivity|]. cbn. rewrite F3, F4. auto.
        -- exists (S k), r'. split; [apply first_best_later; auto|]. auto.
      * apply Qnot_lt_le in Q. rewrite BB in F. destruct F as [(F1 & F2 & F3 & F4)|(k & r' & F1 & F2 & F3 & F4)].
        -- left. split; [apply no_better_cons; auto|]. split; [congruence|]. split; congruence.
        -- right. exists (S k), r'. split; [apply first_best_skip; auto|]. auto.
Qed.

Lemma p_num_spec ps : forall rs n n', p_num ps rs n = Some n' -> List.length rs = List.length ps ->
  n_trial n' = n_trial n + zlen ps /\ n_cbest n' = n_cbest n /\ n_ebest n' = n_ebest n /\
  (forall j, j < n_trial n -> entry n' j = entry n j) /\
  (forall k p r, nth_error ps k = Some p -> nth_error rs k = Some r -> entry n' (n_trial n + Z.of_nat k) = (Some (n_cbest n), Some (n_ebest n), Some p, Some (t3 r))) /\
  ((no_better (n_besttime n) rs /\ n_besttime n' = n_besttime n /\ n_pbest n' = n_pbest n) \/
   (exists k r, first_best (n_besttime n) rs k /\ nth_error rs k = Some r /\ nth_error ps k = Some (n_pbest n') /\ n_besttime n' = t3 r)).
Proof.
  induction ps as [|p t IH]; intros rs n n' E L.
  - cbn in E. injection E as <-. split; [cbn; lia|]. split; [reflexivity|]. split; [reflexivity|]. split; [auto|]. split; [intros [|k]; discriminate|].
    left. destruct rs; [|discriminate]. repeat split. intros r [].
  - destruct rs as [|r rs]; [discriminate|]. cbn [p_num] in E. destruct (num_trial _ r n) as [n1|] eqn:N1; [|discriminate]. cbn [bind] in E.
    destruct (num_trial_entry _ _ _ _ N1) as (T1 & EN1 & EO1). destruct (num_trial_best _ _ _ _ N1) as (BC & BE & BP & BB & _).
    assert (zget (n_tfft n1) (n_trial n1) = Some (t3 r)) as G by (unfold entry in EN1; rewrite T1; injection EN1; auto).
    rewrite G in E. cbn [bind] in E.
    set (n2 := if qlt (t3 r) (n_besttime n1) then set_best (t3 r) (n_cbest n1) (n_ebest n1) p n1 else n1) in *.
    assert (n_trial n2 = n_trial n /\ n_cbest n2 = n_cbest n /\ n_ebest n2 = n_ebest n /\ forall j, entry n2 j = entry n1 j) as (T2 & C2 & E2 & EO2).
    { unfold n2. destruct (qlt (t3 r) (n_besttime n1)); split; auto; split; auto. }
    cbn in L. destruct (IH rs _ n' E ltac:(lia)) as (A & B & B' & C & D & F). cbn [set_trial n_trial n_pbest n_besttime n_cbest n_ebest] in *.
    assert (forall k j, entry (set_trial k n2) j = entry n1 j) as EO3 by (intros; apply EO2).
    rewrite zlen_cons. split; [lia|]. split; [congruence|]. split; [congruence|]. split; [|split].
    + intros j J. rewrite C, EO3, EO1; auto; lia.
    + intros [|k] p' r' H1 H2; cbn in H1, H2.
      * injection H1 as <-. injection H2 as <-. rewrite Z.add_0_r. rewrite C, EO3, EN1; [reflexivity | lia].
      * replace (n_trial n + Z.of_nat (S k)) with (n_trial n2 + 1 + Z.of_nat k) by lia. rewrite (D k p' r' H1 H2), C2, E2. reflexivity.
    + unfold n2 in F. rewrite BB in F. destruct (qlt_spec (t3 r) (n_besttime n)) as [Q|Q]; cbn [set_best n_besttime n_pbest] in F.
      * right. destruct F as [(F1 & F2 & F3)|(k & r' & F1 & F2 & F3 & F4)].
        -- exists 0%nat, r. split; [apply first_best_here; auto|]. split; [reflexivity|]. cbn. rewrite F3. auto.
        -- exists (S k), r'. split; [apply first_best_later; auto|]. auto.
      * apply Qnot_lt_le in Q. rewrite BB in F. destruct F as [(F1 & F2 & F3)|(k & r' & F1 & F2 & F3 & F4)].
        -- left. split; [apply no_better_cons; auto|]. split; congruence.
        -- right. exists (S k), r'. split; [apply first_best_skip; auto|]. auto.
Qed.
