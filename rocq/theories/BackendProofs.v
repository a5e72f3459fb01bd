(** BackendProofs.v : proofs behind PropertiesBackend.v (C54). *)

From Coq Require Import Reals FunctionalExtensionality.
From Verif Require Import Base Spec Pack3d Pack2d Sched SchedProofs Phases Exec Remap RemapMain RemapInst
  Remap3d Remap2d RemapThms RemapTop ExRemap Layout LayoutProofs Setup3d Setup3dProofs Setup2d Setup2dProofs Kiss KissPure KissReal Fft1d KissFinal
  Fft3d Frame Fft3dProofs Fft3dMain DftMulti Fft3dTop Fft2d Fft2dMain Fft2dTop Backend.
Local Open Scope Z_scope.

(** ** a successful KISS transform has read every cell of its line *)
Lemma for_reached {S} n (body : Z -> S -> option S) s s' j : for_ n body s = Some s' -> 0 <= j < n ->
  exists s1 s2, body j s1 = Some s2.
Proof.
  unfold for_. intros H Hj.
  assert (G : forall m k s, iter m k body s = Some s' -> k <= j < k + Z.of_nat m -> exists s1 s2, body j s1 = Some s2).
  { induction m as [|m IH]; intros k s0 E K; [lia|]. cbn [iter] in E.
    destruct (body k s0) as [s1|] eqn:Eb; [|discriminate]. cbn [bind] in E.
    destruct (Z.eq_dec j k) as [->|]; [eauto|]. apply (IH _ _ E). lia. }
  apply (G _ _ _ H). lia.
Qed.

Section Any.
Context {F : Type} (O : sops F).
Local Notation C := (@cpx F).
Variable cexp : bool -> Z -> Z -> C.
Variable T : bool -> Z -> (Z -> C) -> Z -> C.
Variable rnorm : Z -> F.
Hypothesis HT : forall L inv st x j, plan_for cexp L inv st -> 0 <= j < L -> lineT O st x j = T inv L x j.
Hypothesis T_ext : forall inv L x y j, 1 <= L -> 0 <= j < L -> (forall t, 0 <= t < L -> x t = y t) -> T inv L x j = T inv L y j.

Lemma kf_work_last st facs : forall fs ist fin i o out out' L, chain facs L -> kf_work O st facs fs ist fin i o out = Some out' ->
  exists v, zget fin (i + (L - 1) * (fs * ist)) = Some v.
Proof.
  induction facs as [|[p m] rest IH]; intros fs ist fin i o out out' L Hc E; [contradiction|].
  cbn [chain] in Hc. destruct Hc as (Hp & Hm & HL & Hr). cbn [kf_work] in E.
  destruct ((p <? 1) || (m <? 1)); [discriminate|].
  destruct (Z.eqb_spec m 1) as [->|Hm1].
  - destruct (for_ p _ out) as [o1|] eqn:E1; [|discriminate].
    destruct (for_reached _ _ _ _ (p - 1) E1 ltac:(lia)) as (s1 & s2 & E2). cbv beta in E2.
    destruct (zget fin (i + (p - 1) * (fs * ist))) as [v|] eqn:Ev; [|discriminate]. exists v. rewrite <- Ev. f_equal. lia.
  - destruct Hr as [|[Hm2 Hr]]; [lia|].
    destruct (for_ p _ out) as [o1|] eqn:E1; [|discriminate].
    destruct (for_reached _ _ _ _ (p - 1) E1 ltac:(lia)) as (s1 & s2 & E2). cbv beta in E2.
    destruct (IH _ _ _ _ _ _ _ _ Hr E2) as (v & Ev). exists v. rewrite <- Ev. f_equal. subst L. ring.
Qed.

Lemma zget_tab {A} (h : Z -> A) n j : 0 <= j < n -> zget (map h (zrange n)) j = Some (h j).
Proof. intros Hj. rewrite zget_map, zget_zrange by exact Hj. reflexivity. Qed.

Lemma app_l {A} (a b : list A) i : i < zlen a -> zget (a ++ b) i = zget a i.
Proof.
  intros H. rewrite zget_app. destruct (Z.ltb_spec i (zlen a)); [reflexivity|lia].
Qed.
Lemma app_r {A} (a b : list A) i : zlen a <= i -> zget (a ++ b) i = zget b (i - zlen a).
Proof.
  intros H. rewrite zget_app. destruct (Z.ltb_spec i (zlen a)); [lia|reflexivity].
Qed.

Lemma line_eq st L inv data o : plan_for cexp L inv st -> 0 <= o ->
  kiss_fft_inplace O st (fresh_tmp O st) 1 data o = lib_line O T inv L o data.
Proof.
  intros HP Ho. destruct (plan_facts O cexp L inv st HP) as (E1 & E2 & E3 & E4).
  unfold lib_line. destruct (Z.leb_spec 0 o); [|lia]. cbn [andb].
  destruct (Z.leb_spec (o + L) (zlen data)) as [Hin|Hout].
  - set (x := fun i => match zget data (o + i) with Some v => v | None => czero O end).
    assert (Hx : forall t, 0 <= t < L -> zget data (o + t * 1) = Some (x t)).
    { intros t Ht. unfold x. rewrite Z.mul_1_r. destruct (zget_Some data (o + t) ltac:(lia)) as [v ->]. reflexivity. }
    destruct (kiss_inplace_ok O st L (fresh_tmp O st) 1 data o x) as (d1 & K1 & K2 & K3 & K4); auto.
    { unfold fresh_tmp, zlen. rewrite repeat_length. lia. }
    assert (Hzl : zlen (map (T inv L x) (zrange L)) = L) by (rewrite zlen_map, zlen_zrange; lia).
    destruct (cwrite_ok data o (map (T inv L x) (zrange L)) (T inv L x)) as (d2 & W1 & W2 & W3 & W4).
    { exact Ho. } { lia. }
    { intros j Hj. rewrite Hzl in Hj. apply zget_tab. exact Hj. }
    rewrite Hzl in W3, W4. rewrite K1, W1. f_equal. apply zget_ext. intros i.
    destruct (Z_le_dec o i) as [H1|H1]; [destruct (Z_lt_dec i (o + L)) as [H2|H2]|].
    + replace i with (o + (i - o)) by ring. rewrite K3, W3 by lia. f_equal.
      change (wk O st (k_factors st) 1 x (i - o)) with (lineT O st x (i - o)). apply HT; [exact HP|lia].
    + rewrite K4, W4 by lia. reflexivity.
    + rewrite K4, W4 by lia. reflexivity.
  - unfold kiss_fft_inplace. destruct (kf_work O st (k_factors st) 1 1 data o 0 (fresh_tmp O st)) as [t|] eqn:E; [|reflexivity].
    destruct (kf_work_last _ _ _ _ _ _ _ _ _ _ E3 E) as (v & Hv). apply zget_inv in Hv. lia.
Qed.

(** ** every back end transforms the batch in the same way *)
Lemma batch_eq st L inv n data : plan_for cexp L inv st -> 0 <= n ->
  perform_ffts O st L (n * L) data = run_many O T (mkmany L n 1 L 1 L inv) data.
Proof.
  intros HP Hn. destruct (plan_facts O cexp L inv st HP) as (E1 & E2 & E3 & E4).
  unfold perform_ffts, run_many, many_ok. cbn [m_len m_cnt m_is m_id m_os m_od m_inv].
  destruct (Z.leb_spec 1 L); [|lia]. destruct (Z.leb_spec 0 n); [|lia]. rewrite !Z.eqb_refl.
  destruct (Z.leb_spec L L); [|lia]. cbn [andb].
  rewrite <- (Z.add_0_l (n * L)). rewrite for_ptr_for by lia. apply for_ext. intros j d Hj.
  rewrite Z.add_0_l. apply line_eq; [exact HP|nia].
Qed.

(** ** scaling *)
Lemma zset_pairs (ps : list (F * F)) (tl : list F) i a b : 0 <= i < zlen ps ->
  exists ps', zset ps i (a, b) = Some ps' /\
  (l1 <- zset (unpairs ps ++ tl) (2 * i) a; zset l1 (2 * i + 1) b) = Some (unpairs ps' ++ tl).
Proof.
  intros Hi. destruct (zset_Some ps i (a, b) Hi) as [ps' E]. exists ps'. split; [exact E|].
  assert (Lu : forall q : list (F * F), zlen (unpairs q) = 2 * zlen q).
  { induction q as [|[x y] q IH]; [reflexivity|]. cbn [unpairs]. rewrite !zlen_cons. lia. }
  destruct (zset_Some (unpairs ps ++ tl) (2 * i) a) as [l1 E1].
  { rewrite zlen_app, Lu. pose proof (zlen_nonneg tl). lia. }
  rewrite E1. cbn [bind]. pose proof (zset_len _ _ _ _ E1) as L1.
  destruct (zset_Some l1 (2 * i + 1) b) as [l2 E2].
  { rewrite L1, zlen_app, Lu. pose proof (zlen_nonneg tl). lia. }
  rewrite E2. f_equal. apply zget_ext. intros k.
  rewrite (zget_zset _ _ _ _ E2), (zget_zset _ _ _ _ E1).
  pose proof (zset_len _ _ _ _ E) as Lp.
  destruct (Z.eqb_spec (2 * i + 1) k) as [<-|Hk1].
  - pose proof (zget_zset _ _ _ _ E i) as G. rewrite Z.eqb_refl in G. destruct (unpairs_get ps' i a b G) as (_ & G2).
    rewrite app_l; [symmetry; exact G2|]. rewrite Lu. lia.
  - destruct (Z.eqb_spec (2 * i) k) as [<-|Hk2].
    + pose proof (zget_zset _ _ _ _ E i) as G. rewrite Z.eqb_refl in G. destruct (unpairs_get ps' i a b G) as (G1 & _).
      rewrite app_l; [symmetry; exact G1|]. rewrite Lu. lia.
    + destruct (Z_lt_dec k 0) as [Hk|Hk]; [rewrite !zget_None by lia; reflexivity|].
      destruct (Z_lt_dec k (2 * zlen ps)) as [Hk3|Hk3].
      * rewrite !app_l by (rewrite Lu; lia).
        destruct (zget_Some ps (k / 2)) as [[u v] Hu].
        { split; [apply Z.div_pos; lia|]. apply Z.div_lt_upper_bound; lia. }
        assert (Hu' : zget ps' (k / 2) = Some (u, v)).
        { rewrite (zget_zset _ _ _ _ E). destruct (Z.eqb_spec i (k / 2)); [|exact Hu].
          exfalso. pose proof (Z.div_mod k 2 ltac:(lia)). pose proof (Z.mod_pos_bound k 2 ltac:(lia)). lia. }
        destruct (unpairs_get _ _ _ _ Hu) as (A1 & A2). destruct (unpairs_get _ _ _ _ Hu') as (B1 & B2).
        pose proof (Z.div_mod k 2 ltac:(lia)). pose proof (Z.mod_pos_bound k 2 ltac:(lia)).
        destruct (Z.eq_dec (k mod 2) 0) as [Hm|Hm].
        -- replace k with (2 * (k / 2)) by lia. congruence.
        -- replace k with (2 * (k / 2) + 1) by lia. congruence.
      * rewrite !app_r by (rewrite Lu; lia). rewrite !Lu, Lp. reflexivity.
Qed.

Lemma scale_flat_eq norm num (l : list F) :
  scale_flat O norm num l = (ps' <- scale_ffts O norm num (fst (pairs l)); Some (unpairs ps' ++ snd (pairs l))).
Proof.
  unfold scale_flat, scale_ffts, for_.
  rewrite <- (unpairs_pairs l) at 1. 
  assert (Htl : zlen (snd (pairs l)) <= 1) by apply pairs_tail.
  generalize dependent (snd (pairs l)). generalize (fst (pairs l)). intros ps tl Htl.
  assert (Lu : forall q : list (F * F), zlen (unpairs q) = 2 * zlen q).
  { induction q as [|[x y] q IH]; [reflexivity|]. cbn [unpairs]. rewrite !zlen_cons. lia. }
  set (bf := fun (_ : Z) '(p, l0) => v <- zget l0 p; l1 <- zset l0 p (smul O v norm); w <- zget l1 (p + 1); l2 <- zset l1 (p + 1) (smul O w norm); Some (p + 2, l2)).
  set (bp := fun i (data : list (F * F)) => v <- zget data i; zset data i (smul O (fst v) norm, smul O (snd v) norm)).
  assert (G : forall m k q, 0 <= k -> iter m k bf (2 * k, unpairs q ++ tl) =
     (q' <- iter m k bp q; Some (2 * (k + Z.of_nat m), unpairs q' ++ tl))).
  { induction m as [|m IH]; intros k q Hk.
    { cbn [iter bind]. do 2 f_equal. lia. }
    cbn [iter]. unfold bf at 1, bp at 1.
    destruct (Z_lt_dec k (zlen q)) as [Hq|Hq].
    - destruct (zget_Some q k ltac:(lia)) as [[u v] Hu]. rewrite Hu. cbn [bind fst snd].
      destruct (unpairs_get _ _ _ _ Hu) as (A1 & A2).
      rewrite app_l, A1 by (rewrite Lu; lia). cbn [bind].
      destruct (zset_pairs q tl k (smul O u norm) (smul O v norm) ltac:(lia)) as (q' & E1 & E2).
      rewrite E1. cbn [bind]. destruct (zset (unpairs q ++ tl) (2 * k) (smul O u norm)) as [l1|] eqn:E3; [|discriminate].
      cbn [bind] in E2 |- *. rewrite (zget_zset _ _ _ _ E3). destruct (Z.eqb_spec (2 * k) (2 * k + 1)); [lia|].
      rewrite app_l, A2 by (rewrite Lu; lia). cbn [bind]. rewrite E2. cbn [bind].
      replace (2 * k + 2) with (2 * (k + 1)) by ring. rewrite IH by lia.
      apply bind_ext. intros q2 _. do 2 f_equal. lia.
    - assert (N : zget q k = None). { destruct (zget q k) eqn:E; [apply zget_inv in E; lia|reflexivity]. }
      rewrite N. cbn [bind].
      destruct (zget (unpairs q ++ tl) (2 * k)) as [v|] eqn:Ev; [|reflexivity]. cbn [bind].
      destruct (zset (unpairs q ++ tl) (2 * k) (smul O v norm)) as [l1|] eqn:E3; [|reflexivity]. cbn [bind].
      pose proof (zset_len _ _ _ _ E3) as L1. rewrite zlen_app, Lu in L1.
      destruct (zget l1 (2 * k + 1)) as [w|] eqn:Ew; [|reflexivity]. apply zget_inv in Ew. lia. }
  change 0 with (2 * 0) at 2. rewrite (G _ 0) by lia.
  destruct (iter (Z.to_nat num) 0 bp ps); reflexivity.
Qed.

Lemma scale_eq B norm num b m : lib_scale O B norm num b m = cview b (scale_ffts O norm num) m.
Proof.
  unfold lib_scale, cview. destruct B; try reflexivity.
  rewrite scale_flat_eq. destruct (pairs (getb b m)) as [ps tl]. cbn [fst snd].
  destruct (scale_ffts O norm num ps); reflexivity.
Qed.

(** ** what setup leaves *)
(** handle [h] of table [t] is a plan of back end [B] for [n] lines of length [len] *)
Definition plan_of (B : backend) (t : @table F) (inv : bool) (len n : Z) (h : nat) : Prop :=
  match B, pget h t with
  | MKL, Some (PMkl d) => d = mkdfti len (Z.quot (n * len) len) true len len true
  | FFTW2, Some (PFftw2 l i) => l = len /\ i = inv
  | FFTW3, Some (PFftw3 c) => c = mkmany len n 1 len 1 len inv
  | KISS, Some (PKiss st) => plan_for cexp len inv st
  | _, _ => False
  end.

Definition sized (q : fft1) (len n : Z) : Prop := q_len q = len /\ q_n q = n /\ q_total q = n * len.
(** a transform object whose two plans are those of back end [B] *)
Definition set_up (B : backend) (t : @table F) (q : fft1) (len n : Z) : Prop :=
  sized q len n /\ plan_of B t false len n (q_fwd q) /\ plan_of B t true len n (q_bwd q).
(** all plans have been destroyed *)
Definition freed (t : @table F) : Prop := Forall (fun p => p = None) t.

Lemma mkl_eq len (q : fft1) (t : @table F) : mkl_setup len q t =
  Some ((length t, length t), t ++ [Some (PMkl (mkdfti len (Z.quot (q_total q) len) true len len true))]).
Proof.
  assert (G : forall (a : plan1) h, pget (length t) (t ++ [Some a]) = Some a /\ pput (length t) h (t ++ [Some a]) = Some (tt, t ++ [h])).
  { intros a h. assert (E : pget (length t) (t ++ [Some a]) = Some a) by (unfold pget; rewrite nth_error_app2, Nat.sub_diag by lia; reflexivity).
    split; [exact E|]. unfold pput. rewrite E. cbn [bind]. do 2 f_equal.
    rewrite firstn_app, Nat.sub_diag, firstn_all. cbn [firstn]. rewrite app_nil_r. f_equal. f_equal.
    apply skipn_all2. rewrite app_length. cbn [length]. lia. }
  assert (S : forall d (g : dfti -> option dfti) d', g d = Some d' -> dfti_set (length t) g (t ++ [Some (PMkl d)]) = Some (tt, t ++ [Some (PMkl d')])).
  { intros d g d' E. unfold dfti_set. rewrite (proj1 (G (PMkl d) None)). cbn [bind]. rewrite E. cbn [bind]. apply G. }
  unfold mkl_setup, pbind, dfti_create, pnew. cbn [bind].
  erewrite S by reflexivity. cbn [bind]. erewrite S by reflexivity. cbn [bind]. erewrite S by reflexivity. cbn [bind].
  erewrite S by reflexivity. cbn [bind]. erewrite S by reflexivity. cbn [bind]. reflexivity.
Qed.
Lemma fftw2_eq len (t : @table F) : fftw2_plans len t =
  Some ((length t, S (length t)), t ++ [Some (PFftw2 len false); Some (PFftw2 len true)]).
Proof. unfold fftw2_plans, pbind, pnew, pret. cbn [bind]. rewrite app_length, <- app_assoc. cbn [length app]. do 3 f_equal. lia. Qed.
Lemma fftw3_eq len n (t : @table F) : fftw3_plans len n t =
  Some ((length t, S (length t)), t ++ [Some (PFftw3 (mkmany len n 1 len 1 len false)); Some (PFftw3 (mkmany len n 1 len 1 len true))]).
Proof. unfold fftw3_plans, pbind, pnew, pret. cbn [bind]. rewrite app_length, <- app_assoc. cbn [length app]. do 3 f_equal. lia. Qed.
Lemma kiss_eq len (t : @table F) : 1 <= len < 2 ^ 31 -> exists sf sb, plan_for cexp len false sf /\ plan_for cexp len true sb /\
  kiss_plans cexp len t = Some ((length t, S (length t)), t ++ [Some (PKiss sf); Some (PKiss sb)]).
Proof.
  intros H. destruct (alloc_ok O cexp len false H) as (sf & E1 & _). destruct (alloc_ok O cexp len true H) as (sb & E2 & _).
  exists sf, sb. split; [split; assumption|]. split; [split; assumption|].
  unfold kiss_plans. rewrite E1, E2. unfold pbind, pnew, pret. cbn [bind]. rewrite app_length, <- app_assoc. cbn [length app]. do 3 f_equal. lia.
Qed.
Lemma pbind_eq {A B} (m : @PM F A) (k : A -> @PM F B) t a t' : m t = Some (a, t') -> pbind m k t = k a t'.
Proof. intros E. unfold pbind. rewrite E. reflexivity. Qed.

(** what [made] two plans [h], [h'] of the table are *)
Lemma setup3_ok B x y z nf nm ns : 1 <= x < 2 ^ 31 -> 1 <= y < 2 ^ 31 -> 1 <= z < 2 ^ 31 ->
  exists qf qm qs t, lib_setup3 cexp B (x, y, z) nf nm ns [] = Some (qf, qm, qs, t) /\
    set_up B t qf x nf /\ set_up B t qm y nm /\ set_up B t qs z ns /\
    exists t', lib_dealloc3 B (x, y, z) (qf, qm, qs) t = Some (tt, t') /\ length t' = length t /\ freed t'.
Proof.
  intros Hx Hy Hz. unfold set_up, sized, freed.
  destruct B; unfold lib_setup3, lib_dealloc3.
  - do 4 eexists. split; [do 3 (erewrite pbind_eq by apply mkl_eq); cbn; reflexivity|].
    split; [repeat split|]. split; [repeat split|]. split; [repeat split|].
    eexists. split; [reflexivity|]. split; [reflexivity|]. repeat constructor.
  - destruct (Z.eqb_spec y x); destruct (Z.eqb_spec z x); try destruct (Z.eqb_spec z y); subst; try lia;
    (do 4 eexists; split; [repeat first [erewrite pbind_eq by apply fftw2_eq | erewrite pbind_eq by reflexivity]; cbn; reflexivity|];
    split; [repeat split|]; split; [repeat split|]; split; [repeat split|];
    eexists; split; [reflexivity|]; split; [reflexivity|]; repeat constructor).
  - do 4 eexists. split; [do 3 (erewrite pbind_eq by apply fftw3_eq); cbn; reflexivity|].
    split; [repeat split|]. split; [repeat split|]. split; [repeat split|].
    eexists. split; [reflexivity|]. split; [reflexivity|]. repeat constructor.
  - Opaque kiss_plans Z.pow kiss_fft_alloc.
    destruct (kiss_eq x [] Hx) as (xf & xb & X1 & X2 & EX). cbn [length app] in EX.
    destruct (Z.eqb_spec y x) as [->|Nyx].
    + destruct (Z.eqb_spec z x) as [->|Nzx].
      * do 4 eexists. split; [rewrite (pbind_eq _ _ _ _ _ EX); cbn; reflexivity|].
        split; [repeat split; cbn; apply X1 || apply X2|]. split; [repeat split; cbn; apply X1 || apply X2|]. split; [repeat split; cbn; apply X1 || apply X2|].
        eexists. split; [reflexivity|]. split; [reflexivity|]. repeat constructor.
      * destruct (kiss_eq z [Some (PKiss xf); Some (PKiss xb)] Hz) as (zf & zb & Z1 & Z2 & EZ). cbn [length app] in EZ.
        do 4 eexists. split; [rewrite (pbind_eq _ _ _ _ _ EX); unfold pret at 1; cbn -[pbind]; erewrite pbind_eq by reflexivity; rewrite (pbind_eq _ _ _ _ _ EZ); cbn; reflexivity|].
        split; [repeat split; cbn; apply X1 || apply X2|]. split; [repeat split; cbn; apply X1 || apply X2|]. split; [repeat split; cbn; apply Z1 || apply Z2|].
        eexists. split; [reflexivity|]. split; [reflexivity|]. repeat constructor.
    + destruct (kiss_eq y [Some (PKiss xf); Some (PKiss xb)] Hy) as (yf & yb & Y1 & Y2 & EY). cbn [length app] in EY.
      destruct (Z.eqb_spec z x) as [->|Nzx]; [|destruct (Z.eqb_spec z y) as [->|Nzy]].
      * do 4 eexists. split; [rewrite (pbind_eq _ _ _ _ _ EX), (pbind_eq _ _ _ _ _ EY); cbn; reflexivity|].
        split; [repeat split; cbn; apply X1 || apply X2|]. split; [repeat split; cbn; apply Y1 || apply Y2|]. split; [repeat split; cbn; apply X1 || apply X2|].
        eexists. split; [reflexivity|]. split; [reflexivity|]. repeat constructor.
      * do 4 eexists. split; [rewrite (pbind_eq _ _ _ _ _ EX), (pbind_eq _ _ _ _ _ EY); cbn; reflexivity|].
        split; [repeat split; cbn; apply X1 || apply X2|]. split; [repeat split; cbn; apply Y1 || apply Y2|]. split; [repeat split; cbn; apply Y1 || apply Y2|].
        eexists. split; [reflexivity|]. split; [reflexivity|]. repeat constructor.
      * destruct (kiss_eq z [Some (PKiss xf); Some (PKiss xb); Some (PKiss yf); Some (PKiss yb)] Hz) as (zf & zb & Z1 & Z2 & EZ). cbn [length app] in EZ.
        do 4 eexists. split; [rewrite (pbind_eq _ _ _ _ _ EX), (pbind_eq _ _ _ _ _ EY), (pbind_eq _ _ _ _ _ EZ); cbn; reflexivity|].
        split; [repeat split; cbn; apply X1 || apply X2|]. split; [repeat split; cbn; apply Y1 || apply Y2|]. split; [repeat split; cbn; apply Z1 || apply Z2|].
        eexists. split; [reflexivity|]. split; [reflexivity|]. repeat constructor.
Qed.

Lemma setup2_ok B x z nf ns : 1 <= x < 2 ^ 31 -> 1 <= z < 2 ^ 31 ->
  exists qf qs t, lib_setup2 cexp B (x, z) nf ns [] = Some (qf, qs, t) /\
    set_up B t qf x nf /\ set_up B t qs z ns /\
    exists t', lib_dealloc2 B (x, z) (qf, qs) t = Some (tt, t') /\ length t' = length t /\ freed t'.
Proof.
  intros Hx Hz. unfold set_up, sized, freed.
  destruct B; unfold lib_setup2, lib_dealloc2.
  - do 3 eexists. split; [do 2 (erewrite pbind_eq by apply mkl_eq); cbn; reflexivity|].
    split; [repeat split|]. split; [repeat split|].
    eexists. split; [reflexivity|]. split; [reflexivity|]. repeat constructor.
  - destruct (Z.eqb_spec z x); subst;
    (do 3 eexists; split; [repeat first [erewrite pbind_eq by apply fftw2_eq | erewrite pbind_eq by reflexivity]; cbn; reflexivity|];
    split; [repeat split|]; split; [repeat split|];
    eexists; split; [reflexivity|]; split; [reflexivity|]; repeat constructor).
  - do 3 eexists. split; [do 2 (erewrite pbind_eq by apply fftw3_eq); cbn; reflexivity|].
    split; [repeat split|]. split; [repeat split|].
    eexists. split; [reflexivity|]. split; [reflexivity|]. repeat constructor.
  - destruct (kiss_eq x [] Hx) as (xf & xb & X1 & X2 & EX). cbn [length app] in EX.
    destruct (Z.eqb_spec z x) as [->|Nzx].
    + do 3 eexists. split; [rewrite (pbind_eq _ _ _ _ _ EX); cbn; reflexivity|].
      split; [repeat split; cbn; apply X1 || apply X2|]. split; [repeat split; cbn; apply X1 || apply X2|].
      eexists. split; [reflexivity|]. split; [reflexivity|]. repeat constructor.
    + destruct (kiss_eq z [Some (PKiss xf); Some (PKiss xb)] Hz) as (zf & zb & Z1 & Z2 & EZ). cbn [length app] in EZ.
      do 3 eexists. split; [rewrite (pbind_eq _ _ _ _ _ EX), (pbind_eq _ _ _ _ _ EZ); cbn; reflexivity|].
      split; [repeat split; cbn; apply X1 || apply X2|]. split; [repeat split; cbn; apply Z1 || apply Z2|].
      eexists. split; [reflexivity|]. split; [reflexivity|]. repeat constructor.
Qed.

(** ** perform_ffts of back end [B] is the KISS one *)
Lemma perform_eq B t q len n flag st data :
  plan_for cexp len (negb (flag =? FORWARD)) st -> set_up B t q len n -> 0 <= n -> (B = MKL -> 1 <= n) ->
  lib_perform O T B t flag q data = perform_ffts O st len (n * len) data.
Proof.
  intros HP (S1 & S2 & S3) Hn Hm. destruct S1 as (Q1 & Q2 & Q3). pose proof HP as ((HL & _) & HE).
  rewrite (batch_eq st len (negb (flag =? FORWARD)) n data HP Hn).
  assert (K : exists h, h = (if flag =? FORWARD then q_fwd q else q_bwd q) /\ plan_of B t (negb (flag =? FORWARD)) len n h).
  { eexists. split; [reflexivity|]. destruct (flag =? FORWARD); assumption. }
  destruct K as (h & Eh & K). unfold lib_perform. rewrite <- Eh. unfold plan_of in K.
  destruct (pget h t) as [p|]; [|destruct B; contradiction]. cbn [bind].
  destruct B; destruct p; try contradiction.
  - subst d. unfold dfti_compute. cbn [d_com d_inpl d_num d_len d_id d_od andb].
    rewrite Z.quot_mul by lia. specialize (Hm eq_refl). destruct (Z.leb_spec 1 n); [|lia]. reflexivity.
  - destruct K as (-> & ->). rewrite Q1, Q2. reflexivity.
  - subst c. reflexivity.
  - rewrite Q1, Q3. rewrite <- (batch_eq st len (negb (flag =? FORWARD)) n data HP Hn). destruct K as (_ & K). congruence.
Qed.
End Any.

(** ** whole transforms *)
Section Whole.
Context {F : Type} (O : sops F).
Local Notation C := (@cpx F).
Variable cexp : bool -> Z -> Z -> C.
Variable T : bool -> Z -> (Z -> C) -> Z -> C.
Variable rnorm : Z -> F.
Hypothesis HT : forall L inv st x j, plan_for cexp L inv st -> 0 <= j < L -> lineT O st x j = T inv L x j.

Lemma together_ext n (ps qs : list (nat -> list (@instr F))) :
  Forall2 (fun p q => forall r, (r < n)%nat -> p r = q r) ps qs -> forall r, (r < n)%nat -> together ps r = together qs r.
Proof.
  intros H r Hr. induction H as [|p q ps qs E _ IH]; [reflexivity|].
  unfold together in *. cbn [map List.concat]. rewrite E by exact Hr. f_equal. exact IH.
Qed.
Definition agree (n : nat) (p q : nat -> list (@instr F)) : Prop := forall r, (r < n)%nat -> p r = q r.
Lemma agree_refl n ps : Forall2 (agree n) ps ps.
Proof. induction ps; constructor; [intros r _; reflexivity|assumption]. Qed.

Lemma exec_agree n (p q : nat -> list (@instr F)) M0 M' : agree n p q -> exec_to n q M0 M' -> exec_to n p M0 M'.
Proof.
  intros H. unfold exec_to, start. replace (map p (seq 0 n)) with (map q (seq 0 n)); [auto|].
  apply map_ext_in. intros r Hr. apply in_seq in Hr. symmetry. apply H. lia.
Qed.
Lemma exec_all_agree n (p q : nat -> list (@instr F)) M0 Post : agree n p q -> exec_all n q M0 Post -> exec_all n p M0 Post.
Proof. intros H (M' & H1 & H2). exists M'. split; [exact H1|]. apply (exec_agree _ _ _ _ _ H H2). Qed.

(** every rank has a line to transform in each of the layouts *)
Definition has_lines3 (f : fft3) : Prop := forall r, (r < f_n f)%nat ->
  1 <= nj (f_fast f r) * nk (f_fast f r) /\ 1 <= ni (f_mid f r) * nk (f_mid f r) /\ 1 <= ni (f_slow f r) * nj (f_slow f r).
Definition has_lines2 (f : fft2) : Prop := forall r, (r < t_n f)%nat -> 1 <= nj2 (t_fast f r) /\ 1 <= ni2 (t_slow f r).

Section Obj3.
Variables (ar : areas) (n : nat) (st : settings) (N : Z * Z * Z) (permute : Z) (ins outs : nat -> box3) (f : fft3).
Hypothesis Hr : ready3 ar n st N permute ins outs f.
Variable B : backend.

Lemma dims3 : 1 <= fst (fst N) < 2 ^ 31 /\ 1 <= snd (fst N) < 2 ^ 31 /\ 1 <= snd N < 2 ^ 31.
Proof.
  pose proof (F_dims _ _ _ _ _ _ _ (ready_facts _ _ _ _ _ _ _ _ Hr)) as HD. destruct Hr as (_ & _ & HI & _).
  destruct N as [[x y] z]. cbn in HD, HI |- *. unfold dim_ok, INT_MAX in *. lia.
Qed.

Lemma made3_ok r : exists qf qm qs t, made3 cexp B f r = Some (qf, qm, qs, t) /\
  set_up cexp B t qf (fst (fst N)) (nj (f_fast f r) * nk (f_fast f r)) /\
  set_up cexp B t qm (snd (fst N)) (ni (f_mid f r) * nk (f_mid f r)) /\
  set_up cexp B t qs (snd N) (ni (f_slow f r) * nj (f_slow f r)) /\
  exists t', lib_dealloc3 B N (qf, qm, qs) t = Some (tt, t') /\ length t' = length t /\ freed t'.
Proof.
  unfold made3. rewrite (F_N _ _ _ _ _ _ _ (ready_facts _ _ _ _ _ _ _ _ Hr)). pose proof dims3 as (D1 & D2 & D3).
  destruct N as [[x y] z]. cbn [fst snd] in *. apply (setup3_ok O cexp B x y z); assumption.
Qed.

Variable P : @plans3 F.
Hypothesis HP : setup_ffts3 cexp N = Some P.
Variable L : nat -> fft1 * fft1 * fft1 * @table F.
Hypothesis HL : forall r, (r < n)%nat -> made3 cexp B f r = Some (L r).
Hypothesis HM : B = MKL -> has_lines3 f.

Lemma lib_parts3 flag b :
  agree n (lib_fast O T B L flag b) (ffts_fast O f P flag b) /\
  agree n (lib_mid O T B L flag b) (ffts_mid O f P flag b) /\
  agree n (lib_slow O T B L flag b) (ffts_slow O f P flag b).
Proof.
  pose proof (ready_facts _ _ _ _ _ _ _ _ Hr) as FA.
  pose proof (F_N _ _ _ _ _ _ _ FA) as EN. pose proof (F_n _ _ _ _ _ _ _ FA) as En.
  pose proof dims3 as (D1 & D2 & D3).
  assert (LO : forall r, (r < n)%nat -> legal3 (outs r)) by apply Hr.
  assert (HPl : plan_for cexp (fst (fst N)) (negb (flag =? FORWARD)) (if flag =? FORWARD then pl_ff P else pl_fb P) /\
    plan_for cexp (snd (fst N)) (negb (flag =? FORWARD)) (if flag =? FORWARD then pl_mf P else pl_mb P) /\
    plan_for cexp (snd N) (negb (flag =? FORWARD)) (if flag =? FORWARD then pl_sf P else pl_sb P)).
  { pose proof (setup_ffts3_ok O cexp N) as H. destruct N as [[x y] z]. cbn [fst snd] in *.
    destruct (H D1 D2 D3) as (P' & E & H1 & H2 & H3 & H4 & H5 & H6). assert (P' = P) by congruence. subst P'.
    destruct (flag =? FORWARD); cbn [negb]; auto. }
  destruct HPl as (P1 & P2 & P3).
  split; [|split]; intros r Hrn;
    destruct (made3_ok r) as (qf & qm & qs & t & E & S1 & S2 & S3 & _);
    assert (EL : L r = (qf, qm, qs, t)) by (pose proof (HL r Hrn); congruence);
    assert (HM' : B = MKL -> 1 <= nj (f_fast f r) * nk (f_fast f r) /\ 1 <= ni (f_mid f r) * nk (f_mid f r) /\ 1 <= ni (f_slow f r) * nj (f_slow f r))
      by (intros EB; apply (HM EB); rewrite En; exact Hrn).
  - unfold lib_fast, ffts_fast. rewrite EL, EN. do 3 f_equal. apply functional_extensionality. intros data.
    destruct (F_fast_legal _ _ _ _ _ _ _ FA r Hrn) as (G1 & G2 & G3).
    apply (perform_eq O cexp T HT B t qf (fst (fst N)) (nj (f_fast f r) * nk (f_fast f r))); auto; [nia|]. intros EB; apply (HM' EB).
  - unfold lib_mid, ffts_mid. rewrite EL, EN. do 3 f_equal. apply functional_extensionality. intros data.
    destruct (F_mid_legal _ _ _ _ _ _ _ FA r Hrn) as (G1 & G2 & G3).
    apply (perform_eq O cexp T HT B t qm (snd (fst N)) (ni (f_mid f r) * nk (f_mid f r))); auto; [nia|]. intros EB; apply (HM' EB).
  - unfold lib_slow, ffts_slow. rewrite EL, EN. do 3 f_equal. apply functional_extensionality. intros data.
    destruct (F_slow_legal _ _ _ _ _ _ _ FA LO r Hrn) as (G1 & G2 & G3).
    apply (perform_eq O cexp T HT B t qs (snd N) (ni (f_slow f r) * nj (f_slow f r))); auto; [nia|]. intros EB; apply (HM' EB).
Qed.

Lemma lib_scal3 b : agree n (lib_scaling3 O rnorm B f b) (scaling3 O rnorm f b).
Proof. intros r _. unfold lib_scaling3, scaling3. do 2 f_equal. apply functional_extensionality. intros m. apply scale_eq. Qed.

Ltac pieces := repeat first [apply Forall2_app | apply agree_refl | apply Forall2_cons; [|apply Forall2_nil] | apply Forall2_nil | assumption].

Lemma lib_compute3_eq scaled ro flag bi bo :
  agree n (lib_compute3 O T rnorm B f L scaled ro flag bi bo) (compute3 O rnorm f P scaled ro flag bi bo).
Proof.
  unfold agree, lib_compute3, compute3. apply together_ext. fold (agree n).
  unfold lib_pieces3, pieces_compute3. destruct (lib_parts3 flag bo) as (A1 & A2 & A3). pose proof (lib_scal3 bo) as A4.
  change (fun p q : nat -> list (@instr F) => forall r : nat, (r < n)%nat -> p r = q r) with (agree n).
  apply Forall2_app.
  - destruct ((flag =? FORWARD) || f_same f); destruct ro; pieces.
  - destruct ((flag =? BACKWARD) && scaled && negb ro); pieces.
Qed.
Lemma lib_only3_eq flag b : agree n (lib_only_1d3 O T B L flag b) (only_1d_ffts3 O f P flag b).
Proof.
  unfold agree, lib_only_1d3, only_1d_ffts3. apply together_ext. destruct (lib_parts3 flag b) as (A1 & A2 & A3).
  repeat constructor; assumption.
Qed.
End Obj3.

Section Obj2.
Variables (esize : Z) (ar : areas) (n : nat) (st : settings) (N : Z * Z) (permute : Z) (ins outs : nat -> box2) (f : fft2).
Hypothesis Hr : ready2 esize ar n st N permute ins outs f.
Variable B : backend.

Lemma dims2 : 1 <= fst N < 2 ^ 31 /\ 1 <= snd N < 2 ^ 31.
Proof.
  pose proof (T_dims _ _ _ _ _ _ _ (ready_facts2 _ _ _ _ _ _ _ _ _ Hr)) as HD. destruct Hr as (_ & _ & HI & _).
  destruct N as [x z]. cbn in HD, HI |- *. unfold dim_ok, INT_MAX in *. lia.
Qed.

Lemma made2_ok r : exists qf qs t, made2 cexp B f r = Some (qf, qs, t) /\
  set_up cexp B t qf (fst N) (nj2 (t_fast f r)) /\ set_up cexp B t qs (snd N) (ni2 (t_slow f r)) /\
  exists t', lib_dealloc2 B N (qf, qs) t = Some (tt, t') /\ length t' = length t /\ freed t'.
Proof.
  unfold made2. rewrite (T_N _ _ _ _ _ _ _ (ready_facts2 _ _ _ _ _ _ _ _ _ Hr)). pose proof dims2 as (D1 & D2).
  destruct N as [x z]. cbn [fst snd] in *. apply (setup2_ok O cexp B x z); assumption.
Qed.

Variable P : @plans2 F.
Hypothesis HP : setup_ffts2 cexp N = Some P.
Variable L : nat -> fft1 * fft1 * @table F.
Hypothesis HL : forall r, (r < n)%nat -> made2 cexp B f r = Some (L r).
Hypothesis HM : B = MKL -> has_lines2 f.

Lemma lib_parts2 flag b :
  agree n (lib_fast2 O T B L flag b) (ffts_fast2 O f P flag b) /\ agree n (lib_slow2 O T B L flag b) (ffts_slow2 O f P flag b).
Proof.
  pose proof (ready_facts2 _ _ _ _ _ _ _ _ _ Hr) as FA.
  pose proof (T_N _ _ _ _ _ _ _ FA) as EN. pose proof (T_n _ _ _ _ _ _ _ FA) as En.
  pose proof dims2 as (D1 & D2).
  assert (LO : forall r, (r < n)%nat -> legal2 (outs r)) by apply Hr.
  assert (HPl : plan_for cexp (fst N) (negb (flag =? FORWARD)) (if flag =? FORWARD then pt_ff P else pt_fb P) /\
    plan_for cexp (snd N) (negb (flag =? FORWARD)) (if flag =? FORWARD then pt_sf P else pt_sb P)).
  { pose proof (setup_ffts2_ok O cexp N) as H. destruct N as [x z]. cbn [fst snd] in *.
    destruct (H D1 D2) as (P' & E & H1 & H2 & H3 & H4). assert (P' = P) by congruence. subst P'.
    destruct (flag =? FORWARD); cbn [negb]; auto. }
  destruct HPl as (P1 & P2).
  split; intros r Hrn;
    destruct (made2_ok r) as (qf & qs & t & E & S1 & S2 & _);
    assert (EL : L r = (qf, qs, t)) by (pose proof (HL r Hrn); congruence);
    assert (HM' : B = MKL -> 1 <= nj2 (t_fast f r) /\ 1 <= ni2 (t_slow f r))
      by (intros EB; apply (HM EB); rewrite En; exact Hrn).
  - unfold lib_fast2, ffts_fast2. rewrite EL, EN. do 3 f_equal. apply functional_extensionality. intros data.
    destruct (T_fast_legal _ _ _ _ _ _ _ FA r Hrn) as (G1 & G2).
    apply (perform_eq O cexp T HT B t qf (fst N) (nj2 (t_fast f r))); auto. intros EB; apply (HM' EB).
  - unfold lib_slow2, ffts_slow2. rewrite EL, EN. do 3 f_equal. apply functional_extensionality. intros data.
    destruct (T_slow_legal _ _ _ _ _ _ _ FA LO r Hrn) as (G1 & G2).
    apply (perform_eq O cexp T HT B t qs (snd N) (ni2 (t_slow f r))); auto. intros EB; apply (HM' EB).
Qed.

Lemma lib_scal2 b : agree n (lib_scaling2 O rnorm B f b) (scaling2 O rnorm f b).
Proof. intros r _. unfold lib_scaling2, scaling2. do 2 f_equal. apply functional_extensionality. intros m. apply scale_eq. Qed.

Ltac pieces := repeat first [apply Forall2_app | apply agree_refl | apply Forall2_cons; [|apply Forall2_nil] | apply Forall2_nil | assumption].

Lemma lib_compute2_eq scaled ro flag bi bo :
  agree n (lib_compute2 O T rnorm B esize f L scaled ro flag bi bo) (compute2 O rnorm esize f P scaled ro flag bi bo).
Proof.
  unfold agree, lib_compute2, compute2. apply together_ext.
  unfold lib_pieces2, pieces_compute2. destruct (lib_parts2 flag bo) as (A1 & A2). pose proof (lib_scal2 bo) as A4.
  change (fun p q : nat -> list (@instr F) => forall r : nat, (r < n)%nat -> p r = q r) with (agree n).
  apply Forall2_app.
  - destruct ((flag =? FORWARD) || t_same f); destruct ro; pieces.
  - destruct ((flag =? BACKWARD) && scaled && negb ro); pieces.
Qed.
Lemma lib_only2_eq flag b : agree n (lib_only_1d2 O T B L flag b) (only_1d_ffts2 O f P flag b).
Proof.
  unfold agree, lib_only_1d2, only_1d_ffts2. apply together_ext. destruct (lib_parts2 flag b) as (A1 & A2).
  repeat constructor; assumption.
Qed.
End Obj2.
End Whole.
