(** TestIntProofs.v : when the test programs' own int arithmetic is that of unbounded integers (C83). *)

From Verif Require Import Base Spec Layout Wrap Overflow OverflowProofs Setup3d Setup3dProofs Setup2d Setup2dProofs TestProg Ops TestInt.
Local Open Scope Z_scope.

(** ** specification: the box of a rank, in a grid, is small enough *)
Definition box32_3 (N : Z * Z * Z) (b : box3) : Prop :=
  inside3 N b /\ (let '(x, y, z) := N in x <= INT_MAX /\ y <= INT_MAX /\ z <= INT_MAX) /\ ni b * nj b <= INT_MAX /\ 2 * psize3 b <= INT_MAX.
Definition box32_2 (N : Z * Z) (b : box2) : Prop :=
  inside2 N b /\ (let '(x, y) := N in x <= INT_MAX /\ y <= INT_MAX) /\ 2 * psize2 b <= INT_MAX.
(** the values of -i index: kglobal + jglobal + iglobal + 1 *)
Definition index_fits3 (iflag : init) (N : Z * Z * Z) : Prop := iflag = INDEX -> let '(x, y, z) := N in x + y + z - 2 <= INT_MAX.
Definition index_fits2 (iflag : init) (N : Z * Z) : Prop := iflag = INDEX -> let '(x, y) := N in x + y - 1 <= INT_MAX.

(** ** proofs *)
Lemma IMX32 : INT_MAX = 2147483647. Proof. reflexivity. Qed.
Lemma IMN32 : INT_MIN = -2147483648. Proof. reflexivity. Qed.
Lemma ev_lit z : int_ok z -> ev #z = Some z.
Proof. intros H. cbn [ev]. unfold chk. rewrite (proj2 (int_okb_spec z) H). reflexivity. Qed.
Lemma ev_add a b x y : ev a = Some x -> ev b = Some y -> int_ok (x + y) -> ev (a + b)%I = Some (x + y).
Proof. intros A B H. cbn [ev]. rewrite A, B. cbn [bind]. unfold chk. rewrite (proj2 (int_okb_spec _) H). reflexivity. Qed.
Lemma ev_sub a b x y : ev a = Some x -> ev b = Some y -> int_ok (x - y) -> ev (a - b)%I = Some (x - y).
Proof. intros A B H. cbn [ev]. rewrite A, B. cbn [bind]. unfold chk. rewrite (proj2 (int_okb_spec _) H). reflexivity. Qed.
Lemma ev_mul a b x y : ev a = Some x -> ev b = Some y -> int_ok (x * y) -> ev (a * b)%I = Some (x * y).
Proof. intros A B H. cbn [ev]. rewrite A, B. cbn [bind]. unfold chk. rewrite (proj2 (int_okb_spec _) H). reflexivity. Qed.
Lemma ev_quo a b x y : ev a = Some x -> ev b = Some y -> y <> 0 -> int_ok (Z.quot x y) -> ev (a / b)%I = Some (Z.quot x y).
Proof. intros A B Hy H. cbn [ev]. rewrite A, B. cbn [bind]. apply Z.eqb_neq in Hy. rewrite Hy. unfold chk. rewrite (proj2 (int_okb_spec _) H). reflexivity. Qed.
Lemma ev_rem a b x y : ev a = Some x -> ev b = Some y -> y <> 0 -> int_ok (Z.rem x y) -> ev (Rem a b) = Some (Z.rem x y).
Proof. intros A B Hy H. cbn [ev]. rewrite A, B. cbn [bind]. apply Z.eqb_neq in Hy. rewrite Hy. unfold chk. rewrite (proj2 (int_okb_spec _) H). reflexivity. Qed.

Ltac ok := unfold int_ok; rewrite IMX32, IMN32 in *; try lia.
Lemma ext_ev lo hi : 0 <= hi - lo + 1 -> 0 <= lo -> hi < INT_MAX -> ev (#hi - #lo + #1)%I = Some (hi - lo + 1).
Proof. intros A B C. apply ev_add; [apply ev_sub; [apply ev_lit; ok|apply ev_lit; ok|ok]|apply ev_lit; ok|ok]. Qed.
Lemma nfft_ev3 N b : box32_3 N b -> nfft32_3 b = Some (psize3 b).
Proof.
  destruct N as [[x y] z]. unfold box32_3, inside3, legal3, psize3. intros ((L & I1 & I2 & I3 & I4 & I5 & I6) & (X & Y & Z1) & P & Q). unfold nfft32_3.
  unfold ni, nj, nk in *. assert (0 <= (ihi b - ilo b + 1) * (jhi b - jlo b + 1)) by nia.
  apply ev_mul; [apply ev_mul; [apply ext_ev; lia|apply ext_ev; lia|ok]|apply ext_ev; lia|].
  assert (0 <= (ihi b - ilo b + 1) * (jhi b - jlo b + 1) * (khi b - klo b + 1)) by nia. ok.
Qed.
Lemma nfft_ev2 N b : box32_2 N b -> nfft32_2 b = Some (psize2 b).
Proof.
  destruct N as [x y]. unfold box32_2, inside2, legal2, psize2. intros ((L & I1 & I2 & I3 & I4) & (X & Y) & Q). unfold nfft32_2.
  unfold ni2, nj2 in *. assert (0 <= (ihi2 b - ilo2 b + 1) * (jhi2 b - jlo2 b + 1)) by nia.
  apply ev_mul; [apply ext_ev; lia|apply ext_ev; lia|ok].
Qed.
Lemma twice_ev p : 0 <= p -> 2 * p <= INT_MAX -> ev (#2 * #p)%I = Some (2 * p).
Proof. intros A B. apply ev_mul; [apply ev_lit; ok|apply ev_lit; ok|ok]. Qed.
Lemma twice1_ev m p : 0 <= m < p -> 2 * p <= INT_MAX -> ev (#2 * #m + #1)%I = Some (2 * m + 1).
Proof. intros A B. apply ev_add; [apply twice_ev; lia|apply ev_lit; ok|ok]. Qed.

Lemma quot_range a b : 0 <= a -> 0 < b -> 0 <= Z.quot a b <= a.
Proof. intros A B. rewrite Z.quot_div_nonneg by lia. split; [apply Z.div_pos; lia|]. apply Z.div_le_upper_bound; nia. Qed.
Lemma rem_range a b : 0 <= a -> 0 < b -> 0 <= Z.rem a b < b.
Proof. intros A B. rewrite Z.rem_mod_nonneg by lia. apply Z.mod_pos_bound, B. Qed.

Lemma at_ev3 N b m : box32_3 N b -> 0 <= m < psize3 b -> at3_32 b (ni b) (nj b) m = at3 b m /\
  exists i j k, at3 b m = Some (i, j, k) /\ (let '(x, y, z) := N in 0 <= i < x /\ 0 <= j < y /\ 0 <= k < z).
Proof.
  destruct N as [[x y] z]. unfold box32_3, inside3, legal3. intros ((L & I1 & I2 & I3 & I4 & I5 & I6) & (X & Y & Z1) & P & Q) Hm.
  assert (Hi : 0 < ni b) by (unfold psize3 in Hm; nia). assert (Hj : 0 < nj b) by (unfold psize3 in Hm; nia). assert (Hk : 0 < nk b) by (unfold psize3 in Hm; nia).
  pose proof (rem_range m (ni b) ltac:(lia) Hi) as R1. pose proof (quot_range m (ni b) ltac:(lia) Hi) as Q1.
  pose proof (rem_range (Z.quot m (ni b)) (nj b) ltac:(lia) Hj) as R2.
  assert (Hp : 0 < ni b * nj b) by nia. pose proof (quot_range m (ni b * nj b) ltac:(lia) Hp) as Q2.
  assert (Q3 : Z.quot m (ni b * nj b) < nk b) by (rewrite Z.quot_div_nonneg by lia; apply Z.div_lt_upper_bound; [lia|]; unfold psize3 in Hm; lia).
  assert (E : at3 b m = Some (ilo b + Z.rem m (ni b), jlo b + Z.rem (Z.quot m (ni b)) (nj b), klo b + Z.quot m (ni b * nj b))).
  { unfold at3, cmod, cdiv. rewrite (proj2 (Z.eqb_neq (ni b) 0)), (proj2 (Z.eqb_neq (nj b) 0)), (proj2 (Z.eqb_neq (ni b * nj b) 0)) by lia. reflexivity. }
  assert (M : m <= INT_MAX) by lia.
  assert (U : ilo b + ni b <= INT_MAX /\ jlo b + nj b <= INT_MAX /\ klo b + nk b <= INT_MAX) by (unfold ni, nj, nk; lia). destruct U as (U1 & U2 & U3).
  split.
  - rewrite E. unfold at3_32.
    rewrite (ev_rem _ _ m (ni b)); [cbn [bind]|apply ev_lit; ok|apply ev_lit; ok|lia|ok].
    rewrite (ev_rem _ _ (Z.quot m (ni b)) (nj b)); [cbn [bind]|apply ev_quo; [apply ev_lit; ok|apply ev_lit; ok|lia|ok]|apply ev_lit; ok|lia|ok].
    rewrite (ev_quo _ _ m (ni b * nj b)); [cbn [bind]|apply ev_lit; ok|apply ev_mul; [apply ev_lit; ok|apply ev_lit; ok|ok]|lia|ok].
    rewrite (ev_add _ _ (ilo b) (Z.rem m (ni b))); [cbn [bind]|apply ev_lit; ok|apply ev_lit; ok|ok].
    rewrite (ev_add _ _ (jlo b) (Z.rem (Z.quot m (ni b)) (nj b))); [cbn [bind]|apply ev_lit; ok|apply ev_lit; ok|ok].
    rewrite (ev_add _ _ (klo b) (Z.quot m (ni b * nj b))); [cbn [bind]|apply ev_lit; ok|apply ev_lit; ok|ok]. reflexivity.
  - do 3 eexists. split; [exact E|]. unfold ni, nj, nk in *. lia.
Qed.
Lemma at_ev2 N b m : box32_2 N b -> 0 <= m < psize2 b -> at2_32 b (ni2 b) m = at2 b m /\
  exists i j, at2 b m = Some (i, j) /\ (let '(x, y) := N in 0 <= i < x /\ 0 <= j < y).
Proof.
  destruct N as [x y]. unfold box32_2, inside2, legal2. intros ((L & I1 & I2 & I3 & I4) & (X & Y) & Q) Hm.
  assert (Hi : 0 < ni2 b) by (unfold psize2 in Hm; nia). assert (Hj : 0 < nj2 b) by (unfold psize2 in Hm; nia).
  pose proof (rem_range m (ni2 b) ltac:(lia) Hi) as R1. pose proof (quot_range m (ni2 b) ltac:(lia) Hi) as Q1.
  assert (Q3 : Z.quot m (ni2 b) < nj2 b) by (rewrite Z.quot_div_nonneg by lia; apply Z.div_lt_upper_bound; [lia|]; unfold psize2 in Hm; lia).
  assert (E : at2 b m = Some (ilo2 b + Z.rem m (ni2 b), jlo2 b + Z.quot m (ni2 b))).
  { unfold at2, cmod, cdiv. rewrite (proj2 (Z.eqb_neq (ni2 b) 0)) by lia. reflexivity. }
  assert (M : m <= INT_MAX) by lia.
  assert (U : ilo2 b + ni2 b <= INT_MAX /\ jlo2 b + nj2 b <= INT_MAX) by (unfold ni2, nj2; lia). destruct U as (U1 & U2).
  split.
  - rewrite E. unfold at2_32.
    rewrite (ev_rem _ _ m (ni2 b)); [cbn [bind]|apply ev_lit; ok|apply ev_lit; ok|lia|ok].
    rewrite (ev_quo _ _ m (ni2 b)); [cbn [bind]|apply ev_lit; ok|apply ev_lit; ok|lia|ok].
    rewrite (ev_add _ _ (ilo2 b) (Z.rem m (ni2 b))); [cbn [bind]|apply ev_lit; ok|apply ev_lit; ok|ok].
    rewrite (ev_add _ _ (jlo2 b) (Z.quot m (ni2 b))); [cbn [bind]|apply ev_lit; ok|apply ev_lit; ok|ok]. reflexivity.
  - do 2 eexists. split; [exact E|]. unfold ni2, nj2 in *. lia.
Qed.

Lemma half_ev x : 0 <= x <= INT_MAX -> ev (#x / #2)%I = Some (Z.quot x 2).
Proof. intros H. pose proof (quot_range x 2 ltac:(lia) ltac:(lia)). apply ev_quo; [apply ev_lit; ok|apply ev_lit; ok|lia|ok]. Qed.
Lemma step_ev3 N p : (let '(x, y, z) := N in 0 <= x <= INT_MAX /\ 0 <= y <= INT_MAX /\ 0 <= z <= INT_MAX) -> step3_32 N p = Some (stepval3 N p).
Proof. destruct N as [[x y] z], p as [[i j] k]. intros (A & B & C). unfold step3_32, stepval3. rewrite !half_ev by lia. reflexivity. Qed.
Lemma step_ev2 N p : (let '(x, y) := N in 0 <= x <= INT_MAX /\ 0 <= y <= INT_MAX) -> step2_32 N p = Some (stepval2 N p).
Proof. destruct N as [x y], p as [i j]. intros (A & B). unfold step2_32, stepval2. rewrite !half_ev by lia. reflexivity. Qed.
Lemma index_ev3 N p : (let '(x, y, z) := N in let '(i, j, k) := p in 0 <= i < x /\ 0 <= j < y /\ 0 <= k < z /\ x + y + z - 2 <= INT_MAX) -> index3_32 p = Some (indexval3 p).
Proof.
  destruct N as [[x y] z], p as [[i j] k]. intros (A & B & C & D). unfold index3_32, indexval3.
  apply ev_add; [apply ev_add; [apply ev_add; [apply ev_lit; ok|apply ev_lit; ok|ok]|apply ev_lit; ok|ok]|apply ev_lit; ok|ok].
Qed.
Lemma index_ev2 N p : (let '(x, y) := N in let '(i, j) := p in 0 <= i < x /\ 0 <= j < y /\ x + y - 1 <= INT_MAX) -> index2_32 p = Some (indexval2 p).
Proof.
  destruct N as [x y], p as [i j]. intros (A & B & D). unfold index2_32, indexval2.
  apply ev_add; [apply ev_add; [apply ev_lit; ok|apply ev_lit; ok|ok]|apply ev_lit; ok|ok].
Qed.

Lemma psize_nn3 b : legal3 b -> 0 <= psize3 b. Proof. unfold legal3, psize3. intros (A & B & C). apply Z.mul_nonneg_nonneg; [nia|lia]. Qed.
Lemma psize_nn2 b : legal2 b -> 0 <= psize2 b. Proof. unfold legal2, psize2. intros (A & B). nia. Qed.
Lemma inside_legal3 N b : inside3 N b -> legal3 b. Proof. destruct N as [[x y] z]. intros (A & _). exact A. Qed.
Lemma inside_legal2 N b : inside2 N b -> legal2 b. Proof. destruct N as [x y]. intros (A & _). exact A. Qed.

Lemma val_ev3 (iflag : init) N b m : iflag = STEP \/ iflag = INDEX -> box32_3 N b -> index_fits3 iflag N -> 0 <= m < psize3 b ->
  val3_32 (match iflag with STEP => true | _ => false end) N b (ni b) (nj b) m =
  (p <- at3 b m; Some (match iflag with STEP => stepval3 N p | _ => indexval3 p end)).
Proof.
  intros Hf Hb Hx Hm. destruct (at_ev3 N b m Hb Hm) as (E & i & j & k & E' & R). unfold val3_32. rewrite E, E'. cbn [bind].
  destruct N as [[x y] z]. destruct Hb as (_ & (X & Y & Z1) & _). destruct Hf as [-> | ->].
  - apply step_ev3. lia.
  - apply (index_ev3 (x, y, z)). specialize (Hx eq_refl). cbn beta iota in Hx. cbn beta iota in R. lia.
Qed.
Lemma val_ev2 (iflag : init) N b m : iflag = STEP \/ iflag = INDEX -> box32_2 N b -> index_fits2 iflag N -> 0 <= m < psize2 b ->
  val2_32 (match iflag with STEP => true | _ => false end) N b (ni2 b) m =
  (p <- at2 b m; Some (match iflag with STEP => stepval2 N p | _ => indexval2 p end)).
Proof.
  intros Hf Hb Hx Hm. destruct (at_ev2 N b m Hb Hm) as (E & i & j & E' & R). unfold val2_32. rewrite E, E'. cbn [bind].
  destruct N as [x y]. destruct Hb as (_ & (X & Y) & _). destruct Hf as [-> | ->].
  - apply step_ev2. lia.
  - apply (index_ev2 (x, y)). specialize (Hx eq_refl). cbn beta iota in Hx. cbn beta iota in R. lia.
Qed.

Section Same.
Context {F V D : Type}.
Variables (vz vr : Z -> V) (cv : V -> F) (dist : F -> V -> D) (gtb : D -> D -> bool) (zero : D).

Lemma fill_points_ev p (val val' : Z -> option Z) (work : list F) : 2 * p <= INT_MAX -> (forall m, 0 <= m < p -> val m = val' m) ->
  fill_points32 vz cv p val work = fill_points vz cv p val' work.
Proof.
  intros Hp H. unfold fill_points32, fill_points. apply for_ext. intros m w Hm. rewrite (H m Hm). apply bind_ext. intros v _.
  rewrite twice_ev by lia. cbn [bind]. apply bind_ext. intros w' _. rewrite (twice1_ev m p) by lia. reflexivity.
Qed.
Lemma check_points_ev p (val val' : Z -> option Z) (work : list F) : 2 * p <= INT_MAX -> (forall m, 0 <= m < p -> val m = val' m) ->
  check_points32 vz dist gtb zero p val work = check_points vz dist gtb zero p val' work.
Proof.
  intros Hp H. unfold check_points32, check_points. apply for_ext. intros m w Hm. rewrite (H m Hm). apply bind_ext. intros v _.
  rewrite twice_ev by lia. cbn [bind]. apply bind_ext. intros w' _. rewrite (twice1_ev m p) by lia. reflexivity.
Qed.

Theorem initialize_same3 iflag seed N b (work : list F) : box32_3 N b -> index_fits3 iflag N ->
  initialize3_32 vz vr cv iflag seed N b work = initialize3 vz vr cv iflag seed N b work.
Proof.
  intros Hb Hx. pose proof (psize_nn3 b (inside_legal3 N b (proj1 Hb))) as Hn. unfold initialize3_32, initialize3. rewrite (nfft_ev3 N b Hb). cbn [bind].
  assert (E1 : ev (#(ihi b) - #(ilo b) + #1)%I = Some (ni b)) by (destruct N as [[x y] z], Hb as ((L & I) & B & _); apply ext_ev; unfold legal3, ni in *; lia).
  assert (E2 : ev (#(jhi b) - #(jlo b) + #1)%I = Some (nj b)) by (destruct N as [[x y] z], Hb as ((L & I) & B & _); apply ext_ev; unfold legal3, nj in *; lia).
  destruct iflag.
  - unfold fill_zero32, fill_zero. rewrite twice_ev by (try apply Hb; assumption). reflexivity.
  - rewrite E1, E2. cbn [bind]. apply fill_points_ev; [apply Hb|]. intros m Hm. exact (val_ev3 STEP N b m (or_introl eq_refl) Hb Hx Hm).
  - rewrite E1, E2. cbn [bind]. apply fill_points_ev; [apply Hb|]. intros m Hm. exact (val_ev3 INDEX N b m (or_intror eq_refl) Hb Hx Hm).
  - unfold fill_random32, fill_random. rewrite twice_ev by (try apply Hb; assumption). reflexivity.
Qed.
Theorem validate_same3 iflag seed N b (work : list F) : box32_3 N b -> index_fits3 iflag N ->
  validate3_32 vz vr dist gtb zero iflag seed N b work = validate3 vz vr dist gtb zero iflag seed N b work.
Proof.
  intros Hb Hx. pose proof (psize_nn3 b (inside_legal3 N b (proj1 Hb))) as Hn. unfold validate3_32, validate3. rewrite (nfft_ev3 N b Hb). cbn [bind].
  assert (E1 : ev (#(ihi b) - #(ilo b) + #1)%I = Some (ni b)) by (destruct N as [[x y] z], Hb as ((L & I) & B & _); apply ext_ev; unfold legal3, ni in *; lia).
  assert (E2 : ev (#(jhi b) - #(jlo b) + #1)%I = Some (nj b)) by (destruct N as [[x y] z], Hb as ((L & I) & B & _); apply ext_ev; unfold legal3, nj in *; lia).
  destruct iflag.
  - unfold check_zero32, check_zero. rewrite twice_ev by (try apply Hb; assumption). reflexivity.
  - rewrite E1, E2. cbn [bind]. apply check_points_ev; [apply Hb|]. intros m Hm. exact (val_ev3 STEP N b m (or_introl eq_refl) Hb Hx Hm).
  - rewrite E1, E2. cbn [bind]. apply check_points_ev; [apply Hb|]. intros m Hm. exact (val_ev3 INDEX N b m (or_intror eq_refl) Hb Hx Hm).
  - unfold check_random32, check_random. rewrite twice_ev by (try apply Hb; assumption). reflexivity.
Qed.
Theorem initialize_same2 iflag seed N b (work : list F) : box32_2 N b -> index_fits2 iflag N ->
  initialize2_32 vz vr cv iflag seed N b work = initialize2 vz vr cv iflag seed N b work.
Proof.
  intros Hb Hx. pose proof (psize_nn2 b (inside_legal2 N b (proj1 Hb))) as Hn. unfold initialize2_32, initialize2. rewrite (nfft_ev2 N b Hb). cbn [bind].
  assert (E1 : ev (#(ihi2 b) - #(ilo2 b) + #1)%I = Some (ni2 b)) by (destruct N as [x y], Hb as ((L & I) & B & _); apply ext_ev; unfold legal2, ni2 in *; lia).
  destruct iflag.
  - unfold fill_zero32, fill_zero. rewrite twice_ev by (try apply Hb; assumption). reflexivity.
  - rewrite E1. cbn [bind]. apply fill_points_ev; [apply Hb|]. intros m Hm. exact (val_ev2 STEP N b m (or_introl eq_refl) Hb Hx Hm).
  - rewrite E1. cbn [bind]. apply fill_points_ev; [apply Hb|]. intros m Hm. exact (val_ev2 INDEX N b m (or_intror eq_refl) Hb Hx Hm).
  - unfold fill_random32, fill_random. rewrite twice_ev by (try apply Hb; assumption). reflexivity.
Qed.
Theorem validate_same2 iflag seed N b (work : list F) : box32_2 N b -> index_fits2 iflag N ->
  validate2_32 vz vr dist gtb zero iflag seed N b work = validate2 vz vr dist gtb zero iflag seed N b work.
Proof.
  intros Hb Hx. pose proof (psize_nn2 b (inside_legal2 N b (proj1 Hb))) as Hn. unfold validate2_32, validate2. rewrite (nfft_ev2 N b Hb). cbn [bind].
  assert (E1 : ev (#(ihi2 b) - #(ilo2 b) + #1)%I = Some (ni2 b)) by (destruct N as [x y], Hb as ((L & I) & B & _); apply ext_ev; unfold legal2, ni2 in *; lia).
  destruct iflag.
  - unfold check_zero32, check_zero. rewrite twice_ev by (try apply Hb; assumption). reflexivity.
  - rewrite E1. cbn [bind]. apply check_points_ev; [apply Hb|]. intros m Hm. exact (val_ev2 STEP N b m (or_introl eq_refl) Hb Hx Hm).
  - rewrite E1. cbn [bind]. apply check_points_ev; [apply Hb|]. intros m Hm. exact (val_ev2 INDEX N b m (or_intror eq_refl) Hb Hx Hm).
  - unfold check_random32, check_random. rewrite twice_ev by (try apply Hb; assumption). reflexivity.
Qed.
End Same.
Lemma clear_same3 {F} (z : F) N ins r (work : list F) : box32_3 N (ins r) -> clear3_32 z ins r work = clear3 z ins r work.
Proof.
  intros Hb. pose proof (psize_nn3 _ (inside_legal3 N _ (proj1 Hb))) as Hn. unfold clear3_32, clear3. rewrite (nfft_ev3 N _ Hb). cbn [bind].
  rewrite twice_ev by (try apply Hb; assumption). reflexivity.
Qed.
Lemma clear_same2 {F} (z : F) N ins r (work : list F) : box32_2 N (ins r) -> clear2_32 z ins r work = clear2 z ins r work.
Proof.
  intros Hb. pose proof (psize_nn2 _ (inside_legal2 N _ (proj1 Hb))) as Hn. unfold clear2_32, clear2. rewrite (nfft_ev2 N _ Hb). cbn [bind].
  rewrite twice_ev by (try apply Hb; assumption). reflexivity.
Qed.
