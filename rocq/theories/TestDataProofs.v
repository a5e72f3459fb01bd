(** TestDataProofs.v : the random numbers, the contents of the work array, and the
    maximum deviation found by the test programs. *)

From Coq Require Import Reals Lra.
From Verif Require Import Base Spec Sched Layout Setup3d Setup2d RemapInst TestProg TestLayProofs.
Local Open Scope Z_scope.

(** ** random numbers *)

(** the multiplicative generator of Park and Miller, k steps from the seed *)
Definition lehmer (k seed : Z) : Z := (16807 ^ k * seed) mod (2 ^ 31 - 1).

Lemma c32_ok z : - 2 ^ 31 <= z <= 2 ^ 31 - 1 -> c32 z = Some z.
Proof. intros H. unfold c32. destruct (Z.leb_spec (- 2 ^ 31) z), (Z.leb_spec z (2 ^ 31 - 1)); try lia. reflexivity. Qed.

Theorem random_spec seed : 0 <= seed <= IM -> random seed = Some ((16807 * seed) mod (2 ^ 31 - 1)).
Proof.
  unfold IM, random. intros H. rewrite cdiv_pos by (unfold IQ; lia). cbn [bind]. unfold IQ, IA, IR, IM.
  pose proof (Z.div_mod seed 127773 ltac:(lia)) as D. pose proof (Z.mod_pos_bound seed 127773 ltac:(lia)) as B.
  set (q := seed / 127773) in *. set (m := seed mod 127773) in *. clearbody q m.
  assert (Q : 0 <= q <= 16807) by lia.
  rewrite (c32_ok (q * 127773)) by lia. cbn [bind]. rewrite (c32_ok (seed - q * 127773)) by lia. cbn [bind].
  rewrite (c32_ok (16807 * (seed - q * 127773))) by lia. cbn [bind]. rewrite (c32_ok (2836 * q)) by lia. cbn [bind].
  rewrite (c32_ok (16807 * (seed - q * 127773) - 2836 * q)) by lia. cbn [bind].
  assert (E : 16807 * seed = q * (2 ^ 31 - 1) + (16807 * (seed - q * 127773) - 2836 * q)) by lia.
  set (s := 16807 * (seed - q * 127773) - 2836 * q) in *.
  assert (Bs : - 2836 * 16807 <= s < 2 ^ 31 - 1) by (unfold s; lia).
  destruct (Z.ltb_spec s 0).
  - rewrite c32_ok by lia. f_equal. apply Z.mod_unique with (q - 1); lia.
  - f_equal. apply Z.mod_unique with q; lia.
Qed.

(** a number between 1 and 2^31-2 is never mapped to 0: 16807 has an inverse *)
Lemma mul_nonzero s : 1 <= s <= IM - 1 -> (16807 * s) mod (2 ^ 31 - 1) <> 0.
Proof.
  unfold IM. intros H E. apply Z.mod_divide in E; [|lia]. destruct E as (k & E).
  assert (D : (2 ^ 31 - 1 | s)).
  { exists (1407677000 * k - 11017 * s). assert (G : 16807 * 1407677000 = 11017 * (2 ^ 31 - 1) + 1) by reflexivity. lia. }
  apply Z.divide_pos_le in D; lia.
Qed.

Lemma lehmer_0 seed : 1 <= seed <= IM - 1 -> lehmer 0 seed = seed.
Proof. unfold IM, lehmer. intros. rewrite Z.pow_0_r, Z.mul_1_l. apply Z.mod_small. lia. Qed.
Lemma lehmer_S k seed : 0 <= k -> lehmer (k + 1) seed = (16807 * lehmer k seed) mod (2 ^ 31 - 1).
Proof.
  intros. unfold lehmer. rewrite Z.pow_add_r, Z.pow_1_r by lia.
  rewrite <- Z.mul_assoc, (Z.mul_comm 16807 seed), Z.mul_assoc, (Z.mul_comm (_ * seed)). rewrite Z.mul_mod_idemp_r by lia. reflexivity.
Qed.
Lemma lehmer_range seed : 1 <= seed <= IM - 1 -> forall k, 0 <= k -> 1 <= lehmer k seed <= IM - 1.
Proof.
  intros H. apply natlike_ind.
  - rewrite lehmer_0; assumption.
  - intros k Hk IH. unfold Z.succ. rewrite lehmer_S by exact Hk. pose proof (mul_nonzero _ IH).
    pose proof (Z.mod_pos_bound (16807 * lehmer k seed) (2 ^ 31 - 1) ltac:(lia)). unfold IM in *. lia.
Qed.
Lemma random_lehmer k seed : 1 <= seed <= IM - 1 -> 0 <= k -> random (lehmer k seed) = Some (lehmer (k + 1) seed).
Proof. intros H Hk. rewrite lehmer_S by exact Hk. apply random_spec. pose proof (lehmer_range seed H k Hk). lia. Qed.

(** the seed 2^31-1, which options() accepts, gives only zeros *)
Lemma random_IM : random IM = Some 0 /\ random 0 = Some 0.
Proof. split; vm_compute; reflexivity. Qed.

(** *** no repetition: 16807 has order 2^31-2 modulo 2^31-1 *)
Fixpoint powmod (a : Z) (e : positive) : Z :=
  match e with
  | xH => a mod (2 ^ 31 - 1)
  | xO e => let r := powmod a e in (r * r) mod (2 ^ 31 - 1)
  | xI e => let r := powmod a e in ((r * r) mod (2 ^ 31 - 1) * a) mod (2 ^ 31 - 1)
  end.
Lemma powmod_ok a e : powmod a e = a ^ Zpos e mod (2 ^ 31 - 1).
Proof.
  induction e as [e IH|e IH|]; cbn [powmod].
  - rewrite IH. rewrite <- Z.mul_mod by lia. rewrite Z.mul_mod_idemp_l by lia. f_equal.
    replace (Zpos (xI e)) with (Zpos e + Zpos e + 1) by lia. rewrite !Z.pow_add_r, Z.pow_1_r by lia. reflexivity.
  - rewrite IH. rewrite <- Z.mul_mod by lia. f_equal.
    replace (Zpos (xO e)) with (Zpos e + Zpos e) by lia. rewrite !Z.pow_add_r by lia. reflexivity.
  - rewrite Z.pow_1_r. reflexivity.
Qed.
Definition ord1 (e : Z) : Prop := 16807 ^ e mod (2 ^ 31 - 1) = 1.
Lemma ord1_mul e k : 0 <= e -> 0 <= k -> ord1 e -> ord1 (e * k).
Proof.
  unfold ord1. intros He Hk H. rewrite Z.pow_mul_r by lia. revert k Hk. apply natlike_ind; [reflexivity|].
  intros k Hk IH. rewrite Z.pow_succ_r, Z.mul_mod, H, IH by lia. reflexivity.
Qed.
Lemma ord1_sub a b : 0 <= b <= a -> ord1 a -> ord1 b -> ord1 (a - b).
Proof.
  unfold ord1. intros H Ha Hb. replace a with (b + (a - b)) in Ha by lia. rewrite Z.pow_add_r, Z.mul_mod, Hb, Z.mul_1_l, Z.mod_mod in Ha by lia. exact Ha.
Qed.
Lemma ord1_gcd : forall n a b, 0 <= a -> 0 <= b -> a + b <= Z.of_nat n -> ord1 a -> ord1 b -> ord1 (Z.gcd a b).
Proof.
  induction n as [|n IH]; intros a b Ha Hb Hn H1 H2.
  - replace a with 0 by lia. rewrite Z.gcd_0_l, Z.abs_eq by lia. exact H2.
  - destruct (Z.eq_dec a 0) as [-> | Na]; [rewrite Z.gcd_0_l, Z.abs_eq by lia; exact H2|].
    destruct (Z.eq_dec b 0) as [-> | Nb]; [rewrite Z.gcd_0_r, Z.abs_eq by lia; exact H1|].
    destruct (Z.le_ge_cases b a).
    + rewrite Z.gcd_comm, <- Z.gcd_sub_diag_r. apply IH; try lia; auto. apply ord1_sub; auto; lia.
    + rewrite <- Z.gcd_sub_diag_r. apply IH; try lia; auto. apply ord1_sub; auto; lia.
Qed.

Lemma coprime_or p : 2 <= p -> forallb (fun r => Z.gcd r p =? 1) (zseq 1 (Z.to_nat (p - 1))) = true ->
  forall c, (p | c) \/ Z.gcd c p = 1.
Proof.
  intros Hp H c. destruct (Z.eq_dec (c mod p) 0) as [E|E]; [left; apply Z.mod_divide; lia|]. right.
  rewrite Z.gcd_comm, <- Z.gcd_mod by lia. apply Z.eqb_eq. rewrite forallb_forall in H. apply H.
  apply In_zseq. pose proof (Z.mod_pos_bound c p ltac:(lia)). lia.
Qed.
Lemma drop_factor p c m : (p | c) \/ Z.gcd c p = 1 -> ~ (p | c) -> (c | p * m) -> (c | m).
Proof. intros [H|H] Hn Hd; [contradiction|]. apply Z.gauss with p; assumption. Qed.

Lemma order_exact d : 0 < d < 2 ^ 31 - 2 -> ~ ord1 d.
Proof.
  intros Hd H1.
  assert (H0 : ord1 (2 ^ 31 - 2)) by (unfold ord1; change (2 ^ 31 - 2) with (Zpos 2147483646); rewrite <- powmod_ok; vm_compute; reflexivity).
  pose proof (ord1_gcd (Z.to_nat (d + (2 ^ 31 - 2))) d (2 ^ 31 - 2) ltac:(lia) ltac:(lia) ltac:(lia) H1 H0) as HG.
  pose proof (Z.gcd_divide_l d (2 ^ 31 - 2)) as Gl. destruct (Z.gcd_divide_r d (2 ^ 31 - 2)) as (c & Ec).
  assert (Hg : 0 < Z.gcd d (2 ^ 31 - 2) <= d).
  { split; [|apply Z.divide_pos_le; [lia|exact Gl]]. pose proof (Z.gcd_nonneg d (2 ^ 31 - 2)).
    destruct (Z.eq_dec (Z.gcd d (2 ^ 31 - 2)) 0) as [E|E]; [apply Z.gcd_eq_0_l in E; lia|lia]. }
  set (g := Z.gcd d (2 ^ 31 - 2)) in *. clearbody g.
  assert (Hc : 1 < c) by nia.
  assert (No : forall p m, 0 < p -> 2 ^ 31 - 2 = p * m -> 16807 ^ m mod (2 ^ 31 - 1) <> 1 -> ~ (p | c)).
  { intros p m Hp E Hm (k & ->). apply Hm. assert (E' : m = g * k) by nia. rewrite E'. apply ord1_mul; [lia| |exact HG]. nia. }
  assert (D : (c | 2 * (3 * (3 * (7 * (11 * (31 * (151 * (331 * 1))))))))).
  { exists g. change (2 * (3 * (3 * (7 * (11 * (31 * (151 * (331 * 1)))))))) with (2 ^ 31 - 2). lia. }
  assert (P2 : ~ (2 | c)). { apply (No 2 (Zpos 1073741823)); [lia|reflexivity|]. rewrite <- powmod_ok. vm_compute. discriminate. }
  assert (P3 : ~ (3 | c)). { apply (No 3 (Zpos 715827882)); [lia|reflexivity|]. rewrite <- powmod_ok. vm_compute. discriminate. }
  assert (P7 : ~ (7 | c)). { apply (No 7 (Zpos 306783378)); [lia|reflexivity|]. rewrite <- powmod_ok. vm_compute. discriminate. }
  assert (P11 : ~ (11 | c)). { apply (No 11 (Zpos 195225786)); [lia|reflexivity|]. rewrite <- powmod_ok. vm_compute. discriminate. }
  assert (P31 : ~ (31 | c)). { apply (No 31 (Zpos 69273666)); [lia|reflexivity|]. rewrite <- powmod_ok. vm_compute. discriminate. }
  assert (P151 : ~ (151 | c)). { apply (No 151 (Zpos 14221746)); [lia|reflexivity|]. rewrite <- powmod_ok. vm_compute. discriminate. }
  assert (P331 : ~ (331 | c)). { apply (No 331 (Zpos 6487866)); [lia|reflexivity|]. rewrite <- powmod_ok. vm_compute. discriminate. }
  do 8 (apply drop_factor in D; [|apply coprime_or; [lia|vm_compute; reflexivity]|assumption]).
  apply Z.divide_pos_le in D; lia.
Qed.

(** 2^31-1 is prime: trial division *)
Lemma IM_prime d : 1 < d < 2 ^ 31 - 1 -> ~ (d | 2 ^ 31 - 1).
Proof.
  assert (T : forallb (fun d => negb ((2 ^ 31 - 1) mod d =? 0)) (zseq 2 (Z.to_nat 46340)) = true) by (vm_compute; reflexivity).
  rewrite forallb_forall in T.
  assert (S : forall d, 2 <= d <= 46341 -> ~ (d | 2 ^ 31 - 1)).
  { intros e He De. assert (I : In e (zseq 2 (Z.to_nat 46340))) by (apply In_zseq; lia). specialize (T e I). cbv beta in T.
    assert (M : (2 ^ 31 - 1) mod e = 0) by (apply Z.mod_divide; [lia|exact De]). rewrite M in T. discriminate T. }
  intros Hd (k & E). destruct (Z.le_gt_cases d 46341).
  - apply (S d); [lia|]. exists k. exact E.
  - assert (0 < k) by nia. assert (k < 46341) by nia. assert (k <> 1) by lia. apply (S k); [lia|]. exists d. lia.
Qed.
Lemma coprime_IM s : 1 <= s < 2 ^ 31 - 1 -> Z.gcd (2 ^ 31 - 1) s = 1.
Proof.
  intros H. pose proof (Z.gcd_nonneg (2 ^ 31 - 1) s). pose proof (Z.gcd_divide_l (2 ^ 31 - 1) s) as A. pose proof (Z.gcd_divide_r (2 ^ 31 - 1) s) as B.
  apply Z.divide_pos_le in B as B'; [|lia]. destruct (Z.eq_dec (Z.gcd (2 ^ 31 - 1) s) 0) as [E|E]; [apply Z.gcd_eq_0_l in E; lia|].
  destruct (Z.eq_dec (Z.gcd (2 ^ 31 - 1) s) 1) as [E1|E1]; [exact E1|]. exfalso. apply (IM_prime (Z.gcd (2 ^ 31 - 1) s)); [lia|exact A].
Qed.

Theorem lehmer_distinct seed i j : 1 <= seed <= IM - 1 -> 0 <= i < j -> j < i + (2 ^ 31 - 2) -> lehmer i seed <> lehmer j seed.
Proof.
  unfold IM. intros Hs Hij Hj E. apply (order_exact (j - i)); [lia|]. unfold ord1.
  pose proof (lehmer_range seed Hs i ltac:(lia)) as Hl. unfold IM in Hl.
  assert (E1 : lehmer j seed = (16807 ^ (j - i) * lehmer i seed) mod (2 ^ 31 - 1)).
  { unfold lehmer. rewrite Z.mul_mod_idemp_r by lia. rewrite Z.mul_assoc, <- Z.pow_add_r by lia. do 3 f_equal. lia. }
  set (x := lehmer i seed) in *. rewrite <- E in E1.
  assert (D : (2 ^ 31 - 1 | x * (16807 ^ (j - i) - 1))).
  { apply Z.mod_divide; [lia|]. replace (x * (16807 ^ (j - i) - 1)) with (16807 ^ (j - i) * x - x) by ring.
    rewrite Zminus_mod, <- E1, (Z.mod_small x) by lia. rewrite Z.sub_diag. reflexivity. }
  apply Z.gauss in D; [|apply coprime_IM; lia]. destruct D as (k & D).
  replace (16807 ^ (j - i)) with (1 + k * (2 ^ 31 - 1)) by lia. rewrite Z.mod_add by lia. reflexivity.
Qed.

(** ** filling the array *)
Lemma zrange_S k : 0 <= k -> zrange (k + 1) = zrange k ++ [k].
Proof. intros. unfold zrange. rewrite Z2Nat.inj_add by lia. change (Z.to_nat 1) with 1%nat. rewrite Nat.add_1_r, zseq_snoc. do 3 f_equal. lia. Qed.
Lemma psize3_nonneg b : legal3 b -> 0 <= psize3 b.
Proof. unfold legal3, psize3. intros. nia. Qed.
Lemma psize2_nonneg b : legal2 b -> 0 <= psize2 b.
Proof. unfold legal2, psize2. intros. nia. Qed.

(** the point stored at position m, and the value of cell i when point m has the value (val m, 0) *)
Definition pt_at3 (b : box3) (m : Z) : Z * Z * Z := (ilo b + m mod ni b, jlo b + (m / ni b) mod nj b, klo b + m / (ni b * nj b)).
Definition pt_at2 (b : box2) (m : Z) : Z * Z := (ilo2 b + m mod ni2 b, jlo2 b + m / ni2 b).
Definition pcell (val : Z -> Z) (i : Z) : Z := if Z.even i then val (i / 2) else 0.

Lemma at3_ok b m : legal3 b -> 0 <= m < psize3 b -> at3 b m = Some (pt_at3 b m).
Proof.
  unfold legal3, psize3, at3, pt_at3. intros (A & B & C) H. assert (1 <= ni b) by nia. assert (1 <= nj b) by nia.
  rewrite cmod_pos, !cdiv_pos by nia. cbn [bind]. rewrite cmod_pos by (try lia; apply Z.div_pos; lia). reflexivity.
Qed.
Lemma at2_ok b m : legal2 b -> 0 <= m < psize2 b -> at2 b m = Some (pt_at2 b m).
Proof.
  unfold legal2, psize2, at2, pt_at2. intros (A & B) H. assert (1 <= ni2 b) by nia.
  rewrite cmod_pos, !cdiv_pos by nia. reflexivity.
Qed.
Lemma pt_at3_pos b p : inb3 p b -> pt_at3 b (pos3 0 b p) = p.
Proof.
  destruct p as [[i j] k]. cbn [inb3]. intros (I & J & K). unfold pt_at3, pos3. cbn [Z.eqb].
  assert (A : 0 <= i - ilo b < ni b) by (unfold ni; lia). assert (B : 0 <= j - jlo b < nj b) by (unfold nj; lia).
  assert (C : 0 <= k - klo b) by lia. set (x := i - ilo b) in *. set (y := j - jlo b) in *. set (z := k - klo b) in *.
  rewrite <- (Z.div_div _ (ni b) (nj b)) by lia.
  assert (E1 : ((z * nj b + y) * ni b + x) / ni b = z * nj b + y) by (rewrite Z.add_comm, Z.div_add, Z.div_small by lia; lia).
  assert (E2 : ((z * nj b + y) * ni b + x) mod ni b = x) by (rewrite Z.add_comm, Z.mod_add, Z.mod_small by lia; lia).
  assert (E3 : (z * nj b + y) / nj b = z) by (rewrite Z.add_comm, Z.div_add, Z.div_small by lia; lia).
  assert (E4 : (z * nj b + y) mod nj b = y) by (rewrite Z.add_comm, Z.mod_add, Z.mod_small by lia; lia).
  rewrite E1, E2, E3, E4. unfold x, y, z. f_equal; [f_equal|]; lia.
Qed.
Lemma pt_at2_pos b p : inb2 p b -> pt_at2 b (pos2 0 b p) = p.
Proof.
  destruct p as [i j]. cbn [inb2]. intros (I & J). unfold pt_at2, pos2. cbn [Z.eqb].
  assert (A : 0 <= i - ilo2 b < ni2 b) by (unfold ni2; lia). assert (B : 0 <= j - jlo2 b) by lia.
  set (x := i - ilo2 b) in *. set (y := j - jlo2 b) in *.
  assert (E1 : (y * ni2 b + x) / ni2 b = y) by (rewrite Z.add_comm, Z.div_add, Z.div_small by lia; lia).
  assert (E2 : (y * ni2 b + x) mod ni2 b = x) by (rewrite Z.add_comm, Z.mod_add, Z.mod_small by lia; lia).
  rewrite E1, E2. unfold x, y. f_equal; lia.
Qed.
(** every cell of the array belongs to a point *)
Lemma pt_at3_in b m : legal3 b -> 0 <= m < psize3 b -> inb3 (pt_at3 b m) b /\ pos3 0 b (pt_at3 b m) = m.
Proof.
  unfold legal3, psize3, pt_at3. intros (A & B & C) H. assert (X : 1 <= ni b) by nia. assert (Y : 1 <= nj b) by nia.
  rewrite <- (Z.div_div m (ni b) (nj b)) by lia. cbn [inb3 pos3 Z.eqb].
  pose proof (Z.div_mod m (ni b) ltac:(lia)) as D1. pose proof (Z.mod_pos_bound m (ni b) ltac:(lia)) as B1.
  assert (Q : 0 <= m / ni b < nj b * nk b) by (split; [apply Z.div_pos; lia|apply Z.div_lt_upper_bound; lia]).
  set (q := m / ni b) in *. clearbody q.
  pose proof (Z.div_mod q (nj b) ltac:(lia)) as D2. pose proof (Z.mod_pos_bound q (nj b) ltac:(lia)) as B2.
  assert (Q2 : 0 <= q / nj b < nk b) by (split; [apply Z.div_pos; lia|apply Z.div_lt_upper_bound; lia]).
  set (w := q / nj b) in *. set (x := m mod ni b) in *. set (y := q mod nj b) in *. clearbody w x y.
  split; [unfold ni, nj, nk in *; lia|]. cbn. lia.
Qed.
Lemma pt_at2_in b m : legal2 b -> 0 <= m < psize2 b -> inb2 (pt_at2 b m) b /\ pos2 0 b (pt_at2 b m) = m.
Proof.
  unfold legal2, psize2, pt_at2. intros (A & B) H. assert (X : 1 <= ni2 b) by nia. cbn [inb2 pos2 Z.eqb].
  pose proof (Z.div_mod m (ni2 b) ltac:(lia)) as D1. pose proof (Z.mod_pos_bound m (ni2 b) ltac:(lia)) as B1.
  assert (Q : 0 <= m / ni2 b < nj2 b) by (split; [apply Z.div_pos; lia|apply Z.div_lt_upper_bound; lia]).
  set (q := m / ni2 b) in *. set (x := m mod ni2 b) in *. clearbody q x.
  split; [unfold ni2, nj2 in *; lia|]. cbn. lia.
Qed.
Lemma pcell_0 val m : pcell val (2 * m) = val m.
Proof. unfold pcell. rewrite Z.even_mul. cbn [Z.even orb]. f_equal. rewrite Z.mul_comm, Z.div_mul by lia. reflexivity. Qed.
Lemma pcell_1 val m : pcell val (2 * m + 1) = 0.
Proof. unfold pcell. rewrite Z.even_add, Z.even_mul. reflexivity. Qed.

Section Cells.
Context {F V D : Type}.
Variables (vz vr : Z -> V) (cv : V -> F) (dist : F -> V -> D) (gtb : D -> D -> bool) (zero : D).

Definition filled (k : Z) (cell : Z -> V) (w0 w : list F) : Prop :=
  zlen w = zlen w0 /\ (forall i, 0 <= i < k -> zget w i = Some (cv (cell i))) /\ (forall i, k <= i -> zget w i = zget w0 i).
Lemma filled_0 cell w0 : filled 0 cell w0 w0.
Proof. split; [reflexivity|]. split; [intros; lia|reflexivity]. Qed.
Lemma filled_S k cell w0 w v : 0 <= k < zlen w0 -> filled k cell w0 w -> v = cell k ->
  exists w', zset w k (cv v) = Some w' /\ filled (k + 1) cell w0 w'.
Proof.
  intros Hk (H1 & H2 & H3) ->. destruct (zset_Some w k (cv (cell k))) as (w' & E); [lia|]. exists w'. split; [exact E|].
  pose proof (zset_len _ _ _ _ E). split; [congruence|]. split.
  - intros i Hi. destruct (Z.eq_dec i k) as [-> | Hne]; [apply (zget_zset_same _ _ _ _ E)|].
    rewrite (zget_zset_other _ _ _ _ i E) by lia. apply H2. lia.
  - intros i Hi. rewrite (zget_zset_other _ _ _ _ i E) by lia. apply H3. lia.
Qed.
Lemma fill_zero_ok nfft w0 : 0 <= nfft -> 2 * nfft <= zlen w0 ->
  exists w, fill_zero vz cv nfft w0 = Some w /\ filled (2 * nfft) (fun _ => vz 0) w0 w.
Proof.
  intros Hn Hl. unfold fill_zero. apply (for_inv (fun m w => filled m (fun _ => vz 0) w0 w)); [lia|apply filled_0|].
  intros m w Hm Hw. apply filled_S; auto. lia.
Qed.
Lemma fill_points_ok nfft val pv w0 : 0 <= nfft -> 2 * nfft <= zlen w0 -> (forall m, 0 <= m < nfft -> val m = Some (pv m)) ->
  exists w, fill_points vz cv nfft val w0 = Some w /\ filled (2 * nfft) (fun i => vz (pcell pv i)) w0 w.
Proof.
  intros Hn Hl Hv. unfold fill_points. apply (for_inv (fun m w => filled (2 * m) (fun i => vz (pcell pv i)) w0 w)); [lia|apply filled_0|].
  intros m w Hm Hw. rewrite (Hv m Hm). cbn [bind].
  destruct (filled_S (2 * m) _ w0 w (vz (pv m)) ltac:(lia) Hw) as (w1 & E1 & H1); [cbv beta; rewrite pcell_0; reflexivity|]. rewrite E1. cbn [bind].
  destruct (filled_S (2 * m + 1) _ w0 w1 (vz 0) ltac:(lia) H1) as (w2 & E2 & H2); [cbv beta; rewrite pcell_1; reflexivity|].
  exists w2. split; [exact E2|]. replace (2 * (m + 1)) with (2 * m + 1 + 1) by lia. exact H2.
Qed.
Lemma fill_random_ok nfft seed w0 : 0 <= nfft -> 2 * nfft <= zlen w0 -> 1 <= seed <= IM - 1 ->
  exists w, fill_random vr cv nfft seed w0 = Some w /\ filled (2 * nfft) (fun i => vr (lehmer (i + 1) seed)) w0 w.
Proof.
  intros Hn Hl Hs. unfold fill_random.
  destruct (for_inv (fun m (s : list F * Z) => filled m (fun i => vr (lehmer (i + 1) seed)) w0 (fst s) /\ snd s = lehmer m seed)
    (2 * nfft) (fun m s => let '(w, seed) := s in seed <- random seed; w <- zset w m (cv (vr seed)); Some (w, seed)) (w0, seed)) as (s & E & H); [lia| | |].
  - split; [apply filled_0|]. cbn. symmetry. apply lehmer_0, Hs.
  - intros m (w, sd) Hm (H1 & H2). cbn [fst snd] in *. subst sd. rewrite random_lehmer by (assumption || lia). cbn [bind].
    destruct (filled_S m _ w0 w (vr (lehmer (m + 1) seed)) ltac:(lia) H1 eq_refl) as (w1 & E1 & H3). rewrite E1. cbn [bind].
    eexists. split; [reflexivity|]. split; [exact H3|reflexivity].
  - rewrite E. cbn [bind]. eexists. split; [reflexivity|]. apply H.
Qed.

(** the value of cell i of the array *)
Definition wanti3 (k : init) (seed : Z) (N : Z * Z * Z) (b : box3) (i : Z) : V :=
  match k with
  | ZERO => vz 0
  | STEP => vz (pcell (fun m => stepval3 N (pt_at3 b m)) i)
  | INDEX => vz (pcell (fun m => indexval3 (pt_at3 b m)) i)
  | RANDOM => vr (lehmer (i + 1) seed)
  end.
Definition wanti2 (k : init) (seed : Z) (N : Z * Z) (b : box2) (i : Z) : V :=
  match k with
  | ZERO => vz 0
  | STEP => vz (pcell (fun m => stepval2 N (pt_at2 b m)) i)
  | INDEX => vz (pcell (fun m => indexval2 (pt_at2 b m)) i)
  | RANDOM => vr (lehmer (i + 1) seed)
  end.
Definition seed_ok (k : init) (seed : Z) : Prop := k = RANDOM -> 1 <= seed <= IM - 1.
Theorem initialize3_ok k seed N b w0 : legal3 b -> 2 * psize3 b <= zlen w0 -> seed_ok k seed ->
  exists w, initialize3 vz vr cv k seed N b w0 = Some w /\ filled (2 * psize3 b) (wanti3 k seed N b) w0 w.
Proof.
  intros Hb Hl Hs. pose proof (psize3_nonneg b Hb). destruct k; cbn [initialize3 wanti3].
  - apply fill_zero_ok; assumption.
  - apply (fill_points_ok (psize3 b) _ (fun m => stepval3 N (pt_at3 b m))); auto. intros m Hm. rewrite at3_ok by assumption. reflexivity.
  - apply (fill_points_ok (psize3 b) _ (fun m => indexval3 (pt_at3 b m))); auto. intros m Hm. rewrite at3_ok by assumption. reflexivity.
  - apply fill_random_ok; auto.
Qed.
Theorem initialize2_ok k seed N b w0 : legal2 b -> 2 * psize2 b <= zlen w0 -> seed_ok k seed ->
  exists w, initialize2 vz vr cv k seed N b w0 = Some w /\ filled (2 * psize2 b) (wanti2 k seed N b) w0 w.
Proof.
  intros Hb Hl Hs. pose proof (psize2_nonneg b Hb). destruct k; cbn [initialize2 wanti2].
  - apply fill_zero_ok; assumption.
  - apply (fill_points_ok (psize2 b) _ (fun m => stepval2 N (pt_at2 b m))); auto. intros m Hm. rewrite at2_ok by assumption. reflexivity.
  - apply (fill_points_ok (psize2 b) _ (fun m => indexval2 (pt_at2 b m))); auto. intros m Hm. rewrite at2_ok by assumption. reflexivity.
  - apply fill_random_ok; auto.
Qed.

(** ** the largest deviation *)
Definition maxof (l : list D) : D := fold_left (fun e d => if gtb d e then d else e) l zero.
Definition dev (a : Z -> F) (cell : Z -> V) (k : Z) : D := maxof (map (fun i => dist (a i) (cell i)) (zrange k)).
Lemma dev_0 a cell : dev a cell 0 = zero.
Proof. reflexivity. Qed.
Lemma dev_S a cell k work v : 0 <= k -> zget work k = Some (a k) -> v = cell k -> worse dist gtb work k v (dev a cell k) = Some (dev a cell (k + 1)).
Proof.
  intros Hk Ha ->. unfold worse. rewrite Ha. cbn [bind]. unfold dev at 3. rewrite zrange_S, map_app by exact Hk.
  unfold maxof. rewrite fold_left_app. reflexivity.
Qed.
Definition reads (work : list F) (a : Z -> F) (k : Z) : Prop := forall i, 0 <= i < k -> zget work i = Some (a i).
Lemma check_zero_ok nfft work a : 0 <= nfft -> reads work a (2 * nfft) ->
  check_zero vz dist gtb zero nfft work = Some (dev a (fun _ => vz 0) (2 * nfft)).
Proof.
  intros Hn Ha. unfold check_zero.
  destruct (for_inv (fun m e => e = dev a (fun _ => vz 0) m) (2 * nfft) (fun m eps => worse dist gtb work m (vz 0) eps) zero) as (e & E & H); [lia|reflexivity| |].
  - intros m e Hm ->. eexists. split; [apply dev_S; [lia|apply Ha; lia|reflexivity]|reflexivity].
  - rewrite E, H. reflexivity.
Qed.
Lemma check_points_ok nfft val pv work a : 0 <= nfft -> reads work a (2 * nfft) -> (forall m, 0 <= m < nfft -> val m = Some (pv m)) ->
  check_points vz dist gtb zero nfft val work = Some (dev a (fun i => vz (pcell pv i)) (2 * nfft)).
Proof.
  intros Hn Ha Hv. unfold check_points.
  destruct (for_inv (fun m e => e = dev a (fun i => vz (pcell pv i)) (2 * m)) nfft
    (fun m eps => v <- val m; eps <- worse dist gtb work (2 * m) (vz v) eps; worse dist gtb work (2 * m + 1) (vz 0) eps) zero) as (e & E & H); [lia|reflexivity| |].
  - intros m e Hm ->. rewrite (Hv m Hm). cbn [bind].
    rewrite (dev_S a _ (2 * m) work) by (try lia; try (apply Ha; lia); cbv beta; rewrite pcell_0; reflexivity). cbn [bind].
    eexists. split; [apply dev_S; [lia|apply Ha; lia|cbv beta; rewrite pcell_1; reflexivity]|]. f_equal. lia.
  - rewrite E, H. reflexivity.
Qed.
Lemma check_random_ok nfft seed work a : 0 <= nfft -> reads work a (2 * nfft) -> 1 <= seed <= IM - 1 ->
  check_random vr dist gtb zero nfft seed work = Some (dev a (fun i => vr (lehmer (i + 1) seed)) (2 * nfft)).
Proof.
  intros Hn Ha Hs. unfold check_random.
  destruct (for_inv (fun m (s : D * Z) => fst s = dev a (fun i => vr (lehmer (i + 1) seed)) m /\ snd s = lehmer m seed)
    (2 * nfft) (fun m s => let '(eps, seed) := s in seed <- random seed; eps <- worse dist gtb work m (vr seed) eps; Some (eps, seed)) (zero, seed)) as (s & E & H); [lia| | |].
  - split; [reflexivity|]. cbn. symmetry. apply lehmer_0, Hs.
  - intros m (e, sd) Hm (H1 & H2). cbn [fst snd] in *. subst sd e. rewrite random_lehmer by (assumption || lia). cbn [bind].
    rewrite (dev_S a _ m work) by (try lia; try (apply Ha; lia); reflexivity). cbn [bind].
    eexists. split; [reflexivity|]. split; reflexivity.
  - rewrite E. cbn [bind]. f_equal. apply H.
Qed.
Theorem validate3_ok k seed N b work a : legal3 b -> reads work a (2 * psize3 b) -> seed_ok k seed ->
  validate3 vz vr dist gtb zero k seed N b work = Some (dev a (wanti3 k seed N b) (2 * psize3 b)).
Proof.
  intros Hb Ha Hs. pose proof (psize3_nonneg b Hb). destruct k; cbn [validate3 wanti3].
  - apply check_zero_ok; assumption.
  - apply (check_points_ok (psize3 b) _ (fun m => stepval3 N (pt_at3 b m))); auto. intros m Hm. rewrite at3_ok by assumption. reflexivity.
  - apply (check_points_ok (psize3 b) _ (fun m => indexval3 (pt_at3 b m))); auto. intros m Hm. rewrite at3_ok by assumption. reflexivity.
  - apply check_random_ok; auto.
Qed.
Theorem validate2_ok k seed N b work a : legal2 b -> reads work a (2 * psize2 b) -> seed_ok k seed ->
  validate2 vz vr dist gtb zero k seed N b work = Some (dev a (wanti2 k seed N b) (2 * psize2 b)).
Proof.
  intros Hb Ha Hs. pose proof (psize2_nonneg b Hb). destruct k; cbn [validate2 wanti2].
  - apply check_zero_ok; assumption.
  - apply (check_points_ok (psize2 b) _ (fun m => stepval2 N (pt_at2 b m))); auto. intros m Hm. rewrite at2_ok by assumption. reflexivity.
  - apply (check_points_ok (psize2 b) _ (fun m => indexval2 (pt_at2 b m))); auto. intros m Hm. rewrite at2_ok by assumption. reflexivity.
  - apply check_random_ok; auto.
Qed.

Lemma allmax_ok n eps e : (forall r, (r < n)%nat -> eps r = Some (e r)) -> allmax gtb zero n eps = Some (maxof (map e (seq 0 n))).
Proof.
  unfold allmax, maxof. induction n as [|n IH]; intros H; [reflexivity|].
  rewrite seq_S, map_app, !fold_left_app, IH by (intros; apply H; lia). cbn. rewrite H by lia. reflexivity.
Qed.

(** *** simple.cpp *)
Lemma simple_init_ok b w0 : legal3 b -> 2 * psize3 b <= zlen w0 ->
  exists w, simple_init vz cv b w0 = Some w /\ filled (2 * psize3 b) vz w0 w.
Proof.
  unfold legal3, psize3. intros (A & B & C) Hl. unfold simple_init.
  set (body := fun (_ : Z) (s : list F * Z) => let '(w, n) := s in w <- zset w n (cv (vz n)); w <- zset w (n + 1) (cv (vz (n + 1))); Some (w, n + 2)).
  set (I := fun m (s : list F * Z) => snd s = 2 * m /\ filled (2 * m) vz w0 (fst s)).
  destruct (for_inv (fun z => I (z * nj b * ni b)) (nk b) (fun _ s => for_ (nj b) (fun _ s => for_ (ni b) body s) s) (w0, 0)) as (s & E & H); [lia| | |].
  - split; [reflexivity|apply filled_0].
  - intros z s Hz Hs. destruct (for_inv (fun y => I ((z * nj b + y) * ni b)) (nj b) (fun _ s => for_ (ni b) body s) s) as (s1 & E1 & H1); [lia| | |].
    + rewrite Z.add_0_r. exact Hs.
    + intros y s' Hy Hs'. destruct (for_inv (fun x => I ((z * nj b + y) * ni b + x)) (ni b) body s') as (s2 & E2 & H2); [lia| | |].
      * rewrite Z.add_0_r. exact Hs'.
      * intros x (w, n) Hx (Hn & Hw). cbn [fst snd] in *. subst n. unfold body.
        assert (Bd : 0 <= (z * nj b + y) * ni b + x < ni b * nj b * nk b)
          by (assert (0 <= z * nj b + y <= nk b * nj b - 1) by nia; assert ((z * nj b + y) * ni b <= (nk b * nj b - 1) * ni b) by (apply Z.mul_le_mono_nonneg_r; lia); nia).
        rewrite Z.add_assoc. remember ((z * nj b + y) * ni b + x) as m eqn:Em. clear Em.
        destruct (filled_S (2 * m) _ w0 w _ ltac:(lia) Hw eq_refl) as (w1 & E3 & H3). rewrite E3. cbn [bind].
        destruct (filled_S (2 * m + 1) _ w0 w1 _ ltac:(lia) H3 eq_refl) as (w2 & E4 & H4). rewrite E4. cbn [bind].
        eexists. split; [reflexivity|]. unfold I. cbn [fst snd].
        replace (2 * m + 1 + 1) with (2 * (m + 1)) in H4 by lia. split; [lia|exact H4].
      * exists s2. split; [exact E2|]. replace ((z * nj b + (y + 1)) * ni b) with ((z * nj b + y) * ni b + ni b) by lia. exact H2.
    + exists s1. split; [exact E1|]. replace ((z + 1) * nj b * ni b) with ((z * nj b + nj b) * ni b) by lia. exact H1.
  - rewrite E. cbn [bind]. exists (fst s). split; [reflexivity|]. destruct H as (_ & H).
    replace (ni b * nj b * nk b) with (nk b * nj b * ni b) by lia. exact H.
Qed.
Lemma simple_diff_ok b work a : legal3 b -> reads work a (2 * psize3 b) ->
  simple_diff vz dist gtb zero b work = Some (dev a vz (2 * psize3 b)).
Proof.
  unfold legal3, psize3. intros (A & B & C) Ha. unfold simple_diff.
  set (body := fun (_ : Z) (s : D * Z) => let '(e, n) := s in e <- worse dist gtb work n (vz n) e; e <- worse dist gtb work (n + 1) (vz (n + 1)) e; Some (e, n + 2)).
  set (I := fun m (s : D * Z) => s = (dev a vz (2 * m), 2 * m)).
  destruct (for_inv (fun z => I (z * nj b * ni b)) (nk b) (fun _ s => for_ (nj b) (fun _ s => for_ (ni b) body s) s) (zero, 0)) as (s & E & H); [lia|reflexivity| |].
  - intros z s Hz Hs. destruct (for_inv (fun y => I ((z * nj b + y) * ni b)) (nj b) (fun _ s => for_ (ni b) body s) s) as (s1 & E1 & H1); [lia| | |].
    + rewrite Z.add_0_r. exact Hs.
    + intros y s' Hy Hs'. destruct (for_inv (fun x => I ((z * nj b + y) * ni b + x)) (ni b) body s') as (s2 & E2 & H2); [lia| | |].
      * rewrite Z.add_0_r. exact Hs'.
      * intros x s3 Hx ->. unfold body.
        assert (Bd : 0 <= (z * nj b + y) * ni b + x < ni b * nj b * nk b)
          by (assert (0 <= z * nj b + y <= nk b * nj b - 1) by nia; assert ((z * nj b + y) * ni b <= (nk b * nj b - 1) * ni b) by (apply Z.mul_le_mono_nonneg_r; lia); nia).
        rewrite Z.add_assoc. remember ((z * nj b + y) * ni b + x) as m eqn:Em. clear Em.
        rewrite (dev_S a vz (2 * m) work) by (try lia; try (apply Ha; lia); reflexivity). cbn [bind].
        rewrite (dev_S a vz (2 * m + 1) work) by (try lia; try (apply Ha; lia); reflexivity). cbn [bind].
        eexists. split; [reflexivity|]. unfold I. f_equal; [f_equal|]; lia.
      * exists s2. split; [exact E2|]. replace ((z * nj b + (y + 1)) * ni b) with ((z * nj b + y) * ni b + ni b) by lia. exact H2.
    + exists s1. split; [exact E1|]. replace ((z + 1) * nj b * ni b) with ((z * nj b + nj b) * ni b) by lia. exact H1.
  - rewrite E. cbn [bind]. rewrite H. cbn [fst]. do 2 f_equal. lia.
Qed.
End Cells.

(** ** deviations that are real numbers *)
Definition Rgtb (a b : R) : bool := if Rlt_dec b a then true else false.
Lemma maxofR l : Forall (fun d => (0 <= d)%R) l ->
  (0 <= maxof Rgtb 0%R l)%R /\ (forall d, In d l -> (d <= maxof Rgtb 0%R l)%R) /\ (maxof Rgtb 0%R l = 0%R \/ In (maxof Rgtb 0%R l) l).
Proof.
  intros H. unfold maxof.
  assert (G : forall l e, (e <= fold_left (fun e d => if Rgtb d e then d else e) l e)%R /\
    (forall d, In d l -> (d <= fold_left (fun e d => if Rgtb d e then d else e) l e)%R) /\
    (fold_left (fun e d => if Rgtb d e then d else e) l e = e \/ In (fold_left (fun e d => if Rgtb d e then d else e) l e) l)).
  { clear. induction l as [|d l IH]; intros e; cbn [fold_left].
    - split; [lra|]. split; [intros d []|left; reflexivity].
    - unfold Rgtb at 2 4 6 8. destruct (Rlt_dec e d) as [Hd|Hd].
      + destruct (IH d) as (A & B & C). split; [lra|]. split.
        * intros x [<- | Hx]; [exact A|apply B, Hx].
        * right. destruct C as [C|C]; [left; symmetry; exact C|right; exact C].
      + destruct (IH e) as (A & B & C). split; [exact A|]. split.
        * intros x [<- | Hx]; [lra|apply B, Hx].
        * destruct C as [C|C]; [left; exact C|right; right; exact C]. }
  destruct (G l 0%R) as (A & B & C). auto.
Qed.
