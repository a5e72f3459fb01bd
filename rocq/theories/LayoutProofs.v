(** LayoutProofs.v : facts about the processor grids and the internal layouts. *)

From Coq Require Import QArith Qfield.
From Verif Require Import Base Spec Layout.
Local Open Scope Z_scope.

(** ** prime_factorable *)

(** the grid sizes the documentation supports *)
Definition smooth (n : Z) : Prop := exists a b c, 0 <= a /\ 0 <= b /\ 0 <= c /\ n = 2 ^ a * 3 ^ b * 5 ^ c.

Lemma smooth_1 : smooth 1.
Proof. exists 0, 0, 0. repeat split; try lia. Qed.

Lemma smooth_mul p n : In p primes -> smooth n -> smooth (p * n).
Proof.
  intros Hp (a & b & c & Ha & Hb & Hc & ->).
  destruct Hp as [<- | [<- | [<- | []]]].
  - exists (Z.succ a), b, c. rewrite Z.pow_succ_r by lia. repeat split; try lia.
  - exists a, (Z.succ b), c. rewrite Z.pow_succ_r by lia. repeat split; try lia.
  - exists a, b, (Z.succ c). rewrite Z.pow_succ_r by lia. repeat split; try lia.
Qed.

Lemma find_prime_Some ps n p : find_prime ps n = Some p -> In p ps /\ n mod p = 0.
Proof.
  induction ps as [|q t IH]; cbn [find_prime]; [discriminate|].
  destruct (Z.eqb_spec (n mod q) 0).
  - intros [= <-]. split; [now left|auto].
  - intros H. destruct (IH H). split; [now right|auto].
Qed.
Lemma find_prime_None ps n : find_prime ps n = None -> forall p, In p ps -> n mod p <> 0.
Proof.
  induction ps as [|q t IH]; cbn [find_prime]; [intros _ p []|].
  destruct (Z.eqb_spec (n mod q) 0); [discriminate|].
  intros H p [<- | Hp]; auto.
Qed.

Lemma prime_in_primes p : In p primes -> 2 <= p /\ (p = 2 \/ p = 3 \/ p = 5).
Proof. cbn. intros [<- | [<- | [<- | []]]]; lia. Qed.

(** a smooth number above 1 stays smooth after dividing by a listed prime *)
Lemma smooth_div p n : In p primes -> n mod p = 0 -> 1 < n -> smooth n -> smooth (n / p).
Proof.
  intros Hp Hm Hn (a & b & c & Ha & Hb & Hc & E).
  assert (P2 : 0 < 2 ^ a) by (apply Z.pow_pos_nonneg; lia).
  assert (P3 : 0 < 3 ^ b) by (apply Z.pow_pos_nonneg; lia).
  assert (P5 : 0 < 5 ^ c) by (apply Z.pow_pos_nonneg; lia).
  assert (Hdiv : forall q k m, (q = 2 \/ q = 3 \/ q = 5) -> (k = 2 \/ k = 3 \/ k = 5) -> q <> k -> 0 <= m -> k ^ m mod q <> 0).
  { intros q k m Hq Hk Hne H0. revert m H0. apply natlike_ind.
    - rewrite Z.pow_0_r. destruct Hq as [-> | [-> | ->]]; discriminate.
    - intros m Hm0 IH. rewrite Z.pow_succ_r by lia.
      generalize dependent (k ^ m). intros x Hx.
      destruct Hq as [-> | [-> | ->]]; destruct Hk as [-> | [-> | ->]]; try lia;
        intros Hz; apply Hx; apply Z.mod_divide in Hz; try lia; apply Z.mod_divide; try lia;
        (apply Z.gauss in Hz; [auto|reflexivity]). }
  assert (Hmul : forall q x y, (q = 2 \/ q = 3 \/ q = 5) -> (x * y) mod q = 0 -> x mod q = 0 \/ y mod q = 0).
  { intros q x y Hq Hz. assert (Hpr : Znumtheory.prime q).
    { destruct Hq as [-> | [-> | ->]]; [apply Znumtheory.prime_2|apply Znumtheory.prime_3|].
      apply Znumtheory.prime_intro; [lia|]. intros m Hm5.
      assert (m = 1 \/ m = 2 \/ m = 3 \/ m = 4) as [-> | [-> | [-> | ->]]] by lia; apply Znumtheory.Zgcd_1_rel_prime; reflexivity. }
    assert (q <> 0) by lia.
    apply Z.mod_divide in Hz; auto. apply Znumtheory.prime_mult in Hz; auto.
    destruct Hz; [left|right]; apply Z.mod_divide; auto. }
  destruct (prime_in_primes p Hp) as [Hp2 Hp'].
  assert (Hnn : n = p * (n / p)) by (rewrite (Z.div_mod n p) at 1 by lia; lia).
  assert (Hz : (2 ^ a * 3 ^ b * 5 ^ c) mod p = 0) by (rewrite <- E; auto).
  apply Hmul in Hz; auto. destruct Hz as [Hz|Hz]; [apply Hmul in Hz; auto; destruct Hz as [Hz|Hz]|].
  - assert (p = 2) as -> by (destruct (Z.eq_dec p 2); auto; exfalso; apply (Hdiv p 2 a); auto).
    assert (1 <= a). { destruct (Z.eq_dec a 0); [|lia]. subst a. discriminate Hz. }
    exists (a - 1), b, c. repeat split; try lia.
    replace a with (Z.succ (a - 1)) in E by lia. rewrite Z.pow_succ_r in E by lia. nia.
  - assert (p = 3) as -> by (destruct (Z.eq_dec p 3); auto; exfalso; apply (Hdiv p 3 b); auto).
    assert (1 <= b). { destruct (Z.eq_dec b 0); [|lia]. subst b. discriminate Hz. }
    exists a, (b - 1), c. repeat split; try lia.
    replace b with (Z.succ (b - 1)) in E by lia. rewrite Z.pow_succ_r in E by lia. nia.
  - assert (p = 5) as -> by (destruct (Z.eq_dec p 5); auto; exfalso; apply (Hdiv p 5 c); auto).
    assert (1 <= c). { destruct (Z.eq_dec c 0); [|lia]. subst c. discriminate Hz. }
    exists a, b, (c - 1). repeat split; try lia.
    replace c with (Z.succ (c - 1)) in E by lia. rewrite Z.pow_succ_r in E by lia. nia.
Qed.

Lemma smooth_has_prime n : 1 < n -> smooth n -> exists p, In p primes /\ n mod p = 0.
Proof.
  intros Hn (a & b & c & Ha & Hb & Hc & ->).
  destruct (Z.eq_dec a 0) as [-> | ]; [destruct (Z.eq_dec b 0) as [-> | ]; [destruct (Z.eq_dec c 0) as [-> | ]|]|].
  - cbn in Hn. lia.
  - exists 5. split; [cbn; auto|]. apply Z.mod_divide; [lia|]. replace c with (Z.succ (c - 1)) by lia.
    rewrite Z.pow_succ_r by lia. exists (2 ^ 0 * 3 ^ 0 * 5 ^ (c - 1)). lia.
  - exists 3. split; [cbn; auto|]. apply Z.mod_divide; [lia|]. replace b with (Z.succ (b - 1)) by lia.
    rewrite Z.pow_succ_r by lia. exists (2 ^ 0 * 3 ^ (b - 1) * 5 ^ c). lia.
  - exists 2. split; [cbn; auto|]. apply Z.mod_divide; [lia|]. replace a with (Z.succ (a - 1)) by lia.
    rewrite Z.pow_succ_r by lia. exists (2 ^ (a - 1) * 3 ^ b * 5 ^ c). lia.
Qed.

Lemma pf_loop_spec fuel n : 1 <= n -> n < 2 ^ (Z.of_nat fuel - 1) ->
  exists b, pf_loop fuel n = Some b /\ (b = true <-> smooth n).
Proof.
  revert n. induction fuel as [|f IH]; intros n Hn Hl.
  - cbn in Hl. lia.
  - cbn [pf_loop]. destruct (Z.gtb_spec n 1).
    + destruct (find_prime primes n) as [p|] eqn:E.
      * apply find_prime_Some in E. destruct E as [Hp Hm].
        destruct (prime_in_primes p Hp) as [Hp2 _].
        assert (Hnn : n = p * (n / p)) by (rewrite (Z.div_mod n p) at 1 by lia; lia).
        assert (1 <= n / p) by nia.
        assert (Hf : n / p < 2 ^ (Z.of_nat f - 1)).
        { destruct f as [|f']; [cbn in Hl; lia|].
          replace (Z.of_nat (S (S f')) - 1) with (Z.succ (Z.of_nat (S f') - 1)) in Hl by lia.
          rewrite Z.pow_succ_r in Hl by lia. nia. }
        destruct (IH (n / p)) as [b [E Hb]]; auto.
        exists b. split; [auto|]. rewrite Hb. split; intros Hs.
        -- rewrite Hnn. now apply smooth_mul.
        -- apply smooth_div; auto.
      * exists false. split; [auto|]. split; [discriminate|]. intros Hs.
        destruct (smooth_has_prime n) as [p [Hp Hm]]; auto; try lia.
        exfalso. eapply find_prime_None; eauto.
    + exists true. split; [auto|]. split; [intros _|auto]. replace n with 1 by lia. apply smooth_1.
Qed.

Lemma prime_factorable_spec n : 1 <= n ->
  exists b, prime_factorable n = Some b /\ (b = true <-> smooth n).
Proof.
  intros Hn. unfold prime_factorable. apply pf_loop_spec; auto.
  pose proof (Z.log2_spec n ltac:(lia)). pose proof (Z.log2_nonneg n).
  replace (Z.of_nat (S (S (Z.to_nat (Z.log2 n)))) - 1) with (Z.succ (Z.log2 n)) by lia. lia.
Qed.
Lemma prime_factorable_low n : n <= 1 -> prime_factorable n = Some true.
Proof.
  intros Hn. unfold prime_factorable. cbn [pf_loop].
  destruct (Z.gtb_spec n 1); [lia|reflexivity].
Qed.

(** ** factor *)

Lemma sqroot_eq n : 0 <= n -> sqroot n = Z.sqrt n.
Proof.
  intros Hn. unfold sqroot. pose proof (Z.sqrt_spec n Hn).
  assert (n < (Z.sqrt n + 1) * (Z.sqrt n + 1)) by (unfold Z.succ in *; lia).
  cbv zeta. destruct (Z.gtb_spec ((Z.sqrt n + 1) * (Z.sqrt n + 1)) n); lia.
Qed.

Lemma map_succ_zseq a k : map (fun i => i + 1) (zseq a k) = zseq (a + 1) k.
Proof. revert a. induction k; intros a; cbn [zseq map]; [auto|]. now rewrite IHk. Qed.

(** the divisors of n up to its square root, in increasing order *)
Definition small_divisors (n : Z) : list Z := filter (fun d => n mod d =? 0) (zseq 1 (Z.to_nat (Z.sqrt n))).

Lemma factor_fold n l acc :
  (length acc <= NFACTOR)%nat ->
  fold_left (fun factors i =>
    if n mod i =? 0 then (if Nat.ltb (length factors) NFACTOR then factors ++ [i] else factors) else factors) l acc
  = firstn NFACTOR (acc ++ filter (fun d => n mod d =? 0) l).
Proof.
  revert acc. induction l as [|i l IH]; intros acc Ha; cbn [fold_left filter].
  - rewrite app_nil_r. symmetry. apply firstn_all2. auto.
  - destruct (n mod i =? 0).
    + destruct (Nat.ltb_spec (length acc) NFACTOR).
      * rewrite IH by (rewrite app_length; cbn [length]; lia). rewrite <- app_assoc. reflexivity.
      * rewrite IH by lia. rewrite !firstn_app. replace (NFACTOR - length acc)%nat with 0%nat by lia.
        reflexivity.
    + apply IH; auto.
Qed.
Lemma factor_eq n : 0 <= n -> factor n = firstn NFACTOR (small_divisors n).
Proof.
  intros Hn. unfold factor. rewrite factor_fold by (cbn; unfold NFACTOR; lia).
  rewrite sqroot_eq by auto. unfold zrange. rewrite map_succ_zseq. reflexivity.
Qed.

Lemma firstn_In {A} k (l : list A) x : In x (firstn k l) -> In x l.
Proof. rewrite <- (firstn_skipn k l) at 2. intros. apply in_or_app; now left. Qed.

Lemma factor_In n d : 1 <= n -> In d (factor n) -> 1 <= d /\ n mod d = 0 /\ d * d <= n.
Proof.
  intros Hn H. rewrite factor_eq in H by lia. apply firstn_In in H.
  apply filter_In in H. destruct H as [H1 H2]. apply In_zseq in H1.
  pose proof (Z.sqrt_spec n ltac:(lia)). split; [lia|]. split; [now apply Z.eqb_eq|]. assert (Hd : d <= Z.sqrt n) by lia. transitivity (Z.sqrt n * Z.sqrt n); [apply Z.mul_le_mono_nonneg; lia|apply H].
Qed.
Lemma factor_cons n : 1 <= n -> exists t, factor n = 1 :: t.
Proof.
  intros Hn. rewrite factor_eq by lia. unfold small_divisors.
  pose proof (Z.sqrt_le_mono 1 n Hn) as Hs. change (Z.sqrt 1) with 1 in Hs.
  destruct (Z.to_nat (Z.sqrt n)) as [|k] eqn:E; [lia|].
  cbn [zseq filter]. rewrite Z.mod_1_r. cbn [Z.eqb]. unfold NFACTOR. cbn [firstn]. eauto.
Qed.
Lemma small_divisors_In n d : 1 <= n -> 1 <= d -> n mod d = 0 -> d * d <= n -> In d (small_divisors n).
Proof.
  intros Hn Hd Hm Hs. apply filter_In. split; [|apply Z.eqb_eq; auto].
  apply In_zseq. pose proof (Z.sqrt_spec n ltac:(lia)).
  assert (d <= Z.sqrt n) by (apply Z.sqrt_le_square; lia). lia.
Qed.
Lemma factor_length n : (length (factor n) <= NFACTOR)%nat.
Proof.
  unfold factor. rewrite factor_fold by (cbn; unfold NFACTOR; lia).
  rewrite firstn_length. lia.
Qed.
Lemma factor_complete n d : 1 <= n -> (length (small_divisors n) <= NFACTOR)%nat ->
  1 <= d -> n mod d = 0 -> d * d <= n -> In d (factor n).
Proof.
  intros. rewrite factor_eq by lia. rewrite firstn_all2 by auto. now apply small_divisors_In.
Qed.

(** every suffix of the factor list that starts at ifac holds the later factors *)
Lemma zseq_split a k x y : a <= x -> x <= y -> y < a + Z.of_nat k ->
  exists l1 l2, zseq a k = l1 ++ x :: l2 /\ In y (x :: l2).
Proof.
  intros. exists (zseq a (Z.to_nat (x - a))), (zseq (x + 1) (Z.to_nat (a + Z.of_nat k - x - 1))).
  split.
  - replace k with (Z.to_nat (x - a) + S (Z.to_nat (a + Z.of_nat k - x - 1)))%nat at 1 by lia.
    rewrite zseq_app. f_equal. cbn [zseq]. replace (a + Z.of_nat (Z.to_nat (x - a))) with x by lia. reflexivity.
  - destruct (Z.eq_dec x y); [now left|right]. apply In_zseq. lia.
Qed.
Lemma factor_split n x y : 1 <= n -> (length (small_divisors n) <= NFACTOR)%nat ->
  1 <= x -> x <= y -> n mod x = 0 -> n mod y = 0 -> y * y <= n ->
  exists l1 l2, factor n = l1 ++ x :: l2 /\ In y (x :: l2).
Proof.
  intros Hn Hl Hx Hxy Hmx Hmy Hyy. rewrite factor_eq by lia. rewrite firstn_all2 by auto.
  unfold small_divisors. assert (y <= Z.sqrt n) by (apply Z.sqrt_le_square; lia).
  destruct (zseq_split 1 (Z.to_nat (Z.sqrt n)) x y) as (l1 & l2 & E & Hin); try lia.
  rewrite E. exists (filter (fun d => n mod d =? 0) l1), (filter (fun d => n mod d =? 0) l2).
  rewrite filter_app. cbn [filter]. rewrite Hmx. cbn [Z.eqb]. split; [auto|].
  destruct Hin as [-> | Hin]; [now left|right]. apply filter_In. rewrite Hmy. auto.
Qed.

(** ** procfactors, any arithmetic with the laws *)

(** a processor grid for the sizes: positive, uses all processors, extent 1 in
    every dimension of size 1 *)
Definition good_grid3 (P nx ny nz : Z) (g : Z * Z * Z) : Prop :=
  let '(x, y, z) := g in
  1 <= x /\ 1 <= y /\ 1 <= z /\ x * y * z = P /\
  (nx = 1 -> x = 1) /\ (ny = 1 -> y = 1) /\ (nz = 1 -> z = 1).
Definition good_grid2 (P nx ny : Z) (g : Z * Z) : Prop :=
  let '(x, y) := g in
  1 <= x /\ 1 <= y /\ x * y = P /\ (nx = 1 -> x = 1) /\ (ny = 1 -> y = 1).

Section PF.
Variable ar : areas.
Hypothesis L : area_laws ar.
Variables P nx ny nz : Z.
Hypothesis HP : 1 <= P.
Hypothesis Hx : in_int nx.
Hypothesis Hy : in_int ny.
Hypothesis Hz : in_int nz.

Local Notation st0 := (astart3 ar nx ny nz).

Definition pinv (st : pstate ar) : Prop :=
  alt ar (abig ar) (fst st) = false /\
  match snd st with
  | None => fst st = st0
  | Some g => good_grid3 P nx ny nz g
  end.

Lemma surf_cases x y z :
  (surfarea ar x y z nx ny nz = abig ar /\ ~ ((nx = 1 -> x = 1) /\ (ny = 1 -> y = 1) /\ (nz = 1 -> z = 1))) \/
  (surfarea ar x y z nx ny nz = asurf3 ar x y z nx ny nz /\ (nx = 1 -> x = 1) /\ (ny = 1 -> y = 1) /\ (nz = 1 -> z = 1)).
Proof.
  unfold surfarea.
  destruct (Z.eqb_spec nx 1), (Z.eqb_spec x 1), (Z.eqb_spec ny 1), (Z.eqb_spec y 1),
    (Z.eqb_spec nz 1), (Z.eqb_spec z 1); cbn [andb negb]; try (right; split; [reflexivity|lia]); left; split; try reflexivity; lia.
Qed.

Lemma try_inv x y z st : 1 <= x -> 1 <= y -> 1 <= z -> x * y * z = P ->
  pinv st -> pinv (try_grid ar nx ny nz (x, y, z) st).
Proof.
  intros H1 H2 H3 Hp [Hb Hs]. unfold try_grid.
  destruct (alt ar (surfarea ar x y z nx ny nz) (fst st)) eqn:E; [|split; auto].
  destruct (surf_cases x y z) as [[Es _]|[Es Hu]].
  - rewrite Es in E. congruence.
  - destruct L as (Tr & _). split; cbn [fst snd].
    + rewrite Es. rewrite Es in E. destruct (alt ar (abig ar) (asurf3 ar x y z nx ny nz)) eqn:F; auto.
      exfalso. pose proof (Tr _ _ _ F E). congruence.
    + repeat split; tauto.
Qed.

Lemma try_some x y z st : 1 <= x -> 1 <= y -> 1 <= z ->
  (nx = 1 -> x = 1) -> (ny = 1 -> y = 1) -> (nz = 1 -> z = 1) ->
  pinv st -> snd (try_grid ar nx ny nz (x, y, z) st) <> None.
Proof.
  intros H1 H2 H3 U1 U2 U3 [Hb Hs]. unfold try_grid.
  destruct (alt ar (surfarea ar x y z nx ny nz) (fst st)) eqn:E; cbn [snd]; [discriminate|].
  destruct (snd st) eqn:F; [discriminate|]. exfalso.
  destruct (surf_cases x y z) as [[_ N]|[Es _]]; [tauto|].
  rewrite Es, Hs in E. destruct L as (_ & _ & Lt & _). rewrite Lt in E; auto. discriminate.
Qed.
Lemma try_keeps t st : snd st <> None -> snd (try_grid ar nx ny nz t st) <> None.
Proof. destruct t as [[x y] z]. unfold try_grid. intros. destruct (alt _ _ _); cbn [snd]; auto. discriminate. Qed.

(** the candidates passing the tests of the loop body *)
Lemma body_cases ifac jfac st : 1 <= ifac -> 1 <= jfac ->
  let kfac := P / ifac / jfac in
  (ifac * jfac * kfac = P /\ ifac <= jfac <= kfac /\
   pf_body ar P nx ny nz ifac (P / ifac) st jfac =
     try_grid ar nx ny nz (kfac, jfac, ifac) (try_grid ar nx ny nz (kfac, ifac, jfac)
     (try_grid ar nx ny nz (jfac, kfac, ifac) (try_grid ar nx ny nz (jfac, ifac, kfac)
     (try_grid ar nx ny nz (ifac, kfac, jfac) (try_grid ar nx ny nz (ifac, jfac, kfac) st)))))) \/
  (~ (ifac * jfac * kfac = P /\ ifac <= jfac <= kfac) /\ pf_body ar P nx ny nz ifac (P / ifac) st jfac = st).
Proof.
  intros Hi Hj kfac. subst kfac. unfold pf_body. cbv zeta.
  generalize (P / ifac / jfac). intros kfac.
  destruct (Z.eqb_spec (ifac * jfac * kfac) P); cbn [negb]; [|right; split; [lia|auto]].
  destruct (Z.gtb_spec ifac jfac), (Z.gtb_spec jfac kfac); cbn [orb];
    try (right; split; [lia|auto]; fail). left. split; [lia|]. split; [lia|]. reflexivity.
Qed.

Lemma body_inv ifac jfac st : 1 <= ifac -> 1 <= jfac -> pinv st -> pinv (pf_body ar P nx ny nz ifac (P / ifac) st jfac).
Proof.
  intros Hi Hj Hs. destruct (body_cases ifac jfac st Hi Hj) as [(E & Ho & ->)|[_ ->]]; auto.
  set (k := P / ifac / jfac) in *. clearbody k.
  repeat (apply try_inv; [lia|lia|lia|lia|]). auto.
Qed.
Lemma body_keeps ifac jfac st : 1 <= ifac -> 1 <= jfac -> snd st <> None -> snd (pf_body ar P nx ny nz ifac (P / ifac) st jfac) <> None.
Proof.
  intros Hi Hj Hs. destruct (body_cases ifac jfac st Hi Hj) as [(E & Ho & ->)|[_ ->]]; auto.
  repeat apply try_keeps. auto.
Qed.
Lemma inner_inv ifac l st : 1 <= ifac -> (forall d, In d l -> 1 <= d) -> pinv st ->
  pinv (fold_left (pf_body ar P nx ny nz ifac (P / ifac)) l st).
Proof.
  intros Hi. revert st. induction l as [|d l IH]; intros st Hl Hs; cbn [fold_left]; auto.
  apply IH; [intros; apply Hl; now right|]. apply body_inv; auto. apply Hl; now left.
Qed.
Lemma inner_keeps ifac l st : 1 <= ifac -> (forall d, In d l -> 1 <= d) -> snd st <> None ->
  snd (fold_left (pf_body ar P nx ny nz ifac (P / ifac)) l st) <> None.
Proof.
  intros Hi. revert st. induction l as [|d l IH]; intros st Hl Hs; cbn [fold_left]; auto.
  apply IH; [intros; apply Hl; now right|]. apply body_keeps; auto. apply Hl; now left.
Qed.
Lemma outer_inv l st : (forall d, In d l -> 1 <= d) -> pinv st -> pinv (pf_outer ar P nx ny nz l st).
Proof.
  revert st. induction l as [|d l IH]; intros st Hl Hs; cbn [pf_outer]; auto.
  apply IH; [intros; apply Hl; now right|]. apply inner_inv; auto. apply Hl; now left.
Qed.
Lemma outer_keeps l st : (forall d, In d l -> 1 <= d) -> snd st <> None -> snd (pf_outer ar P nx ny nz l st) <> None.
Proof.
  revert st. induction l as [|d l IH]; intros st Hl Hs; cbn [pf_outer]; auto.
  apply IH; [intros; apply Hl; now right|]. apply inner_keeps; auto. apply Hl; now left.
Qed.

Lemma pinv0 : pinv (st0, None).
Proof. destruct L as (_ & Lb & _). split; cbn [fst snd]; auto. Qed.

Lemma procfactors_some g : procfactors ar P nx ny nz = Some g -> good_grid3 P nx ny nz g.
Proof.
  intros E. unfold procfactors in E.
  assert (Hf : forall d, In d (factor P) -> 1 <= d) by (intros d Hd; apply factor_In in Hd; auto; lia).
  assert (I : pinv (pf_outer ar P nx ny nz (factor P) (st0, None))) by (apply outer_inv; auto; apply pinv0).
  destruct I as [_ I]. rewrite E in I. exact I.
Qed.
(** at least one dimension has more than one point unless P = 1 *)
Lemma procfactors_good : (1 < nx \/ 1 < ny \/ 1 < nz) ->
  exists g, procfactors ar P nx ny nz = Some g /\ good_grid3 P nx ny nz g.
Proof.
  intros Hbig. unfold procfactors.
  assert (Hf : forall d, In d (factor P) -> 1 <= d) by (intros d Hd; apply factor_In in Hd; auto; lia).
  assert (I : pinv (pf_outer ar P nx ny nz (factor P) (st0, None))) by (apply outer_inv; auto; apply pinv0).
  assert (S : snd (pf_outer ar P nx ny nz (factor P) (st0, None)) <> None).
  { destruct (factor_cons P HP) as [t E]. rewrite E in *. cbn [pf_outer fold_left].
    apply outer_keeps; [intros; apply Hf; now right|].
    apply inner_keeps; [lia|intros; apply Hf; now right|].
    destruct (body_cases 1 1 (st0, None)) as [(Ep & Ho & ->)|[N _]]; try lia.
    2:{ exfalso. apply N. rewrite !Z.div_1_r. lia. }
    rewrite !Z.div_1_r in *.
    pose proof pinv0 as I0. unfold in_int in *.
    assert (T1 : pinv (try_grid ar nx ny nz (1, 1, P) (st0, None))) by (apply try_inv; auto; lia).
    assert (T2 : pinv (try_grid ar nx ny nz (1, P, 1) (try_grid ar nx ny nz (1, 1, P) (st0, None)))) by (apply try_inv; auto; lia).
    assert (T3 : pinv (try_grid ar nx ny nz (1, 1, P) (try_grid ar nx ny nz (1, P, 1) (try_grid ar nx ny nz (1, 1, P) (st0, None))))) by (apply try_inv; auto; lia).
    assert (T4 : pinv (try_grid ar nx ny nz (1, P, 1) (try_grid ar nx ny nz (1, 1, P) (try_grid ar nx ny nz (1, P, 1) (try_grid ar nx ny nz (1, 1, P) (st0, None)))))) by (apply try_inv; auto; lia).
    destruct (Z.eq_dec nz 1) as [Ez|Ez]; [destruct (Z.eq_dec ny 1) as [Ey|Ey]|].
    - apply try_keeps. apply try_some; auto; lia.
    - do 2 apply try_keeps. apply try_some; auto; lia.
    - do 5 apply try_keeps. apply try_some; auto; lia. }
  destruct (snd (pf_outer ar P nx ny nz (factor P) (st0, None))) as [g|] eqn:E; [|congruence].
  exists g. split; auto. destruct I as [_ I]. rewrite E in I. exact I.
Qed.
End PF.

Section PF2.
Variable ar : areas.
Hypothesis L : area_laws ar.
Variables P nx ny : Z.
Hypothesis HP : 1 <= P.
Hypothesis Hx : in_int nx.
Hypothesis Hy : in_int ny.
Local Notation st0 := (astart2 ar nx ny).
Definition pinv2 (st : pstate2 ar) : Prop :=
  alt ar (abig ar) (fst st) = false /\
  match snd st with None => fst st = st0 | Some g => good_grid2 P nx ny g end.
Lemma surf2_cases x y :
  (surfarea2 ar x y nx ny = abig ar /\ ~ ((nx = 1 -> x = 1) /\ (ny = 1 -> y = 1))) \/
  (surfarea2 ar x y nx ny = asurf2 ar x y nx ny /\ (nx = 1 -> x = 1) /\ (ny = 1 -> y = 1)).
Proof.
  unfold surfarea2.
  destruct (Z.eqb_spec nx 1), (Z.eqb_spec x 1), (Z.eqb_spec ny 1), (Z.eqb_spec y 1); cbn [andb negb];
    try (right; split; [reflexivity|lia]); left; split; try reflexivity; lia.
Qed.
Lemma try2_inv x y st : 1 <= x -> 1 <= y -> x * y = P -> pinv2 st -> pinv2 (try_grid2 ar nx ny (x, y) st).
Proof.
  intros H1 H2 Hp [Hb Hs]. unfold try_grid2.
  destruct (alt ar (surfarea2 ar x y nx ny) (fst st)) eqn:E; [|split; auto].
  destruct (surf2_cases x y) as [[Es _]|[Es Hu]].
  - rewrite Es in E. congruence.
  - destruct L as (Tr & _). split; cbn [fst snd].
    + rewrite Es. rewrite Es in E. destruct (alt ar (abig ar) (asurf2 ar x y nx ny)) eqn:F; auto.
      exfalso. pose proof (Tr _ _ _ F E). congruence.
    + repeat split; tauto.
Qed.
Lemma try2_some x y st : 1 <= x -> 1 <= y -> (nx = 1 -> x = 1) -> (ny = 1 -> y = 1) ->
  pinv2 st -> snd (try_grid2 ar nx ny (x, y) st) <> None.
Proof.
  intros H1 H2 U1 U2 [Hb Hs]. unfold try_grid2.
  destruct (alt ar (surfarea2 ar x y nx ny) (fst st)) eqn:E; cbn [snd]; [discriminate|].
  destruct (snd st) eqn:F; [discriminate|]. exfalso.
  destruct (surf2_cases x y) as [[_ N]|[Es _]]; [tauto|].
  rewrite Es, Hs in E. destruct L as (_ & _ & _ & _ & Lt). rewrite Lt in E; auto. discriminate.
Qed.
Lemma try2_keeps t st : snd st <> None -> snd (try_grid2 ar nx ny t st) <> None.
Proof. destruct t as [x y]. unfold try_grid2. intros. destruct (alt _ _ _); cbn [snd]; auto. discriminate. Qed.
Lemma body2_inv ifac j st : 1 <= ifac -> pinv2 st -> pinv2 (pf_body2 ar P nx ny ifac st j).
Proof.
  intros Hi Hs. unfold pf_body2. cbv zeta. generalize (P / ifac). intros jf.
  destruct (Z.eqb_spec (ifac * jf) P); cbn [negb]; auto.
  destruct (Z.gtb_spec ifac jf); auto.
  apply try2_inv; [lia|lia|lia|]. apply try2_inv; [lia|lia|lia|auto].
Qed.
Lemma body2_keeps ifac j st : snd st <> None -> snd (pf_body2 ar P nx ny ifac st j) <> None.
Proof.
  intros Hs. unfold pf_body2. cbv zeta. destruct (negb _); auto. destruct (_ >? _); auto. now do 2 apply try2_keeps.
Qed.
Lemma inner2_inv ifac l st : 1 <= ifac -> pinv2 st -> pinv2 (fold_left (pf_body2 ar P nx ny ifac) l st).
Proof. intros Hi. revert st. induction l; intros st Hs; cbn [fold_left]; auto. apply IHl. now apply body2_inv. Qed.
Lemma inner2_keeps ifac l st : snd st <> None -> snd (fold_left (pf_body2 ar P nx ny ifac) l st) <> None.
Proof. revert st. induction l; intros st Hs; cbn [fold_left]; auto. apply IHl. now apply body2_keeps. Qed.
Lemma outer2_inv l st : (forall d, In d l -> 1 <= d) -> pinv2 st -> pinv2 (pf_outer2 ar P nx ny l st).
Proof.
  revert st. induction l as [|d l IH]; intros st Hl Hs; cbn [pf_outer2]; auto.
  apply IH; [intros; apply Hl; now right|]. apply inner2_inv; auto. apply Hl; now left.
Qed.
Lemma outer2_keeps l st : snd st <> None -> snd (pf_outer2 ar P nx ny l st) <> None.
Proof. revert st. induction l; intros st Hs; cbn [pf_outer2]; auto. apply IHl. now apply inner2_keeps. Qed.

Lemma procfactors2_good : (1 < nx \/ 1 < ny) ->
  exists g, procfactors2 ar P nx ny = Some g /\ good_grid2 P nx ny g.
Proof.
  intros Hbig. unfold procfactors2.
  assert (Hf : forall d, In d (factor P) -> 1 <= d) by (intros d Hd; apply factor_In in Hd; auto; lia).
  assert (I0 : pinv2 (st0, None)). { destruct L as (_ & _ & _ & Lb & _). split; cbn [fst snd]; auto. }
  assert (I : pinv2 (pf_outer2 ar P nx ny (factor P) (st0, None))) by (apply outer2_inv; auto).
  assert (S : snd (pf_outer2 ar P nx ny (factor P) (st0, None)) <> None).
  { destruct (factor_cons P HP) as [t E]. rewrite E in *. cbn [pf_outer2 fold_left].
    apply outer2_keeps. apply inner2_keeps. unfold pf_body2. cbv zeta. rewrite Z.div_1_r, Z.mul_1_l, Z.eqb_refl.
    cbn [negb]. destruct (Z.gtb_spec 1 P); [lia|]. unfold in_int in *.
    destruct (Z.eq_dec ny 1).
    - apply try2_some; try lia. apply try2_inv; auto; lia.
    - apply try2_keeps. apply try2_some; auto; lia. }
  destruct (snd (pf_outer2 ar P nx ny (factor P) (st0, None))) as [g|] eqn:E; [|congruence].
  exists g. split; auto. destruct I as [_ I]. rewrite E in I. exact I.
Qed.
End PF2.

(** ** exact arithmetic satisfies the laws *)

Lemma Qltb_lt a b : Qltb a b = true <-> (a < b)%Q.
Proof.
  unfold Qltb. rewrite negb_true_iff. split; intros H.
  - apply Qnot_le_lt. intros Hle. apply Qle_bool_iff in Hle. congruence.
  - destruct (Qle_bool b a) eqn:E; auto. apply Qle_bool_iff in E. exfalso. eapply Qlt_not_le; eauto.
Qed.
Lemma Qltb_ge a b : Qltb a b = false <-> (b <= a)%Q.
Proof. unfold Qltb. rewrite negb_false_iff. apply Qle_bool_iff. Qed.

Lemma qdiv_pos a b : 1 <= a -> 1 <= b -> (0 < qdiv a b)%Q.
Proof.
  intros. unfold qdiv. apply Qlt_shift_div_l.
  - change 0%Q with (inject_Z 0). rewrite <- Zlt_Qlt. lia.
  - rewrite Qmult_0_l. change 0%Q with (inject_Z 0). rewrite <- Zlt_Qlt. lia.
Qed.
Lemma qdiv_le a b : 1 <= a -> 1 <= b -> (qdiv a b <= inject_Z a)%Q.
Proof.
  intros. unfold qdiv. apply Qle_shift_div_r.
  - change 0%Q with (inject_Z 0). rewrite <- Zlt_Qlt. lia.
  - rewrite <- inject_Z_mult, <- Zle_Qle. nia.
Qed.
Lemma Qmult_le_compat (a b c d : Q) : (0 <= a -> a <= b -> 0 <= c -> c <= d -> a * c <= b * d)%Q.
Proof.
  intros Ha Hab Hc Hcd. apply Qle_trans with (b * c)%Q.
  - apply Qmult_le_compat_r; auto.
  - rewrite (Qmult_comm b c), (Qmult_comm b d). apply Qmult_le_compat_r; auto. apply Qle_trans with a; auto.
Qed.
Lemma qdiv_mul_le a b c d : 1 <= a -> 1 <= b -> 1 <= c -> 1 <= d -> (qdiv a b * qdiv c d <= inject_Z (a * c))%Q.
Proof.
  intros. rewrite inject_Z_mult. apply Qmult_le_compat; auto using qdiv_le; apply Qlt_le_weak; auto using qdiv_pos.
Qed.

Lemma exact_laws : area_laws exact_areas.
Proof.
  unfold area_laws, exact_areas, in_int, INT_MAX; cbn [aD alt abig astart3 asurf3 astart2 asurf2].
  split; [|split; [|split; [|split]]].
  - intros a b c. rewrite !Qltb_lt. apply Qlt_trans.
  - intros nx ny nz H1 H2 H3. apply Qltb_ge. rewrite <- Zle_Qle.
    assert (nx * ny <= 2 ^ 31 * 2 ^ 31) by nia.
    assert (ny * nz <= 2 ^ 31 * 2 ^ 31) by nia.
    assert (nx * nz <= 2 ^ 31 * 2 ^ 31) by nia. lia.
  - intros i j k nx ny nz Hi Hj Hk H1 H2 H3. cbv zeta. apply Qltb_lt.
    eapply Qle_lt_trans.
    { apply Qplus_le_compat; [apply Qplus_le_compat|]; apply qdiv_mul_le; lia. }
    rewrite <- !inject_Z_plus, <- Zlt_Qlt. nia.
  - intros nx ny H1 H2. apply Qltb_ge. rewrite <- Zle_Qle. 
    assert (nx * ny <= 2 ^ 31 * 2 ^ 31) by nia. lia.
  - intros i j nx ny Hi Hj H1 H2. cbv zeta. apply Qltb_lt.
    eapply Qle_lt_trans; [apply qdiv_mul_le; lia|].
    rewrite <- Zlt_Qlt. nia.
Qed.

(** ** optimality in exact arithmetic *)

(** the surface of one processor's brick (half of it) *)
Definition surface3 (nx ny nz : Z) (g : Z * Z * Z) : Q :=
  let '(i, j, k) := g in (qdiv nx i * qdiv ny j + qdiv ny j * qdiv nz k + qdiv nx i * qdiv nz k)%Q.

Section Opt.
Variable ar : areas.
Hypothesis L : area_laws ar.
Local Notation "a [<=] b" := (alt ar b a = false) (at level 70).
Hypothesis Le : forall a b c, a [<=] b -> b [<=] c -> a [<=] c.
Hypothesis As : forall a b, alt ar a b = true -> a [<=] b.
Variables P nx ny nz : Z.
Hypothesis HP : 1 <= P.
Hypothesis Hx : in_int nx.
Hypothesis Hy : in_int ny.
Hypothesis Hz : in_int nz.
Local Notation sf g := (asurf3 ar (fst (fst g)) (snd (fst g)) (snd g) nx ny nz).
Lemma alt_refl a : a [<=] a.
Proof. destruct (alt ar a a) eqn:E; auto. rewrite (As _ _ E) in E. discriminate. Qed.
Local Notation tg := (try_grid ar nx ny nz).

(** minarea is the surface of the grid found *)
Definition oinv (st : pstate ar) : Prop :=
  match snd st with None => True | Some g => fst st = sf g end.
Definition oinv' (st : pstate ar) : Prop := oinv st /\ alt ar (abig ar) (fst st) = false.

Lemma try_oinv t st : oinv' st -> oinv' (tg t st).
Proof.
  destruct t as [[x y] z]. intros [H Hb]. unfold try_grid.
  destruct (alt ar (surfarea ar x y z nx ny nz) (fst st)) eqn:E; [|split; auto].
  destruct (surf_cases ar nx ny nz x y z) as [[Es _]|[Es _]]; rewrite Es in *.
  - congruence.
  - split; [reflexivity|]. cbn [fst].
    destruct (alt ar (abig ar) (asurf3 ar x y z nx ny nz)) eqn:F; auto.
    destruct L as (Tr & _). exfalso. pose proof (Tr _ _ _ F E). congruence.
Qed.
Lemma try_le t st : fst (tg t st) [<=] fst st.
Proof.
  destruct t as [[x y] z]. unfold try_grid.
  destruct (alt ar (surfarea ar x y z nx ny nz) (fst st)) eqn:E; [|apply alt_refl].
  apply As. exact E.
Qed.
Lemma try_hit x y z st : (nx = 1 -> x = 1) -> (ny = 1 -> y = 1) -> (nz = 1 -> z = 1) ->
  fst (tg (x, y, z) st) [<=] asurf3 ar x y z nx ny nz.
Proof.
  intros U1 U2 U3. unfold try_grid. destruct (surf_cases ar nx ny nz x y z) as [[_ N]|[Es _]]; [tauto|].
  rewrite Es. destruct (alt ar (asurf3 ar x y z nx ny nz) (fst st)) eqn:E.
  - apply alt_refl.
  - exact E.
Qed.

Lemma body_oinv ifac jk jfac st : oinv' st -> oinv' (pf_body ar P nx ny nz ifac jk st jfac).
Proof.
  intros. unfold pf_body. cbv zeta. destruct (negb _); auto. destruct (_ || _); auto. now repeat apply try_oinv.
Qed.
Lemma body_le ifac jk jfac st : fst (pf_body ar P nx ny nz ifac jk st jfac) [<=] fst st.
Proof.
  unfold pf_body. cbv zeta. destruct (negb _); [apply alt_refl|]. destruct (_ || _); [apply alt_refl|].
  do 5 (eapply Le; [apply try_le|]). apply try_le.
Qed.
Lemma inner_oinv ifac jk l st : oinv' st -> oinv' (fold_left (pf_body ar P nx ny nz ifac jk) l st).
Proof. revert st. induction l; intros st H; cbn [fold_left]; auto. apply IHl. now apply body_oinv. Qed.
Lemma inner_le ifac jk l st : fst (fold_left (pf_body ar P nx ny nz ifac jk) l st) [<=] fst st.
Proof.
  revert st. induction l; intros st; cbn [fold_left]; [apply alt_refl|].
  eapply Le; [apply IHl|apply body_le].
Qed.
Lemma outer_oinv l st : oinv' st -> oinv' (pf_outer ar P nx ny nz l st).
Proof. revert st. induction l; intros st H; cbn [pf_outer]; auto. apply IHl. now apply inner_oinv. Qed.
Lemma outer_le l st : fst (pf_outer ar P nx ny nz l st) [<=] fst st.
Proof.
  revert st. induction l; intros st; cbn [pf_outer]; [apply alt_refl|].
  eapply Le; [apply IHl|apply inner_le].
Qed.

(** a loop body for a sorted factorisation bounds all its permutations *)
Definition perm_of (a b c x y z : Z) : Prop :=
  (x, y, z) = (a, b, c) \/ (x, y, z) = (a, c, b) \/ (x, y, z) = (b, a, c) \/
  (x, y, z) = (b, c, a) \/ (x, y, z) = (c, a, b) \/ (x, y, z) = (c, b, a).

Lemma div_chain a b c : 1 <= a -> 1 <= b -> a * b * c = P -> P / a / b = c.
Proof.
  intros Ha Hb E. rewrite Z.div_div by lia. rewrite <- E, Z.mul_comm. apply Z.div_mul. nia.
Qed.

Lemma body_hit a b c st x y z : 1 <= a -> a <= b -> b <= c -> a * b * c = P ->
  perm_of a b c x y z -> (nx = 1 -> x = 1) -> (ny = 1 -> y = 1) -> (nz = 1 -> z = 1) ->
  fst (pf_body ar P nx ny nz a (P / a) st b) [<=] asurf3 ar x y z nx ny nz.
Proof.
  intros Ha Hb Hc E Hp U1 U2 U3.
  destruct (body_cases ar P nx ny nz a b st Ha ltac:(lia)) as [(_ & _ & ->)|[N _]].
  - rewrite (div_chain a b c) by lia.
    destruct Hp as [[= -> -> ->] | [[= -> -> ->] | [[= -> -> ->] | [[= -> -> ->] | [[= -> -> ->] | [= -> -> ->]]]]]];
      repeat first [apply try_hit; assumption | eapply Le; [apply try_le|]].
  - exfalso. apply N. rewrite (div_chain a b c) by lia. lia.
Qed.

Lemma outer_hit l1 l2 a b c st x y z : 1 <= a -> a <= b -> b <= c -> a * b * c = P -> In b (a :: l2) ->
  perm_of a b c x y z -> (nx = 1 -> x = 1) -> (ny = 1 -> y = 1) -> (nz = 1 -> z = 1) ->
  fst (pf_outer ar P nx ny nz (l1 ++ a :: l2) st) [<=] asurf3 ar x y z nx ny nz.
Proof.
  intros Ha Hb Hc E Hin Hp U1 U2 U3. revert st. induction l1 as [|d l1 IH]; intros st.
  - cbn [app pf_outer]. eapply Le; [apply outer_le|].
    apply in_split in Hin. destruct Hin as (m1 & m2 & ->).
    rewrite fold_left_app. cbn [fold_left]. eapply Le; [apply inner_le|].
    eapply body_hit; eauto.
  - cbn [app pf_outer]. apply IH.
Qed.

Lemma sort3 x y z : exists a b c, perm_of a b c x y z /\ a <= b /\ b <= c.
Proof.
  unfold perm_of.
  destruct (Z.le_gt_cases x y), (Z.le_gt_cases y z), (Z.le_gt_cases x z).
  - exists x, y, z. split; [tauto|lia].
  - exists x, y, z. split; [tauto|lia].
  - exists x, z, y. split; [tauto|lia].
  - exists z, x, y. split; [tauto|lia].
  - exists y, x, z. split; [tauto|lia].
  - exists y, z, x. split; [tauto|lia].
  - exists z, y, x. split; [tauto|lia].
  - exists z, y, x. split; [tauto|lia].
Qed.

Lemma procfactors_min g : (length (small_divisors P) <= NFACTOR)%nat ->
  procfactors ar P nx ny nz = Some g ->
  forall t, good_grid3 P nx ny nz t -> sf g [<=] sf t.
Proof.
  intros Hl Hg [[x y] z] (X & Y & Z' & E & U1 & U2 & U3). unfold procfactors in Hg.
  assert (O : oinv' (pf_outer ar P nx ny nz (factor P) (astart3 ar nx ny nz, None))).
  { apply outer_oinv. split; [exact I|]. destruct L as (_ & Lb & _). apply Lb; auto. }
  destruct O as [O _]. unfold oinv in O. rewrite Hg in O. rewrite <- O.
  destruct (sort3 x y z) as (a & b & c & Hp & Hab & Hbc).
  assert (Hpos : 1 <= a /\ 1 <= b /\ 1 <= c /\ a * b * c = P).
  { destruct Hp as [[= -> -> ->] | [[= -> -> ->] | [[= -> -> ->] | [[= -> -> ->] | [[= -> -> ->] | [= -> -> ->]]]]]]; lia. }
  destruct Hpos as (Pa & Pb & Pc & Epr).
  destruct (factor_split P a b) as (l1 & l2 & Ef & Hin); auto; try lia.
  - apply Z.mod_divide; [lia|]. exists (b * c). lia.
  - apply Z.mod_divide; [lia|]. exists (a * c). lia.
  - clear - Pa Pb Pc Hab Hbc Epr. assert (b * b <= b * c) by nia. assert (b * c <= a * (b * c)) by nia. lia.
  - rewrite Ef. eapply outer_hit; eauto.
Qed.
End Opt.
Lemma exact_min P nx ny nz g : 1 <= P -> in_int nx -> in_int ny -> in_int nz -> (length (small_divisors P) <= NFACTOR)%nat ->
  procfactors exact_areas P nx ny nz = Some g ->
  forall t, good_grid3 P nx ny nz t -> (surface3 nx ny nz g <= surface3 nx ny nz t)%Q.
Proof.
  intros HP Hx Hy Hz Hl Hg t Ht.
  assert (H := procfactors_min exact_areas exact_laws
    ltac:(cbn [alt exact_areas]; intros a b c A B; apply Qltb_ge in A, B; apply Qltb_ge; eapply Qle_trans; eassumption)
    ltac:(cbn [alt exact_areas]; intros a b A; apply Qltb_lt in A; apply Qltb_ge; now apply Qlt_le_weak)
    P nx ny nz HP Hx Hy Hz g Hl Hg t Ht).
  destruct g as [[? ?] ?], t as [[? ?] ?]. apply Qltb_ge in H. exact H.
Qed.

(** 2d: the library's "surface" is the area of the tile, which does not depend on
    the grid, so in exact arithmetic the first candidate 1 x P is always taken *)
Lemma surf2_const P nx ny i j : 1 <= i -> 1 <= j -> i * j = P -> (qdiv nx i * qdiv ny j == qdiv (nx * ny) P)%Q.
Proof.
  intros Hi Hj <-. unfold qdiv. rewrite !inject_Z_mult. field. split.
  - change 0%Q with (inject_Z 0). rewrite inject_Z_injective. lia.
  - change 0%Q with (inject_Z 0). rewrite inject_Z_injective. lia.
Qed.
Section Two.
Variable ar : areas.
Hypothesis L : area_laws ar.
Variables P nx ny : Z.
Hypothesis HP : 1 <= P.
Hypothesis Hx : 2 <= nx <= INT_MAX.
Hypothesis Hy : 2 <= ny <= INT_MAX.
Hypothesis Flat : forall i j, 1 <= i -> 1 <= j -> i * j = P -> alt ar (asurf2 ar i j nx ny) (asurf2 ar 1 P nx ny) = false.
Definition tinv (st : pstate2 ar) : Prop := snd st = Some (1, P) /\ fst st = asurf2 ar 1 P nx ny.
Lemma surf2_plain i j : surfarea2 ar i j nx ny = asurf2 ar i j nx ny.
Proof.
  unfold surfarea2. destruct (Z.eqb_spec nx 1); [lia|]. destruct (Z.eqb_spec ny 1); [lia|]. reflexivity.
Qed.
Lemma try2_tinv i j st : 1 <= i -> 1 <= j -> i * j = P -> tinv st -> tinv (try_grid2 ar nx ny (i, j) st).
Proof.
  intros Hi Hj E [H1 H2]. unfold try_grid2. rewrite surf2_plain.
  destruct (alt ar (asurf2 ar i j nx ny) (fst st)) eqn:F; [|split; auto].
  rewrite H2, Flat in F by auto. discriminate.
Qed.
Lemma body2_tinv i j st : 1 <= i -> tinv st -> tinv (pf_body2 ar P nx ny i st j).
Proof.
  intros Hi H. unfold pf_body2. cbv zeta. destruct (Z.eqb_spec (i * (P / i)) P); cbn [negb]; auto.
  destruct (Z.gtb_spec i (P / i)); auto. apply try2_tinv; try lia. apply try2_tinv; auto; lia.
Qed.
Lemma inner2_tinv i l st : 1 <= i -> tinv st -> tinv (fold_left (pf_body2 ar P nx ny i) l st).
Proof. intros Hi. revert st. induction l; intros st H; cbn [fold_left]; auto. apply IHl. now apply body2_tinv. Qed.
Lemma outer2_tinv l st : (forall d, In d l -> 1 <= d) -> tinv st -> tinv (pf_outer2 ar P nx ny l st).
Proof.
  revert st. induction l as [|d l IH]; intros st Hl H; cbn [pf_outer2]; auto.
  apply IH; [intros; apply Hl; now right|]. apply inner2_tinv; auto. apply Hl; now left.
Qed.
Lemma procfactors2_flat : procfactors2 ar P nx ny = Some (1, P).
Proof.
  unfold procfactors2. destruct (factor_cons P HP) as [t E].
  assert (Hf : forall d, In d (factor P) -> 1 <= d) by (intros d Hd; apply factor_In in Hd; auto; lia).
  rewrite E in *. cbn [pf_outer2 fold_left].
  enough (T : tinv (pf_body2 ar P nx ny 1 (astart2 ar nx ny, None) 1)).
  { apply (outer2_tinv t); [intros; apply Hf; now right|]. apply inner2_tinv; auto. lia. }
  unfold pf_body2. cbv zeta. rewrite Z.div_1_r, Z.mul_1_l, Z.eqb_refl. cbn [negb].
  destruct (Z.gtb_spec 1 P); [lia|]. apply try2_tinv; try lia.
  unfold try_grid2. rewrite surf2_plain. cbn [fst].
  destruct L as (_ & _ & _ & _ & Ls). unfold in_int in Ls.
  pose proof (Ls 1 P nx ny ltac:(lia) ltac:(lia) ltac:(lia) ltac:(lia)) as Hlt.
  rewrite Hlt. split; reflexivity.
Qed.
End Two.
Lemma exact_flat P nx ny : 1 <= P -> 2 <= nx <= INT_MAX -> 2 <= ny <= INT_MAX -> procfactors2 exact_areas P nx ny = Some (1, P).
Proof.
  intros HP Hx Hy. apply procfactors2_flat; auto using exact_laws.
  intros i j Hi Hj E. apply Qltb_ge. cbn [asurf2 exact_areas].
  rewrite (surf2_const P nx ny i j), (surf2_const P nx ny 1 P) by lia. apply Qle_refl.
Qed.

(** ** the split of one dimension *)
Definition inpart (x ip n np : Z) : Prop := part_lo ip n np <= x <= part_hi ip n np.

Lemma part_legal ip n np : 0 <= n -> 1 <= np -> part_lo ip n np <= part_hi ip n np + 1.
Proof.
  intros. unfold part_lo, part_hi. replace ((ip + 1) * n / np - 1 + 1) with ((ip + 1) * n / np) by lia.
  apply Z.div_le_mono; nia.
Qed.
Lemma part_in_range x ip n np : 0 <= n -> 1 <= np -> 0 <= ip < np -> inpart x ip n np -> 0 <= x < n.
Proof.
  intros Hn Hp Hi [H1 H2]. unfold part_lo, part_hi in *. split.
  - assert (0 <= ip * n / np) by (apply Z.div_pos; nia). lia.
  - assert ((ip + 1) * n / np <= n); [|lia]. apply Z.div_le_upper_bound; nia.
Qed.
Lemma inpart_iff x ip n np : 1 <= np -> (inpart x ip n np <-> ip * n < (x + 1) * np /\ (x + 1) * np <= (ip + 1) * n).
Proof.
  intros Hp. unfold inpart, part_lo, part_hi. split.
  - intros [H1 H2]. split.
    + pose proof (Z.mul_succ_div_gt (ip * n) np ltac:(lia)). nia.
    + pose proof (Z.mul_div_le ((ip + 1) * n) np ltac:(lia)). nia.
  - intros [H1 H2]. split.
    + assert (ip * n / np < x + 1); [|lia]. apply Z.div_lt_upper_bound; lia.
    + assert (x + 1 <= (ip + 1) * n / np); [|lia]. apply Z.div_le_lower_bound; lia.
Qed.
Lemma part_cover x n np : 1 <= np -> 0 <= x < n -> exists ip, 0 <= ip < np /\ inpart x ip n np.
Proof.
  intros Hp Hx. exists (((x + 1) * np - 1) / n).
  pose proof (Z.div_mod ((x + 1) * np - 1) n ltac:(lia)) as E.
  pose proof (Z.mod_pos_bound ((x + 1) * np - 1) n ltac:(lia)) as B.
  set (q := ((x + 1) * np - 1) / n) in *. clearbody q.
  split; [split; nia|]. apply inpart_iff; auto. nia.
Qed.
Lemma part_unique x n np ip ip' : 1 <= np -> 1 <= n -> inpart x ip n np -> inpart x ip' n np -> ip = ip'.
Proof.
  intros Hp Hn H1 H2. apply inpart_iff in H1; auto. apply inpart_iff in H2; auto. nia.
Qed.
Lemma part_one n : part_lo 0 n 1 = 0 /\ part_hi 0 n 1 = n - 1.
Proof. unfold part_lo, part_hi. rewrite !Z.div_1_r. lia. Qed.

(** ** location in the processor grid *)
Lemma ploc_range x y z me : 1 <= x -> 1 <= y -> 1 <= z -> 0 <= me < x * y * z ->
  let '(a, b, c) := ploc (x, y, z) me in
  0 <= a < x /\ 0 <= b < y /\ 0 <= c < z /\ me = a + x * (b + y * c).
Proof.
  intros X Y Z' Hm. cbn [ploc].
  pose proof (Z.mod_pos_bound me x ltac:(lia)). pose proof (Z.mod_pos_bound (me / x) y ltac:(lia)).
  split; auto. split; auto. rewrite <- Z.div_div by lia. split.
  - rewrite Z.div_div by lia. split; [apply Z.div_pos; nia|apply Z.div_lt_upper_bound; nia].
  - pose proof (Z.div_mod me x ltac:(lia)). pose proof (Z.div_mod (me / x) y ltac:(lia)). nia.
Qed.
Lemma ploc_of x y z a b c : 1 <= x -> 1 <= y -> 1 <= z -> 0 <= a < x -> 0 <= b < y -> 0 <= c < z ->
  ploc (x, y, z) (a + x * (b + y * c)) = (a, b, c) /\ 0 <= a + x * (b + y * c) < x * y * z.
Proof.
  intros X Y Z' Ha Hb Hc. cbn [ploc].
  assert (E1 : (a + x * (b + y * c)) / x = b + y * c).
  { rewrite Z.mul_comm, Z.div_add, (Z.div_small a x) by lia. lia. }
  assert (E2 : (b + y * c) / y = c).
  { rewrite Z.mul_comm, Z.div_add, (Z.div_small b y) by lia. lia. }
  split.
  - rewrite <- Z.div_div by lia. rewrite E1, E2.
    assert (E3 : (a + x * (b + y * c)) mod x = a) by (rewrite Z.mul_comm, Z.mod_add by lia; now apply Z.mod_small).
    assert (E4 : (b + y * c) mod y = b) by (rewrite Z.mul_comm, Z.mod_add by lia; now apply Z.mod_small).
    now rewrite E3, E4.
  - split; [nia|]. assert (b + y * c <= y * z - 1) by nia. nia.
Qed.

Lemma gbox3_tiling (n : nat) nx ny nz g : 1 <= nx -> 1 <= ny -> 1 <= nz ->
  (let '(x, y, z) := g in 1 <= x /\ 1 <= y /\ 1 <= z /\ x * y * z = Z.of_nat n) ->
  tiling3 n (nx, ny, nz) (fun r => gbox3 (nx, ny, nz) g (Z.of_nat r)).
Proof.
  intros Nx Ny Nz. destruct g as [[x y] z]. intros (X & Y & Z' & E).
  assert (U : forall r p, (r < n)%nat ->
    (inb3 p (gbox3 (nx, ny, nz) (x, y, z) (Z.of_nat r)) <->
     let '(a, b, c) := ploc (x, y, z) (Z.of_nat r) in
     let '(i, j, k) := p in inpart i a nx x /\ inpart j b ny y /\ inpart k c nz z)).
  { intros r [[i j] k] Hr. unfold gbox3. destruct (ploc (x, y, z) (Z.of_nat r)) as [[a b] c]. reflexivity. }
  split; [|split].
  - intros [[i j] k] r Hr H. apply U in H; auto.
    pose proof (ploc_range x y z (Z.of_nat r) X Y Z' ltac:(lia)) as R.
    destruct (ploc (x, y, z) (Z.of_nat r)) as [[a b] c]. destruct R as (R1 & R2 & R3 & _), H as (H1 & H2 & H3).
    apply part_in_range in H1; try lia. apply part_in_range in H2; try lia. apply part_in_range in H3; try lia.
    cbn. lia.
  - intros [[i j] k] r r' Hr Hr' H H'. apply U in H; auto. apply U in H'; auto.
    pose proof (ploc_range x y z (Z.of_nat r) X Y Z' ltac:(lia)) as R.
    pose proof (ploc_range x y z (Z.of_nat r') X Y Z' ltac:(lia)) as R'.
    destruct (ploc (x, y, z) (Z.of_nat r)) as [[a b] c], (ploc (x, y, z) (Z.of_nat r')) as [[a' b'] c'].
    destruct R as (R1 & R2 & R3 & Er), R' as (R1' & R2' & R3' & Er').
    destruct H as (H1 & H2 & H3), H' as (H1' & H2' & H3').
    assert (a = a') as <- by (apply (part_unique i nx x); auto).
    assert (b = b') as <- by (apply (part_unique j ny y); auto).
    assert (c = c') as <- by (apply (part_unique k nz z); auto). lia.
  - intros [[i j] k] H. cbn in H. destruct H as (H1 & H2 & H3).
    destruct (part_cover i nx x X ltac:(lia)) as (a & Ra & Ia).
    destruct (part_cover j ny y Y ltac:(lia)) as (b & Rb & Ib).
    destruct (part_cover k nz z Z' ltac:(lia)) as (c & Rc & Ic).
    destruct (ploc_of x y z a b c X Y Z' Ra Rb Rc) as [El Em].
    exists (Z.to_nat (a + x * (b + y * c))). split; [lia|].
    apply U; [lia|]. rewrite Z2Nat.id by lia. rewrite El. auto.
Qed.
Lemma gbox3_legal nx ny nz g me : 0 <= nx -> 0 <= ny -> 0 <= nz ->
  (let '(x, y, z) := g in 1 <= x /\ 1 <= y /\ 1 <= z) -> legal3 (gbox3 (nx, ny, nz) g me).
Proof.
  intros. destruct g as [[x y] z]. unfold gbox3. destruct (ploc (x, y, z) me) as [[a b] c].
  unfold legal3, ni, nj, nk. cbn [ilo ihi jlo jhi klo khi].
  pose proof (part_legal a nx x). pose proof (part_legal b ny y). pose proof (part_legal c nz z). lia.
Qed.

(** the pencil boxes are grid boxes *)
Lemma fast_box3_eq N np2 np3 me : fast_box3 N (1, np2, np3) me = gbox3 N (1, np2, np3) me.
Proof.
  destruct N as [[nx ny] nz]. cbn [fast_box3 gbox3 ploc]. rewrite Z.mod_1_r.
  destruct (part_one nx) as [-> ->]. reflexivity.
Qed.
Lemma mid_box3_eq N np1 np3 me : mid_box3 N (np1, 1, np3) me = gbox3 N (np1, 1, np3) me.
Proof.
  destruct N as [[nx ny] nz]. cbn [mid_box3 gbox3 ploc]. rewrite Z.mod_1_r.
  destruct (part_one ny) as [-> ->]. reflexivity.
Qed.
Lemma slow_box3_eq N np1 np2 (me : Z) : 1 <= np1 -> 1 <= np2 -> 0 <= me < np1 * np2 ->
  slow_box3 N (np1, np2, 1) me = gbox3 N (np1, np2, 1) me.
Proof.
  intros. destruct N as [[nx ny] nz]. cbn [slow_box3 gbox3 ploc]. rewrite (Z.div_small me (np1 * np2)) by lia.
  destruct (part_one nz) as [-> ->]. reflexivity.
Qed.

(** ** 2d *)
Lemma gbox2_tiling (n : nat) nx ny g : 1 <= nx -> 1 <= ny ->
  (let '(x, y) := g in 1 <= x /\ 1 <= y /\ x * y = Z.of_nat n) ->
  tiling2 n (nx, ny) (fun r => gbox2 (nx, ny) g (Z.of_nat r)).
Proof.
  intros Nx Ny. destruct g as [x y]. intros (X & Y & E).
  assert (R : forall r, (r < n)%nat -> 0 <= Z.of_nat r mod x < x /\ 0 <= Z.of_nat r / x < y /\
      Z.of_nat r = Z.of_nat r mod x + x * (Z.of_nat r / x)).
  { intros r Hr. split; [apply Z.mod_pos_bound; lia|]. split.
    - split; [apply Z.div_pos; lia|apply Z.div_lt_upper_bound; lia].
    - pose proof (Z.div_mod (Z.of_nat r) x ltac:(lia)). lia. }
  split; [|split].
  - intros [i j] r Hr [H1 H2]. destruct (R r Hr) as (R1 & R2 & _).
    apply part_in_range in H1; try lia. apply part_in_range in H2; try lia. cbn. lia.
  - intros [i j] r r' Hr Hr' [H1 H2] [H1' H2'].
    destruct (R r Hr) as (R1 & R2 & E1). destruct (R r' Hr') as (R1' & R2' & E1').
    cbn [gbox2 ploc2 ilo2 ihi2 jlo2 jhi2] in *.
    pose proof (part_unique i nx x _ _ X Nx H1 H1'). pose proof (part_unique j ny y _ _ Y Ny H2 H2').
    apply Nat2Z.inj. rewrite E1, E1'. congruence.
  - intros [i j] H. cbn in H.
    destruct (part_cover i nx x X ltac:(lia)) as (a & Ra & Ia).
    destruct (part_cover j ny y Y ltac:(lia)) as (b & Rb & Ib).
    exists (Z.to_nat (a + x * b)). split; [nia|].
    unfold gbox2, ploc2. rewrite Z2Nat.id by nia.
    assert (E1 : (a + x * b) / x = b) by (rewrite Z.mul_comm, Z.div_add, (Z.div_small a x) by lia; lia).
    assert (E2 : (a + x * b) mod x = a) by (rewrite Z.mul_comm, Z.mod_add by lia; now apply Z.mod_small).
    rewrite E1, E2. split; [exact Ia|exact Ib].
Qed.
Lemma gbox2_legal nx ny g me : 0 <= nx -> 0 <= ny -> (let '(x, y) := g in 1 <= x /\ 1 <= y) -> legal2 (gbox2 (nx, ny) g me).
Proof.
  intros. destruct g as [x y]. unfold gbox2, ploc2, legal2, ni2, nj2. cbn [ilo2 ihi2 jlo2 jhi2].
  pose proof (part_legal (me mod x) nx x). pose proof (part_legal (me / x) ny y). lia.
Qed.
Lemma fast_box2_eq N np me : fast_box2 N np me = gbox2 N (1, np) me.
Proof.
  destruct N as [nx ny]. cbn [fast_box2 gbox2 ploc2]. rewrite Z.mod_1_r, Z.div_1_r.
  destruct (part_one nx) as [-> ->]. reflexivity.
Qed.
Lemma slow_box2_eq N np me : 0 <= me < np -> slow_box2 N np me = gbox2 N (np, 1) me.
Proof.
  intros. destruct N as [nx ny]. cbn [slow_box2 gbox2 ploc2].
  rewrite Z.mod_small, Z.div_small by lia. destruct (part_one ny) as [-> ->]. reflexivity.
Qed.
