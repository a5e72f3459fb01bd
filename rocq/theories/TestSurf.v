(** TestSurf.v : the processor grids the test programs choose have the least true surface, up to the rounding of doubles. *)

From Coq Require Import QArith Lqa.
From Verif Require Import Base Spec Sched Layout LayoutProofs Setup3d Setup2d LayoutFinal Double DoubleProofs TestProg TestLayProofs TestFinal.
Local Open Scope Z_scope.

(** exact surface (half of it) of a box of nx/i x ny/j x nz/k points, exact half perimeter of nx/i x ny/j points *)
Definition true3 (N g : Z * Z * Z) : Q :=
  let '(nx, ny, nz) := N in let '(i, j, k) := g in
  let x := (inject_Z nx / inject_Z i)%Q in let y := (inject_Z ny / inject_Z j)%Q in let z := (inject_Z nz / inject_Z k)%Q in
  (x * y + y * z + z * x)%Q.
Definition true2 (N g : Z * Z) : Q :=
  let '(nx, ny) := N in let '(i, j) := g in (inject_Z nx / inject_Z i + inject_Z ny / inject_Z j)%Q.

Local Notation lo := (1 - u)%Q.
Local Notation hi := (1 + u)%Q.
Section Rd.
Variable rd : Q -> Q.
Hypothesis L : rd_laws rd.
Lemma near_rd l h a A : (0 < l)%Q -> (0 < A)%Q -> near l h a A -> near (lo * l) (hi * h) (rd a) A.
Proof.
  intros Hl HA [H1 H2]. assert (0 < l * A)%Q by now apply mul_pos.
  destruct (proj1 (proj2 (proj2 (proj2 L))) a) as [E1 E2]; [lra|]. split.
  - eapply Qle_trans; [|exact E1]. rewrite <- Qmult_assoc. apply mul_le; try (apply Qle_refl); auto. reflexivity.
  - eapply Qle_trans; [exact E2|]. rewrite <- Qmult_assoc. apply mul_le; try (apply Qle_refl); auto; [reflexivity|lra].
Qed.
Lemma frac_pos n i : 1 <= n -> 1 <= i -> (0 < inject_Z n / inject_Z i)%Q.
Proof. intros. unfold Qdiv. apply mul_pos; [apply inj_pos; lia|]. apply Qinv_lt_0_compat. apply inj_pos. lia. Qed.
Lemma near_refl a : near 1 1 a a.
Proof. split; lra. Qed.
Lemma near_frac n i : 1 <= n -> 1 <= i -> near lo hi (rd (inject_Z n / inject_Z i)) (inject_Z n / inject_Z i).
Proof.
  intros Hn Hi. eapply near_weak; [| |apply frac_pos; assumption|apply (near_rd 1 1); [reflexivity|apply frac_pos; assumption|apply near_refl]]; lra.
Qed.
Lemma near_prod n i m j : 1 <= n -> 1 <= i -> 1 <= m -> 1 <= j ->
  near (lo * (lo * lo)) (hi * (hi * hi)) (rd (rd (inject_Z n / inject_Z i) * rd (inject_Z m / inject_Z j))) (inject_Z n / inject_Z i * (inject_Z m / inject_Z j)).
Proof.
  intros. apply near_rd; [reflexivity|apply mul_pos; apply frac_pos; assumption|]. apply near_mul; try reflexivity; try (apply frac_pos; assumption); apply near_frac; assumption.
Qed.
Lemma true3_pos N g P : pos3d N -> factors3 P g -> (0 < true3 N g)%Q.
Proof.
  destruct N as [[nx ny] nz], g as [[i j] k]. intros (X & Y & Z') (I & J & K & _). unfold true3.
  pose proof (mul_pos _ _ (frac_pos nx i X I) (frac_pos ny j Y J)). pose proof (mul_pos _ _ (frac_pos ny j Y J) (frac_pos nz k Z' K)).
  pose proof (mul_pos _ _ (frac_pos nz k Z' K) (frac_pos nx i X I)). cbv zeta. lra.
Qed.
Lemma surf3_near N g P : pos3d N -> factors3 P g -> near (lo * (lo * (lo * (lo * lo)))) (hi * (hi * (hi * (hi * hi)))) (surf3 rd N g) (true3 N g).
Proof.
  destruct N as [[nx ny] nz], g as [[i j] k]. intros (X & Y & Z') (I & J & K & _). unfold true3, surf3. cbv zeta.
  pose proof (mul_pos _ _ (frac_pos nx i X I) (frac_pos ny j Y J)) as Pa. pose proof (mul_pos _ _ (frac_pos ny j Y J) (frac_pos nz k Z' K)) as Pb.
  pose proof (mul_pos _ _ (frac_pos nz k Z' K) (frac_pos nx i X I)) as Pc.
  apply near_rd; [reflexivity|lra|]. apply near_add.
  - apply near_rd; [reflexivity|lra|]. apply near_add; apply near_prod; assumption.
  - eapply near_weak; [| |exact Pc|apply near_prod; assumption]; apply Qle_bool_iff; vm_compute; reflexivity.
Qed.
Lemma true2_pos N g P : pos2d N -> factors2 P g -> (0 < true2 N g)%Q.
Proof.
  destruct N as [nx ny], g as [i j]. intros (X & Y) (I & J & _). unfold true2. pose proof (frac_pos nx i X I). pose proof (frac_pos ny j Y J). lra.
Qed.
Lemma surf2_near N g P : pos2d N -> factors2 P g -> near (lo * lo) (hi * hi) (surf2 rd N g) (true2 N g).
Proof.
  destruct N as [nx ny], g as [i j]. intros (X & Y) (I & J & _). unfold true2, surf2. cbv zeta. pose proof (frac_pos nx i X I). pose proof (frac_pos ny j Y J).
  apply near_rd; [reflexivity|lra|]. apply near_add; apply near_frac; assumption.
Qed.
Lemma near_least l h c s t S T : (0 < l)%Q -> (0 < T)%Q -> (h <= l * c)%Q -> near l h s S -> near l h t T -> (s <= t)%Q -> (S <= c * T)%Q.
Proof.
  intros Hl HT Hc (A & _) (_ & B) H. assert (E : (l * S <= l * (c * T))%Q).
  { eapply Qle_trans; [exact A|]. eapply Qle_trans; [exact H|]. eapply Qle_trans; [exact B|]. rewrite Qmult_assoc. apply Qmult_le_compat_r; [exact Hc|now apply Qlt_le_weak]. }
  apply Qmult_le_l in E; assumption.
Qed.
Definition least3 (P : Z) (N g : Z * Z * Z) : Prop := forall g', factors3 P g' -> (true3 N g <= (1 + (1 # 2 ^ 49)) * true3 N g')%Q.
Definition least2 (P : Z) (N g : Z * Z) : Prop := forall g', factors2 P g' -> (true2 N g <= (1 + (1 # 2 ^ 49)) * true2 N g')%Q.
Lemma smallest3_least P N g : pos3d N -> factors3 P g -> smallest3 rd P N g -> least3 P N g.
Proof.
  intros HN F S g' F'. apply (near_least (lo * (lo * (lo * (lo * lo)))) (hi * (hi * (hi * (hi * hi)))) _ (surf3 rd N g) (surf3 rd N g')).
  - reflexivity.
  - apply (true3_pos N g' P); assumption.
  - apply Qle_bool_iff. vm_compute. reflexivity.
  - apply (surf3_near N g P); assumption.
  - apply (surf3_near N g' P); assumption.
  - apply S, F'.
Qed.
Lemma smallest2_least P N g : pos2d N -> factors2 P g -> smallest2 rd P N g -> least2 P N g.
Proof.
  intros HN F S g' F'. apply (near_least (lo * lo) (hi * hi) _ (surf2 rd N g) (surf2 rd N g')).
  - reflexivity.
  - apply (true2_pos N g' P); assumption.
  - apply Qle_bool_iff. vm_compute. reflexivity.
  - apply (surf2_near N g P); assumption.
  - apply (surf2_near N g' P); assumption.
  - apply S, F'.
Qed.
Theorem C55_surface3_proof (n : nat) mode N pin pout : (1 <= n)%nat -> ints3d N -> small3 (Z.of_nat n) N -> 0 <= mode <= 3 ->
  given3 (Z.of_nat n) pin -> given3 (Z.of_nat n) pout ->
  exists gi go, proc_setup3 rd (Z.of_nat n) mode N pin pout = Some (gi, go) /\
    (pin = (0, 0, 0) -> least3 (Z.of_nat n) N gi) /\ (pout = (0, 0, 0) -> mode = 0 \/ mode = 2 -> least3 (Z.of_nat n) N go) /\
    (pout = (0, 0, 0) -> mode = 1 \/ mode = 3 -> snd go = 1 /\ least2 (Z.of_nat n) (fst N) (fst go)).
Proof.
  intros Hn HN Hs Hm Hi Ho. destruct (C55_3d_proof rd double_areas n (mkset 0 0 0) mode N pin pout L double_laws Hn HN Hs Hm Hi Ho) as (gi & go & E & F1 & F2 & _ & S1 & _ & S2 & S3 & _).
  destruct (ints3d_pos N HN) as (Hp & _). exists gi, go. split; [exact E|]. split; [intros H; apply smallest3_least; auto|]. split; [intros H H'; apply smallest3_least; auto|].
  intros H H'. destruct (S3 H H') as (A & B). split; [exact A|]. destruct N as [[nx ny] nz], go as [[x y] z]. cbn [fst snd] in *. subst z.
  destruct Hp as (X & Y & _), F2 as (F2 & F3 & _ & F4). apply smallest2_least; [split; assumption|unfold factors2; lia|exact B].
Qed.
Theorem C55_surface2_proof (n : nat) N pin pout : (1 <= n)%nat -> ints2d N -> small2 (Z.of_nat n) N ->
  given2 (Z.of_nat n) pin -> given2 (Z.of_nat n) pout ->
  exists gi go, proc_setup2 rd (Z.of_nat n) N pin pout = Some (gi, go) /\ (pin = (0, 0) -> least2 (Z.of_nat n) N gi).
Proof.
  intros Hn HN Hs Hi Ho. destruct (C55_2d_proof rd double_areas n (mkset 0 0 0) 0 N pin pout L double_laws Hn HN Hs Hi Ho) as (gi & go & E & F1 & F2 & _ & S1 & _).
  destruct (ints2d_pos N HN) as (Hp & _). exists gi, go. split; [exact E|]. intros H. apply smallest2_least; auto.
Qed.
End Rd.
