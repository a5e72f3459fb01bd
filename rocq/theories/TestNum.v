(** TestNum.v : what the numbers on the command line of the test programs mean, without reference to atoi() (specification), and
    that atoi() reads them so. *)

From Coq Require Import String Ascii.
From Verif Require Import Base TestProg TestDataProofs TestOpt.
Local Open Scope Z_scope.
Local Open Scope list_scope.

(** ** specification *)
Definition blanks : list ascii := map ascii_of_nat [9; 10; 11; 12; 13; 32]%nat.
Definition figure (d : nat) : ascii := ascii_of_nat (48 + d).
(** the value of a list of decimal figures: each counts ten to the number of figures after it *)
Fixpoint decimal (ds : list nat) : Z :=
  match ds with [] => 0 | d :: t => Z.of_nat d * 10 ^ Z.of_nat (List.length t) + decimal t end.
Fixpoint str (l : list ascii) : string := match l with [] => EmptyString | c :: t => String c (str t) end.
(** [s] starts with blanks, an optional sign and at least one figure; [v] is the number up to the first other character *)
Definition writes (s : string) (v : Z) : Prop :=
  exists bl sg ds rest, (forall c, In c bl -> In c blanks) /\ (forall d, In d ds -> (d <= 9)%nat) /\ ds <> [] /\
    (forall d, (d <= 9)%nat -> String.prefix (String (figure d) EmptyString) rest = false) /\
    s = (str bl ++ (sg ++ (str (map figure ds) ++ rest)))%string /\
    ((sg = "" \/ sg = "+")%string /\ v = decimal ds \/ sg = "-"%string /\ v = - decimal ds).

(** ** proofs *)
Lemma code_figure d : (d <= 9)%nat -> code (figure d) = 48 + Z.of_nat d.
Proof. intros H. unfold code, figure. rewrite nat_ascii_embedding by lia. lia. Qed.
Lemma is_figure c : 48 <= code c <= 57 -> exists d, (d <= 9)%nat /\ c = figure d.
Proof.
  intros H. exists (Z.to_nat (code c - 48)). unfold code in *. split; [lia|]. unfold figure. rewrite <- (ascii_nat_embedding c) at 1. f_equal. lia.
Qed.
Lemma space_blank c : is_space c = true <-> In c blanks.
Proof.
  unfold is_space, blanks. split.
  - intros H. rewrite <- (ascii_nat_embedding c). apply in_map. unfold code in H.
    apply orb_true_iff in H as [H|H]; [apply Z.eqb_eq in H|apply andb_true_iff in H as (H1 & H2); apply Z.leb_le in H1, H2].
    + replace (nat_of_ascii c) with 32%nat by lia. cbn; tauto.
    + assert (Z.to_nat 9 <= nat_of_ascii c <= Z.to_nat 13)%nat by lia. cbn in H. change (Z.to_nat 9) with 9%nat in H; change (Z.to_nat 13) with 13%nat in H.
      destruct (nat_of_ascii c) as [|[|[|[|[|[|[|[|[|[|[|[|[|[|m]]]]]]]]]]]]]]; try lia; cbn; tauto.
  - intros H. cbn in H. repeat (destruct H as [<- | H]; [reflexivity|]). destruct H.
Qed.
Lemma skip_blanks bl s : (forall c, In c bl -> In c blanks) -> skip (str bl ++ s)%string = skip s.
Proof.
  induction bl as [|c bl IH]; intros H; [reflexivity|]. cbn [str String.append skip]. rewrite (proj2 (space_blank c) (H c (or_introl eq_refl))). apply IH. intros; apply H; right; assumption.
Qed.
Definition stops (rest : string) : Prop := forall d, (d <= 9)%nat -> String.prefix (String (figure d) EmptyString) rest = false.
Lemma digits_stop acc rest : stops rest -> digits acc rest = acc.
Proof.
  intros H. destruct rest as [|c t]; [reflexivity|]. cbn [digits]. destruct ((48 <=? code c) && (code c <=? 57)) eqn:E; [|reflexivity].
  apply andb_true_iff in E as (E1 & E2). apply Z.leb_le in E1, E2. destruct (is_figure c (conj E1 E2)) as (d & Hd & ->).
  specialize (H d Hd). cbn [String.prefix] in H. destruct (ascii_dec (figure d) (figure d)) as [_|N]; [destruct t; discriminate H|exfalso; apply N; reflexivity].
Qed.
Lemma digits_value ds rest : (forall d, In d ds -> (d <= 9)%nat) -> stops rest -> forall acc,
  digits acc (str (map figure ds) ++ rest)%string = acc * 10 ^ Z.of_nat (List.length ds) + decimal ds.
Proof.
  intros H Hs. induction ds as [|d ds IH]; intros acc.
  - cbn [map str String.append List.length decimal]. rewrite digits_stop by exact Hs. change (Z.of_nat 0) with 0. lia.
  - cbn [map str String.append digits]. pose proof (H d (or_introl eq_refl)) as Hd. rewrite (code_figure d Hd).
    destruct (Z.leb_spec 48 (48 + Z.of_nat d)); [|lia]. destruct (Z.leb_spec (48 + Z.of_nat d) 57); [|lia]. cbn [andb].
    rewrite IH by (intros; apply H; right; assumption). cbn [decimal List.length]. rewrite Nat2Z.inj_succ, Z.pow_succ_r by lia. ring.
Qed.
Lemma figure_plain d : (d <= 9)%nat -> is_space (figure d) = false /\ (code (figure d) =? 45) = false /\ (code (figure d) =? 43) = false.
Proof.
  intros H. unfold is_space. rewrite (code_figure d H). split; [|split; apply Z.eqb_neq; lia]. apply orb_false_iff. split; [apply Z.eqb_neq; lia|].
  apply andb_false_iff. right. apply Z.leb_gt. lia.
Qed.
Lemma atoi_reads s v : writes s v -> atoi s = if (- 2 ^ 31 <=? v) && (v <=? 2 ^ 31 - 1) then Some v else None.
Proof.
  intros (bl & sg & ds & rest & Hb & Hd & Hne & Hs & -> & Hv). unfold atoi. rewrite skip_blanks by exact Hb.
  assert (D : digits 0 (str (map figure ds) ++ rest)%string = decimal ds) by (rewrite digits_value by assumption; lia).
  destruct ds as [|d ds]; [contradiction|]. destruct (figure_plain d (Hd d (or_introl eq_refl))) as (F1 & F2 & F3).
  destruct Hv as [([-> | ->] & ->)|(-> & ->)].
  - cbn [String.append map str skip]. rewrite F1, F2, F3. cbn [map str String.append] in D. rewrite D. reflexivity.
  - cbn [String.append skip]. change (is_space "+") with false. change (code "+" =? 45) with false. change (code "+" =? 43) with true. cbn iota. rewrite D. reflexivity.
  - cbn [String.append skip]. change (is_space "-") with false. change (code "-" =? 45) with true. cbn iota. rewrite D. reflexivity.
Qed.
Lemma skip_split s : exists bl, (forall c, In c bl -> In c blanks) /\ s = (str bl ++ skip s)%string.
Proof.
  induction s as [|c s (bl & Hb & E)]; [exists []; split; [intros ? []|reflexivity]|]. cbn [skip]. destruct (is_space c) eqn:X.
  - exists (c :: bl). split; [intros x [<- | Hx]; [apply space_blank, X|apply Hb, Hx]|]. cbn [str String.append]. f_equal. exact E.
  - exists []. split; [intros ? []|reflexivity].
Qed.
Lemma prefix1 c s : String.prefix (String c EmptyString) s = true -> exists t, s = String c t.
Proof. destruct s as [|a s]; [discriminate|]. cbn [String.prefix]. destruct (ascii_dec c a) as [->|]; [eauto|discriminate]. Qed.
Lemma figures_split s : exists ds rest, (forall d, In d ds -> (d <= 9)%nat) /\ stops rest /\ s = (str (map figure ds) ++ rest)%string.
Proof.
  induction s as [|c s (ds & rest & Hd & Hs & E)]; [exists [], EmptyString; split; [intros ? []|split; [intros d _; reflexivity|reflexivity]]|].
  destruct ((48 <=? code c) && (code c <=? 57)) eqn:X.
  - apply andb_true_iff in X as (E1 & E2). apply Z.leb_le in E1, E2. destruct (is_figure c (conj E1 E2)) as (d & Hd' & ->).
    exists (d :: ds), rest. split; [intros x [<- | Hx]; [exact Hd'|apply Hd, Hx]|]. split; [exact Hs|]. cbn [map str String.append]. f_equal. exact E.
  - exists [], (String c s). split; [intros ? []|]. split; [|reflexivity]. intros d Hd'. apply not_true_iff_false. intros Y. apply prefix1 in Y as (t & [= -> ->]).
    rewrite code_figure in X by exact Hd'. apply andb_false_iff in X as [X|X]; apply Z.leb_gt in X; lia.
Qed.
Lemma atoi_other s : (forall v, ~ writes s v) -> atoi s = Some 0.
Proof.
  intros H. destruct (skip_split s) as (bl & Hb & E).
  assert (G : forall sg t, skip s = (sg ++ t)%string -> (sg = "" \/ sg = "+" \/ sg = "-")%string -> digits 0 t = 0).
  { intros sg t Et Hsg. destruct (figures_split t) as (ds & rest & Hd & Hs & ->). destruct ds as [|d ds]; [apply digits_stop, Hs|]. exfalso.
    assert (W : s = (str bl ++ (sg ++ (str (map figure (d :: ds)) ++ rest)))%string) by (rewrite <- Et; exact E).
    destruct Hsg as [Hg|[Hg|Hg]].
    - apply (H (decimal (d :: ds))). exists bl, sg, (d :: ds), rest. repeat (split; [first [exact Hb|exact Hd|discriminate|exact Hs|exact W]|]). left. auto.
    - apply (H (decimal (d :: ds))). exists bl, sg, (d :: ds), rest. repeat (split; [first [exact Hb|exact Hd|discriminate|exact Hs|exact W]|]). left. auto.
    - apply (H (- decimal (d :: ds))). exists bl, sg, (d :: ds), rest. repeat (split; [first [exact Hb|exact Hd|discriminate|exact Hs|exact W]|]). right. auto. }
  unfold atoi. destruct (skip s) as [|c t] eqn:Es; [reflexivity|].
  assert (C0 : forall c' z, code c = Z.of_nat (nat_of_ascii c') -> z = code c -> c = c').
  { intros c' z Hc _. unfold code in Hc. rewrite <- (ascii_nat_embedding c), <- (ascii_nat_embedding c'). f_equal. lia. }
  destruct (Z.eqb_spec (code c) 45) as [Hc|Hc].
  - rewrite (C0 "-"%char _ Hc eq_refl) in *. rewrite (G "-"%string t) by (cbn; auto). reflexivity.
  - destruct (Z.eqb_spec (code c) 43) as [Hc'|Hc'].
    + rewrite (C0 "+"%char _ Hc' eq_refl) in *. rewrite (G "+"%string t) by (cbn; auto). reflexivity.
    + rewrite (G ""%string (String c t)) by (cbn; auto). reflexivity.
Qed.
