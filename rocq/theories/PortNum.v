(** PortNum.v : which arguments int() of Python and READ (i10) of Fortran take for numbers, and which numbers they are. *)

From Coq Require Import QArith Qround String Ascii Lia ZArith.
From Verif Require Import Base Spec Layout LayoutProofs TestProg TestOpt TestOptProofs TestNum Port PortOpt.
Local Open Scope string_scope.
Local Open Scope list_scope.
Local Open Scope Z_scope.

(** ** specification *)
(** a number with blanks before and behind it, and nothing else *)
Definition padded (s : string) (v : Z) : Prop := exists bl n bl', (forall c, In c bl -> In c blanks) /\ (forall c, In c bl' -> In c blanks) /\
  number n v /\ s = (str bl ++ (n ++ str bl'))%string.

(** ** proofs *)
Lemma figures_inv s : forall acc z, figures acc s = Some z -> exists ds, (forall d, In d ds -> (d <= 9)%nat) /\ s = str (map figure ds).
Proof.
  induction s as [|c t IH]; intros acc z H; [exists []; split; [intros ? []|reflexivity]|]. cbn [figures] in H.
  destruct ((48 <=? code c) && (code c <=? 57)) eqn:E; [|discriminate]. apply andb_true_iff in E as (E1 & E2). apply Z.leb_le in E1, E2.
  destruct (is_figure c (conj E1 E2)) as (d & Hd & ->). destruct (IH _ _ H) as (ds & D & ->). exists (d :: ds). split; [|reflexivity].
  intros x [<- |Hx]; [exact Hd|apply D, Hx].
Qed.
Lemma spaces_blanks s : all_spaces s = true -> exists bl, (forall c, In c bl -> In c blanks) /\ s = str bl.
Proof.
  induction s as [|c t IH]; intros H; [exists []; split; [intros ? []|reflexivity]|]. cbn [all_spaces] in H. apply andb_true_iff in H as (Hc & Ht).
  destruct (IH Ht) as (bl & B & ->). exists (c :: bl). split; [|reflexivity]. intros x [<- |Hx]; [apply space_blank, Hc|apply B, Hx].
Qed.
Lemma blanks_spaces bl : (forall c, In c bl -> In c blanks) -> all_spaces (str bl) = true.
Proof.
  induction bl as [|c bl IH]; intros H; [reflexivity|]. cbn [str all_spaces]. rewrite (proj2 (space_blank c) (H c (or_introl eq_refl))).
  apply IH. intros x Hx. apply H. right. exact Hx.
Qed.
Lemma blanks_end bl : (forall c, In c bl -> In c blanks) -> forall acc, py_figures acc (str bl) = Some acc.
Proof.
  intros H acc. pose proof (blanks_spaces bl H) as E. destruct bl as [|c bl]; [reflexivity|]. cbn [str] in *. cbn [py_figures]. rewrite E.
  destruct ((48 <=? code c) && (code c <=? 57)) eqn:D; [|reflexivity]. exfalso. destruct (digit_not_space c D) as (N & _ & _).
  rewrite (proj2 (space_blank c) (H c (or_introl eq_refl))) in N. discriminate.
Qed.
Lemma py_figures_padded ds bl : (forall d, In d ds -> (d <= 9)%nat) -> (forall c, In c bl -> In c blanks) -> forall acc,
  py_figures acc (str (map figure ds) ++ str bl)%string = Some (acc * 10 ^ Z.of_nat (List.length ds) + decimal ds).
Proof.
  intros H B. induction ds as [|d ds IH]; intros acc.
  - cbn [map str String.append List.length decimal]. rewrite blanks_end by exact B. change (Z.of_nat 0) with 0. f_equal. lia.
  - cbn [map str String.append py_figures]. pose proof (H d (or_introl eq_refl)) as Hd. rewrite (code_figure d Hd).
    destruct (Z.leb_spec 48 (48 + Z.of_nat d)); [|lia]. destruct (Z.leb_spec (48 + Z.of_nat d) 57); [|lia]. cbn [andb].
    rewrite IH by (intros; apply H; right; assumption). f_equal. cbn [decimal List.length]. rewrite Nat2Z.inj_succ, Z.pow_succ_r by lia. ring.
Qed.
Lemma py_figures_inv s : forall acc z, py_figures acc s = Some z -> exists ds bl, (forall d, In d ds -> (d <= 9)%nat) /\ (forall c, In c bl -> In c blanks) /\
  s = (str (map figure ds) ++ str bl)%string.
Proof.
  induction s as [|c t IH]; intros acc z H; [exists [], []; split; [intros ? []|split; [intros ? []|reflexivity]]|]. cbn [py_figures] in H.
  destruct ((48 <=? code c) && (code c <=? 57)) eqn:E.
  - apply andb_true_iff in E as (E1 & E2). apply Z.leb_le in E1, E2. destruct (is_figure c (conj E1 E2)) as (d & Hd & ->).
    destruct (IH _ _ H) as (ds & bl & D & B & ->). exists (d :: ds), bl. split; [|split; [exact B|reflexivity]].
    intros x [<- |Hx]; [exact Hd|apply D, Hx].
  - destruct (all_spaces (String c t)) eqn:S; [|discriminate]. destruct (spaces_blanks _ S) as (bl & B & ->). exists [], bl.
    split; [intros ? []|]. split; [exact B|reflexivity].
Qed.
Lemma py_figures1_inv s z : py_figures1 s = Some z -> exists ds bl, (forall d, In d ds -> (d <= 9)%nat) /\ ds <> [] /\ (forall c, In c bl -> In c blanks) /\
  s = (str (map figure ds) ++ str bl)%string /\ z = decimal ds.
Proof.
  unfold py_figures1. destruct s as [|c t]; [discriminate|]. destruct ((48 <=? code c) && (code c <=? 57)) eqn:E; [|discriminate]. intros H.
  destruct (py_figures_inv _ _ _ H) as (ds & bl & D & B & Q). exists ds, bl. split; [exact D|]. split.
  - intros ->. destruct bl as [|b bl]; [discriminate|]. cbn [map str String.append] in Q. injection Q as -> ->.
    destruct (digit_not_space b E) as (N & _). rewrite (proj2 (space_blank b) (B b (or_introl eq_refl))) in N. discriminate.
  - split; [exact B|]. split; [exact Q|]. rewrite Q, py_figures_padded in H by assumption. injection H as <-. lia.
Qed.
Lemma app_str s t u : ((s ++ t) ++ u = s ++ (t ++ u))%string.
Proof. induction s as [|c s IH]; [reflexivity|]. cbn [String.append]. f_equal. exact IH. Qed.

Theorem py_int_spec s v : py_int s = Some v <-> padded s v.
Proof.
  split.
  - unfold py_int. intros H. destruct (skip_split s) as (b0 & B0 & E0). set (t := skip s) in *. rewrite E0. clearbody t. clear E0 s.
    assert (K : forall sg u ds bl, (forall d, In d ds -> (d <= 9)%nat) -> ds <> [] -> (forall c, In c bl -> In c blanks) ->
      u = (str (map figure ds) ++ str bl)%string -> ((sg = "" \/ sg = "+") /\ v = decimal ds \/ sg = "-" /\ v = - decimal ds) -> padded (str b0 ++ (sg ++ u))%string v).
    { intros sg u ds bl D N B -> Q. exists b0, (sg ++ str (map figure ds))%string, bl. split; [exact B0|]. split; [exact B|]. split.
      - exists sg, ds. split; [exact D|]. split; [exact N|]. split; [reflexivity|exact Q].
      - rewrite app_str. reflexivity. }
    destruct t as [|c t]; [discriminate|]. unfold signed in H. destruct (Z.eqb_spec (code c) 45) as [E|E].
    { rewrite (code_eq c "-" E). destruct (py_figures1 t) as [z|] eqn:F; [|discriminate]. cbn [bind] in H. injection H as <-.
      destruct (py_figures1_inv _ _ F) as (ds & bl & D & N & B & Q & ->). apply (K "-" t ds bl D N B Q). right. split; reflexivity. }
    destruct (Z.eqb_spec (code c) 43) as [E'|E'].
    { rewrite (code_eq c "+" E'). destruct (py_figures1_inv _ _ H) as (ds & bl & D & N & B & Q & ->). apply (K "+" t ds bl D N B Q). left. split; [right|]; reflexivity. }
    destruct (py_figures1_inv _ _ H) as (ds & bl & D & N & B & Q & ->). apply (K "" (String c t) ds bl D N B Q). left. split; [left|]; reflexivity.
  - intros (bl & n & bl' & B & B' & (sg & ds & Hd & Hne & -> & Hs) & ->). unfold py_int. rewrite skip_blanks by exact B. rewrite app_str.
    destruct ds as [|d ds]; [contradiction|]. pose proof (Hd d (or_introl eq_refl)) as Hd0. destruct (figure_plain d Hd0) as (F1 & F2 & F3).
    assert (F : py_figures1 (str (map figure (d :: ds)) ++ str bl')%string = Some (decimal (d :: ds))).
    { unfold py_figures1. rewrite py_figures_padded by assumption. cbn [map str String.append]. rewrite (code_figure d Hd0).
      destruct (Z.leb_spec 48 (48 + Z.of_nat d)); [|lia]. destruct (Z.leb_spec (48 + Z.of_nat d) 57); [|lia]. cbn [andb]. reflexivity. }
    destruct Hs as [([-> | ->] & ->)|(-> & ->)]; cbn [String.append].
    + cbn [map str String.append] in *. cbn [skip]. rewrite F1. unfold signed. rewrite F2, F3. exact F.
    + cbn [skip]. change (is_space "+") with false. cbn iota. unfold signed. change (code "+" =? 45) with false. change (code "+" =? 43) with true. cbn iota. exact F.
    + cbn [skip]. change (is_space "-") with false. cbn iota. unfold signed. change (code "-" =? 45) with true. cbn iota. rewrite F. reflexivity.
Qed.

(** READ (i10): the first ten characters without their blanks *)
Lemma figures1_inv s z : figures1 s = Some z -> exists ds, (forall d, In d ds -> (d <= 9)%nat) /\ ds <> [] /\ s = str (map figure ds) /\ z = decimal ds.
Proof.
  unfold figures1. destruct s as [|c t]; [discriminate|]. intros H. destruct (figures_inv _ _ _ H) as (ds & D & Q). exists ds. split; [exact D|].
  split; [intros ->; discriminate|]. split; [exact Q|]. rewrite Q, figures_value in H by assumption. injection H as <-. lia.
Qed.
Lemma c32_iff z v : c32 z = Some v <-> v = z /\ - 2 ^ 31 <= z <= 2 ^ 31 - 1.
Proof.
  unfold c32. destruct (Z.leb_spec (- 2 ^ 31) z) as [A|A]; destruct (Z.leb_spec z (2 ^ 31 - 1)) as [B|B]; cbn [andb]; (split; [intros E|intros (-> & E)]); try discriminate E; try lia.
  - injection E as <-. lia.
  - reflexivity.
Qed.
Theorem fo_int_spec s v : word s -> (fo_int s = Some v <-> (s = "" /\ v = 0) \/ (number s v /\ - 2 ^ 31 <= v <= 2 ^ 31 - 1)).
Proof.
  intros W. split.
  - unfold fo_int. rewrite (field_id s W). destruct s as [|c t]; [intros H; injection H as <-; left; split; reflexivity|]. intros H. right.
    destruct (signed figures1 Z.opp (String c t)) as [z|] eqn:E; [|discriminate]. cbn [bind] in H. apply c32_iff in H as (-> & R). split; [|exact R].
    unfold signed in E. destruct (Z.eqb_spec (code c) 45) as [E1|E1].
    { rewrite (code_eq c "-" E1). destruct (figures1 t) as [y|] eqn:F; [|discriminate]. cbn [bind] in E. injection E as <-.
      destruct (figures1_inv _ _ F) as (ds & D & N & -> & ->). exists "-", ds. split; [exact D|]. split; [exact N|]. split; [reflexivity|]. right. split; reflexivity. }
    destruct (Z.eqb_spec (code c) 43) as [E2|E2].
    { rewrite (code_eq c "+" E2). destruct (figures1_inv _ _ E) as (ds & D & N & -> & ->). exists "+", ds. split; [exact D|]. split; [exact N|]. split; [reflexivity|].
      left. split; [right|]; reflexivity. }
    destruct (figures1_inv _ _ E) as (ds & D & N & Q & ->). rewrite Q. exists "", ds. split; [exact D|]. split; [exact N|]. split; [reflexivity|]. left. split; [left|]; reflexivity.
  - intros [(-> & ->)|(N & R)]; [reflexivity|]. rewrite (fo_int_number s v N) by apply W. apply c32_iff. split; [reflexivity|exact R].
Qed.
