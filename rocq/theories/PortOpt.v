(** PortOpt.v : the command line of the Fortran and Python test programs against that of the C++ ones. *)

From Coq Require Import QArith Qround String Ascii Lia ZArith.
From Verif Require Import Base Spec Layout LayoutProofs Setup3d Setup2d TestProg TestOpt TestOptProofs TestNum Port.
Local Open Scope string_scope.
Local Open Scope list_scope.
Local Open Scope Z_scope.

(** ** positions of numbers *)
(** the argument at [i] is read as an integer: it belongs to an option with numbers *)
Definition isint (d : nat) (args : list string) (i : Z) : Prop := exists j w, zget args j = Some w /\
  (((w = "-g" \/ w = "-pin" \/ w = "-pout") /\ j + 1 <= i <= j + Z.of_nat d) \/
   ((w = "-n" \/ w = "-m") /\ i = j + 1) \/ (w = "-tune" /\ (i = j + 1 \/ i = j + 3))).
Definition isseed (args : list string) (i : Z) : Prop := exists j, zget args j = Some "-i" /\ i = j + 1.
Definition isreal (args : list string) (i : Z) : Prop := exists j, zget args j = Some "-tune" /\ i = j + 2.

Section Mono.
Variables (d : nat) (args : list string) (Q : Prop).
Variables (rA rB : string -> option Z) (fA fB : string -> option QArith_base.Q) (iA iB : string -> opts -> outcome opts).
Definition le1 {A} (a b : option A) : Prop := forall x, a = Some x -> b = Some x \/ (b = None /\ Q).
Definition le2 {A} (a b : outcome A) : Prop := forall x, a = OOk x -> b = OOk x \/ (b = OErr FAIL /\ Q).
Hypothesis Hint : forall i s, isint d args i -> zget args i = Some s -> le1 (rA s) (rB s).
Hypothesis Hreal : forall i s, isreal args i -> zget args i = Some s -> le1 (fA s) (fB s).
Hypothesis Hseed : forall i s o, isseed args i -> zget args i = Some s -> le2 (iA s o) (iB s o).

Lemma le2_refl {A} (a : outcome A) : le2 a a.
Proof. intros x H. left. exact H. Qed.
Lemma le2_arg {A} i (f g : string -> outcome A) : (forall s, zget args i = Some s -> le2 (f s) (g s)) -> le2 (arg args i f) (arg args i g).
Proof. intros H. unfold arg. destruct (zget args i) as [s|]; [apply H; reflexivity|apply le2_refl]. Qed.
Lemma le2_need {A} i m (a b : outcome A) : le2 a b -> le2 (need args i m a) (need args i m b).
Proof. intros H. unfold need. destruct (zlen args <? i + m); [apply le2_refl|exact H]. Qed.
Lemma le2_num {A} i (f g : Z -> outcome A) : isint d args i -> (forall z, le2 (f z) (g z)) -> le2 (gnum rA args i f) (gnum rB args i g).
Proof.
  intros Hi H. apply le2_arg. intros s Hs. pose proof (Hint i s Hi Hs) as L1. destruct (rA s) as [z|]; [|intros x E; discriminate].
  destruct (L1 z eq_refl) as [-> | (-> & q)]; [apply H|]. intros x _. right. auto.
Qed.
Lemma le2_nums {A} m : forall i (f g : list Z -> outcome A), (forall k, i <= k < i + Z.of_nat m -> isint d args k) ->
  (forall l, le2 (f l) (g l)) -> le2 (gnums rA args m i f) (gnums rB args m i g).
Proof.
  induction m as [|m IH]; intros i f g Hi H; [apply H|]. cbn [gnums]. apply le2_num; [apply Hi; lia|].
  intros z. apply IH; [intros; apply Hi; lia|]. intros l. apply H.
Qed.
Lemma le2_option1 iarg o : le2 (goption1 d rA fA iA args iarg o) (goption1 d rB fB iB args iarg o).
Proof.
  unfold goption1. apply le2_arg. intros w Hw.
  assert (G : forall f : list Z -> outcome (Z * opts), w = "-g" \/ w = "-pin" \/ w = "-pout" ->
    le2 (need args iarg (Z.of_nat d + 1) (gnums rA args d (iarg + 1) f)) (need args iarg (Z.of_nat d + 1) (gnums rB args d (iarg + 1) f))).
  { intros f Hg. apply le2_need, le2_nums; [|intros; apply le2_refl]. intros k Hk. exists iarg, w. split; [exact Hw|]. left. split; [exact Hg|lia]. }
  assert (N : forall f : Z -> outcome (Z * opts), w = "-n" \/ w = "-m" ->
    le2 (need args iarg 2 (gnum rA args (iarg + 1) f)) (need args iarg 2 (gnum rB args (iarg + 1) f))).
  { intros f Hg. apply le2_need, le2_num; [|intros; apply le2_refl]. exists iarg, w. split; [exact Hw|]. right. left. auto. }
  destruct (String.eqb_spec w "-h"); [apply le2_refl|].
  destruct (String.eqb_spec w "-g"); [apply G; auto|].
  destruct (String.eqb_spec w "-pin"); [apply G; auto|].
  destruct (String.eqb_spec w "-pout"); [apply G; auto|].
  destruct (String.eqb_spec w "-n"); [apply N; auto|].
  destruct (String.eqb_spec w "-i") as [-> |].
  { apply le2_need, le2_arg. intros s Hs. assert (I : isseed args (iarg + 1)) by (exists iarg; auto).
    pose proof (Hseed _ s o I Hs) as L2. destruct (iA s o) as [m| |o'] eqn:E; [intros x X; discriminate|intros x X; discriminate|].
    intros x X. injection X as <-. destruct (L2 o' eq_refl) as [-> | (-> & q)]; auto. }
  destruct (String.eqb_spec w "-tune") as [-> |].
  { apply le2_need. apply le2_num; [exists iarg, "-tune"; split; [exact Hw|]; right; right; auto|]. intros p. apply le2_arg. intros m Hm.
    assert (I : isreal args (iarg + 2)) by (exists iarg; auto). pose proof (Hreal _ m I Hm) as L1. destruct (fA m) as [x|]; [|intros y X; discriminate].
    destruct (L1 x eq_refl) as [-> | (-> & q)]; [|intros y _; right; auto].
    apply le2_num; [exists iarg, "-tune"; split; [exact Hw|]; right; right; auto|]. intros; apply le2_refl. }
  destruct (String.eqb_spec w "-m"); [apply N; auto|]. apply le2_refl.
Qed.
Lemma le2_parse fuel : forall iarg o, le2 (gparse d rA fA iA args fuel iarg o) (gparse d rB fB iB args fuel iarg o).
Proof.
  induction fuel as [|f IH]; intros iarg o; cbn [gparse]; (destruct (iarg <? zlen args); [|apply le2_refl]); [apply le2_refl|].
  pose proof (le2_option1 iarg o) as L. destruct (goption1 d rA fA iA args iarg o) as [m| |[i' o']]; [intros x X; discriminate|intros x X; discriminate|].
  destruct (L _ eq_refl) as [-> | (-> & q)]; [apply IH|]. intros x _. right. auto.
Qed.
End Mono.

(** ** the C++ loop in the same form *)
Definition cpp_iopt (me : Z) (s : string) (o : opts) : outcome opts :=
  if String.eqb s "zero" then OOk (set_init ZERO o)
  else if String.eqb s "step" then OOk (set_init STEP o)
  else if String.eqb s "index" then OOk (set_init INDEX o)
  else match atoi s with Some v => match c32 (v + me) with Some v => OOk (set_seed v o) | None => OUB end | None => OUB end.
Definition cpp_parse (d : nat) (atof : string -> Q) (me : Z) (args : list string) := gparse d atoi (fun s => Some (atof s)) (cpp_iopt me) args.

(** equal but for the kind of failure *)
Definition same {A} (a b : outcome A) : Prop := forall x, a = OOk x <-> b = OOk x.
Lemma same_refl {A} (a : outcome A) : same a a.
Proof. intros x. reflexivity. Qed.
Lemma same_arg {A} args i (f g : string -> outcome A) : (forall s, zget args i = Some s -> same (f s) (g s)) -> same (arg args i f) (arg args i g).
Proof. intros H. unfold arg. destruct (zget args i) as [s|]; [apply H; reflexivity|apply same_refl]. Qed.
Lemma same_need {A} args i m (a b : outcome A) : same a b -> same (need args i m a) (need args i m b).
Proof. intros H. unfold need. destruct (zlen args <? i + m); [apply same_refl|exact H]. Qed.
Lemma same_num {A} args i (f g : Z -> outcome A) : (forall z, same (f z) (g z)) -> same (num args i f) (gnum atoi args i g).
Proof. intros H. apply same_arg. intros s _. destruct (atoi s); [apply H|]. intros x. split; discriminate. Qed.
Lemma same_nums {A} args m : forall i (f g : list Z -> outcome A), (forall l, same (f l) (g l)) -> same (nums args m i f) (gnums atoi args m i g).
Proof. induction m as [|m IH]; intros i f g H; [apply H|]. cbn [gnums nums]. apply same_num. intros z. apply IH. intros l. apply H. Qed.
Lemma same_option1 d atof me args iarg o :
  same (option1 d atof me args iarg o) (goption1 d atoi (fun s => Some (atof s)) (cpp_iopt me) args iarg o).
Proof.
  unfold option1, goption1. apply same_arg. intros w _.
  destruct (String.eqb w "-h"); [apply same_refl|].
  destruct (String.eqb w "-g"); [apply same_need, same_nums; intros; apply same_refl|].
  destruct (String.eqb w "-pin"); [apply same_need, same_nums; intros; apply same_refl|].
  destruct (String.eqb w "-pout"); [apply same_need, same_nums; intros; apply same_refl|].
  destruct (String.eqb w "-n"); [apply same_need, same_num; intros; apply same_refl|].
  destruct (String.eqb w "-i").
  { apply same_need, same_arg. intros s Hs. unfold cpp_iopt. destruct (String.eqb s "zero"); [apply same_refl|].
    destruct (String.eqb s "step"); [apply same_refl|]. destruct (String.eqb s "index"); [apply same_refl|].
    unfold num, arg. rewrite Hs. destruct (atoi s) as [v|]; [|apply same_refl]. destruct (c32 (v + me)); apply same_refl. }
  destruct (String.eqb w "-tune").
  { apply same_need, same_num. intros p. apply same_arg. intros m _. apply same_num. intros e. apply same_refl. }
  destruct (String.eqb w "-m"); [apply same_need, same_num; intros; apply same_refl|]. apply same_refl.
Qed.
Lemma same_parse d atof me args fuel : forall iarg o, same (parse d atof me args fuel iarg o) (cpp_parse d atof me args fuel iarg o).
Proof.
  induction fuel as [|f IH]; intros iarg o; unfold cpp_parse; cbn [gparse parse]; (destruct (iarg <? zlen args); [|apply same_refl]); [apply same_refl|].
  pose proof (same_option1 d atof me args iarg o) as S. destruct (option1 d atof me args iarg o) as [m| |[i' o']].
  - destruct (goption1 _ _ _ _ _ _ _) as [m'| |[i' o']]; [intros x; split; discriminate..|]. pose proof (proj2 (S (i', o')) eq_refl) as X. discriminate X.
  - destruct (goption1 _ _ _ _ _ _ _) as [m'| |[i' o']]; [intros x; split; discriminate..|]. pose proof (proj2 (S (i', o')) eq_refl) as X. discriminate X.
  - rewrite (proj1 (S (i', o')) eq_refl). apply IH.
Qed.

(** ** numbers *)
Lemma figures_digits s : forall acc z, figures acc s = Some z -> digits acc s = z.
Proof.
  induction s as [|c t IH]; intros acc z; cbn [figures digits]; [congruence|].
  destruct ((48 <=? code c) && (code c <=? 57)); [apply IH|discriminate].
Qed.
Lemma py_figures_digits s : forall acc z, py_figures acc s = Some z -> digits acc s = z.
Proof.
  induction s as [|c t IH]; intros acc z; cbn [py_figures digits]; [congruence|].
  destruct ((48 <=? code c) && (code c <=? 57)); [apply IH|]. destruct (all_spaces (String c t)); congruence.
Qed.
Lemma digit_not_space c : (48 <=? code c) && (code c <=? 57) = true -> is_space c = false /\ (code c =? 45) = false /\ (code c =? 43) = false.
Proof.
  intros H. apply andb_true_iff in H as (A & B). apply Z.leb_le in A, B. unfold is_space. split; [|split; apply Z.eqb_neq; lia].
  apply orb_false_iff. split; [apply Z.eqb_neq; lia|]. apply andb_false_iff. right. apply Z.leb_gt. lia.
Qed.
Lemma code_eq c n : code c = Z.of_nat (nat_of_ascii n) -> c = n.
Proof. unfold code. intros H. rewrite <- (ascii_nat_embedding c), <- (ascii_nat_embedding n). f_equal. lia. Qed.

(** a word as people write it: at most ten characters, no blank *)
Fixpoint noblank (s : string) : bool := match s with EmptyString => true | String c t => negb (code c =? 32) && noblank t end.
Definition word (s : string) : Prop := (String.length s <= 10)%nat /\ noblank s = true.
Lemma substring_all s : forall n, (String.length s <= n)%nat -> substring 0 n s = s.
Proof.
  induction s as [|c t IH]; intros n H; [destruct n; reflexivity|]. cbn [String.length] in H. destruct n as [|n]; [lia|].
  cbn [substring]. f_equal. apply IH. lia.
Qed.
Lemma no_spaces_id s : noblank s = true -> no_spaces s = s.
Proof.
  induction s as [|c t IH]; [reflexivity|]. cbn [noblank no_spaces]. destruct (code c =? 32); [discriminate|]. intros H. f_equal. apply IH, H.
Qed.
Lemma rtrim_id s : noblank s = true -> rtrim s = s.
Proof.
  induction s as [|c t IH]; [reflexivity|]. cbn [noblank rtrim]. destruct (code c =? 32) eqn:E; [discriminate|]. intros H. cbn in H.
  rewrite (IH H). destruct t; reflexivity.
Qed.
Lemma field_id s : word s -> field s = s.
Proof. intros (A & B). unfold field. rewrite (substring_all s 10) by exact A. apply no_spaces_id, B. Qed.
Lemma fo_arg_id d s : word s -> fo_arg d s = s.
Proof. intros (A & B). unfold fo_arg. rewrite substring_all; [apply rtrim_id, B|]. destruct (d =? 3)%nat; lia. Qed.
Lemma fo_args_id d args : Forall word args -> map (fo_arg d) args = args.
Proof. induction 1 as [|s l H _ IH]; cbn; [reflexivity|]. rewrite IH, (fo_arg_id d s H). reflexivity. Qed.

Lemma fo_int_atoi s z : word s -> fo_int s = Some z -> atoi s = Some z.
Proof.
  intros W. unfold fo_int. rewrite (field_id s W). unfold atoi. destruct s as [|c t]; [auto|]. unfold signed.
  destruct (Z.eqb_spec (code c) 45) as [E|E].
  { rewrite (code_eq c "-" E). change (skip (String "-" t)) with (String "-" t). change (code "-" =? 45) with true. cbn iota.
    unfold figures1. destruct t as [|c' t]; [discriminate|]. destruct (figures 0 _) as [v|] eqn:F; [|discriminate]. rewrite (figures_digits _ _ _ F). auto. }
  destruct (Z.eqb_spec (code c) 43) as [E'|E'].
  { rewrite (code_eq c "+" E'). change (skip (String "+" t)) with (String "+" t). change (code "+" =? 45) with false. change (code "+" =? 43) with true. cbn iota.
    unfold figures1. destruct t as [|c' t]; [discriminate|]. destruct (figures 0 _) as [v|] eqn:F; [|discriminate]. rewrite (figures_digits _ _ _ F). auto. }
  unfold figures1. destruct (figures 0 _) as [v|] eqn:F; [|discriminate]. cbn [bind]. rewrite <- (figures_digits _ _ _ F) at 1.
  cbn [figures] in F. destruct ((48 <=? code c) && (code c <=? 57)) eqn:Dg; [|discriminate]. destruct (digit_not_space c Dg) as (S1 & S2 & S3).
  cbn [skip]. rewrite S1, S2, S3. auto.
Qed.
Lemma py_int_atoi s z : py_int s = Some z -> - 2 ^ 31 <= z <= 2 ^ 31 - 1 -> atoi s = Some z.
Proof.
  unfold py_int, atoi. destruct (skip s) as [|c t]; [discriminate|]. unfold signed.
  destruct (code c =? 45).
  { unfold py_figures1. destruct t as [|c' t]; [discriminate|]. destruct ((48 <=? code c') && (code c' <=? 57)); [|discriminate].
    destruct (py_figures 0 _) as [v|] eqn:F; [|discriminate]. cbn [bind]. intros E. injection E as <-. rewrite (py_figures_digits _ _ _ F). apply c32_conv. }
  destruct (code c =? 43).
  { unfold py_figures1. destruct t as [|c' t]; [discriminate|]. destruct ((48 <=? code c') && (code c' <=? 57)); [|discriminate].
    intros F. rewrite (py_figures_digits _ _ _ F). apply c32_conv. }
  unfold py_figures1. destruct ((48 <=? code c) && (code c <=? 57)); [|discriminate]. intros F. rewrite (py_figures_digits _ _ _ F). apply c32_conv.
Qed.
(** what both read: a sign or none, at least one figure *)
Lemma figures_value ds : (forall d, In d ds -> (d <= 9)%nat) -> forall acc,
  figures acc (str (map figure ds)) = Some (acc * 10 ^ Z.of_nat (List.length ds) + decimal ds).
Proof.
  intros H. induction ds as [|d ds IH]; intros acc.
  - cbn [map str figures List.length decimal]. change (Z.of_nat 0) with 0. f_equal. lia.
  - cbn [map str figures]. pose proof (H d (or_introl eq_refl)) as Hd. rewrite (code_figure d Hd).
    destruct (Z.leb_spec 48 (48 + Z.of_nat d)); [|lia]. destruct (Z.leb_spec (48 + Z.of_nat d) 57); [|lia]. cbn [andb].
    rewrite IH by (intros; apply H; right; assumption). f_equal. cbn [decimal List.length]. rewrite Nat2Z.inj_succ, Z.pow_succ_r by lia. ring.
Qed.
Lemma py_figures_value ds : (forall d, In d ds -> (d <= 9)%nat) -> forall acc,
  py_figures acc (str (map figure ds)) = Some (acc * 10 ^ Z.of_nat (List.length ds) + decimal ds).
Proof.
  intros H. induction ds as [|d ds IH]; intros acc.
  - cbn [map str py_figures List.length decimal]. change (Z.of_nat 0) with 0. f_equal. lia.
  - cbn [map str py_figures]. pose proof (H d (or_introl eq_refl)) as Hd. rewrite (code_figure d Hd).
    destruct (Z.leb_spec 48 (48 + Z.of_nat d)); [|lia]. destruct (Z.leb_spec (48 + Z.of_nat d) 57); [|lia]. cbn [andb].
    rewrite IH by (intros; apply H; right; assumption). f_equal. cbn [decimal List.length]. rewrite Nat2Z.inj_succ, Z.pow_succ_r by lia. ring.
Qed.
(** a number written out: sign and figures only *)
Definition number (s : string) (v : Z) : Prop := exists sg ds, (forall d, In d ds -> (d <= 9)%nat) /\ ds <> [] /\ s = (sg ++ str (map figure ds))%string /\
  ((sg = "" \/ sg = "+") /\ v = decimal ds \/ sg = "-" /\ v = - decimal ds).
Lemma number_word s v : number s v -> noblank s = true.
Proof.
  intros (sg & ds & Hd & _ & -> & Hs). assert (N : noblank (str (map figure ds)) = true).
  { clear Hs. induction ds as [|d ds IH]; [reflexivity|]. cbn [map str noblank]. rewrite code_figure by (apply Hd; left; reflexivity).
    rewrite IH by (intros; apply Hd; right; assumption). destruct (Z.eqb_spec (48 + Z.of_nat d) 32); [lia|reflexivity]. }
  destruct Hs as [([-> | ->] & _)|(-> & _)]; exact N.
Qed.
Lemma fo_int_number s v : number s v -> (String.length s <= 10)%nat -> fo_int s = c32 v.
Proof.
  intros N Hl. unfold fo_int. rewrite (field_id s (conj Hl (number_word s v N))). destruct N as (sg & ds & Hd & Hne & -> & Hs).
  assert (F : figures1 (str (map figure ds)) = Some (decimal ds)).
  { unfold figures1. rewrite figures_value by exact Hd. destruct ds; [contradiction|]. cbn [map str]. reflexivity. }
  destruct ds as [|d ds]; [contradiction|]. destruct (figure_plain d (Hd d (or_introl eq_refl))) as (_ & F2 & F3).
  destruct Hs as [([-> | ->] & ->)|(-> & ->)]; cbn [String.append].
  - cbn [map str] in *. unfold signed. rewrite F2, F3, F. reflexivity.
  - unfold signed. change (code "+" =? 45) with false. change (code "+" =? 43) with true. cbn iota. rewrite F. reflexivity.
  - unfold signed. change (code "-" =? 45) with true. cbn iota. rewrite F. reflexivity.
Qed.
Lemma py_int_number s v : number s v -> py_int s = Some v.
Proof.
  intros (sg & ds & Hd & Hne & -> & Hs). unfold py_int.
  destruct ds as [|d ds]; [contradiction|]. pose proof (Hd d (or_introl eq_refl)) as Hd0. destruct (figure_plain d Hd0) as (F1 & F2 & F3).
  assert (F : py_figures1 (str (map figure (d :: ds))) = Some (decimal (d :: ds))).
  { unfold py_figures1. rewrite py_figures_value by exact Hd. cbn [map str]. rewrite (code_figure d Hd0).
    destruct (Z.leb_spec 48 (48 + Z.of_nat d)); [|lia]. destruct (Z.leb_spec (48 + Z.of_nat d) 57); [|lia]. cbn [andb]. reflexivity. }
  destruct Hs as [([-> | ->] & ->)|(-> & ->)]; cbn [String.append].
  - cbn [map str] in *. cbn [skip]. rewrite F1. unfold signed. rewrite F2, F3. exact F.
  - cbn [skip]. change (is_space "+") with false. cbn iota. unfold signed. change (code "+" =? 45) with false. change (code "+" =? 43) with true. cbn iota. exact F.
  - cbn [skip]. change (is_space "-") with false. cbn iota. unfold signed. change (code "-" =? 45) with true. cbn iota. rewrite F. reflexivity.
Qed.

(** ** an invariant of the loop *)
Section Inv.
Variables (d : nat) (rI : string -> option Z) (fI : string -> option Q) (iI : string -> opts -> outcome opts) (args : list string).
Variable I : opts -> Prop.
Hypotheses (Ig : forall v o, List.length v = d -> I o -> I (set_g v o)) (Ipin : forall v o, List.length v = d -> I o -> I (set_pin v o))
  (Ipout : forall v o, List.length v = d -> I o -> I (set_pout v o)) (In' : forall v o, I o -> I (set_nloop v o))
  (Ii : forall s o o', iI s o = OOk o' -> I o -> I o') (Itune : forall v o, I o -> I (set_tune v o)) (Im : forall v o, I o -> I (set_mode v o))
  (Ic : forall v o, I o -> I (set_c v o)) (Ie : forall v o, I o -> I (set_e v o)) (Ip : forall v o, I o -> I (set_p v o))
  (It : forall o, I o -> I (set_t o)) (Ir : forall o, I o -> I (set_r o)) (Io : forall o, I o -> I (set_o o)) (Iv : forall o, I o -> I (set_v o)).
Lemma gnums_len {A} m : forall i (k : list Z -> outcome A) a, gnums rI args m i k = OOk a -> exists v, List.length v = m /\ k v = OOk a.
Proof.
  induction m as [|m IH]; intros i k a H; [exists []; auto|]. cbn [gnums] in H. unfold gnum, arg in H. destruct (zget args i) as [s|]; [|discriminate].
  destruct (rI s) as [z|]; [|discriminate]. destruct (IH _ _ _ H) as (v & L & E). exists (z :: v). cbn [List.length]. auto.
Qed.
Lemma gnum_inv {A} i (k : Z -> outcome A) a : gnum rI args i k = OOk a -> exists z, k z = OOk a.
Proof. unfold gnum, arg. destruct (zget args i) as [s|]; [|discriminate]. destruct (rI s) as [z|]; [eauto|discriminate]. Qed.
Lemma need_inv {A} i m (k : outcome A) a : need args i m k = OOk a -> k = OOk a.
Proof. unfold need. destruct (zlen args <? i + m); [discriminate|auto]. Qed.
Lemma arg_inv {A} i (k : string -> outcome A) a : arg args i k = OOk a -> exists s, zget args i = Some s /\ k s = OOk a.
Proof. unfold arg. destruct (zget args i) as [s|]; [eauto|discriminate]. Qed.
Lemma goption1_inv iarg o i' o' : goption1 d rI fI iI args iarg o = OOk (i', o') -> I o -> I o'.
Proof.
  unfold goption1. intros H HI. apply arg_inv in H as (w & _ & H).
  destruct (String.eqb w "-h"); [discriminate|].
  destruct (String.eqb w "-g"). { apply need_inv, gnums_len in H as (v & L & E). injection E as <- <-. auto. }
  destruct (String.eqb w "-pin"). { apply need_inv, gnums_len in H as (v & L & E). injection E as <- <-. auto. }
  destruct (String.eqb w "-pout"). { apply need_inv, gnums_len in H as (v & L & E). injection E as <- <-. auto. }
  destruct (String.eqb w "-n"). { apply need_inv, gnum_inv in H as (v & E). injection E as <- <-. auto. }
  destruct (String.eqb w "-i"). { apply need_inv, arg_inv in H as (s & _ & H). destruct (iI s o) as [m| |o2] eqn:E2; [discriminate..|]. injection H as <- <-. eapply Ii; eassumption. }
  destruct (String.eqb w "-tune").
  { apply need_inv, gnum_inv in H as (p & H). apply arg_inv in H as (m & _ & H). destruct (fI m) as [x|]; [|discriminate]. apply gnum_inv in H as (e & H). injection H as <- <-. auto. }
  destruct (String.eqb w "-m"). { apply need_inv, gnum_inv in H as (v & E). injection E as <- <-. auto. }
  destruct (String.eqb w "-c").
  { apply need_inv, arg_inv in H as (s & _ & H).
    destruct (String.eqb s "point"); [|destruct (String.eqb s "all"); [|destruct (String.eqb s "combo"); [|discriminate]]]; injection H as <- <-; auto. }
  destruct (String.eqb w "-e").
  { apply need_inv, arg_inv in H as (s & _ & H). destruct (String.eqb s "pencil"); [|destruct (String.eqb s "brick"); [|discriminate]]; injection H as <- <-; auto. }
  destruct (String.eqb w "-p").
  { apply need_inv, arg_inv in H as (s & _ & H).
    destruct (String.eqb s "array"); [|destruct (String.eqb s "ptr"); [|destruct (String.eqb s "memcpy"); [|discriminate]]]; injection H as <- <-; auto. }
  destruct (String.eqb w "-t"); [injection H as <- <-; auto|]. destruct (String.eqb w "-r"); [injection H as <- <-; auto|].
  destruct (String.eqb w "-o"); [injection H as <- <-; auto|]. destruct (String.eqb w "-v"); [injection H as <- <-; auto|]. discriminate.
Qed.
Lemma gparse_inv fuel : forall iarg o o', gparse d rI fI iI args fuel iarg o = OOk o' -> I o -> I o'.
Proof.
  induction fuel as [|f IH]; intros iarg o o'; cbn [gparse]; (destruct (iarg <? zlen args); [|congruence]); [discriminate|].
  destruct (goption1 d rI fI iI args iarg o) as [m| |[i1 o1]] eqn:E; [discriminate..|]. intros H HI. eapply IH; [exact H|]. eapply goption1_inv; eassumption.
Qed.
End Inv.

(** ** Fortran *)
Lemma stop_ok b m k o : stop b m k = OOk o <-> b = false /\ k = OOk o.
Proof. unfold stop. destruct b; intuition congruence. Qed.
Lemma check_ok P l k o : check_grid P l k = OOk o -> k = OOk o.
Proof. unfold check_grid. destruct (forallb _ l); [auto|]. destruct (existsb _ l); [discriminate|]. destruct (prod32 l) as [p|]; [|discriminate]. destruct (p =? P); [auto|discriminate]. Qed.
Lemma check_next P l k k' o : check_grid P l k = OOk o -> k' = OOk o -> check_grid P l k' = OOk o.
Proof. unfold check_grid. destruct (forallb _ l); [auto|]. destruct (existsb _ l); [discriminate|]. destruct (prod32 l) as [p|]; [|discriminate]. destruct (p =? P); [auto|discriminate]. Qed.
Lemma sanity_out d P o o' : sanity d P o = OOk o' -> o' = o.
Proof.
  unfold sanity. intros H. apply stop_ok in H as (_ & H). apply check_ok, check_ok in H. repeat (apply stop_ok in H as (_ & H)).
  destruct (o_tune o) as [[[a b] c]|]; [|congruence]. repeat (apply stop_ok in H as (_ & H)). congruence.
Qed.
Lemma fo_sanity_out P o o' : fo_sanity P o = OOk o' -> o' = o.
Proof.
  unfold fo_sanity. intros H. apply stop_ok in H as (_ & H). apply check_ok, check_ok in H. repeat (apply stop_ok in H as (_ & H)).
  destruct (o_tune o) as [[[a b] c]|]; [|congruence]. repeat (apply stop_ok in H as (_ & H)). congruence.
Qed.
Lemma stop_next b m m' k k' o : stop b m k = OOk o -> (k = OOk o -> k' = OOk o) -> stop b m' k' = OOk o.
Proof. unfold stop. destruct b; [discriminate|auto]. Qed.
Lemma fo_sanity_cpp d P o : fo_sanity P o = OOk o -> d = 3%nat \/ o_nloop o <> 0 -> sanity d P o = OOk o.
Proof.
  unfold fo_sanity, sanity. intros H Hd. apply stop_ok in H as (H1 & H). apply stop_ok. split; [exact H1|].
  pose proof (check_ok _ _ _ _ H) as K. apply (check_next _ _ _ _ _ H). pose proof (check_ok _ _ _ _ K) as K2. apply (check_next _ _ _ _ _ K). clear H K.
  apply stop_ok in K2 as (H2 & K2). apply stop_ok in K2 as (H3 & K2). apply stop_ok. split; [|apply (stop_next _ _ _ _ _ _ K2); intros K3; apply (stop_next _ _ _ _ _ _ K3); auto].
  unfold bad_nloop. rewrite H2, H3. destruct (d =? 3)%nat eqn:E; [reflexivity|]. apply Nat.eqb_neq in E. destruct Hd as [Hd|Hd]; [contradiction|].
  apply Z.ltb_ge in H2. apply Z.leb_gt. lia.
Qed.
Lemma cpp_sanity_fo d P o : sanity d P o = OOk o -> fo_sanity P o = OOk o.
Proof.
  unfold fo_sanity, sanity. intros H. apply stop_ok in H as (H1 & H). apply stop_ok. split; [exact H1|].
  pose proof (check_ok _ _ _ _ H) as K. apply (check_next _ _ _ _ _ H). pose proof (check_ok _ _ _ _ K) as K2. apply (check_next _ _ _ _ _ K). clear H K.
  apply stop_ok in K2 as (H2 & K2). unfold bad_nloop in H2. destruct (d =? 3)%nat.
  - apply orb_false_iff in H2 as (H2 & H3). apply stop_ok. split; [exact H2|]. apply stop_ok. split; [exact H3|]. apply (stop_next _ _ _ _ _ _ K2); intros K3; apply (stop_next _ _ _ _ _ _ K3); auto.
  - apply Z.leb_gt in H2. apply stop_ok. split; [apply Z.ltb_ge; lia|]. apply stop_ok.
    split; [|apply (stop_next _ _ _ _ _ _ K2); intros K3; apply (stop_next _ _ _ _ _ _ K3); auto]. apply andb_false_iff. left. apply Z.eqb_neq. lia.
Qed.
Lemma fo_iopt_cpp me s o o' : word s -> fo_iopt me s o = OOk o' -> cpp_iopt me s o = OOk o'.
Proof.
  intros W. unfold fo_iopt, cpp_iopt. destruct (fo_int s) as [v|] eqn:E; [|discriminate]. rewrite (fo_int_atoi s v W E).
  destruct (String.eqb_spec s "zero") as [-> |]; [discriminate E|]. destruct (String.eqb_spec s "step") as [-> |]; [discriminate E|].
  destruct (String.eqb_spec s "index") as [-> |]; [discriminate E|]. destruct (c32 (v + me)); auto.
Qed.
(** READ of the third number of -tune agrees with atof *)
Definition agree (rd : string -> option Q) (atof : string -> Q) (args : list string) : Prop :=
  forall i s x, isreal args i -> zget args i = Some s -> rd s = Some x -> atof s = x.
Lemma word_at args i s : Forall word args -> zget args i = Some s -> word s.
Proof.
  intros H. unfold zget. destruct (i <? 0); [discriminate|]. intros E. apply nth_error_In in E. rewrite Forall_forall in H. apply H, E.
Qed.
Theorem fo_options_cpp d atof P me args o : Forall word args -> agree fo_real atof args ->
  fo_options d P me args = OOk o -> d = 3%nat \/ o_nloop o <> 0 -> options d atof P me args = OOk o.
Proof.
  intros W A H Hd. unfold fo_options in H. rewrite (fo_args_id d args W) in H.
  destruct (gparse d fo_int fo_real (fo_iopt me) args (List.length args) 1 (opts0 d)) as [m| |o1] eqn:E; [discriminate..|].
  pose proof (fo_sanity_out _ _ _ H) as X. subst o1.
  assert (L : cpp_parse d atof me args (List.length args) 1 (opts0 d) = OOk o).
  { destruct (le2_parse d args False fo_int atoi fo_real (fun s => Some (atof s)) (fo_iopt me) (cpp_iopt me)) with (4 := E) as [K|(_ & [])]; [..|exact K].
    - intros i s _ Hs z Hz. left. apply fo_int_atoi; [eapply word_at; eassumption|exact Hz].
    - intros i s Hi Hs x Hx. left. f_equal. eapply A; eassumption.
    - intros i s o1 _ Hs o2 Ho. left. apply fo_iopt_cpp; [eapply word_at; eassumption|exact Ho]. }
  unfold options. rewrite (proj2 (same_parse d atof me args _ 1 (opts0 d) o) L). apply fo_sanity_cpp; assumption.
Qed.
(** where the Fortran program can fail although the C++ one does not: a number it cannot read *)
Definition unreadable (d : nat) (rdint : string -> option Z) (rdflt : string -> option Q) (words args : list string) : Prop :=
  exists i s, zget args i = Some s /\
    ((isint d args i \/ isseed args i /\ ~ In s words) /\ rdint s = None \/ isreal args i /\ rdflt s = None).
Theorem cpp_options_fo d atof P me args o : Forall word args -> agree fo_real atof args ->
  options d atof P me args = OOk o -> fo_options d P me args = OOk o \/ (fo_options d P me args = OErr FAIL /\ unreadable d fo_int fo_real [] args).
Proof.
  intros W A H. unfold options in H. destruct (parse d atof me args (List.length args) 1 (opts0 d)) as [m| |o1] eqn:E; [discriminate..|].
  pose proof (sanity_out _ _ _ _ H) as X. subst o1. pose proof (proj1 (same_parse d atof me args _ 1 (opts0 d) o) E) as L. clear E.
  unfold fo_options. rewrite (fo_args_id d args W).
  destruct (le2_parse d args (unreadable d fo_int fo_real [] args) atoi fo_int (fun s => Some (atof s)) fo_real (cpp_iopt me) (fo_iopt me)) with (4 := L) as [K|(K & U)].
  - intros i s Hi Hs z Hz. destruct (fo_int s) as [z'|] eqn:F.
    + rewrite (fo_int_atoi s z' (word_at _ _ _ W Hs) F) in Hz. left. congruence.
    + right. split; [reflexivity|]. exists i, s. auto.
  - intros i s Hi Hs x Hx. destruct (fo_real s) as [x'|] eqn:F; [left; rewrite <- (A i s x' Hi Hs F); exact Hx|].
    right. split; [reflexivity|]. exists i, s. auto.
  - intros i s o1 Hi Hs o2 Ho. unfold fo_iopt. destruct (fo_int s) as [v|] eqn:F.
    + left. assert (C : cpp_iopt me s o1 = match c32 (v + me) with Some v => OOk (set_seed v o1) | None => OUB end).
      { unfold cpp_iopt. rewrite (fo_int_atoi s v (word_at _ _ _ W Hs) F). destruct (String.eqb_spec s "zero") as [-> |]; [discriminate F|].
        destruct (String.eqb_spec s "step") as [-> |]; [discriminate F|]. destruct (String.eqb_spec s "index") as [-> |]; [discriminate F|]. reflexivity. }
      rewrite <- C. exact Ho.
    + right. split; [reflexivity|]. exists i, s. split; [exact Hs|]. left. split; [right; split; [exact Hi|intros []]|exact F].
  - left. rewrite K. eapply cpp_sanity_fo; eassumption.
  - right. rewrite K. auto.
Qed.
(** zero, step and index are never understood *)
Definition seeded (o : opts) : Prop := o_init o = ZERO /\ o_seed o = None \/ o_init o = RANDOM /\ o_seed o <> None.
Lemma fo_iopt_seeded me s o o' : fo_iopt me s o = OOk o' -> seeded o -> seeded o'.
Proof. unfold fo_iopt. destruct (fo_int s) as [v|]; [|discriminate]. destruct (c32 (v + me)); [|discriminate]. intros E _. injection E as <-. right. cbn. split; [reflexivity|discriminate]. Qed.
Theorem fo_options_init d P me args o : fo_options d P me args = OOk o -> seeded o.
Proof.
  unfold fo_options. destruct (gparse _ _ _ _ _ _ _ _) as [m| |o1] eqn:E; [discriminate..|]. intros H. apply fo_sanity_out in H. subst o1.
  refine (gparse_inv d fo_int fo_real (fo_iopt me) (map (fo_arg d) args) seeded _ _ _ _ _ _ _ _ _ _ _ _ _ _ _ _ _ _ E _); try (intros; assumption).
  - intros s o1 o2. apply fo_iopt_seeded.
  - left. split; reflexivity.
Qed.
Theorem fo_options_noinit d atof P me args o : Forall word args -> agree fo_real atof args ->
  options d atof P me args = OOk o -> o_init o = STEP \/ o_init o = INDEX -> fo_options d P me args = OErr FAIL.
Proof.
  intros W A H Hi. destruct (cpp_options_fo d atof P me args o W A H) as [K|(K & _)]; [|exact K].
  apply fo_options_init in K. destruct K as [(E & _)|(E & _)]; rewrite E in Hi; destruct Hi; discriminate.
Qed.

(** READ with f10.3: without a point the last three figures are a fraction *)
Lemma number_split s v : number s v -> exists sg ds, (forall d, In d ds -> (d <= 9)%nat) /\ ds <> [] /\ s = (sg ++ str (map figure ds))%string.
Proof. intros (sg & ds & A & B & C & _). eauto. Qed.
Lemma split_dot_figures ds : (forall d, In d ds -> (d <= 9)%nat) -> split_dot (str (map figure ds)) = (str (map figure ds), None).
Proof.
  induction ds as [|d ds IH]; intros H; [reflexivity|]. cbn [map str split_dot]. rewrite code_figure by (apply H; left; reflexivity).
  destruct (Z.eqb_spec (48 + Z.of_nat d) 46); [lia|]. rewrite IH by (intros; apply H; right; assumption). reflexivity.
Qed.
Lemma split_dot_point ds t : (forall d, In d ds -> (d <= 9)%nat) -> split_dot (str (map figure ds) ++ String "." t)%string = (str (map figure ds), Some t).
Proof.
  induction ds as [|d ds IH]; intros H; [reflexivity|]. cbn [map str split_dot String.append]. rewrite code_figure by (apply H; left; reflexivity).
  destruct (Z.eqb_spec (48 + Z.of_nat d) 46); [lia|]. rewrite IH by (intros; apply H; right; assumption). reflexivity.
Qed.
Lemma str_app a b : (str a ++ str b)%string = str (a ++ b).
Proof. induction a as [|c a IH]; [reflexivity|]. cbn. rewrite IH. reflexivity. Qed.
Lemma str_length l : String.length (str l) = List.length l.
Proof. induction l as [|c l IH]; [reflexivity|]. cbn. rewrite IH. reflexivity. Qed.
Theorem fo_real_thousandths s v : number s v -> (String.length s <= 10)%nat -> exists q, fo_real s = Some q /\ (q == inject_Z v / inject_Z 1000)%Q.
Proof.
  intros N Hl. unfold fo_real. rewrite (field_id s (conj Hl (number_word s v N))). destruct N as (sg & ds & Hd & Hne & -> & Hs).
  assert (F : fo_udec (str (map figure ds)) = Some (inject_Z (decimal ds) / inject_Z 1000)%Q).
  { unfold fo_udec. rewrite split_dot_figures by exact Hd. unfold figures1. rewrite figures_value by exact Hd. destruct ds; [contradiction|]. reflexivity. }
  destruct ds as [|d ds]; [contradiction|]. destruct (figure_plain d (Hd d (or_introl eq_refl))) as (_ & F2 & F3).
  destruct Hs as [([-> | ->] & ->)|(-> & ->)]; cbn [String.append].
  - cbn [map str] in *. unfold signed. rewrite F2, F3, F. eexists. split; [reflexivity|]. reflexivity.
  - unfold signed. change (code "+" =? 45) with false. change (code "+" =? 43) with true. cbn iota. rewrite F. eexists. split; [reflexivity|]. reflexivity.
  - unfold signed. change (code "-" =? 45) with true. cbn iota. rewrite F. eexists. split; [reflexivity|]. rewrite inject_Z_opp. unfold Qdiv. ring.
Qed.
(** with a point the usual value: figures a . figures b *)
Theorem fo_real_point a b : (forall d, In d (a ++ b) -> (d <= 9)%nat) -> a ++ b <> [] -> (List.length a + List.length b <= 9)%nat ->
  exists q, fo_real (str (map figure a) ++ String "." (str (map figure b)))%string = Some q /\
    (q == inject_Z (decimal (a ++ b)) / inject_Z (10 ^ Z.of_nat (List.length b)))%Q.
Proof.
  intros Hd Hne Hl. set (s := (str (map figure a) ++ String "." (str (map figure b)))%string).
  assert (W : word s).
  { split.
    - unfold s. change (String "." (str (map figure b))) with (str ("."%char :: map figure b)). rewrite str_app, str_length, app_length. cbn [List.length].
      rewrite !map_length. lia.
    - unfold s. clear Hne Hl s. induction a as [|d a IH].
      + cbn [map str String.append noblank]. change (negb (code "." =? 32)) with true. cbn [andb]. cbn [app] in Hd. induction b as [|d b IH]; [reflexivity|].
        cbn [map str noblank]. rewrite code_figure by (apply Hd; left; reflexivity). rewrite IH by (intros; apply Hd; right; assumption).
        destruct (Z.eqb_spec (48 + Z.of_nat d) 32); [lia|reflexivity].
      + cbn [map str String.append noblank]. rewrite code_figure by (apply Hd; left; reflexivity). rewrite IH by (intros; apply Hd; right; assumption).
        destruct (Z.eqb_spec (48 + Z.of_nat d) 32); [lia|reflexivity]. }
  unfold fo_real. rewrite (field_id s W).
  assert (U : fo_udec s = Some (inject_Z (decimal (a ++ b)) / inject_Z (10 ^ Z.of_nat (List.length b)))%Q).
  { unfold fo_udec, s. rewrite split_dot_point by (intros; apply Hd; apply in_or_app; auto). rewrite str_app, <- map_app.
    rewrite str_length, map_length. pose proof (figures_value (a ++ b) Hd 0) as V. destruct (a ++ b) as [|d l]; [contradiction|]. cbn [map str] in V |- *. rewrite V. reflexivity. }
  assert (S : signed fo_udec Qopp s = fo_udec s).
  { unfold s, signed. destruct a as [|d a]; cbn [map str String.append]; [reflexivity|].
    destruct (figure_plain d (Hd d (or_introl eq_refl))) as (_ & F2 & F3). rewrite F2, F3. reflexivity. }
  destruct s as [|c t] eqn:Es; [destruct a; discriminate Es|]. rewrite S, U. eexists. split; [reflexivity|]. reflexivity.
Qed.

(** ** Python *)
Lemma py_in_ok P l k o : py_check_in P l k = OOk o -> k = OOk o.
Proof. unfold py_check_in. destruct (forallb _ l); [auto|]. destruct (existsb _ l); [discriminate|]. destruct (py_prod l =? P); [auto|discriminate]. Qed.
Lemma py_out_ok P l k o : py_check_out P l k = OOk o -> k = OOk o.
Proof. unfold py_check_out. destruct (forallb _ l); [auto|]. destruct (existsb _ _); [discriminate|]. destruct (py_prod l =? P); [auto|discriminate]. Qed.
Definition py_tail (o : opts) : outcome opts :=
  stop (o_nloop o <=? 0) "Invalid Nloop" (
  stop (is_random (o_init o) && (seed_of o <=? 0)) "Invalid initialize setting" (
  stop ((o_mode o <? 0) || (3 <? o_mode o)) "Invalid FFT mode" (
  stop ((1 <? o_mode o) && o_v o) "Cannot validate forward only FFT" (
  match o_tune o with
  | None => OOk o
  | Some (per, max, extra) =>
      stop (per <=? 0) "Invalid tune nper" (
      stop (Qltb max 0) "Invalid tune tmax" (
      stop ((extra <? 0) || (1 <? extra)) "Invalid tune extra" (
      stop (o_r o) "Cannot tune with remap only" (OOk o))))
  end)))).
Lemma py_sanity_out P o o' : py_sanity P o = OOk o' -> o' = o.
Proof.
  unfold py_sanity. intros H. apply stop_ok in H as (_ & H). apply py_in_ok, py_out_ok in H. repeat (apply stop_ok in H as (_ & H)).
  destruct (o_tune o) as [[[a b] c]|]; [|congruence]. repeat (apply stop_ok in H as (_ & H)). congruence.
Qed.
(** the tail of the C++ checks *)
Definition cpp_tail (d : nat) (o : opts) : outcome opts :=
  stop (bad_nloop d o) "Invalid Nloop" (
  stop (is_random (o_init o) && (seed_of o <=? 0)) "Invalid initialize setting" (
  stop ((o_mode o <? 0) || (3 <? o_mode o)) "Invalid FFT mode" (
  stop ((1 <? o_mode o) && o_v o) "Cannot validate forward only FFT" (
  match o_tune o with
  | None => OOk o
  | Some (per, max, extra) =>
      stop (per <=? 0) "Invalid tune nper" (
      stop (Qltb max 0) "Invalid tune tmax" (
      stop ((extra <? 0) || (1 <? extra)) "Invalid tune extra" (
      stop (o_r o) "Cannot tune with remap only" (OOk o))))
  end)))).
Lemma tail_cpp d o : py_tail o = OOk o -> cpp_tail d o = OOk o.
Proof.
  intros H. apply stop_ok in H as (H1 & H). apply stop_ok. split; [|exact H]. apply Z.leb_gt in H1. unfold bad_nloop.
  destruct (d =? 3)%nat; [|apply Z.leb_gt; exact H1]. apply orb_false_iff. split; [apply Z.ltb_ge; lia|]. apply andb_false_iff. left. apply Z.eqb_neq. lia.
Qed.
Lemma tail_py d o : cpp_tail d o = OOk o -> d <> 3%nat \/ o_nloop o <> 0 -> py_tail o = OOk o.
Proof.
  intros H Hd. apply stop_ok in H as (H1 & H). apply stop_ok. split; [|exact H]. unfold bad_nloop in H1. destruct (d =? 3)%nat eqn:E; [|exact H1].
  apply Nat.eqb_eq in E. apply orb_false_iff in H1 as (H1 & _). apply Z.ltb_ge in H1. apply Z.leb_gt. destruct Hd; [contradiction|lia].
Qed.

Lemma prod2 l : fold_left Z.mul (firstn 2 l) 1 = fold_right Z.mul 1 (firstn 2 l).
Proof. destruct l as [|x [|y l]]; cbn [firstn fold_left fold_right]; ring. Qed.
Lemma py_in_iff P l k o : py_check_in P l k = OOk o <->
  (Forall (fun x => x = 0) l \/ (Forall (fun x => 1 <= x) l /\ fold_right Z.mul 1 (firstn 2 l) = P)) /\ k = OOk o.
Proof.
  unfold py_check_in, py_prod. rewrite prod2. destruct (forallb _ l) eqn:E0; [apply forallb_zero in E0; tauto|].
  assert (N0 : ~ Forall (fun x => x = 0) l) by (intros X; apply forallb_zero in X; congruence).
  destruct (existsb _ l) eqn:E1.
  { split; [discriminate|]. intros ([H|(H & _)] & _); [contradiction|]. apply existsb_neg in H. congruence. }
  apply existsb_neg in E1. destruct (Z.eqb_spec (fold_right Z.mul 1 (firstn 2 l)) P); intuition congruence.
Qed.
Lemma py_out_iff P l k o : py_check_out P l k = OOk o <->
  (Forall (fun x => x = 0) l \/ (Forall (fun x => 1 <= x) (firstn 2 l) /\ fold_right Z.mul 1 (firstn 2 l) = P)) /\ k = OOk o.
Proof.
  unfold py_check_out, py_prod. rewrite prod2. destruct (forallb _ l) eqn:E0; [apply forallb_zero in E0; tauto|].
  assert (N0 : ~ Forall (fun x => x = 0) l) by (intros X; apply forallb_zero in X; congruence).
  destruct (existsb _ (firstn 2 l)) eqn:E1.
  { split; [discriminate|]. intros ([H|(H & _)] & _); [contradiction|]. apply existsb_neg in H. congruence. }
  apply existsb_neg in E1. destruct (Z.eqb_spec (fold_right Z.mul 1 (firstn 2 l)) P); intuition congruence.
Qed.
Lemma sanity_tail d P o : P <= 2 ^ 31 - 1 ->
  sanity d P o = OOk o <-> Forall (fun x => 1 <= x) (o_g o) /\ given P (o_pin o) /\ given P (o_pout o) /\ cpp_tail d o = OOk o.
Proof.
  intros HP. unfold sanity. fold (cpp_tail d o). rewrite stop_ok. rewrite existsb_neg. split.
  - intros (A & B). apply check_grid_sound in B as (B & C). apply check_grid_sound in C as (C & D). auto.
  - intros (A & B & C & D). rewrite (check_grid_complete P (o_pin o)), (check_grid_complete P (o_pout o)) by assumption. auto.
Qed.
(** what the Python programs make of a grid of processors: the third number is not looked at (input) or may be anything (output) *)
Definition py_given_in (P : Z) (l : list Z) : Prop :=
  Forall (fun x => x = 0) l \/ (Forall (fun x => 1 <= x) l /\ fold_right Z.mul 1 (firstn 2 l) = P).
Definition py_given_out (P : Z) (l : list Z) : Prop :=
  Forall (fun x => x = 0) l \/ (Forall (fun x => 1 <= x) (firstn 2 l) /\ fold_right Z.mul 1 (firstn 2 l) = P).
Lemma py_sanity_tail P o :
  py_sanity P o = OOk o <-> Forall (fun x => 1 <= x) (o_g o) /\ py_given_in P (o_pin o) /\ py_given_out P (o_pout o) /\ py_tail o = OOk o.
Proof.
  unfold py_sanity. fold (py_tail o). rewrite stop_ok, existsb_neg, py_in_iff, py_out_iff. fold (py_given_in P (o_pin o)). fold (py_given_out P (o_pout o)). tauto.
Qed.

Definition shaped (d : nat) (o : opts) : Prop := List.length (o_pin o) = d /\ List.length (o_pout o) = d.
Lemma iopt_shaped me d s o o' : cpp_iopt me s o = OOk o' -> shaped d o -> shaped d o'.
Proof.
  unfold cpp_iopt. intros H S. destruct (String.eqb s "zero"); [injection H as <-; exact S|]. destruct (String.eqb s "step"); [injection H as <-; exact S|].
  destruct (String.eqb s "index"); [injection H as <-; exact S|]. destruct (atoi s) as [v|]; [|discriminate]. destruct (c32 (v + me)); [|discriminate]. injection H as <-. exact S.
Qed.
Lemma py_iopt_shaped me d s o o' : py_iopt me s o = OOk o' -> shaped d o -> shaped d o'.
Proof.
  unfold py_iopt. intros H S. destruct (String.eqb s "zero"); [injection H as <-; exact S|]. destruct (String.eqb s "step"); [injection H as <-; exact S|].
  destruct (String.eqb s "index"); [injection H as <-; exact S|]. destruct (py_int s) as [v|]; [|discriminate]. injection H as <-. exact S.
Qed.
Lemma opts0_shaped d : shaped d (opts0 d).
Proof. split; apply repeat_length. Qed.
Lemma gparse_shaped d rI fI iI args fuel o : (forall s o o', iI s o = OOk o' -> shaped d o -> shaped d o') ->
  gparse d rI fI iI args fuel 1 (opts0 d) = OOk o -> shaped d o.
Proof.
  intros Hi H. refine (gparse_inv d rI fI iI args (shaped d) _ _ _ _ _ _ _ _ _ _ _ _ _ _ _ _ _ _ H (opts0_shaped d));
    try (intros; assumption); [intros v o1 L (A & B); split; cbn; assumption..|exact Hi].
Qed.

(** *** both loops *)
Definition py_words : list string := ["zero"; "step"; "index"].
(** the numbers the Python program reads are ints, and so is the seed of every rank *)
Definition ints_only (d : nat) (me : Z) (args : list string) : Prop := forall i s z, isint d args i \/ isseed args i ->
  zget args i = Some s -> py_int s = Some z -> - 2 ^ 31 <= z /\ z + me <= 2 ^ 31 - 1.
Lemma py_parse_cpp d pf atof me args fuel o : 0 <= me -> agree pf atof args -> ints_only d me args ->
  gparse d py_int pf (py_iopt me) args fuel 1 (opts0 d) = OOk o -> cpp_parse d atof me args fuel 1 (opts0 d) = OOk o.
Proof.
  intros Hm A I E.
  destruct (le2_parse d args False py_int atoi pf (fun s => Some (atof s)) (py_iopt me) (cpp_iopt me)) with (4 := E) as [K|(_ & [])]; [..|exact K].
  - intros i s Hi Hs z Hz. left. destruct (I i s z (or_introl Hi) Hs Hz). apply py_int_atoi; [exact Hz|lia].
  - intros i s Hi Hs x Hx. left. f_equal. eapply A; eassumption.
  - intros i s o1 Hi Hs o2 Ho. left. unfold py_iopt in Ho. unfold cpp_iopt. destruct (String.eqb s "zero"); [exact Ho|]. destruct (String.eqb s "step"); [exact Ho|].
    destruct (String.eqb s "index"); [exact Ho|]. destruct (py_int s) as [v|] eqn:F; [|discriminate]. destruct (I i s v (or_intror Hi) Hs F).
    rewrite (py_int_atoi s v F) by lia. rewrite c32_conv by lia. exact Ho.
Qed.
Lemma cpp_parse_py d pf atof me args fuel o : 0 <= me -> agree pf atof args -> ints_only d me args ->
  cpp_parse d atof me args fuel 1 (opts0 d) = OOk o ->
  gparse d py_int pf (py_iopt me) args fuel 1 (opts0 d) = OOk o \/
  (gparse d py_int pf (py_iopt me) args fuel 1 (opts0 d) = OErr FAIL /\ unreadable d py_int pf py_words args).
Proof.
  intros Hm A I L.
  apply (le2_parse d args (unreadable d py_int pf py_words args) atoi py_int (fun s => Some (atof s)) pf (cpp_iopt me) (py_iopt me)); [..|exact L].
  - intros i s Hi Hs z Hz. destruct (py_int s) as [z'|] eqn:F.
    + left. destruct (I i s z' (or_introl Hi) Hs F). rewrite (py_int_atoi s z' F) in Hz by lia. congruence.
    + right. split; [reflexivity|]. exists i, s. auto.
  - intros i s Hi Hs x Hx. destruct (pf s) as [x'|] eqn:F; [left; rewrite <- (A i s x' Hi Hs F); exact Hx|].
    right. split; [reflexivity|]. exists i, s. auto.
  - intros i s o1 Hi Hs o2 Ho. unfold cpp_iopt in Ho. unfold py_iopt. destruct (String.eqb_spec s "zero"); [left; exact Ho|].
    destruct (String.eqb_spec s "step"); [left; exact Ho|]. destruct (String.eqb_spec s "index"); [left; exact Ho|]. destruct (py_int s) as [v|] eqn:F.
    + left. destruct (I i s v (or_intror Hi) Hs F). rewrite (py_int_atoi s v F), c32_conv in Ho by lia. exact Ho.
    + right. split; [reflexivity|]. exists i, s. split; [exact Hs|]. left. split; [right; split; [exact Hi|]|exact F].
      intros [X|[X|[X|[]]]]; congruence.
Qed.
Lemma options_cpp_parse d atof P me args o : options d atof P me args = OOk o <-> cpp_parse d atof me args (List.length args) 1 (opts0 d) = OOk o /\ sanity d P o = OOk o.
Proof.
  unfold options. rewrite <- (same_parse d atof me args _ 1 (opts0 d) o). destruct (parse d atof me args (List.length args) 1 (opts0 d)) as [m| |o1]; [intuition discriminate..|]. split.
  - intros H. pose proof (sanity_out _ _ _ _ H). subst o1. auto.
  - intros (E & H). injection E as ->. exact H.
Qed.
Lemma py_options_parse d pf P me args o : py_options d pf P me args = OOk o <-> gparse d py_int pf (py_iopt me) args (List.length args) 1 (opts0 d) = OOk o /\ py_sanity P o = OOk o.
Proof.
  unfold py_options. destruct (gparse d py_int pf (py_iopt me) args (List.length args) 1 (opts0 d)) as [m| |o1]; [intuition discriminate..|]. split.
  - intros H. pose proof (py_sanity_out _ _ _ H). subst o1. auto.
  - intros (E & H). injection E as ->. exact H.
Qed.

(** *** test2d.py *)
Lemma given_two P l : List.length l = 2%nat -> (given P l <-> py_given_in P l) /\ (given P l <-> py_given_out P l).
Proof. intros H. unfold given, py_given_in, py_given_out. rewrite firstn_all2 by lia. tauto. Qed.
Theorem py_options2_cpp pf atof P me args o : 0 <= me -> P <= 2 ^ 31 - 1 -> agree pf atof args -> ints_only 2 me args ->
  py_options 2 pf P me args = OOk o -> options 2 atof P me args = OOk o.
Proof.
  intros Hm HP A I H. apply py_options_parse in H as (E & H). apply options_cpp_parse. split; [eapply py_parse_cpp; eassumption|].
  destruct (gparse_shaped 2 _ _ _ _ _ _ (py_iopt_shaped me 2) E) as (S1 & S2). apply sanity_tail; [exact HP|]. apply py_sanity_tail in H as (G & H1 & H2 & T).
  split; [exact G|]. split; [apply (proj1 (given_two P _ S1)), H1|]. split; [apply (proj2 (given_two P _ S2)), H2|]. apply tail_cpp, T.
Qed.
Theorem cpp_options2_py pf atof P me args o : 0 <= me -> P <= 2 ^ 31 - 1 -> agree pf atof args -> ints_only 2 me args ->
  options 2 atof P me args = OOk o ->
  py_options 2 pf P me args = OOk o \/ (py_options 2 pf P me args = OErr FAIL /\ unreadable 2 py_int pf py_words args).
Proof.
  intros Hm HP A I H. apply options_cpp_parse in H as (E & H).
  destruct (gparse_shaped 2 _ _ _ _ _ _ (iopt_shaped me 2) E) as (S1 & S2).
  destruct (cpp_parse_py 2 pf atof me args _ o Hm A I E) as [K|(K & U)]; [left|right; unfold py_options; rewrite K; auto].
  apply py_options_parse. split; [exact K|]. apply py_sanity_tail. apply sanity_tail in H as (G & H1 & H2 & T); [|exact HP].
  split; [exact G|]. split; [apply (proj1 (given_two P _ S1)), H1|]. split; [apply (proj2 (given_two P _ S2)), H2|]. eapply tail_py; [exact T|left; discriminate].
Qed.

(** *** test3d.py *)
(** unset, or one processor in z *)
Definition plane (l : list Z) : Prop := l = [0; 0; 0] \/ exists x y, l = [x; y; 1].
Lemma three (l : list Z) : List.length l = 3%nat -> exists x y z, l = [x; y; z].
Proof. destruct l as [|x [|y [|z [|w l]]]]; try discriminate. eauto. Qed.
Lemma plane_given P l : plane l -> (given P l <-> py_given_in P l) /\ (given P l <-> py_given_out P l).
Proof.
  intros [-> | (x & y & ->)]; unfold given, py_given_in, py_given_out; cbn [firstn].
  - assert (Z0 : Forall (fun x => x = 0) [0; 0; 0]) by (repeat constructor). tauto.
  - rewrite !Forall_cons_iff. cbn [fold_right]. rewrite !Z.mul_1_r. assert (Forall (fun x => 1 <= x) []) by constructor. assert (1 <= 1) by lia. intuition lia.
Qed.
Theorem py_options3_cpp pf atof P me args o : 0 <= me -> P <= 2 ^ 31 - 1 -> agree pf atof args -> ints_only 3 me args ->
  py_options 3 pf P me args = OOk o -> (options 3 atof P me args = OOk o <-> plane (o_pin o) /\ plane (o_pout o)).
Proof.
  intros Hm HP A I H. apply py_options_parse in H as (E & H).
  destruct (gparse_shaped 3 _ _ _ _ _ _ (py_iopt_shaped me 3) E) as (S1 & S2). apply py_sanity_tail in H as (G & H1 & H2 & T). rewrite options_cpp_parse, (sanity_tail 3 P o HP). split.
  - intros (_ & _ & G1 & G2 & _). destruct (three _ S1) as (x & y & z & E1). destruct (three _ S2) as (x' & y' & z' & E2). rewrite E1, E2 in *.
    unfold given, py_given_in, py_given_out in *. cbn [firstn fold_right] in *. rewrite !Forall_cons_iff in *. split.
    + destruct G1 as [(-> & -> & -> & _)|((X & Y & Z' & _) & M)]; [left; reflexivity|]. right. exists x, y. destruct H1 as [(-> & _)|(_ & M')]; [lia|]. do 2 f_equal. f_equal. nia.
    + destruct G2 as [(-> & -> & -> & _)|((X & Y & Z' & _) & M)]; [left; reflexivity|]. right. exists x', y'. destruct H2 as [(-> & _)|(_ & M')]; [lia|]. do 2 f_equal. f_equal. nia.
  - intros (P1 & P2). split; [eapply py_parse_cpp; eassumption|]. split; [exact G|]. split; [apply (proj1 (plane_given P _ P1)), H1|]. split; [apply (proj2 (plane_given P _ P2)), H2|]. apply tail_cpp, T.
Qed.
Theorem cpp_options3_py pf atof P me args o : 0 <= me -> P <= 2 ^ 31 - 1 -> agree pf atof args -> ints_only 3 me args ->
  options 3 atof P me args = OOk o ->
  (py_options 3 pf P me args = OErr FAIL /\ unreadable 3 py_int pf py_words args) \/
  (plane (o_pin o) /\ plane (o_pout o) /\ o_nloop o <> 0 /\ py_options 3 pf P me args = OOk o) \/
  (plane (o_pin o) /\ plane (o_pout o) /\ o_nloop o = 0 /\ py_options 3 pf P me args = OErr "Invalid Nloop") \/
  (~ (plane (o_pin o) /\ plane (o_pout o)) /\ py_options 3 pf P me args = OErr "Specified proc grid does not match nprocs").
Proof.
  intros Hm HP A I H. apply options_cpp_parse in H as (E & H). destruct (gparse_shaped 3 _ _ _ _ _ _ (iopt_shaped me 3) E) as (S1 & S2).
  destruct (cpp_parse_py 3 pf atof me args _ o Hm A I E) as [K|(K & U)]; [right|left; unfold py_options; rewrite K; auto].
  apply sanity_tail in H as (G & H1 & H2 & T); [|exact HP].
  assert (D : forall l, List.length l = 3%nat -> given P l -> plane l \/ exists x y z, l = [x; y; z] /\ 1 <= x /\ 1 <= y /\ 2 <= z /\ x * y * z = P).
  { intros l Hl Hg. destruct (three l Hl) as (x & y & z & ->). unfold given in Hg. rewrite !Forall_cons_iff in Hg. cbn [fold_right] in Hg.
    destruct Hg as [(-> & -> & -> & _)|((X & Y & Z' & _) & M)]; [left; left; reflexivity|].
    destruct (Z.eq_dec z 1) as [-> | Hz]; [left; right; eauto|]. right. exists x, y, z. split; [reflexivity|]. lia. }
  assert (B : forall x y z k, 1 <= x -> 1 <= y -> 2 <= z -> x * y * z = P ->
    py_check_in P [x; y; z] k = OErr "Specified proc grid does not match nprocs" /\ py_check_out P [x; y; z] k = OErr "Specified proc grid does not match nprocs").
  { intros x y z k X Y Z' M. unfold py_check_in, py_check_out, py_prod. cbn [forallb existsb firstn fold_left].
    destruct (Z.eqb_spec x 0); [lia|]. destruct (Z.leb_spec x 0); [lia|]. destruct (Z.leb_spec y 0); [lia|]. destruct (Z.leb_spec z 0); [lia|]. cbn [andb orb].
    destruct (Z.eqb_spec (1 * x * y) P); [nia|]. auto. }
  assert (NP : forall x y z, 2 <= z -> ~ plane [x; y; z]).
  { intros x y z Hz [X|(a & b & X)]; injection X; lia. }
  assert (O : py_options 3 pf P me args = py_sanity P o) by (unfold py_options; rewrite K; reflexivity).
  assert (G' : existsb (fun x => x <=? 0) (o_g o) = false) by (apply existsb_neg, G).
  destruct (D _ S1 H1) as [P1|(x & y & z & E1 & X & Y & Z' & M)].
  - assert (C1 : forall k, py_check_in P (o_pin o) k = k).
    { intros k. destruct (plane_given P _ P1) as (X & _). apply X in H1. destruct H1 as [Z0|(F1 & F2)]; unfold py_check_in.
      - apply forallb_zero in Z0. rewrite Z0. reflexivity.
      - apply existsb_neg in F1. rewrite F1. unfold py_prod. rewrite prod2, F2, Z.eqb_refl. destruct (forallb _ _); reflexivity. }
    destruct (D _ S2 H2) as [P2|(x & y & z & E2 & X & Y & Z' & M)].
    + assert (C2 : forall k, py_check_out P (o_pout o) k = k).
      { intros k. destruct (plane_given P _ P2) as (_ & X). apply X in H2. destruct H2 as [Z0|(F1 & F2)]; unfold py_check_out.
        - apply forallb_zero in Z0. rewrite Z0. reflexivity.
        - apply existsb_neg in F1. rewrite F1. unfold py_prod. rewrite prod2, F2, Z.eqb_refl. destruct (forallb _ _); reflexivity. }
      destruct (Z.eq_dec (o_nloop o) 0) as [N|N].
      * right. left. split; [exact P1|]. split; [exact P2|]. split; [exact N|]. rewrite O. unfold py_sanity. rewrite G', C1, C2. unfold stop. rewrite N. reflexivity.
      * left. split; [exact P1|]. split; [exact P2|]. split; [exact N|]. rewrite O. unfold py_sanity. fold (py_tail o). rewrite G', C1, C2. unfold stop at 1.
        eapply tail_py; [exact T|right; exact N].
    + right. right. split; [intros (_ & X2); rewrite E2 in X2; exact (NP _ _ _ Z' X2)|]. rewrite O. unfold py_sanity. rewrite G', C1, E2. unfold stop at 1. apply B; assumption.
  - right. right. split; [intros (X2 & _); rewrite E1 in X2; exact (NP _ _ _ Z' X2)|]. rewrite O. unfold py_sanity. rewrite G', E1. unfold stop at 1. apply B; assumption.
Qed.

(** concrete command lines *)
Example fo_ex : let a := ["test3d_f90"; "-g"; "4"; "6"; "8"; "-n"; "5"; "-i"; "123"; "-m"; "1"; "-v"] in
  Forall word a /\ agree fo_real (fun _ => 0%Q) a /\ fo_options 3 2 1 a = options 3 (fun _ => 0%Q) 2 1 a /\
  exists o, fo_options 3 2 1 a = OOk o /\ o_g o = [4; 6; 8] /\ o_seed o = Some 124.
Proof.
  intros a. split; [unfold a; repeat constructor|]. split.
  - intros i s x (j & Hj & _). exfalso. unfold zget in Hj. destruct (j <? 0); [discriminate|].
    apply nth_error_In in Hj. cbn in Hj. repeat (destruct Hj as [Hj|Hj]; [discriminate Hj|]). exact Hj.
  - split; [vm_compute; reflexivity|]. eexists. split; [vm_compute; reflexivity|]. split; reflexivity.
Qed.

(** arguments longer than the buffer *)
Lemma fo_cut_args : (exists o o', options 3 (fun _ => 0%Q) 1 0 ["test3d"; "-n"; "00000000012"]%string = OOk o /\ fo_options 3 1 0 ["test3d"; "-n"; "00000000012"]%string = OOk o' /\ o_nloop o = 12 /\ o_nloop o' = 1) /\
  (exists z, String.length z = 33%nat /\ options 3 (fun _ => 0%Q) 1 0 ["test3d"; z]%string = OErr SYNTAX /\ (exists o, fo_options 3 1 0 ["test3d"; z]%string = OOk o /\ o_v o = true) /\
    options 2 (fun _ => 0%Q) 1 0 ["test2d"; z]%string = OErr SYNTAX /\ fo_options 2 1 0 ["test2d"; z]%string = OErr SYNTAX) /\
  exists y, String.length y = 65%nat /\ options 2 (fun _ => 0%Q) 1 0 ["test2d"; y]%string = OErr SYNTAX /\ exists o, fo_options 2 1 0 ["test2d"; y]%string = OOk o /\ o_v o = true.
Proof.
  split; [eexists; eexists; split; [vm_compute; reflexivity|]; split; [vm_compute; reflexivity|]; split; reflexivity|].
  split.
  - exists "-v                              x"%string. split; [reflexivity|]. split; [vm_compute; reflexivity|].
    split; [eexists; split; [vm_compute; reflexivity|reflexivity]|]. split; vm_compute; reflexivity.
  - exists "-v                                                              x"%string. split; [reflexivity|]. split; [vm_compute; reflexivity|]. eexists; split; [vm_compute; reflexivity|reflexivity].
Qed.
