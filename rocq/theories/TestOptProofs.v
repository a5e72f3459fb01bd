(** TestOptProofs.v : the command line as a grammar (specification) and options(). *)

From Coq Require Import QArith Qround String Ascii Lia ZArith.
From Verif Require Import Base Spec Layout LayoutProofs Setup3d Setup2d TestProg TestOpt.
Local Open Scope Z_scope.
Local Open Scope list_scope.

(** ** specification *)
Section Grammar.
Variables (d : nat) (atof : string -> Q) (me : Z).
(** one option with its arguments, and the settings before and after *)
Inductive one : list string -> opts -> opts -> Prop :=
| one_g ss v o : List.length ss = d -> map atoi ss = map Some v -> one ("-g"%string :: ss) o (set_g v o)
| one_pin ss v o : List.length ss = d -> map atoi ss = map Some v -> one ("-pin"%string :: ss) o (set_pin v o)
| one_pout ss v o : List.length ss = d -> map atoi ss = map Some v -> one ("-pout"%string :: ss) o (set_pout v o)
| one_n s v o : atoi s = Some v -> one ["-n"; s]%string o (set_nloop v o)
| one_zero o : one ["-i"; "zero"]%string o (set_init ZERO o)
| one_step o : one ["-i"; "step"]%string o (set_init STEP o)
| one_index o : one ["-i"; "index"]%string o (set_init INDEX o)
| one_seed s v o : s <> "zero"%string -> s <> "step"%string -> s <> "index"%string -> atoi s = Some v ->
    - 2 ^ 31 <= v + me <= 2 ^ 31 - 1 -> one ["-i"; s]%string o (set_seed (v + me) o)
| one_tune p m e vp ve o : atoi p = Some vp -> atoi e = Some ve -> one ["-tune"; p; m; e]%string o (set_tune (vp, atof m, ve) o)
| one_m s v o : atoi s = Some v -> one ["-m"; s]%string o (set_mode v o)
| one_point o : one ["-c"; "point"]%string o (set_c 0 o)
| one_all o : one ["-c"; "all"]%string o (set_c 1 o)
| one_combo o : one ["-c"; "combo"]%string o (set_c 2 o)
| one_pencil o : one ["-e"; "pencil"]%string o (set_e 0 o)
| one_brick o : one ["-e"; "brick"]%string o (set_e 1 o)
| one_array o : one ["-p"; "array"]%string o (set_p 0 o)
| one_ptr o : one ["-p"; "ptr"]%string o (set_p 1 o)
| one_memcpy o : one ["-p"; "memcpy"]%string o (set_p 2 o)
| one_t o : one ["-t"]%string o (set_t o)
| one_r o : one ["-r"]%string o (set_r o)
| one_o o : one ["-o"]%string o (set_o o)
| one_v o : one ["-v"]%string o (set_v o).
Inductive cmd : list string -> opts -> opts -> Prop :=
| cmd_nil o : cmd [] o o
| cmd_one l rest o o1 o2 : one l o o1 -> cmd rest o1 o2 -> cmd (l ++ rest) o o2.
End Grammar.

Definition given (P : Z) (l : list Z) : Prop :=
  Forall (fun x => x = 0) l \/ (Forall (fun x => 1 <= x) l /\ fold_right Z.mul 1 l = P).
Record accepted (d : nat) (P : Z) (o : opts) : Prop := mkacc {
  a_g : Forall (fun x => 1 <= x) (o_g o);
  a_pin : given P (o_pin o);
  a_pout : given P (o_pout o);
  a_nloop : 0 <= o_nloop o /\ (d = 3%nat -> o_tune o = None -> 1 <= o_nloop o) /\ (d <> 3%nat -> 1 <= o_nloop o);
  a_seed : o_init o = RANDOM -> exists s, o_seed o = Some s /\ 1 <= s;
  a_mode : 0 <= o_mode o <= 3;
  a_v : o_v o = true -> o_mode o <= 1;
  a_tune : forall per mx ex, o_tune o = Some (per, mx, ex) -> 1 <= per /\ (0 <= mx)%Q /\ (ex = 0 \/ ex = 1) /\ o_r o = false }.

(** ** the loop *)
Section Loop.
Variables (d : nat) (atof : string -> Q) (me : Z) (args : list string).

Lemma arg_at {A} pre rest (k : string -> outcome A) : args = pre ++ rest ->
  arg args (zlen pre) k = match rest with s :: _ => k s | [] => OUB end.
Proof.
  intros ->. unfold arg, zget, zlen. destruct (Z.ltb_spec (Z.of_nat (List.length pre)) 0); [lia|]. rewrite Nat2Z.id, nth_error_app2, Nat.sub_diag by lia.
  destruct rest; reflexivity.
Qed.
Lemma arg_next {A} pre w rest (k : string -> outcome A) : args = pre ++ w :: rest ->
  arg args (zlen pre + 1) k = match rest with s :: _ => k s | [] => OUB end.
Proof.
  intros E. replace (zlen pre + 1) with (zlen (pre ++ [w])) by (unfold zlen; rewrite app_length; cbn [List.length]; lia).
  apply arg_at. rewrite <- app_assoc. exact E.
Qed.
Lemma app_snoc {A} (pre : list A) w rest : pre ++ w :: rest = (pre ++ [w]) ++ rest.
Proof. rewrite <- app_assoc. reflexivity. Qed.
Lemma zlen_snoc {A} (pre : list A) w : zlen (pre ++ [w]) = zlen pre + 1.
Proof. unfold zlen. rewrite app_length. cbn [List.length]. lia. Qed.
Lemma zlen_args (pre rest : list string) : args = pre ++ rest -> zlen args = zlen pre + zlen rest.
Proof. intros ->. unfold zlen. rewrite app_length. lia. Qed.

(** the numbers read are those of the first m strings *)
Lemma nums_ok {A} m : forall pre rest (k : list Z -> outcome A) (a : A), args = pre ++ rest ->
  nums args m (zlen pre) k = OOk a -> exists ss v rest', rest = ss ++ rest' /\ List.length ss = m /\ map atoi ss = map Some v /\ k v = OOk a.
Proof.
  induction m as [|m IH]; intros pre rest k a E H.
  - exists [], [], rest. auto.
  - cbn [nums] in H. unfold num in H. rewrite (arg_at pre rest _ E) in H. destruct rest as [|s rest]; [discriminate|].
    destruct (atoi s) as [z|] eqn:Ea; [|discriminate]. rewrite <- (zlen_snoc pre s) in H. rewrite app_snoc in E.
    destruct (IH _ _ _ _ E H) as (ss & v & rest' & -> & L & M & K). exists (s :: ss), (z :: v), rest'. cbn. rewrite L, Ea, M. auto.
Qed.
Lemma nums_conv {A} m : forall pre rest ss v (k : list Z -> outcome A), args = pre ++ ss ++ rest -> List.length ss = m -> map atoi ss = map Some v ->
  nums args m (zlen pre) k = k v.
Proof.
  induction m as [|m IH]; intros pre rest ss v k E L M.
  - destruct ss; [|discriminate]. destruct v; [|discriminate]. reflexivity.
  - destruct ss as [|s ss]; [discriminate|]. destruct v as [|z v]; [discriminate|]. cbn [map] in M. injection M as Ma M.
    cbn [nums]. unfold num. rewrite (arg_at pre _ _ E). cbn [app]. rewrite Ma. rewrite <- (zlen_snoc pre s).
    apply (IH _ rest ss v (fun l => k (z :: l))); [rewrite <- app_snoc; exact E|cbn in L; lia|exact M].
Qed.
Lemma need_ok {A} pre rest m (k : outcome A) a : args = pre ++ rest -> need args (zlen pre) m k = OOk a -> m <= zlen rest /\ k = OOk a.
Proof. intros E. unfold need. rewrite (zlen_args _ _ E). destruct (Z.ltb_spec (zlen pre + zlen rest) (zlen pre + m)); [discriminate|]. intros. split; [lia|assumption]. Qed.
Lemma need_conv {A} pre rest m (k : outcome A) : args = pre ++ rest -> m <= zlen rest -> need args (zlen pre) m k = k.
Proof. intros E H. unfold need. rewrite (zlen_args _ _ E). destruct (Z.ltb_spec (zlen pre + zlen rest) (zlen pre + m)); [lia|reflexivity]. Qed.
Lemma c32_inv z w : c32 z = Some w -> w = z /\ - 2 ^ 31 <= z <= 2 ^ 31 - 1.
Proof. unfold c32. destruct (Z.leb_spec (- 2 ^ 31) z), (Z.leb_spec z (2 ^ 31 - 1)); try discriminate. intros E. injection E as <-. lia. Qed.
Lemma c32_conv z : - 2 ^ 31 <= z <= 2 ^ 31 - 1 -> c32 z = Some z.
Proof. unfold c32. destruct (Z.leb_spec (- 2 ^ 31) z), (Z.leb_spec z (2 ^ 31 - 1)); try lia. reflexivity. Qed.

Lemma num_ok {A} pre w rest (k : Z -> outcome A) a : args = pre ++ w :: rest -> num args (zlen pre + 1) k = OOk a ->
  exists s v rest', rest = s :: rest' /\ atoi s = Some v /\ k v = OOk a.
Proof.
  intros E H. unfold num in H. rewrite (arg_next pre w rest _ E) in H. destruct rest as [|s rest]; [discriminate|].
  destruct (atoi s) as [v|] eqn:Ea; [|discriminate]. eauto 6.
Qed.
Lemma num_conv {A} pre w s v rest (k : Z -> outcome A) : args = pre ++ w :: s :: rest -> atoi s = Some v -> num args (zlen pre + 1) k = k v.
Proof. intros E Ev. unfold num. rewrite (arg_next pre w _ _ E), Ev. reflexivity. Qed.
Lemma zlen_cons {A} (x : A) l : zlen (x :: l) = zlen l + 1.
Proof. unfold zlen. cbn [List.length]. lia. Qed.

Lemma option1_sound pre rest o i' o' : args = pre ++ rest -> option1 d atof me args (zlen pre) o = OOk (i', o') ->
  exists l rest', rest = l ++ rest' /\ one d atof me l o o' /\ i' = zlen pre + zlen l /\ l <> [].
Proof.
  intros E H. unfold option1 in H. rewrite (arg_at pre rest _ E) in H. destruct rest as [|w rest]; [discriminate|].
  assert (Z1 : forall (s : string) l, zlen (s :: l) = zlen l + 1) by (intros; apply zlen_cons).
  assert (Z0 : zlen (@nil string) = 0) by reflexivity.
  assert (G : forall (f : list Z -> opts -> opts), need args (zlen pre) (Z.of_nat d + 1) (nums args d (zlen pre + 1) (fun v => OOk (zlen pre + (Z.of_nat d + 1), f v o))) = OOk (i', o') ->
     exists ss v rest', rest = ss ++ rest' /\ List.length ss = d /\ map atoi ss = map Some v /\ i' = zlen pre + zlen (w :: ss) /\ o' = f v o).
  { intros f H'. destruct (need_ok pre (w :: rest) _ _ _ E H') as (_ & K). rewrite <- (zlen_snoc pre w) in K. rewrite app_snoc in E.
    destruct (nums_ok d _ _ _ _ E K) as (ss & v & rest' & -> & L & M & Q). injection Q as <- <-. exists ss, v, rest'. rewrite Z1. unfold zlen. rewrite L.
    repeat split; auto; lia. }
  assert (N1 : forall (f : Z -> opts -> opts), need args (zlen pre) 2 (num args (zlen pre + 1) (fun v => OOk (zlen pre + 2, f v o))) = OOk (i', o') ->
     exists s v rest', rest = s :: rest' /\ atoi s = Some v /\ i' = zlen pre + zlen [w; s] /\ o' = f v o).
  { intros f H'. destruct (need_ok pre (w :: rest) _ _ _ E H') as (_ & K). destruct (num_ok _ _ _ _ _ E K) as (s & v & rest' & -> & Ea & Q). injection Q as <- <-.
    exists s, v, rest'. rewrite !Z1, Z0. auto. }
  assert (W : forall (k : string -> outcome (Z * opts)), need args (zlen pre) 2 (arg args (zlen pre + 1) k) = OOk (i', o') -> exists s rest', rest = s :: rest' /\ k s = OOk (i', o')).
  { intros k H'. destruct (need_ok pre (w :: rest) _ _ _ E H') as (_ & K). rewrite (arg_next _ _ _ _ E) in K. destruct rest as [|s rest]; [discriminate|]. eauto. }
  Local Ltac fin l rest' := exists l, rest'; split; [reflexivity|]; split; [constructor; assumption|]; split; [|discriminate].
  destruct (String.eqb_spec w "-h"); [discriminate|].
  destruct (String.eqb_spec w "-g") as [-> |].
  { destruct (G _ H) as (ss & v & rest' & -> & L & M & -> & ->). fin ("-g"%string :: ss) rest'. reflexivity. }
  destruct (String.eqb_spec w "-pin") as [-> |].
  { destruct (G _ H) as (ss & v & rest' & -> & L & M & -> & ->). fin ("-pin"%string :: ss) rest'. reflexivity. }
  destruct (String.eqb_spec w "-pout") as [-> |].
  { destruct (G _ H) as (ss & v & rest' & -> & L & M & -> & ->). fin ("-pout"%string :: ss) rest'. reflexivity. }
  destruct (String.eqb_spec w "-n") as [-> |].
  { destruct (N1 _ H) as (s & v & rest' & -> & Ea & -> & ->). fin ["-n"%string; s] rest'. reflexivity. }
  destruct (String.eqb_spec w "-i") as [-> |].
  { destruct (W _ H) as (s & rest' & -> & K). revert K.
    destruct (String.eqb_spec s "zero") as [-> |]; [intros K; injection K as <- <-; fin ["-i"; "zero"]%string rest'; rewrite !Z1, Z0; lia|].
    destruct (String.eqb_spec s "step") as [-> |]; [intros K; injection K as <- <-; fin ["-i"; "step"]%string rest'; rewrite !Z1, Z0; lia|].
    destruct (String.eqb_spec s "index") as [-> |]; [intros K; injection K as <- <-; fin ["-i"; "index"]%string rest'; rewrite !Z1, Z0; lia|].
    intros K. destruct (num_ok _ _ _ _ _ E K) as (s' & v & r'' & Q & Ea & K'). injection Q as <- <-.
    destruct (c32 (v + me)) as [x|] eqn:Ec; [|discriminate]. injection K' as <- <-. apply c32_inv in Ec. destruct Ec as (-> & Hc).
    fin ["-i"%string; s] rest'. rewrite !Z1, Z0; lia. }
  destruct (String.eqb_spec w "-tune") as [-> |].
  { destruct (need_ok pre _ _ _ _ E H) as (L & K). destruct (num_ok _ _ _ _ _ E K) as (p & vp & r1 & -> & Ep & K1). rewrite app_snoc in E.
    replace (zlen pre + 2) with (zlen (pre ++ ["-tune"%string]) + 1) in K1 by (rewrite zlen_snoc; lia).
    rewrite (arg_next _ _ _ _ E) in K1. destruct r1 as [|m r1]; [discriminate|]. rewrite app_snoc in E.
    replace (zlen pre + 3) with (zlen ((pre ++ ["-tune"%string]) ++ [p]) + 1) in K1 by (rewrite !zlen_snoc; lia).
    destruct (num_ok _ _ _ _ _ E K1) as (e & ve & r2 & -> & Ee & K2). injection K2 as <- <-.
    fin ["-tune"%string; p; m; e] r2. rewrite !Z1, Z0; lia. }
  destruct (String.eqb_spec w "-m") as [-> |].
  { destruct (N1 _ H) as (s & v & rest' & -> & Ea & -> & ->). fin ["-m"%string; s] rest'. reflexivity. }
  destruct (String.eqb_spec w "-c") as [-> |].
  { destruct (W _ H) as (s & rest' & -> & K). revert K.
    destruct (String.eqb_spec s "point") as [-> |]; [intros K; injection K as <- <-; fin ["-c"; "point"]%string rest'; rewrite !Z1, Z0; lia|].
    destruct (String.eqb_spec s "all") as [-> |]; [intros K; injection K as <- <-; fin ["-c"; "all"]%string rest'; rewrite !Z1, Z0; lia|].
    destruct (String.eqb_spec s "combo") as [-> |]; [intros K; injection K as <- <-; fin ["-c"; "combo"]%string rest'; rewrite !Z1, Z0; lia|]. discriminate. }
  destruct (String.eqb_spec w "-e") as [-> |].
  { destruct (W _ H) as (s & rest' & -> & K). revert K.
    destruct (String.eqb_spec s "pencil") as [-> |]; [intros K; injection K as <- <-; fin ["-e"; "pencil"]%string rest'; rewrite !Z1, Z0; lia|].
    destruct (String.eqb_spec s "brick") as [-> |]; [intros K; injection K as <- <-; fin ["-e"; "brick"]%string rest'; rewrite !Z1, Z0; lia|]. discriminate. }
  destruct (String.eqb_spec w "-p") as [-> |].
  { destruct (W _ H) as (s & rest' & -> & K). revert K.
    destruct (String.eqb_spec s "array") as [-> |]; [intros K; injection K as <- <-; fin ["-p"; "array"]%string rest'; rewrite !Z1, Z0; lia|].
    destruct (String.eqb_spec s "ptr") as [-> |]; [intros K; injection K as <- <-; fin ["-p"; "ptr"]%string rest'; rewrite !Z1, Z0; lia|].
    destruct (String.eqb_spec s "memcpy") as [-> |]; [intros K; injection K as <- <-; fin ["-p"; "memcpy"]%string rest'; rewrite !Z1, Z0; lia|]. discriminate. }
  destruct (String.eqb_spec w "-t") as [-> |]; [injection H as <- <-; fin ["-t"]%string rest; reflexivity|].
  destruct (String.eqb_spec w "-r") as [-> |]; [injection H as <- <-; fin ["-r"]%string rest; reflexivity|].
  destruct (String.eqb_spec w "-o") as [-> |]; [injection H as <- <-; fin ["-o"]%string rest; reflexivity|].
  destruct (String.eqb_spec w "-v") as [-> |]; [injection H as <- <-; fin ["-v"]%string rest; reflexivity|].
  discriminate.
Qed.

Lemma option1_complete pre l rest o o' : args = pre ++ l ++ rest -> one d atof me l o o' ->
  option1 d atof me args (zlen pre) o = OOk (zlen pre + zlen l, o').
Proof.
  assert (Z1 : forall (s : string) l, zlen (s :: l) = zlen l + 1) by (intros; apply zlen_cons).
  assert (Z0 : zlen (@nil string) = 0) by reflexivity. assert (Zr : 0 <= zlen rest) by (unfold zlen; lia).
  assert (G : forall w ss v (f : list Z -> opts -> opts), args = pre ++ (w :: ss) ++ rest -> List.length ss = d -> map atoi ss = map Some v ->
     need args (zlen pre) (Z.of_nat d + 1) (nums args d (zlen pre + 1) (fun v => OOk (zlen pre + (Z.of_nat d + 1), f v o))) = OOk (zlen pre + zlen (w :: ss), f v o)).
  { intros w ss v f E L M. rewrite (need_conv _ _ _ _ E) by (rewrite <- app_comm_cons, Z1; unfold zlen; rewrite app_length; lia).
    rewrite <- (zlen_snoc pre w). cbn [app] in E. rewrite app_snoc in E. rewrite (nums_conv d _ _ ss v _ E L M), Z1. do 2 f_equal. unfold zlen. rewrite L. lia. }
  intros E H. unfold option1. destruct H; rewrite (arg_at pre _ _ E); cbn [app] in *; cbn [String.eqb Ascii.eqb Bool.eqb].
  Local Ltac need2 E Z1 := rewrite (need_conv _ _ _ _ E) by (rewrite !Z1; lia).
  1-3: apply G; assumption.
  all: try reflexivity.
  all: try (need2 E Z1; rewrite ?(arg_next _ _ _ _ E); cbn [String.eqb Ascii.eqb Bool.eqb]; rewrite !Z1, Z0; reflexivity).
  - need2 E Z1. rewrite (num_conv _ _ _ _ _ _ E H). rewrite !Z1, Z0. reflexivity.
  - need2 E Z1. rewrite (arg_next _ _ _ _ E). apply String.eqb_neq in H, H0, H1. rewrite H, H0, H1.
    rewrite (num_conv _ _ _ _ _ _ E H2), (c32_conv _ H3). rewrite !Z1, Z0. reflexivity.
  - need2 E Z1. rewrite (num_conv _ _ _ _ _ _ E H). rewrite app_snoc in E.
    replace (zlen pre + 2) with (zlen (pre ++ ["-tune"%string]) + 1) by (rewrite zlen_snoc; lia).
    rewrite (arg_next _ _ _ _ E). rewrite app_snoc in E.
    replace (zlen pre + 3) with (zlen ((pre ++ ["-tune"%string]) ++ [p]) + 1) by (rewrite !zlen_snoc; lia).
    rewrite (num_conv _ _ _ _ _ _ E H0). rewrite !Z1, Z0. reflexivity.
  - need2 E Z1. rewrite (num_conv _ _ _ _ _ _ E H). rewrite !Z1, Z0. reflexivity.
Qed.

Lemma one_nonempty l o o' : one d atof me l o o' -> l <> [].
Proof. destruct 1; discriminate. Qed.
Lemma parse_sound fuel : forall pre rest o o', args = pre ++ rest -> parse d atof me args fuel (zlen pre) o = OOk o' -> cmd d atof me rest o o'.
Proof.
  induction fuel as [|fuel IH]; intros pre rest o o' E H; cbn [parse] in H; rewrite (zlen_args _ _ E) in H.
  - destruct (Z.ltb_spec (zlen pre) (zlen pre + zlen rest)); [discriminate|]. injection H as <-. destruct rest; [constructor|]. rewrite zlen_cons in *. unfold zlen in *. lia.
  - destruct (Z.ltb_spec (zlen pre) (zlen pre + zlen rest)).
    + destruct (option1 _ _ _ _ _ _) as [| |[i' o1]] eqn:E1; try discriminate. destruct (option1_sound _ _ _ _ _ E E1) as (l & rest' & -> & H1 & -> & _).
      replace (zlen pre + zlen l) with (zlen (pre ++ l)) in H by (unfold zlen; rewrite app_length; lia).
      econstructor; [exact H1|]. apply (IH (pre ++ l)); [rewrite <- app_assoc; exact E|exact H].
    + injection H as <-. destruct rest; [constructor|]. rewrite zlen_cons in *. unfold zlen in *. lia.
Qed.
Lemma parse_complete rest o o' : cmd d atof me rest o o' -> forall fuel pre, args = pre ++ rest -> (List.length rest <= fuel)%nat ->
  parse d atof me args fuel (zlen pre) o = OOk o'.
Proof.
  induction 1 as [o | l rest o o1 o2 H1 H2 IH]; intros fuel pre E L.
  - assert (X : zlen pre <? zlen args = false) by (rewrite (zlen_args _ _ E); cbn; apply Z.ltb_ge; unfold zlen; cbn; lia).
    destruct fuel; cbn [parse]; rewrite X; reflexivity.
  - pose proof (one_nonempty _ _ _ H1) as Ne. assert (Ln : (1 <= List.length l)%nat) by (destruct l; [congruence|cbn; lia]). rewrite app_length in L.
    destruct fuel as [|fuel]; [lia|]. cbn [parse]. rewrite (zlen_args _ _ E).
    destruct (Z.ltb_spec (zlen pre) (zlen pre + zlen (l ++ rest))); [|unfold zlen in *; rewrite app_length in *; lia].
    rewrite (option1_complete pre l rest o o1 E H1). replace (zlen pre + zlen l) with (zlen (pre ++ l)) by (unfold zlen; rewrite app_length; lia).
    apply IH; [rewrite <- app_assoc; exact E|lia].
Qed.

(** nothing undefined in the loop if all numbers fit *)
Definition fits : Prop := forall s, In s args -> exists v, atoi s = Some v /\ - 2 ^ 31 <= v + me <= 2 ^ 31 - 1.
Lemma arg_safe {A} i (k : string -> outcome A) : 0 <= i < zlen args -> (forall s, In s args -> k s <> OUB) -> arg args i k <> OUB.
Proof.
  intros Hi Hk. unfold arg. destruct (zget_Some args i Hi) as (s & Es). rewrite Es. apply Hk. unfold zget in Es. destruct (i <? 0); [discriminate|].
  eapply nth_error_In, Es.
Qed.
Lemma num_safe {A} i (k : Z -> outcome A) : fits -> 0 <= i < zlen args -> (forall v, k v <> OUB) -> num args i k <> OUB.
Proof.
  intros Hf Hi Hk. apply arg_safe; [exact Hi|]. intros s Hs. destruct (Hf s Hs) as (v & -> & _). apply Hk.
Qed.
Lemma nums_safe {A} m : forall i (k : list Z -> outcome A), fits -> 0 <= i -> i + Z.of_nat m <= zlen args -> (forall v, k v <> OUB) -> nums args m i k <> OUB.
Proof.
  induction m as [|m IH]; intros i k Hf Hi Hm Hk; cbn [nums]; [apply Hk|]. apply num_safe; [exact Hf|lia|]. intros v. apply IH; auto; lia.
Qed.
Lemma need_safe {A} i m (k : outcome A) : (i + m <= zlen args -> k <> OUB) -> need args i m k <> OUB.
Proof. intros H. unfold need. destruct (Z.ltb_spec (zlen args) (i + m)); [discriminate|]. apply H. lia. Qed.
Lemma option1_safe i o : fits -> 0 <= i < zlen args -> option1 d atof me args i o <> OUB.
Proof.
  intros Hf Hi. unfold option1. apply arg_safe; [exact Hi|]. intros w _.
  repeat match goal with
  | |- (if ?b then _ else _) <> OUB => destruct b
  | |- need _ _ _ _ <> OUB => apply need_safe; intros ?
  | |- nums _ _ _ _ <> OUB => apply nums_safe; [exact Hf|lia|lia|intros ?]
  | |- OOk _ <> OUB => discriminate
  | |- OErr _ <> OUB => discriminate
  | |- arg _ _ _ <> OUB => apply arg_safe; [lia|intros ? ?]
  end; try (apply num_safe; [exact Hf|lia|intros ?; discriminate]).
  - apply arg_safe; [lia|]. intros s' Hs'. destruct (Hf s' Hs') as (v & -> & Hv). rewrite (c32_conv _ Hv). discriminate.
  - apply num_safe; [exact Hf|lia|]. intros p. apply arg_safe; [lia|]. intros m _. apply num_safe; [exact Hf|lia|]. discriminate.
Qed.
Lemma option1_moves i o i' o' : 0 <= i -> option1 d atof me args i o = OOk (i', o') -> i < i'.
Proof.
  intros Hi H. destruct (Z_lt_le_dec i (zlen args)) as [L|L].
  - set (pre := firstn (Z.to_nat i) args). assert (E : args = pre ++ skipn (Z.to_nat i) args) by (symmetry; apply firstn_skipn).
    assert (Zp : zlen pre = i) by (unfold zlen, pre in *; rewrite firstn_length; lia). rewrite <- Zp in H.
    destruct (option1_sound _ _ _ _ _ E H) as (l & rest & _ & _ & -> & Ne). rewrite Zp. destruct l; [congruence|]. rewrite zlen_cons. unfold zlen. lia.
  - unfold option1, arg in H. rewrite zget_None in H by lia. discriminate.
Qed.
Lemma parse_safe fuel : forall i o, fits -> 0 <= i -> zlen args - i <= Z.of_nat fuel -> parse d atof me args fuel i o <> OUB.
Proof.
  induction fuel as [|fuel IH]; intros i o Hf Hi Hl; cbn [parse]; (destruct (Z.ltb_spec i (zlen args)); [|discriminate]); [lia|].
  destruct (option1 _ _ _ _ _ _) as [| |[i' o1]] eqn:E1; [discriminate|exact (fun _ => option1_safe i o Hf ltac:(lia) E1)|].
  pose proof (option1_moves i o i' o1 Hi E1). apply IH; [exact Hf|lia|lia].
Qed.
End Loop.

(** ** the checks *)
Lemma forallb_zero l : forallb (fun x => x =? 0) l = true <-> Forall (fun x => x = 0) l.
Proof. rewrite forallb_forall, Forall_forall. split; intros H x Hx; specialize (H x Hx); apply Z.eqb_eq; assumption. Qed.
Lemma existsb_neg l : existsb (fun x => x <=? 0) l = false <-> Forall (fun x => 1 <= x) l.
Proof.
  rewrite Forall_forall. split.
  - intros H x Hx. destruct (Z.leb_spec x 0) as [L|]; [|lia]. exfalso. assert (T : existsb (fun x => x <=? 0) l = true) by (apply existsb_exists; exists x; split; [exact Hx|apply Z.leb_le, L]). congruence.
  - intros H. destruct (existsb _ l) eqn:E; [|reflexivity]. apply existsb_exists in E. destruct E as (x & Hx & L). apply Z.leb_le in L. specialize (H x Hx). lia.
Qed.
Lemma prod_pos l : Forall (fun x => 1 <= x) l -> 1 <= fold_right Z.mul 1 l.
Proof. induction 1; cbn [fold_right]; nia. Qed.
Lemma fold32_none l : fold_left (fun a y => a <- a; c32 (a * y)) l None = None.
Proof. induction l; [reflexivity|exact IHl]. Qed.
Lemma prod32_inv l : forall a p, fold_left (fun a y => a <- a; c32 (a * y)) l (Some a) = Some p -> p = a * fold_right Z.mul 1 l.
Proof.
  induction l as [|x l IH]; intros a p H; cbn [fold_left fold_right] in *; [injection H as <-; lia|]. cbn [bind] in H.
  destruct (c32 (a * x)) as [b|] eqn:E; [|rewrite fold32_none in H; discriminate]. apply c32_inv in E. destruct E as (-> & _). rewrite (IH _ _ H). ring.
Qed.
Lemma prod32_conv l : Forall (fun x => 1 <= x) l -> forall a, 1 <= a -> a * fold_right Z.mul 1 l <= 2 ^ 31 - 1 ->
  fold_left (fun a y => a <- a; c32 (a * y)) l (Some a) = Some (a * fold_right Z.mul 1 l).
Proof.
  induction 1 as [|x l Hx Hl IH]; intros a Ha H; cbn [fold_left fold_right] in *; [f_equal; ring|]. cbn [bind]. pose proof (prod_pos l Hl).
  set (p := fold_right Z.mul 1 l) in *. assert (1 <= a * x) by nia. rewrite Z.mul_assoc in *. rewrite c32_conv by nia. apply IH; [nia|]. exact H.
Qed.
Lemma prod32_ok l p : prod32 l = Some p -> p = fold_right Z.mul 1 l.
Proof. destruct l as [|x l]; cbn [prod32 fold_right]; [intros E; injection E as <-; reflexivity|]. intros E. apply prod32_inv in E. exact E. Qed.
Lemma prod32_fits l : Forall (fun x => 1 <= x) l -> fold_right Z.mul 1 l <= 2 ^ 31 - 1 -> prod32 l = Some (fold_right Z.mul 1 l).
Proof. destruct l as [|x l]; [reflexivity|]. intros H L. inversion H; subst. cbn [prod32 fold_right] in *. apply prod32_conv; assumption. Qed.

Lemma check_grid_sound P l k o : check_grid P l k = OOk o -> given P l /\ k = OOk o.
Proof.
  unfold check_grid. destruct (forallb _ l) eqn:E0; [intros H; split; [left; apply forallb_zero, E0|exact H]|].
  destruct (existsb _ l) eqn:E1; [discriminate|]. apply existsb_neg in E1. destruct (prod32 l) as [p|] eqn:Ep; [|discriminate].
  apply prod32_ok in Ep. destruct (Z.eqb_spec p P) as [->|]; [|discriminate]. intros H. split; [right; split; [exact E1|congruence]|exact H].
Qed.
Lemma check_grid_complete P l k : P <= 2 ^ 31 - 1 -> given P l -> check_grid P l k = k.
Proof.
  intros HP H. unfold check_grid. destruct (forallb _ l) eqn:E0; [reflexivity|]. destruct H as [H | (H1 & H2)].
  - apply forallb_zero in H. congruence.
  - rewrite (proj2 (existsb_neg l) H1), prod32_fits by (assumption || lia). rewrite H2, Z.eqb_refl. reflexivity.
Qed.
Lemma stop_sound b m k (o : opts) : stop b m k = OOk o -> b = false /\ k = OOk o.
Proof. destruct b; [discriminate|auto]. Qed.

Theorem sanity_iff d P o o' : P <= 2 ^ 31 - 1 -> sanity d P o = OOk o' <-> o' = o /\ accepted d P o.
Proof.
  intros HP. split.
  - unfold sanity. intros H. apply stop_sound in H as (G & H). apply check_grid_sound in H as (Pi & H). apply check_grid_sound in H as (Po & H).
    apply stop_sound in H as (Nl & H). apply stop_sound in H as (Se & H). apply stop_sound in H as (Mo & H). apply stop_sound in H as (V & H).
    assert (T : o' = o /\ forall per mx ex, o_tune o = Some (per, mx, ex) -> 1 <= per /\ (0 <= mx)%Q /\ (ex = 0 \/ ex = 1) /\ o_r o = false).
    { destruct (o_tune o) as [[[per mx] ex]|].
      - apply stop_sound in H as (T1 & H). apply stop_sound in H as (T2 & H). apply stop_sound in H as (T3 & H). apply stop_sound in H as (T4 & H).
        injection H as <-. split; [reflexivity|]. intros a b c E. injection E as <- <- <-. apply Z.leb_gt in T1. apply orb_false_iff in T3. rewrite !Z.ltb_ge in T3.
        split; [lia|]. split; [|split; [lia|exact T4]]. unfold Qltb in T2. apply negb_false_iff, Qle_bool_iff in T2. exact T2.
      - injection H as <-. split; [reflexivity|]. discriminate. }
    destruct T as (-> & T). split; [reflexivity|]. constructor; auto.
    + apply existsb_neg, G.
    + unfold bad_nloop in Nl. destruct (Nat.eqb_spec d 3) as [E|E].
      * apply orb_false_iff in Nl as (N1 & N2). apply Z.ltb_ge in N1. split; [exact N1|]. split; [|congruence]. intros _ Et. rewrite Et, andb_true_r in N2. apply Z.eqb_neq in N2. lia.
      * apply Z.leb_gt in Nl. split; [lia|]. split; [congruence|]. lia.
    + intros E. rewrite E in Se. cbn [is_random andb] in Se. apply Z.leb_gt in Se. unfold seed_of in Se. destruct (o_seed o) as [s|]; [|lia]. exists s. split; [reflexivity|lia].
    + apply orb_false_iff in Mo. rewrite !Z.ltb_ge in Mo. lia.
    + intros E. rewrite E, andb_true_r in V. apply Z.ltb_ge in V. exact V.
  - intros (-> & A). destruct A as [G Pi Po Nl Se Mo V T]. unfold sanity. rewrite (proj2 (existsb_neg _) G). cbn [stop].
    rewrite (check_grid_complete P (o_pin o)) by assumption. rewrite (check_grid_complete P (o_pout o)) by assumption.
    assert (B1 : bad_nloop d o = false).
    { unfold bad_nloop. destruct Nl as (N1 & N2 & N3). destruct (Nat.eqb_spec d 3) as [E|E].
      - apply orb_false_iff. split; [apply Z.ltb_ge, N1|]. destruct (o_tune o); [apply andb_false_r|]. rewrite andb_true_r. apply Z.eqb_neq. specialize (N2 E eq_refl). lia.
      - apply Z.leb_gt. specialize (N3 E). lia. }
    assert (B2 : is_random (o_init o) && (seed_of o <=? 0) = false).
    { destruct (o_init o) eqn:Ei; try reflexivity. destruct (Se eq_refl) as (s & Es & Hs). unfold seed_of. rewrite Es. cbn [is_random andb]. apply Z.leb_gt. lia. }
    assert (B3 : (o_mode o <? 0) || (3 <? o_mode o) = false) by (apply orb_false_iff; rewrite !Z.ltb_ge; lia).
    assert (B4 : (1 <? o_mode o) && o_v o = false).
    { destruct (o_v o); [|apply andb_false_r]. rewrite andb_true_r. apply Z.ltb_ge, V. reflexivity. }
    rewrite B1, B2, B3, B4. cbn [stop]. destruct (o_tune o) as [[[per mx] ex]|]; [|reflexivity].
    destruct (T _ _ _ eq_refl) as (T1 & T2 & T3 & T4). rewrite T4.
    assert (C1 : per <=? 0 = false) by (apply Z.leb_gt; lia). assert (C2 : Qltb mx 0 = false) by (unfold Qltb; apply negb_false_iff, Qle_bool_iff, T2).
    assert (C3 : (ex <? 0) || (1 <? ex) = false) by (apply orb_false_iff; rewrite !Z.ltb_ge; lia). rewrite C1, C2, C3. reflexivity.
Qed.

(** ** ranks *)
Definition shift (k : Z) (o : opts) : opts :=
  mkopts (o_g o) (o_pin o) (o_pout o) (o_nloop o) (o_init o) (option_map (fun s => s + k) (o_seed o)) (o_tune o) (o_mode o) (o_c o) (o_e o) (o_p o) (o_t o) (o_r o) (o_o o) (o_v o).
Lemma one_shift d atof m1 m2 l o o' : (forall s v, In s l -> atoi s = Some v -> - 2 ^ 31 <= v + m2 <= 2 ^ 31 - 1) ->
  one d atof m1 l o o' -> one d atof m2 l (shift (m2 - m1) o) (shift (m2 - m1) o').
Proof.
  intros Hf H. destruct H;
    try (match goal with
         | |- one _ _ _ _ _ (shift ?k (?f ?v o)) => change (shift k (f v o)) with (f v (shift k o))
         | |- one _ _ _ _ _ (shift ?k (?f o)) => change (shift k (f o)) with (f (shift k o))
         end; constructor; assumption).
  replace (shift (m2 - m1) (set_seed (v + m1) o)) with (set_seed (v + m2) (shift (m2 - m1) o)) by (unfold shift, set_seed; cbn; do 2 f_equal; lia).
  constructor; try assumption. apply (Hf s); [right; left; reflexivity|assumption].
Qed.
Lemma cmd_shift d atof m1 m2 l o o' : cmd d atof m1 l o o' -> (forall s v, In s l -> atoi s = Some v -> - 2 ^ 31 <= v + m2 <= 2 ^ 31 - 1) ->
  cmd d atof m2 l (shift (m2 - m1) o) (shift (m2 - m1) o').
Proof.
  induction 1 as [o | l rest o o1 o2 H1 H2 IH]; intros Hf; [constructor|]. econstructor.
  - eapply one_shift; [|exact H1]. intros s v Hs. apply Hf, in_or_app. left. exact Hs.
  - apply IH. intros s v Hs. apply Hf, in_or_app. right. exact Hs.
Qed.

(** what rank k makes of an outcome of rank 0 *)
Definition follows (k : Z) (a b : outcome opts) : Prop :=
  (forall o, a = OOk o -> b = OOk (shift k o)) /\ (forall m, a = OErr m -> m <> "Invalid initialize setting"%string -> b = OErr m).
Lemma follows_err k m : follows k (OErr m) (OErr m).
Proof. split; [discriminate|]. intros m' E _. exact E. Qed.
Lemma follows_ok k o : follows k (OOk o) (OOk (shift k o)).
Proof. split; [|discriminate]. intros o' E. injection E as <-. reflexivity. Qed.
Lemma follows_stop k b m a a' : follows k a a' -> follows k (stop b m a) (stop b m a').
Proof. destruct b; [intros _; apply follows_err|exact (fun H => H)]. Qed.
Lemma follows_grid k P l a a' : follows k a a' -> follows k (check_grid P l a) (check_grid P l a').
Proof.
  intros H. unfold check_grid. destruct (forallb _ l); [exact H|]. destruct (existsb _ l); [apply follows_err|].
  destruct (prod32 l); [|split; discriminate]. destruct (_ =? _); [exact H|apply follows_err].
Qed.
Lemma follows_seed k o a a' : 0 <= k -> follows k a a' ->
  follows k (stop (is_random (o_init o) && (seed_of o <=? 0)) "Invalid initialize setting" a)
            (stop (is_random (o_init o) && (seed_of (shift k o) <=? 0)) "Invalid initialize setting" a').
Proof.
  intros Hk H. destruct (is_random (o_init o) && (seed_of o <=? 0)) eqn:E.
  - split; [discriminate|]. intros m Em Hm. injection Em as <-. congruence.
  - assert (S : is_random (o_init o) && (seed_of (shift k o) <=? 0) = false).
    { revert E. unfold seed_of. cbn [shift o_seed]. destruct (is_random (o_init o)); [|reflexivity]. cbn [andb]. destruct (o_seed o) as [s|]; cbn [option_map]; [|auto]. rewrite !Z.leb_gt. lia. }
    rewrite S. exact H.
Qed.
Lemma sanity_shift d P k o : 0 <= k -> follows k (sanity d P o) (sanity d P (shift k o)).
Proof.
  intros Hk. unfold sanity. apply (follows_stop k (existsb (fun x => x <=? 0) (o_g o))). apply (follows_grid k P (o_pin o)). apply (follows_grid k P (o_pout o)).
  apply (follows_stop k (bad_nloop d o)). apply (follows_seed k o); [exact Hk|]. apply (follows_stop k ((o_mode o <? 0) || (3 <? o_mode o))). apply (follows_stop k ((1 <? o_mode o) && o_v o)).
  change (o_tune (shift k o)) with (o_tune o). change (o_r (shift k o)) with (o_r o). destruct (o_tune o) as [[[per mx] ex]|]; [|apply follows_ok].
  apply follows_stop, follows_stop, follows_stop, follows_stop, follows_ok.
Qed.

Lemma option1_err d atof me args i o m : option1 d atof me args i o = OErr m -> m = SYNTAX.
Proof.
  unfold option1. assert (A : forall A j (k : string -> outcome A), (forall s, k s = OErr m -> m = SYNTAX) -> arg args j k = OErr m -> m = SYNTAX).
  { intros A j k Hk. unfold arg. destruct (zget args j); [apply Hk|discriminate]. }
  assert (N : forall A j (k : Z -> outcome A), (forall s, k s = OErr m -> m = SYNTAX) -> num args j k = OErr m -> m = SYNTAX).
  { intros A' j k Hk. apply A. intros s. destruct (atoi s); [apply Hk|discriminate]. }
  assert (Ns : forall A n j (k : list Z -> outcome A), (forall s, k s = OErr m -> m = SYNTAX) -> nums args n j k = OErr m -> m = SYNTAX).
  { intros A' n. induction n as [|n IH]; intros j k Hk; cbn [nums]; [apply Hk|]. apply N. intros z. apply IH. intros s. apply Hk. }
  assert (Nd : forall A j x (k : outcome A), (k = OErr m -> m = SYNTAX) -> need args j x k = OErr m -> m = SYNTAX).
  { intros A' j x k Hk. unfold need. destruct (_ <? _); [intros E; injection E as <-; reflexivity|exact Hk]. }
  assert (OK : forall (x : Z * opts), OOk x = OErr m -> m = SYNTAX) by discriminate.
  assert (SY : @OErr (Z * opts) SYNTAX = OErr m -> m = SYNTAX) by (intros E; injection E as <-; reflexivity).
  apply A. intros w. repeat match goal with
  | |- (if ?b then _ else _) = _ -> _ => destruct b
  | |- need _ _ _ _ = _ -> _ => apply Nd
  | |- OOk _ = _ -> _ => apply OK
  | |- OErr _ = _ -> _ => exact SY
  | |- nums _ _ _ _ = _ -> _ => apply Ns; intros ?
  | |- num _ _ _ = _ -> _ => apply N; intros ?
  | |- arg _ _ _ = _ -> _ => apply A; intros ?
  | |- match c32 ?x with _ => _ end = _ -> _ => destruct (c32 x); [|discriminate]
  end.
Qed.
Lemma parse_err d atof me args m fuel : forall i o, parse d atof me args fuel i o = OErr m -> m = SYNTAX.
Proof.
  induction fuel as [|fuel IH]; intros i o; cbn [parse]; (destruct (_ <? _); [|discriminate]); [discriminate|].
  destruct (option1 _ _ _ _ _ _) as [m'| |[i' o1]] eqn:E; [|discriminate|apply IH]. intros Em. injection Em as <-. eapply option1_err, E.
Qed.

(** ** options() *)
Section Options.
Variables (d : nat) (atof : string -> Q) (P : Z) (prog : string) (line : list string).
Let args := prog :: line.
Lemma start_pre : args = [prog] ++ line. Proof. reflexivity. Qed.

Theorem options_iff me o : P <= 2 ^ 31 - 1 -> options d atof P me args = OOk o <-> cmd d atof me line (opts0 d) o /\ accepted d P o.
Proof.
  intros HP. unfold options. change 1 with (zlen [prog]). split.
  - destruct (parse d atof me args (List.length args) (zlen [prog]) (opts0 d)) as [| |o1] eqn:E; try discriminate. intros H.
    apply sanity_iff in H; [|exact HP]. destruct H as (-> & A). split; [|exact A]. eapply parse_sound; [exact start_pre|exact E].
  - intros (C & A). rewrite (parse_complete d atof me args line _ _ C (List.length args) [prog] start_pre) by (unfold args; cbn; lia). apply sanity_iff; auto.
Qed.

Lemma fits_in me : fits me args -> forall s v, In s line -> atoi s = Some v -> - 2 ^ 31 <= v + me <= 2 ^ 31 - 1.
Proof. intros Hf s v Hs Ev. destruct (Hf s (or_intror Hs)) as (v' & E & H). congruence. Qed.
Lemma shift0 k : shift k (opts0 d) = opts0 d.
Proof. reflexivity. Qed.

Theorem options_ranks me : 0 <= me -> fits 0 args -> fits me args -> follows me (options d atof P 0 args) (options d atof P me args).
Proof.
  intros Hm F0 Fm. unfold options. change 1 with (zlen [prog]).
  assert (K : forall m1 m2 o, fits m2 args -> parse d atof m1 args (List.length args) (zlen [prog]) (opts0 d) = OOk o ->
     parse d atof m2 args (List.length args) (zlen [prog]) (opts0 d) = OOk (shift (m2 - m1) o)).
  { intros m1 m2 o F2 H. apply (parse_sound d atof m1 args _ [prog] line _ _ start_pre) in H. apply (cmd_shift d atof m1 m2) in H; [|apply fits_in, F2].
    rewrite shift0 in H. apply (parse_complete d atof m2 args line _ _ H _ [prog] start_pre). unfold args. cbn. lia. }
  assert (S : forall m, fits m args -> parse d atof m args (List.length args) (zlen [prog]) (opts0 d) <> OUB).
  { intros m F. change (zlen [prog]) with 1. apply parse_safe; [exact F|lia|unfold zlen; lia]. }
  destruct (parse d atof 0 args (List.length args) (zlen [prog]) (opts0 d)) as [m| |o] eqn:E.
  - apply parse_err in E as Em. subst m. destruct (parse d atof me args (List.length args) (zlen [prog]) (opts0 d)) as [m| |o] eqn:E1.
    + apply parse_err in E1. subst m. apply follows_err.
    + exfalso. apply (S me Fm E1).
    + exfalso. rewrite (K me 0 o F0 E1) in E. discriminate.
  - exfalso. apply (S 0 F0 E).
  - rewrite (K 0 me o Fm E). replace (me - 0) with me by lia. apply sanity_shift, Hm.
Qed.

(** no undefined behaviour if the numbers are small *)
Definition small_numbers (me : Z) : Prop := forall s, In s args -> exists v, atoi s = Some v /\ Z.abs v <= 1290 /\ v + me <= 2 ^ 31 - 1.
Lemma small_fits me : 0 <= me -> small_numbers me -> fits me args.
Proof. intros Hm H s Hs. destruct (H s Hs) as (v & E & A & B). exists v. split; [exact E|]. lia. Qed.

Definition short (l : list Z) : Prop := List.length l = d /\ Forall (fun x => x <= 1290) l.
Lemma short_of me ss v : small_numbers me -> incl ss args -> List.length ss = d -> map atoi ss = map Some v -> short v.
Proof.
  intros S I L M. split; [rewrite <- L, <- (map_length atoi ss), M, map_length; reflexivity|]. apply Forall_forall. intros x Hx. apply (in_map Some) in Hx. rewrite <- M in Hx.
  apply in_map_iff in Hx. destruct Hx as (s & E & Hs). destruct (S s (I s Hs)) as (v' & E' & A & _). rewrite E' in E. injection E as <-. lia.
Qed.
Lemma one_short me l o o' : small_numbers me -> incl l args -> one d atof me l o o' -> short (o_pin o) -> short (o_pout o) -> short (o_pin o') /\ short (o_pout o').
Proof.
  intros S I H Hp Hq. destruct H; try (split; assumption).
  - split; [|assumption]. apply (short_of me ss); try assumption. intros x Hx. apply I. right. exact Hx.
  - split; [assumption|]. apply (short_of me ss); try assumption. intros x Hx. apply I. right. exact Hx.
Qed.
Lemma cmd_short me l o o' : small_numbers me -> cmd d atof me l o o' -> incl l args -> short (o_pin o) -> short (o_pout o) -> short (o_pin o') /\ short (o_pout o').
Proof.
  intros S. induction 1 as [o | l rest o o1 o2 H1 H2 IH]; intros I Hp Hq; [split; assumption|]. apply incl_app_inv in I as (I1 & I2).
  destruct (one_short me l o o1 S I1 H1 Hp Hq). apply IH; assumption.
Qed.
Lemma short_prod l : (d <= 3)%nat -> short l -> Forall (fun x => 1 <= x) l -> fold_right Z.mul 1 l <= 2 ^ 31 - 1.
Proof.
  intros D (L & H) G. destruct l as [|a [|b [|c [|e l]]]]; cbn [fold_right List.length] in *; try lia;
    repeat match goal with H : Forall _ (_ :: _) |- _ => inversion H; subst; clear H end; try nia.
  assert (1 <= b * c <= 1290 * 1290) by nia. nia.
Qed.
Lemma check_safe l k : (d <= 3)%nat -> short l -> k <> OUB -> check_grid P l k <> OUB.
Proof.
  intros D S K. unfold check_grid. destruct (forallb _ l); [exact K|]. destruct (existsb _ l) eqn:E; [discriminate|]. apply existsb_neg in E.
  rewrite prod32_fits by (auto using short_prod). destruct (_ =? _); [exact K|discriminate].
Qed.
Lemma stop_safe b m k : k <> OUB -> stop b m k <> OUB.
Proof. destruct b; [discriminate|auto]. Qed.
Theorem options_safe me : (d <= 3)%nat -> 0 <= me -> small_numbers me -> options d atof P me args <> OUB.
Proof.
  intros D Hm S. pose proof (small_fits me Hm S) as F. unfold options. change 1 with (zlen [prog]).
  destruct (parse d atof me args (List.length args) (zlen [prog]) (opts0 d)) as [m| |o] eqn:E; [discriminate| |].
  - exfalso. revert E. change (zlen [prog]) with 1. apply parse_safe; [exact F|lia|unfold zlen; lia].
  - apply (parse_sound d atof me args _ [prog] line _ _ start_pre) in E.
    assert (R : short (List.repeat 0 d)).
    { split; [apply repeat_length|]. apply Forall_forall. intros x Hx. apply repeat_spec in Hx. lia. }
    destruct (cmd_short me line _ _ S E (fun x Hx => or_intror Hx) R R) as (Sp & Sq). unfold sanity.
    apply stop_safe, check_safe, check_safe; try assumption. do 4 apply stop_safe. destruct (o_tune o) as [[[per mx] ex]|]; [|discriminate].
    do 4 apply stop_safe. discriminate.
Qed.
End Options.

(** ** what the options can be *)
Lemma one_ranges d atof me l o o' : one d atof me l o o' ->
  (List.length (o_g o) = d /\ List.length (o_pin o) = d /\ List.length (o_pout o) = d) /\ 0 <= o_c o <= 2 /\ 0 <= o_e o <= 1 /\ 0 <= o_p o <= 2 ->
  (List.length (o_g o') = d /\ List.length (o_pin o') = d /\ List.length (o_pout o') = d) /\ 0 <= o_c o' <= 2 /\ 0 <= o_e o' <= 1 /\ 0 <= o_p o' <= 2.
Proof.
  intros H. assert (L : forall (ss : list string) (v : list Z), List.length ss = d -> map atoi ss = map Some v -> List.length v = d).
  { intros ss v E M. rewrite <- E, <- (map_length atoi ss), M, map_length. reflexivity. }
  destruct H; cbn; intros ((A & B & C) & D & E & G); repeat split; eauto; lia.
Qed.
Lemma cmd_ranges d atof me l o o' : cmd d atof me l o o' ->
  (List.length (o_g o) = d /\ List.length (o_pin o) = d /\ List.length (o_pout o) = d) /\ 0 <= o_c o <= 2 /\ 0 <= o_e o <= 1 /\ 0 <= o_p o <= 2 ->
  (List.length (o_g o') = d /\ List.length (o_pin o') = d /\ List.length (o_pout o') = d) /\ 0 <= o_c o' <= 2 /\ 0 <= o_e o' <= 1 /\ 0 <= o_p o' <= 2.
Proof. induction 1; [auto|]. intros H'. apply IHcmd. eapply one_ranges; eassumption. Qed.
Theorem options_ranges d atof P me prog line o : P <= 2 ^ 31 - 1 -> options d atof P me (prog :: line) = OOk o ->
  (List.length (o_g o) = d /\ List.length (o_pin o) = d /\ List.length (o_pout o) = d) /\ 0 <= o_c o <= 2 /\ 0 <= o_e o <= 1 /\ 0 <= o_p o <= 2.
Proof.
  intros HP H. apply options_iff in H; [|exact HP]. destruct H as (C & _). apply (cmd_ranges _ _ _ _ _ _ C). cbn. rewrite !repeat_length. repeat split; lia.
Qed.
