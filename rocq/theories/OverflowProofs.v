(** OverflowProofs.v : when the int arithmetic of setup does not overflow. *)

From Verif Require Import Base Spec Pack3d Pack2d Sched Remap Remap3d Remap2d RemapPlan RemapTriple RemapMain RemapInst RemapThms RemapTop.
From Verif Require Import Layout LayoutProofs Count Setup3d Setup3dProofs Setup2d Setup2dProofs Wrap Overflow.
Local Open Scope Z_scope.

(** ** expressions *)
Definition int_ok (z : Z) : Prop := INT_MIN <= z <= INT_MAX.
Definition big_ok (z : Z) : Prop := BIG_MIN <= z <= BIG_MAX.

Lemma int_okb_spec z : int_okb z = true <-> int_ok z.
Proof. unfold int_okb, int_ok. rewrite andb_true_iff, !Z.leb_le. tauto. Qed.
Lemma big_okb_spec z : big_okb z = true <-> big_ok z.
Proof. unfold big_okb, big_ok. rewrite andb_true_iff, !Z.leb_le. tauto. Qed.

(** when evaluation succeeds its result is the unbounded value *)
Lemma ev_den e v : ev e = Some v -> v = den e.
Proof.
  revert v. induction e; intros v; cbn [ev den]; unfold chk, bind.
  1: destruct (int_okb z); congruence.
  all: destruct (ev e1) as [x|]; [|discriminate]; destruct (ev e2) as [y|]; [|discriminate];
    rewrite <- (IHe1 x eq_refl), <- (IHe2 y eq_refl).
  1-3: match goal with |- (if ?c then _ else _) = _ -> _ => destruct c; congruence end.
  1-2: destruct (y =? 0); [discriminate|]; match goal with |- (if ?c then _ else _) = _ -> _ => destruct c; congruence end.
  destruct (big_okb (x * y)); congruence.
Qed.

Lemma safe_ev e : safe e <-> ev e = Some (den e).
Proof.
  unfold safe. split; [|congruence]. destruct (ev e) as [v|] eqn:E; [|congruence]. intros _. f_equal. apply ev_den, E.
Qed.

Lemma safe_lit z : safe (Lit z) <-> int_ok z.
Proof. unfold safe. cbn [ev]. unfold chk. rewrite <- int_okb_spec. destruct (int_okb z); split; congruence. Qed.

Lemma safe_bin (op : iexp -> iexp -> iexp) (f : Z -> Z -> Z) ok (P : Z -> Prop) a b :
  (forall z, ok z = true <-> P z) ->
  ev (op a b) = (x <- ev a; y <- ev b; chk ok (f x y)) ->
  safe (op a b) <-> safe a /\ safe b /\ P (f (den a) (den b)).
Proof.
  intros HP E. rewrite <- HP. unfold safe in *. rewrite E. unfold bind, chk. split.
  - intros H. destruct (ev a) as [x|] eqn:Ea; [|congruence]. destruct (ev b) as [y|] eqn:Eb; [|congruence].
    apply ev_den in Ea; apply ev_den in Eb; subst x y. repeat split; try congruence. destruct (ok _); congruence.
  - intros (Ha & Hb & H). destruct (ev a) as [x|] eqn:Ea; [|congruence]. destruct (ev b) as [y|] eqn:Eb; [|congruence].
    apply ev_den in Ea; apply ev_den in Eb; subst x y. rewrite H. discriminate.
Qed.

Lemma safe_div (op : iexp -> iexp -> iexp) (f : Z -> Z -> Z) a b :
  ev (op a b) = (x <- ev a; y <- ev b; if y =? 0 then None else chk int_okb (f x y)) ->
  safe (op a b) <-> safe a /\ safe b /\ den b <> 0 /\ int_ok (f (den a) (den b)).
Proof.
  intros E. rewrite <- int_okb_spec. unfold safe in *. rewrite E. unfold bind, chk. split.
  - intros H. destruct (ev a) as [x|] eqn:Ea; [|congruence]. destruct (ev b) as [y|] eqn:Eb; [|congruence].
    apply ev_den in Ea; apply ev_den in Eb; subst x y. destruct (Z.eqb_spec (den b) 0); [congruence|]. repeat split; try congruence. destruct (int_okb _); congruence.
  - intros (Ha & Hb & Hz & H). destruct (ev a) as [x|] eqn:Ea; [|congruence]. destruct (ev b) as [y|] eqn:Eb; [|congruence].
    apply ev_den in Ea; apply ev_den in Eb; subst x y. rewrite H. apply Z.eqb_neq in Hz. rewrite Hz. discriminate.
Qed.

Lemma safe_add a b : safe (Add a b) <-> safe a /\ safe b /\ int_ok (den a + den b).
Proof. apply (safe_bin Add Z.add int_okb); [apply int_okb_spec|reflexivity]. Qed.
Lemma safe_sub a b : safe (Sub a b) <-> safe a /\ safe b /\ int_ok (den a - den b).
Proof. apply (safe_bin Sub Z.sub int_okb); [apply int_okb_spec|reflexivity]. Qed.
Lemma safe_mul a b : safe (Mul a b) <-> safe a /\ safe b /\ int_ok (den a * den b).
Proof. apply (safe_bin Mul Z.mul int_okb); [apply int_okb_spec|reflexivity]. Qed.
Lemma safe_m64 a b : safe (Mul64 a b) <-> safe a /\ safe b /\ big_ok (den a * den b).
Proof. apply (safe_bin Mul64 Z.mul big_okb); [apply big_okb_spec|reflexivity]. Qed.
Lemma safe_quo a b : safe (Quo a b) <-> safe a /\ safe b /\ den b <> 0 /\ int_ok (Z.quot (den a) (den b)).
Proof. apply (safe_div Quo Z.quot). reflexivity. Qed.
Lemma safe_rem a b : safe (Rem a b) <-> safe a /\ safe b /\ den b <> 0 /\ int_ok (Z.rem (den a) (den b)).
Proof. apply (safe_div Rem Z.rem). reflexivity. Qed.

Ltac sf := repeat first [rewrite safe_add | rewrite safe_sub | rewrite safe_mul | rewrite safe_m64 | rewrite safe_quo | rewrite safe_rem | rewrite safe_lit]; cbn [den].
Ltac spl := repeat match goal with |- _ /\ _ => split end.

Definition all_safe (l : list iexp) : Prop := forall e, In e l -> safe e.
Lemma safe_nil : all_safe []. Proof. intros e []. Qed.
Lemma safe_cons e l : safe e -> all_safe l -> all_safe (e :: l).
Proof. intros H Hl x [<- | Hx]; auto. Qed.
Lemma safe_app l l' : all_safe l -> all_safe l' -> all_safe (l ++ l').
Proof. intros H H' x Hx. apply in_app_or in Hx. destruct Hx; auto. Qed.
Lemma safe_flat {B} (f : B -> list iexp) l : (forall x, In x l -> all_safe (f x)) -> all_safe (flat_map f l).
Proof. intros H x Hx. apply in_flat_map in Hx. destruct Hx as (y & Hy & Hx). exact (H y Hy x Hx). Qed.
Lemma safe_map {B} (f : B -> iexp) l : (forall x, In x l -> safe (f x)) -> all_safe (map f l).
Proof. intros H x Hx. apply in_map_iff in Hx. destruct Hx as (y & <- & Hy). auto. Qed.

Ltac sc := repeat match goal with |- all_safe (_ :: _) => apply safe_cons | |- all_safe [] => apply safe_nil end.
Lemma IMX : INT_MAX = 2147483647. Proof. reflexivity. Qed.
Lemma IMN : INT_MIN = -2147483648. Proof. reflexivity. Qed.
Ltac iok := unfold int_ok in *; rewrite ?IMX, ?IMN in *; lia.

Definition nn (z : Z) : Prop := 0 <= z <= INT_MAX.
Lemma nn_ok z : nn z -> int_ok z.
Proof. unfold nn. iok. Qed.
(** every node is a listed product *)
Ltac bypart := sf; spl; try assumption; apply nn_ok; assumption.
Ltac parts F := rewrite !Forall_cons_iff in F; decompose [and] F; clear F.

Lemma safe_incr x : INT_MIN <= x < INT_MAX -> safe (incr x).
Proof. intros H. unfold incr. sf. iok. Qed.
Lemma safe_count k : k <= INT_MAX -> all_safe (count_to k).
Proof. intros H. apply safe_map. intros x Hx. apply In_zrange in Hx. apply safe_incr. iok. Qed.

Definition lsum (l : list Z) : Z := fold_right Z.add 0 l.
Lemma safe_running l : forall s, 0 <= s -> (forall x, In x l -> 0 <= x) -> s + lsum l <= INT_MAX -> all_safe (running s l).
Proof.
  induction l as [|x l IH]; intros s Hs Hl Hb; cbn [running]; [apply safe_nil|].
  cbn [lsum fold_right] in Hb. fold (lsum l) in Hb.
  assert (Hx : 0 <= x) by (apply Hl; now left).
  assert (Hn : 0 <= lsum l).
  { assert (H : forall y, In y l -> 0 <= y) by (intros; apply Hl; now right). clear -H. induction l as [|y l IH]; cbn [lsum fold_right]; [lia|].
    fold (lsum l). assert (0 <= y) by (apply H; now left). assert (0 <= lsum l) by (apply IH; intros; apply H; now right). lia. }
  apply safe_cons.
  - sf. iok.
  - apply IH; [lia| |lia]. intros; apply Hl; now right.
Qed.
Lemma lsum_sizes {plan} (l : list (@entry plan)) : lsum (map e_size l) = sum_sizes l.
Proof. unfold lsum, sum_sizes. induction l as [|e l IH]; cbn; [reflexivity|]. rewrite IH. reflexivity. Qed.

(** ** the part that is the same for 3d and 2d *)
Section Generic.
Context {A ext plan : Type}.
Variable o : rops A ext plan.
Variables (n : nat) (coll : bool) (ins outs : nat -> ext).
Variable ext_ints : ext -> list iexp.
Variable send_ints recv_ints : ext -> ext -> list iexp.
Variable vol_ints : ext -> list iexp.
Variable me : nat.
Hypothesis Hme : (me < n)%nat.
Hypothesis Hn : 7 * Z.of_nat n <= INT_MAX.
Hypothesis Hin : forall r, (r < n)%nat -> all_safe (ext_ints (ins r)).
Hypothesis Hout : forall r, (r < n)%nat -> all_safe (ext_ints (outs r)).
Hypothesis Hov1 : forall r p ov, (r < n)%nat -> (p < n)%nat -> o_collide o (ins r) (outs p) = Some ov -> all_safe (ext_ints ov).
Hypothesis Hov2 : forall r p ov, (r < n)%nat -> (p < n)%nat -> o_collide o (outs r) (ins p) = Some ov -> all_safe (ext_ints ov).
Hypothesis Hsend : forall p ov, (p < n)%nat -> o_collide o (ins me) (outs p) = Some ov -> all_safe (send_ints (ins me) ov).
Hypothesis Hrecv : forall p ov, (p < n)%nat -> o_collide o (outs me) (ins p) = Some ov -> all_safe (recv_ints (outs me) ov).
Hypothesis Hvol : all_safe (vol_ints (outs me)).
Hypothesis Hpos1 : forall p ov, (p < n)%nat -> o_collide o (ins me) (outs p) = Some ov -> 0 <= o_size o ov.
Hypothesis Hpos2 : forall p ov, (p < n)%nat -> o_collide o (outs me) (ins p) = Some ov -> 0 <= o_size o ov.
Hypothesis Hsum1 : sum_sizes (send_entries o n ins outs me) <= INT_MAX.
Hypothesis Hsum2 : sum_sizes (recv_entries o n ins outs me) <= INT_MAX.

Lemma flat_single_length {B C} (f : B -> list C) l : (forall x, In x l -> (length (f x) <= 1)%nat) -> (length (flat_map f l) <= length l)%nat.
Proof.
  induction l as [|x l IH]; intros H; cbn [flat_map length]; [lia|]. rewrite app_length.
  assert (length (f x) <= 1)%nat by (apply H; now left). assert (length (flat_map f l) <= length l)%nat by (apply IH; intros; apply H; now right). lia.
Qed.
Lemma ring_length : length (ring n me) = n.
Proof. unfold ring. assert (H : forall k m, length (ring_from n k m) = k) by (induction k as [|k IH]; intros m; cbn; [reflexivity|]; rewrite IH; reflexivity). apply H. Qed.
Lemma send_len : zlen (send_entries o n ins outs me) <= Z.of_nat n.
Proof.
  unfold zlen. rewrite <- ring_length at 2. apply inj_le. apply flat_single_length. intros p _. destruct (o_collide _ _ _); cbn; lia.
Qed.
Lemma recv_len : zlen (recv_entries o n ins outs me) <= Z.of_nat n.
Proof.
  unfold zlen. rewrite <- ring_length at 2. apply inj_le. apply flat_single_length. intros p _. destruct (o_collide _ _ _); cbn; lia.
Qed.
Lemma drop_len (l : list (@entry plan)) : (drop_self coll me l <= length l)%nat.
Proof. unfold drop_self. destruct (nth_error _ _); [|lia]. destruct (_ && _); lia. Qed.
Lemma send_pos e : In e (send_entries o n ins outs me) -> 0 <= e_size e.
Proof.
  unfold send_entries. intros H. apply in_flat_map in H. destruct H as (p & Hp & H). apply ring_In in Hp; [|exact Hme].
  destruct (o_collide o (ins me) (outs p)) as [ov|] eqn:E; [|destruct H]. destruct H as [<-|[]]. cbn. apply (Hpos1 p ov); auto.
Qed.
Lemma recv_pos e : In e (recv_entries o n ins outs me) -> 0 <= e_size e.
Proof.
  unfold recv_entries. intros H. apply in_flat_map in H. destruct H as (p & Hp & H). apply ring_In in Hp; [|exact Hme].
  destruct (o_collide o (outs me) (ins p)) as [ov|] eqn:E; [|destruct H]. destruct H as [<-|[]]. cbn. apply (Hpos2 p ov); auto.
Qed.

Lemma firstn_sum (l : list (@entry plan)) k : (forall e, In e l -> 0 <= e_size e) -> sum_sizes (firstn k l) <= sum_sizes l.
Proof.
  revert k. induction l as [|e l IH]; intros k H; [rewrite firstn_nil; lia|]. destruct k as [|k]; cbn [firstn].
  - apply (sum_nonneg (e :: l)). exact H.
  - unfold sum_sizes in *. cbn [fold_right]. assert (forall x, In x l -> 0 <= e_size x) by (intros; apply H; now right). specialize (IH k H0). lia.
Qed.
Lemma firstn_In {B} (l : list B) k x : In x (firstn k l) -> In x l.
Proof. intros H. rewrite <- (firstn_skipn k l). apply in_or_app. now left. Qed.

Lemma running_ok (l : list (@entry plan)) k : (forall e, In e l -> 0 <= e_size e) -> sum_sizes l <= INT_MAX ->
  all_safe (running 0 (map (@e_size plan) (firstn k l))).
Proof.
  intros Hl Hs. apply safe_running; [lia| |].
  - intros x Hx. apply in_map_iff in Hx. destruct Hx as (e & <- & He). apply Hl, (firstn_In _ k), He.
  - rewrite lsum_sizes. pose proof (firstn_sum l k Hl). lia.
Qed.

Lemma side_bound (l : list (@entry plan)) g : (forall e, In e l -> 0 <= e_size e) -> forall b c d m,
  0 <= b -> In (c, d, m) (a2a_side l g b) -> 0 <= c /\ 0 <= d /\ d + c <= b + sum_sizes (found l g).
Proof.
  intros Hl. induction g as [|p g IH]; intros b c d m Hb H; [destruct H|].
  assert (Hf : 0 <= sum_sizes (found l g)). { apply sum_nonneg. intros x Hx. apply Hl. eapply found_incl, Hx. }
  cbn [a2a_side] in H. destruct (find_proc p l 0) as [[j e]|] eqn:E.
  - assert (He : 0 <= e_size e). { apply find_proc_Some in E. destruct E as (_ & E & _). apply nth_error_In in E. auto. }
    assert (Ef : sum_sizes (found l (p :: g)) = e_size e + sum_sizes (found l g)) by (unfold found; cbn [flat_map]; rewrite E; reflexivity).
    rewrite Ef. destruct H as [[= <- <- <-]|H]; [lia|]. apply IH in H; lia.
  - assert (Ef : found l (p :: g) = found l g) by (unfold found; cbn [flat_map]; rewrite E; reflexivity).
    rewrite Ef. destruct H as [[= <- <- <-]|H]; [lia|apply IH in H; [exact H|exact Hb]].
Qed.
Lemma sides_ok (l : list (@entry plan)) g : (forall e, In e l -> 0 <= e_size e) -> sum_sizes l <= INT_MAX -> NoDup g ->
  all_safe (map (fun t : Z * Z * option nat => let '(c, d, _) := t in (#d + #c)%I) (a2a_side l g 0)).
Proof.
  intros Hl Hs Hg. apply safe_map. intros [[c d] m] H. apply (side_bound l g Hl) in H; [|lia].
  assert (sum_sizes (found l g) <= sum_sizes l) by (apply found_sum; auto). sf. iok.
Qed.

Lemma group_facts sp rp g : group_of o n ins outs sp rp = Some g -> NoDup g /\ zlen g <= Z.of_nat n.
Proof.
  unfold group_of. destruct (add_procs rp _) as [pf pg]. unfold bind. destruct (close _ _ _ _ _ _ _) as [[pf' pg']|]; [|discriminate].
  destruct (Nat.ltb _ _); [discriminate|]. destruct (Nat.ltb _ _); [discriminate|]. intros [= <-].
  split; [apply NoDup_filter, seq_NoDup|]. unfold zlen. apply inj_le. rewrite <- (seq_length n 0) at 2. apply NoDup_incl_length; [apply NoDup_filter, seq_NoDup|]. intros x Hx. apply filter_In in Hx. tauto.
Qed.

Lemma hit_ok a b f : (forall ov, o_collide o a b = Some ov -> all_safe (ext_ints ov)) ->
  (forall ov, o_collide o a b = Some ov -> all_safe (f ov)) -> all_safe (when_hit o ext_ints a b f).
Proof. intros H1 H2. unfold when_hit. destruct (o_collide o a b) as [ov|]; [|apply safe_nil]. apply safe_app; auto. Qed.

Lemma remap_safe : all_safe (remap_ints o n coll ins outs ext_ints send_ints recv_ints vol_ints me).
Proof.
  pose proof send_len as Ls. pose proof recv_len as Lr. pose proof (zlen_nonneg (send_entries o n ins outs me)). pose proof (zlen_nonneg (recv_entries o n ins outs me)).
  pose proof send_pos as Ps. pose proof recv_pos as Pr.
  unfold remap_ints. repeat apply safe_app.
  - apply Hin, Hme.
  - apply Hout, Hme.
  - apply safe_count. iok.
  - apply safe_count. iok.
  - apply safe_flat. intros p Hp. apply ring_In in Hp; [|exact Hme]. apply hit_ok; intros ov E; [apply (Hov1 me p ov); auto|apply (Hsend p ov); auto].
  - apply safe_count. iok.
  - apply safe_flat. intros p Hp. apply ring_In in Hp; [|exact Hme]. apply hit_ok; intros ov E; [apply (Hov2 me p ov); auto|apply (Hrecv p ov); auto].
  - rewrite <- (firstn_all (recv_entries o n ins outs me)). apply running_ok; auto.
  - destruct (_ =? 0); [apply safe_nil|]. apply safe_cons; [|apply safe_nil]. sf. iok.
  - destruct (_ =? 0); [apply safe_nil|]. apply safe_cons; [|apply safe_nil]. sf. iok.
  - destruct coll; cbn [negb]; [|exact Hvol]. destruct (setup o n true ins outs me) as [pl|] eqn:E; [|apply safe_nil].
    unfold setup in E. cbn [negb] in E. unfold bind in E.
    destruct (group_of _ _ _ _ _ _) as [g|] eqn:Eg; [|discriminate]. injection E as <-. cbn [rp_group rp_nsend rp_nrecv rp_sside rp_rside].
    apply group_facts in Eg. destruct Eg as (Ng & Lg). pose proof (zlen_nonneg g).
    repeat apply safe_app.
    + apply safe_count. iok.
    + apply safe_flat. intros a Ha. apply in_seq in Ha. apply safe_flat. intros b Hb. apply in_seq in Hb.
      apply safe_app; apply hit_ok; intros ov E; try apply safe_nil; [apply (Hov1 a b ov)|apply (Hov2 a b ov)]; auto; lia.
    + apply running_ok; auto.
    + apply running_ok; auto.
    + apply sides_ok; auto; [intros e He; apply Ps; eapply firstn_In, He|]. pose proof (firstn_sum _ (drop_self true me (send_entries o n ins outs me)) Ps). lia.
    + apply sides_ok; auto; [intros e He; apply Pr; eapply firstn_In, He|]. pose proof (firstn_sum _ (drop_self true me (recv_entries o n ins outs me)) Pr). lia.
    + apply safe_cons; [|apply safe_nil]. sf. iok.
  - pose proof (drop_len (send_entries o n ins outs me)). pose proof (drop_len (recv_entries o n ins outs me)). unfold zlen in *.
    apply safe_cons; [|apply safe_cons; [|apply safe_nil]]; sf; iok.
Qed.
End Generic.

(** ** products *)
Lemma mul_up x y : 0 <= x -> 1 <= y -> x <= x * y.
Proof. intros. nia. Qed.
Lemma mul_mono x y X Y : 0 <= x <= X -> 0 <= y <= Y -> 0 <= x * y <= X * Y.
Proof. intros. split; [apply Z.mul_nonneg_nonneg; lia|apply Z.mul_le_mono_nonneg; lia]. Qed.

Section Prod.
Variables (q a b c : Z).
Hypothesis (Hq : 1 <= q) (Ha : 0 <= a) (Hb : 0 <= b) (Hc : 0 <= c).
Local Notation A' := (Z.max 1 a). Local Notation B' := (Z.max 1 b). Local Notation C' := (Z.max 1 c).
Local Notation M := (q * (A' * B' * C')).

Lemma prod_up x y z w : 0 <= x <= q -> 0 <= y <= A' -> 0 <= z <= B' -> 0 <= w <= C' -> 0 <= x * y * z * w <= M.
Proof.
  intros. replace M with (q * A' * B' * C') by ring. repeat apply mul_mono; lia.
Qed.
Ltac pu x y z w := let H := fresh in pose proof (prod_up x y z w ltac:(lia) ltac:(lia) ltac:(lia) ltac:(lia)) as H.
Lemma prod_list : Forall (fun z => 0 <= z <= M)
  [q; a; b; c; q * a; q * b; q * c; a * b; b * a; a * c; c * a; b * c; c * b; q * a * b; q * b * a; q * a * c; q * c * a; q * b * c; q * c * b;
   a * b * c; q * a * b * c].
Proof.
  repeat constructor;
  first [ pu q 1 1 1; lia | pu 1 a 1 1; lia | pu 1 1 b 1; lia | pu 1 1 1 c; lia
        | pu q a 1 1; lia | pu q 1 b 1; lia | pu q 1 1 c; lia
        | pu 1 a b 1; lia | pu 1 a 1 c; lia | pu 1 1 b c; lia
        | pu q a b 1; lia | pu q a 1 c; lia | pu q 1 b c; lia | pu 1 a b c; lia | pu q a b c; lia ].
Qed.
End Prod.

(** the storage offset of a point of a tile *)
Lemma off_list q a b c i j k : 1 <= q -> 0 <= i < a -> 0 <= j < b -> 0 <= k < c ->
  Forall (fun z => 0 <= z <= q * (a * b * c))
    [k * b; k * b * a; j * a; k * b * a + j * a; k * b * a + j * a + i; q * (k * b * a + j * a + i)] /\ j * a + i < b * a.
Proof.
  intros Hq Hi Hj Hk.
  assert (H1 : 0 <= k * b <= (c - 1) * b) by (apply mul_mono; lia).
  assert (H2 : 0 <= k * b * a <= (c - 1) * b * a) by (apply mul_mono; lia).
  assert (H3 : 0 <= j * a <= (b - 1) * a) by (apply mul_mono; lia).
  assert (H4 : (c - 1) * b * a + b * a = a * b * c) by ring.
  assert (H5 : (b - 1) * a + a = b * a) by ring.
  assert (H6 : (c - 1) * b + b = c * b) by ring.
  assert (H7 : c * b <= c * b * a) by (apply mul_up; nia).
  assert (H8 : c * b * a = a * b * c) by ring.
  assert (H9 : 0 <= b * a) by nia.
  assert (H10 : k * b * a + j * a + i <= a * b * c) by lia.
  assert (H11 : a * b * c <= q * (a * b * c)) by nia.
  assert (H12 : 0 <= q * (k * b * a + j * a + i) <= q * (a * b * c)) by (apply mul_mono; lia).
  split; [|lia]. repeat constructor; lia.
Qed.

(** ** 3d *)
Definition bounds_int3 (b : box3) : Prop :=
  int_ok (ilo b) /\ int_ok (ihi b) /\ int_ok (jlo b) /\ int_ok (jhi b) /\ int_ok (klo b) /\ int_ok (khi b).
(** the points of the tile, an empty extent counted as 1 *)
Definition room3 (b : box3) : Z := Z.max 1 (ni b) * Z.max 1 (nj b) * Z.max 1 (nk b).
(** the bounds are legal C ints and [nq] values per point can be counted in an int *)
Definition tile_fits3 (nq : Z) (b : box3) : Prop := legal3 b /\ bounds_int3 b /\ nq * room3 b <= INT_MAX.

Definition sub3 (ov b : box3) : Prop :=
  ilo b <= ilo ov <= ihi ov /\ ihi ov <= ihi b /\ jlo b <= jlo ov <= jhi ov /\ jhi ov <= jhi b /\ klo b <= klo ov <= khi ov /\ khi ov <= khi b.
Lemma collide3_sub a b ov : collide3 a b = Some ov -> sub3 ov a /\ sub3 ov b.
Proof.
  unfold collide3. cbn [ilo ihi jlo jhi klo khi]. destruct (_ || _) eqn:E; [discriminate|]. intros [= <-].
  rewrite !orb_false_iff, !Z.ltb_ge in E. unfold sub3. cbn. lia.
Qed.

Lemma ext_safe lo hi : int_ok lo -> int_ok hi -> 0 <= hi - lo + 1 <= INT_MAX -> safe (ext_e lo hi).
Proof. intros. unfold ext_e. sf. iok. Qed.

Lemma fits_list3 nq b : 1 <= nq -> tile_fits3 nq b ->
  Forall nn
  [nq; ni b; nj b; nk b; nq * ni b; nq * nj b; nq * nk b; ni b * nj b; nj b * ni b; ni b * nk b; nk b * ni b; nj b * nk b; nk b * nj b;
   nq * ni b * nj b; nq * nj b * ni b; nq * ni b * nk b; nq * nk b * ni b; nq * nj b * nk b; nq * nk b * nj b;
   ni b * nj b * nk b; nq * ni b * nj b * nk b].
Proof.
  intros Hq ((H1 & H2 & H3) & _ & H). unfold room3 in H. pose proof (prod_list nq (ni b) (nj b) (nk b) Hq H1 H2 H3) as P.
  eapply Forall_impl; [|exact P]. intros z Hz. cbv beta in Hz. unfold nn. lia.
Qed.

Lemma ext_ints3_safe nq b : 1 <= nq -> tile_fits3 nq b -> all_safe (ext_ints3 b).
Proof.
  intros Hq Hb. pose proof (fits_list3 nq b Hq Hb) as F. destruct Hb as (_ & (B1 & B2 & B3 & B4 & B5 & B6) & _).
  parts F. unfold ext_ints3. sc; apply ext_safe; assumption.
Qed.
Lemma size_e3_safe nq b : 1 <= nq -> tile_fits3 nq b -> safe (size_e3 nq b).
Proof.
  intros Hq Hb. pose proof (fits_list3 nq b Hq Hb) as F. parts F. unfold size_e3. bypart.
Qed.

Lemma sub_fits3 nq ov b : 1 <= nq -> sub3 ov b -> tile_fits3 nq b -> tile_fits3 nq ov.
Proof.
  intros Hq (S1 & S2 & S3 & S4 & S5 & S6) (L & (B1 & B2 & B3 & B4 & B5 & B6) & H). unfold int_ok in *.
  split; [unfold legal3, ni, nj, nk; lia|]. split; [unfold bounds_int3, int_ok; lia|].
  eapply Z.le_trans; [|exact H]. apply Z.mul_le_mono_nonneg_l; [lia|]. unfold room3.
  assert (ni ov <= ni b /\ nj ov <= nj b /\ nk ov <= nk b) by (unfold ni, nj, nk; lia).
  apply mul_mono; [|lia]. split; [nia|]. apply mul_mono; lia.
Qed.

(** the extents of a tile that contains another *)
Lemma sub_pos3 ov b : sub3 ov b -> 0 <= ilo ov - ilo b < ni b /\ 0 <= jlo ov - jlo b < nj b /\ 0 <= klo ov - klo b < nk b /\
  room3 b = ni b * nj b * nk b.
Proof. intros S. unfold sub3 in S. unfold room3. assert (1 <= ni b /\ 1 <= nj b /\ 1 <= nk b) by (unfold ni, nj, nk; lia). rewrite !Z.max_r by lia. unfold ni, nj, nk in *. lia. Qed.

Lemma off_safe q a b c i j k : 1 <= q -> 0 <= i < a -> 0 <= j < b -> 0 <= k < c -> q * (a * b * c) <= INT_MAX ->
  forall ei ej ek, safe ei -> safe ej -> safe ek -> den ei = i -> den ej = j -> den ek = k -> int_ok q -> int_ok a -> int_ok b -> 
  safe (#q * (ek * #b * #a + ej * #a + ei))%I.
Proof.
  intros Hq Hi Hj Hk HM ei ej ek Si Sj Sk Ei Ej Ek Iq Ia Ib.
  pose proof (off_list q _ _ _ _ _ _ Hq Hi Hj Hk) as (O & _). rewrite !Forall_cons_iff in O. destruct O as (O1 & O2 & O3 & O4 & O5 & O6 & _).
  sf. rewrite Ei, Ej, Ek. spl; auto; apply nn_ok; unfold nn; lia.
Qed.
Lemma off_safe' q a b c lo l0 j k : 1 <= q -> 0 <= lo - l0 < a -> 0 <= j < b -> 0 <= k < c -> q * (a * b * c) <= INT_MAX ->
  forall ej ek, safe ej -> safe ek -> den ej = j -> den ek = k -> int_ok q -> int_ok a -> int_ok b -> int_ok lo -> int_ok l0 ->
  b * a + (l0 + a - 1) <= INT_MAX ->
  safe (#q * (ek * #b * #a + (ej * #a + #lo - #l0)))%I.
Proof.
  intros Hq Hi Hj Hk HM ej ek Sj Sk Ej Ek Iq Ia Ib Ilo Il0 Hf.
  pose proof (off_list q _ _ _ _ _ _ Hq Hi Hj Hk) as (O & Oj). rewrite !Forall_cons_iff in O. destruct O as (O1 & O2 & O3 & O4 & O5 & O6 & _).
  sf. rewrite Ej, Ek. replace (j * a + lo - l0) with (j * a + (lo - l0)) by ring. rewrite Z.add_assoc.
  spl; auto; try (apply nn_ok; unfold nn; lia); unfold int_ok in *; lia.
Qed.

Lemma send_ints3_safe nq b ov : 1 <= nq -> tile_fits3 nq b -> sub3 ov b -> nj b * ni b + ihi b <= INT_MAX -> all_safe (send_ints3 nq b ov).
Proof.
  intros Hq Hb S Hf. pose proof (sub_fits3 nq ov b Hq S Hb) as Ho.
  destruct (sub_pos3 _ _ S) as (P1 & P2 & P3 & R). pose proof Hb as (_ & (B1 & B2 & B3 & B4 & B5 & B6) & HM). rewrite R in HM.
  pose proof Ho as (_ & (D1 & D2 & D3 & D4 & D5 & D6) & _). unfold sub3 in S.
  assert (Sj : safe (#(jlo ov) - #(jlo b))%I) by (pose proof (fits_list3 nq b Hq Hb) as F; inversion_clear F as [|? ? _ F1]; inversion_clear F1 as [|? ? _ F2]; inversion_clear F2 as [|? ? Fj _]; unfold nn in Fj; sf; spl; try apply D3; try apply B3; unfold int_ok; rewrite ?IMN, ?IMX in *; lia).
  assert (Sk : safe (#(klo ov) - #(klo b))%I) by (pose proof (fits_list3 nq b Hq Hb) as F; inversion_clear F as [|? ? _ F1]; inversion_clear F1 as [|? ? _ F2]; inversion_clear F2 as [|? ? _ F3]; inversion_clear F3 as [|? ? Fk _]; unfold nn in Fk; sf; spl; try apply D5; try apply B5; unfold int_ok; rewrite ?IMN, ?IMX in *; lia).
  assert (E0 : nj b * ni b + (ilo b + ni b - 1) <= INT_MAX) by (unfold ni at 2; lia).
  pose proof (fits_list3 nq b Hq Hb) as F. pose proof (fits_list3 nq ov Hq Ho) as G.
  parts F. parts G. unfold send_ints3. sc; try (apply size_e3_safe; assumption); try (bypart; fail).
  eapply (off_safe' nq (ni b) (nj b) (nk b) (ilo ov) (ilo b) (jlo ov - jlo b) (klo ov - klo b)); try assumption; try reflexivity; apply nn_ok; assumption.
Qed.

Lemma recv_ints3_safe nq perm b ov : 1 <= nq -> tile_fits3 nq b -> sub3 ov b -> all_safe (recv_ints3 nq perm b ov).
Proof.
  intros Hq Hb S. pose proof (sub_fits3 nq ov b Hq S Hb) as Ho.
  destruct (sub_pos3 _ _ S) as (P1 & P2 & P3 & R). pose proof Hb as (_ & (B1 & B2 & B3 & B4 & B5 & B6) & HM). rewrite R in HM.
  pose proof Ho as (_ & (D1 & D2 & D3 & D4 & D5 & D6) & _). unfold sub3 in S.
  pose proof (fits_list3 nq b Hq Hb) as F. pose proof (fits_list3 nq ov Hq Ho) as G.
  inversion_clear F as [|? ? F0 F1]. inversion_clear F1 as [|? ? Fi F2]. inversion_clear F2 as [|? ? Fj F3]. inversion_clear F3 as [|? ? Fk _]. pose proof Fi as Fi'. pose proof Fj as Fj'. pose proof Fk as Fk'. unfold nn in Fi', Fj', Fk'.
  assert (Iq : int_ok nq) by (apply nn_ok, F0). assert (Ia : int_ok (ni b)) by (apply nn_ok, Fi).
  assert (Ib : int_ok (nj b)) by (apply nn_ok, Fj). assert (Ic : int_ok (nk b)) by (apply nn_ok, Fk).
  assert (HM2 : nq * (nj b * nk b * ni b) <= INT_MAX) by (rewrite <- HM; apply Z.eq_le_incl; ring).
  assert (HM3 : nq * (nk b * ni b * nj b) <= INT_MAX) by (rewrite <- HM; apply Z.eq_le_incl; ring).
  assert (Si : safe (#(ilo ov) - #(ilo b))%I) by (sf; spl; try apply D1; try apply B1; unfold int_ok; rewrite ?IMN, ?IMX in *; lia).
  assert (Sj : safe (#(jlo ov) - #(jlo b))%I) by (sf; spl; try apply D3; try apply B3; unfold int_ok; rewrite ?IMN, ?IMX in *; lia).
  assert (Sk : safe (#(klo ov) - #(klo b))%I) by (sf; spl; try apply D5; try apply B5; unfold int_ok; rewrite ?IMN, ?IMX in *; lia).
  pose proof (fits_list3 nq b Hq Hb) as F. parts F. parts G.
  unfold recv_ints3. apply safe_app; [|sc; apply size_e3_safe; assumption].
  destruct (perm =? 0); [|destruct (perm =? 1); [|destruct (perm =? 2); [|apply safe_nil]]]; sc; try (bypart; fail).
  - apply (off_safe nq (ni b) (nj b) (nk b) (ilo ov - ilo b) (jlo ov - jlo b) (klo ov - klo b)); try assumption; reflexivity.
  - apply (off_safe nq (nj b) (nk b) (ni b) (jlo ov - jlo b) (klo ov - klo b) (ilo ov - ilo b)); try assumption; reflexivity.
  - apply (off_safe nq (nk b) (ni b) (nj b) (klo ov - klo b) (ilo ov - ilo b) (jlo ov - jlo b)); try assumption; reflexivity.
Qed.

(** the overlaps of one tile with disjoint tiles *)
Lemma overlap_sum3 nq n a (bs : nat -> box3) l : 0 <= nq -> NoDup l -> (forall r, In r l -> (r < n)%nat) -> disjoint_owners3 n bs ->
  lsum (flat_map (fun p => match collide3 a (bs p) with Some ov => [size3 nq ov] | None => [] end) l) <= nq * vol3 a.
Proof.
  intros Hq Hl Hin Hd.
  set (L := fun p => match collide3 a (bs p) with Some ov => pts3 ov | None => [] end).
  assert (E : lsum (flat_map (fun p => match collide3 a (bs p) with Some ov => [size3 nq ov] | None => [] end) l) = nq * Z.of_nat (length (flat_map L l))).
  { clear. induction l as [|p l IH]; cbn [flat_map lsum fold_right length]; [lia|]. rewrite app_length, Nat2Z.inj_add, Z.mul_add_distr_l, <- IH.
    unfold L. destruct (collide3 a (bs p)) as [ov|] eqn:E; cbn [app lsum fold_right length].
    - fold (lsum (flat_map (fun p0 => match collide3 a (bs p0) with Some ov0 => [size3 nq ov0] | None => [] end) l)).
      rewrite pts3_length. apply collide3_sub in E. destruct E as (S & _). unfold sub3 in S. unfold size3, vol3.
      rewrite !Z.max_r by (unfold ni, nj, nk; lia). lia.
    - fold (lsum (flat_map (fun p0 => match collide3 a (bs p0) with Some ov0 => [size3 nq ov0] | None => [] end) l)). lia. }
  rewrite E, <- pts3_length. apply Z.mul_le_mono_nonneg_l; [exact Hq|]. apply inj_le.
  assert (HL : forall p x, In x (L p) -> inb3 x a /\ inb3 x (bs p)).
  { intros p x. unfold L. destruct (collide3 a (bs p)) as [ov|] eqn:C; [|intros []]. intros Hx. apply In_pts3 in Hx.
    apply collide3_sub in C. unfold sub3 in C. destruct x as [[i j] k]. cbn in *. lia. }
  apply NoDup_incl_length.
  - apply flat_NoDup; [|exact Hl|].
    + intros r. unfold L. destruct (collide3 a (bs r)); [apply pts3_NoDup|constructor].
    + intros r r' x H1 H2 X1 X2. apply (Hd x r r'); [auto|auto|apply (HL r x X1)|apply (HL r' x X2)].
  - intros x Hx. apply in_flat_map in Hx. destruct Hx as (p & _ & Hx). apply In_pts3. apply (HL p x Hx).
Qed.

Lemma vol_fits3 nq b : 1 <= nq -> tile_fits3 nq b -> nq * vol3 b <= INT_MAX.
Proof.
  intros Hq Hb. pose proof (fits_list3 nq b Hq Hb) as F. rewrite !Forall_cons_iff in F. destruct Hb as ((L1 & L2 & L3) & _).
  unfold vol3. rewrite !Z.max_r by lia. rewrite !Z.mul_assoc. unfold nn in F. tauto.
Qed.

Lemma map_flat_size {plan} (l : list nat) (f : nat -> option (@entry plan)) :
  map (@e_size plan) (flat_map (fun p => match f p with Some e => [e] | None => [] end) l) =
  flat_map (fun p => match f p with Some e => [e_size e] | None => [] end) l.
Proof. induction l as [|p l IH]; cbn [flat_map map]; [reflexivity|]. rewrite map_app, IH. destruct (f p); reflexivity. Qed.

Theorem remap3_safe n coll nq perm ins outs : 1 <= nq -> 7 * Z.of_nat n <= INT_MAX ->
  (forall r, (r < n)%nat -> tile_fits3 nq (ins r)) -> (forall r, (r < n)%nat -> tile_fits3 nq (outs r)) ->
  disjoint_owners3 n ins -> disjoint_owners3 n outs ->
  forall me, (me < n)%nat -> nj (ins me) * ni (ins me) + ihi (ins me) <= INT_MAX ->
  all_safe (remap3_ints n coll nq perm ins outs me).
Proof.
  intros Hq Hn Hi Ho Di Do me Hme Hf. unfold remap3_ints.
  assert (C1 : forall r p ov, (r < n)%nat -> (p < n)%nat -> collide3 (ins r) (outs p) = Some ov -> sub3 ov (ins r)) by (intros r p ov _ _ E; apply (collide3_sub _ _ _ E)).
  assert (C2 : forall r p ov, (r < n)%nat -> (p < n)%nat -> collide3 (outs r) (ins p) = Some ov -> sub3 ov (outs r)) by (intros r p ov _ _ E; apply (collide3_sub _ _ _ E)).
  assert (Pos : forall a b ov, collide3 a b = Some ov -> 0 <= size3 nq ov).
  { intros a b ov E. apply collide3_sub in E. destruct E as (S & _). unfold sub3 in S. unfold size3.
    assert (0 <= ni ov /\ 0 <= nj ov /\ 0 <= nk ov) by (unfold ni, nj, nk; lia). repeat apply Z.mul_nonneg_nonneg; lia. }
  apply remap_safe; cbn [o_collide o_size ops3]; auto.
  - intros r Hr. apply (ext_ints3_safe nq); auto.
  - intros r Hr. apply (ext_ints3_safe nq); auto.
  - intros r p ov Hr Hp E. apply (ext_ints3_safe nq); auto. apply (sub_fits3 nq ov (ins r)); eauto.
  - intros r p ov Hr Hp E. apply (ext_ints3_safe nq); auto. apply (sub_fits3 nq ov (outs r)); eauto.
  - intros p ov Hp E. apply send_ints3_safe; eauto.
  - intros p ov Hp E. apply recv_ints3_safe; eauto.
  - apply safe_cons; [|apply safe_nil]. apply size_e3_safe; auto.
  - intros p ov _ E. eauto.
  - intros p ov _ E. eauto.
  - rewrite <- lsum_sizes. eapply Z.le_trans; [|apply (vol_fits3 nq (ins me)); auto].
    eapply Z.le_trans; [|apply (overlap_sum3 nq n (ins me) outs (ring n me)); [lia|apply ring_NoDup, Hme| |exact Do]].
    + apply Z.eq_le_incl. unfold send_entries. cbn [o_collide o_size o_soff o_splan ops3]. f_equal.
      induction (ring n me) as [|p l IH]; cbn [flat_map map]; [reflexivity|]. rewrite map_app, IH. destruct (collide3 (ins me) (outs p)); reflexivity.
    + intros r Hr. apply ring_In in Hr; auto.
  - rewrite <- lsum_sizes. eapply Z.le_trans; [|apply (vol_fits3 nq (outs me)); auto].
    eapply Z.le_trans; [|apply (overlap_sum3 nq n (outs me) ins (ring n me)); [lia|apply ring_NoDup, Hme| |exact Di]].
    + apply Z.eq_le_incl. unfold recv_entries. cbn [o_collide o_size o_roff o_rplan ops3]. f_equal.
      induction (ring n me) as [|p l IH]; cbn [flat_map map]; [reflexivity|]. rewrite map_app, IH. destruct (collide3 (outs me) (ins p)); reflexivity.
    + intros r Hr. apply ring_In in Hr; auto.
Qed.

(** ** 2d *)
Definition bounds_int2 (b : box2) : Prop := int_ok (ilo2 b) /\ int_ok (ihi2 b) /\ int_ok (jlo2 b) /\ int_ok (jhi2 b).
Definition room2 (b : box2) : Z := Z.max 1 (ni2 b) * Z.max 1 (nj2 b).
Definition tile_fits2 (nq : Z) (b : box2) : Prop := legal2 b /\ bounds_int2 b /\ nq * room2 b <= INT_MAX.
Definition sub2 (ov b : box2) : Prop :=
  ilo2 b <= ilo2 ov <= ihi2 ov /\ ihi2 ov <= ihi2 b /\ jlo2 b <= jlo2 ov <= jhi2 ov /\ jhi2 ov <= jhi2 b.
Lemma collide2_sub a b ov : collide2 a b = Some ov -> sub2 ov a /\ sub2 ov b.
Proof.
  unfold collide2. cbn [ilo2 ihi2 jlo2 jhi2]. destruct (_ || _) eqn:E; [discriminate|]. intros [= <-].
  rewrite !orb_false_iff, !Z.ltb_ge in E. unfold sub2. cbn. lia.
Qed.

Lemma fits_list2 nq b : 1 <= nq -> tile_fits2 nq b ->
  Forall nn [nq; ni2 b; nj2 b; nq * ni2 b; nq * nj2 b; ni2 b * nj2 b; nj2 b * ni2 b; nq * ni2 b * nj2 b; nq * nj2 b * ni2 b].
Proof.
  intros Hq ((H1 & H2) & _ & H). unfold room2 in H. pose proof (prod_list nq (ni2 b) (nj2 b) 1 Hq H1 H2 ltac:(lia)) as P.
  rewrite (Z.max_l 1 1 ltac:(lia)), (Z.mul_1_r (_ * _)) in P.
  assert (P' : Forall nn [nq; ni2 b; nj2 b; 1; nq * ni2 b; nq * nj2 b; nq * 1; ni2 b * nj2 b; nj2 b * ni2 b; ni2 b * 1; 1 * ni2 b; nj2 b * 1; 1 * nj2 b;
     nq * ni2 b * nj2 b; nq * nj2 b * ni2 b]).
  { rewrite !Forall_cons_iff in P. rewrite !Forall_cons_iff. decompose [and] P. clear P. unfold nn. spl; try constructor; lia. }
  rewrite !Forall_cons_iff in P'. decompose [and] P'. clear P P'. repeat constructor; apply H0 || assumption || idtac; unfold nn in *; lia.
Qed.

Lemma ext_ints2_safe nq b : 1 <= nq -> tile_fits2 nq b -> all_safe (ext_ints2 b).
Proof.
  intros Hq Hb. pose proof (fits_list2 nq b Hq Hb) as F. destruct Hb as (_ & (B1 & B2 & B3 & B4) & _).
  parts F. unfold ext_ints2. sc; apply ext_safe; assumption.
Qed.
Lemma size_e2_safe nq b : 1 <= nq -> tile_fits2 nq b -> safe (size_e2 nq b).
Proof. intros Hq Hb. pose proof (fits_list2 nq b Hq Hb) as F. parts F. unfold size_e2. bypart. Qed.
Lemma sub_fits2 nq ov b : 1 <= nq -> sub2 ov b -> tile_fits2 nq b -> tile_fits2 nq ov.
Proof.
  intros Hq (S1 & S2 & S3 & S4) (L & (B1 & B2 & B3 & B4) & H). unfold int_ok in *.
  split; [unfold legal2, ni2, nj2; lia|]. split; [unfold bounds_int2, int_ok; lia|].
  eapply Z.le_trans; [|exact H]. apply Z.mul_le_mono_nonneg_l; [lia|]. unfold room2.
  assert (ni2 ov <= ni2 b /\ nj2 ov <= nj2 b) by (unfold ni2, nj2; lia). apply mul_mono; lia.
Qed.
Lemma sub_pos2 ov b : sub2 ov b -> 0 <= ilo2 ov - ilo2 b < ni2 b /\ 0 <= jlo2 ov - jlo2 b < nj2 b /\ room2 b = ni2 b * nj2 b.
Proof. intros S. unfold sub2 in S. unfold room2. assert (1 <= ni2 b /\ 1 <= nj2 b) by (unfold ni2, nj2; lia). rewrite !Z.max_r by lia. unfold ni2, nj2 in *. lia. Qed.

Lemma off2_list q a b i j : 1 <= q -> 0 <= i < a -> 0 <= j < b ->
  0 <= j * a <= q * (a * b) /\ 0 <= j * a + i <= q * (a * b) /\ 0 <= q * (j * a + i) <= q * (a * b) /\ j * a + i < b * a.
Proof.
  intros Hq Hi Hj.
  assert (H3 : 0 <= j * a <= (b - 1) * a) by (apply mul_mono; lia).
  assert (H5 : (b - 1) * a + a = a * b) by ring. assert (a * b = b * a) by ring.
  assert (H11 : a * b <= q * (a * b)) by nia.
  assert (H12 : 0 <= q * (j * a + i) <= q * (a * b)) by (apply mul_mono; lia). lia.
Qed.

Lemma send_ints2_safe nq b ov : 1 <= nq -> tile_fits2 nq b -> sub2 ov b -> nj2 b * ni2 b + ihi2 b <= INT_MAX -> all_safe (send_ints2 nq b ov).
Proof.
  intros Hq Hb S Hf. pose proof (sub_fits2 nq ov b Hq S Hb) as Ho.
  destruct (sub_pos2 _ _ S) as (P1 & P2 & R). pose proof Hb as (_ & (B1 & B2 & B3 & B4) & HM). rewrite R in HM.
  pose proof Ho as (_ & (D1 & D2 & D3 & D4) & _). unfold sub2 in S.
  pose proof (off2_list nq _ _ _ _ Hq P1 P2) as (O1 & O2 & O3 & O4).
  pose proof (fits_list2 nq b Hq Hb) as F. inversion_clear F as [|? ? F0 F1]. inversion_clear F1 as [|? ? Fi F2]. inversion_clear F2 as [|? ? Fj _].
  assert (Ia : int_ok (ni2 b)) by (apply nn_ok, Fi). assert (Iq : int_ok nq) by (apply nn_ok, F0).
  assert (E0 : nj2 b * ni2 b + (ilo2 b + ni2 b - 1) <= INT_MAX) by (unfold ni2 at 2; lia).
  assert (Sj : int_ok (jlo2 ov - jlo2 b)) by (unfold nn, int_ok in *; rewrite ?IMN, ?IMX in *; lia).
  assert (S1 : safe (#nq * ((#(jlo2 ov) - #(jlo2 b)) * #(ni2 b) + #(ilo2 ov) - #(ilo2 b)))%I).
  { sf. spl; auto.
    - apply nn_ok. unfold nn. lia.
    - unfold int_ok in *. rewrite ?IMN, ?IMX in *. lia.
    - apply nn_ok. unfold nn. lia.
    - apply nn_ok. unfold nn. replace (_ + _ - _) with ((jlo2 ov - jlo2 b) * ni2 b + (ilo2 ov - ilo2 b)) by ring. lia. }
  pose proof (fits_list2 nq b Hq Hb) as F. pose proof (fits_list2 nq ov Hq Ho) as G.
  parts F. parts G. unfold send_ints2. sc; try (apply size_e2_safe; assumption); try assumption; bypart.
Qed.
Lemma recv_ints2_safe nq perm b ov : 1 <= nq -> tile_fits2 nq b -> sub2 ov b -> all_safe (recv_ints2 nq perm b ov).
Proof.
  intros Hq Hb S. pose proof (sub_fits2 nq ov b Hq S Hb) as Ho.
  destruct (sub_pos2 _ _ S) as (P1 & P2 & R). pose proof Hb as (_ & (B1 & B2 & B3 & B4) & HM). rewrite R in HM.
  pose proof Ho as (_ & (D1 & D2 & D3 & D4) & _). unfold sub2 in S.
  pose proof (off2_list nq _ _ _ _ Hq P1 P2) as (O1 & O2 & O3 & _).
  pose proof (off2_list nq _ _ _ _ Hq P2 P1) as (Q1 & Q2 & Q3 & _). rewrite (Z.mul_comm (nj2 b) (ni2 b)) in Q1, Q2, Q3.
  pose proof (fits_list2 nq b Hq Hb) as F. inversion_clear F as [|? ? F0 F1]. inversion_clear F1 as [|? ? Fi F2]. inversion_clear F2 as [|? ? Fj _].
  assert (Ia : int_ok (ni2 b)) by (apply nn_ok, Fi). assert (Ib : int_ok (nj2 b)) by (apply nn_ok, Fj). assert (Iq : int_ok nq) by (apply nn_ok, F0).
  assert (Si : int_ok (ilo2 ov - ilo2 b)) by (unfold nn, int_ok in *; rewrite ?IMN, ?IMX in *; lia).
  assert (Sj : int_ok (jlo2 ov - jlo2 b)) by (unfold nn, int_ok in *; rewrite ?IMN, ?IMX in *; lia).
  assert (S1 : safe (#nq * ((#(jlo2 ov) - #(jlo2 b)) * #(ni2 b) + (#(ilo2 ov) - #(ilo2 b))))%I) by (sf; spl; auto; apply nn_ok; unfold nn; lia).
  assert (S2 : safe (#nq * ((#(ilo2 ov) - #(ilo2 b)) * #(nj2 b) + (#(jlo2 ov) - #(jlo2 b))))%I) by (sf; spl; auto; apply nn_ok; unfold nn; lia).
  pose proof (fits_list2 nq b Hq Hb) as F. pose proof (fits_list2 nq ov Hq Ho) as G. parts F. parts G.
  unfold recv_ints2. apply safe_app; [|sc; apply size_e2_safe; assumption].
  destruct (perm =? 0); [|destruct (perm =? 1); [|apply safe_nil]]; sc; try assumption; bypart.
Qed.

Lemma overlap_sum2 nq n a (bs : nat -> box2) l : 0 <= nq -> NoDup l -> (forall r, In r l -> (r < n)%nat) -> disjoint_owners2 n bs ->
  lsum (flat_map (fun p => match collide2 a (bs p) with Some ov => [size2 nq ov] | None => [] end) l) <= nq * vol2 a.
Proof.
  intros Hq Hl Hin Hd.
  set (L := fun p => match collide2 a (bs p) with Some ov => pts2 ov | None => [] end).
  assert (E : lsum (flat_map (fun p => match collide2 a (bs p) with Some ov => [size2 nq ov] | None => [] end) l) = nq * Z.of_nat (length (flat_map L l))).
  { clear. induction l as [|p l IH]; cbn [flat_map lsum fold_right length]; [lia|]. rewrite app_length, Nat2Z.inj_add, Z.mul_add_distr_l, <- IH.
    unfold L. destruct (collide2 a (bs p)) as [ov|] eqn:E; cbn [app lsum fold_right length].
    - fold (lsum (flat_map (fun p0 => match collide2 a (bs p0) with Some ov0 => [size2 nq ov0] | None => [] end) l)).
      rewrite pts2_length. apply collide2_sub in E. destruct E as (S & _). unfold sub2 in S. unfold size2, vol2.
      rewrite !Z.max_r by (unfold ni2, nj2; lia). lia.
    - fold (lsum (flat_map (fun p0 => match collide2 a (bs p0) with Some ov0 => [size2 nq ov0] | None => [] end) l)). lia. }
  rewrite E, <- pts2_length. apply Z.mul_le_mono_nonneg_l; [exact Hq|]. apply inj_le.
  assert (HL : forall p x, In x (L p) -> inb2 x a /\ inb2 x (bs p)).
  { intros p x. unfold L. destruct (collide2 a (bs p)) as [ov|] eqn:C; [|intros []]. intros Hx. apply In_pts2 in Hx.
    apply collide2_sub in C. unfold sub2 in C. destruct x as [i j]. cbn in *. lia. }
  apply NoDup_incl_length.
  - apply flat_NoDup; [|exact Hl|].
    + intros r. unfold L. destruct (collide2 a (bs r)); [apply pts2_NoDup|constructor].
    + intros r r' x H1 H2 X1 X2. apply (Hd x r r'); [auto|auto|apply (HL r x X1)|apply (HL r' x X2)].
  - intros x Hx. apply in_flat_map in Hx. destruct Hx as (p & _ & Hx). apply In_pts2. apply (HL p x Hx).
Qed.
Lemma vol_fits2 nq b : 1 <= nq -> tile_fits2 nq b -> nq * vol2 b <= INT_MAX.
Proof.
  intros Hq Hb. pose proof (fits_list2 nq b Hq Hb) as F. rewrite !Forall_cons_iff in F. destruct Hb as ((L1 & L2) & _).
  unfold vol2. rewrite !Z.max_r by lia. rewrite !Z.mul_assoc. unfold nn in F. tauto.
Qed.

Theorem remap2_safe n coll nq perm ins outs : 1 <= nq -> 7 * Z.of_nat n <= INT_MAX ->
  (forall r, (r < n)%nat -> tile_fits2 nq (ins r)) -> (forall r, (r < n)%nat -> tile_fits2 nq (outs r)) ->
  disjoint_owners2 n ins -> disjoint_owners2 n outs ->
  forall me, (me < n)%nat -> nj2 (ins me) * ni2 (ins me) + ihi2 (ins me) <= INT_MAX ->
  all_safe (remap2_ints n coll nq perm ins outs me).
Proof.
  intros Hq Hn Hi Ho Di Do me Hme Hf. unfold remap2_ints.
  assert (C1 : forall r p ov, (r < n)%nat -> (p < n)%nat -> collide2 (ins r) (outs p) = Some ov -> sub2 ov (ins r)) by (intros r p ov _ _ E; apply (collide2_sub _ _ _ E)).
  assert (C2 : forall r p ov, (r < n)%nat -> (p < n)%nat -> collide2 (outs r) (ins p) = Some ov -> sub2 ov (outs r)) by (intros r p ov _ _ E; apply (collide2_sub _ _ _ E)).
  assert (Pos : forall a b ov, collide2 a b = Some ov -> 0 <= size2 nq ov).
  { intros a b ov E. apply collide2_sub in E. destruct E as (S & _). unfold sub2 in S. unfold size2.
    assert (0 <= ni2 ov /\ 0 <= nj2 ov) by (unfold ni2, nj2; lia). repeat apply Z.mul_nonneg_nonneg; lia. }
  apply remap_safe; cbn [o_collide o_size ops2]; auto.
  - intros r Hr. apply (ext_ints2_safe nq); auto.
  - intros r Hr. apply (ext_ints2_safe nq); auto.
  - intros r p ov Hr Hp E. apply (ext_ints2_safe nq); auto. apply (sub_fits2 nq ov (ins r)); eauto.
  - intros r p ov Hr Hp E. apply (ext_ints2_safe nq); auto. apply (sub_fits2 nq ov (outs r)); eauto.
  - intros p ov Hp E. apply send_ints2_safe; eauto.
  - intros p ov Hp E. apply recv_ints2_safe; eauto.
  - apply safe_cons; [|apply safe_nil]. apply size_e2_safe; auto.
  - intros p ov _ E. eauto.
  - intros p ov _ E. eauto.
  - rewrite <- lsum_sizes. eapply Z.le_trans; [|apply (vol_fits2 nq (ins me)); auto].
    eapply Z.le_trans; [|apply (overlap_sum2 nq n (ins me) outs (ring n me)); [lia|apply ring_NoDup, Hme| |exact Do]].
    + apply Z.eq_le_incl. unfold send_entries. cbn [o_collide o_size o_soff o_splan ops2]. f_equal.
      induction (ring n me) as [|p l IH]; cbn [flat_map map]; [reflexivity|]. rewrite map_app, IH. destruct (collide2 (ins me) (outs p)); reflexivity.
    + intros r Hr. apply ring_In in Hr; auto.
  - rewrite <- lsum_sizes. eapply Z.le_trans; [|apply (vol_fits2 nq (outs me)); auto].
    eapply Z.le_trans; [|apply (overlap_sum2 nq n (outs me) ins (ring n me)); [lia|apply ring_NoDup, Hme| |exact Di]].
    + apply Z.eq_le_incl. unfold recv_entries. cbn [o_collide o_size o_roff o_rplan ops2]. f_equal.
      induction (ring n me) as [|p l IH]; cbn [flat_map map]; [reflexivity|]. rewrite map_app, IH. destruct (collide2 (outs me) (ins p)); reflexivity.
    + intros r Hr. apply ring_In in Hr; auto.
Qed.
