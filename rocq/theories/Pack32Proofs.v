(** Pack32Proofs.v : the 32-bit packing routines against the unbounded ones: where the checks of Pack32.v succeed. *)

From Verif Require Import Base Pack3d Pack3dProofs Pack2d Pack2dProofs Layout Wrap Overflow OverflowProofs Pack32.
Local Open Scope Z_scope.

(** ** checks *)
Definition safeb (e : iexp) : bool := match ev e with Some _ => true | None => false end.
Lemma bind_ev {B} e (k : Z -> option B) : bind (ev e) k = if safeb e then k (den e) else None.
Proof. unfold safeb. destruct (ev e) as [v|] eqn:E; [|reflexivity]. cbn. rewrite (ev_den e v E). reflexivity. Qed.
Lemma safeb_spec e : safeb e = true <-> safe e.
Proof. unfold safeb, safe. destruct (ev e); split; congruence. Qed.

Definition ptrb (strict : bool) (len p : Z) : bool := negb strict || ((0 <=? p) && (p <=? len)).
Lemma bind_ptr {B} strict len p (k : Z -> option B) : bind (ptr strict len p) k = if ptrb strict len p then k p else None.
Proof. unfold ptr, ptrb. destruct strict; cbn; [|reflexivity]. destruct ((0 <=? p) && (p <=? len)); reflexivity. Qed.

(** [small z]: a value that needs no check *)
Definition small (z : Z) : Prop := 0 <= z <= INT_MAX.
Lemma small_ok z : small z -> int_ok z.
Proof. unfold small, int_ok. rewrite IMX, IMN. lia. Qed.
Lemma safe_small_lit z : small z -> safe (Lit z).
Proof. intros. apply safe_lit, small_ok. assumption. Qed.
Ltac safes := repeat first [apply safe_add; split; [|split] | apply safe_mul; split; [|split] | apply safe_small_lit | apply small_ok]; cbn [den]; unfold small in *.

Lemma if_and {B} (a b : bool) (x : option B) : (if a then if b then x else None else None) = if a && b then x else None.
Proof. destruct a, b; reflexivity. Qed.
Lemma if_bind {B C} (a : bool) (x : option B) (k : B -> option C) : bind (if a then x else None) k = if a then bind x k else None.
Proof. destruct a; reflexivity. Qed.
Lemma bind_if {B C} (a : bool) (x : option B) (k : B -> option C) : bind x (fun v => if a then k v else None) = if a then bind x k else None.
Proof. destruct a, x; reflexivity. Qed.

(** ** loops with checks *)
Section Guard.
Context {S : Type}.
Variable inv : Z -> S -> Prop.
Lemma iter_guard (ok : Z -> bool) f f' n : forall k s, inv k s ->
  (forall i s, k <= i < k + Z.of_nat n -> inv i s -> f' i s = if ok i then f i s else None) ->
  (forall i s s', k <= i < k + Z.of_nat n -> inv i s -> f i s = Some s' -> inv (i + 1) s') ->
  iter n k f' s = if forallb ok (zseq k n) then iter n k f s else None.
Proof.
  induction n as [|n IH]; intros k s H0 H1 H2; [reflexivity|]. cbn [iter zseq forallb].
  rewrite H1 by (auto; lia). destruct (ok k); [|reflexivity]. cbn [andb].
  destruct (f k s) as [s'|] eqn:E; cbn [bind]; [|destruct (forallb ok (zseq (k + 1) n)); reflexivity].
  apply IH; [apply (H2 k s s'); auto; lia| |]; intros; [apply H1|eapply H2]; eauto; lia.
Qed.
Lemma for_guard (ok : Z -> bool) n f f' s : inv 0 s ->
  (forall i s, 0 <= i < n -> inv i s -> f' i s = if ok i then f i s else None) ->
  (forall i s s', 0 <= i < n -> inv i s -> f i s = Some s' -> inv (i + 1) s') ->
  for_ n f' s = if forallb ok (zrange n) then for_ n f s else None.
Proof.
  intros H0 H1 H2. unfold for_, zrange. apply iter_guard; auto; intros; [apply H1|eapply H2]; eauto; lia.
Qed.
Lemma iter_post f n : forall k s s', inv k s ->
  (forall i s s', k <= i < k + Z.of_nat n -> inv i s -> f i s = Some s' -> inv (i + 1) s') ->
  iter n k f s = Some s' -> inv (k + Z.of_nat n) s'.
Proof.
  induction n as [|n IH]; intros k s s' H0 H2 E; cbn [iter] in E.
  - injection E as <-. replace (k + Z.of_nat 0) with k by lia. assumption.
  - apply bind_Some_inv in E as (s1 & E1 & E). replace (k + Z.of_nat (Datatypes.S n)) with (k + 1 + Z.of_nat n) by lia.
    apply (IH (k + 1) s1 s'); [apply (H2 k s s1); auto; lia| |assumption]. intros i t t' Hi. apply H2. lia.
Qed.
Lemma for_post n f s s' : 0 <= n -> inv 0 s -> (forall i s s', 0 <= i < n -> inv i s -> f i s = Some s' -> inv (i + 1) s') ->
  for_ n f s = Some s' -> inv n s'.
Proof.
  intros Hn H0 H2 E. replace n with (0 + Z.of_nat (Z.to_nat n)) by lia. apply (iter_post f (Z.to_nat n) 0 s s' H0); [|exact E].
  intros i t t' Hi. apply H2. lia.
Qed.
End Guard.

Section Lines.
Context {A : Type}.
Variable P : list A -> Prop.

(** one line: the state is the array, a strided and a contiguous index in some order *)
Section Line.
Context {St : Type}.
Variable mk : list A -> Z -> Z -> St.
Variables (eo eo' : St -> option St) (k3 : Z -> Z -> bool) (step nq : Z).
Hypothesis He : forall d a b, eo' (mk d a b) = if k3 a b then eo (mk d a b) else None.
Hypothesis Hp : forall d a b st, eo (mk d a b) = Some st -> exists d', st = mk d' (a + step) (b + nq) /\ (P d -> P d').
Lemma line_guard nf d a b : for_ nf (fun _ => eo') (mk d a b) =
  if forallb (fun x => k3 (a + x * step) (b + x * nq)) (zrange nf) then for_ nf (fun _ => eo) (mk d a b) else None.
Proof.
  apply (for_guard (fun x st => exists d, st = mk d (a + x * step) (b + x * nq))).
  - exists d. rewrite !Z.mul_0_l, !Z.add_0_r. reflexivity.
  - intros x st _ (d1 & ->). apply He.
  - intros x st st' _ (d1 & ->) E. apply Hp in E as (d2 & -> & _). exists d2. f_equal; ring.
Qed.
Lemma line_post nf d a b st : 0 <= nf -> for_ nf (fun _ => eo) (mk d a b) = Some st -> exists d', st = mk d' (a + nf * step) (b + nf * nq) /\ (P d -> P d').
Proof.
  intros Hn. apply (for_post (fun x st => exists d', st = mk d' (a + x * step) (b + x * nq) /\ (P d -> P d'))); auto.
  - exists d. rewrite !Z.mul_0_l, !Z.add_0_r. auto.
  - intros x t t' _ (d1 & -> & H1) E. apply Hp in E as (d2 & -> & H2). exists d2. split; [f_equal; ring|auto].
Qed.
End Line.

(** lines that advance the contiguous index by [L] each *)
Section Rows.
Variables (f f' : Z -> list A * Z -> option (list A * Z)) (ok : Z -> Z -> bool) (L n : Z).
Hypothesis Hf : forall i d c, 0 <= i < n -> P d -> f' i (d, c) = if ok i c then f i (d, c) else None.
Hypothesis Hs : forall i d c st, 0 <= i < n -> f i (d, c) = Some st -> exists d', st = (d', c + L) /\ (P d -> P d').
Lemma rows_guard d c : P d -> for_ n f' (d, c) = if forallb (fun i => ok i (c + i * L)) (zrange n) then for_ n f (d, c) else None.
Proof.
  intros Hd. apply (for_guard (fun i st => exists d, st = (d, c + i * L) /\ P d)).
  - exists d. rewrite Z.mul_0_l, Z.add_0_r. auto.
  - intros i st Hi (d1 & -> & H1). apply Hf; assumption.
  - intros i st st' Hi (d1 & -> & H1) E. apply Hs in E as (d2 & -> & H2); [|assumption]. exists d2. split; [f_equal; ring|auto].
Qed.
Lemma rows_post d c st : 0 <= n -> for_ n f (d, c) = Some st -> exists d', st = (d', c + n * L) /\ (P d -> P d').
Proof.
  intros Hn. apply (for_post (fun i st => exists d', st = (d', c + i * L) /\ (P d -> P d'))); auto.
  - exists d. rewrite Z.mul_0_l, Z.add_0_r. auto.
  - intros i t t' Hi (d1 & -> & H1) E. apply Hs in E as (d2 & -> & H2); [|assumption]. exists d2. split; [f_equal; ring|auto].
Qed.
End Rows.
End Lines.


Lemma forallb_ext' {B} (f g : B -> bool) l : (forall x, In x l -> f x = g x) -> forallb f l = forallb g l.
Proof. induction l as [|a l IH]; intros H; cbn; [reflexivity|]. rewrite H by (left; auto). f_equal. apply IH. intros; apply H; right; assumption. Qed.
Lemma forallb_last (f : Z -> bool) (r : bool) n : 1 <= n -> (forall x, 0 <= x < n -> r = true -> f x = true) -> f (n - 1) = r -> forallb f (zrange n) = r.
Proof.
  intros Hn H1 H2. destruct r.
  - apply forallb_forall. intros x Hx. apply In_zrange in Hx. apply H1; auto.
  - apply not_true_is_false. intros H. rewrite forallb_forall in H. rewrite H in H2; [discriminate|]. apply In_zrange. lia.
Qed.

Section Nest.
Context {A : Type}.
Variable P : list A -> Prop.

(** two loops around a line *)
Lemma nest_guard (ns nm L : Z) outer outer' (p : Z -> bool) (q : Z -> Z -> Z -> bool) d c0 : 0 <= nm ->
  (forall s, exists body body',
    (forall d c, outer s (d, c) = for_ nm body (d, c)) /\
    (forall d c, outer' s (d, c) = if p s then for_ nm body' (d, c) else None) /\
    (forall m d c, P d -> body' m (d, c) = if q s m c then body m (d, c) else None) /\
    (forall m d c st, body m (d, c) = Some st -> exists d', st = (d' : list A, c + L) /\ (P d -> P d'))) ->
  P d ->
  ('(r, _) <- for_ ns outer' (d, c0); Some r) =
  if forallb (fun s => p s && forallb (fun m => q s m (c0 + s * (nm * L) + m * L)) (zrange nm)) (zrange ns)
  then ('(r, _) <- for_ ns outer (d, c0); Some r) else None.
Proof.
  intros Hm H Hd.
  rewrite (rows_guard P outer outer' (fun s c => p s && forallb (fun m => q s m (c + m * L)) (zrange nm)) (nm * L)).
  - apply if_bind.
  - intros s d1 c _ H1. destruct (H s) as (body & body' & E1 & E2 & E3 & E4). rewrite E2, E1, <- if_and.
    destruct (p s); [|reflexivity]. apply (rows_guard P body body' (q s) L nm); auto. intros m d2 c2 st Hm2 E; apply (E4 m d2 c2 st E).
  - intros s d1 c st _ E. destruct (H s) as (body & body' & E1 & E2 & E3 & E4). rewrite E1 in E.
    apply (rows_post P body L nm) in E; auto. intros m d2 c2 st2 Hm2 E5; apply (E4 m d2 c2 st2 E5).
  - assumption.
Qed.

End Nest.

Section Routines.
Context {A : Type}.

(** array versions *)
Lemma arr_guard {St} (mk : list A -> Z -> Z -> St) (ex : St -> option (list A * Z)) (eo eo' : St -> option St) (k3 : Z -> Z -> bool)
    (start : Z -> Z -> Z) (step nq ns nm nf : Z) outer outer' (p : Z -> bool) (q : Z -> Z -> bool) d c0 :
  0 <= nm -> 0 <= nf ->
  (forall d a b, ex (mk d a b) = Some (d, b)) ->
  (forall d a b, eo' (mk d a b) = if k3 a b then eo (mk d a b) else None) ->
  (forall d a b st, eo (mk d a b) = Some st -> exists d', st = mk d' (a + step) (b + nq)) ->
  (forall s, exists body body',
    (forall d c, outer s (d, c) = for_ nm body (d, c)) /\
    (forall d c, outer' s (d, c) = if p s then for_ nm body' (d, c) else None) /\
    (forall m d c, body m (d, c) = bind (for_ nf (fun _ => eo) (mk d (start s m) c)) ex) /\
    (forall m d c, body' m (d, c) = if q s m then bind (for_ nf (fun _ => eo') (mk d (start s m) c)) ex else None)) ->
  ('(r, _) <- for_ ns outer' (d, c0); Some r) =
  if forallb (fun s => p s && forallb (fun m => q s m && forallb (fun x => k3 (start s m + x * step) (c0 + s * (nm * (nf * nq)) + m * (nf * nq) + x * nq)) (zrange nf)) (zrange nm)) (zrange ns)
  then ('(r, _) <- for_ ns outer (d, c0); Some r) else None.
Proof.
  intros Hm Hf Hex He Hp H.
  assert (Hp' : forall d a b st, eo (mk d a b) = Some st -> exists d', st = mk d' (a + step) (b + nq) /\ (True -> True))
    by (intros d1 a b st E; destruct (Hp d1 a b st E) as (d' & E'); exists d'; auto).
  apply (nest_guard (fun _ => True) ns nm (nf * nq) outer outer' p (fun s m c => q s m && forallb (fun x => k3 (start s m + x * step) (c + x * nq)) (zrange nf)) d c0); auto.
  intros s. destruct (H s) as (body & body' & E1 & E2 & E3 & E4). exists body, body'. repeat apply conj; auto.
  - intros m d1 c _. rewrite E4, E3, <- if_and. destruct (q s m); [|reflexivity].
    rewrite (line_guard (fun _ => True) mk eo eo' k3 step nq He Hp' nf). apply if_bind.
  - intros m d1 c st E. rewrite E3 in E. apply bind_Some_inv in E as (t & E5 & E6).
    apply (line_post (fun _ => True) mk eo step nq Hp') in E5 as (d2 & -> & _); auto. rewrite Hex in E6. injection E6 as <-. exists d2. auto.
Qed.

(** pointer versions *)
Lemma ptr_guard (P : list A -> Prop) (eo : Z -> list A * Z -> option (list A * Z)) (start : Z -> Z -> Z) (d0 step len nq ns nm nf : Z) outer outer' (p : Z -> bool) (q : Z -> Z -> bool) d c0 :
  0 <= nm -> 0 <= nf -> 0 < step -> len = nf * step ->
  (forall a d b st, eo a (d, b) = Some st -> exists d', st = (d', b + nq) /\ (P d -> P d')) ->
  (forall s, exists body body',
    (forall d c, outer s (d, c) = for_ nm body (d, c)) /\
    (forall d c, outer' s (d, c) = if p s then for_ nm body' (d, c) else None) /\
    (forall m d c, body m (d, c) = for_ptr (d0 + start s m) (d0 + start s m + len) step eo (d, c)) /\
    (forall m d c, P d -> body' m (d, c) = if q s m then for_ptr (d0 + start s m) (d0 + start s m + len) step eo (d, c) else None)) ->
  P d ->
  ('(r, _) <- for_ ns outer' (d, c0); Some r) =
  if forallb (fun s => p s && forallb (fun m => q s m) (zrange nm)) (zrange ns)
  then ('(r, _) <- for_ ns outer (d, c0); Some r) else None.
Proof.
  intros Hm Hf Hst -> Hp H Hd.
  apply (nest_guard P ns nm (nf * nq) outer outer' p (fun s m _ => q s m) d c0); auto.
  intros s. destruct (H s) as (body & body' & E1 & E2 & E3 & E4). exists body, body'. repeat apply conj; auto.
  - intros m d1 c H1. rewrite E4, E3 by assumption. reflexivity.
  - intros m d1 c st E. rewrite E3, for_ptr_for in E by assumption.
    apply (rows_post P _ nq nf) in E; auto. intros i d2 c2 st2 _. apply Hp.
Qed.

(** ** what the checks amount to *)

(** the index of an element of a line, [start s m + x * step], and its number in the message *)
Record in_range (ns nm nf nq step : Z) (start : Z -> Z -> Z) : Prop := {
  ir_ns : 1 <= ns; ir_nm : 1 <= nm; ir_nf : 1 <= nf; ir_nq : 1 <= nq; ir_step : 1 <= step <= INT_MAX;
  ir_lo : forall s m, 0 <= s < ns -> 0 <= m < nm -> 0 <= start s m;
  ir_mono : forall s m, 0 <= s < ns -> 0 <= m < nm -> start s m <= start (ns - 1) (nm - 1);
  ir_addr : start (ns - 1) (nm - 1) + (nf - 1) * step + nq <= INT_MAX;
  ir_slot : ns * nm * nf * nq <= INT_MAX }.

Lemma arr_value ns nm nf nq step start p q k3 : in_range ns nm nf nq step start ->
  (forall s, 0 <= s < ns -> p s = true) -> (forall s m, 0 <= s < ns -> 0 <= m < nm -> q s m = true) ->
  (forall a c, 0 <= a -> a + nq <= INT_MAX -> 0 <= c -> c + nq <= INT_MAX -> k3 a c = (a + step <=? INT_MAX)) ->
  forallb (fun s => p s && forallb (fun m => q s m && forallb (fun x => k3 (start s m + x * step) (0 + s * (nm * (nf * nq)) + m * (nf * nq) + x * nq)) (zrange nf)) (zrange nm)) (zrange ns)
  = (start (ns - 1) (nm - 1) + nf * step <=? INT_MAX).
Proof.
  intros I Hp Hq Hk. destruct I as [I1 I2 I3 I4 I5 Il Im Ia Is].
  assert (Hk' : forall s m x, 0 <= s < ns -> 0 <= m < nm -> 0 <= x < nf ->
    k3 (start s m + x * step) (0 + s * (nm * (nf * nq)) + m * (nf * nq) + x * nq) = (start s m + x * step + step <=? INT_MAX)).
  { intros s m x Hs Hm Hx. pose proof (Il s m Hs Hm). pose proof (Im s m Hs Hm). 
    assert (x * step <= (nf - 1) * step) by nia. assert (0 <= x * step) by nia.
    assert ((s * nm + m) * nf + x + 1 <= ns * nm * nf). { assert (s * nm + m + 1 <= ns * nm) by nia. nia. }
    assert (0 <= (s * nm + m) * nf + x) by nia.
    assert (E : 0 + s * (nm * (nf * nq)) + m * (nf * nq) + x * nq = ((s * nm + m) * nf + x) * nq) by ring.
    rewrite E. apply Hk; nia. }
  apply forallb_last; auto.
  - intros s Hs H. rewrite Hp by assumption. apply forallb_forall. intros m Hm. apply In_zrange in Hm. rewrite Hq by assumption.
    apply forallb_forall. intros x Hx. apply In_zrange in Hx. rewrite Hk' by assumption. pose proof (Im s m Hs Hm).
    assert ((x + 1) * step <= nf * step) by nia. lia.
  - rewrite Hp by lia. cbn [andb]. apply forallb_last; auto.
    + intros m Hm H. rewrite Hq by lia. apply forallb_forall. intros x Hx. apply In_zrange in Hx. rewrite Hk' by lia.
      pose proof (Im (ns - 1) m ltac:(lia) Hm). assert ((x + 1) * step <= nf * step) by nia. lia.
    + rewrite Hq by lia. cbn [andb]. apply forallb_last; auto.
      * intros x Hx H. rewrite Hk' by lia. assert ((x + 1) * step <= nf * step) by nia. lia.
      * rewrite Hk' by lia. f_equal. ring.
Qed.

Lemma ptr_value ns nm nf step start p q (strict : bool) len d0 : 1 <= ns -> 1 <= nm ->
  (forall s m, 0 <= s < ns -> 0 <= m < nm -> start s m <= start (ns - 1) (nm - 1)) ->
  (forall s, 0 <= s < ns -> p s = true) ->
  (forall s m, 0 <= s < ns -> 0 <= m < nm -> q s m = (nf * step <=? INT_MAX) && (negb strict || (d0 + start s m + nf * step <=? len))) ->
  forallb (fun s => p s && forallb (fun m => q s m) (zrange nm)) (zrange ns)
  = (nf * step <=? INT_MAX) && (negb strict || (d0 + start (ns - 1) (nm - 1) + nf * step <=? len)).
Proof.
  intros Hs Hm Im Hp Hq. apply forallb_last; auto.
  - intros s Hs' H. rewrite Hp by assumption. apply forallb_forall. intros m Hm'. apply In_zrange in Hm'. rewrite Hq by assumption.
    pose proof (Im s m Hs' Hm'). destruct strict; cbn [negb orb] in *; lia.
  - rewrite Hp by lia. cbn [andb]. apply forallb_last; auto.
    + intros m Hm' H. rewrite Hq by lia. pose proof (Im (ns - 1) m ltac:(lia) Hm'). destruct strict; cbn [negb orb] in *; lia.
    + apply Hq; lia.
Qed.
End Routines.

(** ** element checks *)
Lemma safeb_add a b : small a -> small b -> safeb (#a + #b)%I = (a + b <=? INT_MAX).
Proof.
  intros Ha Hb. apply eq_true_iff_eq. rewrite safeb_spec, safe_add, !safe_lit, Z.leb_le. cbn [den].
  unfold small, int_ok in *. rewrite IMX, IMN in *. intuition lia.
Qed.
Lemma safeb_incr a : small a -> safeb (incr a) = (a + 1 <=? INT_MAX).
Proof. intros H. apply safeb_add; [assumption|]. unfold small. rewrite IMX. lia. Qed.
Lemma safeb_mul a b : small a -> small b -> safeb (#a * #b)%I = (a * b <=? INT_MAX).
Proof.
  intros Ha Hb. apply eq_true_iff_eq. rewrite safeb_spec, safe_mul, !safe_lit, Z.leb_le. cbn [den].
  assert (0 <= a * b) by (unfold small in *; nia).
  unfold small, int_ok in *. rewrite IMX, IMN in *. intuition lia.
Qed.

Definition k1 (step a c : Z) : bool := safeb (incr c) && safeb (#a + #step)%I.
Definition k2 (step a c : Z) : bool := safeb (incr c) && (safeb (#a + #1)%I && (safeb (incr (c + 1)) && safeb (#a + #step)%I)).
Definition kn (nq step a c : Z) : bool := forallb (fun q => safeb (incr (a + q * 1)) && safeb (incr (c + q * 1))) (zrange nq) && safeb (#a + #step)%I.
Lemma k1_value step a c : 1 <= step <= INT_MAX -> 0 <= a -> a + 1 <= INT_MAX -> 0 <= c -> c + 1 <= INT_MAX -> k1 step a c = (a + step <=? INT_MAX).
Proof. intros. unfold k1. rewrite safeb_incr, safeb_add by (unfold small; lia). lia. Qed.
Lemma k2_value step a c : 1 <= step <= INT_MAX -> 0 <= a -> a + 2 <= INT_MAX -> 0 <= c -> c + 2 <= INT_MAX -> k2 step a c = (a + step <=? INT_MAX).
Proof. intros. unfold k2. rewrite !safeb_incr, !safeb_add by (unfold small; rewrite IMX in *; lia). lia. Qed.
Lemma kn_value nq step a c : 1 <= step <= INT_MAX -> 1 <= nq -> 0 <= a -> a + nq <= INT_MAX -> 0 <= c -> c + nq <= INT_MAX -> kn nq step a c = (a + step <=? INT_MAX).
Proof.
  intros. unfold kn. rewrite safeb_add by (unfold small; lia).
  replace (forallb _ _) with true; [reflexivity|]. symmetry. apply forallb_forall. intros q Hq. apply In_zrange in Hq.
  rewrite !safeb_incr by (unfold small; lia). lia.
Qed.

Section Elements.
Context {A : Type}.
Implicit Types (data buf : list A).

Lemma cp_len src (a b : Z) (dst r : list A) : cp src a b dst = Some r -> zlen r = zlen dst.
Proof. unfold cp. intros E. apply bind_Some_inv in E as (v & _ & E). apply (zset_len dst a v r E). Qed.

Lemma el_n32 buf d0 b0 nq (d : list A) a b :
  for_ nq (fun _ '(data, in_, out) =>
             data <- cp buf (d0 + in_) (b0 + out) data;
             in_ <- ev (incr in_); out <- ev (incr out);
             Some (data, in_, out)) (d, a, b) =
  if forallb (fun q => safeb (incr (a + q * 1)) && safeb (incr (b + q * 1))) (zrange nq)
  then for_ nq (fun _ '(data, in_, out) => data <- cp buf (d0 + in_) (b0 + out) data; Some (data, in_ + 1, out + 1)) (d, a, b) else None.
Proof.
  apply (line_guard (fun _ => True) (fun d a b => (d, a, b))
    (fun '(data, in_, out) => data <- cp buf (d0 + in_) (b0 + out) data; Some (data, in_ + 1, out + 1))
    (fun '(data, in_, out) => data <- cp buf (d0 + in_) (b0 + out) data; in_ <- ev (incr in_); out <- ev (incr out); Some (data, in_, out))
    (fun a b => safeb (incr a) && safeb (incr b)) 1 1).
  - intros d1 a1 b1. destruct (cp _ _ _ _); cbn [bind]; [|destruct (safeb (incr a1) && _); reflexivity].
    rewrite !bind_ev, if_and. reflexivity.
  - intros d1 a1 b1 st E. apply bind_Some_inv in E as (d2 & _ & E). injection E as <-. exists d2. auto.
Qed.
End Elements.

Lemma comb {B} (X32 X C : option B) (OK V : bool) : X32 = (if OK then X else None) -> X = C -> (forall r, C = Some r -> OK = V) -> X32 = if V then C else None.
Proof.
  intros -> -> H. destruct C as [r|]; [rewrite (H r eq_refl); reflexivity|]. destruct OK, V; reflexivity.
Qed.

(** ** the plans *)
Definition plan_ok (pl : pack_plan_3d) : Prop :=
  Forall (fun z => 1 <= z <= INT_MAX) [nfast pl; nmid pl; nslow pl; nstride_line pl; nstride_plane pl; nqty pl].
Definition plan_ok2 (pl : pack_plan_2d) : Prop :=
  Forall (fun z => 1 <= z <= INT_MAX) [nfast2 pl; nslow2 pl; nstride2 pl; nqty2 pl].
Ltac plan H := unfold plan_ok, plan_ok2 in H; repeat match type of H with Forall _ (_ :: _) => let h := fresh "B" in inversion_clear H as [|? ? h H'] ; rename H' into H end.

Lemma In_flat3 {B} ns nm nf (f : Z -> Z -> Z -> list B) s m x v : 0 <= s < ns -> 0 <= m < nm -> 0 <= x < nf -> In v (f s m x) -> In v (flat3 ns nm nf f).
Proof.
  intros. unfold flat3. apply in_flat_map. exists s. split; [apply In_zrange; assumption|]. apply in_flat_map. exists m. split; [apply In_zrange; assumption|].
  apply in_flat_map. exists x. split; [apply In_zrange; assumption|assumption].
Qed.

Section Array3.
Context {A : Type}.
Implicit Types (data buf : list A) (pl : pack_plan_3d).

(** one past the last line of a permuting routine: the value of the index after the last [+= stride] *)
Definition past1 pl : Z := addr1 pl (nslow pl - 1) (nmid pl - 1) (nfast pl) 0.
Definition past2 pl : Z := addr2 pl (nslow pl - 1) (nmid pl - 1) (nfast pl) 0.

Definition dims_ok pl : Prop := 1 <= nfast pl /\ 1 <= nmid pl /\ 1 <= nslow pl.
Lemma dims_of pl : plan_ok pl -> dims_ok pl.
Proof. intros H. plan H. unfold dims_ok. lia. Qed.

(** the bounds an unpermuted or permuted copy implies *)
Lemma unpackP_bounds addr nq pl d0 b0 buf data r : dims_ok pl -> 1 <= nq -> 0 <= d0 -> 0 <= b0 -> zlen data <= INT_MAX -> zlen buf <= INT_MAX ->
  copies buf (pairs_unpackP addr nq pl d0 b0) data = Some r ->
  addr pl (nslow pl - 1) (nmid pl - 1) (nfast pl - 1) (nq - 1) + 1 <= INT_MAX /\ nslow pl * nmid pl * nfast pl * nq <= INT_MAX.
Proof.
  intros Hp Hq Hd Hb Ld Lb E. destruct Hp as (Hp1 & Hp2 & Hp3).
  destruct (copies_inv _ _ _ _ E (d0 + addr pl (nslow pl - 1) (nmid pl - 1) (nfast pl - 1) (nq - 1))
    (b0 + (slot3 (nmid pl) (nfast pl) (nslow pl - 1) (nmid pl - 1) (nfast pl - 1) * nq + (nq - 1)))) as (H1 & H2).
  { apply (In_flat3 _ _ _ _ (nslow pl - 1) (nmid pl - 1) (nfast pl - 1)); try lia. apply in_map_iff. exists (nq - 1). split; [reflexivity|]. apply In_zrange. lia. }
  split; [lia|]. unfold slot3 in H2.
  replace (nslow pl * nmid pl * nfast pl * nq) with ((((nslow pl - 1) * nmid pl + (nmid pl - 1)) * nfast pl + (nfast pl - 1)) * nq + (nq - 1) + 1) by ring. lia.
Qed.
Lemma pack_bounds pl d0 b0 data buf r : dims_ok pl -> 0 <= d0 -> 0 <= b0 -> zlen data <= INT_MAX -> zlen buf <= INT_MAX ->
  copies data (pairs_pack pl d0 b0) buf = Some r ->
  d0 + addr0 pl (nslow pl - 1) (nmid pl - 1) (nfast pl - 1) + 1 <= zlen data /\ b0 + nslow pl * nmid pl * nfast pl <= zlen buf.
Proof.
  intros Hp Hd Hb Ld Lb E. destruct Hp as (Hp1 & Hp2 & Hp3).
  destruct (copies_inv _ _ _ _ E (b0 + slot3 (nmid pl) (nfast pl) (nslow pl - 1) (nmid pl - 1) (nfast pl - 1)) (d0 + addr0 pl (nslow pl - 1) (nmid pl - 1) (nfast pl - 1))) as (H1 & H2).
  { apply (In_flat3 _ _ _ _ (nslow pl - 1) (nmid pl - 1) (nfast pl - 1)); try lia. left. reflexivity. }
  split; [lia|]. unfold slot3 in H1.
  replace (nslow pl * nmid pl * nfast pl) with (((nslow pl - 1) * nmid pl + (nmid pl - 1)) * nfast pl + (nfast pl - 1) + 1) by ring. lia.
Qed.
Lemma unpack_bounds pl d0 b0 data buf r : dims_ok pl -> 0 <= d0 -> 0 <= b0 -> zlen data <= INT_MAX -> zlen buf <= INT_MAX ->
  copies buf (pairs_unpack pl d0 b0) data = Some r ->
  d0 + addr0 pl (nslow pl - 1) (nmid pl - 1) (nfast pl - 1) + 1 <= zlen data /\ b0 + nslow pl * nmid pl * nfast pl <= zlen buf.
Proof.
  intros Hp Hd Hb Ld Lb E. destruct Hp as (Hp1 & Hp2 & Hp3).
  destruct (copies_inv _ _ _ _ E (d0 + addr0 pl (nslow pl - 1) (nmid pl - 1) (nfast pl - 1)) (b0 + slot3 (nmid pl) (nfast pl) (nslow pl - 1) (nmid pl - 1) (nfast pl - 1))) as (H1 & H2).
  { apply (In_flat3 _ _ _ _ (nslow pl - 1) (nmid pl - 1) (nfast pl - 1)); try lia. left. reflexivity. }
  split; [lia|]. unfold slot3 in H2.
  replace (nslow pl * nmid pl * nfast pl) with (((nslow pl - 1) * nmid pl + (nmid pl - 1)) * nfast pl + (nfast pl - 1) + 1) by ring. lia.
Qed.

Lemma addr1_range nq pl : plan_ok pl -> nqty pl = nq -> addr1 pl (nslow pl - 1) (nmid pl - 1) (nfast pl - 1) (nq - 1) + 1 <= INT_MAX ->
  nslow pl * nmid pl * nfast pl * nq <= INT_MAX -> in_range (nslow pl) (nmid pl) (nfast pl) nq (nstride_plane pl) (fun s m => s * nstride_line pl + nq * m).
Proof. intros Hp Hq Ha Hs. plan Hp. unfold addr1 in Ha. rewrite Hq in Ha. subst nq. constructor; try lia; nia. Qed.
Lemma addr2_range nq pl : plan_ok pl -> nqty pl = nq -> addr2 pl (nslow pl - 1) (nmid pl - 1) (nfast pl - 1) (nq - 1) + 1 <= INT_MAX ->
  nslow pl * nmid pl * nfast pl * nq <= INT_MAX -> in_range (nslow pl) (nmid pl) (nfast pl) nq (nstride_line pl) (fun s m => nq * s + m * nstride_plane pl).
Proof. intros Hp Hq Ha Hs. plan Hp. unfold addr2 in Ha. rewrite Hq in Ha. subst nq. constructor; try lia; nia. Qed.
Lemma addr0_range pl : plan_ok pl -> addr0 pl (nslow pl - 1) (nmid pl - 1) (nfast pl - 1) + 1 <= INT_MAX ->
  nslow pl * nmid pl * nfast pl <= INT_MAX -> in_range (nslow pl) (nmid pl) (nfast pl) 1 1 (fun s m => s * nstride_plane pl + m * nstride_line pl).
Proof. intros Hp Ha Hs. plan Hp. unfold addr0 in Ha. constructor; try (rewrite IMX in *; lia); nia. Qed.

(** checks of the starts of lines: every part is at most the last start *)
Lemma start1_ok nq pl s m : plan_ok pl -> nqty pl = nq -> addr1 pl (nslow pl - 1) (nmid pl - 1) (nfast pl - 1) (nq - 1) + 1 <= INT_MAX ->
  0 <= s < nslow pl -> 0 <= m < nmid pl -> small s /\ small m /\ small (s * nstride_line pl) /\ small (nq * m) /\ small (s * nstride_line pl + nq * m).
Proof.
  intros Hp Hq Ha Hs Hm. plan Hp. unfold addr1 in Ha. rewrite Hq in *.
  assert (0 <= s * nstride_line pl <= (nslow pl - 1) * nstride_line pl) by nia. assert (0 <= nq * m <= nq * (nmid pl - 1)) by nia.
  assert (0 <= (nfast pl - 1) * nstride_plane pl) by nia. unfold small. lia.
Qed.
Lemma start2_ok nq pl s m : plan_ok pl -> nqty pl = nq -> addr2 pl (nslow pl - 1) (nmid pl - 1) (nfast pl - 1) (nq - 1) + 1 <= INT_MAX ->
  0 <= s < nslow pl -> 0 <= m < nmid pl -> small s /\ small m /\ small (nq * s) /\ small (m * nstride_plane pl) /\ small (nq * s + m * nstride_plane pl).
Proof.
  intros Hp Hq Ha Hs Hm. plan Hp. unfold addr2 in Ha. rewrite Hq in *.
  assert (0 <= m * nstride_plane pl <= (nmid pl - 1) * nstride_plane pl) by nia. assert (0 <= nq * s <= nq * (nslow pl - 1)) by nia.
  assert (0 <= (nfast pl - 1) * nstride_line pl) by nia. unfold small. lia.
Qed.
Lemma start0_ok pl s m : plan_ok pl -> addr0 pl (nslow pl - 1) (nmid pl - 1) (nfast pl - 1) + 1 <= INT_MAX ->
  0 <= s < nslow pl -> 0 <= m < nmid pl -> small s /\ small m /\ small (s * nstride_plane pl) /\ small (m * nstride_line pl) /\ small (s * nstride_plane pl + m * nstride_line pl).
Proof.
  intros Hp Ha Hs Hm. plan Hp. unfold addr0 in Ha.
  assert (0 <= m * nstride_line pl <= (nmid pl - 1) * nstride_line pl) by nia. assert (0 <= s * nstride_plane pl <= (nslow pl - 1) * nstride_plane pl) by nia.
  unfold small. lia.
Qed.

Ltac el1 := let d := fresh "d" in let a := fresh "a" in let b := fresh "b" in intros d a b;
  cbv beta iota; destruct (cp _ _ _ _); cbn [bind]; [rewrite !bind_ev, ?if_and; reflexivity|match goal with |- _ = if ?x then _ else _ => destruct x; reflexivity end].
Ltac ep1 := let E := fresh in intros ? ? ? ? E; cbv beta iota in E; apply bind_Some_inv in E as (? & _ & E); injection E as <-; eexists; reflexivity.
Ltac shape := let s := fresh "s" in intros s; do 2 eexists; repeat apply conj; [intros; reflexivity|intros; cbv beta iota; rewrite ?bind_ev; reflexivity|intros; reflexivity|intros; cbv beta iota; rewrite bind_ev; reflexivity].

Lemma in_range_ext ns nm nf nq step f g : (forall s m, f s m = g s m) -> in_range ns nm nf nq step f -> in_range ns nm nf nq step g.
Proof. intros E [I1 I2 I3 I4 I5 I6 I7 I8 I9]. constructor; auto; intros; rewrite <- ?E; auto. Qed.


Ltac el2 := let d := fresh "d" in let a := fresh "a" in let b := fresh "b" in intros d a b;
  cbv beta iota; destruct (cp _ _ _ _); cbn [bind];
  [rewrite !bind_ev; unfold k2; destruct (safeb (incr b)); [|reflexivity]; destruct (safeb (#a + #1)%I); [|reflexivity];
   cbn [andb]; destruct (cp _ _ _ _); cbn [bind]; [rewrite !bind_ev, ?if_and; reflexivity|destruct (safeb _ && safeb _); reflexivity]
  |match goal with |- _ = if ?x then _ else _ => destruct x; reflexivity end].
Ltac ep2 := let E := fresh in intros ? ? ? ? E; cbv beta iota in E; apply bind_Some_inv in E as (? & _ & E); apply bind_Some_inv in E as (? & _ & E); injection E as <-; eexists; peq.
Ltac eln := let d := fresh "d" in let a := fresh "a" in let b := fresh "b" in intros d a b;
  cbv beta iota; rewrite el_n32, if_bind; unfold kn; rewrite <- if_and;
  match goal with |- (if ?x then _ else _) = _ => destruct x; [|reflexivity] end;
  destruct (for_ _ _ _) as [((? & ?) & ?)|]; cbn [bind]; [rewrite bind_ev; reflexivity|match goal with |- _ = if ?x then _ else _ => destruct x; reflexivity end].
Ltac epn := let E := fresh in intros ? ? ? ? E; cbv beta iota in E; rewrite copies_qn in E by lia; destruct (copies _ _ _); cbn in E; [|discriminate]; injection E as <-; eexists; peq.
Ltac okb := cbv beta; apply safeb_spec; sf; spl; apply small_ok; cbn [den]; rewrite ?Z.mul_1_l in *; first [assumption | unfold small in *; rewrite ?IMX in *; lia].

Lemma unpack_3d_permute1_1_array32_ok data d0 buf b0 pl : plan_ok pl -> nqty pl = 1 -> 0 <= d0 -> 0 <= b0 -> zlen data <= INT_MAX -> zlen buf <= INT_MAX ->
  unpack_3d_permute1_1_array32 buf b0 data d0 pl = if past1 pl <=? INT_MAX then copies buf (pairs_unpackP addr1 (nqty pl) pl d0 b0) data else None.
Proof.
  intros Hp Hq Hd Hb Ld Lb. pose proof Hp as Hp'. plan Hp'.
  eapply comb; [|apply (unpack_3d_permute1_1_array_ok data d0 buf b0 pl); [unfold wfp; lia|assumption]|].
  - unfold unpack_3d_permute1_1_array32, unpack_3d_permute1_1_array.
    eapply arr_guard with (nm := nmid pl) (nf := nfast pl) (mk := fun d a b => (d, a, b)) (ex := fun '(d, _, c) => Some (d, c)) (k3 := k1 (nstride_plane pl))
      (start := fun s m => s * nstride_line pl + m) (step := nstride_plane pl) (nq := 1)
      (p := fun s => safeb (#s * #(nstride_line pl))%I) (q := fun s m => safeb (#(s * nstride_line pl) + #m)%I);
      [lia|lia|reflexivity| | |shape]; [el1|ep1].
  - intros r E. destruct (unpackP_bounds _ (nqty pl) _ _ _ _ _ _ (dims_of pl Hp) ltac:(lia) Hd Hb Ld Lb E) as (Ha & Hs). rewrite Hq in Ha, Hs.
    rewrite (arr_value _ _ _ (1) (nstride_plane pl)).
    + unfold past1, addr1. rewrite ?Hq. f_equal. ring.
    + eapply in_range_ext; [|apply (addr1_range (1) pl Hp Hq Ha Hs)]. intros; cbv beta; ring.
    + intros s Hs'. destruct (start1_ok (1) pl s 0 Hp Hq Ha Hs' ltac:(lia)) as (S1 & S2 & S3 & S4 & S5). okb.
    + intros s m Hs' Hm'. destruct (start1_ok (1) pl s m Hp Hq Ha Hs' Hm') as (S1 & S2 & S3 & S4 & S5). okb.
    + intros. apply k1_value; lia.
Qed.

Lemma unpack_3d_permute1_2_array32_ok data d0 buf b0 pl : plan_ok pl -> nqty pl = 2 -> 0 <= d0 -> 0 <= b0 -> zlen data <= INT_MAX -> zlen buf <= INT_MAX ->
  unpack_3d_permute1_2_array32 buf b0 data d0 pl = if past1 pl <=? INT_MAX then copies buf (pairs_unpackP addr1 (nqty pl) pl d0 b0) data else None.
Proof.
  intros Hp Hq Hd Hb Ld Lb. pose proof Hp as Hp'. plan Hp'.
  eapply comb; [|apply (unpack_3d_permute1_2_array_ok data d0 buf b0 pl); [unfold wfp; lia|assumption]|].
  - unfold unpack_3d_permute1_2_array32, unpack_3d_permute1_2_array.
    eapply arr_guard with (nm := nmid pl) (nf := nfast pl) (mk := fun d a b => (d, a, b)) (ex := fun '(d, _, c) => Some (d, c)) (k3 := k2 (nstride_plane pl))
      (start := fun s m => s * nstride_line pl + 2 * m) (step := nstride_plane pl) (nq := 2)
      (p := fun s => safeb (#s * #(nstride_line pl))%I) (q := fun s m => safeb (#(s * nstride_line pl) + #2 * #m)%I);
      [lia|lia|reflexivity| | |shape]; [el2|ep2].
  - intros r E. destruct (unpackP_bounds _ (nqty pl) _ _ _ _ _ _ (dims_of pl Hp) ltac:(lia) Hd Hb Ld Lb E) as (Ha & Hs). rewrite Hq in Ha, Hs.
    rewrite (arr_value _ _ _ (2) (nstride_plane pl)).
    + unfold past1, addr1. rewrite ?Hq. f_equal. ring.
    + eapply in_range_ext; [|apply (addr1_range (2) pl Hp Hq Ha Hs)]. intros; cbv beta; ring.
    + intros s Hs'. destruct (start1_ok (2) pl s 0 Hp Hq Ha Hs' ltac:(lia)) as (S1 & S2 & S3 & S4 & S5). okb.
    + intros s m Hs' Hm'. destruct (start1_ok (2) pl s m Hp Hq Ha Hs' Hm') as (S1 & S2 & S3 & S4 & S5). okb.
    + intros. apply k2_value; lia.
Qed.

Lemma unpack_3d_permute1_n_array32_ok data d0 buf b0 pl : plan_ok pl -> 0 <= d0 -> 0 <= b0 -> zlen data <= INT_MAX -> zlen buf <= INT_MAX ->
  unpack_3d_permute1_n_array32 buf b0 data d0 pl = if past1 pl <=? INT_MAX then copies buf (pairs_unpackP addr1 (nqty pl) pl d0 b0) data else None.
Proof.
  intros Hp Hd Hb Ld Lb. pose proof Hp as Hp'. plan Hp'.
  eapply comb; [|apply (unpack_3d_permute1_n_array_ok data d0 buf b0 pl); [unfold wfp; lia|lia]|].
  - unfold unpack_3d_permute1_n_array32, unpack_3d_permute1_n_array.
    eapply arr_guard with (nm := nmid pl) (nf := nfast pl) (mk := fun d a b => (d, a, b)) (ex := fun '(d, _, c) => Some (d, c)) (k3 := kn (nqty pl) (nstride_plane pl))
      (start := fun s m => s * nstride_line pl + nqty pl * m) (step := nstride_plane pl) (nq := nqty pl)
      (p := fun s => safeb (#s * #(nstride_line pl))%I) (q := fun s m => safeb (#(s * nstride_line pl) + #(nqty pl) * #m)%I);
      [lia|lia|reflexivity| | |shape]; [eln|epn].
  - intros r E. destruct (unpackP_bounds _ (nqty pl) _ _ _ _ _ _ (dims_of pl Hp) ltac:(lia) Hd Hb Ld Lb E) as (Ha & Hs). set (Hq := eq_refl (nqty pl)).
    rewrite (arr_value _ _ _ (nqty pl) (nstride_plane pl)).
    + unfold past1, addr1.  f_equal. ring.
    + eapply in_range_ext; [|apply (addr1_range (nqty pl) pl Hp Hq Ha Hs)]. intros; cbv beta; ring.
    + intros s Hs'. destruct (start1_ok (nqty pl) pl s 0 Hp Hq Ha Hs' ltac:(lia)) as (S1 & S2 & S3 & S4 & S5). okb.
    + intros s m Hs' Hm'. destruct (start1_ok (nqty pl) pl s m Hp Hq Ha Hs' Hm') as (S1 & S2 & S3 & S4 & S5). okb.
    + intros. apply kn_value; lia.
Qed.

Lemma unpack_3d_permute2_1_array32_ok data d0 buf b0 pl : plan_ok pl -> nqty pl = 1 -> 0 <= d0 -> 0 <= b0 -> zlen data <= INT_MAX -> zlen buf <= INT_MAX ->
  unpack_3d_permute2_1_array32 buf b0 data d0 pl = if past2 pl <=? INT_MAX then copies buf (pairs_unpackP addr2 (nqty pl) pl d0 b0) data else None.
Proof.
  intros Hp Hq Hd Hb Ld Lb. pose proof Hp as Hp'. plan Hp'.
  eapply comb; [|apply (unpack_3d_permute2_1_array_ok data d0 buf b0 pl); [unfold wfp; lia|assumption]|].
  - unfold unpack_3d_permute2_1_array32, unpack_3d_permute2_1_array.
    eapply arr_guard with (nm := nmid pl) (nf := nfast pl) (mk := fun d a b => (d, a, b)) (ex := fun '(d, _, c) => Some (d, c)) (k3 := k1 (nstride_line pl))
      (start := fun s m => s + m * nstride_plane pl) (step := nstride_line pl) (nq := 1)
      (p := fun s => true) (q := fun s m => safeb (#s + #m * #(nstride_plane pl))%I);
      [lia|lia|reflexivity| | |shape]; [el1|ep1].
  - intros r E. destruct (unpackP_bounds _ (nqty pl) _ _ _ _ _ _ (dims_of pl Hp) ltac:(lia) Hd Hb Ld Lb E) as (Ha & Hs). rewrite Hq in Ha, Hs.
    rewrite (arr_value _ _ _ (1) (nstride_line pl)).
    + unfold past2, addr2. rewrite ?Hq. f_equal. ring.
    + eapply in_range_ext; [|apply (addr2_range (1) pl Hp Hq Ha Hs)]. intros; cbv beta; ring.
    + reflexivity.
    + intros s m Hs' Hm'. destruct (start2_ok (1) pl s m Hp Hq Ha Hs' Hm') as (S1 & S2 & S3 & S4 & S5). okb.
    + intros. apply k1_value; lia.
Qed.

Lemma unpack_3d_permute2_2_array32_ok data d0 buf b0 pl : plan_ok pl -> nqty pl = 2 -> 0 <= d0 -> 0 <= b0 -> zlen data <= INT_MAX -> zlen buf <= INT_MAX ->
  unpack_3d_permute2_2_array32 buf b0 data d0 pl = if past2 pl <=? INT_MAX then copies buf (pairs_unpackP addr2 (nqty pl) pl d0 b0) data else None.
Proof.
  intros Hp Hq Hd Hb Ld Lb. pose proof Hp as Hp'. plan Hp'.
  eapply comb; [|apply (unpack_3d_permute2_2_array_ok data d0 buf b0 pl); [unfold wfp; lia|assumption]|].
  - unfold unpack_3d_permute2_2_array32, unpack_3d_permute2_2_array.
    eapply arr_guard with (nm := nmid pl) (nf := nfast pl) (mk := fun d a b => (d, a, b)) (ex := fun '(d, _, c) => Some (d, c)) (k3 := k2 (nstride_line pl))
      (start := fun s m => 2 * s + m * nstride_plane pl) (step := nstride_line pl) (nq := 2)
      (p := fun s => true) (q := fun s m => safeb (#2 * #s + #m * #(nstride_plane pl))%I);
      [lia|lia|reflexivity| | |shape]; [el2|ep2].
  - intros r E. destruct (unpackP_bounds _ (nqty pl) _ _ _ _ _ _ (dims_of pl Hp) ltac:(lia) Hd Hb Ld Lb E) as (Ha & Hs). rewrite Hq in Ha, Hs.
    rewrite (arr_value _ _ _ (2) (nstride_line pl)).
    + unfold past2, addr2. rewrite ?Hq. f_equal. ring.
    + eapply in_range_ext; [|apply (addr2_range (2) pl Hp Hq Ha Hs)]. intros; cbv beta; ring.
    + reflexivity.
    + intros s m Hs' Hm'. destruct (start2_ok (2) pl s m Hp Hq Ha Hs' Hm') as (S1 & S2 & S3 & S4 & S5). okb.
    + intros. apply k2_value; lia.
Qed.

Lemma unpack_3d_permute2_n_array32_ok data d0 buf b0 pl : plan_ok pl -> 0 <= d0 -> 0 <= b0 -> zlen data <= INT_MAX -> zlen buf <= INT_MAX ->
  unpack_3d_permute2_n_array32 buf b0 data d0 pl = if past2 pl <=? INT_MAX then copies buf (pairs_unpackP addr2 (nqty pl) pl d0 b0) data else None.
Proof.
  intros Hp Hd Hb Ld Lb. pose proof Hp as Hp'. plan Hp'.
  eapply comb; [|apply (unpack_3d_permute2_n_array_ok data d0 buf b0 pl); [unfold wfp; lia|lia]|].
  - unfold unpack_3d_permute2_n_array32, unpack_3d_permute2_n_array.
    eapply arr_guard with (nm := nmid pl) (nf := nfast pl) (mk := fun d a b => (d, a, b)) (ex := fun '(d, _, c) => Some (d, c)) (k3 := kn (nqty pl) (nstride_line pl))
      (start := fun s m => nqty pl * s + m * nstride_plane pl) (step := nstride_line pl) (nq := nqty pl)
      (p := fun s => true) (q := fun s m => safeb (#(nqty pl) * #s + #m * #(nstride_plane pl))%I);
      [lia|lia|reflexivity| | |shape]; [eln|epn].
  - intros r E. destruct (unpackP_bounds _ (nqty pl) _ _ _ _ _ _ (dims_of pl Hp) ltac:(lia) Hd Hb Ld Lb E) as (Ha & Hs). set (Hq := eq_refl (nqty pl)).
    rewrite (arr_value _ _ _ (nqty pl) (nstride_line pl)).
    + unfold past2, addr2.  f_equal. ring.
    + eapply in_range_ext; [|apply (addr2_range (nqty pl) pl Hp Hq Ha Hs)]. intros; cbv beta; ring.
    + reflexivity.
    + intros s m Hs' Hm'. destruct (start2_ok (nqty pl) pl s m Hp Hq Ha Hs' Hm') as (S1 & S2 & S3 & S4 & S5). okb.
    + intros. apply kn_value; lia.
Qed.

Lemma pack_3d_array32_ok data d0 buf b0 pl : plan_ok pl -> 0 <= d0 -> 0 <= b0 -> zlen data <= INT_MAX -> zlen buf <= INT_MAX ->
  pack_3d_array32 data d0 buf b0 pl = copies data (pairs_pack pl d0 b0) buf.
Proof.
  intros Hp Hd Hb Ld Lb. pose proof Hp as Hp'. plan Hp'.
  eapply (comb _ _ _ _ true); [|apply (pack_3d_array_ok data d0 buf b0 pl); unfold wfp; lia|].
  - unfold pack_3d_array32, pack_3d_array.
    eapply arr_guard with (nm := nmid pl) (nf := nfast pl) (mk := fun d a b => (d, b, a)) (ex := fun '(d, c, _) => Some (d, c)) (k3 := k1 1)
      (start := fun s m => s * nstride_plane pl + m * nstride_line pl) (step := 1) (nq := 1)
      (p := fun s => safeb (#s * #(nstride_plane pl))%I) (q := fun s m => safeb (#(s * nstride_plane pl) + #m * #(nstride_line pl))%I);
      [lia|lia|reflexivity| | |shape]; [el1|ep1].
  - intros r E. destruct (pack_bounds _ _ _ _ _ _ (dims_of pl Hp) Hd Hb Ld Lb E) as (Ha & Hs).
    assert (Ha' : addr0 pl (nslow pl - 1) (nmid pl - 1) (nfast pl - 1) + 1 <= INT_MAX) by lia. assert (Hs0 : nslow pl * nmid pl * nfast pl <= INT_MAX) by lia.
    rewrite (arr_value _ _ _ 1 1).
    + unfold addr0 in Ha'. lia.
    + apply (addr0_range pl Hp Ha' Hs0).
    + intros s Hs'. destruct (start0_ok pl s 0 Hp Ha' Hs' ltac:(lia)) as (S1 & S2 & S3 & S4 & S5). okb.
    + intros s m Hs' Hm'. destruct (start0_ok pl s m Hp Ha' Hs' Hm') as (S1 & S2 & S3 & S4 & S5). okb.
    + intros. apply k1_value; rewrite ?IMX in *; lia.
Qed.

Lemma unpack_3d_array32_ok data d0 buf b0 pl : plan_ok pl -> 0 <= d0 -> 0 <= b0 -> zlen data <= INT_MAX -> zlen buf <= INT_MAX ->
  unpack_3d_array32 buf b0 data d0 pl = copies buf (pairs_unpack pl d0 b0) data.
Proof.
  intros Hp Hd Hb Ld Lb. pose proof Hp as Hp'. plan Hp'.
  eapply (comb _ _ _ _ true); [|apply (unpack_3d_array_ok data d0 buf b0 pl); unfold wfp; lia|].
  - unfold unpack_3d_array32, unpack_3d_array.
    eapply arr_guard with (nm := nmid pl) (nf := nfast pl) (mk := fun d a b => (d, a, b)) (ex := fun '(d, _, c) => Some (d, c)) (k3 := k1 1)
      (start := fun s m => s * nstride_plane pl + m * nstride_line pl) (step := 1) (nq := 1)
      (p := fun s => safeb (#s * #(nstride_plane pl))%I) (q := fun s m => safeb (#(s * nstride_plane pl) + #m * #(nstride_line pl))%I);
      [lia|lia|reflexivity| | |shape]; [el1|ep1].
  - intros r E. destruct (unpack_bounds _ _ _ _ _ _ (dims_of pl Hp) Hd Hb Ld Lb E) as (Ha & Hs).
    assert (Ha' : addr0 pl (nslow pl - 1) (nmid pl - 1) (nfast pl - 1) + 1 <= INT_MAX) by lia. assert (Hs0 : nslow pl * nmid pl * nfast pl <= INT_MAX) by lia.
    rewrite (arr_value _ _ _ 1 1).
    + unfold addr0 in Ha'. lia.
    + apply (addr0_range pl Hp Ha' Hs0).
    + intros s Hs'. destruct (start0_ok pl s 0 Hp Ha' Hs' ltac:(lia)) as (S1 & S2 & S3 & S4 & S5). okb.
    + intros s m Hs' Hm'. destruct (start0_ok pl s m Hp Ha' Hs' Hm') as (S1 & S2 & S3 & S4 & S5). okb.
    + intros. apply k1_value; rewrite ?IMX in *; lia.
Qed.

(** ** pointer versions *)
Lemma ptrb_value strict len p : 0 <= p -> ptrb strict len p = negb strict || (p <=? len).
Proof. intros. unfold ptrb. replace (0 <=? p) with true by lia. reflexivity. Qed.
Ltac pe1 := let E := fresh in intros ? ? ? ? E; cbv beta iota in E; apply bind_Some_inv in E as (? & ?C & E); injection E as <-; apply cp_len in C; eexists; split; [reflexivity|congruence].
Ltac pep := let E := fresh in intros ? ? ? ? E; cbv beta iota in E; apply bind_Some_inv in E as (? & ?C & E); injection E as <-; eexists; split; [reflexivity|auto].
Ltac pe2 := let E := fresh in intros ? ? ? ? E; cbv beta iota in E; apply bind_Some_inv in E as (? & ?C & E); apply bind_Some_inv in E as (? & ?D & E); injection E as <-; apply cp_len in C; apply cp_len in D; eexists; split; [peq|congruence].
Ltac pen := let E := fresh in let C := fresh in intros ? ? ? ? E; cbv beta iota in E; rewrite copies_qn0 in E by lia; destruct (copies _ _ _) eqn:C; cbn in E; [|discriminate]; injection E as <-; apply copies_len in C; eexists; split; [peq|congruence].
Ltac pshape := let s := fresh "s" in intros s; do 2 eexists; repeat apply conj; [intros; reflexivity|intros; cbv beta iota; rewrite ?bind_ev; reflexivity|intros; reflexivity
  |let H := fresh in intros ? ? ? H; cbv beta iota; rewrite ?H; repeat rewrite ?bind_ev, ?bind_ptr; rewrite ?if_and, <- ?andb_assoc; reflexivity].

Lemma unpack_3d_permute1_1_pointer32_ok strict data d0 buf b0 pl : plan_ok pl -> nqty pl = 1 -> 0 <= d0 -> 0 <= b0 -> zlen data <= INT_MAX -> zlen buf <= INT_MAX ->
  unpack_3d_permute1_1_pointer32 strict buf b0 data d0 pl =
  if (nfast pl * nstride_plane pl <=? INT_MAX) && (negb strict || (d0 + past1 pl <=? zlen data)) then copies buf (pairs_unpackP addr1 (nqty pl) pl d0 b0) data else None.
Proof.
  intros Hp Hq Hd Hb Ld Lb. pose proof Hp as Hp'. plan Hp'.
  eapply comb; [|apply (unpack_3d_permute1_1_pointer_ok data d0 buf b0 pl); [unfold wfp; lia|assumption|lia]|].
  - unfold unpack_3d_permute1_1_pointer32, unpack_3d_permute1_1_pointer.
    eapply ptr_guard with (P := fun d => zlen d = zlen data) (nm := nmid pl) (nf := nfast pl) (d0 := d0) (len := nfast pl * nstride_plane pl)
      (start := fun s m => s * nstride_line pl + m) (step := nstride_plane pl) (nq := 1)
      (p := fun s => safeb (#s * #(nstride_line pl))%I)
      (q := fun s m => safeb (#(s * nstride_line pl) + #m)%I && (ptrb strict (zlen data) (d0 + (s * nstride_line pl + m)) && (safeb (#(nfast pl) * #(nstride_plane pl))%I && ptrb strict (zlen data) (d0 + (s * nstride_line pl + m) + nfast pl * nstride_plane pl))));
      [lia|lia|lia|reflexivity| |pshape|reflexivity]; pe1.
  - intros r E. destruct (unpackP_bounds _ (nqty pl) _ _ _ _ _ _ (dims_of pl Hp) ltac:(lia) Hd Hb Ld Lb E) as (Ha & Hs). rewrite Hq in Ha, Hs.
    rewrite (ptr_value _ _ (nfast pl) (nstride_plane pl) (fun s m => s * nstride_line pl + m) _ _ strict (zlen data) d0).
    + do 2 f_equal. unfold past1, addr1. rewrite ?Hq. f_equal. ring.
    + lia.
    + lia.
    + intros s m Hs' Hm'. destruct (addr1_range (1) pl Hp Hq Ha Hs) as [_ _ _ _ _ _ I7 _ _]. pose proof (I7 s m Hs' Hm') as I. cbv beta in I. lia.
    + intros s Hs'. destruct (start1_ok (1) pl s 0 Hp Hq Ha Hs' ltac:(lia)) as (S1 & S2 & S3 & S4 & S5). okb.
    + intros s m Hs' Hm'. destruct (start1_ok (1) pl s m Hp Hq Ha Hs' Hm') as (S1 & S2 & S3 & S4 & S5).
      match goal with |- ?x && _ = _ => replace x with true by (symmetry; okb) end. cbn [andb].
      rewrite safeb_mul by (unfold small; lia). assert (0 <= nfast pl * nstride_plane pl) by nia.
      rewrite !ptrb_value by (unfold small in *; lia). destruct strict; cbn [negb orb]; unfold small in *; lia.
Qed.

Lemma unpack_3d_permute1_2_pointer32_ok strict data d0 buf b0 pl : plan_ok pl -> nqty pl = 2 -> 0 <= d0 -> 0 <= b0 -> zlen data <= INT_MAX -> zlen buf <= INT_MAX ->
  unpack_3d_permute1_2_pointer32 strict buf b0 data d0 pl =
  if (nfast pl * nstride_plane pl <=? INT_MAX) && (negb strict || (d0 + past1 pl <=? zlen data)) then copies buf (pairs_unpackP addr1 (nqty pl) pl d0 b0) data else None.
Proof.
  intros Hp Hq Hd Hb Ld Lb. pose proof Hp as Hp'. plan Hp'.
  eapply comb; [|apply (unpack_3d_permute1_2_pointer_ok data d0 buf b0 pl); [unfold wfp; lia|assumption|lia]|].
  - unfold unpack_3d_permute1_2_pointer32, unpack_3d_permute1_2_pointer.
    eapply ptr_guard with (P := fun d => zlen d = zlen data) (nm := nmid pl) (nf := nfast pl) (d0 := d0) (len := nfast pl * nstride_plane pl)
      (start := fun s m => s * nstride_line pl + 2 * m) (step := nstride_plane pl) (nq := 2)
      (p := fun s => safeb (#s * #(nstride_line pl))%I)
      (q := fun s m => safeb (#(s * nstride_line pl) + #2 * #m)%I && (ptrb strict (zlen data) (d0 + (s * nstride_line pl + 2 * m)) && (safeb (#(nfast pl) * #(nstride_plane pl))%I && ptrb strict (zlen data) (d0 + (s * nstride_line pl + 2 * m) + nfast pl * nstride_plane pl))));
      [lia|lia|lia|reflexivity| |pshape|reflexivity]; pe2.
  - intros r E. destruct (unpackP_bounds _ (nqty pl) _ _ _ _ _ _ (dims_of pl Hp) ltac:(lia) Hd Hb Ld Lb E) as (Ha & Hs). rewrite Hq in Ha, Hs.
    rewrite (ptr_value _ _ (nfast pl) (nstride_plane pl) (fun s m => s * nstride_line pl + 2 * m) _ _ strict (zlen data) d0).
    + do 2 f_equal. unfold past1, addr1. rewrite ?Hq. f_equal. ring.
    + lia.
    + lia.
    + intros s m Hs' Hm'. destruct (addr1_range (2) pl Hp Hq Ha Hs) as [_ _ _ _ _ _ I7 _ _]. pose proof (I7 s m Hs' Hm') as I. cbv beta in I. lia.
    + intros s Hs'. destruct (start1_ok (2) pl s 0 Hp Hq Ha Hs' ltac:(lia)) as (S1 & S2 & S3 & S4 & S5). okb.
    + intros s m Hs' Hm'. destruct (start1_ok (2) pl s m Hp Hq Ha Hs' Hm') as (S1 & S2 & S3 & S4 & S5).
      match goal with |- ?x && _ = _ => replace x with true by (symmetry; okb) end. cbn [andb].
      rewrite safeb_mul by (unfold small; lia). assert (0 <= nfast pl * nstride_plane pl) by nia.
      rewrite !ptrb_value by (unfold small in *; lia). destruct strict; cbn [negb orb]; unfold small in *; lia.
Qed.

Lemma unpack_3d_permute1_n_pointer32_ok strict data d0 buf b0 pl : plan_ok pl -> 0 <= d0 -> 0 <= b0 -> zlen data <= INT_MAX -> zlen buf <= INT_MAX ->
  unpack_3d_permute1_n_pointer32 strict buf b0 data d0 pl =
  if (nfast pl * nstride_plane pl <=? INT_MAX) && (negb strict || (d0 + past1 pl <=? zlen data)) then copies buf (pairs_unpackP addr1 (nqty pl) pl d0 b0) data else None.
Proof.
  intros Hp Hd Hb Ld Lb. pose proof Hp as Hp'. plan Hp'.
  eapply comb; [|apply (unpack_3d_permute1_n_pointer_ok data d0 buf b0 pl); [unfold wfp; lia|lia|lia]|].
  - unfold unpack_3d_permute1_n_pointer32, unpack_3d_permute1_n_pointer.
    eapply ptr_guard with (P := fun d => zlen d = zlen data) (nm := nmid pl) (nf := nfast pl) (d0 := d0) (len := nfast pl * nstride_plane pl)
      (start := fun s m => s * nstride_line pl + nqty pl * m) (step := nstride_plane pl) (nq := nqty pl)
      (p := fun s => safeb (#s * #(nstride_line pl))%I)
      (q := fun s m => safeb (#(s * nstride_line pl) + #(nqty pl) * #m)%I && (ptrb strict (zlen data) (d0 + (s * nstride_line pl + nqty pl * m)) && (safeb (#(nfast pl) * #(nstride_plane pl))%I && ptrb strict (zlen data) (d0 + (s * nstride_line pl + nqty pl * m) + nfast pl * nstride_plane pl))));
      [lia|lia|lia|reflexivity| |pshape|reflexivity]; pen.
  - intros r E. destruct (unpackP_bounds _ (nqty pl) _ _ _ _ _ _ (dims_of pl Hp) ltac:(lia) Hd Hb Ld Lb E) as (Ha & Hs). set (Hq := eq_refl (nqty pl)).
    rewrite (ptr_value _ _ (nfast pl) (nstride_plane pl) (fun s m => s * nstride_line pl + nqty pl * m) _ _ strict (zlen data) d0).
    + do 2 f_equal. unfold past1, addr1.  f_equal. ring.
    + lia.
    + lia.
    + intros s m Hs' Hm'. destruct (addr1_range (nqty pl) pl Hp Hq Ha Hs) as [_ _ _ _ _ _ I7 _ _]. pose proof (I7 s m Hs' Hm') as I. cbv beta in I. lia.
    + intros s Hs'. destruct (start1_ok (nqty pl) pl s 0 Hp Hq Ha Hs' ltac:(lia)) as (S1 & S2 & S3 & S4 & S5). okb.
    + intros s m Hs' Hm'. destruct (start1_ok (nqty pl) pl s m Hp Hq Ha Hs' Hm') as (S1 & S2 & S3 & S4 & S5).
      match goal with |- ?x && _ = _ => replace x with true by (symmetry; okb) end. cbn [andb].
      rewrite safeb_mul by (unfold small; lia). assert (0 <= nfast pl * nstride_plane pl) by nia.
      rewrite !ptrb_value by (unfold small in *; lia). destruct strict; cbn [negb orb]; unfold small in *; lia.
Qed.

Lemma unpack_3d_permute2_1_pointer32_ok strict data d0 buf b0 pl : plan_ok pl -> nqty pl = 1 -> 0 <= d0 -> 0 <= b0 -> zlen data <= INT_MAX -> zlen buf <= INT_MAX ->
  unpack_3d_permute2_1_pointer32 strict buf b0 data d0 pl =
  if (nfast pl * nstride_line pl <=? INT_MAX) && (negb strict || (d0 + past2 pl <=? zlen data)) then copies buf (pairs_unpackP addr2 (nqty pl) pl d0 b0) data else None.
Proof.
  intros Hp Hq Hd Hb Ld Lb. pose proof Hp as Hp'. plan Hp'.
  eapply comb; [|apply (unpack_3d_permute2_1_pointer_ok data d0 buf b0 pl); [unfold wfp; lia|assumption|lia]|].
  - unfold unpack_3d_permute2_1_pointer32, unpack_3d_permute2_1_pointer.
    eapply ptr_guard with (P := fun d => zlen d = zlen data) (nm := nmid pl) (nf := nfast pl) (d0 := d0) (len := nfast pl * nstride_line pl)
      (start := fun s m => s + m * nstride_plane pl) (step := nstride_line pl) (nq := 1)
      (p := fun s => true)
      (q := fun s m => safeb (#s + #m * #(nstride_plane pl))%I && (ptrb strict (zlen data) (d0 + (s + m * nstride_plane pl)) && (safeb (#(nfast pl) * #(nstride_line pl))%I && ptrb strict (zlen data) (d0 + (s + m * nstride_plane pl) + nfast pl * nstride_line pl))));
      [lia|lia|lia|reflexivity| |pshape|reflexivity]; pe1.
  - intros r E. destruct (unpackP_bounds _ (nqty pl) _ _ _ _ _ _ (dims_of pl Hp) ltac:(lia) Hd Hb Ld Lb E) as (Ha & Hs). rewrite Hq in Ha, Hs.
    rewrite (ptr_value _ _ (nfast pl) (nstride_line pl) (fun s m => s + m * nstride_plane pl) _ _ strict (zlen data) d0).
    + do 2 f_equal. unfold past2, addr2. rewrite ?Hq. f_equal. ring.
    + lia.
    + lia.
    + intros s m Hs' Hm'. destruct (addr2_range (1) pl Hp Hq Ha Hs) as [_ _ _ _ _ _ I7 _ _]. pose proof (I7 s m Hs' Hm') as I. cbv beta in I. lia.
    + reflexivity.
    + intros s m Hs' Hm'. destruct (start2_ok (1) pl s m Hp Hq Ha Hs' Hm') as (S1 & S2 & S3 & S4 & S5).
      match goal with |- ?x && _ = _ => replace x with true by (symmetry; okb) end. cbn [andb].
      rewrite safeb_mul by (unfold small; lia). assert (0 <= nfast pl * nstride_line pl) by nia.
      rewrite !ptrb_value by (unfold small in *; lia). destruct strict; cbn [negb orb]; unfold small in *; lia.
Qed.

Lemma unpack_3d_permute2_2_pointer32_ok strict data d0 buf b0 pl : plan_ok pl -> nqty pl = 2 -> 0 <= d0 -> 0 <= b0 -> zlen data <= INT_MAX -> zlen buf <= INT_MAX ->
  unpack_3d_permute2_2_pointer32 strict buf b0 data d0 pl =
  if (nfast pl * nstride_line pl <=? INT_MAX) && (negb strict || (d0 + past2 pl <=? zlen data)) then copies buf (pairs_unpackP addr2 (nqty pl) pl d0 b0) data else None.
Proof.
  intros Hp Hq Hd Hb Ld Lb. pose proof Hp as Hp'. plan Hp'.
  eapply comb; [|apply (unpack_3d_permute2_2_pointer_ok data d0 buf b0 pl); [unfold wfp; lia|assumption|lia]|].
  - unfold unpack_3d_permute2_2_pointer32, unpack_3d_permute2_2_pointer.
    eapply ptr_guard with (P := fun d => zlen d = zlen data) (nm := nmid pl) (nf := nfast pl) (d0 := d0) (len := nfast pl * nstride_line pl)
      (start := fun s m => 2 * s + m * nstride_plane pl) (step := nstride_line pl) (nq := 2)
      (p := fun s => true)
      (q := fun s m => safeb (#2 * #s + #m * #(nstride_plane pl))%I && (ptrb strict (zlen data) (d0 + (2 * s + m * nstride_plane pl)) && (safeb (#(nfast pl) * #(nstride_line pl))%I && ptrb strict (zlen data) (d0 + (2 * s + m * nstride_plane pl) + nfast pl * nstride_line pl))));
      [lia|lia|lia|reflexivity| |pshape|reflexivity]; pe2.
  - intros r E. destruct (unpackP_bounds _ (nqty pl) _ _ _ _ _ _ (dims_of pl Hp) ltac:(lia) Hd Hb Ld Lb E) as (Ha & Hs). rewrite Hq in Ha, Hs.
    rewrite (ptr_value _ _ (nfast pl) (nstride_line pl) (fun s m => 2 * s + m * nstride_plane pl) _ _ strict (zlen data) d0).
    + do 2 f_equal. unfold past2, addr2. rewrite ?Hq. f_equal. ring.
    + lia.
    + lia.
    + intros s m Hs' Hm'. destruct (addr2_range (2) pl Hp Hq Ha Hs) as [_ _ _ _ _ _ I7 _ _]. pose proof (I7 s m Hs' Hm') as I. cbv beta in I. lia.
    + reflexivity.
    + intros s m Hs' Hm'. destruct (start2_ok (2) pl s m Hp Hq Ha Hs' Hm') as (S1 & S2 & S3 & S4 & S5).
      match goal with |- ?x && _ = _ => replace x with true by (symmetry; okb) end. cbn [andb].
      rewrite safeb_mul by (unfold small; lia). assert (0 <= nfast pl * nstride_line pl) by nia.
      rewrite !ptrb_value by (unfold small in *; lia). destruct strict; cbn [negb orb]; unfold small in *; lia.
Qed.

Lemma unpack_3d_permute2_n_pointer32_ok strict data d0 buf b0 pl : plan_ok pl -> 0 <= d0 -> 0 <= b0 -> zlen data <= INT_MAX -> zlen buf <= INT_MAX ->
  unpack_3d_permute2_n_pointer32 strict buf b0 data d0 pl =
  if (nfast pl * nstride_line pl <=? INT_MAX) && (negb strict || (d0 + past2 pl <=? zlen data)) then copies buf (pairs_unpackP addr2 (nqty pl) pl d0 b0) data else None.
Proof.
  intros Hp Hd Hb Ld Lb. pose proof Hp as Hp'. plan Hp'.
  eapply comb; [|apply (unpack_3d_permute2_n_pointer_ok data d0 buf b0 pl); [unfold wfp; lia|lia|lia]|].
  - unfold unpack_3d_permute2_n_pointer32, unpack_3d_permute2_n_pointer.
    eapply ptr_guard with (P := fun d => zlen d = zlen data) (nm := nmid pl) (nf := nfast pl) (d0 := d0) (len := nfast pl * nstride_line pl)
      (start := fun s m => nqty pl * s + m * nstride_plane pl) (step := nstride_line pl) (nq := nqty pl)
      (p := fun s => true)
      (q := fun s m => safeb (#(nqty pl) * #s + #m * #(nstride_plane pl))%I && (ptrb strict (zlen data) (d0 + (nqty pl * s + m * nstride_plane pl)) && (safeb (#(nfast pl) * #(nstride_line pl))%I && ptrb strict (zlen data) (d0 + (nqty pl * s + m * nstride_plane pl) + nfast pl * nstride_line pl))));
      [lia|lia|lia|reflexivity| |pshape|reflexivity]; pen.
  - intros r E. destruct (unpackP_bounds _ (nqty pl) _ _ _ _ _ _ (dims_of pl Hp) ltac:(lia) Hd Hb Ld Lb E) as (Ha & Hs). set (Hq := eq_refl (nqty pl)).
    rewrite (ptr_value _ _ (nfast pl) (nstride_line pl) (fun s m => nqty pl * s + m * nstride_plane pl) _ _ strict (zlen data) d0).
    + do 2 f_equal. unfold past2, addr2.  f_equal. ring.
    + lia.
    + lia.
    + intros s m Hs' Hm'. destruct (addr2_range (nqty pl) pl Hp Hq Ha Hs) as [_ _ _ _ _ _ I7 _ _]. pose proof (I7 s m Hs' Hm') as I. cbv beta in I. lia.
    + reflexivity.
    + intros s m Hs' Hm'. destruct (start2_ok (nqty pl) pl s m Hp Hq Ha Hs' Hm') as (S1 & S2 & S3 & S4 & S5).
      match goal with |- ?x && _ = _ => replace x with true by (symmetry; okb) end. cbn [andb].
      rewrite safeb_mul by (unfold small; lia). assert (0 <= nfast pl * nstride_line pl) by nia.
      rewrite !ptrb_value by (unfold small in *; lia). destruct strict; cbn [negb orb]; unfold small in *; lia.
Qed.

Lemma pack_3d_pointer32_ok strict data d0 buf b0 pl : plan_ok pl -> 0 <= d0 -> 0 <= b0 -> zlen data <= INT_MAX -> zlen buf <= INT_MAX ->
  pack_3d_pointer32 strict data d0 buf b0 pl = copies data (pairs_pack pl d0 b0) buf.
Proof.
  intros Hp Hd Hb Ld Lb. pose proof Hp as Hp'. plan Hp'.
  eapply (comb _ _ _ _ true); [|apply (pack_3d_pointer_ok data d0 buf b0 pl); unfold wfp; lia|].
  - unfold pack_3d_pointer32, pack_3d_pointer.
    eapply ptr_guard with (P := fun _ => True) (nm := nmid pl) (nf := nfast pl) (d0 := d0) (len := nfast pl)
      (start := fun s m => s * nstride_plane pl + m * nstride_line pl) (step := 1) (nq := 1)
      (p := fun s => safeb (#s * #(nstride_plane pl))%I)
      (q := fun s m => safeb (#(s * nstride_plane pl) + #m * #(nstride_line pl))%I && (ptrb strict (zlen data) (d0 + (s * nstride_plane pl + m * nstride_line pl)) && ptrb strict (zlen data) (d0 + (s * nstride_plane pl + m * nstride_line pl) + nfast pl)));
      [lia|lia|lia|lia| |pshape|auto]; pep.
  - intros r E. destruct (pack_bounds _ _ _ _ _ _ (dims_of pl Hp) Hd Hb Ld Lb E) as (Ha & Hs).
    assert (Ha' : addr0 pl (nslow pl - 1) (nmid pl - 1) (nfast pl - 1) + 1 <= INT_MAX) by lia.
    apply forallb_forall. intros s Hs'. apply In_zrange in Hs'. apply andb_true_intro. split.
    + destruct (start0_ok pl s 0 Hp Ha' Hs' ltac:(lia)) as (S1 & S2 & S3 & S4 & S5). okb.
    + apply forallb_forall. intros m Hm'. apply In_zrange in Hm'. destruct (start0_ok pl s m Hp Ha' Hs' Hm') as (S1 & S2 & S3 & S4 & S5).
      match goal with |- ?x && _ = _ => replace x with true by (symmetry; okb) end. cbn [andb]. unfold addr0 in Ha.
      assert (s * nstride_plane pl <= (nslow pl - 1) * nstride_plane pl) by nia. assert (m * nstride_line pl <= (nmid pl - 1) * nstride_line pl) by nia.
      rewrite !ptrb_value by (unfold small in *; lia). destruct strict; cbn [negb orb]; unfold small in *; lia.
Qed.

Lemma unpack_3d_pointer32_ok strict data d0 buf b0 pl : plan_ok pl -> 0 <= d0 -> 0 <= b0 -> zlen data <= INT_MAX -> zlen buf <= INT_MAX ->
  unpack_3d_pointer32 strict buf b0 data d0 pl = copies buf (pairs_unpack pl d0 b0) data.
Proof.
  intros Hp Hd Hb Ld Lb. pose proof Hp as Hp'. plan Hp'.
  eapply (comb _ _ _ _ true); [|apply (unpack_3d_pointer_ok data d0 buf b0 pl); unfold wfp; lia|].
  - unfold unpack_3d_pointer32, unpack_3d_pointer.
    eapply ptr_guard with (P := fun d => zlen d = zlen data) (nm := nmid pl) (nf := nfast pl) (d0 := d0) (len := nfast pl)
      (start := fun s m => s * nstride_plane pl + m * nstride_line pl) (step := 1) (nq := 1)
      (p := fun s => safeb (#s * #(nstride_plane pl))%I)
      (q := fun s m => safeb (#(s * nstride_plane pl) + #m * #(nstride_line pl))%I && (ptrb strict (zlen data) (d0 + (s * nstride_plane pl + m * nstride_line pl)) && ptrb strict (zlen data) (d0 + (s * nstride_plane pl + m * nstride_line pl) + nfast pl)));
      [lia|lia|lia|lia| |pshape|auto]; pe1.
  - intros r E. destruct (unpack_bounds _ _ _ _ _ _ (dims_of pl Hp) Hd Hb Ld Lb E) as (Ha & Hs).
    assert (Ha' : addr0 pl (nslow pl - 1) (nmid pl - 1) (nfast pl - 1) + 1 <= INT_MAX) by lia.
    apply forallb_forall. intros s Hs'. apply In_zrange in Hs'. apply andb_true_intro. split.
    + destruct (start0_ok pl s 0 Hp Ha' Hs' ltac:(lia)) as (S1 & S2 & S3 & S4 & S5). okb.
    + apply forallb_forall. intros m Hm'. apply In_zrange in Hm'. destruct (start0_ok pl s m Hp Ha' Hs' Hm') as (S1 & S2 & S3 & S4 & S5).
      match goal with |- ?x && _ = _ => replace x with true by (symmetry; okb) end. cbn [andb]. unfold addr0 in Ha.
      assert (s * nstride_plane pl <= (nslow pl - 1) * nstride_plane pl) by nia. assert (m * nstride_line pl <= (nmid pl - 1) * nstride_line pl) by nia.
      rewrite !ptrb_value by (unfold small in *; lia). destruct strict; cbn [negb orb]; unfold small in *; lia.
Qed.

(** ** memcpy versions *)

(** the first [k] elements of every line *)
Definition heads_pack pl d0 b0 k : list (Z * Z) :=
  flat3 (nslow pl) (nmid pl) k (fun s m x => [(b0 + slot3 (nmid pl) (nfast pl) s m x, d0 + addr0 pl s m x)]).
Definition heads_unpack pl d0 b0 k : list (Z * Z) :=
  flat3 (nslow pl) (nmid pl) k (fun s m x => [(d0 + addr0 pl s m x, b0 + slot3 (nmid pl) (nfast pl) s m x)]).

Lemma mem_guard (P : list A -> Prop) ns nm outer outer' (p : Z -> bool) (q : Z -> Z -> bool) d :
  (forall s, exists body body' : Z -> list A -> option (list A),
    (forall d, outer s d = for_ nm body d) /\
    (forall d, outer' s d = if p s then for_ nm body' d else None) /\
    (forall m d, P d -> body' m d = if q s m then body m d else None) /\
    (forall m d d', body m d = Some d' -> P d -> P d')) ->
  P d -> 0 <= nm ->
  for_ ns outer' d = if forallb (fun s => p s && forallb (q s) (zrange nm)) (zrange ns) then for_ ns outer d else None.
Proof.
  intros H Hd Hm. apply (for_guard (fun _ => P)); [assumption| |].
  - intros s d1 _ H1. destruct (H s) as (body & body' & E1 & E2 & E3 & E4). rewrite E1, E2, <- if_and.
    destruct (p s); [|reflexivity]. apply (for_guard (fun _ => P)); auto. intros m d2 d3 _ H2 E. apply (E4 m d2 d3 E H2).
  - intros s d1 d2 _ H1 E. destruct (H s) as (body & body' & E1 & E2 & E3 & E4). rewrite E1 in E.
    apply (for_post (fun _ => P) nm body d1 d2); auto. intros m d3 d4 _ H3 E5. apply (E4 m d3 d4 E5 H3).
Qed.

Lemma memcpy_len (dst src : list A) a b k r : 0 <= k -> memcpy_elems dst a src b k = Some r -> zlen r = zlen dst.
Proof. intros Hk E. rewrite memcpy_copies in E by assumption. apply (copies_len _ _ _ _ E). Qed.

(** the nest of copies *)
Lemma mem_nest (src dst : list A) ns nm k f g : 0 <= ns -> 0 <= nm -> 0 <= k ->
  for_ ns (fun s d => for_ nm (fun m d => memcpy_elems d (f s m) src (g s m) k) d) dst =
  copies src (flat3 ns nm k (fun s m x => [(f s m + x, g s m + x)])) dst.
Proof.
  intros Hs Hm Hk. unfold flat3.
  rewrite (for_copies (fun _ d => d) src (fun s => flat_map (fun m => flat_map (fun x => [(f s m + x, g s m + x)]) (zrange k)) (zrange nm)) _ _ dst); auto using option_map_id.
  intros s d Hs'.
  rewrite (for_copies (fun _ d => d) src (fun m => flat_map (fun x => [(f s m + x, g s m + x)]) (zrange k)) _ _ d); auto.
  intros m d' Hm'. rewrite memcpy_copies by auto. rewrite option_map_id. reflexivity.
Qed.
Lemma flat3_ext {B} ns nm k (f g : Z -> Z -> Z -> list B) : (forall s m x, f s m x = g s m x) -> flat3 ns nm k f = flat3 ns nm k g.
Proof. intros H. unfold flat3. apply flat_map_ext'; intros s _. apply flat_map_ext'; intros m _. apply flat_map_ext'; intros x _. apply H. Qed.

Lemma for_none {S} n (body : Z -> S -> option S) s : 1 <= n -> body 0 s = None -> for_ n body s = None.
Proof. intros Hn H. unfold for_. replace (Z.to_nat n) with (Datatypes.S (Z.to_nat (n - 1))) by lia. cbn [iter]. rewrite H. reflexivity. Qed.

Lemma to_int_exact z : small z -> to_int z = z.
Proof. intros H. unfold to_int. unfold small in H. rewrite IMX in H. change (2 ^ 31) with 2147483648. change (2 ^ 32) with 4294967296. rewrite Z.mod_small; lia. Qed.

Lemma pack_3d_memcpy32_guard strict esize data d0 buf b0 pl : plan_ok pl -> 0 < esize -> 0 <= to_int (nfast pl * esize) ->
  pack_3d_memcpy32 strict esize data d0 buf b0 pl =
  if forallb (fun s => (safeb (#s * #(nstride_plane pl))%I && safeb (#s * #(nmid pl) * #(nfast pl))%I) && forallb (fun m => safeb (#(s * nmid pl * nfast pl) + #m * #(nfast pl))%I && (ptrb strict (zlen buf) (b0 + (s * nmid pl * nfast pl + m * nfast pl)) && (safeb (#(s * nstride_plane pl) + #m * #(nstride_line pl))%I && ptrb strict (zlen data) (d0 + (s * nstride_plane pl + m * nstride_line pl))))) (zrange (nmid pl))) (zrange (nslow pl))
  then copies data (heads_pack pl d0 b0 (to_int (nfast pl * esize) / esize)) buf else None.
Proof.
  intros Hp He Hz. pose proof Hp as Hp'. plan Hp'. assert (Hk : 0 <= to_int (nfast pl * esize) / esize) by (apply Z.div_pos; lia).
  replace (copies data (heads_pack pl d0 b0 (to_int (nfast pl * esize) / esize)) buf) with
    (for_ (nslow pl) (fun s d => for_ (nmid pl) (fun m d => memcpy_elems d (b0 + (s * nmid pl * nfast pl + m * nfast pl)) data (d0 + (s * nstride_plane pl + m * nstride_line pl)) (to_int (nfast pl * esize) / esize)) d) buf).
  - unfold pack_3d_memcpy32. cbv zeta. apply (mem_guard (fun d => zlen d = zlen buf)); [|reflexivity|lia].
    intros s. do 2 eexists. repeat apply conj.
    + intros; reflexivity.
    + intros. cbv beta. rewrite !bind_ev, if_and. reflexivity.
    + intros m d Hd. cbv beta. rewrite Hd. repeat rewrite ?bind_ev, ?bind_ptr. rewrite ?if_and, <- ?andb_assoc. unfold memcpy32.
      replace (to_int (nfast pl * esize) <? 0) with false by lia. reflexivity.
    + intros m d d' E Hd. cbv beta in E. apply memcpy_len in E; [congruence|assumption].
  - rewrite mem_nest by lia. f_equal. apply flat3_ext. intros s m x. unfold slot3, addr0. do 2 f_equal; ring.
Qed.

Lemma pack_3d_memcpy32_checks strict data d0 buf b0 pl r : plan_ok pl -> 0 <= d0 -> 0 <= b0 -> zlen data <= INT_MAX -> zlen buf <= INT_MAX ->
  copies data (pairs_pack pl d0 b0) buf = Some r ->
  forallb (fun s => (safeb (#s * #(nstride_plane pl))%I && safeb (#s * #(nmid pl) * #(nfast pl))%I) && forallb (fun m => safeb (#(s * nmid pl * nfast pl) + #m * #(nfast pl))%I && (ptrb strict (zlen buf) (b0 + (s * nmid pl * nfast pl + m * nfast pl)) && (safeb (#(s * nstride_plane pl) + #m * #(nstride_line pl))%I && ptrb strict (zlen data) (d0 + (s * nstride_plane pl + m * nstride_line pl))))) (zrange (nmid pl))) (zrange (nslow pl)) = true.
Proof.
  intros Hp Hd Hb Ld Lb E. pose proof Hp as Hp'. plan Hp'. destruct (pack_bounds _ _ _ _ _ _ (dims_of pl Hp) Hd Hb Ld Lb E) as (Ha & Hs).
  assert (Ha' : addr0 pl (nslow pl - 1) (nmid pl - 1) (nfast pl - 1) + 1 <= INT_MAX) by lia.
  apply forallb_forall. intros s Hs'. apply In_zrange in Hs'.
  assert (U : forall m, 0 <= m < nmid pl -> 0 <= s * nmid pl /\ s * nmid pl <= INT_MAX /\ 0 <= s * nmid pl * nfast pl /\ 0 <= m * nfast pl /\ s * nmid pl * nfast pl + m * nfast pl + nfast pl <= nslow pl * nmid pl * nfast pl).
  { intros m Hm'. assert (s * nmid pl + m + 1 <= nslow pl * nmid pl) by nia. assert (0 <= s * nmid pl) by nia. assert (0 <= m * nfast pl) by nia. assert (0 <= s * nmid pl * nfast pl) by nia.
    assert ((s * nmid pl + m + 1) * nfast pl <= nslow pl * nmid pl * nfast pl) by nia. assert (s * nmid pl <= s * nmid pl * nfast pl) by nia. lia. }
  apply andb_true_intro. split.
  - destruct (start0_ok pl s 0 Hp Ha' Hs' ltac:(lia)) as (S1 & S2 & S3 & S4 & S5). destruct (U 0 ltac:(lia)) as (U1 & U2 & U3 & U4 & U5).
    apply andb_true_intro. split; okb.
  - apply forallb_forall. intros m Hm'. apply In_zrange in Hm'. destruct (start0_ok pl s m Hp Ha' Hs' Hm') as (S1 & S2 & S3 & S4 & S5). destruct (U m Hm') as (U1 & U2 & U3 & U4 & U5).
    unfold addr0 in Ha.
    assert (s * nstride_plane pl <= (nslow pl - 1) * nstride_plane pl) by nia. assert (m * nstride_line pl <= (nmid pl - 1) * nstride_line pl) by nia.
    rewrite !ptrb_value by (unfold small in *; lia).
    apply andb_true_intro. split; [okb|]. apply andb_true_intro. split; [destruct strict; cbn [negb orb]; unfold small in *; lia|].
    apply andb_true_intro. split; [okb|destruct strict; cbn [negb orb]; unfold small in *; lia].
Qed.

Lemma pack_3d_memcpy32_ok strict esize data d0 buf b0 pl : plan_ok pl -> 0 <= d0 -> 0 <= b0 -> zlen data <= INT_MAX -> zlen buf <= INT_MAX ->
  0 < esize -> nfast pl * esize <= INT_MAX ->
  pack_3d_memcpy32 strict esize data d0 buf b0 pl = copies data (pairs_pack pl d0 b0) buf.
Proof.
  intros Hp Hd Hb Ld Lb He Hf. pose proof Hp as Hp'. plan Hp'.
  assert (E : to_int (nfast pl * esize) = nfast pl * esize) by (apply to_int_exact; unfold small; nia).
  eapply (comb _ _ _ _ true); [apply (pack_3d_memcpy32_guard strict esize data d0 buf b0 pl Hp He); rewrite E; nia| |].
  - rewrite E, Z.div_mul by lia. reflexivity.
  - intros r Er. apply (pack_3d_memcpy32_checks strict data d0 buf b0 pl r Hp Hd Hb Ld Lb Er).
Qed.

Lemma pack_3d_memcpy32_long strict esize data d0 buf b0 pl r : plan_ok pl -> 0 <= d0 -> 0 <= b0 -> zlen data <= INT_MAX -> zlen buf <= INT_MAX ->
  0 < esize -> copies data (pairs_pack pl d0 b0) buf = Some r ->
  pack_3d_memcpy32 strict esize data d0 buf b0 pl =
  if to_int (nfast pl * esize) <? 0 then None else copies data (heads_pack pl d0 b0 (to_int (nfast pl * esize) / esize)) buf.
Proof.
  intros Hp Hd Hb Ld Lb He Er. pose proof Hp as Hp'. plan Hp'. destruct (Z.ltb_spec (to_int (nfast pl * esize)) 0) as [L|L].
  - unfold pack_3d_memcpy32. cbv zeta. apply for_none; [lia|]. cbv beta. rewrite !bind_ev.
    repeat match goal with |- (if ?x then _ else _) = _ => destruct x; [|reflexivity] end.
    apply for_none; [lia|]. cbv beta. repeat rewrite ?bind_ev, ?bind_ptr. unfold memcpy32. replace (to_int (nfast pl * esize) <? 0) with true by lia.
    repeat match goal with |- (if ?x then _ else _) = _ => destruct x; [|reflexivity] end. reflexivity.
  - rewrite pack_3d_memcpy32_guard by assumption. rewrite (pack_3d_memcpy32_checks strict data d0 buf b0 pl r Hp Hd Hb Ld Lb Er). reflexivity.
Qed.

Lemma unpack_3d_memcpy32_guard strict esize data d0 buf b0 pl : plan_ok pl -> 0 < esize -> 0 <= to_int (nfast pl * esize) ->
  unpack_3d_memcpy32 strict esize buf b0 data d0 pl =
  if forallb (fun s => (safeb (#s * #(nstride_plane pl))%I && safeb (#s * #(nmid pl) * #(nfast pl))%I) && forallb (fun m => safeb (#(s * nstride_plane pl) + #m * #(nstride_line pl))%I && (ptrb strict (zlen data) (d0 + (s * nstride_plane pl + m * nstride_line pl)) && (safeb (#(s * nmid pl * nfast pl) + #m * #(nfast pl))%I && ptrb strict (zlen buf) (b0 + (s * nmid pl * nfast pl + m * nfast pl))))) (zrange (nmid pl))) (zrange (nslow pl))
  then copies buf (heads_unpack pl d0 b0 (to_int (nfast pl * esize) / esize)) data else None.
Proof.
  intros Hp He Hz. pose proof Hp as Hp'. plan Hp'. assert (Hk : 0 <= to_int (nfast pl * esize) / esize) by (apply Z.div_pos; lia).
  replace (copies buf (heads_unpack pl d0 b0 (to_int (nfast pl * esize) / esize)) data) with
    (for_ (nslow pl) (fun s d => for_ (nmid pl) (fun m d => memcpy_elems d (d0 + (s * nstride_plane pl + m * nstride_line pl)) buf (b0 + (s * nmid pl * nfast pl + m * nfast pl)) (to_int (nfast pl * esize) / esize)) d) data).
  - unfold unpack_3d_memcpy32. cbv zeta. apply (mem_guard (fun d => zlen d = zlen data)); [|reflexivity|lia].
    intros s. do 2 eexists. repeat apply conj.
    + intros; reflexivity.
    + intros. cbv beta. rewrite !bind_ev, if_and. reflexivity.
    + intros m d Hd. cbv beta. rewrite Hd. repeat rewrite ?bind_ev, ?bind_ptr. rewrite ?if_and, <- ?andb_assoc. unfold memcpy32.
      replace (to_int (nfast pl * esize) <? 0) with false by lia. reflexivity.
    + intros m d d' E Hd. cbv beta in E. apply memcpy_len in E; [congruence|assumption].
  - rewrite mem_nest by lia. f_equal. apply flat3_ext. intros s m x. unfold slot3, addr0. do 2 f_equal; ring.
Qed.

Lemma unpack_3d_memcpy32_checks strict data d0 buf b0 pl r : plan_ok pl -> 0 <= d0 -> 0 <= b0 -> zlen data <= INT_MAX -> zlen buf <= INT_MAX ->
  copies buf (pairs_unpack pl d0 b0) data = Some r ->
  forallb (fun s => (safeb (#s * #(nstride_plane pl))%I && safeb (#s * #(nmid pl) * #(nfast pl))%I) && forallb (fun m => safeb (#(s * nstride_plane pl) + #m * #(nstride_line pl))%I && (ptrb strict (zlen data) (d0 + (s * nstride_plane pl + m * nstride_line pl)) && (safeb (#(s * nmid pl * nfast pl) + #m * #(nfast pl))%I && ptrb strict (zlen buf) (b0 + (s * nmid pl * nfast pl + m * nfast pl))))) (zrange (nmid pl))) (zrange (nslow pl)) = true.
Proof.
  intros Hp Hd Hb Ld Lb E. pose proof Hp as Hp'. plan Hp'. destruct (unpack_bounds _ _ _ _ _ _ (dims_of pl Hp) Hd Hb Ld Lb E) as (Ha & Hs).
  assert (Ha' : addr0 pl (nslow pl - 1) (nmid pl - 1) (nfast pl - 1) + 1 <= INT_MAX) by lia.
  apply forallb_forall. intros s Hs'. apply In_zrange in Hs'.
  assert (U : forall m, 0 <= m < nmid pl -> 0 <= s * nmid pl /\ s * nmid pl <= INT_MAX /\ 0 <= s * nmid pl * nfast pl /\ 0 <= m * nfast pl /\ s * nmid pl * nfast pl + m * nfast pl + nfast pl <= nslow pl * nmid pl * nfast pl).
  { intros m Hm'. assert (s * nmid pl + m + 1 <= nslow pl * nmid pl) by nia. assert (0 <= s * nmid pl) by nia. assert (0 <= m * nfast pl) by nia. assert (0 <= s * nmid pl * nfast pl) by nia.
    assert ((s * nmid pl + m + 1) * nfast pl <= nslow pl * nmid pl * nfast pl) by nia. assert (s * nmid pl <= s * nmid pl * nfast pl) by nia. lia. }
  apply andb_true_intro. split.
  - destruct (start0_ok pl s 0 Hp Ha' Hs' ltac:(lia)) as (S1 & S2 & S3 & S4 & S5). destruct (U 0 ltac:(lia)) as (U1 & U2 & U3 & U4 & U5).
    apply andb_true_intro. split; okb.
  - apply forallb_forall. intros m Hm'. apply In_zrange in Hm'. destruct (start0_ok pl s m Hp Ha' Hs' Hm') as (S1 & S2 & S3 & S4 & S5). destruct (U m Hm') as (U1 & U2 & U3 & U4 & U5).
    unfold addr0 in Ha.
    assert (s * nstride_plane pl <= (nslow pl - 1) * nstride_plane pl) by nia. assert (m * nstride_line pl <= (nmid pl - 1) * nstride_line pl) by nia.
    rewrite !ptrb_value by (unfold small in *; lia).
    apply andb_true_intro. split; [okb|]. apply andb_true_intro. split; [destruct strict; cbn [negb orb]; unfold small in *; lia|].
    apply andb_true_intro. split; [okb|destruct strict; cbn [negb orb]; unfold small in *; lia].
Qed.

Lemma unpack_3d_memcpy32_ok strict esize data d0 buf b0 pl : plan_ok pl -> 0 <= d0 -> 0 <= b0 -> zlen data <= INT_MAX -> zlen buf <= INT_MAX ->
  0 < esize -> nfast pl * esize <= INT_MAX ->
  unpack_3d_memcpy32 strict esize buf b0 data d0 pl = copies buf (pairs_unpack pl d0 b0) data.
Proof.
  intros Hp Hd Hb Ld Lb He Hf. pose proof Hp as Hp'. plan Hp'.
  assert (E : to_int (nfast pl * esize) = nfast pl * esize) by (apply to_int_exact; unfold small; nia).
  eapply (comb _ _ _ _ true); [apply (unpack_3d_memcpy32_guard strict esize data d0 buf b0 pl Hp He); rewrite E; nia| |].
  - rewrite E, Z.div_mul by lia. reflexivity.
  - intros r Er. apply (unpack_3d_memcpy32_checks strict data d0 buf b0 pl r Hp Hd Hb Ld Lb Er).
Qed.

Lemma unpack_3d_memcpy32_long strict esize data d0 buf b0 pl r : plan_ok pl -> 0 <= d0 -> 0 <= b0 -> zlen data <= INT_MAX -> zlen buf <= INT_MAX ->
  0 < esize -> copies buf (pairs_unpack pl d0 b0) data = Some r ->
  unpack_3d_memcpy32 strict esize buf b0 data d0 pl =
  if to_int (nfast pl * esize) <? 0 then None else copies buf (heads_unpack pl d0 b0 (to_int (nfast pl * esize) / esize)) data.
Proof.
  intros Hp Hd Hb Ld Lb He Er. pose proof Hp as Hp'. plan Hp'. destruct (Z.ltb_spec (to_int (nfast pl * esize)) 0) as [L|L].
  - unfold unpack_3d_memcpy32. cbv zeta. apply for_none; [lia|]. cbv beta. rewrite !bind_ev.
    repeat match goal with |- (if ?x then _ else _) = _ => destruct x; [|reflexivity] end.
    apply for_none; [lia|]. cbv beta. repeat rewrite ?bind_ev, ?bind_ptr. unfold memcpy32. replace (to_int (nfast pl * esize) <? 0) with true by lia.
    repeat match goal with |- (if ?x then _ else _) = _ => destruct x; [|reflexivity] end. reflexivity.
  - rewrite unpack_3d_memcpy32_guard by assumption. rewrite (unpack_3d_memcpy32_checks strict data d0 buf b0 pl r Hp Hd Hb Ld Lb Er). reflexivity.
Qed.

End Array3.
