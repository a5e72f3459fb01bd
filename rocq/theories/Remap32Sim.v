(** Remap32Sim.v : programs whose local steps agree on every memory with a property that all steps keep have the same executions. *)

From Verif Require Import Base Sched SchedProofs MemProofs Phases Exec.
Local Open Scope Z_scope.

Section Sim.
Context {A : Type}.
Variable Inv : @rmem A -> Prop.
(** deliveries keep the property *)
Hypothesis Inv_wrm : forall loc pl m m', Inv m -> wrm loc pl m = Some m' -> Inv m'.

Definition lrel (f g : @rmem A -> option (@rmem A)) : Prop := forall m, Inv m -> f m = g m /\ forall m', f m = Some m' -> Inv m'.
Inductive irel : @instr A -> @instr A -> Prop :=
| ir_irecv id src loc len : irel (IIrecv id src loc len) (IIrecv id src loc len)
| ir_local f g : lrel f g -> irel (ILocal f) (ILocal g)
| ir_send dst len : irel (ISend dst len) (ISend dst len)
| ir_wait f g : (forall id, lrel (f id) (g id)) -> irel (IWaitany f) (IWaitany g)
| ir_a2a g args : irel (IA2A g args) (IA2A g args).
Definition prel := Forall2 irel.

Inductive crel : @core A -> @core A -> Prop :=
| cr p q m rs b s : prel p q -> Inv m -> crel (mkcore p m rs b s) (mkcore q m rs b s).
Inductive srel : @gstate A -> @gstate A -> Prop :=
| sr cs ds ch : Forall2 crel cs ds -> srel (mkstate cs ch) (mkstate ds ch).

Lemma Inv_a2a c r g0 g args m m' : Inv m -> a2a_recv c r g0 g args m = Ok m' -> Inv m'.
Proof.
  revert args m. induction g as [|x g IH]; intros [|[[[sc sd] rc] rd] args] m Hm E; cbn [a2a_recv] in E; try discriminate; [congruence|].
  destruct (mget (cch c) x r) as [|[gt pl] l]; [discriminate|]. destruct (negb (list_nat_eqb gt g0)); [discriminate|].
  destruct (negb (zlen pl =? rc)); [discriminate|]. destruct (wrm rd pl m) as [m1|] eqn:W; [|discriminate].
  apply (IH _ _ (Inv_wrm _ _ _ _ Hm W) E).
Qed.

Inductive orel {X Y} (R : X -> Y -> Prop) : outcome X -> outcome Y -> Prop :=
| o_dis : orel R Disabled Disabled
| o_bad : orel R Bad Bad
| o_ok x y : R x y -> orel R (Ok x) (Ok y).

Lemma lstep_rel n eager a c d k : crel c d -> orel (fun x y => crel (fst x) (fst y) /\ snd x = snd y) (lstep n eager a c k) (lstep n eager a d k).
Proof.
  intros [p q m rs b s Hp Hm]. destruct a as [r|s' t|r id]; cbn [lstep c_prog c_mem c_reqs c_busy c_sent].
  - inversion Hp as [|i j p' q' Hi Hr]; subst; [constructor|]. inversion Hi as [id src loc len|f g HL|dst len|f g HL|g args]; subst.
    + constructor. split; [constructor; assumption|reflexivity].
    + destruct (HL m Hm) as (E & K). rewrite <- E. destruct (f m) as [m'|]; constructor. split; [constructor; auto|reflexivity].
    + destruct b.
      * destruct (eager r s || _); constructor. split; [constructor; assumption|reflexivity].
      * destruct (zslice (m_send m) 0 len); [|constructor]. destruct (Nat.ltb dst n); constructor. split; [constructor; assumption|reflexivity].
    + destruct rs; constructor.
    + destruct b.
      * destruct (a2a_ready k r g); [|constructor]. destruct (a2a_recv k r g g args m) as [| |m'] eqn:E; constructor.
        split; [constructor; [assumption|eapply Inv_a2a; eassumption]|reflexivity].
      * destruct (_ && _)%bool; [|constructor]. destruct (a2a_payloads m args); constructor. split; [constructor; assumption|reflexivity].
  - destruct (mget (ch k) s' t) as [|pl l]; [constructor|]. destruct (mark_first s' rs) as [[rq rs']|]; [|constructor].
    destruct (rq_len rq <? zlen pl); [constructor|]. destruct (wrm (rq_loc rq) pl m) as [m'|] eqn:W; constructor.
    split; [constructor; [assumption|eapply Inv_wrm; eassumption]|reflexivity].
  - inversion Hp as [|i j p' q' Hi Hr]; subst; [constructor|]. inversion Hi as [id' src loc len|f g HL|dst len|f g HL|g args]; subst; try constructor.
    destruct (take_done id rs); [|constructor]. destruct (HL id m Hm) as (E & K). rewrite <- E. destruct (f id m) as [m'|]; constructor. split; [constructor; auto|reflexivity].
Qed.

Lemma Forall2_nth_rel {X Y} (R : X -> Y -> Prop) l l' i : Forall2 R l l' ->
  match nth_error l i, nth_error l' i with Some x, Some y => R x y | None, None => True | _, _ => False end.
Proof. intros H. revert i. induction H as [|x y l l' Hx H IH]; intros [|i]; cbn; auto. apply IH. Qed.
Lemma Forall2_lupd {X Y} (R : X -> Y -> Prop) l l' i x y : Forall2 R l l' -> R x y -> Forall2 R (lupd l i x) (lupd l' i y).
Proof. intros H Hxy. revert i. induction H as [|a b l l' Ha H IH]; intros [|i]; cbn; constructor; auto. Qed.

Lemma step_rel n eager a s t : srel s t -> orel srel (step n eager a s) (step n eager a t).
Proof.
  intros [cs ds ch H]. unfold step. cbn [s_core s_ch]. pose proof (Forall2_nth_rel _ _ _ (owner a) H) as N.
  destruct (nth_error cs (owner a)) as [c|], (nth_error ds (owner a)) as [d|]; try contradiction; [|constructor].
  destruct (lstep_rel n eager a c d ch N) as [| |[c' e] [d' e'] (Hc & He)]; try constructor. cbn [fst snd] in *. subst e'. constructor. apply Forall2_lupd; assumption.
Qed.

Lemma run_rel n eager s l s' t : run n eager s l s' -> srel s t -> exists t', run n eager t l t' /\ srel s' t'.
Proof.
  intros H. revert t. induction H as [s|s a s1 l s2 Hs H IH]; intros t R; [exists t; split; [constructor|assumption]|].
  pose proof (step_rel n eager a s t R) as Q. rewrite Hs in Q. inversion Q as [| |x t1 R1 E1 E2]; subst.
  destruct (IH t1 R1) as (t' & Hr & R'). exists t'. split; [econstructor; [symmetry; eassumption|assumption]|assumption].
Qed.

End Sim.

(** the relation is symmetric *)
Lemma lrel_sym {A} Inv (f g : @rmem A -> option (@rmem A)) : lrel Inv f g -> lrel Inv g f.
Proof. intros H m Hm. destruct (H m Hm) as (E & K). split; [congruence|]. intros m' E'. apply K. congruence. Qed.
Lemma irel_sym {A} Inv (i j : @instr A) : irel Inv i j -> irel Inv j i.
Proof. intros []; constructor; auto using lrel_sym. Qed.
Lemma Forall2_sym' {X} (R : X -> X -> Prop) l l' : (forall x y, R x y -> R y x) -> Forall2 R l l' -> Forall2 R l' l.
Proof. intros HR H. induction H; constructor; auto. Qed.
Lemma srel_sym {A} Inv (s t : @gstate A) : srel Inv s t -> srel Inv t s.
Proof.
  intros [cs ds ch H]. constructor. apply Forall2_sym'; [|assumption]. intros x y []. constructor; [|assumption].
  apply Forall2_sym'; [|assumption]. apply irel_sym.
Qed.

Lemma start_rel {A} (Inv : @rmem A -> Prop) n (code code' : nat -> list (@instr A)) M : (forall r, (r < n)%nat -> prel Inv (code r) (code' r)) -> (forall r, (r < n)%nat -> Inv (M r)) ->
  srel Inv (start n code M) (start n code' M).
Proof.
  intros Hc HM. unfold start, init. constructor.
  assert (G : forall l, (forall r, In r l -> (r < n)%nat) -> Forall2 (crel Inv) (map (fun '(p, m) => mkcore p m [] false 0%nat) (combine (map code l) (map M l)))
    (map (fun '(p, m) => mkcore p m [] false 0%nat) (combine (map code' l) (map M l)))).
  { induction l as [|r l IH]; intros Hl; cbn [map combine]; constructor; [|apply IH; intros; apply Hl; right; assumption].
    constructor; [apply Hc|apply HM]; apply Hl; left; reflexivity. }
  apply G. intros r H. apply in_seq in H. lia.
Qed.

Lemma finished_rel {A} Inv n M' (s t : @gstate A) : srel Inv s t -> finished n M' s -> finished n M' t.
Proof.
  intros [cs ds ch H] (D & E & F). cbn [s_core s_ch] in *. split; [|split].
  - intros d Hd. cbn [s_core] in Hd. apply In_nth_error in Hd as (i & Hi). pose proof (Forall2_nth_rel _ _ _ i H) as N. rewrite Hi in N.
    destruct (nth_error cs i) as [c|] eqn:Ec; [|contradiction]. destruct (D c (nth_error_In _ _ Ec)) as (D1 & D2 & D3).
    destruct N as [p q m rs b k Hp Hm]. cbn [c_prog c_reqs c_busy] in *. subst. inversion Hp; subst. repeat split.
  - exact E.
  - rewrite <- F. unfold mems_of. cbn [s_core]. clear - H. induction H as [|x y l l' Hx H IH]; [reflexivity|]. cbn [map]. rewrite IH. destruct Hx. reflexivity.
Qed.

Theorem exec_rel {A} (Inv : @rmem A -> Prop) n (code code' : nat -> list (@instr A)) M M' :
  (forall loc pl m m', Inv m -> wrm loc pl m = Some m' -> Inv m') ->
  (forall r, (r < n)%nat -> prel Inv (code r) (code' r)) -> (forall r, (r < n)%nat -> Inv (M r)) ->
  exec_to n code M M' -> exec_to n code' M M'.
Proof.
  intros HI Hc HM (L & H). exists L. intros eager labels t Ht.
  pose proof (start_rel Inv n code code' M Hc HM) as R. apply srel_sym in R.
  destruct (run_rel Inv HI n eager _ _ _ _ Ht R) as (s & Hs & Rs). apply srel_sym in Rs.
  destruct (H eager labels s Hs) as (NB & E). split.
  - intros a Ba. pose proof (step_rel Inv HI n eager a s t Rs) as Q. rewrite Ba in Q. inversion Q as [| X Y |]. apply (NB a). congruence.
  - destruct E as [(E & a & s' & Es) | (E & Fs)].
    + left. split; [assumption|]. pose proof (step_rel Inv HI n eager a s t Rs) as Q. rewrite Es in Q. inversion Q. eauto.
    + right. split; [assumption|]. eapply finished_rel; eassumption.
Qed.
