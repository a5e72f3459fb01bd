(** ScreenOrder.v : the token orders the printing in every execution.  Messages are counted: on every pair of ranks the
    sends begun, the messages under way and the receives posted balance in every reachable state. *)

From Verif Require Import Base Spec Sched SchedProofs MemProofs Phases Exec Screen ScreenProofs.
Local Open Scope nat_scope.

Section Count.
Context {F : Type}.
Variable n : nat.
Notation core := (@core F).
Notation instr := (@instr F).
Notation rmem := (@rmem F).

Definition is_send (q : nat) (i : instr) : bool := match i with ISend d _ => Nat.eqb d q | _ => false end.
Definition is_recv (p : nat) (i : instr) : bool := match i with IIrecv _ s _ _ => Nat.eqb s p | _ => false end.
Definition is_irecv (i : instr) : bool := match i with IIrecv _ _ _ _ => true | _ => false end.
Definition is_wait (i : instr) : bool := match i with IWaitany _ => true | _ => false end.
Definition cnt (P : instr -> bool) (l : list instr) : nat := length (filter P l).
Definition pend (p : nat) (rs : list req) : nat := length (filter (fun r => Nat.eqb (rq_src r) p && negb (rq_done r)) rs).
Definition flight (q : nat) (c : core) : nat :=
  match c_prog c with ISend d _ :: _ => if c_busy c && Nat.eqb d q then 1 else 0 | _ => 0 end.
Definition comm_head (l : list instr) : Prop := match l with ISend _ _ :: _ => True | IA2A _ _ :: _ => True | _ => False end.
Definition esnd (p q : nat) (e : @effect F) : nat := match e with ESend s d _ => if Nat.eqb p s && Nat.eqb q d then 1 else 0 | _ => 0 end.
Definition epop (p q : nat) (e : @effect F) : nat := match e with EPop s d => if Nat.eqb p s && Nat.eqb q d then 1 else 0 | _ => 0 end.

Lemma cnt_app P a b : cnt P (a ++ b) = cnt P a + cnt P b.
Proof. unfold cnt. rewrite filter_app, app_length. reflexivity. Qed.
Lemma cnt_nil P : cnt P [] = 0.
Proof. reflexivity. Qed.
Lemma cnt_cons P i l : cnt P (i :: l) = (if P i then 1 else 0) + cnt P l.
Proof. unfold cnt. cbn. destruct (P i); reflexivity. Qed.
Lemma pend_app p a b : pend p (a ++ b) = pend p a + pend p b.
Proof. unfold pend. rewrite filter_app, app_length. reflexivity. Qed.
Lemma pend_cons p r l : pend p (r :: l) = (if Nat.eqb (rq_src r) p && negb (rq_done r) then 1 else 0) + pend p l.
Proof. unfold pend. cbn. destruct (_ && _); reflexivity. Qed.
Lemma pend_mark p0 rs x rs' : mark_first p0 rs = Some (x, rs') -> length rs' = length rs /\
  forall p, pend p rs = pend p rs' + (if Nat.eqb p p0 then 1 else 0).
Proof.
  revert x rs'; induction rs as [|r rs IH]; intros x rs'; cbn [mark_first]; [discriminate|].
  destruct (Nat.eqb (rq_src r) p0 && negb (rq_done r)) eqn:E.
  - intros [= <- <-]. split; [reflexivity|]. intros p. rewrite !pend_cons. cbn [rq_src rq_done negb]. rewrite andb_false_r.
    apply andb_true_iff in E as (E1 & E2). rewrite E2, andb_true_r. apply Nat.eqb_eq in E1. rewrite E1. rewrite (Nat.eqb_sym p p0).
    destruct (Nat.eqb p0 p); lia.
  - destruct (mark_first p0 rs) as [[y t]|]; [|discriminate]. intros X; cbn in X; injection X as <- <-. destruct (IH y t eq_refl) as (H1 & H2).
    split; [cbn; lia|]. intros p. rewrite !pend_cons. pose proof (H2 p). lia.
Qed.
Lemma pend_take id rs rs' : take_done id rs = Some rs' -> length rs = S (length rs') /\ forall p, pend p rs = pend p rs'.
Proof.
  revert rs'; induction rs as [|r rs IH]; intros rs'; cbn [take_done]; [discriminate|].
  destruct (Nat.eqb (rq_id r) id).
  - destruct (rq_done r) eqn:E; [|discriminate]. intros [= <-]. split; [reflexivity|]. intros p. rewrite pend_cons, E. cbn [negb]. rewrite andb_false_r. reflexivity.
  - destruct (take_done id rs) as [t|]; [|discriminate]. intros X; cbn in X; injection X as <-. destruct (IH t eq_refl) as (H1 & H2). split; [cbn; lia|].
    intros p. rewrite !pend_cons. pose proof (H2 p). lia.
Qed.

Lemma qlen_eff e (k : @chans F) p q : p < n -> q < n -> (epop p q e <= length (mget (ch k) p q)) ->
  length (mget (ch (apply_eff n e k)) p q) + epop p q e = length (mget (ch k) p q) + esnd p q e.
Proof.
  intros Hp Hq. destruct e as [|s d m|s d|s g ms|g d]; cbn [apply_eff ch epop esnd]; intros H; try lia; unfold mset;
    rewrite ?mget_mbuild by assumption; destruct (Nat.eqb p s && Nat.eqb q d) eqn:E; try lia;
    apply andb_true_iff in E as (E1 & E2); apply Nat.eqb_eq in E1, E2; subst.
  - rewrite app_length. cbn. lia.
  - destruct (mget (ch k) s d); cbn in *; lia.
Qed.

(** one step of one core *)
Lemma lstep_count eager a (c : core) k c' e : lstep n eager a c k = Ok (c', e) -> (c_busy c = true -> comm_head (c_prog c)) ->
  (c_busy c' = true -> comm_head (c_prog c')) /\
  (c_prog c = c_prog c' \/ exists i, c_prog c = i :: c_prog c') /\
  length (c_reqs c) + cnt is_irecv (c_prog c) + cnt is_wait (c_prog c') = length (c_reqs c') + cnt is_irecv (c_prog c') + cnt is_wait (c_prog c) /\
  (forall q, cnt (is_send q) (c_prog c) + flight q c' = cnt (is_send q) (c_prog c') + flight q c + esnd (owner a) q e) /\
  (forall p, pend p (c_reqs c) + cnt (is_recv p) (c_prog c) = pend p (c_reqs c') + cnt (is_recv p) (c_prog c') + epop p (owner a) e) /\
  (forall p q, p <> owner a -> esnd p q e = 0) /\ (forall p q, q <> owner a -> epop p q e = 0) /\
  (forall p q, epop p q e <= length (mget (ch k) p q)).
Proof.
  destruct c as [pr m rq bz sn]. destruct a as [r|p0 q0|r id]; cbn [lstep c_prog c_mem c_reqs c_busy c_sent owner]; intros H Hb.
  - destruct pr as [|[id src loc len|f|dst len|h|g args] p]; try discriminate.
    + injection H as <- <-. assert (bz = false) as -> by (destruct bz; [destruct (Hb eq_refl)|reflexivity]).
      cbn [c_prog c_reqs c_busy esnd epop]. split; [discriminate|]. split; [right; eauto|]. split.
      { rewrite !cnt_cons, app_length. cbn. lia. } split.
      { intros q. rewrite cnt_cons. cbn [is_send]. unfold flight. cbn [c_prog c_busy]. destruct p as [|[] ?]; cbn; lia. } split.
      { intros p'. rewrite cnt_cons, pend_app, pend_cons. cbn [is_recv rq_src rq_done negb pend filter length]. rewrite andb_true_r.
        change (pend p' []) with 0. destruct (Nat.eqb src p'); lia. }
      repeat split; intros; cbn; lia.
    + destruct (f m) as [m'|]; [|discriminate]. injection H as <- <-. assert (bz = false) as -> by (destruct bz; [destruct (Hb eq_refl)|reflexivity]).
      cbn [c_prog c_reqs c_busy esnd epop]. split; [discriminate|]. split; [right; eauto|]. split.
      { rewrite !cnt_cons. cbn. lia. } split.
      { intros q. rewrite cnt_cons. cbn [is_send]. unfold flight. cbn [c_prog c_busy]. destruct p as [|[] ?]; cbn; lia. } split.
      { intros p'. rewrite cnt_cons. cbn. lia. }
      repeat split; intros; cbn; lia.
    + destruct bz.
      * destruct (_ || _); [|discriminate]. injection H as <- <-. cbn [c_prog c_reqs c_busy esnd epop].
        split; [discriminate|]. split; [right; eauto|]. split; [rewrite !cnt_cons; cbn; lia|]. split.
        { intros q. rewrite cnt_cons. cbn [is_send]. unfold flight. cbn [c_prog c_busy andb].
          assert (E : match p with ISend d _ :: _ => if false && Nat.eqb d q then 1 else 0 | _ => 0 end = 0) by (destruct p as [|[] ?]; reflexivity).
          cbn [andb] in E. rewrite E. destruct (Nat.eqb dst q); lia. } split.
        { intros p'. rewrite cnt_cons. cbn. lia. }
        repeat split; intros; cbn; lia.
      * destruct (zslice (m_send m) 0 len); [|discriminate]. destruct (Nat.ltb dst n); [|discriminate]. injection H as <- <-.
        cbn [c_prog c_reqs c_busy epop]. split; [intros _; exact I|]. split; [left; reflexivity|]. split; [lia|]. split.
        { intros q. unfold flight, esnd. cbn [c_prog c_busy andb]. rewrite Nat.eqb_refl. cbn [andb]. rewrite (Nat.eqb_sym q dst). destruct (Nat.eqb dst q); lia. } split.
        { intros p'. lia. }
        split; [|split; intros; lia]. intros p' q Hp. cbn [esnd]. apply Nat.eqb_neq in Hp. rewrite Hp. reflexivity.
    + destruct rq; discriminate.
    + destruct bz.
      * destruct (a2a_ready k r g); [|discriminate]. destruct (a2a_recv k r g g args m) as [| |m']; try discriminate. injection H as <- <-.
        cbn [c_prog c_reqs c_busy esnd epop]. split; [discriminate|]. split; [right; eauto|]. split; [rewrite !cnt_cons; cbn; lia|]. split.
        { intros q. rewrite cnt_cons. cbn [is_send]. unfold flight. cbn [c_prog c_busy]. destruct p as [|[] ?]; cbn; lia. } split.
        { intros p'. rewrite cnt_cons. cbn. lia. }
        repeat split; intros; cbn; lia.
      * destruct (_ && _)%bool; [|discriminate]. destruct (a2a_payloads m args); [|discriminate]. injection H as <- <-.
        cbn [c_prog c_reqs c_busy esnd epop]. split; [intros _; exact I|]. split; [left; reflexivity|]. split; [lia|]. split.
        { intros q. cbn. lia. } split; [intros; lia|]. repeat split; intros; cbn; lia.
  - destruct (mget (ch k) p0 q0) as [|pl t] eqn:Eq; [discriminate|]. destruct (mark_first p0 rq) as [[x rs]|] eqn:Em; [|discriminate].
    destruct (rq_len x <? zlen pl)%Z; [discriminate|]. destruct (wrm _ _ _); [|discriminate]. injection H as <- <-.
    destruct (pend_mark _ _ _ _ Em) as (L1 & L2). cbn [c_prog c_reqs c_busy esnd epop].
    split; [exact Hb|]. split; [left; reflexivity|]. split; [lia|]. split; [intros q; cbn [flight c_prog c_busy]; unfold flight; cbn [c_prog c_busy]; lia|]. split.
    { intros p'. rewrite L2, Nat.eqb_refl, andb_true_r. destruct (Nat.eqb p' p0); lia. }
    split; [reflexivity|]. split.
    { intros p' q' Hq. apply Nat.eqb_neq in Hq. rewrite Hq, andb_false_r. reflexivity. }
    intros p' q'. destruct (Nat.eqb_spec p' p0) as [->|]; [|cbn; lia]. destruct (Nat.eqb_spec q' q0) as [->|]; [|cbn; lia]. rewrite Eq. cbn. lia.
  - destruct pr as [|[id' src loc len|f|dst len|h|g args] p]; try discriminate.
    destruct (take_done id rq) as [rs|] eqn:Et; [|discriminate]. destruct (h id m); [|discriminate]. injection H as <- <-.
    assert (bz = false) as -> by (destruct bz; [destruct (Hb eq_refl)|reflexivity]). destruct (pend_take _ _ _ Et) as (L1 & L2).
    cbn [c_prog c_reqs c_busy esnd epop]. split; [discriminate|]. split; [right; eauto|]. split; [rewrite !cnt_cons; cbn; lia|]. split.
    { intros q. rewrite cnt_cons. cbn [is_send]. unfold flight. cbn [c_prog c_busy]. destruct p as [|[] ?]; cbn; lia. } split.
    { intros p'. rewrite cnt_cons, L2. cbn. lia. }
    repeat split; intros; cbn; lia.
Qed.

Definition balance (code : nat -> list instr) (s : @gstate F) : Prop :=
  length (s_core s) = n /\
  (forall r c, nth_error (s_core s) r = Some c -> (exists pre, code r = pre ++ c_prog c) /\ (c_busy c = true -> comm_head (c_prog c)) /\
     length (c_reqs c) + cnt is_wait (code r) + cnt is_irecv (c_prog c) = cnt is_irecv (code r) + cnt is_wait (c_prog c)) /\
  (forall p q cp cq, nth_error (s_core s) p = Some cp -> nth_error (s_core s) q = Some cq ->
     length (mget (ch (s_ch s)) p q) + cnt (is_recv p) (code q) + cnt (is_send q) (c_prog cp) =
     cnt (is_send q) (code p) + flight q cp + pend p (c_reqs cq) + cnt (is_recv p) (c_prog cq)).

Lemma balance_start code M : balance code (start n code M).
Proof.
  rewrite start_quiet. unfold quiet, st. split; [apply tab_length|]. cbn [s_core s_ch]. split.
  - intros r c Hc. assert (Hr : r < n). { rewrite <- (tab_length n (fun i => mkcore (code i) (M i) [] false 0)). apply nth_error_Some. congruence. }
    rewrite nth_error_tab in Hc by exact Hr. injection Hc as <-. cbn [c_prog c_reqs c_busy length]. split; [exists []; reflexivity|]. split; [discriminate|lia].
  - intros p q cp cq Hp Hq.
    assert (Hp' : p < n). { rewrite <- (tab_length n (fun i => mkcore (code i) (M i) [] false 0)). apply nth_error_Some. congruence. }
    assert (Hq' : q < n). { rewrite <- (tab_length n (fun i => mkcore (code i) (M i) [] false 0)). apply nth_error_Some. congruence. }
    rewrite nth_error_tab in Hp, Hq by assumption. injection Hp as <-. injection Hq as <-. cbn [ch empty_chans]. rewrite mget_mbuild by assumption.
    cbn [length c_prog c_reqs pend filter]. unfold flight, pend. cbn [c_prog c_busy andb filter length].
    assert (E : match code p with ISend d _ :: _ => 0 | _ => 0 end = 0) by (destruct (code p) as [|[] ?]; reflexivity). rewrite E. lia.
Qed.

Lemma balance_step code eager a (s s' : @gstate F) : balance code s -> step n eager a s = Ok s' -> balance code s'.
Proof.
  intros (B1 & B2 & B3). unfold step. destruct (nth_error (s_core s) (owner a)) as [c|] eqn:Ec; [|discriminate].
  destruct (lstep n eager a c (s_ch s)) as [| |[c' e]] eqn:El; try discriminate. intros [= <-].
  destruct (B2 _ _ Ec) as ((pre & Hpre) & Hb & Hw).
  destruct (lstep_count _ _ _ _ _ _ El Hb) as (L1 & L2 & L3 & L4 & L5 & L6 & L7 & L8).
  assert (Ho : owner a < length (s_core s)) by (apply nth_error_Some; congruence).
  unfold balance. cbn [s_core s_ch]. rewrite lupd_length. split; [exact B1|]. split.
  - intros r c1 Hc1. destruct (Nat.eq_dec r (owner a)) as [->|Hne].
    + rewrite nth_error_lupd_same in Hc1 by exact Ho. injection Hc1 as <-. split.
      { destruct L2 as [E|(i & E)]; [exists pre; congruence|]. exists (pre ++ [i]). rewrite <- app_assoc. cbn. congruence. }
      split; [exact L1|]. lia.
    + rewrite nth_error_lupd_other in Hc1 by congruence. apply B2, Hc1.
  - intros p q cp' cq' Hp Hq.
    assert (Pn : p < n). { rewrite <- B1, <- (lupd_length (s_core s) (owner a) c'). apply nth_error_Some. congruence. }
    assert (Qn : q < n). { rewrite <- B1, <- (lupd_length (s_core s) (owner a) c'). apply nth_error_Some. congruence. }
    assert (OutP : exists cp, nth_error (s_core s) p = Some cp /\
      cnt (is_send q) (c_prog cp) + flight q cp' = cnt (is_send q) (c_prog cp') + flight q cp + esnd p q e).
    { destruct (Nat.eq_dec p (owner a)) as [->|Hne].
      - rewrite nth_error_lupd_same in Hp by exact Ho. injection Hp as <-. exists c. split; [exact Ec|apply L4].
      - rewrite nth_error_lupd_other in Hp by congruence. exists cp'. split; [exact Hp|]. rewrite L6 by exact Hne. lia. }
    assert (InQ : exists cq, nth_error (s_core s) q = Some cq /\
      pend p (c_reqs cq) + cnt (is_recv p) (c_prog cq) = pend p (c_reqs cq') + cnt (is_recv p) (c_prog cq') + epop p q e).
    { destruct (Nat.eq_dec q (owner a)) as [->|Hne].
      - rewrite nth_error_lupd_same in Hq by exact Ho. injection Hq as <-. exists c. split; [exact Ec|apply L5].
      - rewrite nth_error_lupd_other in Hq by congruence. exists cq'. split; [exact Hq|]. rewrite L7 by exact Hne. lia. }
    destruct OutP as (cp & P1 & P2). destruct InQ as (cq & Q1 & Q2). pose proof (B3 p q cp cq P1 Q1) as E.
    pose proof (qlen_eff e (s_ch s) p q Pn Qn (L8 p q)). lia.
Qed.

Lemma balance_run code eager (s : @gstate F) l s' : run n eager s l s' -> balance code s -> balance code s'.
Proof. induction 1 as [|s0 a s1 l0 s2 Hs _ IH]; auto. intros B. apply IH. eapply balance_step; eassumption. Qed.

(** the sends and receives of a code that runs to its end match *)
Lemma balanced code M M' : exec_to n code M M' ->
  (forall p q, p < n -> q < n -> cnt (is_recv p) (code q) = cnt (is_send q) (code p)) /\
  (forall r, r < n -> cnt is_wait (code r) = cnt is_irecv (code r)).
Proof.
  intros HE. destruct (exec_complete n _ _ _ strict HE) as (l & s & R & Fi). destruct (finished_quiet n _ _ Fi) as (sent & ->).
  pose proof (balance_run _ _ _ _ _ R (balance_start code M)) as (_ & B2 & B3).
  assert (N : forall r, r < n -> nth_error (s_core (quiet n (fun _ => []) M' sent)) r = Some (mkcore [] (M' r) [] false (sent r))).
  { intros r Hr. unfold quiet, st. cbn [s_core]. rewrite nth_error_tab by exact Hr. reflexivity. }
  split.
  - intros p q Hp Hq. pose proof (B3 p q _ _ (N p Hp) (N q Hq)) as E. unfold quiet, st in E. cbn [s_ch ch empty_chans] in E. rewrite mget_mbuild in E by assumption.
    change (length []) with 0 in E. cbn [c_prog c_reqs] in E. change (flight q _) with 0 in E. change (pend p []) with 0 in E. rewrite ?cnt_nil in E. lia.
  - intros r Hr. destruct (B2 r _ (N r Hr)) as (_ & _ & E). cbn [c_prog c_reqs length] in E. rewrite ?cnt_nil in E. lia.
Qed.

Lemma suffix_tail {X} (pre x a b : list X) : pre ++ x = a ++ b -> length b <= length x -> exists y, x = y ++ b.
Proof.
  revert a; induction pre as [|h pre IH]; intros a E L; [exists a; exact E|].
  destruct a as [|h' a]; cbn in E.
  - subst b. cbn in L. rewrite app_length in L. lia.
  - injection E as _ E. exact (IH a E L).
Qed.

Section Order.
Variables (pre post : nat -> list instr) (f : nat -> rmem -> option rmem) (M M1 : nat -> rmem).
Hypothesis Hpre : exec_to n pre M M1.
Let code (r : nat) : list instr := pre r ++ output_code n f r ++ post r.
Let rest (r : nat) : list instr := token_send n r ++ post r.

Lemma code_tail r : code r = (pre r ++ token_recv r) ++ ILocal (f r) :: rest r.
Proof. unfold code, output_code, rest. rewrite <- !app_assoc. reflexivity. Qed.

(** rank k+1 about to print: rank k has printed *)
Lemma turn k s c1 c2 : S k < n -> balance code s -> nth_error (s_core s) k = Some c1 -> nth_error (s_core s) (S k) = Some c2 ->
  c_prog c2 = ILocal (f (S k)) :: rest (S k) -> length (c_prog c1) <= length (rest k).
Proof.
  intros Hk (_ & B2 & B3) E1 E2 Ep. destruct (balanced pre M M1 Hpre) as (A1 & A2).
  specialize (A1 k (S k) ltac:(lia) Hk). specialize (A2 (S k) Hk).
  destruct (B2 _ _ E2) as (_ & _ & W). pose proof (B3 _ _ _ _ E1 E2) as Q. destruct (B2 _ _ E1) as ((x & Hx) & _ & _).
  rewrite Ep in W, Q. rewrite (code_tail (S k)) in W, Q. cbn [token_recv] in W, Q.
  repeat (rewrite cnt_app in W || rewrite cnt_cons in W). repeat (rewrite cnt_app in Q || rewrite cnt_cons in Q). cbn [is_wait is_irecv is_recv] in W, Q. rewrite Nat.eqb_refl in Q.
  repeat rewrite cnt_nil in W. repeat rewrite cnt_nil in Q.
  assert (R0 : c_reqs c2 = []) by (destruct (c_reqs c2); [reflexivity|cbn [length] in W; lia]). rewrite R0 in Q. change (pend k []) with 0 in Q.
  destruct (Nat.le_gt_cases (length (c_prog c1)) (length (rest k))) as [L|L]; [exact L|exfalso].
  rewrite code_tail in Hx. destruct (suffix_tail _ _ _ _ (eq_sym Hx)) as (y & Hy); [cbn [length]; lia|].
  rewrite (code_tail k) in Q. repeat (rewrite cnt_app in Q || rewrite cnt_cons in Q). cbn [is_send] in Q.
  assert (Tk : cnt (is_send (S k)) (rest k) = 1 + cnt (is_send (S k)) (post k)).
  { unfold rest, token_send. rewrite (proj2 (Nat.ltb_lt (S k) n)) by exact Hk. rewrite cnt_app, cnt_cons. cbn [is_send]. rewrite Nat.eqb_refl. reflexivity. }
  assert (T0 : cnt (is_send (S k)) (token_recv k) = 0) by (destruct k; reflexivity). rewrite T0 in Q.
  assert (S1 : cnt (is_send (S k)) (c_prog c1) = cnt (is_send (S k)) y + cnt (is_send (S k)) (rest k)).
  { rewrite Hy, cnt_app, cnt_cons. reflexivity. }
  assert (FL : flight (S k) c1 <= cnt (is_send (S k)) y).
  { unfold flight. rewrite Hy. destruct y as [|i y]; [cbn; lia|]. cbn [app]. rewrite cnt_cons. destruct i as [| |d ?| |]; cbn [is_send]; try lia.
    destruct (c_busy c1); cbn [andb]; destruct (Nat.eqb d (S k)); lia. }
  lia.
Qed.

Lemma printed_step eager a (s s' : @gstate F) r : step n eager a s = Ok s' -> has_printed r (rest r) s -> has_printed r (rest r) s'.
Proof.
  unfold step. destruct (nth_error (s_core s) (owner a)) as [c|] eqn:Ec; [|discriminate].
  destruct (lstep n eager a c (s_ch s)) as [| |[c' e]] eqn:El; try discriminate. intros [= <-] (c0 & H1 & H2).
  unfold has_printed. cbn [s_core]. destruct (Nat.eq_dec r (owner a)) as [->|Hne].
  - exists c'. split; [apply nth_error_lupd_same, nth_error_Some; congruence|].
    assert (c0 = c) as -> by congruence. clear -El H2. revert El H2. destruct c as [pr m rq bz sn].
    assert (K : forall p : list instr, c_prog c' = p -> forall i, length (i :: p) <= length (rest (owner a)) -> length (c_prog c') <= length (rest (owner a))).
    { intros p -> i. cbn. lia. }
    destruct a as [r|p q|r id]; cbn [lstep c_prog c_mem c_reqs c_busy c_sent owner] in *.
    + destruct pr as [|[id src loc len|f0|dst len|h|g args] p]; try discriminate.
      * intros [= <- _]. exact (K _ eq_refl _).
      * destruct (f0 m); [|discriminate]. intros [= <- _]. exact (K _ eq_refl _).
      * destruct bz; [destruct (_ || _); [|discriminate]; intros [= <- _]; exact (K _ eq_refl _)|].
        destruct (zslice _ _ _); [|discriminate]. destruct (Nat.ltb dst n); [|discriminate]. intros [= <- _]. auto.
      * destruct rq; discriminate.
      * destruct bz; [destruct (a2a_ready _ _ _); [|discriminate]; destruct (a2a_recv _ _ _ _ _ _); try discriminate; intros [= <- _]; exact (K _ eq_refl _)|].
        destruct (_ && _)%bool; [|discriminate]. destruct (a2a_payloads _ _); [|discriminate]. intros [= <- _]. auto.
    + destruct (mget _ _ _); [discriminate|]. destruct (mark_first p rq) as [[x rs]|]; [|discriminate]. destruct (_ <? _)%Z; [discriminate|].
      destruct (wrm _ _ _); [|discriminate]. intros [= <- _]. auto.
    + destruct pr as [|[id' src loc len|f0|dst len|h|g args] p]; try discriminate.
      destruct (take_done _ _); [|discriminate]. destruct (h id m); [|discriminate]. intros [= <- _]. exact (K _ eq_refl _).
  - exists c0. split; [rewrite nth_error_lupd_other by congruence; exact H1|exact H2].
Qed.

Lemma order_next eager (s : @gstate F) l s' k : S k < n -> run n eager s l s' -> balance code s ->
  (has_printed (S k) (rest (S k)) s -> has_printed k (rest k) s) -> has_printed (S k) (rest (S k)) s' -> has_printed k (rest k) s'.
Proof.
  intros Hk R. induction R as [|s a s1 l s2 Hs _ IH]; auto. intros B HP. apply IH; [eapply balance_step; eassumption|].
  intros (c' & H1 & H2). pose proof B as (B1 & B2 & _).
  destruct (nth_error (s_core s) k) as [ck|] eqn:Ek; [|apply nth_error_None in Ek; lia].
  destruct (nth_error (s_core s) (S k)) as [c|] eqn:Ec; [|apply nth_error_None in Ec; lia].
  destruct (Nat.le_gt_cases (length (c_prog c)) (length (rest (S k)))) as [L|L].
  - apply (printed_step eager a s); [exact Hs|]. apply HP. exists c. auto.
  - apply (printed_step eager a s); [exact Hs|]. exists ck. split; [exact Ek|].
    destruct (B2 _ _ Ec) as ((x & Hx) & Hb & _). apply (turn k s ck c Hk B Ek Ec).
    assert (Lc : length (c_prog c) <= S (length (c_prog c'))).
    { unfold step in Hs. destruct (nth_error (s_core s) (owner a)) as [co|] eqn:Eo; [|discriminate].
      destruct (lstep n eager a co (s_ch s)) as [| |[c1 e]] eqn:El; try discriminate. injection Hs as <-. cbn [s_core] in H1.
      destruct (Nat.eq_dec (S k) (owner a)) as [E|Hne].
      - rewrite <- E in H1, Eo. assert (co = c) as -> by congruence.
        rewrite nth_error_lupd_same in H1 by (apply nth_error_Some; congruence). injection H1 as <-.
        destruct (lstep_count _ _ _ _ _ _ El Hb) as (_ & [E'|(i & E')] & _); rewrite E'; cbn; lia.
      - rewrite nth_error_lupd_other in H1 by congruence. replace c' with c by congruence. lia. }
    rewrite code_tail in Hx. destruct (suffix_tail _ _ _ _ (eq_sym Hx)) as (y & Hy); [cbn [length]; lia|].
    destruct y as [|i y]; [exact Hy|]. exfalso. rewrite Hy in Lc. cbn [app length] in Lc. rewrite app_length in Lc. cbn [length] in Lc. lia.
Qed.

Theorem order_all eager labels s : run n eager (start n code M) labels s ->
  forall p q, p <= q -> q < n -> has_printed q (rest q) s -> has_printed p (rest p) s.
Proof.
  intros R p q Hpq. induction Hpq as [|q Hpq IH]; intros Hq; [auto|]. intros H. apply IH; [lia|].
  refine (order_next eager _ _ _ q Hq R (balance_start code M) _ H).
  intros (c & H1 & H2). exfalso. rewrite start_quiet in H1. unfold quiet, st in H1. cbn [s_core] in H1. rewrite nth_error_tab in H1 by exact Hq.
  injection H1 as <-. cbn [c_prog] in H2. rewrite code_tail, app_length in H2. cbn [length] in H2. lia.
Qed.
End Order.
End Count.
