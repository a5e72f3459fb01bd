(** ScreenProofs.v : the token of output() (Screen.v): one complete run, hence all runs; the order of the printing. *)

From Verif Require Import Base Spec Sched SchedProofs MemProofs Phases Exec Screen.
Local Open Scope nat_scope.

Section Token.
Context {F : Type}.
Variable n : nat.
Notation core := (@core F).
Notation instr := (@instr F).
Notation rmem := (@rmem F).

Lemma wrm_empty loc (m : rmem) : wrm loc [] m = Some m.
Proof. unfold wrm. cbn. destruct m; reflexivity. Qed.

Lemma token_comm id loc (f : rmem -> option rmem) : slot_comm (id, loc, 0%Z) f.
Proof.
  intros pl H. cbn [snd fst] in *. assert (pl = []) as ->.
  { destruct pl; [reflexivity|]. unfold zlen in H. cbn [length] in H. lia. }
  intros m. rewrite wrm_empty. cbn. split.
  - destruct (f m) as [x|]; [|reflexivity]. cbn. destruct x; reflexivity.
  - intros m1 m2 E1 E2. injection E1 as <-. exists m2. exact E2.
Qed.

Lemma output_wf (f : nat -> rmem -> option rmem) : wf_code n (output_code n f).
Proof.
  intros r _. unfold output_code. assert (T : wf [] ([ILocal (f r)] ++ token_send n r)).
  { constructor; [intros x []|]. unfold token_send. destruct (Nat.ltb (S r) n); repeat constructor. }
  destruct r as [|p]; cbn [token_recv app]; [exact T|].
  constructor; [intros x []|]. cbn [app]. constructor.
  - discriminate.
  - intros id sl' E. cbn in E. destruct id; [|discriminate]. injection E as <-. exact T.
  - intros id sl' E. cbn in E. destruct id; [|discriminate]. injection E as <-. split; [intros x []|]. split; [intros id' sl'' _ Hd; discriminate|].
    intros H. contradiction H; reflexivity.
Qed.

(** the token goes from rank k to rank k+1 *)
Lemma handoff (g : nat -> core) k p1 m1 s1 p2 m2 s2 : S k < n ->
  g k = mkcore (ISend (S k) 0 :: p1) m1 [] false s1 ->
  g (S k) = mkcore (token_recv (S k) ++ p2) m2 [] false s2 ->
  exists l, run n strict (st n g) l (st n (upd (upd g k (mkcore p1 m1 [] false (S s1))) (S k) (mkcore p2 m2 [] false s2))).
Proof.
  intros Hk E1 E2. assert (Hk' : k < n) by lia. assert (Hne : S k <> k) by lia.
  exists [Lrank (S k); Lrank k; Ldeliver k (S k); Lrank k; Lwait (S k) 0].
  set (w := @IWaitany F (fun _ m => Some m)).
  set (c1 := mkcore (w :: p2) m2 [mkreq 0 k 0%Z 0%Z false] false s2).
  apply run_cons with (st n (upd g (S k) c1)).
  { apply (step_st_none n strict (Lrank (S k))); [exact Hk|]. cbn [owner]. rewrite E2. reflexivity. }
  set (c2 := mkcore (ISend (S k) 0%Z :: p1) m1 [] true s1).
  set (k2 := apply_eff n (ESend k (S k) []) (@empty_chans F n)).
  apply run_cons with (mkstate (tab n (upd (upd g (S k) c1) k c2)) k2).
  { unfold step, st. cbn [s_core s_ch owner]. rewrite nth_error_tab by exact Hk'. rewrite upd_other by lia. rewrite E1.
    cbn [lstep c_prog c_mem c_busy]. change (zslice (m_send m1) 0 0) with (Some (@nil F)). cbv iota beta.
    rewrite (proj2 (Nat.ltb_lt (S k) n)) by exact Hk. rewrite lupd_tab. reflexivity. }
  set (c3 := mkcore (w :: p2) m2 [mkreq 0 k 0%Z 0%Z true] false s2).
  apply run_cons with (st n (upd (upd (upd g (S k) c1) k c2) (S k) c3)).
  { unfold step. cbn [s_core s_ch owner]. rewrite nth_error_tab by exact Hk. rewrite upd_other by lia. rewrite upd_same.
    cbn [lstep]. unfold k2 at 1. cbn [apply_eff ch]. unfold mset. rewrite mget_mbuild by assumption. rewrite !Nat.eqb_refl. cbn [andb].
    cbn [ch empty_chans]. rewrite mget_mbuild by assumption. cbn [app]. unfold c1 at 1. cbn [c_reqs mark_first rq_src rq_done].
    rewrite Nat.eqb_refl. cbn [andb negb rq_len rq_loc]. change (0 <? zlen (@nil F))%Z with false. cbv iota. rewrite wrm_empty.
    rewrite lupd_tab. unfold st. f_equal. f_equal.
    unfold k2. cbn [apply_eff ch cch]. unfold empty_chans, mset. cbn [ch cch]. f_equal.
    apply mbuild_ext. intros s d Hs Hd. rewrite !mget_mbuild by assumption.
    destruct (Nat.eqb s k && Nat.eqb d (S k)); reflexivity. }
  set (c4 := mkcore p1 m1 [] false (S s1)).
  apply run_cons with (st n (upd (upd (upd (upd g (S k) c1) k c2) (S k) c3) k c4)).
  { apply (step_st_none n strict (Lrank k)); [exact Hk'|]. cbn [owner]. rewrite upd_other by lia. rewrite upd_same.
    unfold c2. cbn [lstep c_prog c_busy]. unfold strict. cbn [orb]. cbn [ch empty_chans]. rewrite mget_mbuild by assumption. reflexivity. }
  apply run_cons with (st n (upd (upd (upd (upd (upd g (S k) c1) k c2) (S k) c3) k c4) (S k) (mkcore p2 m2 [] false s2))).
  { apply (step_st_none n strict (Lwait (S k) 0)); [exact Hk|]. cbn [owner]. rewrite upd_other by lia. rewrite upd_same. reflexivity. }
  match goal with |- run _ _ (st n ?a) _ (st n ?b) => rewrite (st_ext n a b); [constructor|] end.
  intros i _. unfold upd. destruct (Nat.eqb_spec i (S k)); [reflexivity|]. destruct (Nat.eqb_spec i k); reflexivity.
Qed.

(** the state when the token is at rank k *)
Definition token_at (f : nat -> rmem -> option rmem) (M M2 : nat -> rmem) (k i : nat) : core :=
  if Nat.ltb i k then mkcore [] (M2 i) [] false 1
  else if Nat.eqb i k then mkcore (ILocal (f i) :: token_send n i) (M i) [] false 0
  else mkcore (output_code n f i) (M i) [] false 0.

Lemma token_run (f : nat -> rmem -> option rmem) (M M2 : nat -> rmem) :
  forall k, k < n -> (forall r, r < k -> f r (M r) = Some (M2 r)) -> exists l, run n strict (quiet n (output_code n f) M (fun _ => 0)) l (st n (token_at f M M2 k)).
Proof.
  induction k as [|k IH]; intros Hk Hf.
  - exists []. unfold quiet. match goal with |- run _ _ (st n ?a) _ (st n ?b) => rewrite (st_ext n a b); [constructor|] end.
    intros [|i] _; reflexivity.
  - destruct IH as (l & R); [lia|intros r Hr; apply Hf; lia|].
    assert (S1 : step n strict (Lrank k) (st n (token_at f M M2 k)) = Ok (st n (upd (token_at f M M2 k) k (mkcore [ISend (S k) 0%Z] (M2 k) [] false 0)))).
    { apply (step_st_none n strict (Lrank k)); [cbn; lia|]. cbn [owner]. unfold token_at. rewrite Nat.ltb_irrefl, Nat.eqb_refl.
      cbn [lstep c_prog c_mem]. rewrite Hf by lia. unfold token_send. rewrite (proj2 (Nat.ltb_lt (S k) n)) by exact Hk. reflexivity. }
    destruct (handoff (upd (token_at f M M2 k) k (mkcore [ISend (S k) 0%Z] (M2 k) [] false 0)) k [] (M2 k) 0
      (ILocal (f (S k)) :: token_send n (S k)) (M (S k)) 0 Hk) as (l2 & R2).
    { apply upd_same. }
    { rewrite upd_other by lia. unfold token_at. rewrite (proj2 (Nat.ltb_ge (S k) k)) by lia. rewrite (proj2 (Nat.eqb_neq (S k) k)) by lia. reflexivity. }
    exists ((l ++ [Lrank k]) ++ l2). apply run_app with (1 := run_snoc _ _ _ _ _ _ _ R S1).
    match type of R2 with run _ _ _ _ (st n ?a) => rewrite (st_ext n a (token_at f M M2 (S k))) in R2; [exact R2|] end.
    intros i _. unfold upd, token_at. destruct (Nat.eqb_spec i (S k)) as [->|H1].
    + rewrite Nat.ltb_irrefl. reflexivity.
    + destruct (Nat.eqb_spec i k) as [->|H2].
      * rewrite (proj2 (Nat.ltb_lt k (S k))) by lia. reflexivity.
      * destruct (Nat.ltb_spec i k); destruct (Nat.ltb_spec i (S k)); try lia; reflexivity.
Qed.

Lemma output_exec (f : nat -> rmem -> option rmem) (M M2 : nat -> rmem) : (forall r, r < n -> f r (M r) = Some (M2 r)) -> exec_to n (output_code n f) M M2.
Proof.
  intros Hf. destruct (Nat.eq_dec n 0) as [E|Hn].
  - apply (run_exec n _ M M2 [] (fun _ => 0)); [|apply output_wf]. unfold quiet.
    match goal with |- run _ _ (st n ?a) _ (st n ?b) => rewrite (st_ext n a b); [constructor|] end. intros i Hi; lia.
  - destruct n as [|n'] eqn:En; [contradiction|]. rewrite <- En in *.
    destruct (token_run f M M2 n') as (l & R); [lia|intros r Hr; apply Hf; lia|].
    apply (run_exec n _ M M2 (l ++ [Lrank n']) (fun i => if Nat.ltb i n' then 1 else 0)); [|apply output_wf].
    eapply run_snoc; [exact R|]. unfold quiet.
    assert (S1 : step n strict (Lrank n') (st n (token_at f M M2 n')) = Ok (st n (upd (token_at f M M2 n') n' (mkcore [] (M2 n') [] false 0)))).
    { apply (step_st_none n strict (Lrank n')); [cbn; lia|]. cbn [owner]. unfold token_at. rewrite Nat.ltb_irrefl, Nat.eqb_refl.
      cbn [lstep c_prog c_mem]. rewrite Hf by lia. unfold token_send. rewrite (proj2 (Nat.ltb_ge (S n') n)) by lia. reflexivity. }
    etransitivity; [exact S1|]. f_equal. apply st_ext. intros i Hi. unfold upd, token_at.
    destruct (Nat.eqb_spec i n') as [->|H1]; [rewrite Nat.ltb_irrefl; reflexivity|].
    rewrite (proj2 (Nat.ltb_lt i n')) by lia. reflexivity.
Qed.

(** a rank that fails when it is its turn: every execution can be led there *)
Lemma output_crash (f : nat -> rmem -> option rmem) (M M2 : nat -> rmem) k : k < n -> (forall r, r < k -> f r (M r) = Some (M2 r)) -> f k (M k) = None ->
  forall eager, exists labels s, run n eager (start n (output_code n f) M) labels s /\ step n eager (Lrank k) s = Bad.
Proof.
  intros Hk Hf Hn eager. destruct (token_run f M M2 k Hk Hf) as (l & R). exists l, (st n (token_at f M M2 k)).
  rewrite start_quiet. split; [apply run_strict, R|]. unfold step, st. cbn [s_core s_ch owner]. rewrite nth_error_tab by exact Hk.
  unfold token_at. rewrite Nat.ltb_irrefl, Nat.eqb_refl. cbn [lstep c_prog c_mem]. rewrite Hn. reflexivity.
Qed.
End Token.
