(** OpsSeq.v : sequences of operations, each of which runs to its end from any memory of the right
    size and whose results depend only on the cells it reads. *)

From Verif Require Import Base Spec Pack3d Sched SchedProofs Phases Exec Remap RemapMain RemapInst
  Remap3d RemapThms RemapTop Setup3d Kiss KissPure Fft1d Fft3d Frame Fft3dMain Ops.
Local Open Scope Z_scope.

Section Seq.
Context {F A : Type}.
Variables (n : nat) (size : nat -> Z).   (* size r: complex values of a data array of rank r *)

(** from M to M' the lengths of all arrays stay, arrays not in [bs] stay, and so do all cells of the
    data arrays beyond the first 2*size *)
Definition still (bs : list bsel) (M M' : nat -> @rmem F) : Prop := forall r, (r < n)%nat ->
  (forall b, zlen (getb b (M' r)) = zlen (getb b (M r))) /\
  (forall b, isdata b -> ~ In b bs -> getb b (M' r) = getb b (M r)) /\
  (forall b x, isdata b -> ~ (0 <= x < 2 * size r) -> zget (getb b (M' r)) x = zget (getb b (M r)) x).

Lemma still_refl M : still [] M M. Proof. intros r _. repeat split; auto. Qed.
Lemma still_trans a b M M1 M2 : still a M M1 -> still b M1 M2 -> still (a ++ b) M M2.
Proof.
  intros H1 H2 r Hr. destruct (H1 r Hr) as (A1 & A2 & A3). destruct (H2 r Hr) as (B1 & B2 & B3). split; [|split].
  - intros x. rewrite B1. apply A1.
  - intros x Hd Hn. rewrite B2; [apply A2; [exact Hd|]|exact Hd|]; intros Hin; apply Hn, in_or_app; auto.
  - intros x y Hd Hy. rewrite B3 by assumption. apply A3; assumption.
Qed.
Lemma framed_still b M M' : isdata b -> (forall r, (r < n)%nat -> framed M b (fun r => 2 * size r) r (M' r)) -> still [b] M M'.
Proof.
  intros Hb H r Hr. destruct (H r Hr) as (A1 & A2 & A3). split; [exact A1|]. split.
  - intros x Hx Hn. apply A2; [exact Hx|]. intros ->. apply Hn. left. reflexivity.
  - intros x y Hx Hy. assert (D : x = b \/ x <> b) by (destruct x, b; auto; right; discriminate).
    destruct D as [-> | D]; [apply A3, Hy|]. rewrite A2 by assumption. reflexivity.
Qed.

Variables (code : A -> nat -> list (@instr F)) (ok : (nat -> @rmem F) -> A -> Prop) (wr : A -> list bsel)
  (reads gives : A -> bsel -> nat -> Z -> Prop).
Definition agree_on (S : bsel -> nat -> Z -> Prop) (M M' : nat -> @rmem F) : Prop :=
  forall b r x, (r < n)%nat -> S b r x -> zget (getb b (M' r)) x = zget (getb b (M r)) x.
Definition same_result (S : bsel -> nat -> Z -> Prop) (M M' : nat -> @rmem F) : Prop :=
  forall b r x, (r < n)%nat -> S b r x -> exists v, zget (getb b (M r)) x = Some v /\ zget (getb b (M' r)) x = Some v.
Definition same_lens (M M' : nat -> @rmem F) : Prop := forall r b, (r < n)%nat -> zlen (getb b (M' r)) = zlen (getb b (M r)).

Hypothesis H_lens : forall M M' a, same_lens M M' -> ok M a -> ok M' a.
Hypothesis H_wf : forall M a, ok M a -> wf_code n (code a).
Hypothesis H_run : forall M Mf a, ok M a -> ok Mf a -> agree_on (reads a) M Mf ->
  exists M' Mf', exec_to n (code a) M M' /\ exec_to n (code a) Mf Mf' /\ still (wr a) M M' /\ same_result (gives a) M' Mf'.

Lemma still_lens bs M M' : still bs M M' -> same_lens M M'.
Proof. intros H r b Hr. apply (H r Hr). Qed.

Lemma acts_run l : forall M, Forall (ok M) l -> exists M', one_by_one n (map code l) M M' /\ still (flat_map wr l) M M'.
Proof.
  induction l as [|a l IH]; intros M Hok.
  - exists M. split; [constructor|apply still_refl].
  - inversion Hok as [|? ? Ha Hl]; subst. destruct (H_run M M a Ha Ha) as (M1 & _ & E1 & _ & S1 & _); [intros b r x _ _; reflexivity|].
    destruct (IH M1) as (M2 & E2 & S2).
    { eapply Forall_impl; [|exact Hl]. intros c Hc. eapply H_lens; [eapply still_lens; exact S1|exact Hc]. }
    exists M2. split; [econstructor; eassumption|]. cbn [flat_map]. eapply still_trans; eassumption.
Qed.

Lemma start_ext cd (X Y M : nat -> @rmem F) : exec_to n cd X M -> (forall r, (r < n)%nat -> X r = Y r) -> exec_to n cd Y M.
Proof.
  intros (L & H) E. exists L. assert (Es : start n cd Y = start n cd X).
  { unfold start. f_equal. apply map_ext_in. intros r Hin. symmetry. apply E. apply in_seq in Hin. lia. }
  rewrite Es. exact H.
Qed.

Lemma sequence l M0 : Forall (ok M0) l ->
  (exists M', exec_to n (together (map code l)) M0 M' /\ still (flat_map wr l) M0 M') /\
  forall pre a post M1, l = pre ++ a :: post -> exec_to n (together (map code pre)) M0 M1 ->
    exists M2, exec_to n (code a) M1 M2 /\ exec_to n (together (map code (pre ++ [a]))) M0 M2 /\
    forall Mf, ok Mf a -> agree_on (reads a) M1 Mf -> exists Mf2, exec_to n (code a) Mf Mf2 /\ same_result (gives a) M2 Mf2.
Proof.
  intros Hok.
  assert (Wf : forall cs, Forall (ok M0) cs -> Forall (wf_code n) (map code cs)).
  { intros cs H. apply Forall_map. eapply Forall_impl; [|exact H]. intros c Hc. eapply H_wf; exact Hc. }
  split.
  - destruct (acts_run l M0 Hok) as (M' & E & S). exists M'. split; [|exact S]. apply one_by_one_together; [apply Wf, Hok|exact E].
  - intros pre a post M1 Hsp E1. subst l. apply Forall_app in Hok as (Hpre & Hrest). inversion Hrest as [|? ? Ha Hpost]; subst.
    destruct (acts_run pre M0 Hpre) as (M1' & B1 & L1).
    pose proof (one_by_one_together n _ _ _ (Wf pre Hpre) B1) as E1'. pose proof (exec_to_ext n _ _ _ _ E1' E1) as Eq.
    assert (L1' : same_lens M0 M1). { intros r b Hr. rewrite <- (Eq r Hr). apply (still_lens _ _ _ L1 r b Hr). }
    pose proof (H_lens M0 M1 a L1' Ha) as Ha1.
    destruct (H_run M1 M1 a Ha1 Ha1) as (M2 & _ & E2 & _ & _ & _); [intros b r x _ _; reflexivity|].
    exists M2. split; [exact E2|]. split.
    + rewrite map_app. apply one_by_one_together.
      * apply Forall_app. split; [apply Wf, Hpre|]. constructor; [eapply H_wf; exact Ha|constructor].
      * eapply obo_app; [exact B1|]. econstructor; [|constructor]. eapply start_ext; [exact E2|]. intros r Hr. symmetry. apply Eq, Hr.
    + intros Mf Hf Hs. destruct (H_run M1 Mf a Ha1 Hf Hs) as (Ma & Mb & Ea & Eb & _ & K). exists Mb. split; [exact Eb|].
      intros b r x Hr Hg. rewrite <- (exec_to_ext n _ _ _ _ Ea E2 r Hr). apply K; assumption.
Qed.
End Seq.

(** ** the barrier *)
Section Barrier.
Context {F : Type}.
Variable n : nat.

Lemma payloads_none (m : @rmem F) k : a2a_payloads m (repeat (0, 0, 0, 0) k) = Some (repeat [] k).
Proof.
  induction k as [|k IH]; [reflexivity|]. cbn [repeat a2a_payloads]. rewrite IH.
  assert (E : zslice (m_send m) 0 0 = Some []) by (unfold zslice; reflexivity). rewrite E. reflexivity.
Qed.
Lemma barrier_wf : wf_code n (@barrier F n).
Proof. intros r Hr. unfold barrier. repeat constructor. Qed.

Lemma wr_none (l : list (@rmem F -> option rmem)) m : (forall w, In w l -> forall m', m_recv m' = m_recv m -> w m' = Some (set_recv m' (m_recv m'))) ->
  seqf l m = Some m.
Proof.
  induction l as [|w l IH]; intros H; [reflexivity|]. cbn [seqf]. rewrite (H w (or_introl eq_refl) m eq_refl).
  cbn [bind]. replace (set_recv m (m_recv m)) with m by (destruct m; reflexivity). apply IH. intros w' Hw'. apply H. right. exact Hw'.
Qed.

Lemma barrier_triple (pre : nat -> @rmem F -> Prop) : triple n strict pre (barrier n) pre.
Proof.
  pose proof (triple_a2a (A := F) n strict (fun _ => seq 0 n) (fun _ => repeat (0, 0, 0, 0) n) (fun _ _ => [])) as T.
  assert (L : length (seq 0 n) = length (repeat (0, 0, 0, 0) n)) by (rewrite seq_length, repeat_length; reflexivity).
  specialize (T ltac:(intros r Hr _; apply in_seq; lia) ltac:(intros r s Hr Hs; apply in_seq in Hs; split; [lia|reflexivity]) ltac:(intros; exact L)).
  assert (Hc : forall r s sc sd rc rd, (r < n)%nat -> In (s, (sc, sd, rc, rd)) (combine (seq 0 n) (repeat (0, 0, 0, 0) n)) -> zlen (@nil F) = rc).
  { intros r s sc sd rc rd _ Hin. apply in_combine_r in Hin. apply repeat_spec in Hin. injection Hin as -> -> -> ->. reflexivity. }
  specialize (T Hc pre pre).
  intros M rest sent HM. destruct n as [|k] eqn:En.
  { exists M, [], sent. split; [intros r Hr; lia|]. constructor. }
  apply T; [|  |exact HM].
  - intros r m _ Hg. discriminate.
  - intros r m Hr _ Hp. split.
    + rewrite payloads_none. f_equal. clear. generalize 0%nat. induction (S k) as [|j IH]; intros b; [reflexivity|]. cbn. f_equal. apply IH.
    + exists m. split; [|exact Hp]. apply wr_none. intros w Hw m' Hm'. apply in_map_iff in Hw as ((s & [[[a b] c] d]) & <- & Hin).
      apply in_combine_r in Hin. apply repeat_spec in Hin. injection Hin as -> -> -> ->. reflexivity.
Qed.
End Barrier.
