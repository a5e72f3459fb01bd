(** Objects.v : programs that use several objects (FFT3d, FFT2d, Remap3d, Remap2d) on one communicator.

    Every operation takes its arrays as arguments, so they are shared by all objects here.  So are the
    send and receive buffers: setup_memory() and remap() let the caller hand the same buffers to several
    objects, and an object's own buffers are a special case (what they contain before a call never matters). *)

From Verif Require Import Base Spec Pack3d Pack2d Sched SchedProofs Phases Exec Remap RemapMain RemapInst
  Remap3d Remap2d RemapThms RemapTop Layout Setup3d Setup2d Kiss KissPure Fft1d Fft3d Frame Fft3dMain Fft3dTop Fft2d Fft2dTop Ops OpsSeq OpsProofs.
Local Open Scope Z_scope.

Section Objects.
Context {F : Type}.

(** an FFT3d or FFT2d object after setup: its arguments and what setup computed (fft3d.cpp:237-641, fft2d.cpp:219-555) *)
Record obj3 := mkobj3 { q_ar : areas; q_st : settings; q_N : Z * Z * Z; q_perm : Z; q_ins : nat -> box3; q_outs : nat -> box3; q_fft : fft3; q_plans : @plans3 F }.
Record obj2 := mkobj2 { d_ar : areas; d_st : settings; d_N : Z * Z; d_perm : Z; d_ins : nat -> box2; d_outs : nat -> box2; d_fft : fft2; d_plans : @plans2 F }.
(** Remap2d::remap of one object, as [leg3] for Remap3d *)
Record leg2 := mkleg2 { h_coll : bool; h_pack : Z; h_nq : Z; h_perm : Z; h_ins : nat -> box2; h_outs : nat -> box2; h_din : bsel; h_dout : bsel }.

(** one call that all ranks make *)
Inductive job :=
| JFft3 (o : obj3) (a : @act F)
| JFft2 (o : obj2) (a : @act F)
| JRemap3 (l : leg3)
| JRemap2 (l : leg2)
| JBarrier                                              (* the caller's MPI_Barrier *)
| JFill (b : bsel) (w : nat -> list F -> option (list F)).   (* the caller writes its array *)

Variables (O : sops F) (cexp : bool -> Z -> Z -> F * F) (rnorm : Z -> F) (esize : Z) (n : nat).

Definition leg2_code (l : leg2) : nat -> list (@instr F) :=
  remap2 esize n (h_coll l) (h_pack l) (h_nq l) (h_perm l) (h_ins l) (h_outs l) (h_din l) (h_dout l).
Definition job_code (j : job) : nat -> list (@instr F) :=
  match j with
  | JFft3 o a => act_code3 O rnorm (q_fft o) (q_plans o) a
  | JFft2 o a => act_code2 O rnorm esize (d_fft o) (d_plans o) a
  | JRemap3 l => leg3_code n l
  | JRemap2 l => leg2_code l
  | JBarrier => barrier n
  | JFill b w => filling b w
  end.
Definition jobs_code (l : list job) : nat -> list (@instr F) := together (map job_code l).

(** ** specification *)
Variable size : nat -> Z.     (* an upper bound of all fftsizes; in complex values *)
Definition leg2_ok (M0 : nat -> @rmem F) (l : leg2) : Prop :=
  perm_ok2 (h_perm l) /\ 0 < h_nq l /\ disjoint_owners2 n (h_ins l) /\
  call_ok2 esize n (h_nq l) (h_perm l) (h_ins l) (h_outs l) (h_coll l) (h_pack l) (h_din l) (h_dout l) M0.
Definition job_ok (M : nat -> @rmem F) (j : job) : Prop :=
  match j with
  | JFft3 o a => ready3 (q_ar o) n (q_st o) (q_N o) (q_perm o) (q_ins o) (q_outs o) (q_fft o) /\ setup_ffts3 cexp (q_N o) = Some (q_plans o) /\
      (forall r, (r < n)%nat -> f_fftsize (q_fft o) r <= size r) /\ act_ok3 n (q_st o) (q_fft o) M a
  | JFft2 o a => ready2 esize (d_ar o) n (d_st o) (d_N o) (d_perm o) (d_ins o) (d_outs o) (d_fft o) /\ setup_ffts2 cexp (d_N o) = Some (d_plans o) /\
      (forall r, (r < n)%nat -> t_fftsize (d_fft o) r <= size r) /\ act_ok2 n (d_st o) (d_fft o) M a
  | JRemap3 l => leg3_ok n M l /\ forall r, (r < n)%nat -> l_nq l * vol3 (l_outs l r) <= 2 * size r
  | JRemap2 l => leg2_ok M l /\ forall r, (r < n)%nat -> h_nq l * vol2 (h_outs l r) <= 2 * size r
  | JBarrier => True
  | JFill b w => fill_ok n size b w M
  end.
Definition job_writes (j : job) : list bsel :=
  match j with JFft3 _ a | JFft2 _ a => writes a | JRemap3 l => [l_dout l] | JRemap2 l => [h_dout l] | JBarrier => [] | JFill b _ => [b] end.
(** the cells from which the result of the call is computed, and the cells that hold it *)
Definition job_reads (j : job) (b : bsel) (r : nat) (x : Z) : Prop :=
  match j with
  | JFft3 o a => reads3 (q_perm o) (q_ins o) (q_outs o) (q_fft o) a b r x
  | JFft2 o a => reads2 (d_perm o) (d_ins o) (d_outs o) (d_fft o) a b r x
  | JRemap3 l => b = l_din l /\ 0 <= x < l_nq l * vol3 (l_ins l r)
  | JRemap2 l => b = h_din l /\ 0 <= x < h_nq l * vol2 (h_ins l r)
  | JBarrier => False
  | JFill bi _ => b = bi
  end.
Definition job_gives (j : job) (b : bsel) (r : nat) (x : Z) : Prop :=
  match j with
  | JFft3 o a => gives3 (q_perm o) (q_ins o) (q_outs o) (q_fft o) a b r x
  | JFft2 o a => gives2 (d_perm o) (d_ins o) (d_outs o) (d_fft o) a b r x
  | JRemap3 l => b = l_dout l /\ exists p q s, inb3 p (l_outs l r) /\ (s < n)%nat /\ inb3 p (l_ins l s) /\ 0 <= q < l_nq l /\ x = cell3 (l_nq l) (l_perm l) (l_outs l r) p q
  | JRemap2 l => b = h_dout l /\ exists p q s, inb2 p (h_outs l r) /\ (s < n)%nat /\ inb2 p (h_ins l s) /\ 0 <= q < h_nq l /\ x = cell2 (h_nq l) (h_perm l) (h_outs l r) p q
  | JBarrier => False
  | JFill bo _ => b = bo /\ 0 <= x < 2 * size r
  end.

(** an order in which two lists of calls can be interleaved *)
Inductive merge {A : Type} : list A -> list A -> list A -> Prop :=
| merge_nil : merge [] [] []
| merge_l a l1 l2 l : merge l1 l2 l -> merge (a :: l1) l2 (a :: l)
| merge_r a l1 l2 l : merge l1 l2 l -> merge l1 (a :: l2) (a :: l).
(** every call reads only what the call before it produced (the first one: cells of [S]), and the cells the last one produces *)
Fixpoint fed (S : bsel -> nat -> Z -> Prop) (l : list job) : Prop :=
  match l with [] => True | j :: t => (forall b r x, (r < n)%nat -> job_reads j b r x -> S b r x) /\ fed (job_gives j) t end.
Fixpoint produced (S : bsel -> nat -> Z -> Prop) (l : list job) : bsel -> nat -> Z -> Prop :=
  match l with [] => S | j :: t => produced (job_gives j) t end.
Definition array_of (b0 : bsel) (b : bsel) (_ : nat) (_ : Z) : Prop := b = b0.
Definition only_writes (b : bsel) (j : job) : Prop := forall b', In b' (job_writes j) -> b' = b.

(** ** proofs *)
Lemma still_le (k k' : nat -> Z) bs (M M' : nat -> @rmem F) : (forall r, (r < n)%nat -> k r <= k' r) -> still n k bs M M' -> still n k' bs M M'.
Proof.
  intros Hk H r Hr. destruct (H r Hr) as (A & B & C). split; [exact A|]. split; [exact B|].
  intros b x Hb Hx. apply C; [exact Hb|]. specialize (Hk r Hr). lia.
Qed.

Lemma leg2_lens (M0 M1 : nat -> @rmem F) l : same_lens n M0 M1 -> leg2_ok M0 l -> leg2_ok M1 l.
Proof.
  intros E (H1 & H2 & H3 & H4 & H5 & H6 & H7 & H8 & H9). repeat (split; [assumption|]). split.
  - intros r Hr. rewrite !E by exact Hr. apply H8, Hr.
  - intros r pl Hr Hs. pose proof (H9 r pl Hr Hs) as H. pose proof (E r BSend Hr) as E1. pose proof (E r BRecv Hr) as E2. cbn in E1, E2.
    rewrite E1, E2. exact H.
Qed.

Lemma job_lens (M M' : nat -> @rmem F) j : same_lens n M M' -> job_ok M j -> job_ok M' j.
Proof.
  intros HL. destruct j as [o a|o a|l|l| |b w]; cbn [job_ok]; auto.
  - intros (A & B & C & D). split; [exact A|]. split; [exact B|]. split; [exact C|]. eapply act_lens3; eassumption.
  - intros (A & B & C & D). split; [exact A|]. split; [exact B|]. split; [exact C|]. eapply act_lens2; eassumption.
  - intros (A & B). split; [|exact B]. eapply leg3_lens; [|exact A]. intros r b Hr. apply HL, Hr.
  - intros (A & B). split; [|exact B]. eapply leg2_lens; eassumption.
  - intros (A & B). split; [exact A|]. intros r l Hrn Hl. apply B; [exact Hrn|]. rewrite Hl. apply HL, Hrn.
Qed.

Lemma job_wf (M : nat -> @rmem F) j : job_ok M j -> wf_code n (job_code j).
Proof.
  destruct j as [o a|o a|l|l| |b w]; cbn [job_ok job_code].
  - intros (A & B & _ & D). eapply act_wf3; eassumption.
  - intros (A & B & _ & D). eapply act_wf2; eassumption.
  - intros (A & _). eapply leg3_wf; exact A.
  - intros ((H1 & H2 & H3 & H4 & H5 & H6 & H7 & _) & _). apply remap2_wf; assumption.
  - intros _. apply barrier_wf.
  - intros _. apply local_wf.
Qed.

(** a remap that moves a field, from two memories with the same cells to read *)
Lemma leg3_run (M Mf : nat -> @rmem F) l : job_ok M (JRemap3 l) -> job_ok Mf (JRemap3 l) -> agree_on n (job_reads (JRemap3 l)) M Mf ->
  exists M' Mf', exec_to n (leg3_code n l) M M' /\ exec_to n (leg3_code n l) Mf Mf' /\ still n size [l_dout l] M M' /\ same_result n (job_gives (JRemap3 l)) M' Mf'.
Proof.
  intros ((H1 & H2 & H3 & H4 & H5 & H6 & H7 & H8) & Hs) ((_ & _ & _ & _ & _ & _ & G7 & G8) & _) HS.
  destruct (field3_exists (s0 O) n (l_nq l) (l_ins l) (fun r => getb (l_din l) (M r)) H3 (fun r Hr => proj1 (H7 r Hr))) as (g & Hg).
  assert (Hg' : forall r, (r < n)%nat -> holds3 (l_nq l) 0 (l_ins l r) g (getb (l_din l) (Mf r))).
  { intros r Hr p q Hp Hq. rewrite (HS (l_din l) r _ Hr); [apply (Hg r Hr p q Hp Hq)|]. split; [reflexivity|].
    pose proof (cell3_bound (l_nq l) 0 (l_ins l r) p q Hp Hq) as B. rewrite (vol3_pos _ _ Hp). lia. }
  destruct (remap3_delivers n (l_coll l) (l_pack l) (l_nq l) (l_perm l) (l_ins l) (l_outs l) (l_din l) (l_dout l) H4 H1 H2 H5 H6 H3 g M Hg (fun r Hr => proj2 (H7 r Hr)) H8) as (M' & K1 & E1).
  destruct (remap3_delivers n (l_coll l) (l_pack l) (l_nq l) (l_perm l) (l_ins l) (l_outs l) (l_din l) (l_dout l) H4 H1 H2 H5 H6 H3 g Mf Hg' (fun r Hr => proj2 (G7 r Hr)) G8) as (Mf' & K2 & E2).
  exists M', Mf'. split; [exact E1|]. split; [exact E2|]. split.
  - intros r Hr. destruct (K1 r Hr) as (D1 & D2 & D3 & D4). split; [exact D2|]. split.
    + intros b Hb Hn. apply D3; [exact Hb|]. intros ->. apply Hn. left. reflexivity.
    + intros b x Hb Hx. assert (D : b = l_dout l \/ b <> l_dout l) by (destruct b, (l_dout l); auto; right; discriminate).
      destruct D as [-> | D]; [|rewrite D3 by assumption; reflexivity]. apply D4. intros p q Hp _ Hq E.
      pose proof (cell3_bound (l_nq l) (l_perm l) (l_outs l r) p q Hp Hq) as B. specialize (Hs r Hr). rewrite (vol3_pos _ _ Hp) in Hs. lia.
  - intros b r x Hr (-> & p & q & s & Hp & Hsn & Hps & Hq & ->). exists (g p q). split; [apply (K1 r Hr)|apply (K2 r Hr)]; eauto.
Qed.

Lemma leg2_run (M Mf : nat -> @rmem F) l : job_ok M (JRemap2 l) -> job_ok Mf (JRemap2 l) -> agree_on n (job_reads (JRemap2 l)) M Mf ->
  exists M' Mf', exec_to n (leg2_code l) M M' /\ exec_to n (leg2_code l) Mf Mf' /\ still n size [h_dout l] M M' /\ same_result n (job_gives (JRemap2 l)) M' Mf'.
Proof.
  intros ((H1 & H2 & H3 & H4 & H4' & H5 & H6 & H7 & H8) & Hs) ((_ & _ & _ & _ & _ & _ & _ & G7 & G8) & _) HS.
  destruct (field2_exists (s0 O) n (h_nq l) (h_ins l) (fun r => getb (h_din l) (M r)) H3 (fun r Hr => proj1 (H7 r Hr))) as (g & Hg).
  assert (Hg' : forall r, (r < n)%nat -> holds2 (h_nq l) 0 (h_ins l r) g (getb (h_din l) (Mf r))).
  { intros r Hr p q Hp Hq. rewrite (HS (h_din l) r _ Hr); [apply (Hg r Hr p q Hp Hq)|]. split; [reflexivity|].
    pose proof (cell2_bound (h_nq l) 0 (h_ins l r) p q Hp Hq) as B. rewrite (vol2_pos _ _ Hp). lia. }
  destruct (remap2_delivers esize n (h_coll l) (h_pack l) (h_nq l) (h_perm l) (h_ins l) (h_outs l) (h_din l) (h_dout l) H4 H1 H2 H4' H5 H6 H3 g M Hg (fun r Hr => proj2 (H7 r Hr)) H8) as (M' & K1 & E1).
  destruct (remap2_delivers esize n (h_coll l) (h_pack l) (h_nq l) (h_perm l) (h_ins l) (h_outs l) (h_din l) (h_dout l) H4 H1 H2 H4' H5 H6 H3 g Mf Hg' (fun r Hr => proj2 (G7 r Hr)) G8) as (Mf' & K2 & E2).
  exists M', Mf'. split; [exact E1|]. split; [exact E2|]. split.
  - intros r Hr. destruct (K1 r Hr) as (D1 & D2 & D3 & D4). split; [exact D2|]. split.
    + intros b Hb Hn. apply D3; [exact Hb|]. intros ->. apply Hn. left. reflexivity.
    + intros b x Hb Hx. assert (D : b = h_dout l \/ b <> h_dout l) by (destruct b, (h_dout l); auto; right; discriminate).
      destruct D as [-> | D]; [|rewrite D3 by assumption; reflexivity]. apply D4. intros p q Hp _ Hq E.
      pose proof (cell2_bound (h_nq l) (h_perm l) (h_outs l r) p q Hp Hq) as B. specialize (Hs r Hr). rewrite (vol2_pos _ _ Hp) in Hs. lia.
  - intros b r x Hr (-> & p & q & s & Hp & Hsn & Hps & Hq & ->). exists (g p q). split; [apply (K1 r Hr)|apply (K2 r Hr)]; eauto.
Qed.

Lemma job_run (M Mf : nat -> @rmem F) j : job_ok M j -> job_ok Mf j -> agree_on n (job_reads j) M Mf ->
  exists M' Mf', exec_to n (job_code j) M M' /\ exec_to n (job_code j) Mf Mf' /\ still n size (job_writes j) M M' /\ same_result n (job_gives j) M' Mf'.
Proof.
  destruct j as [o a|o a|l|l| |b w]; cbn [job_code job_writes]; intros Ha Hf HS.
  - destruct Ha as (A & B & C & D). destruct Hf as (_ & _ & _ & D').
    destruct (act_run3 O cexp rnorm (q_ar o) n (q_st o) (q_N o) (q_perm o) (q_ins o) (q_outs o) (q_fft o) (q_plans o) A B M Mf a D D' HS) as (M' & Mf' & K1 & K2 & K3 & K4).
    exists M', Mf'. split; [exact K1|]. split; [exact K2|]. split; [|exact K4]. eapply still_le; [exact C|exact K3].
  - destruct Ha as (A & B & C & D). destruct Hf as (_ & _ & _ & D').
    destruct (act_run2 O esize cexp rnorm (d_ar o) n (d_st o) (d_N o) (d_perm o) (d_ins o) (d_outs o) (d_fft o) (d_plans o) A B M Mf a D D' HS) as (M' & Mf' & K1 & K2 & K3 & K4).
    exists M', Mf'. split; [exact K1|]. split; [exact K2|]. split; [|exact K4]. eapply still_le; [exact C|exact K3].
  - apply leg3_run; assumption.
  - apply leg2_run; assumption.
  - destruct (barrier_run n size M) as (M' & E1 & S1). destruct (barrier_run n size Mf) as (Mf' & E2 & _).
    exists M', Mf'. split; [exact E1|]. split; [exact E2|]. split; [exact S1|]. intros b r x _ [].
  - destruct (fill_run n size M Mf b w Ha Hf) as (M' & Mf' & K1 & K2 & K3 & K4).
    { intros r x Hr. apply HS; [exact Hr|reflexivity]. }
    exists M', Mf'. split; [exact K1|]. split; [exact K2|]. split; [exact K3|]. intros b' r x Hr (-> & Hx). apply K4; assumption.
Qed.

Lemma objects_sequence l (M0 : nat -> @rmem F) : Forall (job_ok M0) l ->
  (exists M', exec_to n (jobs_code l) M0 M' /\ still n size (flat_map job_writes l) M0 M') /\
  forall pre j post M1, l = pre ++ j :: post -> exec_to n (jobs_code pre) M0 M1 ->
    exists M2, exec_to n (job_code j) M1 M2 /\ exec_to n (jobs_code (pre ++ [j])) M0 M2 /\
    forall Mf, job_ok Mf j -> agree_on n (job_reads j) M1 Mf ->
      exists Mf2, exec_to n (job_code j) Mf Mf2 /\ same_result n (job_gives j) M2 Mf2.
Proof.
  apply (sequence n size job_code job_ok job_writes job_reads job_gives).
  - exact job_lens.
  - exact job_wf.
  - exact job_run.
Qed.

Lemma gives_writes j b r x : job_gives j b r x -> In b (job_writes j).
Proof.
  destruct j as [o a|o a|l|l| |b' w]; cbn [job_gives job_writes].
  1,2: destruct a; cbn; intuition.
  1,2: intros (-> & _); left; reflexivity.
  - intros [].
  - intros (-> & _). left. reflexivity.
Qed.

Lemma exec_cons j l (M M1 M2 : nat -> @rmem F) : job_ok M j -> Forall (job_ok M) l ->
  exec_to n (job_code j) M M1 -> exec_to n (jobs_code l) M1 M2 -> exec_to n (jobs_code (j :: l)) M M2.
Proof.
  intros Hj Hl E1 E2. apply (exec_seq n (job_code j) (jobs_code l) M M1 M2); [eapply job_wf; exact Hj| |exact E1|exact E2].
  apply together_wf, Forall_map. eapply Forall_impl; [|exact Hl]. intros a Ha. eapply job_wf; exact Ha.
Qed.

Lemma merge_streams b1 b2 l1 l2 l : isdata b1 -> isdata b2 -> b1 <> b2 -> merge l1 l2 l ->
  forall S1 S2 : bsel -> nat -> Z -> Prop, (forall b r x, S1 b r x -> b = b1) -> (forall b r x, S2 b r x -> b = b2) -> fed S1 l1 -> fed S2 l2 ->
  Forall (only_writes b1) l1 -> Forall (only_writes b2) l2 ->
  forall M Ma Mb : nat -> @rmem F, Forall (job_ok M) l -> same_lens n M Ma -> same_lens n M Mb -> agree_on n S1 M Ma -> agree_on n S2 M Mb ->
  exists M' Ma' Mb', exec_to n (jobs_code l) M M' /\ exec_to n (jobs_code l1) Ma Ma' /\ exec_to n (jobs_code l2) Mb Mb' /\
    agree_on n (produced S1 l1) M' Ma' /\ agree_on n (produced S2 l2) M' Mb'.
Proof.
  intros Hd1 Hd2 Hne Hm. induction Hm as [|j l1 l2 l Hm IH|j l1 l2 l Hm IH]; intros S1 S2 HS1 HS2 F1 F2 W1 W2 M Ma Mb Hok La Lb A1 A2.
  - exists M, Ma, Mb. repeat (split; [apply exec_nil|]). split; assumption.
  - inversion Hok as [|? ? Hj Hl]; subst. inversion W1 as [|? ? Wj W1']; subst. destruct F1 as (Fj & F1).
    pose proof (job_lens M Ma j La Hj) as Hja.
    destruct (job_run M Ma j Hj Hja) as (M1 & Ma1 & E1 & E2 & St & R).
    { intros b r x Hr Hx. apply A1; [exact Hr|]. apply Fj; assumption. }
    destruct (job_run Ma Ma j Hja Hja) as (Mx & _ & E3 & _ & St' & _); [intros b r x _ _; reflexivity|].
    pose proof (exec_to_ext n _ _ _ _ E3 E2) as Eq.
    assert (L1 : same_lens n M M1) by (eapply still_lens; exact St).
    assert (La1 : same_lens n Ma Ma1). { intros r b Hr. rewrite <- (Eq r Hr). apply (still_lens n size _ _ _ St' r b Hr). }
    assert (LL : same_lens n M1 Ma1). { intros r b Hr. rewrite La1, La, L1 by exact Hr. reflexivity. }
    assert (Lb1 : same_lens n M1 Mb). { intros r b Hr. rewrite Lb, L1 by exact Hr. reflexivity. }
    assert (Hl1 : Forall (job_ok M1) l). { eapply Forall_impl; [|exact Hl]. intros c Hc. eapply job_lens; [exact L1|exact Hc]. }
    destruct (IH (job_gives j) S2) with (M := M1) (Ma := Ma1) (Mb := Mb) as (M' & Ma' & Mb' & K1 & K2 & K3 & K4 & K5); auto.
    + intros b r x Hg. apply Wj. eapply gives_writes; exact Hg.
    + intros b r x Hr Hx. destruct (R b r x Hr Hx) as (v & -> & ->). reflexivity.
    + intros b r x Hr Hx. rewrite (A2 b r x Hr Hx). pose proof (HS2 b r x Hx) as Eb. subst b.
      destruct (St r Hr) as (_ & U & _). rewrite U; [reflexivity|exact Hd2|]. intros Hin. apply Hne. symmetry. apply Wj, Hin.
    + exists M', Ma', Mb'. split; [eapply exec_cons; eassumption|]. split; [|split; [exact K3|split; assumption]].
      eapply exec_cons; [exact Hja| |exact E2|exact K2].
      assert (Hin : forall c, In c l1 -> In c l). { clear -Hm. induction Hm; cbn; intuition. }
      apply Forall_forall. intros c Hc. eapply job_lens; [exact La|]. rewrite Forall_forall in Hl. apply Hl, Hin, Hc.
  - inversion Hok as [|? ? Hj Hl]; subst. inversion W2 as [|? ? Wj W2']; subst. destruct F2 as (Fj & F2).
    pose proof (job_lens M Mb j Lb Hj) as Hja.
    destruct (job_run M Mb j Hj Hja) as (M1 & Mb1 & E1 & E2 & St & R).
    { intros b r x Hr Hx. apply A2; [exact Hr|]. apply Fj; assumption. }
    destruct (job_run Mb Mb j Hja Hja) as (Mx & _ & E3 & _ & St' & _); [intros b r x _ _; reflexivity|].
    pose proof (exec_to_ext n _ _ _ _ E3 E2) as Eq.
    assert (L1 : same_lens n M M1) by (eapply still_lens; exact St).
    assert (Lb1 : same_lens n Mb Mb1). { intros r b Hr. rewrite <- (Eq r Hr). apply (still_lens n size _ _ _ St' r b Hr). }
    assert (LL : same_lens n M1 Mb1). { intros r b Hr. rewrite Lb1, Lb, L1 by exact Hr. reflexivity. }
    assert (La1 : same_lens n M1 Ma). { intros r b Hr. rewrite La, L1 by exact Hr. reflexivity. }
    assert (Hl1 : Forall (job_ok M1) l). { eapply Forall_impl; [|exact Hl]. intros c Hc. eapply job_lens; [exact L1|exact Hc]. }
    destruct (IH S1 (job_gives j)) with (M := M1) (Ma := Ma) (Mb := Mb1) as (M' & Ma' & Mb' & K1 & K2 & K3 & K4 & K5); auto.
    + intros b r x Hg. apply Wj. eapply gives_writes; exact Hg.
    + intros b r x Hr Hx. rewrite (A1 b r x Hr Hx). pose proof (HS1 b r x Hx) as Eb. subst b.
      destruct (St r Hr) as (_ & U & _). rewrite U; [reflexivity|exact Hd1|]. intros Hin. apply Hne. apply Wj, Hin.
    + intros b r x Hr Hx. destruct (R b r x Hr Hx) as (v & -> & ->). reflexivity.
    + exists M', Ma', Mb'. split; [eapply exec_cons; eassumption|]. split; [exact K2|]. split; [|split; assumption].
      eapply exec_cons; [exact Hja| |exact E2|exact K3].
      assert (Hin : forall c, In c l2 -> In c l). { clear -Hm. induction Hm; cbn; intuition. }
      apply Forall_forall. intros c Hc. eapply job_lens; [exact Lb|]. rewrite Forall_forall in Hl. apply Hl, Hin, Hc.
Qed.

Lemma objects_streams b1 b2 l1 l2 l : isdata b1 -> isdata b2 -> b1 <> b2 -> merge l1 l2 l ->
  fed (array_of b1) l1 -> fed (array_of b2) l2 -> Forall (only_writes b1) l1 -> Forall (only_writes b2) l2 ->
  forall M0 : nat -> @rmem F, Forall (job_ok M0) l ->
  exists M M1 M2, exec_to n (jobs_code l) M0 M /\ exec_to n (jobs_code l1) M0 M1 /\ exec_to n (jobs_code l2) M0 M2 /\
    agree_on n (produced (array_of b1) l1) M1 M /\ agree_on n (produced (array_of b2) l2) M2 M.
Proof.
  intros Hd1 Hd2 Hne Hm F1 F2 W1 W2 M0 Hok.
  destruct (merge_streams b1 b2 l1 l2 l Hd1 Hd2 Hne Hm (array_of b1) (array_of b2)) with (M := M0) (Ma := M0) (Mb := M0)
    as (M & M1 & M2 & E & E1 & E2 & A1 & A2); auto; try (intros; assumption); try (intros ? ? ?; intros; reflexivity).
  exists M, M1, M2. repeat (split; [assumption|]). split; intros b r x Hr Hx; symmetry; [apply A1|apply A2]; assumption.
Qed.
End Objects.
