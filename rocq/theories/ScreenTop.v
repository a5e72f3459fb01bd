(** ScreenTop.v : output() between operations of the library and in the test programs. *)

From Coq Require Import Sorted.
From Verif Require Import Base Spec Pack3d Pack2d Sched SchedProofs Phases Exec Remap RemapMain RemapInst
  Remap3d Remap2d RemapThms RemapTop Layout LayoutProofs Setup3d Setup3dProofs Setup2d Setup2dProofs LayoutFinal Kiss KissPure Fft1d KissFinal
  Fft3d Frame Fft3dProofs Fft3dMain Fft3dTop Fft3dFinal Fft3dStmt Fft2d Fft2dMain Fft2dTop Fft2dFinal Fft2dStmt Only1d
  Tune TuneProofs TestProg TestLayProofs TestDataProofs TestMainProofs TestTop TestOpt TestOptProofs TestOutProofs TestOptTop Ops OpsSeq OpsProofs OpsTop
  Screen ScreenProofs ScreenOrder.
Local Open Scope Z_scope.

Section Gen.
Context {F A : Type}.
Variables (n : nat) (size : nat -> Z).
Variables (code : A -> nat -> list (@instr F)) (ok : (nat -> @rmem F) -> A -> Prop) (wr : A -> list bsel)
  (reads gives : A -> bsel -> nat -> Z -> Prop).
Hypothesis H_lens : forall M M' a, same_lens n M M' -> ok M a -> ok M' a.
Hypothesis H_wf : forall M a, ok M a -> wf_code n (code a).
Hypothesis H_run : forall M Mf a, ok M a -> ok Mf a -> agree_on n (reads a) M Mf ->
  exists M' Mf', exec_to n (code a) M M' /\ exec_to n (code a) Mf Mf' /\ still n size (wr a) M M' /\ same_result n (gives a) M' Mf'.

Lemma list_wf l M : Forall (ok M) l -> wf_code n (together (map code l)).
Proof. intros H. apply together_wf, Forall_map. eapply Forall_impl; [|exact H]. intros c Hc. eapply H_wf; exact Hc. Qed.
Lemma list_run l M : Forall (ok M) l -> exists M', exec_to n (together (map code l)) M M' /\ same_lens n M M'.
Proof.
  intros H. destruct (sequence n size code ok wr reads gives H_lens H_wf H_run l M H) as ((M' & E & S) & _).
  exists M'. split; [exact E|]. eapply still_lens; exact S.
Qed.
Lemma list_lens l M M' : same_lens n M M' -> Forall (ok M) l -> Forall (ok M') l.
Proof. intros HL. apply Forall_impl. intros a. apply H_lens, HL. Qed.
Lemma code_fun (c1 c2 : nat -> list (@instr F)) M M' : (forall r, c1 r = c2 r) -> exec_to n c1 M M' -> exec_to n c2 M M'.
Proof.
  intros E (L & H). exists L. assert (Es : start n c2 M = start n c1 M). { unfold start. f_equal. apply map_ext. intros r. symmetry. apply E. }
  rewrite Es. exact H.
Qed.
Lemma map_together a b r : together (map code (a ++ b)) r = together (map code a) r ++ together (map code b) r.
Proof. unfold together. rewrite !map_app, List.concat_app. reflexivity. Qed.

(** two printings among three lists of operations *)
Lemma screens a b c M0 (f1 f2 : nat -> @rmem F -> option rmem) :
  Forall (ok M0) a -> Forall (ok M0) b -> Forall (ok M0) c ->
  (forall M r, same_lens n M0 M -> (r < n)%nat -> f1 r (M r) = Some (M r)) ->
  (forall M r, same_lens n M0 M -> (r < n)%nat -> f2 r (M r) = Some (M r)) ->
  exists Ma Mb Mc, same_lens n M0 Ma /\ same_lens n M0 Mb /\
    exec_to n (together (map code a)) M0 Ma /\ exec_to n (together (map code (a ++ b))) M0 Mb /\
    exec_to n (together (map code ((a ++ b) ++ c))) M0 Mc /\
    exec_to n (fun r => together (map code a) r ++ output_code n f1 r ++ together (map code b) r) M0 Mb /\
    exec_to n (fun r => together (map code a) r ++ output_code n f1 r ++ together (map code b) r ++ output_code n f2 r ++ together (map code c) r) M0 Mc.
Proof.
  intros Ha Hb Hc H1 H2.
  destruct (list_run a M0 Ha) as (Ma & Ea & La). destruct (list_run b Ma (list_lens b _ _ La Hb)) as (Mb & Eb & Lb0).
  assert (Lb : same_lens n M0 Mb) by (intros r x Hr; rewrite Lb0, La by exact Hr; reflexivity).
  destruct (list_run c Mb (list_lens c _ _ Lb Hc)) as (Mc & Ec & _).
  pose proof (list_wf a M0 Ha) as Wa. pose proof (list_wf b M0 Hb) as Wb. pose proof (list_wf c M0 Hc) as Wc.
  pose proof (output_exec n f1 Ma Ma (fun r Hr => H1 Ma r La Hr)) as O1. pose proof (output_exec n f2 Mb Mb (fun r Hr => H2 Mb r Lb Hr)) as O2.
  pose proof (output_wf n f1) as W1. pose proof (output_wf n f2) as W2.
  pose proof (exec_seq n _ _ _ _ _ W1 Wb O1 Eb) as X1. pose proof (wf_code_app n _ _ W1 Wb) as Y1.
  pose proof (exec_seq n _ _ _ _ _ W2 Wc O2 Ec) as X2. pose proof (wf_code_app n _ _ W2 Wc) as Y2.
  pose proof (exec_seq n _ _ _ _ _ Wb Y2 Eb X2) as X3. pose proof (wf_code_app n _ _ Wb Y2) as Y3.
  pose proof (exec_seq n _ _ _ _ _ W1 Y3 O1 X3) as X4. pose proof (wf_code_app n _ _ W1 Y3) as Y4.
  pose proof (exec_seq n _ _ _ _ _ Wa Wb Ea Eb) as Z1. pose proof (wf_code_app n _ _ Wa Wb) as V1.
  exists Ma, Mb, Mc. split; [exact La|]. split; [exact Lb|]. split; [exact Ea|]. split; [|split; [|split]].
  - eapply code_fun; [|exact Z1]. intros r. symmetry. apply map_together.
  - eapply code_fun; [|exact (exec_seq n _ _ _ _ _ V1 Wc Z1 Ec)]. intros r. cbn beta. rewrite !map_together. reflexivity.
  - exact (exec_seq n _ _ _ _ _ Wa Y1 Ea X1).
  - exact (exec_seq n _ _ _ _ _ Wa Y4 Ea X4).
Qed.
End Gen.

Lemma turn_in {L} n (g : nat -> option (list L)) l : in_turn n g = Some l -> forall r, (r < n)%nat -> exists x, g r = Some x.
Proof.
  unfold in_turn. intros H.
  assert (K : forall rs a, fold_left (fun a r => a <- a; l <- g r; Some (a ++ l)) rs a = Some l -> forall r, In r rs -> exists x, g r = Some x).
  { induction rs as [|q rs IH]; intros a E r []; cbn in E.
    - subst q. destruct (g r) as [x|]; [eauto|]. exfalso. assert (N : fold_left (fun a r => a <- a; l <- g r; Some (a ++ l)) rs None = None).
      { clear. induction rs as [|x rs IH]; [reflexivity|]. exact IH. }
      destruct a; cbn in E; rewrite N in E; discriminate.
    - eapply IH; eassumption. }
  intros r Hr. eapply K; [exact H|]. apply in_seq. lia.
Qed.
Lemma show_same {F L} (g : list F -> option L) (m : @rmem F) x : g (getb BWORK m) = Some x -> show g m = Some m.
Proof. intros H. unfold show. rewrite H. reflexivity. Qed.
Lemma last_cases mode : last_flag mode = 0 \/ (last_flag mode = 1 /\ 2 <= mode).
Proof. unfold last_flag. destruct (Z.ltb_spec mode 2); auto. Qed.

Section Scr3.
Context {F : Type} (O : sops F).
Variables (cexp : bool -> Z -> Z -> F * F) (rnorm : Z -> F).
Variables (ar : areas) (n : nat) (st : settings) (N : Z * Z * Z) (permute : Z) (ins outs : nat -> box3) (f : fft3) (P : @plans3 F).
Hypotheses (Hr : ready3 ar n st N permute ins outs f) (HP : setup_ffts3 cexp N = Some P).
Variables (M0 : nat -> @rmem F) (vz vr : Z -> F) (k : init) (sd : nat -> Z) (z : F) (mode : Z) (rflag tflag : bool) (nloop : nat).
Hypotheses (Ha : room3 f BACKWARD BWORK M0) (Hs : forall r, (r < n)%nat -> legal3 (ins r) /\ seed_ok k (sd r))
  (Hsz : mode < 2 \/ (forall r, (r < n)%nat -> psize3 (outs r) = psize3 (ins r))).
Let w0 := fun r => initialize3 vz vr (fun v => v) k (sd r) N (ins r).
Let wk (M : nat -> @rmem F) (r : nat) : list F := getb BWORK (M r).

Lemma out_ok3 M flag : same_lens n M0 M -> flag = 0 \/ (flag = 1 /\ 2 <= mode) ->
  exists L, output3 flag n ins outs (wk M) = Some L /\ TestOutProofs.prints3 n (if flag =? 0 then ins else outs) (wk M) L /\ NoDup (map point L) /\
    (forall p, In p (map point L) <-> inb3 p (grid3 N)).
Proof.
  intros HL Hf. pose proof Hr as (_ & _ & _ & _ & Ti & To & Lo & _). apply C60_3d_proof; auto.
  - intros r Hrn. split; [apply Hs, Hrn|]. split; [apply Lo, Hrn|]. unfold wk. rewrite HL by exact Hrn.
    pose proof (work_room3 ar n st N permute ins outs f M0 Hr Ha r Hrn). lia.
  - destruct Hf as [Hf|(Hf & Hm)]; [left; exact Hf|]. right. destruct Hsz as [H|H]; [lia|exact H].
Qed.
Lemma show_ok3 M flag r : same_lens n M0 M -> flag = 0 \/ (flag = 1 /\ 2 <= mode) -> (r < n)%nat ->
  show (out_rank3 (if flag =? 0 then ins r else outs r) (psize3 (ins r)) r) (M r) = Some (M r).
Proof.
  intros HL Hf Hrn. destruct (out_ok3 M flag HL Hf) as (L & E & _). destruct (turn_in _ _ _ E r Hrn) as (x & Ex). eapply show_same. exact Ex.
Qed.

Lemma screen3_parts : exists Ma Mb Mc, same_lens n M0 Ma /\ same_lens n M0 Mb /\
    exec_to n (acts_code3 O rnorm f P (begin_part w0)) M0 Ma /\ exec_to n (acts_code3 O rnorm f P (run_part mode rflag nloop w0)) M0 Mb /\
    exec_to n (acts_code3 O rnorm f P (test_main3 mode rflag tflag nloop w0 (clear3 z ins))) M0 Mc /\
    exec_to n (fun r => acts_code3 O rnorm f P (begin_part w0) r ++ shown3 0 n ins outs r ++ acts_code3 O rnorm f P (fft_part mode rflag nloop) r) M0 Mb /\
    exec_to n (shown_main3 O rnorm f P n ins outs mode rflag tflag nloop w0 (clear3 z ins)) M0 Mc.
Proof.
  assert (Hb : isdata BWORK) by (left; reflexivity).
  destruct (in_place3 rnorm ar n st N permute ins outs f Hr BWORK M0 Hb Ha) as (A1 & A2 & A3 & A4).
  assert (K : forall r, (r < n)%nat -> 0 <= 2 * psize3 (ins r) <= 2 * f_fftsize f r /\ 2 * f_fftsize f r <= zlen (getb BWORK (M0 r))).
  { intros r Hrn. pose proof (work_room3 ar n st N permute ins outs f M0 Hr Ha r Hrn). pose proof (psize3_nonneg (ins r) (proj1 (Hs r Hrn))). lia. }
  assert (F0 : act_ok3 n st f M0 (AFill BWORK w0)).
  { apply (filled_fill (fun v : F => v) n (f_fftsize f) BWORK w0 M0 (fun r => 2 * psize3 (ins r)) (fun r => wanti3 vz vr k (sd r) N (ins r)) Hb K).
    exact (init_fills3 vz vr (fun v => v) n N ins k sd Hs). }
  assert (F1 : act_ok3 n st f M0 (AFill BWORK (clear3 z ins))).
  { apply (filled_fill (fun v : F => v) n (f_fftsize f) BWORK (clear3 z ins) M0 (fun r => 2 * psize3 (ins r)) (fun r _ => z) Hb K).
    intros r l Hrn Hl. apply clear_ok. destruct (K r Hrn). lia. }
  assert (T : Forall (act_ok3 n st f M0) (test_main3 mode rflag tflag nloop w0 (clear3 z ins))) by (apply main_all; auto; exact I).
  assert (Sp : test_main3 mode rflag tflag nloop w0 (clear3 z ins) = (begin_part w0 ++ fft_part mode rflag nloop) ++ timing [1; 2; 3; 4] mode tflag nloop (clear3 z ins)) by reflexivity.
  rewrite Sp in T. apply Forall_app in T as (T1 & T3). apply Forall_app in T1 as (T1 & T2).
  exact (screens n (f_fftsize f) (act_code3 O rnorm f P) (act_ok3 n st f) writes (reads3 permute ins outs f) (gives3 permute ins outs f)
    (act_lens3 ar n st N permute ins outs f Hr) (act_wf3 O cexp rnorm ar n st N permute ins outs f P Hr HP) (act_run3 O cexp rnorm ar n st N permute ins outs f P Hr HP)
    _ _ _ M0 _ _ T1 T2 T3 (fun M r HL Hrn => show_ok3 M 0 r HL (or_introl eq_refl) Hrn) (fun M r HL Hrn => show_ok3 M (last_flag mode) r HL (last_cases mode) Hrn)).
Qed.

Lemma screen3 : exists Ma Mb M2 L1 L2,
  exec_to n (acts_code3 O rnorm f P (begin_part w0)) M0 Ma /\ exec_to n (acts_code3 O rnorm f P (run_part mode rflag nloop w0)) M0 Mb /\
  exec_to n (acts_code3 O rnorm f P (test_main3 mode rflag tflag nloop w0 (clear3 z ins))) M0 M2 /\
  exec_to n (shown_main3 O rnorm f P n ins outs mode rflag tflag nloop w0 (clear3 z ins)) M0 M2 /\
  output3 0 n ins outs (fun r => getb BWORK (Ma r)) = Some L1 /\ TestOutProofs.prints3 n ins (fun r => getb BWORK (Ma r)) L1 /\
  output3 (if mode <? 2 then 0 else 1) n ins outs (fun r => getb BWORK (Mb r)) = Some L2 /\
  TestOutProofs.prints3 n (if mode <? 2 then ins else outs) (fun r => getb BWORK (Mb r)) L2 /\
  (forall p, inb3 p (grid3 N) -> In p (map point L1) /\ In p (map point L2)).
Proof.
  destruct screen3_parts as (Ma & Mb & Mc & La & Lb & E1 & E2 & E3 & _ & E5).
  destruct (out_ok3 Ma 0 La (or_introl eq_refl)) as (L1 & O1 & P1 & _ & Q1).
  destruct (out_ok3 Mb (last_flag mode) Lb (last_cases mode)) as (L2 & O2 & P2 & _ & Q2).
  exists Ma, Mb, Mc, L1, L2. split; [exact E1|]. split; [exact E2|]. split; [exact E3|]. split; [exact E5|]. split; [exact O1|]. split; [exact P1|]. split; [exact O2|].
  split; [|intros p Hp; split; [apply Q1, Hp|apply Q2, Hp]].
  unfold last_flag in P2. destruct (mode <? 2); exact P2.
Qed.

Lemma screen_order3 eager labels s :
  run n eager (start n (shown_main3 O rnorm f P n ins outs mode rflag tflag nloop w0 (clear3 z ins)) M0) labels s ->
  let rest2 := fun r => token_send n r ++ acts_code3 O rnorm f P (timing [1; 2; 3; 4] mode tflag nloop (clear3 z ins)) r in
  let rest1 := fun r => token_send n r ++ acts_code3 O rnorm f P (fft_part mode rflag nloop) r ++ shown3 (if mode <? 2 then 0 else 1) n ins outs r ++
    acts_code3 O rnorm f P (timing [1; 2; 3; 4] mode tflag nloop (clear3 z ins)) r in
  forall p q, (p <= q)%nat -> (q < n)%nat ->
  (has_printed q (rest1 q) s -> has_printed p (rest1 p) s) /\ (has_printed q (rest2 q) s -> has_printed p (rest2 p) s).
Proof.
  intros R rest2 rest1 p q Hpq Hq. destruct screen3_parts as (Ma & Mb & Mc & La & Lb & E1 & _ & _ & E4 & _). split.
  - exact (order_all n _ _ _ M0 Ma E1 eager labels s R p q Hpq Hq).
  - refine (order_all n _ (acts_code3 O rnorm f P (timing [1; 2; 3; 4] mode tflag nloop (clear3 z ins))) _ M0 Mb E4 eager labels s _ p q Hpq Hq).
    match type of R with run _ _ (start n ?a _) _ _ => match goal with |- run _ _ (start n ?b _) _ _ => replace (start n b M0) with (start n a M0); [exact R|] end end.
    unfold start. f_equal. apply map_ext. intros r. unfold shown_main3. rewrite <- !app_assoc. reflexivity.
Qed.
End Scr3.

Section Scr2.
Context {F : Type} (O : sops F).
Variables (esize : Z) (cexp : bool -> Z -> Z -> F * F) (rnorm : Z -> F).
Variables (ar : areas) (n : nat) (st : settings) (N : Z * Z) (permute : Z) (ins outs : nat -> box2) (f : fft2) (P : @plans2 F).
Hypotheses (Hr : ready2 esize ar n st N permute ins outs f) (HP : setup_ffts2 cexp N = Some P).
Variables (M0 : nat -> @rmem F) (vz vr : Z -> F) (k : init) (sd : nat -> Z) (z : F) (mode : Z) (rflag tflag : bool) (nloop : nat).
Hypotheses (Ha : arrays_ok2 f BWORK M0) (Hs : forall r, (r < n)%nat -> legal2 (ins r) /\ seed_ok k (sd r))
  (Hsz : mode < 2 \/ (forall r, (r < n)%nat -> psize2 (outs r) = psize2 (ins r))).
Let w0 := fun r => initialize2 vz vr (fun v => v) k (sd r) N (ins r).
Let wk (M : nat -> @rmem F) (r : nat) : list F := getb BWORK (M r).

Lemma out_ok2 M flag : same_lens n M0 M -> flag = 0 \/ (flag = 1 /\ 2 <= mode) ->
  exists L, output2 flag n ins outs (wk M) = Some L /\ TestOutProofs.prints2 n (if flag =? 0 then ins else outs) (wk M) L /\ NoDup (map point L) /\
    (forall p, In p (map point L) <-> inb2 p (grid2 N)).
Proof.
  intros HL Hf. pose proof Hr as (_ & _ & _ & _ & _ & Ti & To & Lo & _). apply C60_2d_proof; auto.
  - intros r Hrn. split; [apply Hs, Hrn|]. split; [apply Lo, Hrn|]. unfold wk. rewrite HL by exact Hrn.
    pose proof (work_room2 esize ar n st N permute ins outs f M0 Hr Ha r Hrn). lia.
  - destruct Hf as [Hf|(Hf & Hm)]; [left; exact Hf|]. right. destruct Hsz as [H|H]; [lia|exact H].
Qed.
Lemma show_ok2 M flag r : same_lens n M0 M -> flag = 0 \/ (flag = 1 /\ 2 <= mode) -> (r < n)%nat ->
  show (out_rank2 (if flag =? 0 then ins r else outs r) (psize2 (ins r)) r) (M r) = Some (M r).
Proof.
  intros HL Hf Hrn. destruct (out_ok2 M flag HL Hf) as (L & E & _). destruct (turn_in _ _ _ E r Hrn) as (x & Ex). eapply show_same. exact Ex.
Qed.

Lemma screen2_parts : exists Ma Mb Mc, same_lens n M0 Ma /\ same_lens n M0 Mb /\
    exec_to n (acts_code2 O rnorm esize f P (begin_part w0)) M0 Ma /\ exec_to n (acts_code2 O rnorm esize f P (run_part mode rflag nloop w0)) M0 Mb /\
    exec_to n (acts_code2 O rnorm esize f P (test_main2 mode rflag tflag nloop w0 (clear2 z ins))) M0 Mc /\
    exec_to n (fun r => acts_code2 O rnorm esize f P (begin_part w0) r ++ shown2 0 n ins outs r ++ acts_code2 O rnorm esize f P (fft_part mode rflag nloop) r) M0 Mb /\
    exec_to n (shown_main2 O rnorm esize f P n ins outs mode rflag tflag nloop w0 (clear2 z ins)) M0 Mc.
Proof.
  assert (Hb : isdata BWORK) by (left; reflexivity).
  destruct (in_place2 esize rnorm ar n st N permute ins outs f Hr BWORK M0 Hb Ha) as (A1 & A2 & A3 & A4).
  assert (K : forall r, (r < n)%nat -> 0 <= 2 * psize2 (ins r) <= 2 * t_fftsize f r /\ 2 * t_fftsize f r <= zlen (getb BWORK (M0 r))).
  { intros r Hrn. pose proof (work_room2 esize ar n st N permute ins outs f M0 Hr Ha r Hrn). pose proof (psize2_nonneg (ins r) (proj1 (Hs r Hrn))). lia. }
  assert (F0 : act_ok2 n st f M0 (AFill BWORK w0)).
  { apply (filled_fill (fun v : F => v) n (t_fftsize f) BWORK w0 M0 (fun r => 2 * psize2 (ins r)) (fun r => wanti2 vz vr k (sd r) N (ins r)) Hb K).
    exact (init_fills2 vz vr (fun v => v) n N ins k sd Hs). }
  assert (F1 : act_ok2 n st f M0 (AFill BWORK (clear2 z ins))).
  { apply (filled_fill (fun v : F => v) n (t_fftsize f) BWORK (clear2 z ins) M0 (fun r => 2 * psize2 (ins r)) (fun r _ => z) Hb K).
    intros r l Hrn Hl. apply clear_ok. destruct (K r Hrn). lia. }
  assert (T : Forall (act_ok2 n st f M0) (test_main2 mode rflag tflag nloop w0 (clear2 z ins))) by (apply main_all; auto; exact I).
  assert (Sp : test_main2 mode rflag tflag nloop w0 (clear2 z ins) = (begin_part w0 ++ fft_part mode rflag nloop) ++ timing [1; 2; 3] mode tflag nloop (clear2 z ins)) by reflexivity.
  rewrite Sp in T. apply Forall_app in T as (T1 & T3). apply Forall_app in T1 as (T1 & T2).
  exact (screens n (t_fftsize f) (act_code2 O rnorm esize f P) (act_ok2 n st f) writes (reads2 permute ins outs f) (gives2 permute ins outs f)
    (act_lens2 esize ar n st N permute ins outs f Hr) (act_wf2 O esize cexp rnorm ar n st N permute ins outs f P Hr HP) (act_run2 O esize cexp rnorm ar n st N permute ins outs f P Hr HP)
    _ _ _ M0 _ _ T1 T2 T3 (fun M r HL Hrn => show_ok2 M 0 r HL (or_introl eq_refl) Hrn) (fun M r HL Hrn => show_ok2 M (last_flag mode) r HL (last_cases mode) Hrn)).
Qed.

Lemma screen2 : exists Ma Mb M2 L1 L2,
  exec_to n (acts_code2 O rnorm esize f P (begin_part w0)) M0 Ma /\ exec_to n (acts_code2 O rnorm esize f P (run_part mode rflag nloop w0)) M0 Mb /\
  exec_to n (acts_code2 O rnorm esize f P (test_main2 mode rflag tflag nloop w0 (clear2 z ins))) M0 M2 /\
  exec_to n (shown_main2 O rnorm esize f P n ins outs mode rflag tflag nloop w0 (clear2 z ins)) M0 M2 /\
  output2 0 n ins outs (fun r => getb BWORK (Ma r)) = Some L1 /\ TestOutProofs.prints2 n ins (fun r => getb BWORK (Ma r)) L1 /\
  output2 (if mode <? 2 then 0 else 1) n ins outs (fun r => getb BWORK (Mb r)) = Some L2 /\
  TestOutProofs.prints2 n (if mode <? 2 then ins else outs) (fun r => getb BWORK (Mb r)) L2 /\
  (forall p, inb2 p (grid2 N) -> In p (map point L1) /\ In p (map point L2)).
Proof.
  destruct screen2_parts as (Ma & Mb & Mc & La & Lb & E1 & E2 & E3 & _ & E5).
  destruct (out_ok2 Ma 0 La (or_introl eq_refl)) as (L1 & O1 & P1 & _ & Q1).
  destruct (out_ok2 Mb (last_flag mode) Lb (last_cases mode)) as (L2 & O2 & P2 & _ & Q2).
  exists Ma, Mb, Mc, L1, L2. split; [exact E1|]. split; [exact E2|]. split; [exact E3|]. split; [exact E5|]. split; [exact O1|]. split; [exact P1|]. split; [exact O2|].
  split; [|intros p Hp; split; [apply Q1, Hp|apply Q2, Hp]].
  unfold last_flag in P2. destruct (mode <? 2); exact P2.
Qed.

Lemma screen_order2 eager labels s :
  run n eager (start n (shown_main2 O rnorm esize f P n ins outs mode rflag tflag nloop w0 (clear2 z ins)) M0) labels s ->
  let rest2 := fun r => token_send n r ++ acts_code2 O rnorm esize f P (timing [1; 2; 3] mode tflag nloop (clear2 z ins)) r in
  let rest1 := fun r => token_send n r ++ acts_code2 O rnorm esize f P (fft_part mode rflag nloop) r ++ shown2 (if mode <? 2 then 0 else 1) n ins outs r ++
    acts_code2 O rnorm esize f P (timing [1; 2; 3] mode tflag nloop (clear2 z ins)) r in
  forall p q, (p <= q)%nat -> (q < n)%nat ->
  (has_printed q (rest1 q) s -> has_printed p (rest1 p) s) /\ (has_printed q (rest2 q) s -> has_printed p (rest2 p) s).
Proof.
  intros R rest2 rest1 p q Hpq Hq. destruct screen2_parts as (Ma & Mb & Mc & La & Lb & E1 & _ & _ & E4 & _). split.
  - exact (order_all n _ _ _ M0 Ma E1 eager labels s R p q Hpq Hq).
  - refine (order_all n _ (acts_code2 O rnorm esize f P (timing [1; 2; 3] mode tflag nloop (clear2 z ins))) _ M0 Mb E4 eager labels s _ p q Hpq Hq).
    match type of R with run _ _ (start n ?a _) _ _ => match goal with |- run _ _ (start n ?b _) _ _ => replace (start n b M0) with (start n a M0); [exact R|] end end.
    unfold start. f_equal. apply map_ext. intros r. unfold shown_main2. rewrite <- !app_assoc. reflexivity.
Qed.
End Scr2.
