(** ScreenIntProofs.v : output() and main() with -o do in 32-bit ints what they do in unbounded integers (C86). *)

From Coq Require Import Sorted.
From Verif Require Import Base Spec Pack3d Pack2d Sched SchedProofs MemProofs Phases Exec Layout Wrap Overflow OverflowProofs Remap RemapProofs RemapMain Remap3d Remap2d RemapInst RemapThms RemapTop
  RemapFinal Setup3d Setup2d Setup3dProofs Setup2dProofs Kiss KissPure KissAlg Fft1d KissFinal Fft3d Frame Fft3dProofs Fft3dMain Fft2d Fft2dMain Fft3dTop Fft2dTop Fft3dFinal Fft2dFinal Pack32 Pack32Proofs Pack32Top
  Remap32 Remap32Sim Remap32Proofs Remap32Top Remap32Fft Tune TestProg TestDataProofs TestOpt TestOptProofs TestOutProofs TestOptTop Ops OpsSeq OpsProofs OpsTop Remap32Ops TestInt TestIntProofs Remap32Main
  Screen ScreenProofs ScreenOrder ScreenTop ScreenInt.
Local Open Scope Z_scope.

Lemma in_turn_ext {L} n (g h : nat -> option (list L)) : (forall r, (r < n)%nat -> g r = h r) -> in_turn n g = in_turn n h.
Proof.
  intros H. unfold in_turn. assert (K : forall rs a, (forall r, In r rs -> (r < n)%nat) ->
    fold_left (fun a r => a <- a; l <- g r; Some (a ++ l)) rs a = fold_left (fun a r => a <- a; l <- h r; Some (a ++ l)) rs a).
  { induction rs as [|q rs IH]; intros a Hq; [reflexivity|]. cbn [fold_left]. rewrite (H q) by (apply Hq; left; reflexivity). apply IH. intros r Hi. apply Hq. right; exact Hi. }
  apply K. intros r Hi. apply in_seq in Hi. lia.
Qed.
Lemma output_rel {F} n (g h : nat -> @rmem F -> option rmem) r : lrel (@ints_index F) (g r) (h r) -> prel (@ints_index F) (output_code n g r) (output_code n h r).
Proof.
  intros H. unfold output_code. apply Forall2_app; [|apply Forall2_app].
  - destruct r as [|p]; cbn [token_recv]; [constructor|]. constructor; [constructor|]. constructor; [|constructor]. constructor. intros _ m Hm. split; [reflexivity|]. intros m' E; injection E as <-. exact Hm.
  - constructor; [|constructor]. constructor. exact H.
  - unfold token_send. destruct (Nat.ltb (S r) n); [|constructor]. constructor; [constructor|constructor].
Qed.
Lemma begin_same {F} n (w w' : nat -> list F -> option (list F)) : (forall r x, (r < n)%nat -> w r x = w' r x) -> Forall2 (act_same n) (begin_part w) (begin_part w').
Proof. intros H. constructor; [right; do 3 eexists; split; [reflexivity|]; split; [reflexivity|exact H]|apply acts_same_refl]. Qed.
Lemma timing_same {F} n ws mode tflag nloop (z z' : nat -> list F -> option (list F)) : (forall r x, (r < n)%nat -> z r x = z' r x) ->
  Forall2 (act_same n) (timing ws mode tflag nloop z) (timing ws mode tflag nloop z').
Proof.
  intros H1. assert (A1 : act_same n (AFill BWORK z) (AFill BWORK z')) by (right; do 3 eexists; split; [reflexivity|]; split; [reflexivity|exact H1]).
  unfold timing. destruct tflag; [|constructor].
  cbn [app]. constructor; [exact A1|]. constructor; [left; reflexivity|]. apply Forall2_app; [apply acts_same_refl|]. constructor; [left; reflexivity|].
  constructor; [exact A1|]. constructor; [left; reflexivity|]. apply Forall2_app; [apply acts_same_refl|]. constructor; [left; reflexivity|].
  constructor; [exact A1|]. apply acts_same_refl.
Qed.

(** ** 3d *)
Lemma out_same3 {F} N bi b me (work : list F) : box32_3 N bi -> inside3 N b -> psize3 b = psize3 bi -> out_rank3_32 bi b me work = out_rank3 b (psize3 bi) me work.
Proof.
  intros Hb I Ep. assert (Q : 2 * psize3 bi <= INT_MAX) by apply Hb. unfold out_rank3_32, out_rank3. rewrite (nfft_ev3 N bi Hb). cbn [bind].
  assert (B : let '(x, y, z) := N in x <= INT_MAX /\ y <= INT_MAX /\ z <= INT_MAX) by (destruct N as [[x y] z], Hb as (_ & B & _); tauto).
  assert (E1 : ev (#(ihi b) - #(ilo b) + #1)%I = Some (ni b)) by (clear Hb; destruct N as [[x y] z], I as (L & I); apply ext_ev; unfold legal3, ni in *; lia).
  assert (E2 : ev (#(jhi b) - #(jlo b) + #1)%I = Some (nj b)) by (clear Hb; destruct N as [[x y] z], I as (L & I); apply ext_ev; unfold legal3, nj in *; lia).
  rewrite E1, E2. cbn [bind]. apply for_ext. intros m acc Hm.
  assert (Hb' : box32_3 N b).
  { split; [exact I|]. split; [apply Hb|]. split; [|lia]. pose proof (inside_legal3 N b I) as Lg. unfold psize3, legal3 in *. unfold ni, nj, nk in *.
    assert (0 <= (ihi b - ilo b + 1) * (jhi b - jlo b + 1)) by nia. assert (1 <= khi b - klo b + 1) by nia. nia. }
  rewrite (proj1 (at_ev3 N b m Hb' ltac:(lia))). apply bind_ext. intros p _. rewrite twice_ev by lia. cbn [bind]. apply bind_ext. intros x _.
  rewrite (twice1_ev m (psize3 bi)) by lia. reflexivity.
Qed.
Theorem output_same3 {F} N flag n ins outs (w : nat -> list F) : (forall r, (r < n)%nat -> box32_3 N (ins r)) ->
  flag = 0 \/ (forall r, (r < n)%nat -> inside3 N (outs r) /\ psize3 (outs r) = psize3 (ins r)) ->
  output3_32 flag n ins outs w = output3 flag n ins outs w.
Proof.
  intros Hb Ho. apply in_turn_ext. intros r Hr. apply (out_same3 N); [apply Hb, Hr| |]; destruct (Z.eqb_spec flag 0) as [E|E];
  try (destruct Ho as [H|H]; [contradiction|]; apply H, Hr); [apply Hb, Hr|reflexivity].
Qed.

Section ScrInt3.
Context {F : Type} (O : sops F).
Variables (cexp : bool -> Z -> Z -> F * F) (rnorm : Z -> F).
Variables (ar : areas) (n : nat) (st : settings) (N : Z * Z * Z) (permute : Z) (ins outs : nat -> box3) (f : fft3) (P : @plans3 F) (esize : Z).
Hypotheses (Hr : ready3 ar n st N permute ins outs f) (HP : setup_ffts3 cexp N = Some P).
Hypothesis Fit : fits32 esize (st_pack st) n N (f_fftsize f).
Variables (M0 : nat -> @rmem F) (vz vr : Z -> F) (k : init) (sd : nat -> Z) (z : F) (mode : Z) (rflag tflag : bool) (nloop : nat).
Hypotheses (Ha : Fft3dTop.room3 f BACKWARD BWORK M0) (Hm : forall r, (r < n)%nat -> ints_index (M0 r)).
Hypothesis Hs0 : forall r, (r < n)%nat -> (psize3 (ins r) = 0 -> ni (ins r) * nj (ins r) <= INT_MAX) /\ seed_ok k (sd r).
Hypothesis Hx : index_fits3 k N.
Hypothesis Hsz : mode < 2 \/ (forall r, (r < n)%nat -> inside3 N (outs r) /\ psize3 (outs r) = psize3 (ins r)).
Let w0 := fun r => initialize3 vz vr (fun v => v) k (sd r) N (ins r).
Let w32 := fun r => initialize3_32 vz vr (fun v => v) k (sd r) N (ins r).

Lemma boxes3 r : (r < n)%nat -> box32_3 N (ins r).
Proof. intros Hrn. exact (fits_box3 cexp ar n st N permute ins outs f P Hr HP esize Fit r Hrn (proj1 (Hs0 r Hrn))). Qed.
Lemma legals3 r : (r < n)%nat -> legal3 (ins r) /\ seed_ok k (sd r).
Proof. intros Hrn. split; [exact (inside_legal3 N _ (proj1 (boxes3 r Hrn)))|apply Hs0, Hrn]. Qed.
Lemma flag_guard3 flag : flag = 0 \/ (flag = 1 /\ 2 <= mode) -> flag = 0 \/ (forall r, (r < n)%nat -> inside3 N (outs r) /\ psize3 (outs r) = psize3 (ins r)).
Proof. intros [H|(_ & H)]; [left; exact H|]. right. destruct Hsz as [G|G]; [lia|exact G]. Qed.
Lemma shown_rel3 flag r : flag = 0 \/ (flag = 1 /\ 2 <= mode) -> (r < n)%nat -> prel (@ints_index F) (shown3 flag n ins outs r) (shown3_32 flag n ins outs r).
Proof.
  intros Hf Hrn. apply output_rel. intros m Im. unfold show.
  rewrite (out_same3 N (ins r)); [|apply boxes3, Hrn| |].
  - split; [reflexivity|]. intros m'. destruct (out_rank3 _ _ _ _); [|discriminate]. cbn [bind]. intros H; injection H as <-. exact Im.
  - destruct (Z.eqb_spec flag 0) as [E|E]; [apply boxes3, Hrn|]. destruct (flag_guard3 flag Hf) as [H|H]; [contradiction|apply H, Hrn].
  - destruct (Z.eqb_spec flag 0) as [E|E]; [reflexivity|]. destruct (flag_guard3 flag Hf) as [H|H]; [contradiction|apply H, Hrn].
Qed.
Lemma same_fill3 r x : (r < n)%nat -> w0 r x = w32 r x.
Proof. intros Hrn. symmetry. apply initialize_same3; [apply boxes3, Hrn|exact Hx]. Qed.
Lemma same_clear3 r x : (r < n)%nat -> clear3 z ins r x = clear3_32 z ins r x.
Proof. intros Hrn. symmetry. apply (clear_same3 z N), boxes3, Hrn. Qed.
Lemma keeps3 : Forall (keeps_fill n) (test_main3 mode rflag tflag nloop w0 (clear3 z ins)).
Proof.
  apply main_all; try (intros; exact I).
  - intros r x y Hrn. apply init_keeps3, legals3, Hrn.
  - intros r x y Hrn. pose proof (psize_nn3 _ (proj1 (legals3 r Hrn))). apply clear_loop_keeps. lia.
Qed.
Lemma parts3 : Forall2 (act_same n) (begin_part w0) (begin_part w32) /\ Forall2 (act_same n) (run_part mode rflag nloop w0) (run_part mode rflag nloop w32) /\
  Forall2 (act_same n) (timing [1; 2; 3; 4] mode tflag nloop (clear3 z ins)) (timing [1; 2; 3; 4] mode tflag nloop (clear3_32 z ins)) /\
  fills_keep n (begin_part w0) /\ fills_keep n (run_part mode rflag nloop w0) /\ @fills_keep F n (fft_part mode rflag nloop) /\
  fills_keep n (timing [1; 2; 3; 4] mode tflag nloop (clear3 z ins)).
Proof.
  pose proof keeps3 as K. assert (Sp : test_main3 mode rflag tflag nloop w0 (clear3 z ins) = (begin_part w0 ++ fft_part mode rflag nloop) ++ timing [1; 2; 3; 4] mode tflag nloop (clear3 z ins)) by reflexivity.
  rewrite Sp in K. apply Forall_app in K as (K & K3). pose proof (proj1 (Forall_app _ _ _) K) as (K1 & K2).
  split; [exact (begin_same n _ _ same_fill3)|]. split; [exact (run_same n mode rflag nloop _ _ same_fill3)|].
  split; [exact (timing_same n _ mode tflag nloop _ _ same_clear3)|]. split; [apply keeps_all, K1|]. split; [apply keeps_all; exact K|]. split; [apply keeps_all, K2|apply keeps_all, K3].
Qed.

Theorem screen_int3 : exists Ma Mb M2 L1 L2,
  exec_to n (acts3_32 O rnorm false esize f P (begin_part w32)) M0 Ma /\ exec_to n (acts3_32 O rnorm false esize f P (run_part mode rflag nloop w32)) M0 Mb /\
  exec_to n (acts_code3 O rnorm f P (test_main3 mode rflag tflag nloop w0 (clear3 z ins))) M0 M2 /\
  exec_to n (shown_main3_32 O rnorm esize f P n ins outs mode rflag tflag nloop w32 (clear3_32 z ins)) M0 M2 /\
  output3_32 0 n ins outs (fun r => getb BWORK (Ma r)) = Some L1 /\ TestOutProofs.prints3 n ins (fun r => getb BWORK (Ma r)) L1 /\
  output3_32 (if mode <? 2 then 0 else 1) n ins outs (fun r => getb BWORK (Mb r)) = Some L2 /\
  TestOutProofs.prints3 n (if mode <? 2 then ins else outs) (fun r => getb BWORK (Mb r)) L2 /\
  (forall p, inb3 p (grid3 N) -> In p (map point L1) /\ In p (map point L2)).
Proof.
  assert (Hsz' : mode < 2 \/ (forall r, (r < n)%nat -> psize3 (outs r) = psize3 (ins r))) by (destruct Hsz as [H|H]; [left; exact H|right; intros r Hrn; apply H, Hrn]).
  destruct (screen3 O cexp rnorm ar n st N permute ins outs f P Hr HP M0 vz vr k sd z mode rflag tflag nloop Ha legals3 Hsz') as (Ma & Mb & M2 & L1 & L2 & E1 & E2 & E3 & E4 & O1 & P1 & O2 & P2 & Q).
  destruct parts3 as (S1 & S2 & S3 & K1 & K2 & K3 & K4).
  exists Ma, Mb, M2, L1, L2. repeat match goal with |- _ /\ _ => split end; auto.
  - exact (acts3_exec ar n st N permute ins outs f Hr esize Fit O rnorm P _ _ M0 Ma S1 K1 Hm E1).
  - exact (acts3_exec ar n st N permute ins outs f Hr esize Fit O rnorm P _ _ M0 Mb S2 K2 Hm E2).
  - refine (exec_rel (@ints_index F) n _ _ M0 M2 (@ints_wrm F) _ Hm E4). intros r Hrn. unfold shown_main3, shown_main3_32.
    apply Forall2_app; [exact (acts3_rel ar n st N permute ins outs f Hr esize Fit O rnorm P _ _ r S1 K1 Hrn)|].
    apply Forall2_app; [apply shown_rel3; [left; reflexivity|exact Hrn]|].
    apply Forall2_app; [exact (acts3_rel ar n st N permute ins outs f Hr esize Fit O rnorm P _ _ r (acts_same_refl n _) K3 Hrn)|].
    apply Forall2_app; [apply shown_rel3; [apply last_cases|exact Hrn]|].
    exact (acts3_rel ar n st N permute ins outs f Hr esize Fit O rnorm P _ _ r S3 K4 Hrn).
  - rewrite (output_same3 N); [exact O1|exact boxes3|left; reflexivity].
  - rewrite (output_same3 N); [exact O2|exact boxes3|]. exact (flag_guard3 _ (last_cases mode)).
Qed.
Theorem screen_int_order3 eager labels s :
  run n eager (start n (shown_main3_32 O rnorm esize f P n ins outs mode rflag tflag nloop w32 (clear3_32 z ins)) M0) labels s ->
  let rest2 := fun r => token_send n r ++ acts3_32 O rnorm false esize f P (timing [1; 2; 3; 4] mode tflag nloop (clear3_32 z ins)) r in
  let rest1 := fun r => token_send n r ++ acts3_32 O rnorm false esize f P (fft_part mode rflag nloop) r ++ shown3_32 (if mode <? 2 then 0 else 1) n ins outs r ++
    acts3_32 O rnorm false esize f P (timing [1; 2; 3; 4] mode tflag nloop (clear3_32 z ins)) r in
  forall p q, (p <= q)%nat -> (q < n)%nat ->
  (has_printed q (rest1 q) s -> has_printed p (rest1 p) s) /\ (has_printed q (rest2 q) s -> has_printed p (rest2 p) s).
Proof.
  assert (Hsz' : mode < 2 \/ (forall r, (r < n)%nat -> psize3 (outs r) = psize3 (ins r))) by (destruct Hsz as [H|H]; [left; exact H|right; intros r Hrn; apply H, Hrn]).
  intros R rest2 rest1 p q Hpq Hq.
  destruct (screen3_parts O cexp rnorm ar n st N permute ins outs f P Hr HP M0 vz vr k sd z mode rflag tflag nloop Ha legals3 Hsz') as (Ma & Mb & Mc & La & Lb & E1 & _ & _ & E4 & _).
  destruct parts3 as (S1 & S2 & S3 & K1 & K2 & K3 & K4).
  pose proof (acts3_exec ar n st N permute ins outs f Hr esize Fit O rnorm P _ _ M0 Ma S1 K1 Hm E1) as X1.
  assert (X2 : exec_to n (fun r => acts3_32 O rnorm false esize f P (begin_part w32) r ++ shown3_32 0 n ins outs r ++ acts3_32 O rnorm false esize f P (fft_part mode rflag nloop) r) M0 Mb).
  { refine (exec_rel (@ints_index F) n _ _ M0 Mb (@ints_wrm F) _ Hm E4). intros r Hrn.
    apply Forall2_app; [exact (acts3_rel ar n st N permute ins outs f Hr esize Fit O rnorm P _ _ r S1 K1 Hrn)|].
    apply Forall2_app; [apply shown_rel3; [left; reflexivity|exact Hrn]|].
    exact (acts3_rel ar n st N permute ins outs f Hr esize Fit O rnorm P _ _ r (acts_same_refl n _) K3 Hrn). }
  split.
  - exact (order_all n _ _ _ M0 Ma X1 eager labels s R p q Hpq Hq).
  - refine (order_all n _ (acts3_32 O rnorm false esize f P (timing [1; 2; 3; 4] mode tflag nloop (clear3_32 z ins))) _ M0 Mb X2 eager labels s _ p q Hpq Hq).
    match type of R with run _ _ (start n ?a _) _ _ => match goal with |- run _ _ (start n ?b _) _ _ => replace (start n b M0) with (start n a M0); [exact R|] end end.
    unfold start. f_equal. apply map_ext. intros r. unfold shown_main3_32. rewrite <- !app_assoc. reflexivity.
Qed.
End ScrInt3.

(** ** 2d *)
Lemma out_same2 {F} N bi b me (work : list F) : box32_2 N bi -> inside2 N b -> psize2 b = psize2 bi -> out_rank2_32 bi b me work = out_rank2 b (psize2 bi) me work.
Proof.
  intros Hb I Ep. assert (Q : 2 * psize2 bi <= INT_MAX) by apply Hb. unfold out_rank2_32, out_rank2. rewrite (nfft_ev2 N bi Hb). cbn [bind].
  assert (B : let '(x, y) := N in x <= INT_MAX /\ y <= INT_MAX) by (destruct N as [x y], Hb as (_ & B & _); tauto).
  assert (E1 : ev (#(ihi2 b) - #(ilo2 b) + #1)%I = Some (ni2 b)) by (clear Hb; destruct N as [x y], I as (L & I); apply ext_ev; unfold legal2, ni2 in *; lia).
  rewrite E1. cbn [bind]. apply for_ext. intros m acc Hm.
  assert (Hb' : box32_2 N b).
  { split; [exact I|]. split; [apply Hb|]. lia. }
  rewrite (proj1 (at_ev2 N b m Hb' ltac:(lia))). apply bind_ext. intros p _. rewrite twice_ev by lia. cbn [bind]. apply bind_ext. intros x _.
  rewrite (twice1_ev m (psize2 bi)) by lia. reflexivity.
Qed.
Theorem output_same2 {F} N flag n ins outs (w : nat -> list F) : (forall r, (r < n)%nat -> box32_2 N (ins r)) ->
  flag = 0 \/ (forall r, (r < n)%nat -> inside2 N (outs r) /\ psize2 (outs r) = psize2 (ins r)) ->
  output2_32 flag n ins outs w = output2 flag n ins outs w.
Proof.
  intros Hb Ho. apply in_turn_ext. intros r Hr. apply (out_same2 N); [apply Hb, Hr| |]; destruct (Z.eqb_spec flag 0) as [E|E];
  try (destruct Ho as [H|H]; [contradiction|]; apply H, Hr); [apply Hb, Hr|reflexivity].
Qed.

Section ScrInt2.
Context {F : Type} (O : sops F).
Variables (cexp : bool -> Z -> Z -> F * F) (rnorm : Z -> F).
Variables (ar : areas) (n : nat) (st : settings) (N : Z * Z) (permute : Z) (ins outs : nat -> box2) (f : fft2) (P : @plans2 F).
Hypotheses (Hr : ready2 8 ar n st N permute ins outs f) (HP : setup_ffts2 cexp N = Some P).
Hypothesis Fit : fits32_2 (st_pack st) n N (t_fftsize f).
Variables (M0 : nat -> @rmem F) (vz vr : Z -> F) (k : init) (sd : nat -> Z) (z : F) (mode : Z) (rflag tflag : bool) (nloop : nat).
Hypotheses (Ha : arrays_ok2 f BWORK M0) (Hm : forall r, (r < n)%nat -> ints_index (M0 r)).
Hypothesis Hs0 : forall r, (r < n)%nat -> seed_ok k (sd r).
Hypothesis Hx : index_fits2 k N.
Hypothesis Hsz : mode < 2 \/ (forall r, (r < n)%nat -> inside2 N (outs r) /\ psize2 (outs r) = psize2 (ins r)).
Let w0 := fun r => initialize2 vz vr (fun v => v) k (sd r) N (ins r).
Let w32 := fun r => initialize2_32 vz vr (fun v => v) k (sd r) N (ins r).

Lemma boxes2 r : (r < n)%nat -> box32_2 N (ins r).
Proof. intros Hrn. exact (fits_box2 cexp ar n st N permute ins outs f P Hr HP Fit r Hrn). Qed.
Lemma legals2 r : (r < n)%nat -> legal2 (ins r) /\ seed_ok k (sd r).
Proof. intros Hrn. split; [exact (inside_legal2 N _ (proj1 (boxes2 r Hrn)))|apply Hs0, Hrn]. Qed.
Lemma flag_guard2 flag : flag = 0 \/ (flag = 1 /\ 2 <= mode) -> flag = 0 \/ (forall r, (r < n)%nat -> inside2 N (outs r) /\ psize2 (outs r) = psize2 (ins r)).
Proof. intros [H|(_ & H)]; [left; exact H|]. right. destruct Hsz as [G|G]; [lia|exact G]. Qed.
Lemma shown_rel2 flag r : flag = 0 \/ (flag = 1 /\ 2 <= mode) -> (r < n)%nat -> prel (@ints_index F) (shown2 flag n ins outs r) (shown2_32 flag n ins outs r).
Proof.
  intros Hf Hrn. apply output_rel. intros m Im. unfold show.
  rewrite (out_same2 N (ins r)); [|apply boxes2, Hrn| |].
  - split; [reflexivity|]. intros m'. destruct (out_rank2 _ _ _ _); [|discriminate]. cbn [bind]. intros H; injection H as <-. exact Im.
  - destruct (Z.eqb_spec flag 0) as [E|E]; [apply boxes2, Hrn|]. destruct (flag_guard2 flag Hf) as [H|H]; [contradiction|apply H, Hrn].
  - destruct (Z.eqb_spec flag 0) as [E|E]; [reflexivity|]. destruct (flag_guard2 flag Hf) as [H|H]; [contradiction|apply H, Hrn].
Qed.
Lemma same_fill2 r x : (r < n)%nat -> w0 r x = w32 r x.
Proof. intros Hrn. symmetry. apply initialize_same2; [apply boxes2, Hrn|exact Hx]. Qed.
Lemma same_clear2 r x : (r < n)%nat -> clear2 z ins r x = clear2_32 z ins r x.
Proof. intros Hrn. symmetry. apply (clear_same2 z N), boxes2, Hrn. Qed.
Lemma keeps2 : Forall (keeps_fill n) (test_main2 mode rflag tflag nloop w0 (clear2 z ins)).
Proof.
  apply main_all; try (intros; exact I).
  - intros r x y Hrn. apply init_keeps2, legals2, Hrn.
  - intros r x y Hrn. pose proof (psize_nn2 _ (proj1 (legals2 r Hrn))). apply clear_loop_keeps. lia.
Qed.
Lemma parts2 : Forall2 (act_same n) (begin_part w0) (begin_part w32) /\ Forall2 (act_same n) (run_part mode rflag nloop w0) (run_part mode rflag nloop w32) /\
  Forall2 (act_same n) (timing [1; 2; 3] mode tflag nloop (clear2 z ins)) (timing [1; 2; 3] mode tflag nloop (clear2_32 z ins)) /\
  fills_keep n (begin_part w0) /\ fills_keep n (run_part mode rflag nloop w0) /\ @fills_keep F n (fft_part mode rflag nloop) /\
  fills_keep n (timing [1; 2; 3] mode tflag nloop (clear2 z ins)).
Proof.
  pose proof keeps2 as K. assert (Sp : test_main2 mode rflag tflag nloop w0 (clear2 z ins) = (begin_part w0 ++ fft_part mode rflag nloop) ++ timing [1; 2; 3] mode tflag nloop (clear2 z ins)) by reflexivity.
  rewrite Sp in K. apply Forall_app in K as (K & K3). pose proof (proj1 (Forall_app _ _ _) K) as (K1 & K2).
  split; [exact (begin_same n _ _ same_fill2)|]. split; [exact (run_same n mode rflag nloop _ _ same_fill2)|].
  split; [exact (timing_same n _ mode tflag nloop _ _ same_clear2)|]. split; [apply keeps_all, K1|]. split; [apply keeps_all; exact K|]. split; [apply keeps_all, K2|apply keeps_all, K3].
Qed.

Theorem screen_int2 : exists Ma Mb M2 L1 L2,
  exec_to n (acts2_32 O rnorm false 8 f P (begin_part w32)) M0 Ma /\ exec_to n (acts2_32 O rnorm false 8 f P (run_part mode rflag nloop w32)) M0 Mb /\
  exec_to n (acts_code2 O rnorm 8 f P (test_main2 mode rflag tflag nloop w0 (clear2 z ins))) M0 M2 /\
  exec_to n (shown_main2_32 O rnorm 8 f P n ins outs mode rflag tflag nloop w32 (clear2_32 z ins)) M0 M2 /\
  output2_32 0 n ins outs (fun r => getb BWORK (Ma r)) = Some L1 /\ TestOutProofs.prints2 n ins (fun r => getb BWORK (Ma r)) L1 /\
  output2_32 (if mode <? 2 then 0 else 1) n ins outs (fun r => getb BWORK (Mb r)) = Some L2 /\
  TestOutProofs.prints2 n (if mode <? 2 then ins else outs) (fun r => getb BWORK (Mb r)) L2 /\
  (forall p, inb2 p (grid2 N) -> In p (map point L1) /\ In p (map point L2)).
Proof.
  assert (Hsz' : mode < 2 \/ (forall r, (r < n)%nat -> psize2 (outs r) = psize2 (ins r))) by (destruct Hsz as [H|H]; [left; exact H|right; intros r Hrn; apply H, Hrn]).
  destruct (screen2 O 8 cexp rnorm ar n st N permute ins outs f P Hr HP M0 vz vr k sd z mode rflag tflag nloop Ha legals2 Hsz') as (Ma & Mb & M2 & L1 & L2 & E1 & E2 & E3 & E4 & O1 & P1 & O2 & P2 & Q).
  destruct parts2 as (S1 & S2 & S3 & K1 & K2 & K3 & K4).
  exists Ma, Mb, M2, L1, L2. repeat match goal with |- _ /\ _ => split end; auto.
  - exact (acts2_exec ar n st N permute ins outs f Hr Fit O rnorm P _ _ M0 Ma S1 K1 Hm E1).
  - exact (acts2_exec ar n st N permute ins outs f Hr Fit O rnorm P _ _ M0 Mb S2 K2 Hm E2).
  - refine (exec_rel (@ints_index F) n _ _ M0 M2 (@ints_wrm F) _ Hm E4). intros r Hrn. unfold shown_main2, shown_main2_32.
    apply Forall2_app; [exact (acts2_rel ar n st N permute ins outs f Hr Fit O rnorm P _ _ r S1 K1 Hrn)|].
    apply Forall2_app; [apply shown_rel2; [left; reflexivity|exact Hrn]|].
    apply Forall2_app; [exact (acts2_rel ar n st N permute ins outs f Hr Fit O rnorm P _ _ r (acts_same_refl n _) K3 Hrn)|].
    apply Forall2_app; [apply shown_rel2; [apply last_cases|exact Hrn]|].
    exact (acts2_rel ar n st N permute ins outs f Hr Fit O rnorm P _ _ r S3 K4 Hrn).
  - rewrite (output_same2 N); [exact O1|exact boxes2|left; reflexivity].
  - rewrite (output_same2 N); [exact O2|exact boxes2|]. exact (flag_guard2 _ (last_cases mode)).
Qed.
Theorem screen_int_order2 eager labels s :
  run n eager (start n (shown_main2_32 O rnorm 8 f P n ins outs mode rflag tflag nloop w32 (clear2_32 z ins)) M0) labels s ->
  let rest2 := fun r => token_send n r ++ acts2_32 O rnorm false 8 f P (timing [1; 2; 3] mode tflag nloop (clear2_32 z ins)) r in
  let rest1 := fun r => token_send n r ++ acts2_32 O rnorm false 8 f P (fft_part mode rflag nloop) r ++ shown2_32 (if mode <? 2 then 0 else 1) n ins outs r ++
    acts2_32 O rnorm false 8 f P (timing [1; 2; 3] mode tflag nloop (clear2_32 z ins)) r in
  forall p q, (p <= q)%nat -> (q < n)%nat ->
  (has_printed q (rest1 q) s -> has_printed p (rest1 p) s) /\ (has_printed q (rest2 q) s -> has_printed p (rest2 p) s).
Proof.
  assert (Hsz' : mode < 2 \/ (forall r, (r < n)%nat -> psize2 (outs r) = psize2 (ins r))) by (destruct Hsz as [H|H]; [left; exact H|right; intros r Hrn; apply H, Hrn]).
  intros R rest2 rest1 p q Hpq Hq.
  destruct (screen2_parts O 8 cexp rnorm ar n st N permute ins outs f P Hr HP M0 vz vr k sd z mode rflag tflag nloop Ha legals2 Hsz') as (Ma & Mb & Mc & La & Lb & E1 & _ & _ & E4 & _).
  destruct parts2 as (S1 & S2 & S3 & K1 & K2 & K3 & K4).
  pose proof (acts2_exec ar n st N permute ins outs f Hr Fit O rnorm P _ _ M0 Ma S1 K1 Hm E1) as X1.
  assert (X2 : exec_to n (fun r => acts2_32 O rnorm false 8 f P (begin_part w32) r ++ shown2_32 0 n ins outs r ++ acts2_32 O rnorm false 8 f P (fft_part mode rflag nloop) r) M0 Mb).
  { refine (exec_rel (@ints_index F) n _ _ M0 Mb (@ints_wrm F) _ Hm E4). intros r Hrn.
    apply Forall2_app; [exact (acts2_rel ar n st N permute ins outs f Hr Fit O rnorm P _ _ r S1 K1 Hrn)|].
    apply Forall2_app; [apply shown_rel2; [left; reflexivity|exact Hrn]|].
    exact (acts2_rel ar n st N permute ins outs f Hr Fit O rnorm P _ _ r (acts_same_refl n _) K3 Hrn). }
  split.
  - exact (order_all n _ _ _ M0 Ma X1 eager labels s R p q Hpq Hq).
  - refine (order_all n _ (acts2_32 O rnorm false 8 f P (timing [1; 2; 3] mode tflag nloop (clear2_32 z ins))) _ M0 Mb X2 eager labels s _ p q Hpq Hq).
    match type of R with run _ _ (start n ?a _) _ _ => match goal with |- run _ _ (start n ?b _) _ _ => replace (start n b M0) with (start n a M0); [exact R|] end end.
    unfold start. f_equal. apply map_ext. intros r. unfold shown_main2_32. rewrite <- !app_assoc. reflexivity.
Qed.
End ScrInt2.

(** ** a box with more than 2^30 points: 2*m overflows in the loop *)
Lemma points_over {F} b me (work : list F) : 1073741824 < psize3 b -> out_rank3_32 b b me work = None.
Proof.
  intros Hp. unfold out_rank3_32, nfft32_3. destruct (ev _) as [nf|] eqn:E; [|reflexivity]. cbn [bind].
  assert (En : nf = psize3 b).
  { clear Hp. cbn [ev] in E. unfold chk in E. repeat match type of E with context [if ?c then _ else _] => destruct c; cbn [bind] in E; try discriminate end. injection E as <-. unfold psize3, ni, nj, nk. ring. }
  subst nf. clear E. destruct (ev (#(ihi b) - #(ilo b) + #1)%I) as [nx|]; [|reflexivity]. cbn [bind]. destruct (ev (#(jhi b) - #(jlo b) + #1)%I) as [ny|]; [|reflexivity]. cbn [bind].
  match goal with |- for_ ?c ?g ?s = None => destruct (for_ c g s) as [L|] eqn:EL; [exfalso|reflexivity] end. revert EL.
  intros EL. assert (Q : psize3 b <= 1073741824); [|lia].
  revert EL. apply (for_post (fun i _ => i <= 1073741824)); [lia|lia|].
  intros i s s' Hi Hle H. destruct (Z.eq_dec i 1073741824) as [-> |]; [|lia]. exfalso.
  apply bind_Some_inv in H as (q & _ & H). cbn in H. discriminate.
Qed.
Lemma points_lines {F} b me (work : list F) : legal3 b -> 2 * psize3 b <= zlen work -> exists L, out_rank3 b (psize3 b) me work = Some L.
Proof.
  intros Hl Hw. destruct (rank_lines_ok (at3 b) (pt_at3 b) (psize3 b) me work) as (L & E & _); [apply psize3_nonneg, Hl|intros m Hm; apply at3_ok; assumption|exact Hw|].
  exists L. exact E.
Qed.
