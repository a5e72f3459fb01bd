(** Remap32Ex.v : a whole remap that changes nothing, because the bytes of a line are 0 modulo 2^32. *)

From Verif Require Import Base Spec Pack3d Pack3dProofs Pack2d Sched SchedProofs MemProofs Phases Exec Layout Wrap Overflow OverflowProofs Remap RemapProofs RemapMain Remap3d Remap2d RemapInst RemapThms RemapTop
  Pack32 Pack32Proofs Pack32Proofs2 Pack32Top Pack32Ex Remap32 Remap32Proofs.
Local Open Scope Z_scope.

Section Line.
Variable n : Z.
Hypothesis En : n = 2 ^ 28.
Definition lines1 : nat -> box3 := fun _ => line3 n.
Definition mem1 : nat -> @rmem Z := fun _ => mkmem (fill 1 (2 * n)) (fill 0 (2 * n)) [] (fill 0 (2 * n)).

Lemma n_val : n = 268435456.
Proof. rewrite En. reflexivity. Qed.
Lemma line_meets : collide3 (line3 n) (line3 n) = Some (line3 n).
Proof.
  pose proof n_val. unfold collide3, line3. cbn [ilo ihi jlo jhi klo khi]. rewrite !Z.max_id, !Z.min_id. cbn [Z.ltb Z.compare orb].
  replace (n - 1 <? 0) with false by lia. reflexivity.
Qed.
Lemma line_vol : vol3 (line3 n) = n.
Proof. pose proof n_val. destruct (line3_n n) as (N1 & N2 & N3). unfold vol3. rewrite N1, N2, N3. lia. Qed.
Lemma line_plan (o : rops Z box3 pack_plan_3d) : o_collide o = collide3 -> setup o 1 false lines1 lines1 0 =
  Some (mkrplan [mkentry 0 (o_soff o (line3 n) (line3 n)) (o_size o (line3 n)) (o_splan o (line3 n) (line3 n))] 0
                [mkentry 0 (o_roff o (line3 n) (line3 n)) (o_size o (line3 n)) (o_rplan o (line3 n) (line3 n))] 0 [0] true [] [] [] 0 (o_outvol o (line3 n))).
Proof.
  intros E. unfold setup, send_entries, recv_entries, ring. cbn [ring_from Nat.eqb flat_map]. unfold lines1. rewrite E. change (if Nat.eqb 1 1 then 0%nat else 1%nat) with 0%nat.
  rewrite line_meets. cbn [app]. reflexivity.
Qed.

Lemma line_code strict : remap3_32 strict 8 1 false 2 2 0 lines1 lines1 BIn BOut 0%nat =
  map ILocal [do_pack (ops3_32 strict 8 2 2 0) BIn BRecv 0 (mkentry 0 (soff3 2 (line3 n) (line3 n)) (size3 2 (line3 n)) (splan3 2 (line3 n) (line3 n)));
              do_unpack (ops3_32 (A := Z) strict 8 2 2 0) BOut 0 (mkentry 0 (roff3 2 0 (line3 n) (line3 n)) (size3 2 (line3 n)) (rplan3 2 0 (line3 n) (line3 n)))].
Proof. unfold remap3_32, remap_code. rewrite line_plan by reflexivity. reflexivity. Qed.

Lemma bytes0 : to_int (2 * n * 8) = 0.
Proof. rewrite n_val. reflexivity. Qed.
Lemma silent_pack strict : pack3_32 strict 8 2 (fill 1 (2 * n)) 0 (fill 0 (2 * n)) 0 (splan3 2 (line3 n) (line3 n)) = Some (fill 0 (2 * n)).
Proof.
  pose proof n_val. destruct (line3_n n) as (N1 & N2 & N3). destruct (line3_pack n (fill 1 (2 * n)) (fill 0 (2 * n))) as (r & E & _); try (rewrite ?zlen_fill; lia).
  rewrite (pack3_long strict 8 _ 0 _ 0 _ r).
  - cbn [splan3 nfast]. rewrite N1, bytes0. cbn [Z.ltb Z.compare]. change (0 / 8) with 0. unfold heads_pack, flat3. cbn [splan3 nslow nmid nfast]. rewrite N2, N3. reflexivity.
  - apply splan3_ok; [lia|apply line3_in; lia|rewrite N1, N2, N3, IMX; lia].
  - repeat split; rewrite ?zlen_fill, ?IMX; lia.
  - lia.
  - assumption.
Qed.
Lemma silent_unpack strict : unpack3_32 strict 8 2 0 2 (fill 0 (2 * n)) 0 (fill 0 (2 * n)) 0 (rplan3 2 0 (line3 n) (line3 n)) = Some (fill 0 (2 * n)).
Proof.
  pose proof n_val. destruct (line3_n n) as (N1 & N2 & N3).
  assert (Ex : exists r, unpack3 2 0 2 (fill 0 (2 * n)) 0 (fill 0 (2 * n)) 0 (rplan3 2 0 (line3 n) (line3 n)) = Some r).
  { unfold unpack3. cbn [Z.eqb Pos.eqb]. rewrite unpack_3d_memcpy_ok by (unfold wfp, rplan3; cbn [Z.eqb nfast nmid nslow]; lia). apply copies_Some.
    intros d s I. unfold pairs_unpack, flat3, rplan3 in I. cbn [Z.eqb nfast nmid nslow] in I. rewrite N1, N2, N3 in I. change (zrange 1) with [0] in I. cbn [flat_map] in I. rewrite !app_nil_r in I.
    apply in_flat_map in I as (x & Hx & [I|[]]). apply In_zrange in Hx. unfold slot3, addr0 in I. cbn [nfast nmid nslow nstride_line nstride_plane] in I. injection I as <- <-. rewrite !zlen_fill by lia. nia. }
  destruct Ex as (r & E). rewrite (unpack3_long strict 8 2 _ 0 _ 0 _ r).
  - unfold rplan3. cbn [Z.eqb nfast]. rewrite N1, bytes0. cbn [Z.ltb Z.compare]. change (0 / 8) with 0. unfold heads_unpack, flat3. cbn [nslow nmid nfast]. rewrite N2, N3. reflexivity.
  - apply rplan3_ok; [lia|apply line3_in; lia|rewrite N1, N2, N3, IMX; lia].
  - repeat split; rewrite ?zlen_fill, ?IMX; lia.
  - lia.
  - assumption.
Qed.
Lemma off0 : soff3 2 (line3 n) (line3 n) = 0 /\ roff3 2 0 (line3 n) (line3 n) = 0.
Proof. unfold soff3, roff3. cbn [Z.eqb]. split; ring. Qed.

Lemma line_runs strict : exec_all 1 (remap3_32 strict 8 1 false 2 2 0 lines1 lines1 BIn BOut) mem1 (fun r m => m = mem1 r).
Proof.
  destruct off0 as (O1 & O2).
  assert (T : triple 1 Exec.strict (fun r m => m = mem1 r) (fun _ => map ILocal [do_pack (ops3_32 strict 8 2 2 0) BIn BRecv 0 (mkentry 0 (soff3 2 (line3 n) (line3 n)) (size3 2 (line3 n)) (splan3 2 (line3 n) (line3 n)));
              do_unpack (ops3_32 (A := Z) strict 8 2 2 0) BOut 0 (mkentry 0 (roff3 2 0 (line3 n) (line3 n)) (size3 2 (line3 n)) (rplan3 2 0 (line3 n) (line3 n)))]) (fun r m => m = mem1 r)).
  { apply triple_local. intros r m Hr ->. exists (mem1 r). split; [|reflexivity]. unfold seqf, do_pack, do_unpack, mem1. cbn [ops3_32 o_pack o_unpack getb setb m_in m_out m_send m_recv e_off e_plan]. rewrite O1, O2.
    rewrite silent_pack. cbn [bind getb setb m_in m_out m_send m_recv]. rewrite silent_unpack. reflexivity. }
  destruct (triple_exec 1 _ _ _ mem1 T ltac:(intros r Hr; rewrite <- (app_nil_r (map _ _)); apply wf_locals; constructor) ltac:(reflexivity)) as (M' & HP & L & H). exists M'. split; [exact HP|]. exists L. intros eager labels s Hs. apply (H eager labels s).
  replace (start 1 _ mem1) with (start 1 (remap3_32 strict 8 1 false 2 2 0 lines1 lines1 BIn BOut) mem1); [exact Hs|]. unfold start. f_equal. cbn [seq map]. rewrite line_code. reflexivity.
Qed.

Lemma line_tiling : tiling3 1 (n, 1, 1) lines1.
Proof.
  split; [|split].
  - intros p r _ H. exact H.
  - intros p r r' Hr Hr' _ _. lia.
  - intros p H. exists 0%nat. split; [lia|exact H].
Qed.
Lemma line_call : call_ok3 1 2 0 lines1 lines1 false 2 BIn BOut mem1.
Proof.
  pose proof n_val. split; [right; right; reflexivity|]. split; [left; reflexivity|]. split; [right; reflexivity|]. split.
  - intros r _. unfold lines1, mem1. cbn [getb m_in m_out]. rewrite line_vol, !zlen_fill by lia. lia.
  - intros r pl Hr E. replace r with 0%nat in * by lia. unfold setup3 in E. rewrite line_plan in E by reflexivity. injection E as <-. cbn [rp_sendsize rp_recvsize]. unfold mem1. cbn [m_send m_recv].
    rewrite zlen_fill by lia. cbn [ops3 o_outvol]. unfold outvol3. destruct (line3_n n) as (N1 & N2 & N3). rewrite N1, N2, N3. cbn. lia.
Qed.
End Line.

Theorem remap_silent : exists N ins outs (M0 : nat -> @rmem Z),
  tiling3 1 N ins /\ tiling3 1 N outs /\ call_ok3 1 2 0 ins outs false 2 BIn BOut M0 /\ ints_index (M0 0%nat) /\ 2 * vol3 (ins 0%nat) <= INT_MAX /\ 2 * vol3 (outs 0%nat) <= INT_MAX /\
  holds3 2 0 (ins 0%nat) (fun _ _ => 1) (m_in (M0 0%nat)) /\ holds3 2 0 (outs 0%nat) (fun _ _ => 0) (m_out (M0 0%nat)) /\
  forall strict, exec_all 1 (remap3_32 strict 8 1 false 2 2 0 ins outs BIn BOut) M0 (fun r m => m = M0 r).
Proof.
  destruct (ex_intro (fun n => n = 2 ^ 28) (2 ^ 28) eq_refl) as (n & En). pose proof (n_val n En) as Hn.
  exists (n, 1, 1), (lines1 n), (lines1 n), (mem1 n). split; [apply line_tiling|]. split; [apply line_tiling|]. split; [apply line_call, En|].
  assert (Hh : forall v, holds3 2 0 (line3 n) (fun _ _ => v) (fill v (2 * n))).
  { intros v p q Hp Hq. destruct p as [[i j] k]. rewrite zget_fill; [reflexivity|]. unfold inb3, line3 in Hp. cbn [ilo ihi jlo jhi klo khi] in Hp. assert (j = 0) by lia. assert (k = 0) by lia. subst j k.
    replace (cell3 2 0 (line3 n) (i, 0, 0) q) with (2 * i + q); [lia|]. unfold cell3, pos3, line3. cbn [Z.eqb ilo ihi jlo jhi klo khi]. rewrite !Z.sub_0_r. ring. }
  split; [intros b; destruct b; cbn [getb mem1 m_in m_out m_send m_recv]; change (zlen (@nil Z)) with 0; rewrite ?zlen_fill, IMX by lia; lia|].
  unfold lines1. rewrite (line_vol n En), IMX. split; [lia|]. split; [lia|]. split; [apply Hh|]. split; [apply Hh|].
  intros strict. apply line_runs, En.
Qed.
