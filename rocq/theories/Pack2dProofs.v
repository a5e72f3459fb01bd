(** Pack2dProofs.v : every routine of src/pack2d.h performs the copies of its
    specification.  A 2d routine is the 3d routine with a single middle index,
    so the 3d lemmas are reused. *)

From Verif Require Import Base Pack3d Pack3dProofs Pack2d.

(** the 3d plans that correspond to a 2d plan *)
Definition up0 (pl : pack_plan_2d) : pack_plan_3d :=
  {| nfast := nfast2 pl; nmid := 1; nslow := nslow2 pl; nstride_line := 0; nstride_plane := nstride2 pl; nqty := nqty2 pl |}.
Definition up1 (pl : pack_plan_2d) : pack_plan_3d :=
  {| nfast := nfast2 pl; nmid := 1; nslow := nslow2 pl; nstride_line := nstride2 pl; nstride_plane := 0; nqty := nqty2 pl |}.

Definition wfp2 (pl : pack_plan_2d) := 0 <= nfast2 pl /\ 0 <= nslow2 pl.

Section Proofs.
Context {A : Type}.
Implicit Types (data buf : list A) (pl : pack_plan_2d).

Lemma for_1 {St} (body : Z -> St -> option St) s : for_ 1 body s = body 0 s.
Proof. unfold for_. cbn. apply bind_some_r. Qed.

Lemma up0_wf pl : wfp2 pl -> wfp (up0 pl).
Proof. unfold wfp2, wfp; cbn; lia. Qed.
Lemma up1_wf pl : wfp2 pl -> wfp (up1 pl).
Proof. unfold wfp2, wfp; cbn; lia. Qed.

Ltac up pl3 :=
  cbn [nfast nmid nslow nstride_line nstride_plane nqty up0 up1];
  match goal with |- bind _ ?f = bind _ ?g => apply (f_equal (fun o => bind o f)) end;
  apply for_ext; intros slow [d c] _; rewrite for_1; rewrite ?Z.mul_0_l, ?Z.mul_0_r, ?Z.add_0_r; reflexivity.

Lemma pack_2d_array_ok data d0 buf b0 pl : wfp2 pl ->
  pack_2d_array data d0 buf b0 pl = copies data (pairs_pack (up0 pl) d0 b0) buf.
Proof.
  intros H. rewrite <- pack_3d_array_ok by (apply up0_wf; exact H).
  unfold pack_2d_array, pack_3d_array. up up0.
Qed.

Lemma unpack_2d_array_ok data d0 buf b0 pl : wfp2 pl ->
  unpack_2d_array buf b0 data d0 pl = copies buf (pairs_unpack (up0 pl) d0 b0) data.
Proof.
  intros H. rewrite <- unpack_3d_array_ok by (apply up0_wf; exact H).
  unfold unpack_2d_array, unpack_3d_array. up up0.
Qed.

Lemma pack_2d_pointer_ok data d0 buf b0 pl : wfp2 pl ->
  pack_2d_pointer data d0 buf b0 pl = copies data (pairs_pack (up0 pl) d0 b0) buf.
Proof.
  intros H. rewrite <- pack_3d_pointer_ok by (apply up0_wf; exact H).
  unfold pack_2d_pointer, pack_3d_pointer. up up0.
Qed.

Lemma unpack_2d_pointer_ok data d0 buf b0 pl : wfp2 pl ->
  unpack_2d_pointer buf b0 data d0 pl = copies buf (pairs_unpack (up0 pl) d0 b0) data.
Proof.
  intros H. rewrite <- unpack_3d_pointer_ok by (apply up0_wf; exact H).
  unfold unpack_2d_pointer, unpack_3d_pointer. up up0.
Qed.

Lemma pack_2d_memcpy_ok data d0 buf b0 pl : wfp2 pl ->
  pack_2d_memcpy 8 data d0 buf b0 pl = copies data (pairs_pack (up0 pl) d0 b0) buf.
Proof.
  intros H. rewrite <- pack_3d_memcpy_ok by (apply up0_wf; exact H).
  unfold pack_2d_memcpy, pack_3d_memcpy.
  cbn [nfast nmid nslow nstride_line nstride_plane nqty up0].
  rewrite Z.div_mul by lia.
  apply for_ext; intros slow d _; rewrite for_1; rewrite ?Z.mul_0_l, ?Z.mul_0_r, ?Z.add_0_r, ?Z.mul_1_r; reflexivity.
Qed.

Lemma unpack_2d_memcpy_ok data d0 buf b0 pl : wfp2 pl ->
  unpack_2d_memcpy 8 buf b0 data d0 pl = copies buf (pairs_unpack (up0 pl) d0 b0) data.
Proof.
  intros H. rewrite <- unpack_3d_memcpy_ok by (apply up0_wf; exact H).
  unfold unpack_2d_memcpy, unpack_3d_memcpy.
  cbn [nfast nmid nslow nstride_line nstride_plane nqty up0].
  rewrite Z.div_mul by lia.
  apply for_ext; intros slow d _; rewrite for_1; rewrite ?Z.mul_0_l, ?Z.mul_0_r, ?Z.add_0_r, ?Z.mul_1_r; reflexivity.
Qed.

Lemma unpack_2d_permute_1_array_ok data d0 buf b0 pl : wfp2 pl -> nqty2 pl = 1 ->
  unpack_2d_permute_1_array buf b0 data d0 pl = copies buf (pairs_unpackP addr2 (nqty (up1 pl)) (up1 pl) d0 b0) data.
Proof.
  intros H Hq. rewrite <- unpack_3d_permute2_1_array_ok by (try apply up1_wf; assumption).
  unfold unpack_2d_permute_1_array, unpack_3d_permute2_1_array. up up1.
Qed.

Lemma unpack_2d_permute_2_array_ok data d0 buf b0 pl : wfp2 pl -> nqty2 pl = 2 ->
  unpack_2d_permute_2_array buf b0 data d0 pl = copies buf (pairs_unpackP addr2 (nqty (up1 pl)) (up1 pl) d0 b0) data.
Proof.
  intros H Hq. rewrite <- unpack_3d_permute2_2_array_ok by (try apply up1_wf; assumption).
  unfold unpack_2d_permute_2_array, unpack_3d_permute2_2_array. up up1.
Qed.

Lemma unpack_2d_permute_n_array_ok data d0 buf b0 pl : wfp2 pl -> 0 <= nqty2 pl ->
  unpack_2d_permute_n_array buf b0 data d0 pl = copies buf (pairs_unpackP addr2 (nqty (up1 pl)) (up1 pl) d0 b0) data.
Proof.
  intros H Hq.   rewrite <- unpack_3d_permute2_n_array_ok by (try apply up1_wf; assumption).
  unfold unpack_2d_permute_n_array, unpack_3d_permute2_n_array. up up1.
Qed.

Lemma unpack_2d_permute_1_pointer_ok data d0 buf b0 pl : wfp2 pl -> nqty2 pl = 1 -> 0 < nstride2 pl ->
  unpack_2d_permute_1_pointer buf b0 data d0 pl = copies buf (pairs_unpackP addr2 (nqty (up1 pl)) (up1 pl) d0 b0) data.
Proof.
  intros H Hq Hs. rewrite <- unpack_3d_permute2_1_pointer_ok by (try apply up1_wf; assumption).
  unfold unpack_2d_permute_1_pointer, unpack_3d_permute2_1_pointer. up up1.
Qed.

Lemma unpack_2d_permute_2_pointer_ok data d0 buf b0 pl : wfp2 pl -> nqty2 pl = 2 -> 0 < nstride2 pl ->
  unpack_2d_permute_2_pointer buf b0 data d0 pl = copies buf (pairs_unpackP addr2 (nqty (up1 pl)) (up1 pl) d0 b0) data.
Proof.
  intros H Hq Hs. rewrite <- unpack_3d_permute2_2_pointer_ok by (try apply up1_wf; assumption).
  unfold unpack_2d_permute_2_pointer, unpack_3d_permute2_2_pointer. up up1.
Qed.

Lemma unpack_2d_permute_n_pointer_ok data d0 buf b0 pl : wfp2 pl -> 0 <= nqty2 pl -> 0 < nstride2 pl ->
  unpack_2d_permute_n_pointer buf b0 data d0 pl = copies buf (pairs_unpackP addr2 (nqty (up1 pl)) (up1 pl) d0 b0) data.
Proof.
  intros H Hq Hs.   rewrite <- unpack_3d_permute2_n_pointer_ok by (try apply up1_wf; assumption).
  unfold unpack_2d_permute_n_pointer, unpack_3d_permute2_n_pointer. up up1.
Qed.

Lemma unpack_2d_permute_1_memcpy_ok data d0 buf b0 pl : wfp2 pl -> nqty2 pl = 1 -> 0 < nstride2 pl ->
  unpack_2d_permute_1_memcpy buf b0 data d0 pl = copies buf (pairs_unpackP addr2 (nqty (up1 pl)) (up1 pl) d0 b0) data.
Proof. exact (unpack_2d_permute_1_pointer_ok data d0 buf b0 pl). Qed.

Lemma unpack_2d_permute_2_memcpy_ok data d0 buf b0 pl : wfp2 pl -> nqty2 pl = 2 -> 0 < nstride2 pl ->
  unpack_2d_permute_2_memcpy buf b0 data d0 pl = copies buf (pairs_unpackP addr2 (nqty (up1 pl)) (up1 pl) d0 b0) data.
Proof. exact (unpack_2d_permute_2_pointer_ok data d0 buf b0 pl). Qed.

Lemma unpack_2d_permute_n_memcpy_ok data d0 buf b0 pl : wfp2 pl -> 0 <= nqty2 pl -> 0 < nstride2 pl ->
  unpack_2d_permute_n_memcpy buf b0 data d0 pl = copies buf (pairs_unpackP addr2 (nqty (up1 pl)) (up1 pl) d0 b0) data.
Proof. exact (unpack_2d_permute_n_pointer_ok data d0 buf b0 pl). Qed.

End Proofs.
