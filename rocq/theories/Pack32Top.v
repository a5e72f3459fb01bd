(** Pack32Top.v : the 32-bit routines behind the function pointers, and on the plans that setup() of Remap3d and Remap2d makes. *)

From Verif Require Import Base Spec Pack3d Pack3dProofs Pack2d Pack2dProofs Layout Wrap Overflow OverflowProofs Remap3d Remap2d Pack32 Pack32Proofs Pack32Proofs2.
Local Open Scope Z_scope.

(** ** specification *)
Definition fits_array (A : Type) (data : list A) d0 (buf : list A) b0 : Prop := 0 <= d0 /\ 0 <= b0 /\ zlen data <= INT_MAX /\ zlen buf <= INT_MAX.
Definition flag012 (f : Z) : Prop := f = 0 \/ f = 1 \/ f = 2.

(** what the permuting routines add to the array offset in the last step of the last line *)
Definition index_past (permute : Z) (pl : pack_plan_3d) : Z :=
  if permute =? 1 then (nslow pl - 1) * nstride_line pl + nqty pl * (nmid pl - 1) + nfast pl * nstride_plane pl
  else nqty pl * (nslow pl - 1) + (nmid pl - 1) * nstride_plane pl + nfast pl * nstride_line pl.
Definition line_length (permute : Z) (pl : pack_plan_3d) : Z := nfast pl * (if permute =? 1 then nstride_plane pl else nstride_line pl).
Definition index_past2 (pl : pack_plan_2d) : Z := nqty2 pl * (nslow2 pl - 1) + nfast2 pl * nstride2 pl.

Section Top.
Context {A : Type}.
Implicit Types (data buf : list A).

Ltac flags H := destruct H as [-> | [-> | ->]]; cbn [Z.eqb Pos.eqb orb].

Theorem pack3_exact strict esize packflag data d0 buf b0 pl : plan_ok pl -> fits_array A data d0 buf b0 -> flag012 packflag ->
  (packflag = 2 -> 0 < esize /\ nfast pl * esize <= INT_MAX) ->
  pack3_32 strict esize packflag data d0 buf b0 pl = pack3 packflag data d0 buf b0 pl.
Proof.
  intros Hp (Hd & Hb & Ld & Lb) Hf He. pose proof Hp as Hp'. plan Hp'. unfold pack3_32, pack3.
  assert (W : wfp pl) by (unfold wfp; lia). flags Hf.
  - rewrite pack_3d_array_ok by assumption. apply pack_3d_array32_ok; assumption.
  - rewrite pack_3d_pointer_ok by assumption. apply pack_3d_pointer32_ok; assumption.
  - rewrite pack_3d_memcpy_ok by assumption. destruct (He eq_refl). apply pack_3d_memcpy32_ok; assumption.
Qed.

Theorem unpack3_exact strict esize packflag nq buf b0 data d0 pl : plan_ok pl -> fits_array A data d0 buf b0 -> flag012 packflag ->
  (packflag = 2 -> 0 < esize /\ nfast pl * esize <= INT_MAX) ->
  unpack3_32 strict esize packflag 0 nq buf b0 data d0 pl = unpack3 packflag 0 nq buf b0 data d0 pl.
Proof.
  intros Hp (Hd & Hb & Ld & Lb) Hf He. pose proof Hp as Hp'. plan Hp'. unfold unpack3_32, unpack3. cbn [Z.eqb].
  assert (W : wfp pl) by (unfold wfp; lia). flags Hf.
  - rewrite unpack_3d_array_ok by assumption. apply unpack_3d_array32_ok; assumption.
  - rewrite unpack_3d_pointer_ok by assumption. apply unpack_3d_pointer32_ok; assumption.
  - rewrite unpack_3d_memcpy_ok by assumption. destruct (He eq_refl). apply unpack_3d_memcpy32_ok; assumption.
Qed.

Lemma past1_eq pl : past1 pl = index_past 1 pl.
Proof. unfold past1, addr1, index_past. cbn [Z.eqb Pos.eqb]. ring. Qed.
Lemma past2_eq pl : past2 pl = index_past 2 pl.
Proof. unfold past2, addr2, index_past. cbn [Z.eqb Pos.eqb]. ring. Qed.
Lemma past2d_eq pl : past2 (up1 pl) = index_past2 pl.
Proof. unfold past2, addr2, index_past2. cbn [up1 nslow nmid nfast nqty nstride_line nstride_plane]. ring. Qed.

Theorem unpack3_permute strict esize packflag permute buf b0 data d0 pl : plan_ok pl -> fits_array A data d0 buf b0 -> flag012 packflag -> permute = 1 \/ permute = 2 ->
  unpack3_32 strict esize packflag permute (nqty pl) buf b0 data d0 pl =
  if (if packflag =? 0 then index_past permute pl <=? INT_MAX
      else (line_length permute pl <=? INT_MAX) && (negb strict || (d0 + index_past permute pl <=? zlen data)))
  then unpack3 packflag permute (nqty pl) buf b0 data d0 pl else None.
Proof.
  intros Hp (Hd & Hb & Ld & Lb) Hf Hpe. pose proof Hp as Hp'. plan Hp'. assert (W : wfp pl) by (unfold wfp; lia).
  unfold unpack3_32, unpack3. destruct Hpe as [-> | ->]; cbn [Z.eqb Pos.eqb]; rewrite <- ?past1_eq, <- ?past2_eq; unfold line_length; cbn [Z.eqb Pos.eqb].
  - destruct (Z.eqb_spec (nqty pl) 1); [|destruct (Z.eqb_spec (nqty pl) 2)]; flags Hf.
    + rewrite unpack_3d_permute1_1_array_ok by assumption. apply unpack_3d_permute1_1_array32_ok; assumption.
    + rewrite unpack_3d_permute1_1_pointer_ok by (try assumption; lia). apply unpack_3d_permute1_1_pointer32_ok; assumption.
    + rewrite unpack_3d_permute1_1_memcpy_ok by (try assumption; lia). apply unpack_3d_permute1_1_pointer32_ok; assumption.
    + rewrite unpack_3d_permute1_2_array_ok by assumption. apply unpack_3d_permute1_2_array32_ok; assumption.
    + rewrite unpack_3d_permute1_2_pointer_ok by (try assumption; lia). apply unpack_3d_permute1_2_pointer32_ok; assumption.
    + rewrite unpack_3d_permute1_2_memcpy_ok by (try assumption; lia). apply unpack_3d_permute1_2_pointer32_ok; assumption.
    + rewrite unpack_3d_permute1_n_array_ok by (try assumption; lia). apply unpack_3d_permute1_n_array32_ok; assumption.
    + rewrite unpack_3d_permute1_n_pointer_ok by (try assumption; lia). apply unpack_3d_permute1_n_pointer32_ok; assumption.
    + rewrite unpack_3d_permute1_n_memcpy_ok by (try assumption; lia). apply unpack_3d_permute1_n_pointer32_ok; assumption.
  - destruct (Z.eqb_spec (nqty pl) 1); [|destruct (Z.eqb_spec (nqty pl) 2)]; flags Hf.
    + rewrite unpack_3d_permute2_1_array_ok by assumption. apply unpack_3d_permute2_1_array32_ok; assumption.
    + rewrite unpack_3d_permute2_1_pointer_ok by (try assumption; lia). apply unpack_3d_permute2_1_pointer32_ok; assumption.
    + rewrite unpack_3d_permute2_1_memcpy_ok by (try assumption; lia). apply unpack_3d_permute2_1_pointer32_ok; assumption.
    + rewrite unpack_3d_permute2_2_array_ok by assumption. apply unpack_3d_permute2_2_array32_ok; assumption.
    + rewrite unpack_3d_permute2_2_pointer_ok by (try assumption; lia). apply unpack_3d_permute2_2_pointer32_ok; assumption.
    + rewrite unpack_3d_permute2_2_memcpy_ok by (try assumption; lia). apply unpack_3d_permute2_2_pointer32_ok; assumption.
    + rewrite unpack_3d_permute2_n_array_ok by (try assumption; lia). apply unpack_3d_permute2_n_array32_ok; assumption.
    + rewrite unpack_3d_permute2_n_pointer_ok by (try assumption; lia). apply unpack_3d_permute2_n_pointer32_ok; assumption.
    + rewrite unpack_3d_permute2_n_memcpy_ok by (try assumption; lia). apply unpack_3d_permute2_n_pointer32_ok; assumption.
Qed.

(** the memcpy routines when the line is too long: [to_int] of its bytes is the length that is copied *)
Theorem pack3_long strict esize data d0 buf b0 pl r : plan_ok pl -> fits_array A data d0 buf b0 -> 0 < esize -> pack3 2 data d0 buf b0 pl = Some r ->
  pack3_32 strict esize 2 data d0 buf b0 pl =
  if to_int (nfast pl * esize) <? 0 then None else copies data (heads_pack pl d0 b0 (to_int (nfast pl * esize) / esize)) buf.
Proof.
  intros Hp (Hd & Hb & Ld & Lb) He E. pose proof Hp as Hp'. plan Hp'. unfold pack3_32, pack3 in *. cbn [Z.eqb Pos.eqb] in *.
  rewrite pack_3d_memcpy_ok in E by (unfold wfp; lia). apply (pack_3d_memcpy32_long strict esize data d0 buf b0 pl r); assumption.
Qed.
Theorem unpack3_long strict esize nq buf b0 data d0 pl r : plan_ok pl -> fits_array A data d0 buf b0 -> 0 < esize -> unpack3 2 0 nq buf b0 data d0 pl = Some r ->
  unpack3_32 strict esize 2 0 nq buf b0 data d0 pl =
  if to_int (nfast pl * esize) <? 0 then None else copies buf (heads_unpack pl d0 b0 (to_int (nfast pl * esize) / esize)) data.
Proof.
  intros Hp (Hd & Hb & Ld & Lb) He E. pose proof Hp as Hp'. plan Hp'. unfold unpack3_32, unpack3 in *. cbn [Z.eqb Pos.eqb] in *.
  rewrite unpack_3d_memcpy_ok in E by (unfold wfp; lia). apply (unpack_3d_memcpy32_long strict esize data d0 buf b0 pl r); assumption.
Qed.

(** ** 2d *)
Theorem pack2_exact strict packflag data d0 buf b0 pl : plan_ok2 pl -> fits_array A data d0 buf b0 -> flag012 packflag ->
  (packflag = 2 -> nfast2 pl * 8 <= INT_MAX) ->
  pack2_32 strict 8 packflag data d0 buf b0 pl = pack2 8 packflag data d0 buf b0 pl.
Proof.
  intros Hp (Hd & Hb & Ld & Lb) Hf He. pose proof Hp as Hp'. plan Hp'. unfold pack2_32, pack2.
  assert (W : wfp2 pl) by (unfold wfp2; lia). flags Hf.
  - rewrite pack_2d_array_ok by assumption. apply pack_2d_array32_ok; assumption.
  - rewrite pack_2d_pointer_ok by assumption. apply pack_2d_pointer32_ok; assumption.
  - rewrite pack_2d_memcpy_ok by assumption. apply pack_2d_memcpy32_ok; auto.
Qed.
Theorem unpack2_exact strict packflag nq buf b0 data d0 pl : plan_ok2 pl -> fits_array A data d0 buf b0 -> flag012 packflag ->
  (packflag = 2 -> nfast2 pl * 8 <= INT_MAX) ->
  unpack2_32 strict 8 packflag 0 nq buf b0 data d0 pl = unpack2 8 packflag 0 nq buf b0 data d0 pl.
Proof.
  intros Hp (Hd & Hb & Ld & Lb) Hf He. pose proof Hp as Hp'. plan Hp'. unfold unpack2_32, unpack2. cbn [Z.eqb].
  assert (W : wfp2 pl) by (unfold wfp2; lia). flags Hf.
  - rewrite unpack_2d_array_ok by assumption. apply unpack_2d_array32_ok; assumption.
  - rewrite unpack_2d_pointer_ok by assumption. apply unpack_2d_pointer32_ok; assumption.
  - rewrite unpack_2d_memcpy_ok by assumption. apply unpack_2d_memcpy32_ok; auto.
Qed.
Theorem unpack2_permute strict esize packflag buf b0 data d0 pl : plan_ok2 pl -> fits_array A data d0 buf b0 -> flag012 packflag ->
  unpack2_32 strict esize packflag 1 (nqty2 pl) buf b0 data d0 pl =
  if (if packflag =? 0 then index_past2 pl <=? INT_MAX
      else (nfast2 pl * nstride2 pl <=? INT_MAX) && (negb strict || (d0 + index_past2 pl <=? zlen data)))
  then unpack2 esize packflag 1 (nqty2 pl) buf b0 data d0 pl else None.
Proof.
  intros Hp (Hd & Hb & Ld & Lb) Hf. pose proof Hp as Hp'. plan Hp'. assert (W : wfp2 pl) by (unfold wfp2; lia).
  unfold unpack2_32, unpack2. cbn [Z.eqb Pos.eqb]. rewrite <- past2d_eq.
  destruct (Z.eqb_spec (nqty2 pl) 1); [|destruct (Z.eqb_spec (nqty2 pl) 2)]; flags Hf.
  - rewrite unpack_2d_permute_1_array_ok by assumption. apply unpack_2d_permute_1_array32_ok; assumption.
  - rewrite unpack_2d_permute_1_pointer_ok by (try assumption; lia). apply unpack_2d_permute_1_pointer32_ok; assumption.
  - rewrite unpack_2d_permute_1_memcpy_ok by (try assumption; lia). apply unpack_2d_permute_1_pointer32_ok; assumption.
  - rewrite unpack_2d_permute_2_array_ok by assumption. apply unpack_2d_permute_2_array32_ok; assumption.
  - rewrite unpack_2d_permute_2_pointer_ok by (try assumption; lia). apply unpack_2d_permute_2_pointer32_ok; assumption.
  - rewrite unpack_2d_permute_2_memcpy_ok by (try assumption; lia). apply unpack_2d_permute_2_pointer32_ok; assumption.
  - rewrite unpack_2d_permute_n_array_ok by (try assumption; lia). apply unpack_2d_permute_n_array32_ok; assumption.
  - rewrite unpack_2d_permute_n_pointer_ok by (try assumption; lia). apply unpack_2d_permute_n_pointer32_ok; assumption.
  - rewrite unpack_2d_permute_n_memcpy_ok by (try assumption; lia). apply unpack_2d_permute_n_pointer32_ok; assumption.
Qed.

Theorem pack2_long strict data d0 buf b0 pl r : plan_ok2 pl -> fits_array A data d0 buf b0 -> pack2 8 2 data d0 buf b0 pl = Some r ->
  pack2_32 strict 8 2 data d0 buf b0 pl =
  if to_int (nfast2 pl * 8) <? 0 then None else copies data (heads_pack (up0 pl) d0 b0 (to_int (nfast2 pl * 8) / 8)) buf.
Proof.
  intros Hp (Hd & Hb & Ld & Lb) E. pose proof Hp as Hp'. plan Hp'. unfold pack2_32, pack2 in *. cbn [Z.eqb Pos.eqb] in *.
  rewrite pack_2d_memcpy_ok in E by (unfold wfp2; lia). apply (pack_2d_memcpy32_long strict 8 data d0 buf b0 pl r); auto; lia.
Qed.
Theorem unpack2_long strict nq buf b0 data d0 pl r : plan_ok2 pl -> fits_array A data d0 buf b0 -> unpack2 8 2 0 nq buf b0 data d0 pl = Some r ->
  unpack2_32 strict 8 2 0 nq buf b0 data d0 pl =
  if to_int (nfast2 pl * 8) <? 0 then None else copies buf (heads_unpack (up0 pl) d0 b0 (to_int (nfast2 pl * 8) / 8)) data.
Proof.
  intros Hp (Hd & Hb & Ld & Lb) E. pose proof Hp as Hp'. plan Hp'. unfold unpack2_32, unpack2 in *. cbn [Z.eqb Pos.eqb] in *.
  rewrite unpack_2d_memcpy_ok in E by (unfold wfp2; lia). apply (unpack_2d_memcpy32_long strict 8 data d0 buf b0 pl r); auto; lia.
Qed.

(** ** the plans of setup() *)
Definition within3 (ov b : box3) : Prop := ilo b <= ilo ov <= ihi ov /\ ihi ov <= ihi b /\ jlo b <= jlo ov <= jhi ov /\ jhi ov <= jhi b /\ klo b <= klo ov <= khi ov /\ khi ov <= khi b.
Definition within2 (ov b : box2) : Prop := ilo2 b <= ilo2 ov <= ihi2 ov /\ ihi2 ov <= ihi2 b /\ jlo2 b <= jlo2 ov <= jhi2 ov /\ jhi2 ov <= jhi2 b.

Lemma within3_n ov b : within3 ov b -> 1 <= ni ov <= ni b /\ 1 <= nj ov <= nj b /\ 1 <= nk ov <= nk b.
Proof. unfold within3, ni, nj, nk. lia. Qed.
Lemma within2_n ov b : within2 ov b -> 1 <= ni2 ov <= ni2 b /\ 1 <= nj2 ov <= nj2 b.
Proof. unfold within2, ni2, nj2. lia. Qed.

(** a product of positive numbers below a bound: every part is *)
Lemma prod4 nq a b c M : 1 <= nq -> 1 <= a -> 1 <= b -> 1 <= c -> nq * a * b * c <= M ->
  1 <= nq <= M /\ 1 <= nq * a <= M /\ 1 <= nq * b <= M /\ 1 <= nq * c <= M /\ 1 <= nq * a * b <= M /\ 1 <= nq * a * c <= M /\ 1 <= nq * b * c <= M /\ a <= M /\ b <= M /\ c <= M.
Proof.
  intros Hq Ha Hb Hc H.
  assert (1 <= nq * a) by nia. assert (1 <= nq * b) by nia. assert (1 <= nq * c) by nia.
  assert (nq * a <= nq * a * b) by nia. assert (nq * a * b <= nq * a * b * c) by nia.
  assert (nq * a * c <= nq * a * b * c) by nia. assert (nq * b * c <= nq * a * b * c) by nia.
  assert (nq * b <= nq * b * c) by nia. assert (nq * c <= nq * a * c) by nia. repeat split; nia.
Qed.

Ltac nnz := repeat match goal with |- 0 <= _ + _ => apply Z.add_nonneg_nonneg | |- 0 <= _ * _ => apply Z.mul_nonneg_nonneg end; lia.
Lemma splan3_ok nq inb ov : 1 <= nq -> within3 ov inb -> nq * ni inb * nj inb * nk inb <= INT_MAX -> plan_ok (splan3 nq inb ov).
Proof.
  intros Hq Hw Hv. apply within3_n in Hw as (H1 & H2 & H3). destruct (prod4 nq (ni inb) (nj inb) (nk inb) INT_MAX) as (P1 & P2 & P3 & P4 & P5 & P6 & P7 & P8 & P9 & P10); try lia.
  apply Forall_forall. intros z Hz. cbn [splan3 nfast nmid nslow nstride_line nstride_plane nqty In] in Hz. destruct Hz as [<- |[<- |[<- |[<- |[<- |[<- |[]]]]]]]; nia.
Qed.
Lemma rplan3_ok nq permute out ov : 1 <= nq -> within3 ov out -> nq * ni out * nj out * nk out <= INT_MAX -> plan_ok (rplan3 nq permute out ov).
Proof.
  intros Hq Hw Hv. apply within3_n in Hw as (H1 & H2 & H3). destruct (prod4 nq (ni out) (nj out) (nk out) INT_MAX) as (P1 & P2 & P3 & P4 & P5 & P6 & P7 & P8 & P9 & P10); try lia.
  apply Forall_forall. intros z Hz. unfold rplan3 in Hz. destruct (permute =? 0); [|destruct (permute =? 1)]; cbn [nfast nmid nslow nstride_line nstride_plane nqty In] in Hz;
    destruct Hz as [<- |[<- |[<- |[<- |[<- |[<- |[]]]]]]]; nia.
Qed.
Lemma soff3_nn nq inb ov : 1 <= nq -> within3 ov inb -> 0 <= soff3 nq inb ov.
Proof.
  intros Hq Hw. pose proof (within3_n ov inb Hw) as (H1 & H2 & H3). destruct Hw as (W1 & W2 & W3 & W4 & W5 & W6). unfold soff3.
  assert (0 <= (klo ov - klo inb) * nj inb * ni inb) by (repeat apply Z.mul_nonneg_nonneg; lia).
  assert (0 <= (jlo ov - jlo inb) * ni inb) by (apply Z.mul_nonneg_nonneg; lia).
  apply Z.mul_nonneg_nonneg; lia.
Qed.
Lemma roff3_nn nq permute out ov : 1 <= nq -> within3 ov out -> 0 <= roff3 nq permute out ov.
Proof.
  intros Hq Hw. pose proof (within3_n ov out Hw) as (H1 & H2 & H3). destruct Hw as (W1 & W2 & W3 & W4 & W5 & W6). unfold roff3.
  destruct (permute =? 0); [|destruct (permute =? 1)]; (apply Z.mul_nonneg_nonneg; [lia|]);
    nnz.
Qed.

Lemma past_arith nq x y z X Y Z' : 1 <= nq -> 1 <= x <= X -> 1 <= y <= Y -> 1 <= z <= Z' ->
  x * (nq * Y * Z') <= X * (nq * Y * Z') /\ (z - 1) * (nq * Y) + nq * (y - 1) + x * (nq * Y * Z') < 2 * (X * (nq * Y * Z')).
Proof.
  intros Hq Hx Hy Hz. assert (H0 : 0 <= nq * Y) by nnz. assert (H1 : 0 <= nq * Y * Z') by nnz.
  assert (E1 : x * (nq * Y * Z') <= X * (nq * Y * Z')) by (apply Z.mul_le_mono_nonneg_r; lia).
  assert (E2 : 1 * (nq * Y * Z') <= X * (nq * Y * Z')) by (apply Z.mul_le_mono_nonneg_r; lia).
  assert (E3 : nq * (y - 1) < nq * Y) by nia.
  assert (E4 : (z - 1) * (nq * Y) <= (Z' - 1) * (nq * Y)) by (apply Z.mul_le_mono_nonneg_r; lia).
  assert (E5 : (Z' - 1) * (nq * Y) + nq * Y = nq * Y * Z') by ring. lia.
Qed.
Lemma past_bound nq permute out ov : 1 <= nq -> within3 ov out -> permute = 1 \/ permute = 2 ->
  line_length permute (rplan3 nq permute out ov) <= nq * ni out * nj out * nk out /\
  index_past permute (rplan3 nq permute out ov) < 2 * (nq * ni out * nj out * nk out).
Proof.
  intros Hq Hw Hp. apply within3_n in Hw as (H1 & H2 & H3). unfold line_length, index_past, rplan3.
  destruct Hp as [-> | ->]; cbn [Z.eqb Pos.eqb nfast nmid nslow nstride_line nstride_plane nqty].
  - destruct (past_arith nq (ni ov) (nj ov) (nk ov) (ni out) (nj out) (nk out)) as (E1 & E2); try assumption.
    replace (nq * nk out * nj out) with (nq * nj out * nk out) by ring. replace (nq * ni out * nj out * nk out) with (ni out * (nq * nj out * nk out)) by ring. lia.
  - destruct (past_arith nq (nj ov) (nk ov) (ni ov) (nj out) (nk out) (ni out)) as (E1 & E2); try assumption.
    destruct (past_arith nq (ni ov) (nk ov) 1 (ni out) (nk out) 1) as (E3 & E4); try lia.
    assert (E5 : 0 <= nq * nk out * ni out) by nnz.
    assert (E6 : 1 * (nq * nk out * ni out) <= nj out * (nq * nk out * ni out)) by (apply Z.mul_le_mono_nonneg_r; lia).
    assert (E7 : (nj ov - 1) * (nq * nk out * ni out) <= (nj out - 1) * (nq * nk out * ni out)) by (apply Z.mul_le_mono_nonneg_r; lia).
    replace (nq * ni out * nk out) with (nq * nk out * ni out) by ring. replace (nq * ni out * nj out * nk out) with (nj out * (nq * nk out * ni out)) by ring.
    replace (ni ov * (nq * nk out)) with (ni ov * (nq * nk out * 1)) by ring.
    replace (ni out * (nq * nk out * 1)) with (nq * nk out * ni out) in E3 by ring.
    assert (E8 : nq * (nk ov - 1) < nq * nk out) by nia.
    assert (E9 : nq * nk out * 1 <= nq * nk out * ni out) by (apply Z.mul_le_mono_nonneg_l; [nnz|lia]). lia.
Qed.

Definition HALF : Z := 2 ^ 30.

Theorem remap_pack3 strict esize packflag nq inb ov data buf b0 : 1 <= nq -> within3 ov inb -> nq * ni inb * nj inb * nk inb <= INT_MAX ->
  0 <= b0 -> zlen data <= INT_MAX -> zlen buf <= INT_MAX -> flag012 packflag ->
  (packflag = 2 -> 0 < esize /\ nq * ni ov * esize <= INT_MAX) ->
  pack3_32 strict esize packflag data (soff3 nq inb ov) buf b0 (splan3 nq inb ov) = pack3 packflag data (soff3 nq inb ov) buf b0 (splan3 nq inb ov).
Proof.
  intros Hq Hw Hv Hb Ld Lb Hf He. apply pack3_exact; auto using splan3_ok. repeat split; auto using soff3_nn.
Qed.

Theorem remap_unpack3 esize packflag permute nq out ov data buf b0 : 1 <= nq -> within3 ov out -> nq * ni out * nj out * nk out <= INT_MAX ->
  0 <= b0 -> zlen data <= INT_MAX -> zlen buf <= INT_MAX -> flag012 packflag -> flag012 permute ->
  (packflag = 2 -> permute = 0 -> 0 < esize /\ nq * ni ov * esize <= INT_MAX) ->
  (packflag = 0 -> permute <> 0 -> nq * ni out * nj out * nk out <= HALF) ->
  unpack3_32 false esize packflag permute nq buf b0 data (roff3 nq permute out ov) (rplan3 nq permute out ov) =
  unpack3 packflag permute nq buf b0 data (roff3 nq permute out ov) (rplan3 nq permute out ov).
Proof.
  intros Hq Hw Hv Hb Ld Lb Hf Hp He Ha.
  assert (F : fits_array A data (roff3 nq permute out ov) buf b0) by (repeat split; auto using roff3_nn).
  destruct (Z.eq_dec permute 0) as [-> | Hn].
  - apply unpack3_exact; auto using rplan3_ok.
  - assert (Hp' : permute = 1 \/ permute = 2) by (unfold flag012 in Hp; lia). destruct (past_bound nq permute out ov Hq Hw Hp') as (B1 & B2).
    assert (Q : nqty (rplan3 nq permute out ov) = nq) by (unfold rplan3; destruct (permute =? 0); [|destruct (permute =? 1)]; reflexivity).
    pose proof (unpack3_permute false esize packflag permute buf b0 data (roff3 nq permute out ov) (rplan3 nq permute out ov) (rplan3_ok nq permute out ov Hq Hw Hv) F Hf Hp') as E.
    rewrite Q in E. rewrite E. replace (if packflag =? 0 then _ else _) with true; [reflexivity|]. symmetry. cbn [negb orb]. rewrite andb_true_r.
    destruct (Z.eqb_spec packflag 0) as [E0|E0]; [|lia]. specialize (Ha E0 Hn). unfold HALF in Ha. rewrite IMX. change (2 ^ 30) with 1073741824 in Ha. lia.
Qed.

(** the receive plans of the permuting remaps, strict pointers: what must hold for the pointer versions *)
Theorem remap_unpack3_strict esize packflag permute nq out ov data buf b0 : 1 <= nq -> within3 ov out -> nq * ni out * nj out * nk out <= INT_MAX ->
  0 <= b0 -> zlen data <= INT_MAX -> zlen buf <= INT_MAX -> packflag = 1 \/ packflag = 2 -> permute = 1 \/ permute = 2 ->
  unpack3_32 true esize packflag permute nq buf b0 data (roff3 nq permute out ov) (rplan3 nq permute out ov) =
  if roff3 nq permute out ov + index_past permute (rplan3 nq permute out ov) <=? zlen data
  then unpack3 packflag permute nq buf b0 data (roff3 nq permute out ov) (rplan3 nq permute out ov) else None.
Proof.
  intros Hq Hw Hv Hb Ld Lb Hf Hp. destruct (past_bound nq permute out ov Hq Hw Hp) as (B1 & B2).
  assert (F : fits_array A data (roff3 nq permute out ov) buf b0) by (repeat split; auto using roff3_nn).
  assert (Q : nqty (rplan3 nq permute out ov) = nq) by (unfold rplan3; destruct (permute =? 0); [|destruct (permute =? 1)]; reflexivity).
  pose proof (unpack3_permute true esize packflag permute buf b0 data (roff3 nq permute out ov) (rplan3 nq permute out ov) (rplan3_ok nq permute out ov Hq Hw Hv) F ltac:(unfold flag012; lia) Hp) as E.
  rewrite Q in E. rewrite E. replace (packflag =? 0) with false by lia. cbn [negb orb].
  replace (line_length permute (rplan3 nq permute out ov) <=? INT_MAX) with true by lia. reflexivity.
Qed.

Lemma prod3 nq a b M : 1 <= nq -> 1 <= a -> 1 <= b -> nq * a * b <= M -> nq <= M /\ nq * a <= M /\ nq * b <= M /\ a <= M /\ b <= M.
Proof. intros Hq Ha Hb H. assert (nq * a <= nq * a * b) by nia. assert (nq * b <= nq * a * b) by nia. nia. Qed.
Lemma splan2_ok nq inb ov : 1 <= nq -> within2 ov inb -> nq * ni2 inb * nj2 inb <= INT_MAX -> plan_ok2 (splan2 nq inb ov).
Proof.
  intros Hq Hw Hv. apply within2_n in Hw as (H1 & H2). destruct (prod3 nq (ni2 inb) (nj2 inb) INT_MAX) as (P1 & P2 & P3 & P4 & P5); try lia.
  apply Forall_forall. intros z Hz. cbn [splan2 nfast2 nslow2 nstride2 nqty2 In] in Hz. destruct Hz as [<- |[<- |[<- |[<- |[]]]]]; nia.
Qed.
Lemma rplan2_ok nq permute out ov : 1 <= nq -> within2 ov out -> nq * ni2 out * nj2 out <= INT_MAX -> plan_ok2 (rplan2 nq permute out ov).
Proof.
  intros Hq Hw Hv. apply within2_n in Hw as (H1 & H2). destruct (prod3 nq (ni2 out) (nj2 out) INT_MAX) as (P1 & P2 & P3 & P4 & P5); try lia.
  apply Forall_forall. intros z Hz. unfold rplan2 in Hz. destruct (permute =? 0); cbn [nfast2 nslow2 nstride2 nqty2 In] in Hz; destruct Hz as [<- |[<- |[<- |[<- |[]]]]]; nia.
Qed.
Lemma soff2_nn nq inb ov : 1 <= nq -> within2 ov inb -> 0 <= soff2 nq inb ov.
Proof.
  intros Hq Hw. pose proof (within2_n ov inb Hw) as (H1 & H2). destruct Hw as (W1 & W2 & W3 & W4). unfold soff2.
  assert (0 <= (jlo2 ov - jlo2 inb) * ni2 inb) by (apply Z.mul_nonneg_nonneg; lia). apply Z.mul_nonneg_nonneg; lia.
Qed.
Lemma roff2_nn nq permute out ov : 1 <= nq -> within2 ov out -> 0 <= roff2 nq permute out ov.
Proof.
  intros Hq Hw. pose proof (within2_n ov out Hw) as (H1 & H2). destruct Hw as (W1 & W2 & W3 & W4). unfold roff2.
  destruct (permute =? 0); (apply Z.mul_nonneg_nonneg; [lia|]); nnz.
Qed.
Lemma past_bound2 nq out ov : 1 <= nq -> within2 ov out ->
  ni2 ov * (nq * nj2 out) <= nq * ni2 out * nj2 out /\ index_past2 (rplan2 nq 1 out ov) < 2 * (nq * ni2 out * nj2 out).
Proof.
  intros Hq Hw. apply within2_n in Hw as (H1 & H2). unfold index_past2, rplan2. cbn [Z.eqb Pos.eqb nfast2 nslow2 nstride2 nqty2].
  destruct (past_arith nq (ni2 ov) (nj2 ov) 1 (ni2 out) (nj2 out) 1) as (E1 & E2); try lia.
Qed.

Theorem remap_pack2 strict packflag nq inb ov data buf b0 : 1 <= nq -> within2 ov inb -> nq * ni2 inb * nj2 inb <= INT_MAX ->
  0 <= b0 -> zlen data <= INT_MAX -> zlen buf <= INT_MAX -> flag012 packflag ->
  (packflag = 2 -> nq * ni2 ov * 8 <= INT_MAX) ->
  pack2_32 strict 8 packflag data (soff2 nq inb ov) buf b0 (splan2 nq inb ov) = pack2 8 packflag data (soff2 nq inb ov) buf b0 (splan2 nq inb ov).
Proof.
  intros Hq Hw Hv Hb Ld Lb Hf He. apply pack2_exact; auto using splan2_ok. repeat split; auto using soff2_nn.
Qed.
Theorem remap_unpack2 packflag permute nq out ov data buf b0 : 1 <= nq -> within2 ov out -> nq * ni2 out * nj2 out <= INT_MAX ->
  0 <= b0 -> zlen data <= INT_MAX -> zlen buf <= INT_MAX -> flag012 packflag -> permute = 0 \/ permute = 1 ->
  (packflag = 2 -> permute = 0 -> nq * ni2 ov * 8 <= INT_MAX) ->
  (packflag = 0 -> permute <> 0 -> nq * ni2 out * nj2 out <= HALF) ->
  unpack2_32 false 8 packflag permute nq buf b0 data (roff2 nq permute out ov) (rplan2 nq permute out ov) =
  unpack2 8 packflag permute nq buf b0 data (roff2 nq permute out ov) (rplan2 nq permute out ov).
Proof.
  intros Hq Hw Hv Hb Ld Lb Hf Hp He Ha.
  assert (F : fits_array A data (roff2 nq permute out ov) buf b0) by (repeat split; auto using roff2_nn).
  destruct Hp as [-> | ->].
  - apply unpack2_exact; auto using rplan2_ok.
  - destruct (past_bound2 nq out ov Hq Hw) as (B1 & B2).
    pose proof (unpack2_permute false 8 packflag buf b0 data (roff2 nq 1 out ov) (rplan2 nq 1 out ov) (rplan2_ok nq 1 out ov Hq Hw Hv) F Hf) as E.
    change (nqty2 (rplan2 nq 1 out ov)) with nq in E. rewrite E. replace (if packflag =? 0 then _ else _) with true; [reflexivity|]. symmetry. cbn [negb orb]. rewrite andb_true_r.
    destruct (Z.eqb_spec packflag 0) as [E0|E0].
    + specialize (Ha E0 ltac:(lia)). unfold HALF in Ha. rewrite IMX. change (2 ^ 30) with 1073741824 in Ha. lia.
    + cbn [rplan2 Z.eqb nfast2 nstride2]. lia.
Qed.
End Top.
