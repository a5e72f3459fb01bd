(** Pack32Ex.v : where the 32-bit routines differ from the unbounded ones. *)

From Verif Require Import Base Spec Pack3d Pack3dProofs Pack2d Pack2dProofs Layout Wrap Overflow OverflowProofs Remap3d Remap2d Pack32 Pack32Proofs Pack32Proofs2 Pack32Top.
Local Open Scope Z_scope.

Definition fill (v n : Z) : list Z := repeat v (Z.to_nat n).
Lemma zlen_fill v n : 0 <= n -> zlen (fill v n) = n.
Proof. intros. unfold fill, zlen. rewrite repeat_length. lia. Qed.
Lemma zget_fill v n i : 0 <= i < n -> zget (fill v n) i = Some v.
Proof.
  intros H. unfold zget, fill. replace (i <? 0) with false by lia. rewrite nth_error_repeat; [reflexivity|lia].
Qed.


(** a list of copies of elements 0 .. n-1 to the same places *)
Lemma copies_line (f : Z -> Z * Z) (src dst : list Z) n : 1 <= n -> zlen src = n -> zlen dst = n -> (forall x, 0 <= x < n -> f x = (x, x)) ->
  exists r, copies src (flat_map (fun x => [f x]) (zrange n)) dst = Some r /\ forall i, 0 <= i < n -> zget r i = zget src i.
Proof.
  intros Hn Hs Hd Hf.
  assert (E : flat_map (fun x => [f x]) (zrange n) = map (fun x => (x, x)) (zrange n)).
  { rewrite flat_map_single. apply map_ext_in. intros x Hx. apply In_zrange in Hx. apply Hf. assumption. }
  rewrite E. destruct (copies_Some src (map (fun x => (x, x)) (zrange n)) dst) as (r & Er).
  { intros d s H. apply in_map_iff in H as (x & H & Hx). apply In_zrange in Hx. injection H as <- <-. lia. }
  exists r. split; [assumption|]. intros i Hi. apply (copies_hit _ _ _ _ i i Er).
  - rewrite map_map. cbn. rewrite map_id. apply zrange_NoDup.
  - apply in_map_iff. exists i. split; [reflexivity|apply In_zrange; assumption].
Qed.

(** a tile that is one line of [n] points *)
Definition line3 (n : Z) : box3 := mkbox3 0 (n - 1) 0 0 0 0.
Definition line2 (n : Z) : box2 := mkbox2 0 (n - 1) 0 0.
Lemma line3_n n : ni (line3 n) = n /\ nj (line3 n) = 1 /\ nk (line3 n) = 1.
Proof. unfold ni, nj, nk, line3. cbn [ilo ihi jlo jhi klo khi]. lia. Qed.
Lemma line2_n n : ni2 (line2 n) = n /\ nj2 (line2 n) = 1.
Proof. unfold ni2, nj2, line2. cbn [ilo2 ihi2 jlo2 jhi2]. lia. Qed.
Lemma line3_in n : 1 <= n -> within3 (line3 n) (line3 n).
Proof. intros. unfold within3, line3. cbn [ilo ihi jlo jhi klo khi]. lia. Qed.
Lemma line2_in n : 1 <= n -> within2 (line2 n) (line2 n).
Proof. intros. unfold within2, line2. cbn [ilo2 ihi2 jlo2 jhi2]. lia. Qed.
Lemma soff3_line n : soff3 2 (line3 n) (line3 n) = 0.
Proof. unfold soff3. ring. Qed.
Lemma soff2_line n : soff2 2 (line2 n) (line2 n) = 0.
Proof. unfold soff2. ring. Qed.

Lemma line3_pack n (data buf : list Z) : 1 <= n -> zlen data = 2 * n -> zlen buf = 2 * n ->
  exists r, pack3 2 data 0 buf 0 (splan3 2 (line3 n) (line3 n)) = Some r /\ forall i, 0 <= i < 2 * n -> zget r i = zget data i.
Proof.
  intros Hn Hd Hb. destruct (line3_n n) as (N1 & N2 & N3). unfold pack3. cbn [Z.eqb Pos.eqb].
  assert (P : nfast (splan3 2 (line3 n) (line3 n)) = 2 * n /\ nmid (splan3 2 (line3 n) (line3 n)) = 1 /\ nslow (splan3 2 (line3 n) (line3 n)) = 1)
    by (cbn [splan3 nfast nmid nslow]; rewrite N1, N2, N3; auto). destruct P as (P1 & P2 & P3).
  rewrite pack_3d_memcpy_ok by (unfold wfp; lia). unfold pairs_pack, flat3. rewrite P1, P2, P3. change (zrange 1) with [0]. cbn [flat_map]. rewrite !app_nil_r.
  apply copies_line; try lia. intros x Hx. unfold slot3, addr0. f_equal; ring.
Qed.
Lemma line2_pack n (data buf : list Z) : 1 <= n -> zlen data = 2 * n -> zlen buf = 2 * n ->
  exists r, pack2 8 2 data 0 buf 0 (splan2 2 (line2 n) (line2 n)) = Some r /\ forall i, 0 <= i < 2 * n -> zget r i = zget data i.
Proof.
  intros Hn Hd Hb. destruct (line2_n n) as (N1 & N2). unfold pack2. cbn [Z.eqb Pos.eqb].
  assert (P : nfast2 (splan2 2 (line2 n) (line2 n)) = 2 * n /\ nslow2 (splan2 2 (line2 n) (line2 n)) = 1)
    by (cbn [splan2 nfast2 nslow2]; rewrite N1, N2; auto). destruct P as (P1 & P2).
  rewrite pack_2d_memcpy_ok by (unfold wfp2; lia). unfold pairs_pack, flat3. cbn [up0 nfast nmid nslow]. rewrite P1, P2. change (zrange 1) with [0]. cbn [flat_map]. rewrite !app_nil_r.
  apply copies_line; try lia. intros x Hx. unfold slot3, addr0. f_equal; ring.
Qed.

(** a line of 2^28 complex numbers: 2^32 bytes are 0 as an int, nothing is packed *)
Theorem memcpy_silent3 : exists (inb : box3) (data buf r : list Z),
  within3 inb inb /\ 2 * ni inb * nj inb * nk inb <= INT_MAX /\ zlen data = 2 * ni inb * nj inb * nk inb /\ zlen buf = 2 * ni inb * nj inb * nk inb /\
  pack3 2 data 0 buf 0 (splan3 2 inb inb) = Some r /\ (forall i, 0 <= i < zlen buf -> zget r i = Some 1 /\ zget buf i = Some 0) /\
  forall strict, pack3_32 strict 8 2 data 0 buf 0 (splan3 2 inb inb) = Some buf.
Proof.
  destruct (ex_intro (fun n => n = 268435456) (2 ^ 28) eq_refl) as (n & En). destruct (line3_n n) as (N1 & N2 & N3).
  destruct (line3_pack n (fill 1 (2 * n)) (fill 0 (2 * n))) as (r & E & H); try (rewrite ?zlen_fill; lia).
  exists (line3 n), (fill 1 (2 * n)), (fill 0 (2 * n)), r. rewrite N1, N2, N3, !zlen_fill, IMX by lia.
  split; [apply line3_in; lia|]. split; [lia|]. split; [lia|]. split; [lia|]. split; [assumption|]. split.
  - intros i Hi. rewrite H, !zget_fill by lia. auto.
  - intros strict. rewrite (pack3_long strict 8 _ 0 _ 0 _ r).
    + cbn [splan3 nfast]. rewrite N1. replace (to_int (2 * n * 8)) with 0 by (unfold to_int; rewrite En; reflexivity). cbn [Z.ltb Z.compare].
      change (0 / 8) with 0. unfold heads_pack, flat3. cbn [splan3 nslow nmid nfast]. rewrite N2, N3. reflexivity.
    + apply splan3_ok; [lia|apply line3_in; lia|rewrite N1, N2, N3, IMX; lia].
    + repeat split; rewrite ?zlen_fill, ?IMX; lia.
    + lia.
    + assumption.
Qed.
Theorem memcpy_silent2 : exists (inb : box2) (data buf r : list Z),
  within2 inb inb /\ 2 * ni2 inb * nj2 inb <= INT_MAX /\ zlen data = 2 * ni2 inb * nj2 inb /\ zlen buf = 2 * ni2 inb * nj2 inb /\
  pack2 8 2 data 0 buf 0 (splan2 2 inb inb) = Some r /\ (forall i, 0 <= i < zlen buf -> zget r i = Some 1 /\ zget buf i = Some 0) /\
  forall strict, pack2_32 strict 8 2 data 0 buf 0 (splan2 2 inb inb) = Some buf.
Proof.
  destruct (ex_intro (fun n => n = 268435456) (2 ^ 28) eq_refl) as (n & En). destruct (line2_n n) as (N1 & N2).
  destruct (line2_pack n (fill 1 (2 * n)) (fill 0 (2 * n))) as (r & E & H); try (rewrite ?zlen_fill; lia).
  exists (line2 n), (fill 1 (2 * n)), (fill 0 (2 * n)), r. rewrite N1, N2, !zlen_fill, IMX by lia.
  split; [apply line2_in; lia|]. split; [lia|]. split; [lia|]. split; [lia|]. split; [assumption|]. split.
  - intros i Hi. rewrite H, !zget_fill by lia. auto.
  - intros strict. rewrite (pack2_long strict _ 0 _ 0 _ r).
    + cbn [splan2 nfast2]. rewrite N1. replace (to_int (2 * n * 8)) with 0 by (unfold to_int; rewrite En; reflexivity). cbn [Z.ltb Z.compare].
      change (0 / 8) with 0. unfold heads_pack, flat3. cbn [up0 splan2 nslow nmid nfast nslow2 nfast2]. rewrite N2. reflexivity.
    + apply splan2_ok; [lia|apply line2_in; lia|rewrite N1, N2, IMX; lia].
    + repeat split; rewrite ?zlen_fill, ?IMX; lia.
    + assumption.
Qed.

(** a line of 2^27 complex numbers: 2^31 bytes are -2^31 as an int and 2^64 - 2^31 as a size_t *)
Theorem memcpy_crash3 : exists (inb : box3) (data buf r : list Z),
  within3 inb inb /\ 2 * ni inb * nj inb * nk inb <= INT_MAX /\ pack3 2 data 0 buf 0 (splan3 2 inb inb) = Some r /\
  forall strict, pack3_32 strict 8 2 data 0 buf 0 (splan3 2 inb inb) = None.
Proof.
  destruct (ex_intro (fun n => n = 134217728) (2 ^ 27) eq_refl) as (n & En). destruct (line3_n n) as (N1 & N2 & N3).
  destruct (line3_pack n (fill 1 (2 * n)) (fill 0 (2 * n))) as (r & E & H); try (rewrite ?zlen_fill; lia).
  exists (line3 n), (fill 1 (2 * n)), (fill 0 (2 * n)), r. rewrite N1, N2, N3, IMX.
  split; [apply line3_in; lia|]. split; [lia|]. split; [assumption|]. intros strict. rewrite (pack3_long strict 8 _ 0 _ 0 _ r).
  - cbn [splan3 nfast]. rewrite N1. replace (to_int (2 * n * 8)) with (-2147483648) by (unfold to_int; rewrite En; reflexivity). reflexivity.
  - apply splan3_ok; [lia|apply line3_in; lia|rewrite N1, N2, N3, IMX; lia].
  - repeat split; rewrite ?zlen_fill, ?IMX; lia.
  - lia.
  - assumption.
Qed.

(** the permuting array routine on a tile of INT_MAX numbers *)
Theorem array_overflow3 : exists (out : box3) (buf data r : list Z),
  within3 out out /\ 1 * ni out * nj out * nk out <= INT_MAX /\ zlen data = ni out * nj out * nk out /\
  unpack3 0 1 1 buf 0 data 0 (rplan3 1 1 out out) = Some r /\
  forall strict esize, unpack3_32 strict esize 0 1 1 buf 0 data 0 (rplan3 1 1 out out) = None /\
                       unpack3_32 false esize 1 1 1 buf 0 data 0 (rplan3 1 1 out out) = Some r.
Proof.
  destruct (ex_intro (fun n => n = INT_MAX) INT_MAX eq_refl) as (n & EM). assert (En : n = 2147483647) by (rewrite EM; exact IMX).
  set (out := mkbox3 0 0 0 (n - 1) 0 0).
  assert (N : ni out = 1 /\ nj out = n /\ nk out = 1) by (unfold ni, nj, nk, out; cbn [ilo ihi jlo jhi klo khi]; lia). destruct N as (N1 & N2 & N3).
  assert (W : within3 out out) by (unfold within3, out; cbn [ilo ihi jlo jhi klo khi]; lia).
  assert (V : 1 * ni out * nj out * nk out <= INT_MAX) by (rewrite N1, N2, N3; rewrite <- ?EM; lia).
  pose proof (rplan3_ok 1 1 out out ltac:(lia) W V) as PK. set (pl := rplan3 1 1 out out) in *.
  assert (P : nfast pl = 1 /\ nmid pl = n /\ nslow pl = 1 /\ nstride_line pl = n /\ nstride_plane pl = n /\ nqty pl = 1).
  { unfold pl, rplan3. cbn [Z.eqb Pos.eqb nfast nmid nslow nstride_line nstride_plane nqty]. rewrite N1, N2, N3. lia. }
  destruct P as (P1 & P2 & P3 & P4 & P5 & P6).
  assert (L : zlen (fill 1 n) = n /\ zlen (fill 0 n) = n) by (rewrite !zlen_fill; lia). destruct L as (L1 & L2).
  destruct (copies_Some (fill 1 n) (pairs_unpackP addr1 (nqty pl) pl 0 0) (fill 0 n)) as (r & E).
  { intros d s H. unfold pairs_unpackP, flat3 in H. apply in_flat_map in H as (sl & H1 & H). apply in_flat_map in H as (m & H2 & H). apply in_flat_map in H as (x & H3 & H).
    apply in_map_iff in H as (q & H & H4). rewrite P1 in H3. rewrite P2 in H2. rewrite P3 in H1. rewrite P6 in H4. apply In_zrange in H1, H2, H3, H4.
    injection H as <- <-. unfold addr1, slot3. rewrite ?P1, ?P2, ?P4, ?P5, ?P6, L1, L2. replace sl with 0 by lia. replace x with 0 by lia. replace q with 0 by lia. lia. }
  assert (Wf : wfp pl) by (unfold wfp; lia).
  assert (F : fits_array Z (fill 0 n) 0 (fill 1 n) 0) by (repeat split; rewrite <- ?EM; lia).
  exists out, (fill 1 n), (fill 0 n), r. fold pl. split; [assumption|]. split; [assumption|]. split; [rewrite L2, N1, N2, N3; lia|]. split.
  - unfold unpack3. cbn [Z.eqb Pos.eqb]. rewrite unpack_3d_permute1_1_array_ok by assumption. assumption.
  - intros strict esize. split.
    + pose proof (unpack3_permute strict esize 0 1 (fill 1 n) 0 (fill 0 n) 0 pl PK F ltac:(left; reflexivity) ltac:(left; reflexivity)) as X. rewrite P6 in X. rewrite X.
      unfold index_past. cbn [Z.eqb Pos.eqb]. rewrite P1, P2, P3, P4, P5, P6. rewrite <- ?EM. replace ((1 - 1) * n + 1 * (n - 1) + 1 * n <=? n) with false by lia. reflexivity.
    + pose proof (unpack3_permute false esize 1 1 (fill 1 n) 0 (fill 0 n) 0 pl PK F ltac:(right; left; reflexivity) ltac:(left; reflexivity)) as X. rewrite P6 in X. rewrite X.
      unfold line_length. cbn [Z.eqb Pos.eqb negb orb]. rewrite P1, P5. rewrite <- ?EM. replace (1 * n <=? n) with true by lia. cbn [andb].
      unfold unpack3. cbn [Z.eqb Pos.eqb]. rewrite unpack_3d_permute1_1_pointer_ok by (auto; lia). assumption.
Qed.
Theorem array_overflow2 : exists (out : box2) (buf data r : list Z),
  within2 out out /\ 1 * ni2 out * nj2 out <= INT_MAX /\ zlen data = ni2 out * nj2 out /\
  unpack2 8 0 1 1 buf 0 data 0 (rplan2 1 1 out out) = Some r /\
  forall strict, unpack2_32 strict 8 0 1 1 buf 0 data 0 (rplan2 1 1 out out) = None /\
                 unpack2_32 false 8 1 1 1 buf 0 data 0 (rplan2 1 1 out out) = Some r.
Proof.
  destruct (ex_intro (fun n => n = INT_MAX) INT_MAX eq_refl) as (n & EM). assert (En : n = 2147483647) by (rewrite EM; exact IMX).
  set (out := mkbox2 0 0 0 (n - 1)).
  assert (N : ni2 out = 1 /\ nj2 out = n) by (unfold ni2, nj2, out; cbn [ilo2 ihi2 jlo2 jhi2]; lia). destruct N as (N1 & N2).
  assert (W : within2 out out) by (unfold within2, out; cbn [ilo2 ihi2 jlo2 jhi2]; lia).
  assert (V : 1 * ni2 out * nj2 out <= INT_MAX) by (rewrite N1, N2; rewrite <- ?EM; lia).
  pose proof (rplan2_ok 1 1 out out ltac:(lia) W V) as PK. set (pl := rplan2 1 1 out out) in *.
  assert (P : nfast2 pl = 1 /\ nslow2 pl = n /\ nstride2 pl = n /\ nqty2 pl = 1).
  { unfold pl, rplan2. cbn [Z.eqb Pos.eqb nfast2 nslow2 nstride2 nqty2]. rewrite N1, N2. lia. }
  destruct P as (P1 & P3 & P4 & P6).
  assert (L : zlen (fill 1 n) = n /\ zlen (fill 0 n) = n) by (rewrite !zlen_fill; lia). destruct L as (L1 & L2).
  destruct (copies_Some (fill 1 n) (pairs_unpackP addr2 (nqty (up1 pl)) (up1 pl) 0 0) (fill 0 n)) as (r & E).
  { intros d s H. unfold pairs_unpackP, flat3 in H. apply in_flat_map in H as (sl & H1 & H). apply in_flat_map in H as (m & H2 & H). apply in_flat_map in H as (x & H3 & H).
    apply in_map_iff in H as (q & H & H4). cbn [up1 nfast nmid nslow nqty] in *. rewrite P1 in H3. rewrite P3 in H1. rewrite P6 in H4. apply In_zrange in H1, H2, H3, H4.
    injection H as <- <-. unfold addr2, slot3. cbn [up1 nfast nmid nslow nqty nstride_line nstride_plane]. rewrite ?P1, ?P4, ?P6, L1, L2. replace m with 0 by lia. replace x with 0 by lia. replace q with 0 by lia. lia. }
  assert (Wf : wfp2 pl) by (unfold wfp2; lia).
  assert (F : fits_array Z (fill 0 n) 0 (fill 1 n) 0) by (repeat split; rewrite <- ?EM; lia).
  exists out, (fill 1 n), (fill 0 n), r. fold pl. split; [assumption|]. split; [assumption|]. split; [rewrite L2, N1, N2; lia|]. split.
  - unfold unpack2. cbn [Z.eqb Pos.eqb]. rewrite unpack_2d_permute_1_array_ok by assumption. assumption.
  - intros strict. split.
    + pose proof (unpack2_permute strict 8 0 (fill 1 n) 0 (fill 0 n) 0 pl PK F ltac:(left; reflexivity)) as X. rewrite P6 in X. rewrite X.
      unfold index_past2. cbn [Z.eqb Pos.eqb]. rewrite P1, P3, P4, P6. rewrite <- ?EM. replace (1 * (n - 1) + 1 * n <=? n) with false by lia. reflexivity.
    + pose proof (unpack2_permute false 8 1 (fill 1 n) 0 (fill 0 n) 0 pl PK F ltac:(right; left; reflexivity)) as X. rewrite P6 in X. rewrite X.
      cbn [Z.eqb Pos.eqb negb orb]. rewrite P1, P4. rewrite <- ?EM. replace (1 * n <=? n) with true by lia. cbn [andb].
      unfold unpack2. cbn [Z.eqb Pos.eqb]. rewrite unpack_2d_permute_1_pointer_ok by (auto; lia). assumption.
Qed.

(** [end] of the permuting pointer routines lies beyond one past the array *)
Definition tile22 : box3 := mkbox3 0 1 0 1 0 0.
Definition tile22_2 : box2 := mkbox2 0 1 0 1.
Theorem end_beyond3 : within3 tile22 tile22 /\
  unpack3 1 1 1 [10; 11; 12; 13] 0 [0; 0; 0; 0] 0 (rplan3 1 1 tile22 tile22) = Some [10; 12; 11; 13] /\
  unpack3_32 true 8 1 1 1 [10; 11; 12; 13] 0 [0; 0; 0; 0] 0 (rplan3 1 1 tile22 tile22) = None /\
  unpack3_32 false 8 1 1 1 [10; 11; 12; 13] 0 [0; 0; 0; 0] 0 (rplan3 1 1 tile22 tile22) = Some [10; 12; 11; 13].
Proof. split; [unfold within3; cbn; lia|]. repeat split; vm_compute; reflexivity. Qed.
Theorem end_beyond2 : within2 tile22_2 tile22_2 /\
  unpack2 8 1 1 1 [10; 11; 12; 13] 0 [0; 0; 0; 0] 0 (rplan2 1 1 tile22_2 tile22_2) = Some [10; 12; 11; 13] /\
  unpack2_32 true 8 1 1 1 [10; 11; 12; 13] 0 [0; 0; 0; 0] 0 (rplan2 1 1 tile22_2 tile22_2) = None /\
  unpack2_32 false 8 1 1 1 [10; 11; 12; 13] 0 [0; 0; 0; 0] 0 (rplan2 1 1 tile22_2 tile22_2) = Some [10; 12; 11; 13].
Proof. split; [unfold within2; cbn; lia|]. repeat split; vm_compute; reflexivity. Qed.

(** the examples beside the theorems *)
Definition in_ex : box3 := mkbox3 0 2 4 5 7 8.
Definition ov_ex : box3 := mkbox3 1 2 5 5 7 8.
Definition in_ex2 : box2 := mkbox2 0 2 4 5.
Definition ov_ex2 : box2 := mkbox2 1 2 5 5.
