(** PropertiesPack32.v : C77, the packing routines with 32-bit ints. *)

From Verif Require Import Base Spec Pack3d Pack3dProofs Pack2d Pack2dProofs Layout Wrap Overflow OverflowProofs Remap3d Remap2d Pack32 Pack32Proofs Pack32Top Pack32Ex.
Local Open Scope Z_scope.

(** the plans of setup(), [splan3], [rplan3], [splan2], [rplan2], offsets [soff3], ..., are those of Remap3d.v and Remap2d.v (remap3d.cpp:230-300, 340-420) *)

(** ** C77 *)
(** [plan_ok]: the fields of the plan are at least 1 and ints; whatever the unbounded routine does, the 32-bit one does, if a line has at most INT_MAX bytes
    (memcpy): the same result, and undefined exactly when an access is out of bounds *)
Theorem C77_pack_3d : forall (A : Type) strict esize packflag (data : list A) d0 (buf : list A) b0 pl, plan_ok pl -> fits_array A data d0 buf b0 -> flag012 packflag ->
  (packflag = 2 -> 0 < esize /\ nfast pl * esize <= INT_MAX) ->
  pack3_32 strict esize packflag data d0 buf b0 pl = pack3 packflag data d0 buf b0 pl.
Proof. exact @pack3_exact. Qed.
Print Assumptions C77_pack_3d.
Example C77_pack_3d_example : plan_ok (splan3 2 in_ex ov_ex) /\ fits_array Z (zrange 24) 8 (repeat (-1) 8) 0 /\ nfast (splan3 2 in_ex ov_ex) * 8 <= INT_MAX /\
  map (fun f => pack3_32 true 8 f (zrange 24) 8 (repeat (-1) 8) 0 (splan3 2 in_ex ov_ex)) [0; 1; 2] = repeat (Some [8; 9; 10; 11; 20; 21; 22; 23]) 3 /\
  map (fun f => pack3_32 true 8 f (zrange 24) 8 (repeat (-1) 7) 0 (splan3 2 in_ex ov_ex)) [0; 1; 2] = repeat None 3.
Proof. split; [apply splan3_ok; [lia|unfold within3; cbn; lia|vm_compute; congruence]|]. repeat split; vm_compute; congruence. Qed.
Theorem C77_unpack_3d : forall (A : Type) strict esize packflag nq (buf : list A) b0 (data : list A) d0 pl, plan_ok pl -> fits_array A data d0 buf b0 -> flag012 packflag ->
  (packflag = 2 -> 0 < esize /\ nfast pl * esize <= INT_MAX) ->
  unpack3_32 strict esize packflag 0 nq buf b0 data d0 pl = unpack3 packflag 0 nq buf b0 data d0 pl.
Proof. exact @unpack3_exact. Qed.
Print Assumptions C77_unpack_3d.
Example C77_unpack_3d_example : plan_ok (rplan3 2 0 in_ex ov_ex) /\ fits_array Z (repeat (-1) 24) 8 (zrange 8) 0 /\
  map (fun f => unpack3_32 true 4 f 0 2 (zrange 8) 0 (repeat (-1) 24) 8 (rplan3 2 0 in_ex ov_ex)) [0; 1; 2] = repeat (Some (repeat (-1) 8 ++ [0; 1; 2; 3] ++ repeat (-1) 8 ++ [4; 5; 6; 7])) 3.
Proof. split; [apply rplan3_ok; [lia|unfold within3; cbn; lia|vm_compute; congruence]|]. repeat split; vm_compute; congruence. Qed.
(** the permuting routines, with the exact condition: the array version needs the index past the last line to be an int; the pointer and memcpy versions
    need the length of a line to be an int and, with [strict] pointers, [end] of the last line to be within the array or one past it *)
Theorem C77_permute_3d : forall (A : Type) strict esize packflag permute (buf : list A) b0 (data : list A) d0 pl, plan_ok pl -> fits_array A data d0 buf b0 -> flag012 packflag -> permute = 1 \/ permute = 2 ->
  unpack3_32 strict esize packflag permute (nqty pl) buf b0 data d0 pl =
  if (if packflag =? 0 then index_past permute pl <=? INT_MAX
      else (line_length permute pl <=? INT_MAX) && (negb strict || (d0 + index_past permute pl <=? zlen data)))
  then unpack3 packflag permute (nqty pl) buf b0 data d0 pl else None.
Proof. exact @unpack3_permute. Qed.
Print Assumptions C77_permute_3d.
Example C77_permute_3d_example : plan_ok (rplan3 1 2 in_ex ov_ex) /\ fits_array Z (repeat (-1) 12) (roff3 1 2 in_ex ov_ex) (zrange 4) 0 /\
  index_past 2 (rplan3 1 2 in_ex ov_ex) = 5 /\ roff3 1 2 in_ex ov_ex = 8 /\
  map (fun f => unpack3_32 false 8 f 2 1 (zrange 4) 0 (repeat (-1) 12) 8 (rplan3 1 2 in_ex ov_ex)) [0; 1; 2] = repeat (Some (repeat (-1) 8 ++ [0; 2; 1; 3])) 3 /\
  map (fun f => unpack3_32 true 8 f 2 1 (zrange 4) 0 (repeat (-1) 12) 8 (rplan3 1 2 in_ex ov_ex)) [0; 1; 2] = [Some (repeat (-1) 8 ++ [0; 2; 1; 3]); None; None] /\
  map (fun f => unpack3_32 true 8 f 2 1 (zrange 4) 0 (repeat (-1) 13) 8 (rplan3 1 2 in_ex ov_ex)) [0; 1; 2] = repeat (Some (repeat (-1) 8 ++ [0; 2; 1; 3; -1])) 3.
Proof. split; [apply rplan3_ok; [lia|unfold within3; cbn; lia|vm_compute; congruence]|]. repeat split; vm_compute; congruence. Qed.
(** the memcpy routines for lines of any length: the bytes of a line modulo 2^32 are what is copied, and memcpy fails if that is negative *)
Theorem C77_long_pack_3d : forall (A : Type) strict esize (data : list A) d0 (buf : list A) b0 pl (r : list A), plan_ok pl -> fits_array A data d0 buf b0 -> 0 < esize -> pack3 2 data d0 buf b0 pl = Some r ->
  pack3_32 strict esize 2 data d0 buf b0 pl =
  if to_int (nfast pl * esize) <? 0 then None else copies data (heads_pack pl d0 b0 (to_int (nfast pl * esize) / esize)) buf.
Proof. exact @pack3_long. Qed.
Print Assumptions C77_long_pack_3d.
(** a fictitious element of 2^30 bytes shows the reduction on a short line: lines of 4 elements have 2^32 bytes, of 5 elements 2^32 + 2^30, of 6 -2^31 *)
Definition lines (n : Z) : pack_plan_3d := {| nfast := n; nmid := 2; nslow := 1; nstride_line := n; nstride_plane := 2 * n; nqty := 1 |}.
Example C77_long_pack_3d_example : plan_ok (lines 5) /\ fits_array Z (zrange 10) 0 (repeat (-1) 10) 0 /\ pack3 2 (zrange 10) 0 (repeat (-1) 10) 0 (lines 5) = Some (zrange 10) /\
  pack3_32 true (2 ^ 30) 2 (zrange 10) 0 (repeat (-1) 10) 0 (lines 5) = Some [0; -1; -1; -1; -1; 5; -1; -1; -1; -1] /\
  pack3_32 true (2 ^ 30) 2 (zrange 8) 0 (repeat (-1) 8) 0 (lines 4) = Some (repeat (-1) 8) /\
  pack3_32 true (2 ^ 30) 2 (zrange 12) 0 (repeat (-1) 12) 0 (lines 6) = None.
Proof. split; [repeat constructor; vm_compute; congruence|]. repeat split; vm_compute; congruence. Qed.
Theorem C77_long_unpack_3d : forall (A : Type) strict esize nq (buf : list A) b0 (data : list A) d0 pl (r : list A), plan_ok pl -> fits_array A data d0 buf b0 -> 0 < esize -> unpack3 2 0 nq buf b0 data d0 pl = Some r ->
  unpack3_32 strict esize 2 0 nq buf b0 data d0 pl =
  if to_int (nfast pl * esize) <? 0 then None else copies buf (heads_unpack pl d0 b0 (to_int (nfast pl * esize) / esize)) data.
Proof. exact @unpack3_long. Qed.
Print Assumptions C77_long_unpack_3d.
Example C77_long_unpack_3d_example : unpack3 2 0 1 (zrange 10) 0 (repeat (-1) 10) 0 (lines 5) = Some (zrange 10) /\
  unpack3_32 true (2 ^ 30) 2 0 1 (zrange 10) 0 (repeat (-1) 10) 0 (lines 5) = Some [0; -1; -1; -1; -1; 5; -1; -1; -1; -1].
Proof. repeat split; vm_compute; congruence. Qed.
(** with elements of 8 bytes the tiles are large but possible: a line of 2^28 complex numbers is not packed at all, one of 2^27 ends in a memcpy of 2^64 - 2^31 bytes *)
Theorem C77_memcpy_silent_3d_refuted : exists (inb : box3) (data buf r : list Z),
  within3 inb inb /\ 2 * ni inb * nj inb * nk inb <= INT_MAX /\ zlen data = 2 * ni inb * nj inb * nk inb /\ zlen buf = 2 * ni inb * nj inb * nk inb /\
  pack3 2 data 0 buf 0 (splan3 2 inb inb) = Some r /\ (forall i, 0 <= i < zlen buf -> zget r i = Some 1 /\ zget buf i = Some 0) /\
  forall strict, pack3_32 strict 8 2 data 0 buf 0 (splan3 2 inb inb) = Some buf.
Proof. exact memcpy_silent3. Qed.
Print Assumptions C77_memcpy_silent_3d_refuted.
Theorem C77_memcpy_crash_3d_refuted : exists (inb : box3) (data buf r : list Z),
  within3 inb inb /\ 2 * ni inb * nj inb * nk inb <= INT_MAX /\ pack3 2 data 0 buf 0 (splan3 2 inb inb) = Some r /\
  forall strict, pack3_32 strict 8 2 data 0 buf 0 (splan3 2 inb inb) = None.
Proof. exact memcpy_crash3. Qed.
Print Assumptions C77_memcpy_crash_3d_refuted.
(** on the plans of setup(): a tile of at most INT_MAX numbers *)
Theorem C77_remap_pack_3d : forall (A : Type) strict esize packflag nq inb ov (data : list A) (buf : list A) b0, 1 <= nq -> within3 ov inb -> nq * ni inb * nj inb * nk inb <= INT_MAX ->
  0 <= b0 -> zlen data <= INT_MAX -> zlen buf <= INT_MAX -> flag012 packflag ->
  (packflag = 2 -> 0 < esize /\ nq * ni ov * esize <= INT_MAX) ->
  pack3_32 strict esize packflag data (soff3 nq inb ov) buf b0 (splan3 nq inb ov) = pack3 packflag data (soff3 nq inb ov) buf b0 (splan3 nq inb ov).
Proof. exact @remap_pack3. Qed.
Print Assumptions C77_remap_pack_3d.
(** the packed tile is inside the 3x2x2 tile the process owns; two numbers per point *)
Example C77_remap_pack_3d_example : within3 ov_ex in_ex /\ 2 * ni in_ex * nj in_ex * nk in_ex <= INT_MAX /\ 2 * ni ov_ex * 8 <= INT_MAX /\
  map (fun f => pack3_32 true 8 f (zrange 24) (soff3 2 in_ex ov_ex) (repeat (-1) 9) 1 (splan3 2 in_ex ov_ex)) [0; 1; 2] = repeat (Some [-1; 8; 9; 10; 11; 20; 21; 22; 23]) 3.
Proof. split; [unfold within3; cbn; lia|]. repeat split; vm_compute; congruence. Qed.
(** the array version of the permuting routines is safe up to 2^30 numbers *)
Theorem C77_remap_unpack_3d : forall (A : Type) esize packflag permute nq out ov (data : list A) (buf : list A) b0, 1 <= nq -> within3 ov out -> nq * ni out * nj out * nk out <= INT_MAX ->
  0 <= b0 -> zlen data <= INT_MAX -> zlen buf <= INT_MAX -> flag012 packflag -> flag012 permute ->
  (packflag = 2 -> permute = 0 -> 0 < esize /\ nq * ni ov * esize <= INT_MAX) ->
  (packflag = 0 -> permute <> 0 -> nq * ni out * nj out * nk out <= HALF) ->
  unpack3_32 false esize packflag permute nq buf b0 data (roff3 nq permute out ov) (rplan3 nq permute out ov) =
  unpack3 packflag permute nq buf b0 data (roff3 nq permute out ov) (rplan3 nq permute out ov).
Proof. exact @remap_unpack3. Qed.
Print Assumptions C77_remap_unpack_3d.
Example C77_remap_unpack_3d_example : within3 ov_ex in_ex /\ 2 * ni in_ex * nj in_ex * nk in_ex <= HALF /\
  map (fun f => unpack3_32 false 8 f 0 2 (zrange 8) 0 (repeat (-1) 24) (roff3 2 0 in_ex ov_ex) (rplan3 2 0 in_ex ov_ex)) [0; 1; 2] =
    repeat (Some (repeat (-1) 8 ++ [0; 1; 2; 3] ++ repeat (-1) 8 ++ [4; 5; 6; 7])) 3 /\
  map (fun f => unpack3_32 false 8 f 1 2 (zrange 8) 0 (repeat (-1) 24) (roff3 2 1 in_ex ov_ex) (rplan3 2 1 in_ex ov_ex)) [0; 1; 2] =
    repeat (Some (repeat (-1) 10 ++ [0; 1; -1; -1; 4; 5; -1; -1; 2; 3; -1; -1; 6; 7])) 3.
Proof. split; [unfold within3; cbn; lia|]. repeat split; vm_compute; congruence. Qed.
(** it is not safe up to INT_MAX numbers, the pointer version is *)
Theorem C77_array_overflow_3d_refuted : exists (out : box3) (buf data r : list Z),
  within3 out out /\ 1 * ni out * nj out * nk out <= INT_MAX /\ zlen data = ni out * nj out * nk out /\
  unpack3 0 1 1 buf 0 data 0 (rplan3 1 1 out out) = Some r /\
  forall strict esize, unpack3_32 strict esize 0 1 1 buf 0 data 0 (rplan3 1 1 out out) = None /\
                       unpack3_32 false esize 1 1 1 buf 0 data 0 (rplan3 1 1 out out) = Some r.
Proof. exact array_overflow3. Qed.
Print Assumptions C77_array_overflow_3d_refuted.
(** with [strict] pointers *)
Theorem C77_remap_strict_3d : forall (A : Type) esize packflag permute nq out ov (data : list A) (buf : list A) b0, 1 <= nq -> within3 ov out -> nq * ni out * nj out * nk out <= INT_MAX ->
  0 <= b0 -> zlen data <= INT_MAX -> zlen buf <= INT_MAX -> packflag = 1 \/ packflag = 2 -> permute = 1 \/ permute = 2 ->
  unpack3_32 true esize packflag permute nq buf b0 data (roff3 nq permute out ov) (rplan3 nq permute out ov) =
  if roff3 nq permute out ov + index_past permute (rplan3 nq permute out ov) <=? zlen data
  then unpack3 packflag permute nq buf b0 data (roff3 nq permute out ov) (rplan3 nq permute out ov) else None.
Proof. exact @remap_unpack3_strict. Qed.
Print Assumptions C77_remap_strict_3d.
(** and [end] is beyond that already for a tile of 2x2 points that is received whole *)
Theorem C77_end_beyond_3d_refuted : exists out : box3, within3 out out /\
  unpack3 1 1 1 [10; 11; 12; 13] 0 [0; 0; 0; 0] 0 (rplan3 1 1 out out) = Some [10; 12; 11; 13] /\
  unpack3_32 true 8 1 1 1 [10; 11; 12; 13] 0 [0; 0; 0; 0] 0 (rplan3 1 1 out out) = None /\
  unpack3_32 false 8 1 1 1 [10; 11; 12; 13] 0 [0; 0; 0; 0] 0 (rplan3 1 1 out out) = Some [10; 12; 11; 13].
Proof. exists tile22. exact end_beyond3. Qed.
Print Assumptions C77_end_beyond_3d_refuted.
(** ** 2d *)
Theorem C77_pack_2d : forall (A : Type) strict packflag (data : list A) d0 (buf : list A) b0 pl, plan_ok2 pl -> fits_array A data d0 buf b0 -> flag012 packflag ->
  (packflag = 2 -> nfast2 pl * 8 <= INT_MAX) ->
  pack2_32 strict 8 packflag data d0 buf b0 pl = pack2 8 packflag data d0 buf b0 pl.
Proof. exact @pack2_exact. Qed.
Print Assumptions C77_pack_2d.
Example C77_pack_2d_example : plan_ok2 (splan2 2 in_ex2 ov_ex2) /\ fits_array Z (zrange 12) 8 (repeat (-1) 4) 0 /\ nfast2 (splan2 2 in_ex2 ov_ex2) * 8 <= INT_MAX /\
  map (fun f => pack2_32 true 8 f (zrange 12) 8 (repeat (-1) 4) 0 (splan2 2 in_ex2 ov_ex2)) [0; 1; 2] = repeat (Some [8; 9; 10; 11]) 3.
Proof. split; [apply splan2_ok; [lia|unfold within2; cbn; lia|vm_compute; congruence]|]. repeat split; vm_compute; congruence. Qed.
Theorem C77_unpack_2d : forall (A : Type) strict packflag nq (buf : list A) b0 (data : list A) d0 pl, plan_ok2 pl -> fits_array A data d0 buf b0 -> flag012 packflag ->
  (packflag = 2 -> nfast2 pl * 8 <= INT_MAX) ->
  unpack2_32 strict 8 packflag 0 nq buf b0 data d0 pl = unpack2 8 packflag 0 nq buf b0 data d0 pl.
Proof. exact @unpack2_exact. Qed.
Print Assumptions C77_unpack_2d.
Example C77_unpack_2d_example : plan_ok2 (rplan2 2 0 in_ex2 ov_ex2) /\
  map (fun f => unpack2_32 true 8 f 0 2 (zrange 4) 0 (repeat (-1) 12) 8 (rplan2 2 0 in_ex2 ov_ex2)) [0; 1; 2] = repeat (Some (repeat (-1) 8 ++ [0; 1; 2; 3])) 3.
Proof. split; [apply rplan2_ok; [lia|unfold within2; cbn; lia|vm_compute; congruence]|]. repeat split; vm_compute; congruence. Qed.
Theorem C77_permute_2d : forall (A : Type) strict esize packflag (buf : list A) b0 (data : list A) d0 pl, plan_ok2 pl -> fits_array A data d0 buf b0 -> flag012 packflag ->
  unpack2_32 strict esize packflag 1 (nqty2 pl) buf b0 data d0 pl =
  if (if packflag =? 0 then index_past2 pl <=? INT_MAX
      else (nfast2 pl * nstride2 pl <=? INT_MAX) && (negb strict || (d0 + index_past2 pl <=? zlen data)))
  then unpack2 esize packflag 1 (nqty2 pl) buf b0 data d0 pl else None.
Proof. exact @unpack2_permute. Qed.
Print Assumptions C77_permute_2d.
Example C77_permute_2d_example : plan_ok2 (rplan2 2 1 in_ex2 ov_ex2) /\ roff2 2 1 in_ex2 ov_ex2 = 6 /\ index_past2 (rplan2 2 1 in_ex2 ov_ex2) = 8 /\
  map (fun f => unpack2_32 false 8 f 1 2 (zrange 4) 0 (repeat (-1) 12) 6 (rplan2 2 1 in_ex2 ov_ex2)) [0; 1; 2] = repeat (Some (repeat (-1) 6 ++ [0; 1; -1; -1; 2; 3])) 3 /\
  map (fun f => unpack2_32 true 8 f 1 2 (zrange 4) 0 (repeat (-1) 12) 6 (rplan2 2 1 in_ex2 ov_ex2)) [0; 1; 2] = [Some (repeat (-1) 6 ++ [0; 1; -1; -1; 2; 3]); None; None].
Proof. split; [apply rplan2_ok; [lia|unfold within2; cbn; lia|vm_compute; congruence]|]. repeat split; vm_compute; congruence. Qed.
(** [end] beyond one past the array *)
Theorem C77_end_beyond_2d_refuted : exists out : box2, within2 out out /\
  unpack2 8 1 1 1 [10; 11; 12; 13] 0 [0; 0; 0; 0] 0 (rplan2 1 1 out out) = Some [10; 12; 11; 13] /\
  unpack2_32 true 8 1 1 1 [10; 11; 12; 13] 0 [0; 0; 0; 0] 0 (rplan2 1 1 out out) = None /\
  unpack2_32 false 8 1 1 1 [10; 11; 12; 13] 0 [0; 0; 0; 0] 0 (rplan2 1 1 out out) = Some [10; 12; 11; 13].
Proof. exists tile22_2. exact end_beyond2. Qed.
Print Assumptions C77_end_beyond_2d_refuted.
Theorem C77_long_pack_2d : forall (A : Type) strict (data : list A) d0 (buf : list A) b0 pl (r : list A), plan_ok2 pl -> fits_array A data d0 buf b0 -> pack2 8 2 data d0 buf b0 pl = Some r ->
  pack2_32 strict 8 2 data d0 buf b0 pl =
  if to_int (nfast2 pl * 8) <? 0 then None else copies data (heads_pack (up0 pl) d0 b0 (to_int (nfast2 pl * 8) / 8)) buf.
Proof. exact @pack2_long. Qed.
Print Assumptions C77_long_pack_2d.
Theorem C77_long_unpack_2d : forall (A : Type) strict nq (buf : list A) b0 (data : list A) d0 pl (r : list A), plan_ok2 pl -> fits_array A data d0 buf b0 -> unpack2 8 2 0 nq buf b0 data d0 pl = Some r ->
  unpack2_32 strict 8 2 0 nq buf b0 data d0 pl =
  if to_int (nfast2 pl * 8) <? 0 then None else copies buf (heads_unpack (up0 pl) d0 b0 (to_int (nfast2 pl * 8) / 8)) data.
Proof. exact @unpack2_long. Qed.
Print Assumptions C77_long_unpack_2d.
(** a line of 2^28 complex numbers is not packed at all *)
Theorem C77_memcpy_silent_2d_refuted : exists (inb : box2) (data buf r : list Z),
  within2 inb inb /\ 2 * ni2 inb * nj2 inb <= INT_MAX /\ zlen data = 2 * ni2 inb * nj2 inb /\ zlen buf = 2 * ni2 inb * nj2 inb /\
  pack2 8 2 data 0 buf 0 (splan2 2 inb inb) = Some r /\ (forall i, 0 <= i < zlen buf -> zget r i = Some 1 /\ zget buf i = Some 0) /\
  forall strict, pack2_32 strict 8 2 data 0 buf 0 (splan2 2 inb inb) = Some buf.
Proof. exact memcpy_silent2. Qed.
Print Assumptions C77_memcpy_silent_2d_refuted.
Theorem C77_remap_pack_2d : forall (A : Type) strict packflag nq inb ov (data : list A) (buf : list A) b0, 1 <= nq -> within2 ov inb -> nq * ni2 inb * nj2 inb <= INT_MAX ->
  0 <= b0 -> zlen data <= INT_MAX -> zlen buf <= INT_MAX -> flag012 packflag ->
  (packflag = 2 -> nq * ni2 ov * 8 <= INT_MAX) ->
  pack2_32 strict 8 packflag data (soff2 nq inb ov) buf b0 (splan2 nq inb ov) = pack2 8 packflag data (soff2 nq inb ov) buf b0 (splan2 nq inb ov).
Proof. exact @remap_pack2. Qed.
Print Assumptions C77_remap_pack_2d.
Example C77_remap_pack_2d_example : within2 ov_ex2 in_ex2 /\ 2 * ni2 in_ex2 * nj2 in_ex2 <= INT_MAX /\ 2 * ni2 ov_ex2 * 8 <= INT_MAX /\
  map (fun f => pack2_32 true 8 f (zrange 12) (soff2 2 in_ex2 ov_ex2) (repeat (-1) 4) 0 (splan2 2 in_ex2 ov_ex2)) [0; 1; 2] = repeat (Some [8; 9; 10; 11]) 3.
Proof. split; [unfold within2; cbn; lia|]. repeat split; vm_compute; congruence. Qed.
Theorem C77_remap_unpack_2d : forall (A : Type) packflag permute nq out ov (data : list A) (buf : list A) b0, 1 <= nq -> within2 ov out -> nq * ni2 out * nj2 out <= INT_MAX ->
  0 <= b0 -> zlen data <= INT_MAX -> zlen buf <= INT_MAX -> flag012 packflag -> permute = 0 \/ permute = 1 ->
  (packflag = 2 -> permute = 0 -> nq * ni2 ov * 8 <= INT_MAX) ->
  (packflag = 0 -> permute <> 0 -> nq * ni2 out * nj2 out <= HALF) ->
  unpack2_32 false 8 packflag permute nq buf b0 data (roff2 nq permute out ov) (rplan2 nq permute out ov) =
  unpack2 8 packflag permute nq buf b0 data (roff2 nq permute out ov) (rplan2 nq permute out ov).
Proof. exact @remap_unpack2. Qed.
Print Assumptions C77_remap_unpack_2d.
Example C77_remap_unpack_2d_example : within2 ov_ex2 in_ex2 /\ 2 * ni2 in_ex2 * nj2 in_ex2 <= HALF /\
  map (fun f => unpack2_32 false 8 f 1 2 (zrange 4) 0 (repeat (-1) 12) (roff2 2 1 in_ex2 ov_ex2) (rplan2 2 1 in_ex2 ov_ex2)) [0; 1; 2] = repeat (Some (repeat (-1) 6 ++ [0; 1; -1; -1; 2; 3])) 3.
Proof. split; [unfold within2; cbn; lia|]. repeat split; vm_compute; congruence. Qed.
Theorem C77_array_overflow_2d_refuted : exists (out : box2) (buf data r : list Z),
  within2 out out /\ 1 * ni2 out * nj2 out <= INT_MAX /\ zlen data = ni2 out * nj2 out /\
  unpack2 8 0 1 1 buf 0 data 0 (rplan2 1 1 out out) = Some r /\
  forall strict, unpack2_32 strict 8 0 1 1 buf 0 data 0 (rplan2 1 1 out out) = None /\
                 unpack2_32 false 8 1 1 1 buf 0 data 0 (rplan2 1 1 out out) = Some r.
Proof. exact array_overflow2. Qed.
Print Assumptions C77_array_overflow_2d_refuted.
