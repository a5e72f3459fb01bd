(** PropertiesRemap.v : properties C01-C14 (remaps), proofs by reference. *)

From Verif Require Import Base Spec Pack3d Pack2d Sched Phases Exec Remap RemapMain RemapInst Remap3d Remap2d RemapThms RemapTop
  Pack3dProofs Pack2dProofs PackTop ExRemap RemapFinal.

(** C01: with distinct buffers, in every execution every point of every out tile
    ends up holding the value its owner had, at the place [permute] prescribes. *)
Theorem C01_remap3d_delivers : forall (A : Type) n N coll packflag nq permute ins outs (g : pt3 -> Z -> A) M0,
  perm_ok3 permute -> 0 < nq -> tiling3 n N ins -> tiling3 n N outs ->
  call_ok3 n nq permute ins outs coll packflag BIn BOut M0 ->
  (forall r, (r < n)%nat -> holds3 nq 0 (ins r) g (m_in (M0 r))) ->
  exec_all n (remap3 n coll packflag nq permute ins outs BIn BOut) M0
    (fun r m => holds3 nq permute (outs r) g (m_out m)).
Proof. exact C01_proof. Qed.
Print Assumptions C01_remap3d_delivers.
Example C01_example :
  perm_ok3 1 /\ 0 < 2 /\ tiling3 3 e3_N e3_in /\ tiling3 3 e3_N e3_out /\
  call_ok3 3 2 1 e3_in e3_out true 2 BIn BOut (e3_M true 2 2 1) /\
  (forall r, (r < 3)%nat -> holds3 2 0 (e3_in r) e3_g (m_in (e3_M true 2 2 1 r))).
Proof. exact C01_example_proof. Qed.

(** C02: memory safety for any contents and any buffers of at least the documented sizes;
    nothing outside the out tile and nothing of the other array is modified. *)
Theorem C02_remap3d_safe : forall (A : Type) (dflt : A) n coll packflag nq permute ins outs din dout (M0 : nat -> @rmem A),
  perm_ok3 permute -> 0 < nq -> disjoint_owners3 n ins ->
  call_ok3 n nq permute ins outs coll packflag din dout M0 ->
  exec_all n (remap3 n coll packflag nq permute ins outs din dout) M0 (fun r m =>
    (forall b, zlen (getb b m) = zlen (getb b (M0 r))) /\
    (forall b, isdata b -> b <> dout -> getb b m = getb b (M0 r)) /\
    (forall a, ~ (0 <= a < nq * vol3 (outs r)) -> zget (getb dout m) a = zget (getb dout (M0 r)) a)).
Proof. exact C02_proof. Qed.
Print Assumptions C02_remap3d_safe.
Example C02_example : call_ok3 3 3 2 e3_in e3_out false 1 BIn BIn (e3_M false 1 3 2).
Proof. exact C02_example_proof. Qed.
(** setup always succeeds, so the buffer sizes in [call_ok3] are always defined *)
Theorem C02_setup_total : forall n coll packflag nq permute ins outs r, (r < n)%nat ->
  exists pl, setup3 n coll packflag nq permute ins outs r = Some pl.
Proof. exact C02_total_proof. Qed.
Print Assumptions C02_setup_total.

(** C03: in place (in = out) and out of place agree on every cell of the out tile. *)
Theorem C03_in_place : forall (A : Type) (dflt : A) n coll packflag nq permute ins outs (M0 M0' : nat -> @rmem A),
  perm_ok3 permute -> 0 < nq -> disjoint_owners3 n ins -> covered3 n ins outs ->
  call_ok3 n nq permute ins outs coll packflag BIn BIn M0 -> call_ok3 n nq permute ins outs coll packflag BIn BOut M0' ->
  (forall r a, (r < n)%nat -> 0 <= a < nq * vol3 (ins r) -> zget (m_in (M0 r)) a = zget (m_in (M0' r)) a) ->
  exists M1 M2,
    exec_to n (remap3 n coll packflag nq permute ins outs BIn BIn) M0 M1 /\
    exec_to n (remap3 n coll packflag nq permute ins outs BIn BOut) M0' M2 /\
    forall r a, (r < n)%nat -> 0 <= a < nq * vol3 (outs r) -> zget (m_in (M1 r)) a = zget (m_out (M2 r)) a.
Proof. exact C03_proof. Qed.
Print Assumptions C03_in_place.
Example C03_example : call_ok3 3 2 1 e3_in e3_out false 0 BIn BIn (e3_M false 0 2 1) /\ call_ok3 3 2 1 e3_in e3_out false 0 BIn BOut (e3_M false 0 2 1).
Proof. exact C03_example_proof. Qed.

(** C04: two complete point-to-point executions, under any two completion policies of
    MPI_Send and any two schedules, leave the same memories. *)
Theorem C04_timing : forall (A : Type) (dflt : A) n packflag nq permute ins outs din dout (M0 : nat -> @rmem A),
  perm_ok3 permute -> 0 < nq -> disjoint_owners3 n ins ->
  call_ok3 n nq permute ins outs false packflag din dout M0 ->
  forall eager1 eager2 l1 l2 s1 s2,
    run n eager1 (start n (remap3 n false packflag nq permute ins outs din dout) M0) l1 s1 ->
    run n eager2 (start n (remap3 n false packflag nq permute ins outs din dout) M0) l2 s2 ->
    (forall a, step n eager1 a s1 = Disabled) -> (forall a, step n eager2 a s2 = Disabled) ->
    mems_of s1 = mems_of s2.
Proof. exact C04_proof. Qed.
Print Assumptions C04_timing.
Example C04_example : call_ok3 3 2 1 e3_in e3_out false 0 BIn BOut (e3_M false 0 2 1) /\
  exists l s, run 3 (fun _ _ => false) (start 3 (remap3 3 false 0 2 1 e3_in e3_out BIn BOut) (e3_M false 0 2 1)) l s /\
              (forall a, step 3 (fun _ _ => false) a s = Disabled) /\ l <> [].
Proof. exact C04_example_proof. Qed.

(** C05: executions are bounded; a state that is not finished can always move, and no
    move is an error, whatever mixture of eager and rendezvous sends; at the end no
    receive is pending and no message is in flight. *)
Theorem C05_no_deadlock : forall (A : Type) (dflt : A) n packflag nq permute ins outs din dout (M0 : nat -> @rmem A),
  perm_ok3 permute -> 0 < nq -> disjoint_owners3 n ins ->
  call_ok3 n nq permute ins outs false packflag din dout M0 ->
  exists L, forall eager l s,
    run n eager (start n (remap3 n false packflag nq permute ins outs din dout) M0) l s ->
    (length l <= L)%nat /\
    (forall a, step n eager a s <> Bad) /\
    ((exists a s', step n eager a s = Ok s') \/ (all_done s /\ s_ch s = empty_chans n)).
Proof. exact C05_proof. Qed.
Print Assumptions C05_no_deadlock.
Example C05_example : call_ok3 3 1 0 e3_in e3_out false 2 BIn BIn (e3_M false 2 1 0).
Proof. exact C05_example_proof. Qed.

(** C06: any sequence of remaps (each with its own layouts, permutation, mode, arrays)
    run back to back on the same communicator, ranks running ahead of each other at
    will, ends with the memories of executing them one after the other. *)
Theorem C06_back_to_back : forall (A : Type) (dflt : A) n (legs : list leg3) (M0 : nat -> @rmem A),
  Forall (leg3_ok n M0) legs ->
  exists M', one_by_one n (map (leg3_code n) legs) M0 M' /\ exec_to n (together (map (leg3_code n) legs)) M0 M'.
Proof. exact C06_proof. Qed.
Print Assumptions C06_back_to_back.
Example C06_example : let M0 := e3_M false 0 2 0 in
  Forall (leg3_ok 3 M0) [mkleg3 false 0 2 0 e3_in e3_out BIn BOut; mkleg3 false 1 2 2 e3_in e3_out BIn BIn].
Proof. exact C06_example_proof. Qed.

(** C07: sender and receiver agree on every message. [l] lists without repetition the
    (point, component) pairs the sender has and the receiver wants. *)
Theorem C07_plans_agree : forall n coll packflag nq permute ins outs r q plr plq,
  flag_ok packflag -> perm_ok3 permute -> 0 < nq -> (r < n)%nat -> (q < n)%nat -> coll = true \/ r <> q ->
  setup3 n coll packflag nq permute ins outs r = Some plr -> setup3 n coll packflag nq permute ins outs q = Some plq ->
  with_rank q (out_msgs plr) = with_rank r (in_msgs plq) /\
  exists l : list (pt3 * Z), NoDup l /\
    (forall p c, In (p, c) l <-> inb3 p (ins r) /\ inb3 p (outs q) /\ 0 <= c < nq) /\
    with_rank q (out_msgs plr) = if Nat.eqb (length l) 0 then [] else [zlen l].
Proof. exact C07_proof. Qed.
Print Assumptions C07_plans_agree.
Example C07_example : exists pl0 pl2, setup3 3 false 0 2 1 e3_in e3_out 0 = Some pl0 /\ setup3 3 false 0 2 1 e3_in e3_out 2 = Some pl2 /\
  with_rank 2 (out_msgs pl0) = [8] /\ with_rank 0 (in_msgs pl2) = [8].
Proof. exact C07_example_proof. Qed.

(** C08: two remaps of the same data in any two modes agree on every cell of the out tile. *)
Theorem C08_modes : forall (A : Type) (dflt : A) n coll packflag coll' packflag' nq permute ins outs (M0 M0' : nat -> @rmem A),
  perm_ok3 permute -> 0 < nq -> disjoint_owners3 n ins -> covered3 n ins outs ->
  call_ok3 n nq permute ins outs coll packflag BIn BOut M0 -> call_ok3 n nq permute ins outs coll' packflag' BIn BOut M0' ->
  (forall r a, (r < n)%nat -> 0 <= a < nq * vol3 (ins r) -> zget (m_in (M0 r)) a = zget (m_in (M0' r)) a) ->
  exists M1 M2,
    exec_to n (remap3 n coll packflag nq permute ins outs BIn BOut) M0 M1 /\
    exec_to n (remap3 n coll' packflag' nq permute ins outs BIn BOut) M0' M2 /\
    forall r a, (r < n)%nat -> 0 <= a < nq * vol3 (outs r) -> zget (m_out (M1 r)) a = zget (m_out (M2 r)) a.
Proof. exact C08_proof. Qed.
Print Assumptions C08_modes.
Example C08_example : call_ok3 3 2 1 e3_in e3_out false 0 BIn BOut (e3_M false 0 2 1) /\ call_ok3 3 2 1 e3_in e3_out true 2 BIn BOut (e3_M true 2 2 1).
Proof. exact C08_example_proof. Qed.

(** C09: every packing routine moves exactly the addressed box. *)
Theorem C09_pack3d : forall (A : Type) f (data : list A) d0 buf b0 pl, In f packs3 ->
  0 <= nfast pl -> 0 <= nmid pl -> 0 <= nslow pl ->
  let I := box_idx (nslow pl) (nmid pl) (nfast pl) 1 in
  in_bounds I (msg_at b0 (nmid pl) (nfast pl) 1) buf -> in_bounds I (arr_at d0 (nstride_plane pl) (nstride_line pl) 1 1) data ->
  exists buf', f data d0 buf b0 pl = Some buf' /\
    moves_exactly I (msg_at b0 (nmid pl) (nfast pl) 1) (arr_at d0 (nstride_plane pl) (nstride_line pl) 1 1) data buf buf'.
Proof. exact @C09_pack_proof. Qed.
Print Assumptions C09_pack3d.
Theorem C09_unpack3d : forall (A : Type) f (data : list A) d0 buf b0 pl, In f unpacks3 ->
  0 <= nfast pl -> 0 <= nmid pl -> 0 <= nslow pl ->
  let I := box_idx (nslow pl) (nmid pl) (nfast pl) 1 in
  let at_ := arr_at d0 (nstride_plane pl) (nstride_line pl) 1 1 in
  in_bounds I at_ data -> in_bounds I (msg_at b0 (nmid pl) (nfast pl) 1) buf -> apart I at_ ->
  exists data', f buf b0 data d0 pl = Some data' /\ moves_exactly I at_ (msg_at b0 (nmid pl) (nfast pl) 1) buf data data'.
Proof. exact @C09_unpack_proof. Qed.
Print Assumptions C09_unpack3d.
Theorem C09_permute1 : forall (A : Type) f (data : list A) d0 buf b0 pl, In f (permute1_3 (nqty pl)) ->
  0 <= nfast pl -> 0 <= nmid pl -> 0 <= nslow pl -> 0 <= nqty pl -> 0 < nstride_plane pl ->
  let I := box_idx (nslow pl) (nmid pl) (nfast pl) (nqty pl) in
  let at_ := arr_at d0 (nstride_line pl) (nqty pl) (nstride_plane pl) 1 in
  in_bounds I at_ data -> in_bounds I (msg_at b0 (nmid pl) (nfast pl) (nqty pl)) buf -> apart I at_ ->
  exists data', f buf b0 data d0 pl = Some data' /\ moves_exactly I at_ (msg_at b0 (nmid pl) (nfast pl) (nqty pl)) buf data data'.
Proof. exact @C09_permute1_proof. Qed.
Print Assumptions C09_permute1.
Theorem C09_permute2 : forall (A : Type) f (data : list A) d0 buf b0 pl, In f (permute2_3 (nqty pl)) ->
  0 <= nfast pl -> 0 <= nmid pl -> 0 <= nslow pl -> 0 <= nqty pl -> 0 < nstride_line pl ->
  let I := box_idx (nslow pl) (nmid pl) (nfast pl) (nqty pl) in
  let at_ := arr_at d0 (nqty pl) (nstride_plane pl) (nstride_line pl) 1 in
  in_bounds I at_ data -> in_bounds I (msg_at b0 (nmid pl) (nfast pl) (nqty pl)) buf -> apart I at_ ->
  exists data', f buf b0 data d0 pl = Some data' /\ moves_exactly I at_ (msg_at b0 (nmid pl) (nfast pl) (nqty pl)) buf data data'.
Proof. exact @C09_permute2_proof. Qed.
Print Assumptions C09_permute2.
Theorem C09_pack2d : forall (A : Type) f (data : list A) d0 buf b0 pl, In f (packs2 8) -> 0 <= nfast2 pl -> 0 <= nslow2 pl ->
  let I := box_idx (nslow2 pl) 1 (nfast2 pl) 1 in
  in_bounds I (msg_at b0 1 (nfast2 pl) 1) buf -> in_bounds I (arr_at d0 (nstride2 pl) 0 1 1) data ->
  exists buf', f data d0 buf b0 pl = Some buf' /\
    moves_exactly I (msg_at b0 1 (nfast2 pl) 1) (arr_at d0 (nstride2 pl) 0 1 1) data buf buf'.
Proof. exact @C09_pack2_proof. Qed.
Print Assumptions C09_pack2d.
Theorem C09_unpack2d : forall (A : Type) f (data : list A) d0 buf b0 pl, In f (unpacks2 8) -> 0 <= nfast2 pl -> 0 <= nslow2 pl ->
  let I := box_idx (nslow2 pl) 1 (nfast2 pl) 1 in
  let at_ := arr_at d0 (nstride2 pl) 0 1 1 in
  in_bounds I at_ data -> in_bounds I (msg_at b0 1 (nfast2 pl) 1) buf -> apart I at_ ->
  exists data', f buf b0 data d0 pl = Some data' /\ moves_exactly I at_ (msg_at b0 1 (nfast2 pl) 1) buf data data'.
Proof. exact @C09_unpack2_proof. Qed.
Print Assumptions C09_unpack2d.
Theorem C09_permute2d : forall (A : Type) f (data : list A) d0 buf b0 pl, In f (permute_2 (nqty2 pl)) ->
  0 <= nfast2 pl -> 0 <= nslow2 pl -> 0 <= nqty2 pl -> 0 < nstride2 pl ->
  let I := box_idx (nslow2 pl) 1 (nfast2 pl) (nqty2 pl) in
  let at_ := arr_at d0 (nqty2 pl) 0 (nstride2 pl) 1 in
  in_bounds I at_ data -> in_bounds I (msg_at b0 1 (nfast2 pl) (nqty2 pl)) buf -> apart I at_ ->
  exists data', f buf b0 data d0 pl = Some data' /\ moves_exactly I at_ (msg_at b0 1 (nfast2 pl) (nqty2 pl)) buf data data'.
Proof. exact @C09_permute2d_proof. Qed.
Print Assumptions C09_permute2d.
Example C09_example : let pl := {| nfast := 2; nmid := 2; nslow := 1; nstride_line := 6; nstride_plane := 12; nqty := 3 |} in
  unpack_3d_permute1_n_memcpy [1;2;3;4;5;6;7;8;9;10;11;12] 0 (map (fun _ => 0) (zrange 20)) 1 pl =
    Some [0;1;2;3;7;8;9;0;0;0;0;0;0;4;5;6;10;11;12;0] /\ In unpack_3d_permute1_n_memcpy (permute1_3 (A := Z) 3) /\
  apart (box_idx 1 2 2 3) (arr_at 1 6 3 12 1).
Proof. exact C09_example_proof. Qed.

(** C10: groups of a collective remap. *)
Theorem C10_groups : forall n packflag nq permute ins outs r pl,
  flag_ok packflag -> perm_ok3 permute -> 0 < nq -> (r < n)%nat -> setup3 n true packflag nq permute ins outs r = Some pl ->
  (exists f, rp_group pl = filter f (seq 0 n)) /\
  (rp_group pl <> [] -> In r (rp_group pl)) /\
  (forall q p, (q < n)%nat -> inb3 p (ins r) -> inb3 p (outs q) -> In q (rp_group pl)) /\
  (forall q p, (q < n)%nat -> inb3 p (outs r) -> inb3 p (ins q) -> In q (rp_group pl)) /\
  (forall q plq, In q (rp_group pl) -> setup3 n true packflag nq permute ins outs q = Some plq -> rp_group plq = rp_group pl) /\
  (forall q plq, (q < n)%nat -> setup3 n true packflag nq permute ins outs q = Some plq ->
     rp_group plq = rp_group pl \/ forall s, ~ (In s (rp_group pl) /\ In s (rp_group plq))).
Proof. exact C10_proof. Qed.
Print Assumptions C10_groups.
Example C10_example : exists pl, setup3 3 true 0 2 1 e3_in e3_out 2 = Some pl /\ rp_group pl = [0; 1; 2]%nat.
Proof. exact C10_example_proof. Qed.

(** C11: counts and displacements of the collective exchange. *)
Theorem C11_counts : forall n packflag nq permute ins outs r q plr plq i j c d mp c' d' mp',
  flag_ok packflag -> perm_ok3 permute -> 0 < nq ->
  (r < n)%nat -> setup3 n true packflag nq permute ins outs r = Some plr -> setup3 n true packflag nq permute ins outs q = Some plq ->
  nth_error (rp_group plr) i = Some q -> nth_error (rp_sside plr) i = Some (c, d, mp) ->
  nth_error (rp_group plq) j = Some r -> nth_error (rp_rside plq) j = Some (c', d', mp') ->
  c = c' /\ exists l : list (pt3 * Z), NoDup l /\
    (forall p x, In (p, x) l <-> inb3 p (ins r) /\ inb3 p (outs q) /\ 0 <= x < nq) /\ c = zlen l.
Proof. exact C11_proof. Qed.
Print Assumptions C11_counts.
Theorem C11_slots : forall n packflag nq permute ins outs r pl,
  flag_ok packflag -> perm_ok3 permute -> 0 < nq -> (r < n)%nat -> setup3 n true packflag nq permute ins outs r = Some pl ->
  length (rp_sside pl) = length (rp_group pl) /\ length (rp_rside pl) = length (rp_group pl) /\
  (forall side size, (side, size) = (rp_sside pl, rp_sendsize pl) \/ (side, size) = (rp_rside pl, rp_recvsize pl) ->
    (forall i c d mp, nth_error side i = Some (c, d, mp) -> 0 < c -> 0 <= d /\ d + c <= size) /\
    (forall i i' c d mp c' d' mp', (i < i')%nat -> nth_error side i = Some (c, d, mp) -> nth_error side i' = Some (c', d', mp') ->
       0 < c -> 0 < c' -> d + c <= d')).
Proof. exact C11_slots_proof. Qed.
Print Assumptions C11_slots.
Example C11_example : exists pl, setup3 3 true 0 2 1 e3_in e3_out 2 = Some pl /\
  map (fun x => fst x) (rp_rside pl) = [(8, 0); (8, 8); (0, 0)].
Proof. exact C11_example_proof. Qed.

(** C12: a remap followed by the remap that undoes it restores the data ([b1], [b2], [b3]
    are any of the two arrays, in particular all the same one). *)
Theorem C12_back : forall (A : Type) n N nq perm tA tB coll1 pack1 coll2 pack2 b1 b2 b3 (g : pt3 -> Z -> A) M0,
  perm_ok3 perm -> 0 < nq -> tiling3 n N tA -> tiling3 n N tB ->
  call_ok3 n nq perm tA tB coll1 pack1 b1 b2 M0 ->
  call_ok3 n nq (back3 perm) (fun r => rotb3 perm (tB r)) (fun r => rotb3 perm (tA r)) coll2 pack2 b2 b3 M0 ->
  (forall r, (r < n)%nat -> holds3 nq 0 (tA r) g (getb b1 (M0 r))) ->
  exec_all n (fun r => remap3 n coll1 pack1 nq perm tA tB b1 b2 r ++
                       remap3 n coll2 pack2 nq (back3 perm) (fun r => rotb3 perm (tB r)) (fun r => rotb3 perm (tA r)) b2 b3 r) M0
    (fun r m => holds3 nq 0 (tA r) g (getb b3 m)).
Proof. exact C12_proof. Qed.
Print Assumptions C12_back.
Example C12_example : let M0 := e3_big 2 in
  call_ok3 3 2 1 e3_in e3_out false 0 BIn BIn M0 /\
  call_ok3 3 2 2 (fun r => rotb3 1 (e3_out r)) (fun r => rotb3 1 (e3_in r)) true 2 BIn BIn M0 /\
  (forall r, (r < 3)%nat -> holds3 2 0 (e3_in r) e3_g (m_in (M0 r))).
Proof. exact C12_example_proof. Qed.

(** C13: 2d remaps; [esize] is the size of a scalar in bytes, packflag 2 is legal for 8 only. *)
Theorem C13_remap2d_delivers : forall (A : Type) esize n N coll packflag nq permute ins outs din dout (g : pt2 -> Z -> A) M0,
  perm_ok2 permute -> 0 < nq -> tiling2 n N ins -> tiling2 n N outs ->
  call_ok2 esize n nq permute ins outs coll packflag din dout M0 ->
  (forall r, (r < n)%nat -> holds2 nq 0 (ins r) g (getb din (M0 r))) ->
  exec_all n (remap2 esize n coll packflag nq permute ins outs din dout) M0
    (fun r m => holds2 nq permute (outs r) g (getb dout m)).
Proof. exact C13_proof. Qed.
Print Assumptions C13_remap2d_delivers.
Theorem C13_remap2d_safe : forall (A : Type) (dflt : A) esize n coll packflag nq permute ins outs din dout (M0 : nat -> @rmem A),
  perm_ok2 permute -> 0 < nq -> disjoint_owners2 n ins ->
  call_ok2 esize n nq permute ins outs coll packflag din dout M0 ->
  exec_all n (remap2 esize n coll packflag nq permute ins outs din dout) M0 (fun r m =>
    (forall b, zlen (getb b m) = zlen (getb b (M0 r))) /\
    (forall b, isdata b -> b <> dout -> getb b m = getb b (M0 r)) /\
    (forall a, ~ (0 <= a < nq * vol2 (outs r)) -> zget (getb dout m) a = zget (getb dout (M0 r)) a)).
Proof. exact C13_safe_proof. Qed.
Print Assumptions C13_remap2d_safe.
Example C13_example : tiling2 2 e2_N e2_in /\ tiling2 2 e2_N e2_out /\
  call_ok2 8 2 2 1 e2_in e2_out true 2 BIn BIn (e2_M true 2 2 1) /\
  (forall r, (r < 2)%nat -> holds2 2 0 (e2_in r) e2_g (m_in (e2_M true 2 2 1 r))).
Proof. exact C13_example_proof. Qed.

(** the plans, groups, counts and slots of 2d remaps *)
Theorem C13_plans_agree : forall n coll packflag nq permute ins outs r q plr plq,
  flag_ok packflag -> perm_ok2 permute -> 0 < nq -> (r < n)%nat -> (q < n)%nat -> coll = true \/ r <> q ->
  setup2 n coll packflag nq permute ins outs r = Some plr -> setup2 n coll packflag nq permute ins outs q = Some plq ->
  with_rank q (out_msgs plr) = with_rank r (in_msgs plq) /\
  exists l : list (pt2 * Z), NoDup l /\
    (forall p c, In (p, c) l <-> inb2 p (ins r) /\ inb2 p (outs q) /\ 0 <= c < nq) /\
    with_rank q (out_msgs plr) = if Nat.eqb (length l) 0 then [] else [zlen l].
Proof. exact C13_plans_proof. Qed.
Print Assumptions C13_plans_agree.
Theorem C13_groups : forall n packflag nq permute ins outs r pl,
  flag_ok packflag -> perm_ok2 permute -> 0 < nq -> (r < n)%nat -> setup2 n true packflag nq permute ins outs r = Some pl ->
  (exists f, rp_group pl = filter f (seq 0 n)) /\
  (rp_group pl <> [] -> In r (rp_group pl)) /\
  (forall q p, (q < n)%nat -> inb2 p (ins r) -> inb2 p (outs q) -> In q (rp_group pl)) /\
  (forall q p, (q < n)%nat -> inb2 p (outs r) -> inb2 p (ins q) -> In q (rp_group pl)) /\
  (forall q plq, In q (rp_group pl) -> setup2 n true packflag nq permute ins outs q = Some plq -> rp_group plq = rp_group pl) /\
  (forall q plq, (q < n)%nat -> setup2 n true packflag nq permute ins outs q = Some plq ->
     rp_group plq = rp_group pl \/ forall s, ~ (In s (rp_group pl) /\ In s (rp_group plq))).
Proof. exact C13_groups_proof. Qed.
Print Assumptions C13_groups.
Theorem C13_counts : forall n packflag nq permute ins outs r q plr plq i j c d mp c' d' mp',
  flag_ok packflag -> perm_ok2 permute -> 0 < nq ->
  (r < n)%nat -> setup2 n true packflag nq permute ins outs r = Some plr -> setup2 n true packflag nq permute ins outs q = Some plq ->
  nth_error (rp_group plr) i = Some q -> nth_error (rp_sside plr) i = Some (c, d, mp) ->
  nth_error (rp_group plq) j = Some r -> nth_error (rp_rside plq) j = Some (c', d', mp') ->
  c = c' /\ exists l : list (pt2 * Z), NoDup l /\
    (forall p x, In (p, x) l <-> inb2 p (ins r) /\ inb2 p (outs q) /\ 0 <= x < nq) /\ c = zlen l.
Proof. exact C13_counts_proof. Qed.
Print Assumptions C13_counts.
Theorem C13_slots : forall n packflag nq permute ins outs r pl,
  flag_ok packflag -> perm_ok2 permute -> 0 < nq -> (r < n)%nat -> setup2 n true packflag nq permute ins outs r = Some pl ->
  length (rp_sside pl) = length (rp_group pl) /\ length (rp_rside pl) = length (rp_group pl) /\
  (forall side size, (side, size) = (rp_sside pl, rp_sendsize pl) \/ (side, size) = (rp_rside pl, rp_recvsize pl) ->
    (forall i c d mp, nth_error side i = Some (c, d, mp) -> 0 < c -> 0 <= d /\ d + c <= size) /\
    (forall i i' c d mp c' d' mp', (i < i')%nat -> nth_error side i = Some (c, d, mp) -> nth_error side i' = Some (c', d', mp') ->
       0 < c -> 0 < c' -> d + c <= d')).
Proof. exact C13_slots_proof. Qed.
Print Assumptions C13_slots.
Example C13_plans_example : exists pl0 pl1, setup2 2 true 0 2 1 e2_in e2_out 0 = Some pl0 /\ setup2 2 true 0 2 1 e2_in e2_out 1 = Some pl1 /\
  with_rank 1 (out_msgs pl0) = [4] /\ with_rank 0 (in_msgs pl1) = [4] /\ rp_group pl0 = [0; 1]%nat /\ map (fun x => fst x) (rp_rside pl1) = [(4, 0); (4, 4)].
Proof. exact C13_plans_example_proof. Qed.

(** C14: the same call that is legal for 8-byte scalars goes out of bounds for 4-byte
    scalars with packflag 2, because the routines copy nfast*sizeof(double) bytes. *)
Theorem C14_single_precision_memcpy_refuted :
  exists n N nq permute ins outs (M0 : nat -> @rmem Z),
    tiling2 n N ins /\ tiling2 n N outs /\ call_ok2 8 n nq permute ins outs false 2 BIn BOut M0 /\
    exists eager l s a, run n eager (start n (remap2 4 n false 2 nq permute ins outs BIn BOut) M0) l s /\ step n eager a s = Bad.
Proof. exact C14_proof. Qed.
Print Assumptions C14_single_precision_memcpy_refuted.
(** a non-empty message is always copied past the end of a buffer that fits it *)
Theorem C14_overrun_refuted : forall (A : Type) (data : list A) d0 buf b0 pl,
  0 < nfast2 pl -> 0 < nslow2 pl -> zlen buf = b0 + nslow2 pl * nfast2 pl -> pack_2d_memcpy 4 data d0 buf b0 pl = None.
Proof. exact C14_overrun_proof. Qed.
Print Assumptions C14_overrun_refuted.
Example C14_overrun_example : pack_2d_memcpy 4 [1;2;3;4] 0 [0;0] 0 {| nfast2 := 2; nslow2 := 1; nstride2 := 2; nqty2 := 1 |} = None.
Proof. exact (C14_overrun_proof Z [1;2;3;4] 0 [0;0] 0 {| nfast2 := 2; nslow2 := 1; nstride2 := 2; nqty2 := 1 |} eq_refl eq_refl eq_refl). Qed.
