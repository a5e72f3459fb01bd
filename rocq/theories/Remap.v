(** Remap.v : model of the remap plans and programs of src/remap3d.cpp and
    src/remap2d.cpp.

    The two files are textually the same program except for the formulas that
    mention the extents (collide, offsets, pack plans, sizes) and the choice of
    pack/unpack routines.  Those formulas are the record [rops]; everything else
    is written once here.  Remap3d.v and Remap2d.v supply the two records.

    The arrays [inarray] and [outarray] filled by MPI_Allgather are functions
    [ins], [outs] from ranks to extents.  Ranks are [nat]. *)

From Verif Require Import Base Sched.

(** what differs between 3d and 2d *)
Record rops (A ext plan : Type) := mkrops {
  o_collide : ext -> ext -> option ext;  (* collide(), remap3d.cpp:720-740, remap2d.cpp:673-688 *)
  o_soff : ext -> ext -> Z;              (* send_offset from (in, overlap), remap3d.cpp:262-264 *)
  o_splan : ext -> ext -> plan;          (* packplan from (in, overlap), remap3d.cpp:265-270 *)
  o_roff : ext -> ext -> Z;              (* recv_offset from (out, overlap), remap3d.cpp:359-383 *)
  o_rplan : ext -> ext -> plan;          (* unpackplan from (out, overlap), remap3d.cpp:362-389 *)
  o_size : ext -> Z;                     (* send_size = recv_size from overlap, remap3d.cpp:271,392 *)
  o_outvol : ext -> Z;                   (* p2p recvsize from out, remap3d.cpp:417, remap2d.cpp:370 *)
  o_pack : list A -> Z -> list A -> Z -> plan -> option (list A);   (* data d0 buf b0 *)
  o_unpack : list A -> Z -> list A -> Z -> plan -> option (list A)  (* buf b0 data d0 *)
}.
Arguments o_collide {A ext plan}. Arguments o_soff {A ext plan}. Arguments o_splan {A ext plan}.
Arguments o_roff {A ext plan}. Arguments o_rplan {A ext plan}. Arguments o_size {A ext plan}.
Arguments o_outvol {A ext plan}. Arguments o_pack {A ext plan}. Arguments o_unpack {A ext plan}.
Arguments mkrops {A ext plan}.

Section Remap.
Context {A ext plan : Type}.
Variable o : rops A ext plan.
Variable n : nat.                     (* nprocs *)
Variable collective : bool.           (* collective != 0 *)
Variable ins outs : nat -> ext.       (* inarray, outarray *)

(** one message of a plan: proc, offset, size, pack or unpack plan *)
Record entry := mkentry { e_proc : nat; e_off : Z; e_size : Z; e_plan : plan }.

(** the order in which the loops visit the ranks:
    [iproc = me; for (i..nprocs) { iproc++; if (iproc == nprocs) iproc = 0; ...}]
    remap3d.cpp:230-236, 255-260, 288-294, 348-354; remap2d.cpp:217-222, 242-247, 272-277, 318-324 *)
Fixpoint ring_from (steps iproc : nat) : list nat :=
  match steps with
  | O => []
  | S k => let iproc := S iproc in
           let iproc := if Nat.eqb iproc n then O else iproc in
           iproc :: ring_from k iproc
  end.
Definition ring (me : nat) : list nat := ring_from n me.

(** send info, remap3d.cpp:253-274, remap2d.cpp:240-258 *)
Definition send_entries (me : nat) : list entry :=
  flat_map (fun iproc =>
    match o_collide o (ins me) (outs iproc) with
    | Some ov => [mkentry iproc (o_soff o (ins me) ov) (o_size o ov) (o_splan o (ins me) ov)]
    | None => []
    end) (ring me).

(** recv info, remap3d.cpp:345-396, remap2d.cpp:315-349 *)
Definition recv_entries (me : nat) : list entry :=
  flat_map (fun iproc =>
    match o_collide o (outs me) (ins iproc) with
    | Some ov => [mkentry iproc (o_roff o (outs me) ov) (o_size o ov) (o_rplan o (outs me) ov)]
    | None => []
    end) (ring me).

(** recv_bufloc: running sum [ibuf] of the sizes, remap3d.cpp:347,356,393; remap2d.cpp:317,326,346 *)
Fixpoint buflocs (ibuf : Z) (l : list entry) : list Z :=
  match l with
  | [] => []
  | e :: t => ibuf :: buflocs (ibuf + e_size e) t
  end.

(** [if (nsend && send_proc[nsend-1] == me && !collective) nsend--;]
    remap3d.cpp:279, 402; remap2d.cpp:263, 355 *)
Definition drop_self (me : nat) (l : list entry) : nat :=
  match nth_error l (length l - 1) with
  | Some e => if Nat.eqb (e_proc e) me && negb collective then (length l - 1)%nat else length l
  | None => length l
  end.

Definition sum_sizes (l : list entry) : Z := fold_right (fun e s => e_size e + s) 0 l.
Definition max_sizes (l : list entry) : Z := fold_left (fun s e => Z.max s (e_size e)) l 0.

(** ** collective group, remap3d.cpp:433-499, remap2d.cpp:386-452 *)

Definition setflag (p : nat) (pflag : nat -> bool) : nat -> bool :=
  fun x => if Nat.eqb x p then true else pflag x.

(** procs I send to / receive from, remap3d.cpp:444-456, remap2d.cpp:397-409 *)
Fixpoint add_procs (l : list nat) (st : (nat -> bool) * list nat) : (nat -> bool) * list nat :=
  match l with
  | [] => st
  | p :: t =>
      let '(pflag, pgroup) := st in
      if pflag p then add_procs t st else add_procs t (setflag p pflag, pgroup ++ [p])
  end.

Definition hit (a b : ext) : bool := match o_collide o a b with Some _ => true | None => false end.

(** body of the jproc loop, remap3d.cpp:472-484, remap2d.cpp:425-437; state pflag, added procs, active *)
Definition scan_j (iproc jproc : nat) (st : (nat -> bool) * list nat * bool) : (nat -> bool) * list nat * bool :=
  let '(pflag, extra, active) := st in
  if pflag jproc then st
  else
    let '(pflag, extra, active) :=
      if hit (ins iproc) (outs jproc) then (setflag jproc pflag, extra ++ [jproc], true)
      else (pflag, extra, active) in
    if pflag jproc then (pflag, extra, active)
    else if hit (outs iproc) (ins jproc) then (setflag jproc pflag, extra ++ [jproc], true)
    else (pflag, extra, active).

(** one pass of the while loop, remap3d.cpp:467-488, remap2d.cpp:420-441 *)
Definition pass (pflag : nat -> bool) (pgroup : list nat) : (nat -> bool) * list nat * bool :=
  fold_left (fun st iproc => fold_left (fun st jproc => scan_j iproc jproc st) (seq 0 n) st)
            pgroup (pflag, [], false).

(** the while loop, remap3d.cpp:466-488, remap2d.cpp:419-441; [None] = out of fuel *)
Fixpoint close (fuel : nat) (pflag : nat -> bool) (pgroup : list nat) : option ((nat -> bool) * list nat) :=
  match fuel with
  | O => None
  | S f =>
      let '(pflag', extra, active) := pass pflag pgroup in
      if active then close f pflag' (pgroup ++ extra) else Some (pflag', pgroup ++ extra)
  end.

(** [pgroup] is allocated with nprocs entries, then shrunk to [ngroup] and
    rewritten from pflag in increasing order; writing past either size is an
    error ([None]).  remap3d.cpp:438-499, remap2d.cpp:391-452 *)
Definition group_of (send_procs recv_procs : list nat) : option (list nat) :=
  let '(pflag, pgroup) := add_procs recv_procs (add_procs send_procs (fun _ => false, [])) in
  '(pflag, pgroup) <- close (S (S n)) pflag pgroup;
  let sorted := filter pflag (seq 0 n) in
  if Nat.ltb n (length pgroup) then None
  else if Nat.ltb (length pgroup) (length sorted) then None
  else Some sorted.

(** counts, displacements and maps, remap3d.cpp:538-575, remap2d.cpp:491-528; the map entry -1 is [None] *)
Fixpoint find_proc (p : nat) (l : list entry) (i : nat) : option (nat * entry) :=
  match l with
  | [] => None
  | e :: t => if Nat.eqb (e_proc e) p then Some (i, e) else find_proc p t (S i)
  end.

Fixpoint a2a_side (l : list entry) (group : list nat) (offset : Z) : list (Z * Z * option nat) :=
  match group with
  | [] => []
  | p :: t =>
      match find_proc p l 0 with
      | Some (i, e) => (e_size e, offset, Some i) :: a2a_side l t (offset + e_size e)
      | None => (0, 0, None) :: a2a_side l t offset
      end
  end.

Record rplan := mkrplan {
  rp_send : list entry; rp_nsend : nat;
  rp_recv : list entry; rp_nrecv : nat; rp_bufloc : list Z;
  rp_self : bool;
  rp_group : list nat; rp_sside : list (Z * Z * option nat); rp_rside : list (Z * Z * option nat);
  rp_sendsize : Z; rp_recvsize : Z }.

(** setup(), remap3d.cpp:173-613, remap2d.cpp:170-566 *)
Definition setup (me : nat) : option rplan :=
  let send := send_entries me in
  let nsend := drop_self me send in
  let recv := recv_entries me in
  let nrecv := drop_self me recv in
  let self := negb (Nat.eqb nrecv (length recv)) in
  let bufloc := buflocs 0 recv in
  if negb collective then
    Some (mkrplan send nsend recv nrecv bufloc self [] [] []
            (max_sizes (firstn nsend send)) (o_outvol o (outs me)))
  else
    group <- group_of (map e_proc (firstn nsend send)) (map e_proc (firstn nrecv recv));
    Some (mkrplan send nsend recv nrecv bufloc self group
            (a2a_side (firstn nsend send) group 0) (a2a_side (firstn nrecv recv) group 0)
            (sum_sizes (firstn nsend send)) (sum_sizes (firstn nrecv recv))).

(** ** remap(), remap3d.cpp:629-711, remap2d.cpp:582-664

    [din] and [dout] say which arrays of the rank are passed as [in] and [out];
    in-place remaps pass the same array twice. *)
Variable din dout : bsel.

(** pack(&in[send_offset],&buf[b0],&packplan) *)
Definition do_pack (db : bsel) (b0 : Z) (e : entry) (m : rmem) : option rmem :=
  b <- o_pack o (getb din m) (e_off e) (getb db m) b0 (e_plan e); Some (setb db b m).

(** unpack(&recvbuf[b0],&out[recv_offset],&unpackplan) *)
Definition do_unpack (b0 : Z) (e : entry) (m : rmem) : option rmem :=
  b <- o_unpack o (getb BRecv m) b0 (getb dout m) (e_off e) (e_plan e); Some (setb dout b m).

(** an access to a plan entry beyond the arrays *)
Definition bad_local (m : @rmem A) : option (@rmem A) := None.

(** the call after MPI_Waitany returned [irecv], remap3d.cpp:673-675, remap2d.cpp:626-628 *)
Definition unpack_recv (pl : rplan) (irecv : nat) (m : rmem) : option rmem :=
  match nth_error (rp_recv pl) irecv, nth_error (rp_bufloc pl) irecv with
  | Some e, Some loc => do_unpack loc e m
  | _, _ => None
  end.

(** copy in -> recvbuf -> out for self data, remap3d.cpp:660-668, remap2d.cpp:613-621 *)
Definition self_copies (pl : rplan) : list (rmem -> option rmem) :=
  if rp_self pl then
    match nth_error (rp_send pl) (rp_nsend pl), nth_error (rp_recv pl) (rp_nrecv pl),
          nth_error (rp_bufloc pl) (rp_nrecv pl) with
    | Some es, Some er, Some loc => [do_pack BRecv loc es; do_unpack loc er]
    | _, _, _ => [bad_local]
    end
  else [].

(** point-to-point branch, remap3d.cpp:643-676, remap2d.cpp:596-629 *)
Definition remap_p2p (pl : rplan) : list instr :=
  map (fun '(irecv, (e, loc)) => IIrecv irecv (e_proc e) loc (e_size e))
      (combine (seq 0 (rp_nrecv pl)) (combine (rp_recv pl) (rp_bufloc pl)))
  ++ flat_map (fun e => [ILocal (do_pack BSend 0 e); ISend (e_proc e) (e_size e)])
              (firstn (rp_nsend pl) (rp_send pl))
  ++ map ILocal (self_copies pl)
  ++ repeat (IWaitany (unpack_recv pl)) (rp_nrecv pl).

(** loops over igroup with a running offset, remap3d.cpp:684-691, 702-709; remap2d.cpp:637-644, 655-662 *)
Fixpoint coll_loop (f : Z -> entry -> rmem -> option rmem) (l : list entry)
    (side : list (Z * Z * option nat)) (offset : Z) : list (rmem -> option rmem) :=
  match side with
  | [] => []
  | (_, _, None) :: t => coll_loop f l t offset
  | (_, _, Some i) :: t =>
      match nth_error l i with
      | Some e => f offset e :: coll_loop f l t (offset + e_size e)
      | None => [bad_local]
      end
  end.

Definition a2a_args (pl : rplan) : list (Z * Z * Z * Z) :=
  map (fun '((sc, sd, _), (rc, rd, _)) => (sc, sd, rc, rd)) (combine (rp_sside pl) (rp_rside pl)).

(** collective branch, remap3d.cpp:680-710, remap2d.cpp:633-663.  MPI_Comm_create gives
    MPI_COMM_NULL exactly to the ranks that passed a group without themselves;
    a rank with an empty group does not call MPI_Alltoallv *)
Definition remap_coll (pl : rplan) : list instr :=
  map ILocal (coll_loop (do_pack BSend) (rp_send pl) (rp_sside pl) 0)
  ++ match rp_group pl with [] => [] | _ => [IA2A (rp_group pl) (a2a_args pl)] end
  ++ map ILocal (coll_loop do_unpack (rp_recv pl) (rp_rside pl) 0).

Definition remap_prog (pl : rplan) : list instr :=
  if negb collective then remap_p2p pl else remap_coll pl.

(** the program rank [me] executes for one remap() after setup() *)
Definition remap_code (me : nat) : list instr :=
  match setup me with
  | Some pl => remap_prog pl
  | None => [ILocal bad_local]
  end.

End Remap.
