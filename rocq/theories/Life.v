(** Life.v : model of the life of FFT3d, FFT2d, Remap3d and Remap2d objects:
    constructors, setup, setup_memory, compute and only_*, destructors, seen from
    the heap of one rank.

    What is kept: every pointer field, every allocation and deallocation with its
    size, every flag and every error test, in source order.
    What is not: the numbers stored in the blocks (see Remap.v, Fft3d.v, Fft2d.v).
    What setup() decides (which remaps exist, how many messages they have, how
    large the buffers are) is the input [shape]; MemUse.v computes it from
    Setup3d.v, Setup2d.v and Remap.v.

    A pointer that was never assigned is [PUndef]; reading it, freeing it, or
    freeing a block that is not live is [LUB].  An error->all() call ends the
    process: [LHalt] with its message.  Allocations do not fail. *)

From Coq Require Export String.
From Verif Require Import Base Setup3d.

(** ** heap *)

Inductive ptr := PUndef | PNull | PTo (b : nat).
Inductive owner := OLib | OUser.
(** [KData]: arrays and buffers obtained through Memory::smalloc;
    [KObj]: objects made with new, KISS plans, MPI communicators (size not recorded) *)
Inductive kind := KData | KObj.
Record blk := mkblk { b_id : nat; b_own : owner; b_kind : kind; b_bytes : Z }.
Record heap := mkheap { h_next : nat; h_live : list blk }.

Inductive lres (X : Type) := LHalt (msg : string) | LUB | LOk (x : X).
Arguments LHalt {X}. Arguments LUB {X}. Arguments LOk {X}.

Definition LM (X : Type) : Type := heap -> lres (X * heap).
Definition lret {X} (x : X) : LM X := fun h => LOk (x, h).
Definition lbind {X Y} (m : LM X) (k : X -> LM Y) : LM Y :=
  fun h => match m h with LHalt s => LHalt s | LUB => LUB | LOk (x, h') => k x h' end.
Definition lfail {X} (msg : string) : LM X := fun _ => LHalt msg.
Definition lub {X} : LM X := fun _ => LUB.
Notation "x <~ e ;; k" := (lbind e (fun x => k)) (at level 100, e at next level, right associativity).
Notation "e ;;; k" := (lbind e (fun _ => k)) (at level 100, right associativity).

Definition alloc (o : owner) (k : kind) (bytes : Z) : LM ptr := fun h =>
  LOk (PTo (h_next h), mkheap (S (h_next h)) (mkblk (h_next h) o k bytes :: h_live h)).

Definition find_blk (b : nat) (h : heap) : option blk := find (fun x => Nat.eqb (b_id x) b) (h_live h).
Definition livep (p : ptr) (h : heap) : bool :=
  match p with PTo b => match find_blk b h with Some _ => true | None => false end | _ => false end.

(** free() and delete: NULL is a no-op, anything not live is undefined *)
Definition free (p : ptr) : LM unit := fun h =>
  match p with
  | PNull => LOk (tt, h)
  | PUndef => LUB
  | PTo b => if livep p h then LOk (tt, mkheap (h_next h) (filter (fun x => negb (Nat.eqb (b_id x) b)) (h_live h))) else LUB
  end.

(** reading through a pointer *)
Definition deref (p : ptr) : LM unit := fun h => if livep p h then LOk (tt, h) else LUB.

Fixpoint seqM (l : list (LM unit)) : LM unit :=
  match l with [] => lret tt | m :: t => m ;;; seqM t end.
Fixpoint mapM {X Y} (f : X -> LM Y) (l : list X) : LM (list Y) :=
  match l with [] => lret [] | x :: t => y <~ f x ;; ys <~ mapM f t ;; lret (y :: ys) end.

Section Life.
(** [strict = true]: calling a member function of a deleted object is undefined, as the C++ standard says;
    [strict = false]: Memory has no data, so memory->sfree() still calls free() *)
Variable strict : bool.
(** bytes of FFT_SCALAR, of struct pack_plan_3d / pack_plan_2d, of MPI_Request and of a pointer *)
Variable esize plsize rqsize ptsize : Z.

(** memory->smalloc(bytes), memory.cpp:43-62 *)
Definition smalloc (m : ptr) (bytes : Z) : LM ptr :=
  deref m ;;; (if bytes =? 0 then lret PNull else alloc OLib KData bytes).

(** memory->sfree(p), memory.cpp:98-109 *)
Definition sfree (m p : ptr) : LM unit :=
  (if strict then deref m else lret tt) ;;; free p.

(** ** Remap3d and Remap2d (the two classes have the same fields) *)

(** what setup() finds: messages including the one to itself (remap3d.cpp:230-236, 288-294), whether the last one
    is to itself, group size, buffer sizes in scalars *)
Record rcnt := mkrcnt { c_nsend : Z; c_nrecv : Z; c_self : bool; c_ngroup : Z; c_ssize : Z; c_rsize : Z }.

Record robj := mkrobj {
  r_mem : ptr; r_err : ptr; r_setup : bool; r_coll : Z;
  r_memflag : option Z;      (* None: not assigned *)
  r_comm : ptr;              (* newcomm; PNull = MPI_COMM_NULL *)
  r_pgroup : ptr;
  r_arr : list ptr;          (* send_offset send_size send_proc packplan recv_offset recv_size recv_proc recv_bufloc request unpackplan *)
  r_carr : list ptr;         (* sendcnts recvcnts senddispls recvdispls recvmap sendmap *)
  r_send : ptr; r_recv : ptr;
  r_need : Z * Z;            (* sendsize, recvsize *)
  r_usage : Z }.

(** constructor, remap3d.cpp:67-97, remap2d.cpp:67-97 *)
Definition new_robj : LM robj :=
  m <~ alloc OLib KObj 0 ;;
  e <~ alloc OLib KObj 0 ;;
  lret (mkrobj m e false 1 None PUndef PUndef (repeat PNull 10) (repeat PUndef 6) PNull PNull (0, 0) 0).

(** setup, remap3d.cpp:173-613, remap2d.cpp:170-566: the allocations.
    [nprocs] sizes the temporary arrays; [xsize] is sizeof(struct extent_3d). *)
Definition setup_robj (nprocs xsize : Z) (c : rcnt) (memflag : Z) (r : robj) : LM robj :=
  let coll := negb (r_coll r =? 0) in
  inarray <~ smalloc (r_mem r) (nprocs * xsize) ;;
  outarray <~ smalloc (r_mem r) (nprocs * xsize) ;;
  sa <~ (if c_nsend c =? 0 then lret (firstn 4 (r_arr r))
         else mapM (smalloc (r_mem r)) [c_nsend c * 4; c_nsend c * 4; c_nsend c * 4; c_nsend c * plsize]) ;;
  ra <~ (if c_nrecv c =? 0 then lret (skipn 4 (r_arr r))
         else mapM (smalloc (r_mem r)) [c_nrecv c * 4; c_nrecv c * 4; c_nrecv c * 4; c_nrecv c * 4; c_nrecv c * rqsize; c_nrecv c * plsize]) ;;
  (* remap3d.cpp:279, 402 *)
  let nsend := if c_self c && negb coll then c_nsend c - 1 else c_nsend c in
  let nrecv := if c_self c && negb coll then c_nrecv c - 1 else c_nrecv c in
  (* remap3d.cpp:437-441 *)
  pflag <~ (if coll then smalloc (r_mem r) (nprocs * 4) else lret PNull) ;;
  pgroup <~ (if coll then smalloc (r_mem r) (nprocs * 4) else lret (r_pgroup r)) ;;
  (* srealloc to the final size: sfree and NULL for 0 bytes, else a block of the new size; remap3d.cpp:493, memory.cpp:68-92 *)
  pgroup <~ (if coll then free pgroup ;;; smalloc (r_mem r) (c_ngroup c * 4) else lret pgroup) ;;
  (if coll then sfree (r_mem r) pflag else lret tt) ;;;
  (* MPI_Comm_create, remap3d.cpp:504-509; an empty group gives MPI_COMM_NULL *)
  comm <~ (if coll then (if c_ngroup c =? 0 then lret PNull else alloc OLib KObj 0) else lret (r_comm r)) ;;
  sb <~ (if negb (memflag =? 0) && negb (c_ssize c =? 0) then smalloc (r_mem r) (c_ssize c * esize) else lret (r_send r)) ;;
  rb <~ (if negb (memflag =? 0) && negb (c_rsize c =? 0) then smalloc (r_mem r) (c_rsize c * esize) else lret (r_recv r)) ;;
  ca <~ (if coll then mapM (smalloc (r_mem r)) (repeat (4 * c_ngroup c) 6) else lret (r_carr r)) ;;
  sfree (r_mem r) inarray ;;;
  sfree (r_mem r) outarray ;;;
  (* memusage, remap3d.cpp:591-612 *)
  let usage := 3 * nsend * 4 + nsend * plsize + 4 * nrecv * 4 + nrecv * ptsize + nrecv * plsize
               + (if memflag =? 0 then 0 else c_ssize c * esize + c_rsize c * esize)
               + (if coll then 7 * c_ngroup c * 4 else 0) in
  lret (mkrobj (r_mem r) (r_err r) true (r_coll r) (Some memflag) comm pgroup (sa ++ ra) ca sb rb (c_ssize c, c_rsize c) usage).

(** remap(): which buffers are used, remap3d.cpp:632-641.  [ub] is the pair user_sendbuf, user_recvbuf.
    A buffer of size 0 is not touched. *)
Definition use_buf (need : Z) (p : ptr) : LM unit :=
  if need =? 0 then lret tt
  else fun h => match p with
                | PTo b => match find_blk b h with
                           | Some x => if need * esize <=? b_bytes x then LOk (tt, h) else LUB
                           | None => LUB
                           end
                | _ => LUB
                end.

Definition remap_robj (us ur : ptr) (r : robj) : LM robj :=
  if negb (r_setup r) then lfail "Cannot perform remap before setup"
  else match r_memflag r with
  | None => lub
  | Some mf =>
    let s := if mf =? 0 then us else r_send r in
    let v := if mf =? 0 then ur else r_recv r in
    use_buf (fst (r_need r)) s ;;; use_buf (snd (r_need r)) v ;;;
    lret (mkrobj (r_mem r) (r_err r) (r_setup r) (r_coll r) (r_memflag r) (r_comm r) (r_pgroup r) (r_arr r) (r_carr r) s v (r_need r) (r_usage r))
  end.

(** destructor, remap3d.cpp:103-147, remap2d.cpp:103-147 *)
Definition del_robj (r : robj) : LM unit :=
  free (r_mem r) ;;; free (r_err r) ;;;
  (if r_coll r =? 0 then lret tt else
     (match r_comm r with PUndef => lub | _ => free (r_comm r) end) ;;; sfree (r_mem r) (r_pgroup r)) ;;;
  seqM (map (sfree (r_mem r)) (r_arr r)) ;;;
  (if r_coll r =? 0 then lret tt else seqM (map (sfree (r_mem r)) (r_carr r))) ;;;
  match r_memflag r with
  | None => lub
  | Some mf => if mf =? 0 then lret tt else sfree (r_mem r) (r_send r) ;;; sfree (r_mem r) (r_recv r)
  end.

(** ** FFT3d and FFT2d *)

(** struct Remap: its block, remap3d, remap3d_extra; fft3d.h:113-116, fft2d.h:108-111 *)
Record rstruct := mkrstruct { rs_blk : ptr; rs_main : ptr * robj; rs_extra : option (ptr * robj) }.

(** struct FFT1d: its block and the two plans; fft3d.h:151-156 *)
Record f1d := mkf1d { p_blk : ptr; p_fwd : ptr; p_bwd : ptr }.

Record fobj := mkfobj {
  o_mem : ptr; o_err : ptr; o_primes : ptr; o_factors : ptr;
  o_set : settings; o_memflag : Z;      (* collective, exchange, packflag, memoryflag *)
  o_setup : bool; o_smem : bool;        (* setupflag, setup_memory_flag *)
  o_dims : option (list Z);             (* nfast, (nmid,) nslow; None: not assigned *)
  o_remaps : list (option rstruct);     (* None: NULL.  3d: prefast fastmid midslow postslow preslow slowmid midfast postfast
                                                       2d: prefast fastslow postslow preslow slowfast postfast *)
  o_ffts : list (option f1d);           (* None: NULL.  3d: fast mid slow; 2d: fast slow *)
  o_send : ptr; o_recv : ptr;
  o_sizes : Z * Z * Z;                  (* fftsize, sendsize, recvsize *)
  o_usage : Z }.

(** what setup() decides: for each remap pointer whether it is created, and the collective flag and counts of the
    Remap objects; the grid; the sizes *)
Record rmk := mkrmk { k_main : Z * rcnt; k_extra : option (Z * rcnt) }.
Record shape := mkshape { s_dims : list Z; s_remaps : list (option rmk); s_sizes : Z * Z * Z }.

Variable nprocs xsize : Z.

(** new Remap3d(world); ->collective = ...; ->setup(...,0,ssize,rsize), fft3d.cpp:1146-1154 *)
Definition make_robj (k : Z * rcnt) : LM (ptr * robj) :=
  p <~ alloc OLib KObj 0 ;;
  r <~ new_robj ;;
  let r := mkrobj (r_mem r) (r_err r) (r_setup r) (fst k) (r_memflag r) (r_comm r) (r_pgroup r) (r_arr r) (r_carr r)
                  (r_send r) (r_recv r) (r_need r) (r_usage r) in
  r <~ setup_robj nprocs xsize (snd k) 0 r ;;
  lret (p, r).

(** one pointer of remap_forward_create / remap_inverse_create, fft3d.cpp:1139-1392, fft2d.cpp:1078-1247.
    [old] is the value of the pointer before the call. *)
Definition make_remap (old : option rstruct) (k : option rmk) : LM (option rstruct) :=
  match k with
  | None => lret old
  | Some k =>
    b <~ alloc OLib KObj 0 ;;
    m <~ make_robj (k_main k) ;;
    x <~ match k_extra k with None => lret None | Some e => y <~ make_robj e ;; lret (Some y) end ;;
    lret (Some (mkrstruct b m x))
  end.

(** kiss_fft_alloc for one direction *)
Definition kiss_alloc : LM ptr := alloc OLib KObj 0.

(** setup_ffts, fft3d.cpp:1643-1668 (with the three new FFT1d of 443-445) *)
Definition setup_ffts3 (nfast nmid nslow : Z) : LM (list (option f1d)) :=
  bf <~ alloc OLib KObj 0 ;; bm <~ alloc OLib KObj 0 ;; bs <~ alloc OLib KObj 0 ;;
  ff <~ kiss_alloc ;; fb <~ kiss_alloc ;;
  mid <~ (if nmid =? nfast then lret (ff, fb) else a <~ kiss_alloc ;; b <~ kiss_alloc ;; lret (a, b)) ;;
  slow <~ (if nslow =? nfast then lret (ff, fb)
           else if nslow =? nmid then lret mid
           else a <~ kiss_alloc ;; b <~ kiss_alloc ;; lret (a, b)) ;;
  lret [Some (mkf1d bf ff fb); Some (mkf1d bm (fst mid) (snd mid)); Some (mkf1d bs (fst slow) (snd slow))].

(** fft2d.cpp:1452-1466 (with the two new FFT1d of 420-421) *)
Definition setup_ffts2 (nfast nslow : Z) : LM (list (option f1d)) :=
  bf <~ alloc OLib KObj 0 ;; bs <~ alloc OLib KObj 0 ;;
  ff <~ kiss_alloc ;; fb <~ kiss_alloc ;;
  slow <~ (if nslow =? nfast then lret (ff, fb) else a <~ kiss_alloc ;; b <~ kiss_alloc ;; lret (a, b)) ;;
  lret [Some (mkf1d bf ff fb); Some (mkf1d bs (fst slow) (snd slow))].

(** free(fft_x->plan_forward); free(fft_x->plan_backward); a NULL fft_x is undefined *)
Definition free_plans (f : option f1d) : LM unit :=
  match f with None => lub | Some q => free (p_fwd q) ;;; free (p_bwd q) end.

(** deallocate_ffts, fft3d.cpp:1695-1707 *)
Definition dealloc_ffts3 (dims : option (list Z)) (fs : list (option f1d)) : LM unit :=
  match dims, fs with
  | Some [nfast; nmid; nslow], [fast; mid; slow] =>
    (if negb (nslow =? nfast) && negb (nslow =? nmid) then free_plans slow else lret tt) ;;;
    (if negb (nmid =? nfast) then free_plans mid else lret tt) ;;;
    free_plans fast
  | _, _ => lub
  end.

(** fft2d.cpp:1493-1501 *)
Definition dealloc_ffts2 (dims : option (list Z)) (fs : list (option f1d)) : LM unit :=
  match dims, fs with
  | Some [nfast; nslow], [fast; slow] =>
    (if negb (nslow =? nfast) then free_plans slow else lret tt) ;;;
    free_plans fast
  | _, _ => lub
  end.

(** delete fft_x *)
Definition del_f1d (f : option f1d) : LM unit := match f with None => lret tt | Some q => free (p_blk q) end.

(** deallocate_remap, fft3d.cpp:1127-1133, fft2d.cpp:1066-1072 *)
Definition del_pair (x : ptr * robj) : LM unit := del_robj (snd x) ;;; free (fst x).
Definition del_remap (r : option rstruct) : LM unit :=
  match r with
  | None => lret tt
  | Some q => del_pair (rs_main q) ;;;
              (match rs_extra q with None => lret tt | Some x => del_pair x end) ;;;
              free (rs_blk q)
  end.

(** remap_memory, fft3d.cpp:1398-1445, fft2d.cpp:1253-1290 *)
Definition remap_usage (r : option rstruct) : Z :=
  match r with
  | None => 0
  | Some q => r_usage (snd (rs_main q)) + match rs_extra q with None => 0 | Some x => r_usage (snd x) end
  end.
Definition remap_memory (l : list (option rstruct)) : Z := fold_left (fun s r => s + remap_usage r) l 0.

(** constructors, fft3d.cpp:113-178, fft2d.cpp:113-172.  [dim3] selects the class. *)
Definition new_fobj (dim3 : bool) (prec : Z) : LM fobj :=
  m <~ alloc OLib KObj 0 ;;
  e <~ alloc OLib KObj 0 ;;
  if negb (prec =? 1) && negb (prec =? 2) then lfail "Invalid precision setting for FFT lib"
  else if ((prec =? 1) && negb (esize =? 4)) || ((prec =? 2) && negb (esize =? 8)) then lfail "Precision mis-match with FFT lib"
  else
  pr <~ alloc OLib KObj 0 ;;
  fa <~ alloc OLib KObj 0 ;;
  lret (mkfobj m e pr fa (mkset 2 0 (if dim3 then 2 else 0)) 1 false false None
          (repeat None (if dim3 then 8 else 6)%nat) (repeat None (if dim3 then 3 else 2)%nat) PNull PNull (0, 0, 0) 0).

(** one list of remap pointers *)
Fixpoint make_remaps (old : list (option rstruct)) (ks : list (option rmk)) : LM (list (option rstruct)) :=
  match old, ks with
  | [], [] => lret []
  | o :: os, k :: ks => r <~ make_remap o k ;; rs <~ make_remaps os ks ;; lret (r :: rs)
  | _, _ => lub
  end.

(** setup, fft3d.cpp:219-494 and fft2d.cpp:227-463.  [res] is the outcome of its validation and layout part
    (Setup3d.setup3d, Setup2d.setup2d). *)
Definition setup_fobj (dim3 : bool) (res : sres shape) (o : fobj) : LM fobj :=
  if dim3 && o_setup o then lfail "FFT is already setup"
  else match res with
  | SErr msg => lfail msg
  | SUB => lub
  | SOk sh =>
    rs <~ make_remaps (o_remaps o) (s_remaps sh) ;;
    fs <~ (if dim3 then match s_dims sh with [a; b; c] => setup_ffts3 a b c | _ => lub end
           else match s_dims sh with [a; b] => setup_ffts2 a b | _ => lub end) ;;
    let '(ffts, ssz, rsz) := s_sizes sh in
    sb <~ (if negb (o_memflag o =? 0) && negb (ssz =? 0) then smalloc (o_mem o) (ssz * esize) else lret (o_send o)) ;;
    rb <~ (if negb (o_memflag o =? 0) && negb (rsz =? 0) then smalloc (o_mem o) (rsz * esize) else lret (o_recv o)) ;;
    let usage := (if o_memflag o =? 0 then 0 else ssz * esize + rsz * esize) + remap_memory rs in
    lret (mkfobj (o_mem o) (o_err o) (o_primes o) (o_factors o) (o_set o) (o_memflag o) true
            (negb (o_memflag o =? 0) || o_smem o) (Some (s_dims sh)) rs fs sb rb (s_sizes sh) usage)
  end.

(** deallocate_setup, fft3d.cpp:500-522, fft2d.cpp:469-487 *)
Definition dealloc_setup (dim3 : bool) (o : fobj) : LM fobj :=
  seqM (map del_remap (o_remaps o)) ;;;
  (if dim3 then dealloc_ffts3 (o_dims o) (o_ffts o) else dealloc_ffts2 (o_dims o) (o_ffts o)) ;;;
  seqM (map del_f1d (o_ffts o)) ;;;
  lret (mkfobj (o_mem o) (o_err o) (o_primes o) (o_factors o) (o_set o) (o_memflag o) false (o_smem o) (o_dims o)
          (repeat None (List.length (o_remaps o))) (repeat None (List.length (o_ffts o))) (o_send o) (o_recv o) (o_sizes o) (o_usage o)).

(** setup_memory, fft3d.cpp:530-538, fft2d.cpp:496-504 *)
Definition setup_memory (us ur : ptr) (o : fobj) : LM fobj :=
  if negb (o_setup o) then lfail "Cannot setup FFT memory before setup"
  else if negb (o_memflag o =? 0) then lfail "Cannot setup FFT memory with memoryflag set"
  else lret (mkfobj (o_mem o) (o_err o) (o_primes o) (o_factors o) (o_set o) (o_memflag o) (o_setup o) true (o_dims o)
               (o_remaps o) (o_ffts o) us ur (o_sizes o) (o_usage o)).

(** deallocate_setup_memory, fft3d.cpp:545-551, fft2d.cpp:511-517 *)
Definition dealloc_memory (o : fobj) : LM fobj :=
  sfree (o_mem o) (o_send o) ;;; sfree (o_mem o) (o_recv o) ;;;
  lret (mkfobj (o_mem o) (o_err o) (o_primes o) (o_factors o) (o_set o) (o_memflag o) (o_setup o) false (o_dims o)
          (o_remaps o) (o_ffts o) PNull PNull (o_sizes o) (o_usage o)).

(** what compute and only_* do to the heap: each existing remap uses sendbuf and recvbuf (its memoryflag is 0),
    each 1d transform reads its FFT1d and plan.  The remap objects keep copies of the buffer pointers, which nothing
    reads before they are overwritten by the next remap().  All remaps of the object are checked, those of the other
    direction too; a compute in one direction uses a subset. *)
Definition use_pair (us ur : ptr) (x : ptr * robj) : LM unit := deref (fst x) ;;; remap_robj us ur (snd x) ;;; lret tt.
Definition use_remap (us ur : ptr) (r : option rstruct) : LM unit :=
  match r with
  | None => lret tt
  | Some q => deref (rs_blk q) ;;; use_pair us ur (rs_main q) ;;;
              match rs_extra q with None => lret tt | Some x => use_pair us ur x end
  end.
Definition use_f1d (f : option f1d) : LM unit :=
  match f with None => lub | Some q => deref (p_blk q) ;;; deref (p_fwd q) ;;; deref (p_bwd q) end.

(** compute, fft3d.cpp:560-605, fft2d.cpp:526-565 *)
Definition compute_life (o : fobj) : LM unit :=
  if negb (o_setup o) then lfail "Cannot compute FFT before setup"
  else if negb (o_smem o) then lfail "Cannot compute FFT before setup_memory"
  else seqM (map (use_remap (o_send o) (o_recv o)) (o_remaps o)) ;;; seqM (map use_f1d (o_ffts o)).

(** only_1d_ffts, fft3d.cpp:614-622, fft2d.cpp:574-581 *)
Definition only1d_life (o : fobj) : LM unit :=
  if negb (o_setup o) then lfail "Cannot compute 1d FFTs before setup"
  else seqM (map use_f1d (o_ffts o)).

(** only_remaps, fft3d.cpp:633-661, fft2d.cpp:592-623 *)
Definition onlyremaps_life (o : fobj) : LM unit :=
  if negb (o_setup o) then lfail "Cannot perform FFT remap before setup"
  else if negb (o_smem o) then lfail "Cannot perform FFT remap before setup_memory"
  else seqM (map (use_remap (o_send o) (o_recv o)) (o_remaps o)).

(** only_one_remap, fft3d.cpp:673-703, fft2d.cpp:630-662 *)
Definition oneremap_life (o : fobj) : LM unit :=
  if negb (o_setup o) then lfail "Cannot perform an FFT remap before setup"
  else if negb (o_smem o) then lfail "Cannot perform an FFT remap before setup_memory"
  else seqM (map (use_remap (o_send o) (o_recv o)) (o_remaps o)).

(** destructor of FFT3d, fft3d.cpp:184-194 *)
Definition del_fobj3 (o : fobj) : LM unit :=
  free (o_mem o) ;;; free (o_err o) ;;; free (o_primes o) ;;; free (o_factors o) ;;;
  o' <~ (if o_setup o then dealloc_setup true o else lret o) ;;
  if o_memflag o' =? 0 then lret tt else _ <~ dealloc_memory o' ;; lret tt.

(** destructor of FFT2d, fft2d.cpp:178-204 *)
Definition del_fobj2 (o : fobj) : LM unit :=
  free (o_mem o) ;;; free (o_err o) ;;; free (o_primes o) ;;; free (o_factors o) ;;;
  seqM (map del_remap (o_remaps o)) ;;;
  dealloc_ffts2 (o_dims o) (o_ffts o) ;;;
  seqM (map del_f1d (o_ffts o)) ;;;
  if o_memflag o =? 0 then lret tt else sfree (o_mem o) (o_send o) ;;; sfree (o_mem o) (o_recv o).

End Life.
