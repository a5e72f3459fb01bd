(** Sched.v : the message passing machine on which the remap programs run.

    One [core] per MPI rank executes a straight-line program of instructions
    which are exactly the calls made by Remap3d::remap / Remap2d::remap
    (src/remap3d.cpp:629-711, src/remap2d.cpp:582-664) and by the callers that
    string several remaps and local computations together
    (src/fft3d.cpp:560-605, src/fft2d.cpp:526-565).

    Modelling decisions (MPI standard semantics restricted to what is used):
    - point-to-point messages use one tag and one communicator, so messages of
      an ordered pair of ranks are matched in FIFO order;
    - a delivery may happen at any time after the send was started and a
      matching receive was posted, and it writes the receive buffer at that
      moment; a message longer than the posted receive is an error;
    - MPI_Send of the k-th message of rank r completes at any time if
      [eager r k], otherwise only after the message was delivered (rendezvous);
      [eager] is an arbitrary parameter;
    - MPI_Waitany returns any completed request;
    - MPI_Alltoallv completes on a rank when every member of its group has
      entered the call; counts must match exactly.
    A step that would be undefined behaviour or an MPI error yields [Bad]. *)

From Verif Require Import Base.

(** ** square matrices of queues *)
Section Matrix.
Context {Q : Type}.
Definition mbuild (P : nat) (f : nat -> nat -> list Q) : list (list (list Q)) :=
  map (fun s => map (fun d => f s d) (seq 0 P)) (seq 0 P).
Definition mget (m : list (list (list Q))) (s d : nat) : list Q := nth d (nth s m []) [].
Definition mset (P : nat) (m : list (list (list Q))) (s d : nat) (q : list Q) :=
  mbuild P (fun s' d' => if Nat.eqb s' s && Nat.eqb d' d then q else mget m s' d').
End Matrix.

(** replace the n-th element (no effect if out of range) *)
Fixpoint lupd {B} (l : list B) (n : nat) (v : B) : list B :=
  match l, n with
  | [], _ => []
  | _ :: t, O => v :: t
  | h :: t, S n' => h :: lupd t n' v
  end.

Section Sched.
Context {A : Type}.

(** memory of one rank: the caller's in and out arrays and the scratch buffers
    (FFT_SCALAR *in, *out, *sendbuf, *recvbuf of Remap3d::remap) *)
Record rmem := mkmem { m_in : list A; m_out : list A; m_send : list A; m_recv : list A }.

(** the four arrays of a rank *)
Inductive bsel := BIn | BOut | BSend | BRecv.
Definition getb (b : bsel) (m : rmem) : list A :=
  match b with BIn => m_in m | BOut => m_out m | BSend => m_send m | BRecv => m_recv m end.
Definition setb (b : bsel) (v : list A) (m : rmem) : rmem :=
  match b with
  | BIn => mkmem v (m_out m) (m_send m) (m_recv m)
  | BOut => mkmem (m_in m) v (m_send m) (m_recv m)
  | BSend => mkmem (m_in m) (m_out m) v (m_recv m)
  | BRecv => mkmem (m_in m) (m_out m) (m_send m) v
  end.

Inductive instr :=
| IIrecv (id src : nat) (loc len : Z)        (* MPI_Irecv(&recvbuf[loc],len,..,src,0,world,&request[id]) *)
| ILocal (f : rmem -> option rmem)           (* pack / unpack / 1d FFTs / memcpy *)
| ISend (dst : nat) (len : Z)                (* MPI_Send(sendbuf,len,..,dst,0,world) *)
| IWaitany (h : nat -> rmem -> option rmem)  (* MPI_Waitany(nrecv,request,&irecv,..); h irecv *)
| IA2A (group : list nat) (args : list (Z * Z * Z * Z)).
   (* MPI_Alltoallv on the communicator of [group];
      args: sendcnt, senddispl, recvcnt, recvdispl per member *)

Record req := mkreq { rq_id : nat; rq_src : nat; rq_loc : Z; rq_len : Z; rq_done : bool }.

(** [c_busy]: inside the communication call at the head of the program (message
    handed to MPI, call not yet returned).  [c_sent]: number of MPI_Send calls completed. *)
Record core := mkcore {
  c_prog : list instr; c_mem : rmem; c_reqs : list req; c_busy : bool; c_sent : nat }.

Definition msg := list A.
Definition cmsg := (list nat * list A)%type.

Record chans := mkchans {
  ch : list (list (list msg));      (* point-to-point queues, row = sender, column = receiver *)
  cch : list (list (list cmsg)) }.  (* collective contributions, tagged by the group *)

Record gstate := mkstate { s_core : list core; s_ch : chans }.

Inductive label :=
| Lrank (r : nat)            (* rank r executes (part of) its next call *)
| Ldeliver (p q : nat)       (* the oldest undelivered message p -> q is delivered *)
| Lwait (r id : nat).        (* MPI_Waitany on rank r returns request id *)

Inductive effect :=
| ENone
| ESend (s d : nat) (m : msg)
| EPop (s d : nat)
| EContrib (s : nat) (g : list nat) (ms : list msg)
| EPopC (g : list nat) (d : nat).

Inductive outcome (X : Type) := Disabled | Bad | Ok (x : X).
Arguments Disabled {X}. Arguments Bad {X}. Arguments Ok {X} x.

Variable P : nat.                       (* number of ranks *)
Variable eager : nat -> nat -> bool.    (* completion policy of MPI_Send *)

Definition assoc_msg (g : list nat) (ms : list msg) (d : nat) : option msg :=
  match find (fun x => Nat.eqb (fst x) d) (combine g ms) with
  | Some (_, m) => Some m
  | None => None
  end.

Definition inb (x : nat) (g : list nat) : bool := existsb (Nat.eqb x) g.

Definition apply_eff (e : effect) (c : chans) : chans :=
  match e with
  | ENone => c
  | ESend s d m =>
      mkchans (mbuild P (fun s' d' => if Nat.eqb s' s && Nat.eqb d' d then mget (ch c) s' d' ++ [m]
                                      else mget (ch c) s' d')) (cch c)
  | EPop s d =>
      mkchans (mbuild P (fun s' d' => if Nat.eqb s' s && Nat.eqb d' d then tl (mget (ch c) s' d')
                                      else mget (ch c) s' d')) (cch c)
  | EContrib s g ms =>
      mkchans (ch c) (mbuild P (fun s' d' =>
         if Nat.eqb s' s then
           match assoc_msg g ms d' with
           | Some m => mget (cch c) s' d' ++ [(g, m)]
           | None => mget (cch c) s' d'
           end
         else mget (cch c) s' d'))
  | EPopC g d =>
      mkchans (ch c) (mbuild P (fun s' d' =>
         if Nat.eqb d' d && inb s' g then tl (mget (cch c) s' d') else mget (cch c) s' d'))
  end.

Definition set_recv (m : rmem) (b : list A) := mkmem (m_in m) (m_out m) (m_send m) b.

(** write a received payload into the receive buffer at [loc] *)
Definition wrm (loc : Z) (payload : list A) (m : rmem) : option rmem :=
  b <- memcpy_elems (m_recv m) loc payload 0 (zlen payload); Some (set_recv m b).

Definition list_nat_eqb (a b : list nat) : bool :=
  if list_eq_dec Nat.eq_dec a b then true else false.

(** read all contributions to an Alltoallv; [None] = out of bounds *)
Fixpoint a2a_payloads (m : rmem) (args : list (Z * Z * Z * Z)) : option (list msg) :=
  match args with
  | [] => Some []
  | (sc, sd, _, _) :: t =>
      p <- zslice (m_send m) sd sc; ps <- a2a_payloads m t; Some (p :: ps)
  end.

(** receive side of Alltoallv on rank [r] *)
Fixpoint a2a_recv (c : chans) (r : nat) (g0 g : list nat) (args : list (Z * Z * Z * Z)) (m : rmem)
  : outcome rmem :=
  match g, args with
  | [], [] => Ok m
  | s :: g', (_, _, rc, rd) :: args' =>
      match mget (cch c) s r with
      | [] => Disabled
      | (gt, pl) :: _ =>
          if negb (list_nat_eqb gt g0) then Bad            (* members disagree on the group *)
          else if negb (zlen pl =? rc) then Bad            (* counts do not match *)
          else match wrm rd pl m with
               | None => Bad
               | Some m' => a2a_recv c r g0 g' args' m'
               end
      end
  | _, _ => Bad
  end.

(** every member has entered the collective *)
Definition a2a_ready (c : chans) (r : nat) (g : list nat) : bool :=
  forallb (fun s => match mget (cch c) s r with [] => false | _ => true end) g.

(** mark the first undelivered request for source [p] *)
Fixpoint mark_first (p : nat) (rs : list req) : option (req * list req) :=
  match rs with
  | [] => None
  | r :: t =>
      if Nat.eqb (rq_src r) p && negb (rq_done r)
      then Some (r, mkreq (rq_id r) (rq_src r) (rq_loc r) (rq_len r) true :: t)
      else '(x, t') <- mark_first p t; Some (x, r :: t')
  end.

(** remove the completed request [id] *)
Fixpoint take_done (id : nat) (rs : list req) : option (list req) :=
  match rs with
  | [] => None
  | r :: t =>
      if Nat.eqb (rq_id r) id then (if rq_done r then Some t else None)
      else t' <- take_done id t; Some (r :: t')
  end.

Definition owner (a : label) : nat :=
  match a with Lrank r => r | Ldeliver _ q => q | Lwait r _ => r end.

(** step of one core; reads the channels, returns the new core and the channel effect *)
Definition lstep (a : label) (c : core) (k : chans) : outcome (core * effect) :=
  match a with
  | Lrank r =>
    match c_prog c with
    | [] => Disabled
    | IIrecv id src loc len :: p =>
        Ok (mkcore p (c_mem c) (c_reqs c ++ [mkreq id src loc len false]) (c_busy c) (c_sent c), ENone)
    | ILocal f :: p =>
        match f (c_mem c) with
        | None => Bad
        | Some m => Ok (mkcore p m (c_reqs c) (c_busy c) (c_sent c), ENone)
        end
    | ISend dst len :: p =>
        if c_busy c then
          if eager r (c_sent c) || match mget (ch k) r dst with [] => true | _ => false end
          then Ok (mkcore p (c_mem c) (c_reqs c) false (S (c_sent c)), ENone)
          else Disabled
        else
          match zslice (m_send (c_mem c)) 0 len with
          | None => Bad
          | Some pl =>
              if Nat.ltb dst P
              then Ok (mkcore (ISend dst len :: p) (c_mem c) (c_reqs c) true (c_sent c), ESend r dst pl)
              else Bad
          end
    | IWaitany h :: p =>
        match c_reqs c with [] => Bad | _ => Disabled end
    | IA2A g args :: p =>
        if c_busy c then
          if a2a_ready k r g then
            match a2a_recv k r g g args (c_mem c) with
            | Ok m => Ok (mkcore p m (c_reqs c) false (c_sent c), EPopC g r)
            | _ => Bad
            end
          else Disabled
        else if inb r g && forallb (fun s => Nat.ltb s P) g && Nat.eqb (length g) (length args) then
          match a2a_payloads (c_mem c) args with
          | None => Bad
          | Some pls => Ok (mkcore (IA2A g args :: p) (c_mem c) (c_reqs c) true (c_sent c), EContrib r g pls)
          end
        else Bad
    end
  | Ldeliver p q =>
      match mget (ch k) p q with
      | [] => Disabled
      | pl :: _ =>
          match mark_first p (c_reqs c) with
          | None => Disabled
          | Some (rq, rs) =>
              if rq_len rq <? zlen pl then Bad
              else match wrm (rq_loc rq) pl (c_mem c) with
                   | None => Bad
                   | Some m => Ok (mkcore (c_prog c) m rs (c_busy c) (c_sent c), EPop p q)
                   end
          end
      end
  | Lwait r id =>
      match c_prog c with
      | IWaitany h :: p =>
          match take_done id (c_reqs c) with
          | None => Disabled
          | Some rs =>
              match h id (c_mem c) with
              | None => Bad
              | Some m => Ok (mkcore p m rs (c_busy c) (c_sent c), ENone)
              end
          end
      | _ => Disabled
      end
  end.

Definition step (a : label) (s : gstate) : outcome gstate :=
  match nth_error (s_core s) (owner a) with
  | None => Disabled
  | Some c =>
      match lstep a c (s_ch s) with
      | Disabled => Disabled
      | Bad => Bad
      | Ok (c', e) => Ok (mkstate (lupd (s_core s) (owner a) c') (apply_eff e (s_ch s)))
      end
  end.

(** executions *)
Inductive run : gstate -> list label -> gstate -> Prop :=
| run_nil s : run s [] s
| run_cons s a s1 l s2 : step a s = Ok s1 -> run s1 l s2 -> run s (a :: l) s2.

(** a rank has finished its program and nothing is pending on it *)
Definition core_done (c : core) : Prop := c_prog c = [] /\ c_reqs c = [] /\ c_busy c = false.

Definition all_done (s : gstate) : Prop := forall c, In c (s_core s) -> core_done c.

Definition empty_chans : chans := mkchans (mbuild P (fun _ _ => [])) (mbuild P (fun _ _ => [])).

(** initial state: rank r runs [progs r] on memory [mems r] *)
Definition init (progs : list (list instr)) (mems : list rmem) : gstate :=
  mkstate (map (fun '(p, m) => mkcore p m [] false 0%nat) (combine progs mems)) empty_chans.

Definition mems_of (s : gstate) : list rmem := map c_mem (s_core s).

End Sched.

Arguments Disabled {X}. Arguments Bad {X}. Arguments Ok {X} x.
