(** Oom.v : model of what the library does when an allocation fails.

    The functions are seen as the sequence of their allocations, tests, uses and
    releases of arrays, in source order; the numbers in the arrays are left out
    (Remap.v, Fft3d.v), the sizes are those of Life.v.  The k-th call of malloc,
    posix_memalign, realloc or new made by the rank fails iff [fails k].

    Simplifications: a failing [new] throws std::bad_alloc, which nothing catches,
    and ends the process with that name; error->one() ends the process
    (MPI_Abort, error.cpp:50-56); a use stands for a loop over the whole array. *)

From Coq Require Import String.
From Verif Require Import Base Setup3d Life.
Local Open Scope string_scope.
Local Open Scope list_scope.
Local Open Scope Z_scope.

(** an array of object number [fst v]; 0 is the FFT *)
Definition avar : Type := (nat * string)%type.
Inductive pst := Undef | Null | Live | Dead.
Inductive act :=
| Alloc (v : avar) (bytes : Z)         (* v = smalloc(bytes) or malloc(bytes), memory.cpp:43-62 *)
| New (v : avar)                       (* v = new ... *)
| Realloc (v : avar) (bytes : Z)       (* v = srealloc(v,bytes), memory.cpp:68-92 *)
| Check (vs : list avar) (msg : string)(* if (!v1 || !v2 ...) error->one(msg) *)
| Use (v : avar)                       (* an element of v is read or written *)
| Free (v : avar).                     (* sfree(v), free(v), memory.cpp:98-109 *)

Inductive aout := AHalt (msg : string) | AUB | ADone (k : nat) (e : avar -> pst).

Definition veqb (a b : avar) : bool := Nat.eqb (fst a) (fst b) && String.eqb (snd a) (snd b).
Definition upd (e : avar -> pst) (v : avar) (s : pst) : avar -> pst := fun w => if veqb v w then s else e w.
Definition isnull (e : avar -> pst) (v : avar) : bool := match e v with Null => true | _ => false end.

Section Run.
Variable fails : nat -> bool.
Definition step1 (k : nat) (e : avar -> pst) (a : act) : aout :=
  match a with
  | Alloc v b => if b =? 0 then ADone k (upd e v Null) else ADone (S k) (upd e v (if fails k then Null else Live))
  | New v => if fails k then AHalt "std::bad_alloc" else ADone (S k) (upd e v Live)
  | Realloc v b =>
    match e v with
    | Undef | Dead => AUB
    | _ => if b =? 0 then ADone k (upd e v Null) else ADone (S k) (upd e v (if fails k then Null else Live))
    end
  | Check vs msg => if existsb (isnull e) vs then AHalt msg else ADone k e
  | Use v => match e v with Live => ADone k e | _ => AUB end
  | Free v => match e v with Undef | Dead => AUB | Null => ADone k e | Live => ADone k (upd e v Dead) end
  end.
Fixpoint run (k : nat) (e : avar -> pst) (l : list act) : aout :=
  match l with
  | [] => ADone k e
  | a :: t => match step1 k e a with ADone k' e' => run k' e' t | x => x end
  end.
End Run.

(** ** Remap3d, Remap2d *)
Section Lib.
(** bytes of FFT_SCALAR, of a pack plan, of MPI_Request, of an extent *)
Variable esize plsize rqsize xsize nprocs : Z.

Definition send_names : list string := ["send_offset"; "send_size"; "send_proc"; "packplan"].
Definition recv_names : list string := ["recv_offset"; "recv_size"; "recv_proc"; "recv_bufloc"; "request"; "unpackplan"].
Definition args_names : list string := ["sendcnts"; "senddispls"; "sendmap"; "recvcnts"; "recvdispls"; "recvmap"].
Definition vars (o : nat) (l : list string) : list avar := map (pair o) l.
Definition when (n : Z) (l : list act) : list act := if n =? 0 then [] else l.

(** sendbuf and recvbuf, remap3d.cpp:419-426, 518-525, remap2d.cpp:372-379, 471-478, fft3d.cpp:466-476, fft2d.cpp:435-445 *)
Definition buffers (o : nat) (memflag ssize rsize : Z) : list act :=
  when memflag (
    when ssize [Alloc (o, "sendbuf") (ssize * esize); Check [(o, "sendbuf")] "Could not allocate sendbuf array"] ++
    when rsize [Alloc (o, "recvbuf") (rsize * esize); Check [(o, "recvbuf")] "Could not allocate recvbuf array"]).

(** setup: remap3d.cpp:217-580, remap2d.cpp:204-533.  pgroup is written when there is a message, that is, when the group is not
    empty; MPI_Group_incl reads it. *)
Definition remap_setup (o : nat) (coll memflag : Z) (c : rcnt) : list act :=
  [Alloc (o, "inarray") (nprocs * xsize); Check [(o, "inarray")] "Could not allocate inarray";
   Alloc (o, "outarray") (nprocs * xsize); Check [(o, "outarray")] "Could not allocate outarray";
   Use (o, "outarray")] ++
  when (c_nsend c) (
    [Alloc (o, "send_offset") (c_nsend c * 4); Alloc (o, "send_size") (c_nsend c * 4);
     Alloc (o, "send_proc") (c_nsend c * 4); Alloc (o, "packplan") (c_nsend c * plsize);
     Check (vars o send_names) "Could not allocate remap send info"] ++ map Use (vars o send_names)) ++
  [Use (o, "inarray")] ++
  when (c_nrecv c) (
    [Alloc (o, "recv_offset") (c_nrecv c * 4); Alloc (o, "recv_size") (c_nrecv c * 4); Alloc (o, "recv_proc") (c_nrecv c * 4);
     Alloc (o, "recv_bufloc") (c_nrecv c * 4); Alloc (o, "request") (c_nrecv c * rqsize); Alloc (o, "unpackplan") (c_nrecv c * plsize);
     Check (vars o recv_names) "Could not allocate remap recv info"] ++ map Use (vars o recv_names)) ++
  (if coll =? 0 then buffers o memflag (c_ssize c) (c_rsize c)
   else
     [Alloc (o, "pflag") (nprocs * 4); Use (o, "pflag"); Alloc (o, "pgroup") (nprocs * 4)] ++
     when (c_ngroup c) [Use (o, "pgroup")] ++
     [Realloc (o, "pgroup") (c_ngroup c * 4)] ++
     when (c_ngroup c) [Use (o, "pgroup")] ++
     [Free (o, "pflag")] ++
     when (c_ngroup c) [Use (o, "pgroup")] ++
     buffers o memflag (c_ssize c) (c_rsize c) ++
     map (fun v => Alloc v (4 * c_ngroup c)) (vars o args_names) ++
     when (c_ngroup c) (Check (vars o args_names) "Could not allocate all2all args" :: map Use (vars o args_names))) ++
  [Free (o, "inarray"); Free (o, "outarray")].

(** remap: remap3d.cpp:629-711, remap2d.cpp:582-664.  With memoryflag = 0 the buffers are the caller's. *)
Definition remap_use (o : nat) (coll memflag : Z) (c : rcnt) : list act :=
  when memflag (when (c_ssize c) [Use (o, "sendbuf")] ++ when (c_rsize c) [Use (o, "recvbuf")]) ++
  when (c_nsend c) (map Use (vars o send_names)) ++
  when (c_nrecv c) (map Use (vars o recv_names)) ++
  (if coll =? 0 then [] else when (c_ngroup c) (map Use (vars o args_names))).

(** ** FFT3d, FFT2d *)
(** new Remap3d(world) with its Memory and Error, then setup; fft3d.cpp:1146-1154, remap3d.cpp:81-82 *)
Definition remap_new (o : nat) (k : Z * rcnt) : list act :=
  [New (o, "Remap"); New (o, "memory"); New (o, "error")] ++ remap_setup o (fst k) 0 (snd k).
(** a struct Remap with one or two remaps: objects 2i+1 and 2i+2 *)
Definition pair_new (i : nat) (k : option rmk) : list act :=
  match k with
  | None => []
  | Some k => [New (0%nat, "struct Remap")] ++ remap_new (S (2 * i)) (k_main k) ++
              match k_extra k with None => [] | Some x => remap_new (S (S (2 * i))) x end
  end.
Fixpoint pairs_new (i : nat) (ks : list (option rmk)) : list act :=
  match ks with [] => [] | k :: t => pair_new i k ++ pairs_new (S i) t end.

(** kiss_fft_alloc, kissfft.h:435-462: malloc, and initialisation if it succeeded *)
Definition plan (name : string) (n : Z) : list act := [Alloc (0%nat, name) (264 + 2 * esize * n)].
(** setup_ffts, fft3d.cpp:1643-1668, fft2d.cpp:1452-1466 *)
Definition plans (dims : list Z) : list act :=
  match dims with
  | [x; y; z] => plan "fast_forward" x ++ plan "fast_backward" x ++
                 (if y =? x then [] else plan "mid_forward" y ++ plan "mid_backward" y) ++
                 (if (z =? x) || (z =? y) then [] else plan "slow_forward" z ++ plan "slow_backward" z)
  | [x; y] => plan "fast_forward" x ++ plan "fast_backward" x ++
              (if y =? x then [] else plan "slow_forward" y ++ plan "slow_backward" y)
  | _ => []
  end.

(** setup from the creation of the remaps on: fft3d.cpp:396-476, fft2d.cpp:384-445 *)
Definition fft_setup (memflag : Z) (sh : shape) : list act :=
  pairs_new 0 (s_remaps sh) ++
  map (fun _ => New (0%nat, "FFT1d")) (s_dims sh) ++
  plans (s_dims sh) ++
  buffers 0 memflag (snd (fst (s_sizes sh))) (snd (s_sizes sh)).

(** which plan the 1d transforms of a dimension use *)
Definition plan_of (fwd : bool) (dims : list Z) (d : nat) : avar :=
  let f := fun s => (0%nat, if fwd then String.append s "_forward" else String.append s "_backward") in
  match dims, d with
  | _, 0%nat => f "fast"
  | [x; y; z], 1%nat => f (if y =? x then "fast" else "mid")
  | [x; y; z], _ => f (if z =? x then "fast" else if z =? y then (if y =? x then "fast" else "mid") else "slow")
  | x :: y :: _, _ => f (if y =? x then "fast" else "slow")
  | _, _ => f "fast"
  end.
(** perform_ffts on [lines] lines, each kiss_fft in place with a temporary array (kissfft.h:464-476, without
    KISS_FFT_USE_ALLOCA); a transform without lines reads no plan.  [lines] lists the lines of each dimension. *)
Definition one_line (p : avar) (n : Z) : list act :=
  [Use p; Alloc (0%nat, "tmpbuf") (2 * esize * n); Use (0%nat, "tmpbuf"); Free (0%nat, "tmpbuf")].
Definition ffts_use (fwd : bool) (dims : list Z) (lines : list nat) : list act :=
  List.concat (map (fun dl => List.concat (repeat (one_line (plan_of fwd dims (fst dl)) (nth (fst dl) dims 0)) (snd dl))) (combine (seq 0 (List.length lines)) lines)).
Definition pair_use (i : nat) (k : option rmk) : list act :=
  match k with
  | None => []
  | Some k => remap_use (S (2 * i)) (fst (k_main k)) 0 (snd (k_main k)) ++
              match k_extra k with None => [] | Some x => remap_use (S (S (2 * i))) (fst x) 0 (snd x) end
  end.
Fixpoint pairs_use (i : nat) (ks : list (option rmk)) : list act :=
  match ks with [] => [] | k :: t => pair_use i k ++ pairs_use (S i) t end.
(** compute: every remap of the object and the 1d transforms (a compute in one direction performs a subset of the remaps, in an
    order that does not matter here); fft3d.cpp:560-605, fft2d.cpp:526-565 *)
Definition fft_compute (fwd : bool) (memflag : Z) (sh : shape) (lines : list nat) : list act :=
  when memflag (when (snd (fst (s_sizes sh))) [Use (0%nat, "sendbuf")] ++ when (snd (s_sizes sh)) [Use (0%nat, "recvbuf")]) ++
  pairs_use 0 (s_remaps sh) ++ ffts_use fwd (s_dims sh) lines.

(** the array of tune: srealloc and zero fill when the size grows, fft3d.cpp:774-779, fft2d.cpp:725-730 *)
Definition tune_data (old new : Z) : list act :=
  if old <? new then [Realloc (0%nat, "data") (new * 2 * esize); Use (0%nat, "data")] else [].
End Lib.

(** ** specification *)
(** the arrays a program tries to allocate, in order; a request for 0 bytes is not passed on *)
Definition attempt (a : act) : list avar :=
  match a with
  | Alloc v b | Realloc v b => if b =? 0 then [] else [v]
  | New v => [v]
  | _ => []
  end.
Definition attempts (l : list act) : list avar := flat_map attempt l.

(** the first of the listed attempts that fails and satisfies [P]; the first in the list is attempt number [k] *)
Fixpoint first_failing (P : avar -> bool) (fails : nat -> bool) (k : nat) (l : list avar) : option avar :=
  match l with
  | [] => None
  | v :: t => if fails k && P v then Some v else first_failing P fails (S k) t
  end.

(** the message that reports the failure of an array; None: there is none *)
Definition report (v : avar) : option string :=
  let s := snd v in
  let is := fun l => existsb (String.eqb s) l in
  if is ["inarray"] then Some "Could not allocate inarray"
  else if is ["outarray"] then Some "Could not allocate outarray"
  else if is send_names then Some "Could not allocate remap send info"
  else if is recv_names then Some "Could not allocate remap recv info"
  else if is args_names then Some "Could not allocate all2all args"
  else if is ["sendbuf"] then Some "Could not allocate sendbuf array"
  else if is ["recvbuf"] then Some "Could not allocate recvbuf array"
  else if is ["Remap"; "memory"; "error"; "struct Remap"; "FFT1d"] then Some "std::bad_alloc"
  else None.
Definition verdict (v : avar) : aout := match report v with Some m => AHalt m | None => AUB end.

Definition is_plan (v : avar) : bool :=
  existsb (String.eqb (snd v)) ["fast_forward"; "fast_backward"; "mid_forward"; "mid_backward"; "slow_forward"; "slow_backward"].

(** failures that matter: pgroup of a remap without messages is never read *)
Definition serious_remap (c : rcnt) (v : avar) : bool := negb ((c_ngroup c =? 0) && String.eqb (snd v) "pgroup").
(** the remap with object number [o] *)
Definition remap_of (sh : shape) (o : nat) : option (Z * rcnt) :=
  match nth_error (s_remaps sh) (Nat.div2 (pred o)) with
  | Some (Some k) => if Nat.even o then k_extra k else Some (k_main k)
  | _ => None
  end.
(** the same for an FFT, whose setup does not read the plans *)
Definition serious_fft (sh : shape) (v : avar) : bool :=
  negb (is_plan v) && match remap_of sh (fst v) with Some k => serious_remap (snd k) v | None => true end.
(** no remap of the object uses collective communication *)
Definition p2p_only (sh : shape) : Prop := forall o k, remap_of sh o = Some k -> fst k = 0.
