(** Wrap.v : the C and Fortran interface functions (src/fft3d_wrap.cpp, src/fft2d_wrap.cpp, src/remap3d_wrap.cpp,
    src/remap2d_wrap.cpp).  create, destroy, setup_memory, compute, only_* and remap of these files hand their
    arguments unchanged to the constructor, destructor or member function and are not repeated here. *)

From Coq Require Import QArith String.
From Verif Require Import Base Spec Pack3d Pack2d Sched Remap Remap3d Remap2d RemapThms Layout Setup3d Setup2d Life Tune Proto MemUse.
Open Scope Z_scope.

(** ** setup and tune: what reaches the member function *)

Definition INT_MIN : Z := - 2 ^ 31.
(** x-1 for an int x; overflow is undefined *)
Definition dec (x : Z) : option Z := if x =? INT_MIN then None else Some (x - 1).

(** the expressions in_ilo-1,...,in_khi-1 (and out_...), fft3d_wrap.cpp:231-232, 336-337, remap3d_wrap.cpp:103-104 *)
Definition dec_bounds3 (b : box3) : option box3 :=
  a <- dec (ilo b); c <- dec (ihi b); d <- dec (jlo b); e <- dec (jhi b); f <- dec (klo b); g <- dec (khi b);
  Some (mkbox3 a c d e f g).
(** fft2d_wrap.cpp:219-220, 320-321, remap2d_wrap.cpp:99-100 *)
Definition dec_bounds2 (b : box2) : option box2 :=
  a <- dec (ilo2 b); c <- dec (ihi2 b); d <- dec (jlo2 b); e <- dec (jhi2 b);
  Some (mkbox2 a c d e).

Fixpoint map_opt {X Y} (f : X -> option Y) (l : list X) : option (list Y) :=
  match l with
  | [] => Some []
  | x :: t => y <- f x; r <- map_opt f t; Some (y :: r)
  end.

(** the arguments of all ranks: the r-th element belongs to rank r *)
Definition at3 (l : list box3) (r : nat) : box3 := nth r l (mkbox3 0 (-1) 0 (-1) 0 (-1)).
Definition at2 (l : list box2) (r : nat) : box2 := nth r l (mkbox2 0 (-1) 0 (-1)).

(** fft3d_setup, fft3d_wrap.cpp:192-211: the outcome on rank [r] for given settings; the three sizes of the
    result are what is stored through the caller's pointers (208-210) *)
Definition fft3d_setup ar (N : Z * Z * Z) (ins outs : list box3) (permute : Z) (r : nat) : settings -> sres shape :=
  setup_shape3 ar (List.length ins) N permute (at3 ins) (at3 outs) r.
(** fft3d_setup_fortran, fft3d_wrap.cpp:218-237 *)
Definition fft3d_setup_fortran ar (N : Z * Z * Z) (ins outs : list box3) (permute : Z) (r : nat) : settings -> sres shape :=
  match map_opt dec_bounds3 ins, map_opt dec_bounds3 outs with
  | Some i, Some o => setup_shape3 ar (List.length i) N permute (at3 i) (at3 o) r
  | _, _ => fun _ => SUB
  end.
(** fft2d_setup, fft2d_wrap.cpp:184-201, and fft2d_setup_fortran, 208-225 *)
Definition fft2d_setup ar (N : Z * Z) (ins outs : list box2) (permute : Z) (r : nat) : settings -> sres shape :=
  setup_shape2 ar (List.length ins) N permute (at2 ins) (at2 outs) r.
Definition fft2d_setup_fortran ar (N : Z * Z) (ins outs : list box2) (permute : Z) (r : nat) : settings -> sres shape :=
  match map_opt dec_bounds2 ins, map_opt dec_bounds2 outs with
  | Some i, Some o => setup_shape2 ar (List.length i) N permute (at2 i) (at2 o) r
  | _, _ => fun _ => SUB
  end.

(** the call on the object of rank [r]: fft3d_setup(_fortran) *)
Definition call_setup3 (fortran : bool) ar N ins outs permute r (st : settings) : call :=
  CSetup ((if fortran then fft3d_setup_fortran else fft3d_setup) ar N ins outs permute r st).
Definition call_setup2 (fortran : bool) ar N ins outs permute r (st : settings) : call :=
  CSetup ((if fortran then fft2d_setup_fortran else fft2d_setup) ar N ins outs permute r st).
(** fft3d_tune, fft3d_wrap.cpp:294-315, fft3d_tune_fortran, 322-343: tune() calls setup() with the bounds it was given *)
Definition call_tune3 (fortran : bool) ar N ins outs permute r clk root flag niter tmax tflag : call :=
  CTune ((if fortran then fft3d_setup_fortran else fft3d_setup) ar N ins outs permute r) clk root flag niter tmax tflag.
(** fft2d_tune, fft2d_wrap.cpp:282-301, fft2d_tune_fortran, 308-327 *)
Definition call_tune2 (fortran : bool) ar N ins outs permute r clk root flag niter tmax tflag : call :=
  CTune ((if fortran then fft2d_setup_fortran else fft2d_setup) ar N ins outs permute r) clk root flag niter tmax tflag.

(** remap3d_setup, remap3d_wrap.cpp:75-87: the plan of rank [r] and the memory behaviour of the object *)
Definition remap3d_setup (coll : bool) (pack : Z) (ins outs : list box3) (nqty permute : Z) (r : nat) : option (@rplan pack_plan_3d) :=
  setup3 (List.length ins) coll pack nqty permute (at3 ins) (at3 outs) r.
(** remap3d_setup_fortran, remap3d_wrap.cpp:94-106 *)
Definition remap3d_setup_fortran (coll : bool) (pack : Z) (ins outs : list box3) (nqty permute : Z) (r : nat) : option (@rplan pack_plan_3d) :=
  i <- map_opt dec_bounds3 ins; o <- map_opt dec_bounds3 outs;
  setup3 (List.length i) coll pack nqty permute (at3 i) (at3 o) r.
(** remap2d_setup, remap2d_wrap.cpp:75-85, and remap2d_setup_fortran, 92-102 *)
Definition remap2d_setup (coll : bool) (pack : Z) (ins outs : list box2) (nqty permute : Z) (r : nat) : option (@rplan pack_plan_2d) :=
  setup2 (List.length ins) coll pack nqty permute (at2 ins) (at2 outs) r.
Definition remap2d_setup_fortran (coll : bool) (pack : Z) (ins outs : list box2) (nqty permute : Z) (r : nat) : option (@rplan pack_plan_2d) :=
  i <- map_opt dec_bounds2 ins; o <- map_opt dec_bounds2 outs;
  setup2 (List.length i) coll pack nqty permute (at2 i) (at2 o) r.

(** ** set and get *)
Open Scope string_scope.

(** the public variables of class FFT3d, fft3d.h:27-50.  Class FFT2d (fft2d.h:27-49) has no npfast3, npmid*, npslow3,
    npbrick3, tremap4; the 2d functions below do not touch these fields. *)
Record pub := mkpub {
  v_scaled : Z; v_remaponly : Z; v_permute : Z; v_collective : Z; v_exchange : Z; v_packflag : Z; v_memoryflag : Z;
  v_collective_bp : Z; v_collective_pp : Z; v_memusage : Z;
  v_npfast1 : Z; v_npfast2 : Z; v_npfast3 : Z; v_npmid1 : Z; v_npmid2 : Z; v_npmid3 : Z;
  v_npslow1 : Z; v_npslow2 : Z; v_npslow3 : Z; v_npbrick1 : Z; v_npbrick2 : Z; v_npbrick3 : Z;
  v_ntrial : Z; v_npertrial : Z; v_cbest : Z; v_ebest : Z; v_pbest : Z;
  v_cflags : list Z; v_eflags : list Z; v_pflags : list Z; v_besttime : Q; v_setuptime : Q;
  v_tfft : list Q; v_t1d : list Q; v_tremap : list Q;
  v_tremap1 : list Q; v_tremap2 : list Q; v_tremap3 : list Q; v_tremap4 : list Q;
  v_fft1d : string; v_precision : string }.

(** assignment to one of the six settings *)
Definition with_six (scaled remaponly collective exchange packflag memoryflag : Z) (p : pub) : pub :=
  mkpub scaled remaponly (v_permute p) collective exchange packflag memoryflag
    (v_collective_bp p) (v_collective_pp p) (v_memusage p)
    (v_npfast1 p) (v_npfast2 p) (v_npfast3 p) (v_npmid1 p) (v_npmid2 p) (v_npmid3 p)
    (v_npslow1 p) (v_npslow2 p) (v_npslow3 p) (v_npbrick1 p) (v_npbrick2 p) (v_npbrick3 p)
    (v_ntrial p) (v_npertrial p) (v_cbest p) (v_ebest p) (v_pbest p)
    (v_cflags p) (v_eflags p) (v_pflags p) (v_besttime p) (v_setuptime p)
    (v_tfft p) (v_t1d p) (v_tremap p) (v_tremap1 p) (v_tremap2 p) (v_tremap3 p) (v_tremap4 p)
    (v_fft1d p) (v_precision p).

(** fft3d_set, fft3d_wrap.cpp:64-74; fft2d_set, fft2d_wrap.cpp:63-73, has the same body *)
Definition fft_set (p : pub) (keyword : string) (value : Z) : pub :=
  if keyword =? "collective" then
    with_six (v_scaled p) (v_remaponly p) value (v_exchange p) (v_packflag p) (v_memoryflag p) p
  else if keyword =? "exchange" then
    with_six (v_scaled p) (v_remaponly p) (v_collective p) value (v_packflag p) (v_memoryflag p) p
  else if keyword =? "pack" then
    with_six (v_scaled p) (v_remaponly p) (v_collective p) (v_exchange p) value (v_memoryflag p) p
  else if keyword =? "memory" then
    with_six (v_scaled p) (v_remaponly p) (v_collective p) (v_exchange p) (v_packflag p) value p
  else if keyword =? "scale" then
    with_six value (v_remaponly p) (v_collective p) (v_exchange p) (v_packflag p) (v_memoryflag p) p
  else if keyword =? "remaponly" then
    with_six (v_scaled p) value (v_collective p) (v_exchange p) (v_packflag p) (v_memoryflag p) p
  else p.

(** fft3d_get_int, fft3d_wrap.cpp:80-103 *)
Definition fft3d_get_int (p : pub) (keyword : string) : Z :=
  if keyword =? "collective" then v_collective p
  else if keyword =? "exchange" then v_exchange p
  else if keyword =? "pack" then v_packflag p
  else if keyword =? "npfast1" then v_npfast1 p
  else if keyword =? "npfast2" then v_npfast2 p
  else if keyword =? "npfast3" then v_npfast3 p
  else if keyword =? "npmid1" then v_npmid1 p
  else if keyword =? "npmid2" then v_npmid2 p
  else if keyword =? "npmid3" then v_npmid3 p
  else if keyword =? "npslow1" then v_npslow1 p
  else if keyword =? "npslow2" then v_npslow2 p
  else if keyword =? "npslow3" then v_npslow3 p
  else if keyword =? "npbrick1" then v_npbrick1 p
  else if keyword =? "npbrick2" then v_npbrick2 p
  else if keyword =? "npbrick3" then v_npbrick3 p
  else if keyword =? "ntrial" then v_ntrial p
  else if keyword =? "npertrial" then v_npertrial p
  else (-1)%Z.
(** fft2d_get_int, fft2d_wrap.cpp:79-96 *)
Definition fft2d_get_int (p : pub) (keyword : string) : Z :=
  if keyword =? "collective" then v_collective p
  else if keyword =? "exchange" then v_exchange p
  else if keyword =? "pack" then v_packflag p
  else if keyword =? "npfast1" then v_npfast1 p
  else if keyword =? "npfast2" then v_npfast2 p
  else if keyword =? "npslow1" then v_npslow1 p
  else if keyword =? "npslow2" then v_npslow2 p
  else if keyword =? "npbrick1" then v_npbrick1 p
  else if keyword =? "npbrick2" then v_npbrick2 p
  else if keyword =? "ntrial" then v_ntrial p
  else if keyword =? "npertrial" then v_npertrial p
  else (-1)%Z.
(** fft3d_wrap.cpp:109-116, fft2d_wrap.cpp:102-109 *)
Definition fft_get_double (p : pub) (keyword : string) : Q :=
  if keyword =? "setuptime" then v_setuptime p else inject_Z (-1).
(** fft3d_wrap.cpp:122-129, fft2d_wrap.cpp:115-122 *)
Definition fft_get_int64 (p : pub) (keyword : string) : Z :=
  if keyword =? "memusage" then v_memusage p else (-1)%Z.
(** fft3d_wrap.cpp:135-148, fft2d_wrap.cpp:128-141: the returned pointer (None: NULL) and the value stored in *len
    (None: nothing stored) *)
Definition fft_get_string (p : pub) (keyword : string) : option string * option Z :=
  if keyword =? "fft1d" then (Some (v_fft1d p), Some (Z.of_nat (String.length (v_fft1d p))))
  else if keyword =? "precision" then (Some (v_precision p), Some (Z.of_nat (String.length (v_precision p))))
  else (None, None).
(** fft3d_wrap.cpp:154-165, fft2d_wrap.cpp:147-158 *)
Definition fft_get_int_vector (p : pub) (keyword : string) : option (list Z) * option Z :=
  let len := Some (v_ntrial p) in
  if keyword =? "cflags" then (Some (v_cflags p), len)
  else if keyword =? "eflags" then (Some (v_eflags p), len)
  else if keyword =? "pflags" then (Some (v_pflags p), len)
  else (None, len).
(** fft3d_wrap.cpp:171-186 *)
Definition fft3d_get_double_vector (p : pub) (keyword : string) : option (list Q) * option Z :=
  let len := Some (v_ntrial p) in
  if keyword =? "tfft" then (Some (v_tfft p), len)
  else if keyword =? "t1d" then (Some (v_t1d p), len)
  else if keyword =? "tremap" then (Some (v_tremap p), len)
  else if keyword =? "tremap1" then (Some (v_tremap1 p), len)
  else if keyword =? "tremap2" then (Some (v_tremap2 p), len)
  else if keyword =? "tremap3" then (Some (v_tremap3 p), len)
  else if keyword =? "tremap4" then (Some (v_tremap4 p), len)
  else (None, len).
(** fft2d_wrap.cpp:164-178 *)
Definition fft2d_get_double_vector (p : pub) (keyword : string) : option (list Q) * option Z :=
  let len := Some (v_ntrial p) in
  if keyword =? "tfft" then (Some (v_tfft p), len)
  else if keyword =? "t1d" then (Some (v_t1d p), len)
  else if keyword =? "tremap" then (Some (v_tremap p), len)
  else if keyword =? "tremap1" then (Some (v_tremap1 p), len)
  else if keyword =? "tremap2" then (Some (v_tremap2 p), len)
  else if keyword =? "tremap3" then (Some (v_tremap3 p), len)
  else (None, len).

(** the public variables of class Remap3d (remap3d.h:27-29) and Remap2d (remap2d.h:27-29), and the private memoryflag *)
Record rpub := mkrpub { w_collective : Z; w_packflag : Z; w_memusage : Z; w_memoryflag : Z }.
(** remap3d_set, remap3d_wrap.cpp:63-69; remap2d_set, remap2d_wrap.cpp:63-69 *)
Definition remap_set (p : rpub) (keyword : string) (value : Z) : rpub :=
  if keyword =? "collective" then mkrpub value (w_packflag p) (w_memusage p) (w_memoryflag p)
  else if keyword =? "pack" then mkrpub (w_collective p) value (w_memusage p) (w_memoryflag p)
  else p.
