(** TestOpt.v : model of options() and output() of test/test3d.cpp and test/test2d.cpp.

    The two versions of options() differ in the number d of grid dimensions and in the test of
    nloop.  A string is a [string] without its terminating zero; args[] is a list, and reading
    outside it is undefined.  error_all (test3d.cpp:1029-1038) waits for all ranks, prints the message on rank 0, calls
    MPI_Finalize and exits: outcome [OErr].  Undefined: [OUB].
    Simplifications: atof is an arbitrary function to the rationals; atoi of a number that is
    not an int is undefined; output to the screen is the list of lines, one rank after the other
    (the ranks pass a token). *)

From Coq Require Import QArith String Ascii.
From Verif Require Import Base Spec Layout Setup3d Setup2d TestProg.
Local Open Scope Z_scope.

Inductive outcome (A : Type) : Type := OErr (msg : string) | OUB | OOk (a : A).
Arguments OErr {A} msg.
Arguments OUB {A}.
Arguments OOk {A} a.

(** ** atoi *)
Definition code (c : ascii) : Z := Z.of_nat (nat_of_ascii c).
Definition is_space (c : ascii) : bool := (code c =? 32) || ((9 <=? code c) && (code c <=? 13)).
Fixpoint skip (s : string) : string :=
  match s with String c t => if is_space c then skip t else s | EmptyString => s end.
Fixpoint digits (acc : Z) (s : string) : Z :=
  match s with
  | String c t => if (48 <=? code c) && (code c <=? 57) then digits (10 * acc + (code c - 48)) t else acc
  | EmptyString => acc
  end.
Definition atoi (s : string) : option Z :=
  match skip s with
  | String c t => if code c =? 45 then c32 (- digits 0 t) else if code c =? 43 then c32 (digits 0 t) else c32 (digits 0 (String c t))
  | EmptyString => Some 0
  end.

(** ** the globals set by options(), test3d.cpp:272-285, test2d.cpp:271-284; a grid is a list of d numbers, the
    seed is None as long as -i has not set it, the tune numbers are None without -tune *)
Record opts := mkopts { o_g : list Z; o_pin : list Z; o_pout : list Z; o_nloop : Z; o_init : init; o_seed : option Z;
  o_tune : option (Z * Q * Z); o_mode : Z; o_c : Z; o_e : Z; o_p : Z; o_t : bool; o_r : bool; o_o : bool; o_v : bool }.

Definition SYNTAX : string := "Syntax".

Section Options.
(** d = 3 for test3d, 2 for test2d *)
Variables (d : nat) (atof : string -> Q) (nprocs me : Z) (args : list string).

Definition opts0 : opts :=
  mkopts (List.repeat 8 d) (List.repeat 0 d) (List.repeat 0 d) 1 ZERO None None 0 2 0 2 false false false false.

Definition arg {A} (i : Z) (k : string -> outcome A) : outcome A := match zget args i with Some s => k s | None => OUB end.
Definition num {A} (i : Z) (k : Z -> outcome A) : outcome A :=
  arg i (fun s => match atoi s with Some z => k z | None => OUB end).
Fixpoint nums {A} (m : nat) (i : Z) (k : list Z -> outcome A) : outcome A :=
  match m with O => k nil | S m => num i (fun z => nums m (i + 1) (fun l => k (z :: l))) end.
(** if (iarg+m > narg) error_all(syntax) *)
Definition need {A} (iarg m : Z) (k : outcome A) : outcome A := if zlen args <? iarg + m then OErr SYNTAX else k.

Definition set_g v o := mkopts v (o_pin o) (o_pout o) (o_nloop o) (o_init o) (o_seed o) (o_tune o) (o_mode o) (o_c o) (o_e o) (o_p o) (o_t o) (o_r o) (o_o o) (o_v o).
Definition set_pin v o := mkopts (o_g o) v (o_pout o) (o_nloop o) (o_init o) (o_seed o) (o_tune o) (o_mode o) (o_c o) (o_e o) (o_p o) (o_t o) (o_r o) (o_o o) (o_v o).
Definition set_pout v o := mkopts (o_g o) (o_pin o) v (o_nloop o) (o_init o) (o_seed o) (o_tune o) (o_mode o) (o_c o) (o_e o) (o_p o) (o_t o) (o_r o) (o_o o) (o_v o).
Definition set_nloop v o := mkopts (o_g o) (o_pin o) (o_pout o) v (o_init o) (o_seed o) (o_tune o) (o_mode o) (o_c o) (o_e o) (o_p o) (o_t o) (o_r o) (o_o o) (o_v o).
Definition set_init v o := mkopts (o_g o) (o_pin o) (o_pout o) (o_nloop o) v (o_seed o) (o_tune o) (o_mode o) (o_c o) (o_e o) (o_p o) (o_t o) (o_r o) (o_o o) (o_v o).
Definition set_seed v o := mkopts (o_g o) (o_pin o) (o_pout o) (o_nloop o) RANDOM (Some v) (o_tune o) (o_mode o) (o_c o) (o_e o) (o_p o) (o_t o) (o_r o) (o_o o) (o_v o).
Definition set_tune v o := mkopts (o_g o) (o_pin o) (o_pout o) (o_nloop o) (o_init o) (o_seed o) (Some v) (o_mode o) (o_c o) (o_e o) (o_p o) (o_t o) (o_r o) (o_o o) (o_v o).
Definition set_mode v o := mkopts (o_g o) (o_pin o) (o_pout o) (o_nloop o) (o_init o) (o_seed o) (o_tune o) v (o_c o) (o_e o) (o_p o) (o_t o) (o_r o) (o_o o) (o_v o).
Definition set_c v o := mkopts (o_g o) (o_pin o) (o_pout o) (o_nloop o) (o_init o) (o_seed o) (o_tune o) (o_mode o) v (o_e o) (o_p o) (o_t o) (o_r o) (o_o o) (o_v o).
Definition set_e v o := mkopts (o_g o) (o_pin o) (o_pout o) (o_nloop o) (o_init o) (o_seed o) (o_tune o) (o_mode o) (o_c o) v (o_p o) (o_t o) (o_r o) (o_o o) (o_v o).
Definition set_p v o := mkopts (o_g o) (o_pin o) (o_pout o) (o_nloop o) (o_init o) (o_seed o) (o_tune o) (o_mode o) (o_c o) (o_e o) v (o_t o) (o_r o) (o_o o) (o_v o).
Definition set_t o := mkopts (o_g o) (o_pin o) (o_pout o) (o_nloop o) (o_init o) (o_seed o) (o_tune o) (o_mode o) (o_c o) (o_e o) (o_p o) true (o_r o) (o_o o) (o_v o).
Definition set_r o := mkopts (o_g o) (o_pin o) (o_pout o) (o_nloop o) (o_init o) (o_seed o) (o_tune o) (o_mode o) (o_c o) (o_e o) (o_p o) (o_t o) true (o_o o) (o_v o).
Definition set_o o := mkopts (o_g o) (o_pin o) (o_pout o) (o_nloop o) (o_init o) (o_seed o) (o_tune o) (o_mode o) (o_c o) (o_e o) (o_p o) (o_t o) (o_r o) true (o_v o).
Definition set_v o := mkopts (o_g o) (o_pin o) (o_pout o) (o_nloop o) (o_init o) (o_seed o) (o_tune o) (o_mode o) (o_c o) (o_e o) (o_p o) (o_t o) (o_r o) (o_o o) true.

(** one branch of the while loop, test3d.cpp:290-370, test2d.cpp:289-366: the next iarg and the globals *)
Definition option1 (iarg : Z) (o : opts) : outcome (Z * opts) :=
  let D := Z.of_nat d in
  arg iarg (fun w =>
  if String.eqb w "-h" then OErr SYNTAX
  else if String.eqb w "-g" then need iarg (D + 1) (nums d (iarg + 1) (fun v => OOk (iarg + (D + 1), set_g v o)))
  else if String.eqb w "-pin" then need iarg (D + 1) (nums d (iarg + 1) (fun v => OOk (iarg + (D + 1), set_pin v o)))
  else if String.eqb w "-pout" then need iarg (D + 1) (nums d (iarg + 1) (fun v => OOk (iarg + (D + 1), set_pout v o)))
  else if String.eqb w "-n" then need iarg 2 (num (iarg + 1) (fun v => OOk (iarg + 2, set_nloop v o)))
  else if String.eqb w "-i" then need iarg 2 (arg (iarg + 1) (fun s =>
    if String.eqb s "zero" then OOk (iarg + 2, set_init ZERO o)
    else if String.eqb s "step" then OOk (iarg + 2, set_init STEP o)
    else if String.eqb s "index" then OOk (iarg + 2, set_init INDEX o)
    else num (iarg + 1) (fun v => match c32 (v + me) with Some v => OOk (iarg + 2, set_seed v o) | None => OUB end)))
  else if String.eqb w "-tune" then need iarg 4 (num (iarg + 1) (fun p => arg (iarg + 2) (fun m => num (iarg + 3) (fun e =>
    OOk (iarg + 4, set_tune (p, atof m, e) o)))))
  else if String.eqb w "-m" then need iarg 2 (num (iarg + 1) (fun v => OOk (iarg + 2, set_mode v o)))
  else if String.eqb w "-c" then need iarg 2 (arg (iarg + 1) (fun s =>
    if String.eqb s "point" then OOk (iarg + 2, set_c 0 o)
    else if String.eqb s "all" then OOk (iarg + 2, set_c 1 o)
    else if String.eqb s "combo" then OOk (iarg + 2, set_c 2 o) else OErr SYNTAX))
  else if String.eqb w "-e" then need iarg 2 (arg (iarg + 1) (fun s =>
    if String.eqb s "pencil" then OOk (iarg + 2, set_e 0 o)
    else if String.eqb s "brick" then OOk (iarg + 2, set_e 1 o) else OErr SYNTAX))
  else if String.eqb w "-p" then need iarg 2 (arg (iarg + 1) (fun s =>
    if String.eqb s "array" then OOk (iarg + 2, set_p 0 o)
    else if String.eqb s "ptr" then OOk (iarg + 2, set_p 1 o)
    else if String.eqb s "memcpy" then OOk (iarg + 2, set_p 2 o) else OErr SYNTAX))
  else if String.eqb w "-t" then OOk (iarg + 1, set_t o)
  else if String.eqb w "-r" then OOk (iarg + 1, set_r o)
  else if String.eqb w "-o" then OOk (iarg + 1, set_o o)
  else if String.eqb w "-v" then OOk (iarg + 1, set_v o)
  else OErr SYNTAX).

(** while (iarg < narg); [fuel] bounds the number of iterations, running out counts as [OUB] (C59: it never does) *)
Fixpoint parse (fuel : nat) (iarg : Z) (o : opts) : outcome opts :=
  if iarg <? zlen args then
    match fuel with
    | O => OUB
    | S fuel => match option1 iarg o with OOk (iarg, o) => parse fuel iarg o | OErr m => OErr m | OUB => OUB end
    end
  else OOk o.

(** ** sanity checks, test3d.cpp:374-397, test2d.cpp:370-393; inpx*inpy*inpz is an int expression *)
Definition prod32 (l : list Z) : option Z :=
  match l with nil => Some 1 | x :: l => fold_left (fun a y => a <- a; c32 (a * y)) l (Some x) end.
Definition check_grid (l : list Z) (k : outcome opts) : outcome opts :=
  if forallb (fun x => x =? 0) l then k
  else if existsb (fun x => x <=? 0) l then OErr "Invalid proc grid"
  else match prod32 l with
       | None => OUB
       | Some p => if p =? nprocs then k else OErr "Specified proc grid does not match nprocs"
       end.
Definition is_random (k : init) : bool := match k with RANDOM => true | _ => false end.
Definition seed_of (o : opts) : Z := match o_seed o with Some s => s | None => 0 end.
Definition stop (b : bool) (m : string) (k : outcome opts) : outcome opts := if b then OErr m else k.
(** test3d: nloop < 0, and nloop == 0 without tuning; test2d: nloop <= 0 *)
Definition bad_nloop (o : opts) : bool :=
  if (d =? 3)%nat then (o_nloop o <? 0) || ((o_nloop o =? 0) && match o_tune o with Some _ => false | None => true end) else o_nloop o <=? 0.
Definition sanity (o : opts) : outcome opts :=
  stop (existsb (fun x => x <=? 0) (o_g o)) "Invalid grid size" (
  check_grid (o_pin o) (check_grid (o_pout o) (
  stop (bad_nloop o) "Invalid Nloop" (
  stop (is_random (o_init o) && (seed_of o <=? 0)) "Invalid initialize setting" (
  stop ((o_mode o <? 0) || (3 <? o_mode o)) "Invalid FFT mode" (
  stop ((1 <? o_mode o) && o_v o) "Cannot validate forward only FFT" (
  match o_tune o with
  | None => OOk o
  | Some (per, max, extra) =>
      stop (per <=? 0) "Invalid tune nper" (
      stop (Qltb max 0) "Invalid tune tmax" (
      stop ((extra <? 0) || (1 <? extra)) "Invalid tune extra" (
      stop (o_r o) "Cannot tune with remap only" (OOk o))))
  end))))))).

Definition options : outcome opts :=
  match parse (List.length args) 1 opts0 with OOk o => sanity o | OErr m => OErr m | OUB => OUB end.
End Options.

(** ** output() *)
Section Output.
Context {F : Type}.
(** "Value (%d,%d,%d) on proc %d = (%g,%g)" *)
Definition line3 : Type := pt3 * nat * F * F.
Definition line2 : Type := pt2 * nat * F * F.

(** the loop over m of one rank, test3d.cpp:684-694 and 699-709; [b] is the box whose extents and corner are used
    (ilocal .. kglobal are computed as in initialize(), [at3]), [nfft] the loop bound.  nylocal = 0 or nxlocal = 0 divides by zero *)
Definition out_rank3 (b : box3) (nfft : Z) (me : nat) (work : list F) : option (list line3) :=
  for_ nfft (fun m acc => p <- at3 b m; x <- zget work (2 * m); y <- zget work (2 * m + 1); Some (acc ++ [(p, me, x, y)])) [].
(** test2d.cpp:619-626 and 630-637 *)
Definition out_rank2 (b : box2) (nfft : Z) (me : nat) (work : list F) : option (list line2) :=
  for_ nfft (fun m acc => p <- at2 b m; x <- zget work (2 * m); y <- zget work (2 * m + 1); Some (acc ++ [(p, me, x, y)])) [].

(** all ranks in turn, test3d.cpp:674-676 and 712 *)
Definition in_turn {L} (n : nat) (f : nat -> option (list L)) : option (list L) :=
  fold_left (fun a r => a <- a; l <- f r; Some (a ++ l)) (seq 0 n) (Some []).
(** flag 0: input layout; flag 1: output layout, but nfft_in points *)
Definition output3 (flag : Z) (n : nat) (ins outs : nat -> box3) (w : nat -> list F) : option (list line3) :=
  in_turn n (fun r => out_rank3 (if flag =? 0 then ins r else outs r) (psize3 (ins r)) r (w r)).
Definition output2 (flag : Z) (n : nat) (ins outs : nat -> box2) (w : nat -> list F) : option (list line2) :=
  in_turn n (fun r => out_rank2 (if flag =? 0 then ins r else outs r) (psize2 (ins r)) r (w r)).
End Output.
