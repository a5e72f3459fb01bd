(** BindSpec.v : what the language bindings should do, stated on the C prototypes alone. *)

From Coq Require Import QArith String.
From Verif Require Import Base Bind.
Local Open Scope string_scope.
Local Open Scope list_scope.
Local Open Scope Z_scope.

(** ** Fortran *)
(** a C parameter receives what its type asks for: numbers and pointers by value, results and strings by address *)
Definition delivered (p : string * ctype) (v : fvar) (w : word) : Prop :=
  match snd p with
  | TInt | TFint => exists z, v_val v = VI z /\ w = WI z
  | TDouble => exists x, v_val v = VR x /\ w = WD x
  | TPtr TVoid | TPtr TScalar => exists a, v_val v = VP a /\ w = WP a
  | TPtr TInt => (exists z, v_val v = VI z) /\ w = WP (v_addr v)
  | TPtr (TPtr TVoid) => (exists a, v_val v = VP a) /\ w = WP (v_addr v)
  | TPtr TChar => v_val v = VS /\ w = WP (v_addr v)
  | _ => False
  end.
Fixpoint delivered_all (ps : list (string * ctype)) (vs : list fvar) (ws : list word) : Prop :=
  match ps, vs, ws with
  | [], [], [] => True
  | p :: ps, v :: vs, w :: ws => delivered p v w /\ delivered_all ps vs ws
  | _, _, _ => False
  end.
(** the function results *)
Definition result_ok (c : ctype) (f : option fty) : Prop :=
  match c, f with
  | TVoid, None | TInt, Some FInt | TInt64, Some FInt64 | TDouble, Some FReal | TPtr _, Some FPtr => True
  | _, _ => False
  end.
Fixpoint types_ok (ds : list dummy) (vs : list fvar) : Prop :=
  match ds, vs with [], [] => True | d :: ds, v :: vs => has_type (d_ty d) v /\ types_ok ds vs | _, _ => False end.

(** ** Python *)
(** the word for a parameter the caller supplies; None: not a value of that type *)
Definition word_of (t : ctype) (v : pval) : option word :=
  match t, v with
  | TInt, XInt z => if (- 2 ^ 31 <=? z) && (z <? 2 ^ 31) then Some (WI z) else None
  | TDouble, XFloat x => Some (WD x)
  | TPtr TChar, XStr a => Some (WP a)
  | TPtr TScalar, XArr a => Some (WP a)
  | _, _ => None
  end.
(** parameters the caller does not supply: the handle and the addresses for results *)
Definition hidden (t : ctype) : bool := match t with TPtr TVoid | TPtr TInt => true | _ => false end.
(** the words a C function has to receive: the handle [h], new cells from [next] on for results, and the caller's
    arguments in the order of the prototype *)
Fixpoint expect (h next : Z) (ps : list (string * ctype)) (args : list pval) : option (list word) :=
  match ps with
  | [] => match args with [] => Some [] | _ => None end
  | (_, t) :: ps =>
    match t with
    | TPtr TVoid => ws <- expect h next ps args; Some (WP h :: ws)
    | TPtr TInt => ws <- expect h (next + 1) ps args; Some (WP next :: ws)
    | _ => match args with
           | [] => None
           | a :: args => w <- word_of t a; ws <- expect h next ps args; Some (w :: ws)
           end
    end
  end.
(** the Python name of a parameter *)
Definition py_name (x : string) : string := if String.eqb x "in" then "indata" else if String.eqb x "out" then "outdata" else x.
Definition py_names (ps : list (string * ctype)) : list string :=
  map (fun p => py_name (fst p)) (filter (fun p => negb (hidden (snd p))) ps).
Definition n_out (ps : list (string * ctype)) : nat := List.length (filter (fun p => match snd p with TPtr TInt => true | _ => false end) ps).
(** what the caller gets: the result of the C function, with its length if it is a vector, or the stored results *)
Definition gives (c : cproto) (next : Z) (r : cres) : pval :=
  match c_ret c with
  | TInt | TInt64 => XInt (r_int r)
  | TDouble => XFloat (r_dbl r)
  | TPtr TChar => if r_ptr r =? 0 then XNone else XStr (r_ptr r)
  | TPtr _ => if r_ptr r =? 0 then XNone else XSlice (r_ptr r) (r_mem r next)
  | _ => match n_out (c_par c) with
         | O => XNone
         | n => XTuple (map (fun i => XInt (r_mem r (next + Z.of_nat i))) (seq 0 n))
         end
  end.

(** the cells a C function may write: those whose addresses it gets for results *)
Fixpoint writable (ps : list (string * ctype)) (ws : list word) : list Z :=
  match ps, ws with
  | (_, t) :: ps, w :: ws => match t, w with
                             | (TPtr TInt | TPtr (TPtr TVoid)), WP a => [a]
                             | _, _ => []
                             end ++ writable ps ws
  | _, _ => []
  end.
Definition writes_results_only (api : list cproto) (sem : string -> list word -> (Z -> Z) -> cres) : Prop :=
  forall f p ws mem a, lookup api f = Some p -> ~ In a (writable (c_par p) ws) -> r_mem (sem f ws mem) a = mem a.

(** ** The two dimensions: true is 3d *)
Definition fort (d : bool) : list fproc := if d then f_fft3 ++ f_remap3 else f_fft2 ++ f_remap2.
Definition api_of (d : bool) : list cproto := if d then c_api3 else c_api2.
Definition cls (d : bool) : class := if d then FFT3dMPI else FFT2dMPI.
Definition rcls (d : bool) : class := if d then Remap3dMPI else Remap2dMPI.
Definition pre (d : bool) : string := if d then "fft3d_" else "fft2d_".
(** functions only meant to be bound from Fortran *)
Definition for_fortran (c : cproto) : bool :=
  let n := c_name c in let l := String.length n in String.eqb (String.substring (l - 8) 8 n) "_fortran".
(** a C call on the handle [h] that is neither create nor destroy and fits its prototype *)
Definition between (d : bool) (h : Z) (c : string * list word) : Prop :=
  fst c <> String.append (pre d) "create" /\ fst c <> String.append (pre d) "destroy" /\
  exists p ws, lookup (k_api (cls d)) (fst c) = Some p /\ snd c = WP h :: ws /\ all_fit (c_par p) (snd c) = true.
(** the memory of [w] with [n] new cells, which are zero *)
Definition with_new (w : world) (n : nat) (mem : Z -> Z) : Prop :=
  forall a, mem a = if (w_next w <=? a) && (a <? w_next w + Z.of_nat n) then 0 else w_mem w a.
