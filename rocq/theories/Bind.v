(** Bind.v : the language bindings.  The C interface as declared in src/*_wrap.h (parameter names from src/*_wrap.cpp),
    the Fortran interfaces src/*_wrap.f90 and the Python classes of src/fftmpi.py.

    Fortran: an interface procedure is a name, the C symbol it is bound to and its dummy arguments; the compiler passes
    the value of a [value] dummy and the address of any other.
    Python: every method of a class is a list of statements of the small language [stmt], executed by [run].  The C library
    is a function from the words it receives and the C ints in memory to results and new contents ([sem]).
    ctypes converts the arguments by argtypes ([conv]).
    Simplifications: Python 2 semantics (the file uses print statements); a numpy array is its address; printing is left
    out; the test "numpy" in str(type(x)) is true for arrays only; the dynamic library is found and exports exactly the
    functions of the headers (libfft3dmpi those of fft3d_wrap.h and remap3d_wrap.h, libfft2dmpi the 2d ones); no C string is
    empty; the precision is an integer; c_int and c_void_p objects live in cells with
    addresses of their own. *)

From Coq Require Import QArith String.
From Verif Require Import Base.
Local Open Scope string_scope.
Local Open Scope list_scope.
Local Open Scope Z_scope.

(** ** The C interface *)
Inductive ctype := TInt | TInt64 | TDouble | TVoid | TChar | TScalar | TComm | TFint | TPtr (t : ctype).
Record cproto := mkc { c_name : string; c_ret : ctype; c_par : list (string * ctype) }.

Definition ints (l : list string) : list (string * ctype) := map (fun x => (x, TInt)) l.
Definition handle : string * ctype := ("ptr", TPtr TVoid).
Definition outs (l : list string) : list (string * ctype) := map (fun x => (x, TPtr TInt)) l.
Definition data (l : list string) : list (string * ctype) := map (fun x => (x, TPtr TScalar)) l.
Definition keyword : string * ctype := ("keyword", TPtr TChar).

Definition dims3 : list string := ["nfast"; "nmid"; "nslow"].
Definition bounds3 : list string := ["in_ilo"; "in_ihi"; "in_jlo"; "in_jhi"; "in_klo"; "in_khi"; "out_ilo"; "out_ihi"; "out_jlo"; "out_jhi"; "out_klo"; "out_khi"].
Definition dims2 : list string := ["nfast"; "nslow"].
Definition bounds2 : list string := ["in_ilo"; "in_ihi"; "in_jlo"; "in_jhi"; "out_ilo"; "out_ihi"; "out_jlo"; "out_jhi"].

(** src/fft3d_wrap.h:30-64, src/remap3d_wrap.h:30-42; names from src/fft3d_wrap.cpp:35-328, src/remap3d_wrap.cpp:34-113; "communicator" and "fcomm" are written "comm", "fftsize_caller" is written "fftsize" and so on *)
Definition c_api3 : list cproto := [
  mkc "fft3d_create" TVoid [("comm", TComm); ("precision", TInt); ("ptr", TPtr (TPtr TVoid))];
  mkc "fft3d_create_fortran" TVoid [("comm", TFint); ("precision", TInt); ("ptr", TPtr (TPtr TVoid))];
  mkc "fft3d_destroy" TVoid [handle];
  mkc "fft3d_set" TVoid [handle; keyword; ("value", TInt)];
  mkc "fft3d_get_int" TInt [handle; keyword];
  mkc "fft3d_get_double" TDouble [handle; keyword];
  mkc "fft3d_get_int64" TInt64 [handle; keyword];
  mkc "fft3d_get_string" (TPtr TChar) [handle; keyword; ("len", TPtr TInt)];
  mkc "fft3d_get_int_vector" (TPtr TInt) [handle; keyword; ("len", TPtr TInt)];
  mkc "fft3d_get_double_vector" (TPtr TDouble) [handle; keyword; ("len", TPtr TInt)];
  mkc "fft3d_setup" TVoid (handle :: ints dims3 ++ ints bounds3 ++ ints ["permute"] ++ outs ["fftsize"; "sendsize"; "recvsize"]);
  mkc "fft3d_setup_fortran" TVoid (handle :: ints dims3 ++ ints bounds3 ++ ints ["permute"] ++ outs ["fftsize"; "sendsize"; "recvsize"]);
  mkc "fft3d_setup_memory" TVoid (handle :: data ["sendbuf"; "recvbuf"]);
  mkc "fft3d_compute" TVoid (handle :: data ["in"; "out"] ++ ints ["flag"]);
  mkc "fft3d_only_1d_ffts" TVoid (handle :: data ["in"] ++ ints ["flag"]);
  mkc "fft3d_only_remaps" TVoid (handle :: data ["in"; "out"] ++ ints ["flag"]);
  mkc "fft3d_only_one_remap" TVoid (handle :: data ["in"; "out"] ++ ints ["flag"; "which"]);
  mkc "fft3d_tune" TVoid (handle :: ints dims3 ++ ints bounds3 ++ ints ["permute"] ++ outs ["fftsize"; "sendsize"; "recvsize"]
    ++ ints ["flag"; "niter"] ++ [("tmax", TDouble)] ++ ints ["tflag"]);
  mkc "fft3d_tune_fortran" TVoid (handle :: ints dims3 ++ ints bounds3 ++ ints ["permute"] ++ outs ["fftsize"; "sendsize"; "recvsize"]
    ++ ints ["flag"; "niter"] ++ [("tmax", TDouble)] ++ ints ["tflag"]);
  mkc "remap3d_create" TVoid [("comm", TComm); ("ptr", TPtr (TPtr TVoid))];
  mkc "remap3d_create_fortran" TVoid [("comm", TFint); ("ptr", TPtr (TPtr TVoid))];
  mkc "remap3d_destroy" TVoid [handle];
  mkc "remap3d_set" TVoid [handle; keyword; ("value", TInt)];
  mkc "remap3d_setup" TVoid (handle :: ints bounds3 ++ ints ["nqty"; "permute"; "memoryflag"] ++ outs ["sendsize"; "recvsize"]);
  mkc "remap3d_setup_fortran" TVoid (handle :: ints bounds3 ++ ints ["nqty"; "permute"; "memoryflag"] ++ outs ["sendsize"; "recvsize"]);
  mkc "remap3d_remap" TVoid (handle :: data ["in"; "out"; "sendbuf"; "recvbuf"])].

(** src/fft2d_wrap.h:30-62, src/remap2d_wrap.h:30-41; names from src/fft2d_wrap.cpp:34-313, src/remap2d_wrap.cpp:34-109; "communicator" and "fcomm" are written "comm", "fftsize_caller" is written "fftsize" and so on *)
Definition c_api2 : list cproto := [
  mkc "fft2d_create" TVoid [("comm", TComm); ("precision", TInt); ("ptr", TPtr (TPtr TVoid))];
  mkc "fft2d_create_fortran" TVoid [("comm", TFint); ("precision", TInt); ("ptr", TPtr (TPtr TVoid))];
  mkc "fft2d_destroy" TVoid [handle];
  mkc "fft2d_set" TVoid [handle; keyword; ("value", TInt)];
  mkc "fft2d_get_int" TInt [handle; keyword];
  mkc "fft2d_get_double" TDouble [handle; keyword];
  mkc "fft2d_get_int64" TInt64 [handle; keyword];
  mkc "fft2d_get_string" (TPtr TChar) [handle; keyword; ("len", TPtr TInt)];
  mkc "fft2d_get_int_vector" (TPtr TInt) [handle; keyword; ("len", TPtr TInt)];
  mkc "fft2d_get_double_vector" (TPtr TDouble) [handle; keyword; ("len", TPtr TInt)];
  mkc "fft2d_setup" TVoid (handle :: ints dims2 ++ ints bounds2 ++ ints ["permute"] ++ outs ["fftsize"; "sendsize"; "recvsize"]);
  mkc "fft2d_setup_fortran" TVoid (handle :: ints dims2 ++ ints bounds2 ++ ints ["permute"] ++ outs ["fftsize"; "sendsize"; "recvsize"]);
  mkc "fft2d_setup_memory" TVoid (handle :: data ["sendbuf"; "recvbuf"]);
  mkc "fft2d_compute" TVoid (handle :: data ["in"; "out"] ++ ints ["flag"]);
  mkc "fft2d_only_1d_ffts" TVoid (handle :: data ["in"] ++ ints ["flag"]);
  mkc "fft2d_only_remaps" TVoid (handle :: data ["in"; "out"] ++ ints ["flag"]);
  mkc "fft2d_only_one_remap" TVoid (handle :: data ["in"; "out"] ++ ints ["flag"; "which"]);
  mkc "fft2d_tune" TVoid (handle :: ints dims2 ++ ints bounds2 ++ ints ["permute"] ++ outs ["fftsize"; "sendsize"; "recvsize"]
    ++ ints ["flag"; "niter"] ++ [("tmax", TDouble)] ++ ints ["tflag"]);
  mkc "fft2d_tune_fortran" TVoid (handle :: ints dims2 ++ ints bounds2 ++ ints ["permute"] ++ outs ["fftsize"; "sendsize"; "recvsize"]
    ++ ints ["flag"; "niter"] ++ [("tmax", TDouble)] ++ ints ["tflag"]);
  mkc "remap2d_create" TVoid [("comm", TComm); ("ptr", TPtr (TPtr TVoid))];
  mkc "remap2d_create_fortran" TVoid [("comm", TFint); ("ptr", TPtr (TPtr TVoid))];
  mkc "remap2d_destroy" TVoid [handle];
  mkc "remap2d_set" TVoid [handle; keyword; ("value", TInt)];
  mkc "remap2d_setup" TVoid (handle :: ints bounds2 ++ ints ["nqty"; "permute"; "memoryflag"] ++ outs ["sendsize"; "recvsize"]);
  mkc "remap2d_setup_fortran" TVoid (handle :: ints bounds2 ++ ints ["nqty"; "permute"; "memoryflag"] ++ outs ["sendsize"; "recvsize"]);
  mkc "remap2d_remap" TVoid (handle :: data ["in"; "out"; "sendbuf"; "recvbuf"])].

Fixpoint lookup (api : list cproto) (f : string) : option cproto :=
  match api with nil => None | p :: t => if String.eqb (c_name p) f then Some p else lookup t f end.

(** what a function receives for one parameter: an int, a double or an address *)
Inductive word := WI (z : Z) | WD (x : Q) | WP (a : Z).

(** ** Fortran *)
(** integer(c_int), integer(c_int64_t), real(c_double), type(c_ptr), character(c_char) array (assumed size) *)
Inductive fty := FInt | FInt64 | FReal | FPtr | FChars.
Record dummy := mkd { d_name : string; d_ty : fty; d_value : bool }.
Record fproc := mkf { f_name : string; f_symbol : string; f_ret : option fty; f_args : list dummy }.

Definition val (t : fty) (l : list string) : list dummy := map (fun x => mkd x t true) l.
Definition ref (t : fty) (l : list string) : list dummy := map (fun x => mkd x t false) l.
Definition fkey : dummy := mkd "keyword" FChars false.
Definition fptr : list dummy := val FPtr ["ptr"].


(** src/fft3d_wrap.f90:20-148 *)
Definition f_fft3 : list fproc := [
  mkf "fft3d_create" "fft3d_create_fortran" None (val FInt ["comm"; "precision"] ++ ref FPtr ["ptr"]);
  mkf "fft3d_destroy" "fft3d_destroy" None fptr;
  mkf "fft3d_set" "fft3d_set" None (fptr ++ [fkey] ++ val FInt ["value"]);
  mkf "fft3d_get_int" "fft3d_get_int" (Some FInt) (fptr ++ [fkey]);
  mkf "fft3d_get_double" "fft3d_get_double" (Some FReal) (fptr ++ [fkey]);
  mkf "fft3d_get_int64" "fft3d_get_int64" (Some FInt64) (fptr ++ [fkey]);
  mkf "fft3d_get_string" "fft3d_get_string" (Some FPtr) (fptr ++ [fkey] ++ ref FInt ["len"]);
  mkf "fft3d_get_int_vector" "fft3d_get_int_vector" (Some FPtr) (fptr ++ [fkey] ++ ref FInt ["len"]);
  mkf "fft3d_get_double_vector" "fft3d_get_double_vector" (Some FPtr) (fptr ++ [fkey] ++ ref FInt ["len"]);
  mkf "fft3d_setup" "fft3d_setup_fortran" None
    (fptr ++ val FInt dims3 ++ val FInt bounds3 ++ val FInt ["permute"] ++ ref FInt ["fftsize"; "sendsize"; "recvsize"]);
  mkf "fft3d_setup_memory" "fft3d_setup_memory" None (fptr ++ ref FPtr ["sendbuf"; "recvbuf"]);
  mkf "fft3d_compute" "fft3d_compute" None (fptr ++ val FPtr ["in"; "out"] ++ val FInt ["flag"]);
  mkf "fft3d_only_1d_ffts" "fft3d_only_1d_ffts" None (fptr ++ val FPtr ["in"] ++ val FInt ["flag"]);
  mkf "fft3d_only_remaps" "fft3d_only_remaps" None (fptr ++ val FPtr ["in"; "out"] ++ val FInt ["flag"]);
  mkf "fft3d_only_one_remap" "fft3d_only_one_remap" None (fptr ++ val FPtr ["in"; "out"] ++ val FInt ["flag"; "which"]);
  mkf "fft3d_tune" "fft3d_tune_fortran" None
    (fptr ++ val FInt dims3 ++ val FInt bounds3 ++ val FInt ["permute"] ++ ref FInt ["fftsize"; "sendsize"; "recvsize"]
      ++ val FInt ["flag"; "niter"] ++ val FReal ["tmax"] ++ val FInt ["tflag"])].
(** src/remap3d_wrap.f90:19-56 *)
Definition f_remap3 : list fproc := [
  mkf "remap3d_create" "remap3d_create_fortran" None (val FInt ["comm"] ++ ref FPtr ["ptr"]);
  mkf "remap3d_destroy" "remap3d_destroy" None fptr;
  mkf "remap3d_set" "remap3d_set" None (fptr ++ [fkey] ++ val FInt ["value"]);
  mkf "remap3d_setup" "remap3d_setup_fortran" None
    (fptr ++ val FInt bounds3 ++ val FInt ["nqty"; "permute"; "memoryflag"] ++ ref FInt ["sendsize"; "recvsize"]);
  mkf "remap3d_remap" "remap3d_remap" None (fptr ++ val FPtr ["in"; "out"; "sendbuf"; "recvbuf"])].

(** src/fft2d_wrap.f90:20-148 *)
Definition f_fft2 : list fproc := [
  mkf "fft2d_create" "fft2d_create_fortran" None (val FInt ["comm"; "precision"] ++ ref FPtr ["ptr"]);
  mkf "fft2d_destroy" "fft2d_destroy" None fptr;
  mkf "fft2d_set" "fft2d_set" None (fptr ++ [fkey] ++ val FInt ["value"]);
  mkf "fft2d_get_int" "fft2d_get_int" (Some FInt) (fptr ++ [fkey]);
  mkf "fft2d_get_double" "fft2d_get_double" (Some FReal) (fptr ++ [fkey]);
  mkf "fft2d_get_int64" "fft2d_get_int64" (Some FInt64) (fptr ++ [fkey]);
  mkf "fft2d_get_string" "fft2d_get_string" (Some FPtr) (fptr ++ [fkey] ++ ref FInt ["len"]);
  mkf "fft2d_get_int_vector" "fft2d_get_int_vector" (Some FPtr) (fptr ++ [fkey] ++ ref FInt ["len"]);
  mkf "fft2d_get_double_vector" "fft2d_get_double_vector" (Some FPtr) (fptr ++ [fkey] ++ ref FInt ["len"]);
  mkf "fft2d_setup" "fft2d_setup_fortran" None
    (fptr ++ val FInt dims2 ++ val FInt bounds2 ++ val FInt ["permute"] ++ ref FInt ["fftsize"; "sendsize"; "recvsize"]);
  mkf "fft2d_setup_memory" "fft2d_setup_memory" None (fptr ++ ref FPtr ["sendbuf"; "recvbuf"]);
  mkf "fft2d_compute" "fft2d_compute" None (fptr ++ val FPtr ["in"; "out"] ++ val FInt ["flag"]);
  mkf "fft2d_only_1d_ffts" "fft2d_only_1d_ffts" None (fptr ++ val FPtr ["in"] ++ val FInt ["flag"]);
  mkf "fft2d_only_remaps" "fft2d_only_remaps" None (fptr ++ val FPtr ["in"; "out"] ++ val FInt ["flag"]);
  mkf "fft2d_only_one_remap" "fft2d_only_one_remap" None (fptr ++ val FPtr ["in"; "out"] ++ val FInt ["flag"; "which"]);
  mkf "fft2d_tune" "fft2d_tune_fortran" None
    (fptr ++ val FInt dims2 ++ val FInt bounds2 ++ val FInt ["permute"] ++ ref FInt ["fftsize"; "sendsize"; "recvsize"]
      ++ val FInt ["flag"; "niter"] ++ val FReal ["tmax"] ++ val FInt ["tflag"])].
(** src/remap2d_wrap.f90:19-56 *)
Definition f_remap2 : list fproc := [
  mkf "remap2d_create" "remap2d_create_fortran" None (val FInt ["comm"] ++ ref FPtr ["ptr"]);
  mkf "remap2d_destroy" "remap2d_destroy" None fptr;
  mkf "remap2d_set" "remap2d_set" None (fptr ++ [fkey] ++ val FInt ["value"]);
  mkf "remap2d_setup" "remap2d_setup_fortran" None
    (fptr ++ val FInt bounds2 ++ val FInt ["nqty"; "permute"; "memoryflag"] ++ ref FInt ["sendsize"; "recvsize"]);
  mkf "remap2d_remap" "remap2d_remap" None (fptr ++ val FPtr ["in"; "out"; "sendbuf"; "recvbuf"])].

(** a variable of the caller: its address and its value (a c_ptr holds an address; the characters of a string are not
    needed) *)
Inductive fval := VI (z : Z) | VR (x : Q) | VP (a : Z) | VS.
Record fvar := mkv { v_addr : Z; v_val : fval }.
Definition has_type (t : fty) (v : fvar) : Prop :=
  match t, v_val v with FInt, VI _ => True | FInt64, VI _ => True | FReal, VR _ => True | FPtr, VP _ => True | FChars, VS => True | _, _ => False end.
(** the word passed for one dummy.  A value dummy of character array type does not exist in the files *)
Definition pass (d : dummy) (v : fvar) : word :=
  if d_value d then match v_val v with VI z => WI z | VR x => WD x | VP a => WP a | VS => WP (v_addr v) end
  else WP (v_addr v).
Fixpoint received (ds : list dummy) (vs : list fvar) : list word :=
  match ds, vs with d :: ds, v :: vs => pass d v :: received ds vs | _, _ => [] end.

(** ** Python *)
(** c_int, c_double, c_void_p, c_char_p, the type chosen for MPI_Comm, POINTER(..) *)
Inductive yptr := QInt | QFloat | QDouble | QVoidp.
Inductive ytype := Yint | Ydouble | Yvoidp | Ycharp | Ycomm | YPtr (p : yptr).
(** restype: None, c_int (also when not set), c_longlong, c_double, c_char_p, POINTER(..) *)
Inductive rtype := Rnone | Rint | Rlonglong | Rdouble | Rcharp | Rptr.

Inductive pval :=
| XNone
| XInt (z : Z) | XFloat (x : Q) | XStr (a : Z)   (* a Python string; [a]: where its characters are *)
| XArr (a : Z)                                    (* a numpy array; [a]: its data *)
| XComm (c : Z)                                   (* the ctypes object made from the communicator *)
| XCell (k : yptr) (a : Z)                        (* c_int() or c_void_p() at [a] *)
| XByref (k : yptr) (a : Z)
| XCast (k : yptr) (a : Z)                        (* a.ctypes.data_as(POINTER(..)), or a pointer that was returned *)
| XSlice (a n : Z)                                (* the list of the n values at a *)
| XTuple (l : list pval).

(** ctypes reduces an integer modulo 2^32 *)
Definition wrap32 (z : Z) : Z := (z + 2 ^ 31) mod 2 ^ 32 - 2 ^ 31.
Definition yptr_eqb (a b : yptr) : bool :=
  match a, b with QInt, QInt | QFloat, QFloat | QDouble, QDouble | QVoidp, QVoidp => true | _, _ => false end.
(** conversion by argtypes; None = ctypes.ArgumentError.  [mem]: the contents of the cells *)
Definition conv (mem : Z -> Z) (t : ytype) (v : pval) : option word :=
  match t, v with
  | Yint, XInt z => Some (WI (wrap32 z))
  | Yint, XCell QInt a => Some (WI (mem a))
  | Ydouble, XFloat x => Some (WD x)
  | Ydouble, XInt z => Some (WD (inject_Z z))
  | Ycomm, XComm c => Some (WI c)
  | Yvoidp, XNone => Some (WP 0)
  | Yvoidp, XInt z => Some (WP z)
  | Yvoidp, XStr a => Some (WP a)
  | Yvoidp, XCell QVoidp a => Some (WP (mem a))
  | Yvoidp, (XByref _ a | XCast _ a) => Some (WP a)
  | Ycharp, XNone => Some (WP 0)
  | Ycharp, XStr a => Some (WP a)
  | YPtr _, XNone => Some (WP 0)
  | YPtr k, (XCell k' a | XByref k' a | XCast k' a) => if yptr_eqb k k' then Some (WP a) else None
  | _, _ => None
  end.

(** a word fits a C parameter *)
Definition fits (t : ctype) (w : word) : bool :=
  match t, w with
  | (TInt | TInt64 | TFint | TComm), WI _ => true
  | TDouble, WD _ => true
  | TPtr _, WP _ => true
  | _, _ => false
  end.
Fixpoint all_fit (ps : list (string * ctype)) (ws : list word) : bool :=
  match ps, ws with [], [] => true | (_, t) :: ps, w :: ws => fits t w && all_fit ps ws | _, _ => false end.

(** a name, byref(name), self.fft, byref(self.fft) *)
Inductive expr := EName (x : string) | EByref (x : string) | EFft | EByrefFft.
Inductive stmt :=
| SNew (x : string)                                          (* x = c_int() *)
| SNumpy (xs : list string)                                  (* if "numpy" not in ..: print ..; sys.exit() *)
| SCast (x y : string)                                       (* x = y.ctypes.data_as(POINTER(c_float or c_double by self.precision)) *)
| SCall (x : option string) (f : string) (args : list expr)  (* [x =] self.lib.f(args) *)
| SValue (x : string)                                        (* x = x.value *)
| SNull (x : string)                                         (* if not bool(x): return None *)
| SSlice (x y n : string)                                    (* x = y[:n.value] *)
| SReturn (xs : list string)
| SLibNone.                                                  (* self.lib = None *)

(** what __init__ does with self.lib: f.argtypes = .. (by precision) or f.restype = .. *)
Inductive decl := DArgs (f : string) (t : Z -> list ytype) | DRes (f : string) (r : rtype).
Record method := mkm { m_name : string; m_par : list string; m_body : list stmt }.
Record class := mkcls { k_api : list cproto; k_decls : list decl; k_create : string;
                        k_del : list stmt; k_methods : list method }.

Inductive exn := UnboundLocalError | NameError | AttributeError | ArgumentError | TypeError | SystemExit.

(** the results of a C function: what it returns, read as any of the types, and the contents of the cells afterwards *)
Record cres := mkr { r_int : Z; r_dbl : Q; r_ptr : Z; r_mem : Z -> Z }.

(** self: is self.lib a library (it is not before CDLL and after destroy()); the address of the cell self.fft if that is set;
    self.precision; the declarations made for self.lib *)
Record obj := mko { o_lib : bool; o_cell : option Z; o_prec : Z; o_args : list (string * list ytype); o_res : list (string * rtype) }.
(** the C calls made so far, oldest first; the cells; the next free cell *)
Record world := mkw { w_calls : list (string * list word); w_mem : Z -> Z; w_next : Z }.

(** a method returns, raises an exception, or the C function is called with words that do not fit its prototype *)
Inductive res := ROk (v : pval) (o : obj) (w : world) | RExn (e : exn) (o : obj) (w : world) | RUB.

Section Exec.
Variable sem : string -> list word -> (Z -> Z) -> cres.
Variable api : list cproto.

Fixpoint assoc {A} (x : string) (l : list (string * A)) : option A :=
  match l with nil => None | (y, v) :: t => if String.eqb x y then Some v else assoc x t end.

Inductive ev (A : Type) := EvOk (a : A) | EvExn (e : exn).
Arguments EvOk {A} a. Arguments EvExn {A} e.

(** the names assigned in a method are local to it *)
Definition assigns (s : stmt) : list string :=
  match s with SNew x | SCast x _ | SValue x | SSlice x _ _ => [x] | SCall (Some x) _ _ => [x] | _ => [] end.
Definition mem_str (x : string) (l : list string) : bool := existsb (String.eqb x) l.

Section Body.
Variable locals : list string.
Definition env := list (string * pval).
Definition rd (x : string) (e : env) : ev pval :=
  match assoc x e with
  | Some v => EvOk v
  | None => EvExn (if mem_str x locals then UnboundLocalError else NameError)
  end.
Definition eval (o : obj) (e : env) (a : expr) : ev pval :=
  match a with
  | EName x => rd x e
  | EByref x => match rd x e with EvOk (XCell k a) => EvOk (XByref k a) | EvOk _ => EvExn TypeError | EvExn x => EvExn x end
  | EFft => match o_cell o with Some a => EvOk (XCell QVoidp a) | None => EvExn AttributeError end
  | EByrefFft => match o_cell o with Some a => EvOk (XByref QVoidp a) | None => EvExn AttributeError end
  end.
Fixpoint evals (o : obj) (e : env) (l : list expr) : ev (list pval) :=
  match l with
  | [] => EvOk []
  | a :: t => match eval o e a with
              | EvExn x => EvExn x
              | EvOk v => match evals o e t with EvOk r => EvOk (v :: r) | EvExn x => EvExn x end
              end
  end.

(** fewer arguments than argtypes are a TypeError; further arguments are passed with the default conversion *)
Definition conv_default (mem : Z -> Z) (v : pval) : option word :=
  match v with
  | XInt z => Some (WI (wrap32 z)) | XNone => Some (WP 0) | XStr a | XByref _ a | XCast _ a => Some (WP a)
  | XCell QVoidp a => Some (WP (mem a)) | XCell QInt a => Some (WI (mem a)) | XComm c => Some (WI c) | _ => None
  end.
Fixpoint convs_from (mem : Z -> Z) (ts : list ytype) (vs : list pval) : ev (list word) :=
  match vs with
  | [] => EvOk []
  | v :: vs => match (match ts with t :: _ => conv mem t v | [] => conv_default mem v end) with
               | None => EvExn ArgumentError
               | Some w => match convs_from mem (tl ts) vs with EvOk r => EvOk (w :: r) | EvExn x => EvExn x end
               end
  end.
Definition convs (mem : Z -> Z) (ts : list ytype) (vs : list pval) : ev (list word) :=
  if Nat.ltb (List.length vs) (List.length ts) then EvExn TypeError else convs_from mem ts vs.
Definition result (r : rtype) (c : cres) : pval :=
  match r with
  | Rnone => XNone | Rint | Rlonglong => XInt (r_int c) | Rdouble => XFloat (r_dbl c)
  | Rcharp => if r_ptr c =? 0 then XNone else XStr (r_ptr c)
  | Rptr => XCast QInt (r_ptr c)
  end.

(** self.lib.f(args) *)
Inductive called := CallOk (v : pval) (w : world) | CallExn (e : exn) | CallUB.
Definition call (o : obj) (w : world) (e : env) (f : string) (args : list expr) : called :=
  if negb (o_lib o) then CallExn AttributeError else
  match lookup api f with
  | None => CallExn AttributeError
  | Some p =>
    match evals o e args with
    | EvExn x => CallExn x
    | EvOk vs =>
      match convs (w_mem w) (match assoc f (o_args o) with Some ts => ts | None => [] end) vs with
      | EvExn x => CallExn x
      | EvOk ws =>
        if all_fit (c_par p) ws then
          let c := sem f ws (w_mem w) in
          CallOk (result (match assoc f (o_res o) with Some r => r | None => Rint end) c)
                 (mkw (w_calls w ++ [(f, ws)]) (r_mem c) (w_next w))
        else CallUB
      end
    end
  end.

Definition is_arr (v : pval) : bool := match v with XArr _ => true | _ => false end.
Fixpoint arrays (e : env) (xs : list string) : ev bool :=
  match xs with
  | [] => EvOk true
  | x :: t => match rd x e with EvExn x => EvExn x | EvOk v => if is_arr v then arrays e t else EvOk false end
  end.
Fixpoint rds (e : env) (xs : list string) : ev (list pval) :=
  match xs with
  | [] => EvOk []
  | x :: t => match rd x e with EvExn y => EvExn y | EvOk v => match rds e t with EvOk r => EvOk (v :: r) | EvExn y => EvExn y end end
  end.
Definition is_null (v : pval) : bool := match v with XNone => true | XCast _ a => a =? 0 | XInt z => z =? 0 | _ => false end.

Fixpoint run (b : list stmt) (o : obj) (w : world) (e : env) : res :=
  match b with
  | [] => ROk XNone o w
  | s :: b =>
    match s with
    | SNew x => run b o (mkw (w_calls w) (fun a => if a =? w_next w then 0 else w_mem w a) (w_next w + 1)) ((x, XCell QInt (w_next w)) :: e)
    | SNumpy xs => match arrays e xs with
                   | EvExn x => RExn x o w | EvOk false => RExn SystemExit o w | EvOk true => run b o w e
                   end
    | SCast x y => match rd y e with
                   | EvOk (XArr a) => run b o w ((x, XCast (if o_prec o =? 1 then QFloat else QDouble) a) :: e)
                   | EvOk _ => RExn AttributeError o w
                   | EvExn x => RExn x o w
                   end
    | SCall x f args => match call o w e f args with
                        | CallOk v w => run b o w (match x with Some x => (x, v) :: e | None => e end)
                        | CallExn x => RExn x o w
                        | CallUB => RUB
                        end
    | SValue x => match rd x e with
                  | EvOk (XCell QInt a) => run b o w ((x, XInt (w_mem w a)) :: e)
                  | EvOk _ => RExn AttributeError o w
                  | EvExn x => RExn x o w
                  end
    | SNull x => match rd x e with EvOk v => if is_null v then ROk XNone o w else run b o w e | EvExn x => RExn x o w end
    | SSlice x y n => match rd y e, rd n e with
                      | EvOk (XCast _ a), EvOk (XCell QInt c) => run b o w ((x, XSlice a (w_mem w c)) :: e)
                      | EvOk _, EvOk _ => RExn TypeError o w
                      | EvExn x, _ | _, EvExn x => RExn x o w
                      end
    | SReturn xs => match rds e xs with EvOk [v] => ROk v o w | EvOk l => ROk (XTuple l) o w | EvExn x => RExn x o w end
    | SLibNone => run b (mko false (o_cell o) (o_prec o) (o_args o) (o_res o)) w e
    end
  end.
End Body.

(** obj.name(args); the wrong number of arguments is a TypeError *)
Definition invoke (m : method) (args : list pval) (o : obj) (w : world) : res :=
  if Nat.eqb (List.length args) (List.length (m_par m))
  then run (m_par m ++ flat_map assigns (m_body m)) (m_body m) o w (combine (m_par m) args)
  else RExn TypeError o w.
Definition find_method (k : class) (n : string) : option method := find (fun m => String.eqb (m_name m) n) (k_methods k).
Definition do_method (k : class) (n : string) (args : list pval) (o : obj) (w : world) : res :=
  match find_method k n with Some m => invoke m args o w | None => RExn AttributeError o w end.

(** the declarations of __init__: naming a function that is not in the library is an AttributeError *)
Fixpoint declare (ds : list decl) (o : obj) : obj * option exn :=
  match ds with
  | [] => (o, None)
  | DArgs f t :: ds => match lookup api f with
                       | None => (o, Some AttributeError)
                       | Some _ => declare ds (mko (o_lib o) (o_cell o) (o_prec o) ((f, t (o_prec o)) :: o_args o) (o_res o))
                       end
  | DRes f r :: ds => match lookup api f with
                      | None => (o, Some AttributeError)
                      | Some _ => declare ds (mko (o_lib o) (o_cell o) (o_prec o) (o_args o) ((f, r) :: o_res o))
                      end
  end.
(** __init__(self,comm,precision): src/fftmpi.py:41-151, 302-402, 556-608 and 660-711.  An exception leaves the object
    without some of its attributes *)
Definition construct (k : class) (comm prec : Z) (w : world) : res :=
  if negb (prec =? 1) && negb (prec =? 2) then RExn SystemExit (mko false None prec [] []) w else
  match declare (k_decls k) (mko true None prec [] []) with
  | (o, Some e) => RExn e o w
  | (o, None) =>
    run [] [SCall None (k_create k) [EName "comm_value"; EName "precision"; EByrefFft]]
      (mko (o_lib o) (Some (w_next w)) (o_prec o) (o_args o) (o_res o))
      (mkw (w_calls w) (fun a => if a =? w_next w then 0 else w_mem w a) (w_next w + 1))
      [("comm_value", XComm comm); ("precision", XInt prec)]
  end.
(** __del__(self) *)
Definition finish (k : class) (o : obj) (w : world) : res := run [] (k_del k) o w [].

(** the life of an object: __init__, method calls (the caller may catch exceptions and go on) and __del__.  Python runs
    __del__ also when __init__ raised.  None: some C call did not fit *)
Fixpoint use (k : class) (ops : list (string * list pval)) (o : obj) (w : world) : option (obj * world) :=
  match ops with
  | [] => Some (o, w)
  | (m, args) :: ops => match do_method k m args o w with
                        | ROk _ o w | RExn _ o w => use k ops o w
                        | RUB => None
                        end
  end.
Definition life (k : class) (comm prec : Z) (ops : list (string * list pval)) (w : world) : option world :=
  match (match construct k comm prec w with ROk _ o w => use k ops o w | RExn _ o w => Some (o, w) | RUB => None end) with
  | None => None
  | Some (o, w) => match finish k o w with ROk _ _ w | RExn _ _ w => Some w | RUB => None end
  end.
End Exec.
Arguments EvOk {A} a. Arguments EvExn {A} e.

(** ** The classes of fftmpi.py *)
Definition names (l : list string) : list expr := map EName l.
Definition byprec (f : yptr -> list ytype) (p : Z) : list ytype := f (if p =? 1 then QFloat else QDouble).
Definition I (n : nat) : list ytype := List.repeat Yint n.


(** class FFT3dMPI: argtypes and restype, src/fftmpi.py:64-140 *)
Definition decls_fft3 : list decl := [
  DArgs "fft3d_create" (fun _ => [Ycomm; Yint; YPtr QVoidp]); DRes "fft3d_create" Rnone;
  DArgs "fft3d_destroy" (fun _ => [Yvoidp]); DRes "fft3d_destroy" Rnone;
  DArgs "fft3d_set" (fun _ => [Yvoidp; Ycharp; Yint]); DRes "fft3d_set" Rnone;
  DArgs "fft3d_get_int" (fun _ => [Yvoidp; Ycharp]); DRes "fft3d_get_int" Rint;
  DArgs "fft3d_get_int64" (fun _ => [Yvoidp; Ycharp]); DRes "fft3d_get_int64" Rlonglong;
  DArgs "fft3d_get_double" (fun _ => [Yvoidp; Ycharp]); DRes "fft3d_get_double" Rdouble;
  DArgs "fft3d_get_string" (fun _ => [Yvoidp; Ycharp; YPtr QInt]); DRes "fft3d_get_string" Rcharp;
  DArgs "fft3d_get_int_vector" (fun _ => [Yvoidp; Ycharp; YPtr QInt]); DRes "fft3d_get_int_vector" Rptr;
  DArgs "fft3d_get_double_vector" (fun _ => [Yvoidp; Ycharp; YPtr QInt]); DRes "fft3d_get_double_vector" Rptr;
  DArgs "fft3d_setup" (fun _ => [Yvoidp] ++ I 3 ++ I 12 ++ I 1 ++ [YPtr QInt; YPtr QInt; YPtr QInt]); DRes "fft3d_setup" Rnone;
  DArgs "fft3d_setup_memory" (byprec (fun s => [Yvoidp; YPtr s; YPtr s])); DRes "fft3d_setup_memory" Rnone;
  DArgs "fft3d_compute" (byprec (fun s => [Yvoidp; YPtr s; YPtr s; Yint])); DRes "fft3d_compute" Rnone;
  DArgs "fft3d_only_1d_ffts" (byprec (fun s => [Yvoidp; YPtr s; Yint])); DRes "fft3d_only_1d_ffts" Rnone;
  DArgs "fft3d_only_remaps" (byprec (fun s => [Yvoidp; YPtr s; YPtr s; Yint])); DRes "fft3d_only_remaps" Rnone;
  DArgs "fft3d_only_one_remap" (byprec (fun s => [Yvoidp; YPtr s; YPtr s; Yint; Yint])); DRes "fft3d_only_remaps" Rnone;
  DArgs "fft3d_tune" (fun _ => [Yvoidp] ++ I 3 ++ I 12 ++ I 1 ++ [YPtr QInt; YPtr QInt; YPtr QInt] ++ [Yint; Yint; Ydouble; Yint]);
  DRes "fft3d_tune" Rnone].
(** the methods, src/fftmpi.py:149-296.  Calls in a return statement store their result first *)
Definition methods_fft3 : list method := [
  mkm "destroy" [] [SCall None "fft3d_destroy" [EFft]; SLibNone];
  mkm "set" ["keyword"; "value"] [SCall None "fft3d_set" (EFft :: names ["keyword"; "value"])];
  mkm "get_int" ["keyword"] [SCall (Some "r") "fft3d_get_int" (EFft :: names ["keyword"]); SReturn ["r"]];
  mkm "get_int64" ["keyword"] [SCall (Some "r") "fft3d_get_int64" (EFft :: names ["keyword"]); SReturn ["r"]];
  mkm "get_double" ["keyword"] [SCall (Some "r") "fft3d_get_double" (EFft :: names ["keyword"]); SReturn ["r"]];
  mkm "get_string" ["keyword"] [SNew "nlen"; SCall (Some "cptr") "fft3d_get_string" (EFft :: names ["keyword"] ++ [EByref "nlen"]);
    SNull "cptr"; SReturn ["cptr"]];
  mkm "get_int_vector" ["keyword"] [SNew "nlen"; SCall (Some "cptr") "fft3d_get_int_vector" (EFft :: names ["keyword"] ++ [EByref "nlen"]);
    SNull "cptr"; SSlice "ivec" "cptr" "nlen"; SReturn ["ivec"]];
  mkm "get_double_vector" ["keyword"] [SNew "nlen"; SCall (Some "cptr") "fft3d_get_double_vector" (EFft :: names ["keyword"] ++ [EByref "nlen"]);
    SNull "cptr"; SSlice "dvec" "cptr" "nlen"; SReturn ["dvec"]];
  mkm "setup" (dims3 ++ bounds3 ++ ["permute"]) [SNew "fftsize"; SNew "sendsize"; SNew "recvsize";
    SCall None "fft3d_setup" (EFft :: names dims3 ++ names bounds3 ++ [EName "permute"; EByref "fftsize"; EByref "sendsize"; EByref "recvsize"]);
    SValue "fftsize"; SValue "sendsize"; SValue "recvsize"; SReturn ["fftsize"; "sendsize"; "recvsize"]];
  mkm "setup_memory" ["sendbuf"; "recvbuf"] [SNumpy ["sendbuf"; "recvbuf"]; SCast "csendbuf" "csendbuf"; SCast "crecvbuf" "crecvbuf";
    SCall None "fft3d_setup_memory" (EFft :: names ["csendbuf"; "crecvbuf"])];
  mkm "compute" ["indata"; "outdata"; "flag"] [SNumpy ["indata"; "outdata"]; SCast "cin" "indata"; SCast "cout" "outdata";
    SCall None "fft3d_compute" (EFft :: names ["cin"; "cout"; "flag"])];
  mkm "only_1d_ffts" ["indata"; "flag"] [SNumpy ["indata"]; SCast "cin" "indata";
    SCall None "fft3d_only_1d_ffts" (EFft :: names ["cin"; "flag"])];
  mkm "only_remaps" ["indata"; "outdata"; "flag"] [SNumpy ["indata"; "outdata"]; SCast "cin" "indata"; SCast "cout" "outdata";
    SCall None "fft3d_only_remaps" (EFft :: names ["cin"; "cout"; "flag"])];
  mkm "only_one_remap" ["indata"; "outdata"; "flag"; "which"] [SNumpy ["indata"; "outdata"]; SCast "cin" "indata"; SCast "cout" "outdata";
    SCall None "fft3d_only_one_remap" (EFft :: names ["cin"; "cout"; "flag"; "which"])];
  mkm "tune" (dims3 ++ bounds3 ++ ["permute"; "flag"; "niter"; "tmax"; "tflag"]) [SNew "fftsize"; SNew "sendsize"; SNew "recvsize";
    SCall None "fft3d_tune" (EFft :: names dims3 ++ names bounds3 ++ [EName "permute"; EByref "fftsize"; EByref "sendsize"; EByref "recvsize"]
      ++ names ["flag"; "niter"; "tmax"; "tflag"]);
    SValue "fftsize"; SValue "sendsize"; SValue "recvsize"; SReturn ["fftsize"; "sendsize"; "recvsize"]]].
Definition FFT3dMPI : class := mkcls c_api3 decls_fft3 "fft3d_create" [SCall None "fft3d_destroy" [EFft]] methods_fft3.

(** class Remap3dMPI: src/fftmpi.py:577-600 and 611-656 (self.remap is written [EFft]) *)
Definition decls_remap3 : list decl := [
  DArgs "remap3d_create" (fun _ => [Ycomm; Yint; YPtr QVoidp]); DRes "remap3d_create" Rnone;
  DArgs "remap3d_destroy" (fun _ => [Yvoidp]); DRes "remap3d_destroy" Rnone;
  DArgs "remap3d_set" (fun _ => [Yvoidp; Ycharp; Yint]); DRes "remap3d_set" Rnone;
  DArgs "remap3d_setup" (fun _ => [Yvoidp] ++ I 12 ++ I 3 ++ [YPtr QInt]); DRes "remap3d_setup" Rnone;
  DArgs "remap3d_remap" (byprec (fun s => [Yvoidp; YPtr s; YPtr s; YPtr s; YPtr s])); DRes "remap3d_compute" Rnone].
Definition methods_remap3 : list method := [
  mkm "destroy" [] [SCall None "remap3d_destroy" [EFft]; SLibNone];
  mkm "set" ["keyword"; "value"] [SCall None "remap3d_set" (EFft :: names ["keyword"; "value"])];
  mkm "setup" (bounds3 ++ ["nqty"; "permute"; "memoryflag"]) [
    SCall None "remap3d_setup" (EFft :: names bounds3 ++ names ["nqty"; "permute"; "memoryflag"; "sendsize"; "recvsize"]);
    SReturn ["sendsize"; "recvsize"]];
  mkm "remap" ["indata"; "outdata"; "sendbuf"; "recvbuf"] [SNumpy ["indata"; "outdata"; "sendbuf"; "recvbuf"];
    SCast "cin" "indata"; SCast "cout" "outdata"; SCast "csendbuf" "sendbuf"; SCast "crecvbuf" "recvbuf";
    SCall None "remap3d_remap" (EFft :: names ["cin"; "cout"; "csendbuf"; "crecvbuf"])]].
Definition Remap3dMPI : class := mkcls c_api3 decls_remap3 "remap3d_create" [SCall None "remap3d_destroy" [EFft]] methods_remap3.

(** class FFT2dMPI: argtypes and restype, src/fftmpi.py:324-396 *)
Definition decls_fft2 : list decl := [
  DArgs "fft2d_create" (fun _ => [Ycomm; Yint; YPtr QVoidp]); DRes "fft2d_create" Rnone;
  DArgs "fft2d_destroy" (fun _ => [Yvoidp]); DRes "fft2d_destroy" Rnone;
  DArgs "fft2d_set" (fun _ => [Yvoidp; Ycharp; Yint]); DRes "fft2d_set" Rnone;
  DArgs "fft2d_get_int" (fun _ => [Yvoidp; Ycharp]); DRes "fft2d_get_int" Rint;
  DArgs "fft2d_get_int64" (fun _ => [Yvoidp; Ycharp]); DRes "fft2d_get_int64" Rlonglong;
  DArgs "fft2d_get_double" (fun _ => [Yvoidp; Ycharp]); DRes "fft2d_get_double" Rdouble;
  DArgs "fft2d_get_string" (fun _ => [Yvoidp; Ycharp; YPtr QInt]); DRes "fft2d_get_string" Rcharp;
  DArgs "fft2d_get_int_vector" (fun _ => [Yvoidp; Ycharp; YPtr QInt]); DRes "fft2d_get_int_vector" Rptr;
  DArgs "fft2d_get_double_vector" (fun _ => [Yvoidp; Ycharp; YPtr QInt]); DRes "fft2d_get_double_vector" Rptr;
  DArgs "fft2d_setup" (fun _ => [Yvoidp] ++ I 2 ++ I 8 ++ I 1 ++ [YPtr QInt; YPtr QInt; YPtr QInt]); DRes "fft2d_setup" Rnone;
  DArgs "fft2d_setup_memory" (byprec (fun s => [Yvoidp; YPtr s; YPtr s])); DRes "fft2d_setup_memory" Rnone;
  DArgs "fft2d_compute" (byprec (fun s => [Yvoidp; YPtr s; YPtr s; Yint])); DRes "fft2d_compute" Rnone;
  DArgs "fft2d_only_1d_ffts" (byprec (fun s => [Yvoidp; YPtr s; Yint])); DRes "fft2d_only_1d_ffts" Rnone;
  DArgs "fft2d_only_remaps" (byprec (fun s => [Yvoidp; YPtr s; YPtr s; Yint])); DRes "fft2d_only_remaps" Rnone;
  DArgs "fft2d_only_one_remap" (byprec (fun s => [Yvoidp; YPtr s; YPtr s; Yint; Yint])); DRes "fft2d_only_remaps" Rnone;
  DArgs "fft2d_tune" (fun _ => [Yvoidp] ++ I 2 ++ I 8 ++ I 1 ++ [YPtr QInt; YPtr QInt; YPtr QInt] ++ [Yint; Yint; Ydouble; Yint]);
  DRes "fft2d_tune" Rnone].
(** the methods, src/fftmpi.py:405-548.  Calls in a return statement store their result first *)
Definition methods_fft2 : list method := [
  mkm "destroy" [] [SCall None "fft2d_destroy" [EFft]; SLibNone];
  mkm "set" ["keyword"; "value"] [SCall None "fft2d_set" (EFft :: names ["keyword"; "value"])];
  mkm "get_int" ["keyword"] [SCall (Some "r") "fft2d_get_int" (EFft :: names ["keyword"]); SReturn ["r"]];
  mkm "get_int64" ["keyword"] [SCall (Some "r") "fft2d_get_int64" (EFft :: names ["keyword"]); SReturn ["r"]];
  mkm "get_double" ["keyword"] [SCall (Some "r") "fft2d_get_double" (EFft :: names ["keyword"]); SReturn ["r"]];
  mkm "get_string" ["keyword"] [SNew "nlen"; SCall (Some "cptr") "fft2d_get_string" (EFft :: names ["keyword"] ++ [EByref "nlen"]);
    SNull "cptr"; SReturn ["cptr"]];
  mkm "get_int_vector" ["keyword"] [SNew "nlen"; SCall (Some "cptr") "fft2d_get_int_vector" (EFft :: names ["keyword"] ++ [EByref "nlen"]);
    SNull "cptr"; SSlice "ivec" "cptr" "nlen"; SReturn ["ivec"]];
  mkm "get_double_vector" ["keyword"] [SNew "nlen"; SCall (Some "cptr") "fft2d_get_double_vector" (EFft :: names ["keyword"] ++ [EByref "nlen"]);
    SNull "cptr"; SSlice "dvec" "cptr" "nlen"; SReturn ["dvec"]];
  mkm "setup" (dims2 ++ bounds2 ++ ["permute"]) [SNew "fftsize"; SNew "sendsize"; SNew "recvsize";
    SCall None "fft2d_setup" (EFft :: names dims2 ++ names bounds2 ++ [EName "permute"; EByref "fftsize"; EByref "sendsize"; EByref "recvsize"]);
    SValue "fftsize"; SValue "sendsize"; SValue "recvsize"; SReturn ["fftsize"; "sendsize"; "recvsize"]];
  mkm "setup_memory" ["sendbuf"; "recvbuf"] [SNumpy ["sendbuf"; "recvbuf"]; SCast "csendbuf" "csendbuf"; SCast "crecvbuf" "crecvbuf";
    SCall None "fft2d_setup_memory" (EFft :: names ["csendbuf"; "crecvbuf"])];
  mkm "compute" ["indata"; "outdata"; "flag"] [SNumpy ["indata"; "outdata"]; SCast "cin" "indata"; SCast "cout" "outdata";
    SCall None "fft2d_compute" (EFft :: names ["cin"; "cout"; "flag"])];
  mkm "only_1d_ffts" ["indata"; "flag"] [SNumpy ["indata"]; SCast "cin" "indata";
    SCall None "fft2d_only_1d_ffts" (EFft :: names ["cin"; "flag"])];
  mkm "only_remaps" ["indata"; "outdata"; "flag"] [SNumpy ["indata"; "outdata"]; SCast "cin" "indata"; SCast "cout" "outdata";
    SCall None "fft2d_only_remaps" (EFft :: names ["cin"; "cout"; "flag"])];
  mkm "only_one_remap" ["indata"; "outdata"; "flag"; "which"] [SNumpy ["indata"; "outdata"]; SCast "cin" "indata"; SCast "cout" "outdata";
    SCall None "fft2d_only_one_remap" (EFft :: names ["cin"; "cout"; "flag"; "which"])];
  mkm "tune" (dims2 ++ bounds2 ++ ["permute"; "flag"; "niter"; "tmax"; "tflag"]) [SNew "fftsize"; SNew "sendsize"; SNew "recvsize";
    SCall None "fft2d_tune" (EFft :: names dims2 ++ names bounds2 ++ [EName "permute"; EByref "fftsize"; EByref "sendsize"; EByref "recvsize"]
      ++ names ["flag"; "niter"; "tmax"; "tflag"]);
    SValue "fftsize"; SValue "sendsize"; SValue "recvsize"; SReturn ["fftsize"; "sendsize"; "recvsize"]]].
Definition FFT2dMPI : class := mkcls c_api2 decls_fft2 "fft2d_create" [SCall None "fft2d_destroy" [EFft]] methods_fft2.

(** class Remap2dMPI: src/fftmpi.py:681-703 and 714-758 (self.remap is written [EFft]) *)
Definition decls_remap2 : list decl := [
  DArgs "remap2d_create" (fun _ => [Ycomm; Yint; YPtr QVoidp]); DRes "remap2d_create" Rnone;
  DArgs "remap2d_destroy" (fun _ => [Yvoidp]); DRes "remap2d_destroy" Rnone;
  DArgs "remap2d_set" (fun _ => [Yvoidp; Ycharp; Yint]); DRes "remap2d_set" Rnone;
  DArgs "remap2d_setup" (fun _ => [Yvoidp] ++ I 8 ++ I 3 ++ [YPtr QInt]); DRes "remap2d_setup" Rnone;
  DArgs "remap2d_remap" (byprec (fun s => [Yvoidp; YPtr s; YPtr s; YPtr s; YPtr s])); DRes "remap2d_compute" Rnone].
Definition methods_remap2 : list method := [
  mkm "destroy" [] [SCall None "remap2d_destroy" [EFft]; SLibNone];
  mkm "set" ["keyword"; "value"] [SCall None "remap2d_set" (EFft :: names ["keyword"; "value"])];
  mkm "setup" (bounds2 ++ ["nqty"; "permute"; "memoryflag"]) [
    SCall None "remap2d_setup" (EFft :: names bounds2 ++ names ["nqty"; "permute"; "memoryflag"; "sendsize"; "recvsize"]);
    SReturn ["sendsize"; "recvsize"]];
  mkm "remap" ["indata"; "outdata"; "sendbuf"; "recvbuf"] [SNumpy ["indata"; "outdata"; "sendbuf"; "recvbuf"];
    SCast "cin" "indata"; SCast "cout" "outdata"; SCast "csendbuf" "sendbuf"; SCast "crecvbuf" "recvbuf";
    SCall None "remap2d_remap" (EFft :: names ["cin"; "cout"; "csendbuf"; "crecvbuf"])]].
Definition Remap2dMPI : class := mkcls c_api2 decls_remap2 "remap2d_create" [SCall None "remap2d_destroy" [EFft]] methods_remap2.
