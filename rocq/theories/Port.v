(** Port.v : model of the Fortran and Python versions of the test and example programs,
    test/test3d_f90.f90, test2d_f90.f90, simple_f90.f90, test3d.py, test2d.py, simple.py, where
    they differ from the C++ versions (TestProg.v, TestOpt.v, Ops.v).  The C versions
    test3d_c.cpp, test2d_c.cpp, simple_c.cpp are the C++ text with each method call replaced by
    the function of the C interface (Wrap.v) with the same arguments.

    Simplifications: a Fortran expression is evaluated from left to right with one rounding per
    operation; integers are unbounded [Z] where not said otherwise; a failing formatted READ and
    an uncaught Python exception end the program: outcome [OErr FAIL]; Python is Python 2 (the
    programs use the print statement, xrange and integer division by /). *)

From Coq Require Import QArith Qround String Ascii.
From Verif Require Import Base Spec Sched Kiss Layout Setup3d Setup2d Fft3d Fft2d Double TestProg TestOpt Ops.
Local Open Scope string_scope.
Local Open Scope list_scope.
Local Open Scope Z_scope.

(** ** single precision: [fl] of Double.v with 24 significant bits *)
Definition flp24 (q : Q) : Q := let s := 23 - qlog2 q in (inject_Z (qround (q * 2 ^ s)) * 2 ^ (- s))%Q.
Definition fl24 (q : Q) : Q :=
  match Qnum q with Z0 => 0%Q | Zpos _ => Qred (flp24 q) | Zneg _ => Qred (- flp24 (- q)) end.

(** ** one option loop for all languages *)
Definition FAIL : string := "run-time failure".

Section Loop.
(** [rdint] and [rdflt] read a number, None = the program fails; [iopt s o] treats the argument of -i *)
Variables (d : nat) (rdint : string -> option Z) (rdflt : string -> option Q) (iopt : string -> opts -> outcome opts).
Variable args : list string.
Definition gnum {A} (i : Z) (k : Z -> outcome A) : outcome A :=
  arg args i (fun s => match rdint s with Some z => k z | None => OErr FAIL end).
Fixpoint gnums {A} (m : nat) (i : Z) (k : list Z -> outcome A) : outcome A :=
  match m with O => k nil | S m => gnum i (fun z => gnums m (i + 1) (fun l => k (z :: l))) end.
(** test3d_f90.f90:234-352, test2d_f90.f90:231-343; test3d.py:89-166, test2d.py:88-162.  The Fortran test
    [iarg+4 > narg+1] does not count the program name, the Python one [iarg+4 > narg] does: [need] in both *)
Definition goption1 (iarg : Z) (o : opts) : outcome (Z * opts) :=
  let D := Z.of_nat d in
  arg args iarg (fun w =>
  if String.eqb w "-h" then OErr SYNTAX
  else if String.eqb w "-g" then need args iarg (D + 1) (gnums d (iarg + 1) (fun v => OOk (iarg + (D + 1), set_g v o)))
  else if String.eqb w "-pin" then need args iarg (D + 1) (gnums d (iarg + 1) (fun v => OOk (iarg + (D + 1), set_pin v o)))
  else if String.eqb w "-pout" then need args iarg (D + 1) (gnums d (iarg + 1) (fun v => OOk (iarg + (D + 1), set_pout v o)))
  else if String.eqb w "-n" then need args iarg 2 (gnum (iarg + 1) (fun v => OOk (iarg + 2, set_nloop v o)))
  else if String.eqb w "-i" then need args iarg 2 (arg args (iarg + 1) (fun s =>
    match iopt s o with OOk o => OOk (iarg + 2, o) | OErr m => OErr m | OUB => OUB end))
  else if String.eqb w "-tune" then need args iarg 4 (gnum (iarg + 1) (fun p => arg args (iarg + 2) (fun m =>
    match rdflt m with
    | Some x => gnum (iarg + 3) (fun e => OOk (iarg + 4, set_tune (p, x, e) o))
    | None => OErr FAIL
    end)))
  else if String.eqb w "-m" then need args iarg 2 (gnum (iarg + 1) (fun v => OOk (iarg + 2, set_mode v o)))
  else if String.eqb w "-c" then need args iarg 2 (arg args (iarg + 1) (fun s =>
    if String.eqb s "point" then OOk (iarg + 2, set_c 0 o)
    else if String.eqb s "all" then OOk (iarg + 2, set_c 1 o)
    else if String.eqb s "combo" then OOk (iarg + 2, set_c 2 o) else OErr SYNTAX))
  else if String.eqb w "-e" then need args iarg 2 (arg args (iarg + 1) (fun s =>
    if String.eqb s "pencil" then OOk (iarg + 2, set_e 0 o)
    else if String.eqb s "brick" then OOk (iarg + 2, set_e 1 o) else OErr SYNTAX))
  else if String.eqb w "-p" then need args iarg 2 (arg args (iarg + 1) (fun s =>
    if String.eqb s "array" then OOk (iarg + 2, set_p 0 o)
    else if String.eqb s "ptr" then OOk (iarg + 2, set_p 1 o)
    else if String.eqb s "memcpy" then OOk (iarg + 2, set_p 2 o) else OErr SYNTAX))
  else if String.eqb w "-t" then OOk (iarg + 1, set_t o)
  else if String.eqb w "-r" then OOk (iarg + 1, set_r o)
  else if String.eqb w "-o" then OOk (iarg + 1, set_o o)
  else if String.eqb w "-v" then OOk (iarg + 1, set_v o)
  else OErr SYNTAX).
Fixpoint gparse (fuel : nat) (iarg : Z) (o : opts) : outcome opts :=
  if iarg <? zlen args then
    match fuel with
    | O => OUB
    | S fuel => match goption1 iarg o with OOk (iarg, o) => gparse fuel iarg o | OErr m => OErr m | OUB => OUB end
    end
  else OOk o.
End Loop.

(** a sequence of figures, nothing else; at least one *)
Fixpoint figures (acc : Z) (s : string) : option Z :=
  match s with
  | EmptyString => Some acc
  | String c t => if (48 <=? code c) && (code c <=? 57) then figures (10 * acc + (code c - 48)) t else None
  end.
Definition figures1 (s : string) : option Z := match s with EmptyString => None | _ => figures 0 s end.
Definition signed {A} (rd : string -> option A) (neg : A -> A) (s : string) : option A :=
  match s with
  | String c t => if code c =? 45 then x <- rd t; Some (neg x) else if code c =? 43 then rd t else rd s
  | EmptyString => rd s
  end.

(** ** Fortran: options *)
(** an edit descriptor of width 10 sees ten characters; blanks among them are ignored *)
Fixpoint no_spaces (s : string) : string :=
  match s with String c t => if code c =? 32 then no_spaces t else String c (no_spaces t) | EmptyString => s end.
Definition field (s : string) : string := no_spaces (substring 0 10 s).
(** read (arg,'(i10)') n; a field of blanks is 0, a number that is no 4-byte integer is an error *)
Definition fo_int (s : string) : option Z :=
  match field s with EmptyString => Some 0 | t => z <- signed figures1 Z.opp t; c32 z end.
(** read (arg,'(f10.3)') x: without a decimal point the last three figures are the fraction.
    Simplification: the exponent forms are not modelled (None) *)
Fixpoint split_dot (s : string) : string * option string :=
  match s with
  | EmptyString => (s, None)
  | String c t => if code c =? 46 then (EmptyString, Some t) else let '(a, b) := split_dot t in (String c a, b)
  end.
Definition fo_udec (s : string) : option Q :=
  match split_dot s with
  | (a, None) => z <- figures1 a; Some (inject_Z z / inject_Z 1000)%Q
  | (a, Some b) =>
      z <- match append a b with EmptyString => None | ab => figures 0 ab end;
      Some (inject_Z z / inject_Z (10 ^ Z.of_nat (String.length b)))%Q
  end.
Definition fo_real (s : string) : option Q :=
  match field s with EmptyString => Some 0%Q | t => signed fo_udec Qopp t end.

(** arg, a character variable of length w: the argument cut or padded to w; == ignores trailing blanks *)
Fixpoint rtrim (s : string) : string :=
  match s with
  | EmptyString => s
  | String c t => match rtrim t with EmptyString => if code c =? 32 then EmptyString else String c EmptyString | t' => String c t' end
  end.
Definition fo_arg (d : nat) (s : string) : string := rtrim (substring 0 (if (d =? 3)%nat then 32 else 64) s).
(** test3d_f90.f90:270-285, test2d_f90.f90:261-276: arg still is "-i" when it is compared with "zero", "step" and "index", so
    the last branch is taken; seed = seedinit + me, and seedinit is the number read *)
Definition fo_iopt (me : Z) (s : string) (o : opts) : outcome opts :=
  match fo_int s with
  | Some v => match c32 (v + me) with Some v => OOk (set_seed v o) | None => OUB end
  | None => OErr FAIL
  end.
(** test3d_f90.f90:357-384, test2d_f90.f90:348-375; the test of nloop is the one of test3d.cpp in both *)
Definition fo_sanity (nprocs : Z) (o : opts) : outcome opts :=
  stop (existsb (fun x => x <=? 0) (o_g o)) "Invalid grid size" (
  check_grid nprocs (o_pin o) (check_grid nprocs (o_pout o) (
  stop (o_nloop o <? 0) "Invalid nloop" (
  stop ((o_nloop o =? 0) && match o_tune o with Some _ => false | None => true end) "Invalid nloop" (
  stop (is_random (o_init o) && (seed_of o <=? 0)) "Invalid initialize setting" (
  stop ((o_mode o <? 0) || (3 <? o_mode o)) "Invalid fft mode" (
  stop ((1 <? o_mode o) && o_v o) "Cannot validate forward only FFT" (
  match o_tune o with
  | None => OOk o
  | Some (per, max, extra) =>
      stop (per <=? 0) "Invalid tune nper" (
      stop (Qltb max 0) "Invalid tune tmax" (
      stop ((extra <? 0) || (1 <? extra)) "Invalid tune extra" (
      stop (o_r o) "Cannot tune with remap only" (OOk o))))
  end)))))))).
Definition fo_options (d : nat) (nprocs me : Z) (args : list string) : outcome opts :=
  let a := map (fo_arg d) args in
  match gparse d fo_int fo_real (fo_iopt me) a (List.length a) 1 (opts0 d) with
  | OOk o => fo_sanity nprocs o | OErr m => OErr m | OUB => OUB
  end.

(** ** Fortran: layout.  proc_setup, proc3d, proc2d (test3d_f90.f90:400-503, test2d_f90.f90:391-443) compute with real*8 and
    are those of the C++ programs ([proc_setup3], [proc_setup2]) *)
Section Single.
Variable rd : Q -> Q.
(** inxlo = 1.0 * ipx * nx / inpx + 1, test3d_f90.f90:525-532, 544-551, test2d_f90.f90:463-467, 478-482, simple_f90.f90:95-100:
    1.0 is single precision, so all operations are, and integers are converted; the assignment truncates.  Bounds start at 1 *)
Definition fo_cut (ip n np : Z) : Q := rd (rd (rd (1 * rd (inject_Z ip)) * rd (inject_Z n)) / rd (inject_Z np)).
Definition fo_lo (ip n np : Z) : option Z := if np =? 0 then None else Some (Qfloor (rd (fo_cut ip n np + 1))).
(** inxhi = 1.0 * (ipx+1) * nx / inpx *)
Definition fo_hi (ip n np : Z) : option Z := if np =? 0 then None else Some (Qfloor (fo_cut (ip + 1) n np)).
Definition fo_box3 (N g : Z * Z * Z) (me : Z) : option box3 :=
  let '(nx, ny, nz) := N in
  let '(px, py, pz) := g in
  ipx <- cmod me px;
  q <- cdiv me px;
  ipy <- cmod q py;
  ipz <- cdiv me (px * py);
  xlo <- fo_lo ipx nx px; xhi <- fo_hi ipx nx px;
  ylo <- fo_lo ipy ny py; yhi <- fo_hi ipy ny py;
  zlo <- fo_lo ipz nz pz; zhi <- fo_hi ipz nz pz;
  Some (mkbox3 xlo xhi ylo yhi zlo zhi).
Definition fo_box2 (N g : Z * Z) (me : Z) : option box2 :=
  let '(nx, ny) := N in
  let '(px, py) := g in
  ipx <- cmod me px;
  ipy <- cdiv me px;
  xlo <- fo_lo ipx nx px; xhi <- fo_hi ipx nx px;
  ylo <- fo_lo ipy ny py; yhi <- fo_hi ipy ny py;
  Some (mkbox2 xlo xhi ylo yhi).
End Single.

(** ** Fortran: contents of the work array; work(1) is its first element *)
Section FoData.
Context {F V D : Type}.
Variables (vz vr : Z -> V) (cv : V -> F) (dist : F -> V -> D) (gtb : D -> D -> bool) (zero : D).
Definition fset (w : list F) (i : Z) (x : F) : option (list F) := zset w (i - 1) x.
Definition fget (w : list F) (i : Z) : option F := zget w (i - 1).

(** do m = 1,2*nfft_in; work(m) = 0.0 and work(m) = random(), test3d_f90.f90:643-646, 682-685 *)
Definition fo_fill_zero (nfft : Z) (work : list F) : option (list F) :=
  for_ (2 * nfft) (fun m w => fset w (m + 1) (cv (vz 0))) work.
Definition fo_fill_random (nfft seed : Z) (work : list F) : option (list F) :=
  s <- for_ (2 * nfft) (fun m s => let '(w, seed) := s in
         seed <- random seed; w <- fset w (m + 1) (cv (vr seed)); Some (w, seed)) (work, seed);
  Some (fst s).
(** initialize, test3d_f90.f90:634-688; the box has the 1-based bounds.  work(2*m) and work(2*m+1) with m from 0 *)
Definition fo_init3 (iflag : init) (seed : Z) (N : Z * Z * Z) (b : box3) (work : list F) : option (list F) :=
  let nfft_in := psize3 b in
  let points val := for_ nfft_in (fun m w =>
    p <- at3 b m; w <- fset w (2 * m) (cv (vz (val p))); fset w (2 * m + 1) (cv (vz 0))) work in
  match iflag with
  | ZERO => fo_fill_zero nfft_in work
  | STEP => points (stepval3 N)
  | INDEX => points indexval3
  | RANDOM => fo_fill_random nfft_in seed work
  end.
(** test2d_f90.f90:564-610: work(2*m+1) and work(2*m+2), but inside the step the imaginary part is not set *)
Definition fo_init2 (iflag : init) (seed : Z) (N : Z * Z) (b : box2) (work : list F) : option (list F) :=
  let nfft_in := psize2 b in
  match iflag with
  | ZERO => fo_fill_zero nfft_in work
  | STEP => for_ nfft_in (fun m w =>
      p <- at2 b m;
      if stepval2 N p =? 1 then fset w (2 * m + 1) (cv (vz 1))
      else w <- fset w (2 * m + 1) (cv (vz 0)); fset w (2 * m + 2) (cv (vz 0))) work
  | INDEX => for_ nfft_in (fun m w =>
      p <- at2 b m; w <- fset w (2 * m + 1) (cv (vz (indexval2 p))); fset w (2 * m + 2) (cv (vz 0))) work
  | RANDOM => fo_fill_random nfft_in seed work
  end.

(** validate, test3d_f90.f90:750-818; test2d_f90.f90:666-728 the same with 2d points.  The generator is
    restarted at seedinit, not at seedinit + me *)
Definition fo_worse (work : list F) (i : Z) (v : V) (eps : D) : option D :=
  w <- fget work i; let delta := dist w v in Some (if gtb delta eps then delta else eps).
Definition fo_check (nfft : Z) (val : Z -> option Z) (work : list F) : option D :=
  for_ nfft (fun m eps => v <- val m; eps <- fo_worse work (2 * m + 1) (vz v) eps; fo_worse work (2 * m + 2) (vz 0) eps) zero.
Definition fo_check_zero (nfft : Z) (work : list F) : option D :=
  for_ (2 * nfft) (fun m eps => fo_worse work (m + 1) (vz 0) eps) zero.
Definition fo_check_random (nfft seedinit : Z) (work : list F) : option D :=
  s <- for_ (2 * nfft) (fun m s => let '(eps, seed) := s in
         seed <- random seed; eps <- fo_worse work (m + 1) (vr seed) eps; Some (eps, seed)) (zero, seedinit);
  Some (fst s).
Definition fo_validate3 (iflag : init) (seedinit : Z) (N : Z * Z * Z) (b : box3) (work : list F) : option D :=
  match iflag with
  | ZERO => fo_check_zero (psize3 b) work
  | STEP => fo_check (psize3 b) (fun m => p <- at3 b m; Some (stepval3 N p)) work
  | INDEX => fo_check (psize3 b) (fun m => p <- at3 b m; Some (indexval3 p)) work
  | RANDOM => fo_check_random (psize3 b) seedinit work
  end.
Definition fo_validate2 (iflag : init) (seedinit : Z) (N : Z * Z) (b : box2) (work : list F) : option D :=
  match iflag with
  | ZERO => fo_check_zero (psize2 b) work
  | STEP => fo_check (psize2 b) (fun m => p <- at2 b m; Some (stepval2 N p)) work
  | INDEX => fo_check (psize2 b) (fun m => p <- at2 b m; Some (indexval2 p)) work
  | RANDOM => fo_check_random (psize2 b) seedinit work
  end.

(** output, test3d_f90.f90:697-744, test2d_f90.f90:619-661: one rank.  [if (me /= iproc) continue] does nothing in Fortran, so the
    body runs nprocs times on every rank; it prints work(2*m) and work(2*m+1) with m from 0 *)
Definition fo_output3 (n : nat) (b : box3) (nfft : Z) (me : nat) (work : list F) : option (list (line3 (F := F))) :=
  for_ (Z.of_nat n) (fun iproc acc =>
    for_ nfft (fun m acc => p <- at3 b m; x <- fget work (2 * m); y <- fget work (2 * m + 1); Some (acc ++ [(p, me, x, y)])) acc) [].
Definition fo_output2 (n : nat) (b : box2) (nfft : Z) (me : nat) (work : list F) : option (list (line2 (F := F))) :=
  for_ (Z.of_nat n) (fun iproc acc =>
    for_ nfft (fun m acc => p <- at2 b m; x <- fget work (2 * m); y <- fget work (2 * m + 1); Some (acc ++ [(p, me, x, y)])) acc) [].

(** simple_f90.f90:120-131 and 154-165: n starts at 1 *)
Definition fo_simple_init (b : box3) (work : list F) : option (list F) :=
  s <- for_ (nk b) (fun _ s => for_ (nj b) (fun _ s => for_ (ni b) (fun _ s => let '(w, n) := s in
         w <- fset w n (cv (vz n)); w <- fset w (n + 1) (cv (vz (n + 1))); Some (w, n + 2)) s) s) (work, 1);
  Some (fst s).
Definition fo_simple_diff (b : box3) (work : list F) : option D :=
  s <- for_ (nk b) (fun _ s => for_ (nj b) (fun _ s => for_ (ni b) (fun _ s => let '(e, n) := s in
         e <- fo_worse work n (vz n) e; e <- fo_worse work (n + 1) (vz (n + 1)) e; Some (e, n + 2)) s) s) (zero, 1);
  Some (fst s).

(** what -v prints: nothing, the greatest deviation of all ranks, or a variable that was never set *)
Inductive report := RNothing | RValue (e : D) | RUnset.
(** test3d.cpp:247 and 948 (test2d.cpp:246 and 857): [if (vflag) validate();] and [if (vflag) printf("Max error = %g\n",epsmax);] *)
Definition cpp_report (vflag : bool) (epsmax : D) : report :=
  let set := vflag in if vflag then if set then RValue epsmax else RUnset else RNothing.
(** test3d_f90.f90:178 and 1071, test2d_f90.f90:178 and 956: [if (vflag == 0) call validate()] *)
Definition fo_report (vflag : bool) (epsmax : D) : report :=
  let set := negb vflag in if vflag then if set then RValue epsmax else RUnset else RNothing.
End FoData.
Arguments RNothing {D}.
Arguments RValue {D} e.
Arguments RUnset {D}.

(** ** Fortran: timing() of test3d_f90.f90:830-1097; the loops for remap 4 are at 958-967 *)
Section FoTiming.
Context {F : Type}.
Definition fo_last (mode : Z) (nloop : nat) : list (@act F) :=
  List.concat (repeat (if mode <? 2 then [AOne 1 4 BWORK BWORK; AOne (-1) 5 BWORK BWORK] else [AOne 1 5 BWORK BWORK]) nloop).
Definition fo_timing3 (mode : Z) (tflag : bool) (nloop : nat) (zero : nat -> list F -> option (list F)) : list (@act F) :=
  if tflag then timing [1; 2; 3] mode true nloop zero ++ fo_last mode nloop ++ [ABarrier] else [].
End FoTiming.

(** ** Fortran: keywords.  The test programs pass "remaponly", "collective", "exchange" and "pack" to fft3d_set without a final
    zero (test3d_f90.f90:569-573, test2d_f90.f90:500-504); the C function sees the characters up to the next zero in memory,
    [rest] being those behind the literal *)
Definition fo_keyword (kw rest : string) : string := append kw rest.

(** ** Python: options *)
Fixpoint all_spaces (s : string) : bool :=
  match s with EmptyString => true | String c t => is_space c && all_spaces t end.
(** figures up to the end or to blanks that reach the end *)
Fixpoint py_figures (acc : Z) (s : string) : option Z :=
  match s with
  | EmptyString => Some acc
  | String c t =>
      if (48 <=? code c) && (code c <=? 57) then py_figures (10 * acc + (code c - 48)) t
      else if all_spaces s then Some acc else None
  end.
Definition py_figures1 (s : string) : option Z :=
  match s with String c _ => if (48 <=? code c) && (code c <=? 57) then py_figures 0 s else None | EmptyString => None end.
(** int(s): blanks, a sign, figures, blanks; anything else raises ValueError *)
Definition py_int (s : string) : option Z := signed py_figures1 Z.opp (skip s).
(** test3d.py:112-122, test2d.py:108-118; Python integers do not overflow *)
Definition py_iopt (me : Z) (s : string) (o : opts) : outcome opts :=
  if String.eqb s "zero" then OOk (set_init ZERO o)
  else if String.eqb s "step" then OOk (set_init STEP o)
  else if String.eqb s "index" then OOk (set_init INDEX o)
  else match py_int s with Some v => OOk (set_seed (v + me) o) | None => OErr FAIL end.
(** inpx*inpy, in both programs: test3d.py:174 and 178 leave inpz and outpz out *)
Definition py_prod (l : list Z) : Z := fold_left Z.mul (firstn 2 l) 1.
(** test3d.py:172-174, test2d.py:168-170 *)
Definition py_check_in (nprocs : Z) (l : list Z) (k : outcome opts) : outcome opts :=
  if forallb (fun x => x =? 0) l then k
  else if existsb (fun x => x <=? 0) l then OErr "Invalid proc grid"
  else if py_prod l =? nprocs then k else OErr "Specified proc grid does not match nprocs".
(** test3d.py:176-179, test2d.py:172-175: outpy is tested twice, outpz never *)
Definition py_check_out (nprocs : Z) (l : list Z) (k : outcome opts) : outcome opts :=
  if forallb (fun x => x =? 0) l then k
  else if existsb (fun x => x <=? 0) (firstn 2 l) then OErr "Invalid proc grid"
  else if py_prod l =? nprocs then k else OErr "Specified proc grid does not match nprocs".
(** test3d.py:170-191, test2d.py:166-187 *)
Definition py_sanity (nprocs : Z) (o : opts) : outcome opts :=
  stop (existsb (fun x => x <=? 0) (o_g o)) "Invalid grid size" (
  py_check_in nprocs (o_pin o) (py_check_out nprocs (o_pout o) (
  stop (o_nloop o <=? 0) "Invalid Nloop" (
  stop (is_random (o_init o) && (seed_of o <=? 0)) "Invalid initialize setting" (
  stop ((o_mode o <? 0) || (3 <? o_mode o)) "Invalid FFT mode" (
  stop ((1 <? o_mode o) && o_v o) "Cannot validate forward only FFT" (
  match o_tune o with
  | None => OOk o
  | Some (per, max, extra) =>
      stop (per <=? 0) "Invalid tune nper" (
      stop (Qltb max 0) "Invalid tune tmax" (
      stop ((extra <? 0) || (1 <? extra)) "Invalid tune extra" (
      stop (o_r o) "Cannot tune with remap only" (OOk o))))
  end))))))).
(** [py_float] is float(), None = ValueError *)
Definition py_options (d : nat) (py_float : string -> option Q) (nprocs me : Z) (args : list string) : outcome opts :=
  match gparse d py_int py_float (py_iopt me) args (List.length args) 1 (opts0 d) with
  | OOk o => py_sanity nprocs o | OErr m => OErr m | OUB => OUB
  end.

(** ** Python: layout *)
Section PyLayout.
Variable rd : Q -> Q.
(** bestsurf, test3d.py:221: an integer times 2.0; surf, test3d.py:236-239: all variables are integers and / is integer division *)
Definition py_best3 (N : Z * Z * Z) : Q := let '(nx, ny, nz) := N in rd (2 * rd (inject_Z (nx * ny + ny * nz + nz * nx))).
Definition py_surf3 (N g : Z * Z * Z) : Z :=
  let '(nx, ny, nz) := N in let '(px, py, pz) := g in
  let boxx := nx / px in let boxy := ny / py in let boxz := nz / pz in boxx * boxy + boxy * boxz + boxz * boxx.
(** test3d.py:252 and 264-266, test2d.py:215 and 227-229 *)
Definition py_best2 (N : Z * Z) : Q := let '(nx, ny) := N in rd (2 * rd (inject_Z (nx + ny))).
Definition py_surf2 (N g : Z * Z) : Z := let '(nx, ny) := N in let '(px, py) := g in nx / px + ny / py.
(** px, py, pz are undefined (None) until a candidate is better than bestsurf *)
Definition py_search3 (nprocs : Z) (N : Z * Z * Z) : Q * option (Z * Z * Z) :=
  fold_left (fun st ipx =>
    if nprocs mod ipx =? 0 then
      let nremain := nprocs / ipx in
      fold_left (fun st ipy =>
        if nremain mod ipy =? 0 then
          let g := (ipx, ipy, nremain / ipy) in
          let surf := inject_Z (py_surf3 N g) in
          if Qltb surf (fst st) then (surf, Some g) else st
        else st) (upto nremain) st
    else st) (upto nprocs) (py_best3 N, None).
(** proc3d, test3d.py:217-247; None = NameError or error_all *)
Definition py_proc3d (nprocs : Z) (N : Z * Z * Z) : option (Z * Z * Z) :=
  g <- snd (py_search3 nprocs N);
  let '(px, py, pz) := g in if px * py * pz =? nprocs then Some g else None.
Definition py_search2 (nprocs : Z) (N : Z * Z) : Q * option (Z * Z) :=
  fold_left (fun st ipx =>
    if nprocs mod ipx =? 0 then
      let g := (ipx, nprocs / ipx) in
      let surf := inject_Z (py_surf2 N g) in
      if Qltb surf (fst st) then (surf, Some g) else st
    else st) (upto nprocs) (py_best2 N, None).
(** proc2d, test2d.py:212-234 *)
Definition py_proc2d (nprocs : Z) (N : Z * Z) : option (Z * Z) :=
  g <- snd (py_search2 nprocs N); let '(px, py) := g in if px * py =? nprocs then Some g else None.
(** proc2d, test3d.py:249-273 *)
Definition py_proc2d_of3 (nprocs : Z) (N : Z * Z * Z) : option (Z * Z * Z) :=
  let '(nx, ny, nz) := N in
  g <- snd (py_search2 nprocs (nx, ny)); let '(px, py) := g in if px * py * 1 =? nprocs then Some (px, py, 1) else None.
(** proc_setup, test3d.py:205-215 *)
Definition py_proc_setup3 (nprocs mode : Z) (N pin pout : Z * Z * Z) : option ((Z * Z * Z) * (Z * Z * Z)) :=
  gin <- (if unset3 pin then py_proc3d nprocs N else Some pin);
  gout <- (if unset3 pout then
             if (mode =? 0) || (mode =? 2) then py_proc3d nprocs N
             else if (mode =? 1) || (mode =? 3) then py_proc2d_of3 nprocs N else Some pout
           else Some pout);
  Some (gin, gout).
(** test2d.py:200-210 *)
Definition py_proc_setup2 (nprocs : Z) (N pin pout : Z * Z) : option ((Z * Z) * (Z * Z)) :=
  gin <- (if unset2 pin then py_proc2d nprocs N else Some pin);
  Some (gin, if unset2 pout then (nprocs, 1) else pout).
(** grid_setup, test3d.py:280-320, test2d.py:242-274, simple.py:62-71: [tbox3], [tbox2] (floats are doubles; a division by 0 raises an exception) *)
End PyLayout.

(** ** Python: random, initialize, validate are statement by statement those of the C++ programs ([initialize3], [validate3], ...) but
    integers do not overflow and / rounds down: test3d.py:47-53, test2d.py:47-53 *)
Definition py_random (seed : Z) : Z :=
  let k := seed / IQ in let s := IA * (seed - k * IQ) - IR * k in if s <? 0 then s + IM else s.

(** ** Python: main, test3d.py:745-755: in modes 2 and 3 a name that does not exist is called (NameError: None); test2d.py:671-679 *)
Section PyMain.
Context {F : Type}.
Definition py_run3 (mode : Z) (rflag : bool) (nloop : nat) (w0 : nat -> list F -> option (list F)) : option (list (@act F)) :=
  if (mode <? 2) || (nloop =? 0)%nat then Some (run_part mode rflag nloop w0) else None.
Definition py_run2 (mode : Z) (rflag : bool) (nloop : nat) (w0 : nat -> list F -> option (list F)) : option (list (@act F)) :=
  Some (run_part mode rflag nloop w0).

(** output, test3d.py:427-454, test2d.py:374-401, of rank me: world.Recv lacks its buffer (TypeError on every rank but 0), and tmp is
    not set on rank 0 when it is sent (UnboundLocalError): None.  The points are printed as (iglobal,jglobal) with jlocal = m/nxlocal *)
Definition py_output (n me : nat) (b : box2) (nfft : Z) (work : list F) : option (list (line2 (F := F))) :=
  if (1 <=? me)%nat then None
  else
    l <- for_ nfft (fun m acc => p <- at2 b m; x <- zget work (2 * m); y <- zget work (2 * m + 1); Some (acc ++ [(p, me, x, y)])) [];
    if (me <? n - 1)%nat then None else Some l.
End PyMain.

(** simple.py:126-127: the result of world.allreduce is dropped, rank 0 prints its own mydiff.  simple.cpp:160-162 prints [allmax] *)
Definition py_simple_report {D} (mydiff : nat -> option D) : option D := mydiff 0%nat.
