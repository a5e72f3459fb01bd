(** Report.v : main(), plan() and timing() of the test programs as one rank runs them: which calls are made, when the clock
    is read and what rank 0 prints at the end.

    C++: test/test3d.cpp, test2d.cpp; C: test3d_c.cpp, test2d_c.cpp; Fortran: test3d_f90.f90, test2d_f90.f90; Python: test3d.py,
    test2d.py.  Simplifications: times and quotients are rational numbers (no rounding; Fortran's single precision megabytes and
    logarithm likewise), the logarithm is any function [lg]; a line is its format and the values.  Fortran's list-directed output
    is written as the format that has a conversion for each item.  What the library does to the public variables is any function.
    Fortran's keywords of fft?d_set are taken to be terminated (C68_keyword says when they are). *)

From Coq Require Import QArith String.
From Verif Require Import Base TestOpt Wrap.
Open Scope string_scope.
Open Scope list_scope.
Open Scope Z_scope.

(** ** events and values *)
Inductive pevent :=
| PBarrier                 (* MPI_Barrier and MPI_Wtime *)
| PLayout                  (* proc_setup(IN), proc_setup(OUT), grid_setup() *)
| PCreate                  (* the constructor and the assignments of the settings *)
| PSetup | PTune           (* setup(), tune() *)
| PAlloc (bytes : Z)       (* smalloc of the FFT grid *)
| PInit                    (* initialize() *)
| POutput (flag : Z)       (* output(flag,..) *)
| PValidate                (* validate() *)
| PCompute (flag : Z) | P1d (flag : Z) | PRemaps (flag : Z) | POne (flag which : Z)
| PClear.                  (* work[i] = 0.0 *)

(** what printf receives: an int, a double (None: not a finite number, or a variable never set), a string (None: NULL) *)
Inductive val := VI (z : Z) | VD (q : option Q) | VS (s : option string).
Definition line : Type := string * list val.

(** a run that ends, that does something undefined, or that raises a (Python) exception *)
Inductive rres (A : Type) := ROk (a : A) | RUB | RExc.
Arguments ROk {A}. Arguments RUB {A}. Arguments RExc {A}.
Definition rbind {A B} (m : rres A) (k : A -> rres B) : rres B := match m with ROk a => k a | RUB => RUB | RExc => RExc end.
Definition rmap_ {A B} (f : A -> rres B) (l : list A) : rres (list B) :=
  fold_right (fun a r => rbind (f a) (fun b => rbind r (fun t => ROk (b :: t)))) (ROk []) l.
Definition ropt {A} (o : option A) : rres A := match o with Some a => ROk a | None => RUB end.

(** a quotient of doubles *)
Definition fdiv (a b : option Q) : option Q :=
  match a, b with Some x, Some y => if Qeq_bool y 0 then None else Some (x / y)%Q | _, _ => None end.
Definition d (q : Q) : val := VD (Some q).
(** an int expression *)
Definition int32 (z : Z) : rres Z := if (-2147483648 <=? z) && (z <=? 2147483647) then ROk z else RUB.

(** ** what runs: the library, the clock, the results of the functions modelled elsewhere *)
Record env := mkenv {
  e_clk : nat -> Q;                  (* the readings of MPI_Wtime in the test program *)
  e_new : pub;                       (* the constructor *)
  e_setup : pub -> pub * Z;          (* setup(): the public variables and fftsize *)
  e_tune : pub -> pub * Z;           (* tune() *)
  e_lg : Z -> Q;                     (* log(n)/log(2) *)
  e_eps : Q;                         (* epsmax as validate() computes it *)
  e_inp : list Z; e_outp : list Z;   (* inpx, inpy, inpz and outpx, outpy, outpz as proc_setup() leaves them *)
  e_nprocs : Z; e_me : Z; e_esize : Z }.

(** the times measured; the times of timing() exist with -t only *)
Record times := mktimes { m_init : Q; m_setup : Q; m_tune : Q; m_fft : Q; m_parts : option (Q * Q * list Q) }.

(** ** the sequence of calls *)
Definition M (A : Type) : Type := nat * list pevent -> A * (nat * list pevent).
Definition ret {A} (a : A) : M A := fun s => (a, s).
Definition mbind {A B} (m : M A) (k : A -> M B) : M B := fun s => let '(a, s) := m s in k a s.
Notation "x <-- m ; k" := (mbind m (fun x => k)) (at level 61, m at next level, right associativity).
Definition evs (l : list pevent) : M unit := fun s => (tt, (fst s, snd s ++ l)).
(** MPI_Barrier(world); time = MPI_Wtime() *)
Definition wtime (clk : nat -> Q) : M Q := fun s => (clk (fst s), (S (fst s), snd s ++ [PBarrier])).

Inductive lang := Cpp | C | Fortran | Python.

(** the assignments of plan(), test3d.cpp:555-559, test2d.cpp:499-503 *)
Definition settings_cpp (o : opts) (p : pub) : pub :=
  let p := with_six (v_scaled p) (if o_r o then 1 else 0) (v_collective p) (v_exchange p) (v_packflag p) (v_memoryflag p) p in
  let p := with_six (v_scaled p) (v_remaponly p) (o_c o) (v_exchange p) (v_packflag p) (v_memoryflag p) p in
  let p := with_six (v_scaled p) (v_remaponly p) (v_collective p) (o_e o) (v_packflag p) (v_memoryflag p) p in
  with_six (v_scaled p) (v_remaponly p) (v_collective p) (v_exchange p) (o_p o) (v_memoryflag p) p.
(** test3d_c.cpp:503-507, test2d_c.cpp:447-451, test3d_f90.f90:568-573, test2d_f90.f90:499-504, test3d.py:330-335, test2d.py:283-288 *)
Definition settings_c (o : opts) (p : pub) : pub :=
  fft_set (fft_set (fft_set (fft_set p "remaponly" (if o_r o then 1 else 0)) "collective" (o_c o)) "exchange" (o_e o)) "pack" (o_p o).

Definition get_int (dim3 : bool) (p : pub) (keyword : string) : Z := if dim3 then fft3d_get_int p keyword else fft2d_get_int p keyword.

(** plan(), test3d.cpp:552-600, test2d.cpp:496-542; test3d_c.cpp:500-548, test2d_c.cpp:444-490; test3d_f90.f90:561-616,
    test2d_f90.f90:492-545, test3d.py:327-369, test2d.py:280-321: the variables of the object, fftsize, nloop, timesetup, timetune *)
Definition plan (L : lang) (dim3 : bool) (o : opts) (e : env) : M (pub * Z * Z * Q * Q) :=
  let p := match L with Cpp => settings_cpp o (e_new e) | _ => settings_c o (e_new e) end in
  _ <-- evs [PCreate];
  time1 <-- wtime (e_clk e);
  match o_tune o with
  | None =>
      _ <-- evs [PSetup];
      let '(p, fftsize) := e_setup e p in
      time2 <-- wtime (e_clk e);
      ret (p, fftsize, o_nloop o, time2 - time1, 0)%Q
  | Some _ =>
      _ <-- evs [PTune];
      let '(p, fftsize) := e_tune e p in
      let nloop := if o_nloop o =? 0 then match L with Cpp => v_npertrial p | _ => get_int dim3 p "npertrial" end else o_nloop o in
      time2 <-- wtime (e_clk e);
      ret (p, fftsize, nloop, match L with Cpp => v_setuptime p | _ => fft_get_double p "setuptime" end, time2 - time1)%Q
  end.

(** [if (mode < 2) for (..) { op(1); op(-1); } else for (..) op(1)] *)
Definition loop (mode nloop : Z) (op : Z -> pevent) : list pevent :=
  List.concat (repeat (if mode <? 2 then [op 1; op (-1)] else [op 1]) (Z.to_nat nloop)).

(** the remaps timed one by one: test3d.cpp:843-908, test2d.cpp:765-815, test?d_c.cpp, test?d.py; test3d_f90.f90:958-967 has
    a 5 in two of the three calls for remap 4 *)
Definition one_remaps (L : lang) (dim3 : bool) (mode nloop : Z) : list (list pevent) :=
  let one w := loop mode nloop (fun f => POne f w) in
  if dim3 then
    [one 1; one 2; one 3;
     match L with
     | Fortran => List.concat (repeat (if mode <? 2 then [POne 1 4; POne (-1) 5] else [POne 1 5]) (Z.to_nat nloop))
     | _ => one 4
     end]
  else [one 1; one 2; one 3].
Fixpoint measure_all (clk : nat -> Q) (before : Q) (l : list (list pevent)) : M (list Q) :=
  match l with
  | [] => ret []
  | calls :: t => _ <-- evs calls; now <-- wtime clk; r <-- measure_all clk now t; ret ((now - before)%Q :: r)
  end.
(** timing() up to the output, test3d.cpp:789-908, test2d.cpp:711-816, and the same parts of the other programs *)
Definition measure (L : lang) (dim3 : bool) (clk : nat -> Q) (mode nloop : Z) : M (Q * Q * list Q) :=
  _ <-- evs [PClear]; time1 <-- wtime clk; _ <-- evs (loop mode nloop P1d); time2 <-- wtime clk; let time1d := (time2 - time1)%Q in
  _ <-- evs [PClear]; time1 <-- wtime clk; _ <-- evs (loop mode nloop PRemaps); time2 <-- wtime clk; let time_remap := (time2 - time1)%Q in
  _ <-- evs [PClear]; time1 <-- wtime clk; ones <-- measure_all clk time1 (one_remaps L dim3 mode nloop);
  ret (time1d, time_remap, ones).

(** main(), test3d.cpp:206-252, test2d.cpp:205-251; test3d_c.cpp:154-200; test3d_f90.f90:128-190,
    test2d_f90.f90:128-190; test3d.py:720-772, test2d.py:644-696.  The Fortran
    programs validate when they should not; test3d.py calls an undefined name in modes 2 and 3 ([main] below) *)
Definition run (L : lang) (dim3 : bool) (o : opts) (e : env) : M (pub * Z * Z * times) :=
  time1 <-- wtime (e_clk e);
  _ <-- evs [PLayout];
  pl <-- plan L dim3 o e;
  let '(p, fftsize, nloop, timesetup, timetune) := pl in
  _ <-- evs [PAlloc (e_esize e * 2 * fftsize); PInit];
  time2 <-- wtime (e_clk e);
  let timeinit := (time2 - time1)%Q in
  _ <-- evs (if o_o o then [POutput 0] else []);
  time1 <-- wtime (e_clk e);
  _ <-- evs (loop (o_mode o) nloop PCompute);
  time2 <-- wtime (e_clk e);
  let timefft := (time2 - time1)%Q in
  _ <-- evs (if (match L with Fortran => negb (o_v o) | _ => o_v o end) then [PValidate] else []);
  _ <-- evs (if o_o o then [POutput (if o_mode o <? 2 then 0 else 1)] else []);
  if o_t o then
    parts <-- measure L dim3 (e_clk e) (o_mode o) nloop;
    ret (p, fftsize, nloop, mktimes timeinit timesetup timetune timefft (Some parts))
  else ret (p, fftsize, nloop, mktimes timeinit timesetup timetune timefft None).

(** ** the report *)
Definition ints (l : list Z) : list val := map VI l.

(** the lines about the numbers of FFTs, test3d.cpp:950-959, test2d.cpp:851-860 and so on *)
Definition ffts_line (mode nloop nprocs : Z) : list line :=
  if mode =? 0 then [("%d forward and %d back FFTs on %d procs", ints [nloop; nloop; nprocs])]
  else if mode =? 1 then [("%d forward and %d back convolution FFTs on %d procs", ints [nloop; nloop; nprocs])]
  else if mode =? 2 then [("%d forward FFTs on %d procs", ints [nloop; nprocs])]
  else if mode =? 3 then [("%d forward convolution FFTs on %d procs", ints [nloop; nprocs])]
  else [].

(** "Time for remap #1".. and the fraction, test3d.cpp:987-994 *)
Definition digit (i : Z) : string := if i =? 1 then "1" else if i =? 2 then "2" else if i =? 3 then "3" else "4".
Fixpoint remap_lines (hash : string) (timefft : Q) (i : Z) (l : list Q) : list line :=
  match l with
  | [] => []
  | t :: r => ("Time for remap " ++ hash ++ digit i ++ " = %g secs", [d t])%string ::
      ("  fraction of time in remap #" ++ digit i ++ " = %g", [VD (fdiv (Some t) (Some timefft))])%string :: remap_lines hash timefft (i + 1) r
  end.
(** the lines about time with -t, test3d.cpp:979-995, test2d.cpp:880-894; [hash] is "\#" in three lines of test2d.py *)
Definition part_lines (hash : string) (nfft : Z) (timefft : Q) (parts : option (Q * Q * list Q)) : list line :=
  match parts with
  | None => []
  | Some (time1d, time_remap, ones) =>
      [("Time for 1d FFTs only = %g secs", [d time1d]);
       ("  time/fft1d = %g secs", [VD (fdiv (Some time1d) (Some (inject_Z nfft)))]);
       ("  fraction of time in 1d FFTs = %g", [VD (fdiv (Some time1d) (Some timefft))]);
       ("Time for remaps only = %g secs", [d time_remap]);
       ("  fraction of time in remaps = %g", [VD (fdiv (Some time_remap) (Some timefft))])] ++
      remap_lines hash timefft 1 ones
  end.
Definition megabytes (b : Z) : Q := (inject_Z b / 1024 / 1024)%Q.

(** onetime and floprate, test3d.cpp:915-922, test2d.cpp:822-829 *)
Definition onetime (nfft : Z) (timefft : Q) : option Q := fdiv (Some timefft) (Some (inject_Z nfft)).
Definition floprate (lg : Z -> Q) (nsize : Z) (one : option Q) : option Q :=
  fdiv (fdiv (Some (5 * inject_Z nsize * lg nsize)%Q) one) (Some (inject_Z (1024 * 1024 * 1024))).
Definition product (l : list Z) : Z := fold_right Z.mul 1 l.
(** nfft, test3d.cpp:914-916 *)
Definition nfft_of (mode nloop : Z) : rres Z := if mode <? 2 then int32 (2 * nloop) else ROk nloop.

Definition trial_fmt3 : string := "  coll exch pack 3dFFT 1dFFT remap r1 r2 r3 r4: %d %d %d %g %g %g %g %g %g %g".
Definition trial_fmt2 : string := "  coll exch pack 2dFFT 1dFFT remap r1 r2 r3: %d %d %d %g %g %g %g %g %g".

(** *** C++ *)
(** one line of the tuning trials: reading an element of a vector *)
Definition rd {A} (v : list A) (i : Z) (f : A -> val) : rres val := rbind (ropt (zget v i)) (fun x => ROk (f x)).
(** test3d.cpp:939-948 *)
Definition tuned_cpp3 (p : pub) : rres (list line) :=
  rbind (rmap_ (fun i => rbind (rmap_ (fun x => x)
    [rd (v_cflags p) i VI; rd (v_eflags p) i VI; rd (v_pflags p) i VI; rd (v_tfft p) i d; rd (v_t1d p) i d; rd (v_tremap p) i d;
     rd (v_tremap1 p) i d; rd (v_tremap2 p) i d; rd (v_tremap3 p) i d; rd (v_tremap4 p) i d]) (fun l => ROk (trial_fmt3, l))) (zrange (v_ntrial p)))
  (fun l => ROk (("Tuning trials & iterations: %d %d", ints [v_ntrial p; v_npertrial p]) :: l)).
(** test2d.cpp:841-849 *)
Definition tuned_cpp2 (p : pub) : rres (list line) :=
  rbind (rmap_ (fun i => rbind (rmap_ (fun x => x)
    [rd (v_cflags p) i VI; rd (v_eflags p) i VI; rd (v_pflags p) i VI; rd (v_tfft p) i d; rd (v_t1d p) i d; rd (v_tremap p) i d;
     rd (v_tremap1 p) i d; rd (v_tremap2 p) i d; rd (v_tremap3 p) i d]) (fun l => ROk (trial_fmt2, l))) (zrange (v_ntrial p)))
  (fun l => ROk (("Tuning trials & iterations: %d %d", ints [v_ntrial p; v_npertrial p]) :: l)).

(** timing(), test3d.cpp:912-996 *)
Definition report_cpp3 (o : opts) (e : env) (p : pub) (fftsize nloop : Z) (m : times) : rres (list line) :=
  rbind (nfft_of (o_mode o) nloop) (fun nfft =>
  let one := onetime nfft (m_fft m) in
  let rate := floprate (e_lg e) (product (o_g o)) one in
  let gridbytes := e_esize e * 2 * fftsize in
  if negb (e_me e =? 0) then ROk [] else
  rbind (match o_tune o with Some _ => tuned_cpp3 p | None => ROk [] end) (fun tuned => ROk (
    [("3d FFTs with %s library, precision = %s", [VS (Some (v_fft1d p)); VS (Some (v_precision p))]);
     ("Grid size: %d %d %d", ints (o_g o));
     ("  initial proc grid: %d %d %d", ints (e_inp e));
     ("  x pencil proc grid: %d %d %d", ints [v_npfast1 p; v_npfast2 p; v_npfast3 p]);
     ("  y pencil proc grid: %d %d %d", ints [v_npmid1 p; v_npmid2 p; v_npmid3 p]);
     ("  z pencil proc grid: %d %d %d", ints [v_npslow1 p; v_npslow2 p; v_npslow3 p]);
     ("  3d brick proc grid: %d %d %d", ints [v_npbrick1 p; v_npbrick2 p; v_npbrick3 p]);
     ("  final proc grid: %d %d %d", ints (e_outp e))] ++ tuned ++
    ffts_line (o_mode o) nloop (e_nprocs e) ++
    [("Collective, exchange, pack methods: %d %d %d", ints [v_collective p; v_exchange p; v_packflag p]);
     ("Memory usage (per-proc) for FFT grid = %g MBytes", [d (megabytes gridbytes)]);
     ("Memory usage (per-proc) by fftMPI = %g MBytes", [d (megabytes (v_memusage p))])] ++
    (if o_v o then [("Max error = %g", [d (e_eps e)])] else []) ++
    [("Initialize grid = %g secs", [d (match o_tune o with None => m_init m - m_setup m | Some _ => m_init m - m_tune m end)%Q]);
     ("FFT setup = %g secs", [d (m_setup m)]);
     ("FFT tune = %g secs", [d (m_tune m)]);
     ("Time for 3d FFTs = %g secs", [d (m_fft m)]);
     ("  time/fft3d = %g secs", [VD one]);
     ("  flop rate for 3d FFTs = %g Gflops", [VD rate])] ++
    part_lines "#" nfft (m_fft m) (m_parts m)))).
(** timing(), test2d.cpp:818-896 *)
Definition report_cpp2 (o : opts) (e : env) (p : pub) (fftsize nloop : Z) (m : times) : rres (list line) :=
  rbind (nfft_of (o_mode o) nloop) (fun nfft =>
  let one := onetime nfft (m_fft m) in
  let rate := floprate (e_lg e) (product (o_g o)) one in
  let gridbytes := e_esize e * 2 * fftsize in
  if negb (e_me e =? 0) then ROk [] else
  rbind (match o_tune o with Some _ => tuned_cpp2 p | None => ROk [] end) (fun tuned => ROk (
    [("2d FFTs with %s library, precision = %s", [VS (Some (v_fft1d p)); VS (Some (v_precision p))]);
     ("Grid size: %d %d", ints (o_g o));
     ("  initial proc grid: %d %d", ints (e_inp e));
     ("  x pencil proc grid: %d %d", ints [v_npfast1 p; v_npfast2 p]);
     ("  y pencil proc grid: %d %d", ints [v_npslow1 p; v_npslow2 p]);
     ("  2d brick proc grid: %d %d", ints [v_npbrick1 p; v_npbrick2 p]);
     ("  final proc grid: %d %d", ints (e_outp e))] ++ tuned ++
    ffts_line (o_mode o) nloop (e_nprocs e) ++
    [("Collective, exchange, pack methods: %d %d %d", ints [v_collective p; v_exchange p; v_packflag p]);
     ("Memory usage (per-proc) for FFT grid = %g MBytes", [d (megabytes gridbytes)]);
     ("Memory usage (per-proc) by fftMPI = %g MBytes", [d (megabytes (v_memusage p))])] ++
    (if o_v o then [("Max error = %g", [d (e_eps e)])] else []) ++
    [("Initialize grid = %g secs", [d (match o_tune o with None => m_init m - m_setup m | Some _ => m_init m - m_tune m end)%Q]);
     ("FFT setup = %g secs", [d (m_setup m)]);
     ("FFT tune = %g secs", [d (m_tune m)]);
     ("Time for 2d FFTs = %g secs", [d (m_fft m)]);
     ("  time/fft2d = %g secs", [VD one]);
     ("  flop rate for 2d FFTs = %g Gflops", [VD rate])] ++
    part_lines "#" nfft (m_fft m) (m_parts m)))).

(** *** C *)
(** an element of the vector a get function returned: NULL must not be indexed *)
Definition rdp {A} (v : option (list A) * option Z) (i : Z) (f : A -> val) : rres val := rbind (ropt (fst v)) (fun l => rd l i f).
(** test3d_c.cpp:897-917 *)
Definition tuned_c3 (p : pub) : rres (list line) :=
  let ntrial := fft3d_get_int p "ntrial" in let npertrial := fft3d_get_int p "npertrial" in
  let cflags := fft_get_int_vector p "cflags" in let eflags := fft_get_int_vector p "eflags" in let pflags := fft_get_int_vector p "pflags" in
  let tfft := fft3d_get_double_vector p "tfft" in let t1d := fft3d_get_double_vector p "t1d" in let tremap := fft3d_get_double_vector p "tremap" in
  let tremap1 := fft3d_get_double_vector p "tremap1" in let tremap2 := fft3d_get_double_vector p "tremap2" in
  let tremap3 := fft3d_get_double_vector p "tremap3" in let tremap4 := fft3d_get_double_vector p "tremap4" in
  rbind (rmap_ (fun i => rbind (rmap_ (fun x => x)
    [rdp cflags i VI; rdp eflags i VI; rdp pflags i VI; rdp tfft i d; rdp t1d i d; rdp tremap i d;
     rdp tremap1 i d; rdp tremap2 i d; rdp tremap3 i d; rdp tremap4 i d]) (fun l => ROk (trial_fmt3, l))) (zrange ntrial))
  (fun l => ROk (("Tuning trials & iterations: %d %d", ints [ntrial; npertrial]) :: l)).
(** test2d_c.cpp:797-816 *)
Definition tuned_c2 (p : pub) : rres (list line) :=
  let ntrial := fft2d_get_int p "ntrial" in let npertrial := fft2d_get_int p "npertrial" in
  let cflags := fft_get_int_vector p "cflags" in let eflags := fft_get_int_vector p "eflags" in let pflags := fft_get_int_vector p "pflags" in
  let tfft := fft2d_get_double_vector p "tfft" in let t1d := fft2d_get_double_vector p "t1d" in let tremap := fft2d_get_double_vector p "tremap" in
  let tremap1 := fft2d_get_double_vector p "tremap1" in let tremap2 := fft2d_get_double_vector p "tremap2" in
  let tremap3 := fft2d_get_double_vector p "tremap3" in
  rbind (rmap_ (fun i => rbind (rmap_ (fun x => x)
    [rdp cflags i VI; rdp eflags i VI; rdp pflags i VI; rdp tfft i d; rdp t1d i d; rdp tremap i d;
     rdp tremap1 i d; rdp tremap2 i d; rdp tremap3 i d]) (fun l => ROk (trial_fmt2, l))) (zrange ntrial))
  (fun l => ROk (("Tuning trials & iterations: %d %d", ints [ntrial; npertrial]) :: l)).
(** timing(), test3d_c.cpp:860-967 *)
Definition report_c3 (o : opts) (e : env) (p : pub) (fftsize nloop : Z) (m : times) : rres (list line) :=
  rbind (nfft_of (o_mode o) nloop) (fun nfft =>
  let one := onetime nfft (m_fft m) in
  let rate := floprate (e_lg e) (product (o_g o)) one in
  let gridbytes := e_esize e * 2 * fftsize in
  if negb (e_me e =? 0) then ROk [] else
  rbind (match o_tune o with Some _ => tuned_c3 p | None => ROk [] end) (fun tuned => ROk (
    [("3d FFTs with %s library, precision = %s", [VS (fst (fft_get_string p "fft1d")); VS (fst (fft_get_string p "precision"))]);
     ("Grid size: %d %d %d", ints (o_g o));
     ("  initial proc grid: %d %d %d", ints (e_inp e));
     ("  x pencil proc grid: %d %d %d", ints [fft3d_get_int p "npfast1"; fft3d_get_int p "npfast2"; fft3d_get_int p "npfast3"]);
     ("  y pencil proc grid: %d %d %d", ints [fft3d_get_int p "npmid1"; fft3d_get_int p "npmid2"; fft3d_get_int p "npmid3"]);
     ("  z pencil proc grid: %d %d %d", ints [fft3d_get_int p "npslow1"; fft3d_get_int p "npslow2"; fft3d_get_int p "npslow3"]);
     ("  3d brick proc grid: %d %d %d", ints [fft3d_get_int p "npbrick1"; fft3d_get_int p "npbrick2"; fft3d_get_int p "npbrick3"]);
     ("  final proc grid: %d %d %d", ints (e_outp e))] ++ tuned ++
    ffts_line (o_mode o) nloop (e_nprocs e) ++
    [("Collective, exchange, pack methods: %d %d %d", ints [fft3d_get_int p "collective"; fft3d_get_int p "exchange"; fft3d_get_int p "pack"]);
     ("Memory usage (per-proc) for FFT grid = %g MBytes", [d (megabytes gridbytes)]);
     ("Memory usage (per-proc) by fftMPI = %g MBytes", [d (megabytes (fft_get_int64 p "memusage"))])] ++
    (if o_v o then [("Max error = %g", [d (e_eps e)])] else []) ++
    [("Initialize grid = %g secs", [d (match o_tune o with None => m_init m - m_setup m | Some _ => m_init m - m_tune m end)%Q]);
     ("FFT setup = %g secs", [d (m_setup m)]);
     ("FFT tune = %g secs", [d (m_tune m)]);
     ("Time for 3d FFTs = %g secs", [d (m_fft m)]);
     ("  time/fft3d = %g secs", [VD one]);
     ("  flop rate for 3d FFTs = %g Gflops", [VD rate])] ++
    part_lines "#" nfft (m_fft m) (m_parts m)))).
(** timing(), test2d_c.cpp:767-865 *)
Definition report_c2 (o : opts) (e : env) (p : pub) (fftsize nloop : Z) (m : times) : rres (list line) :=
  rbind (nfft_of (o_mode o) nloop) (fun nfft =>
  let one := onetime nfft (m_fft m) in
  let rate := floprate (e_lg e) (product (o_g o)) one in
  let gridbytes := e_esize e * 2 * fftsize in
  if negb (e_me e =? 0) then ROk [] else
  rbind (match o_tune o with Some _ => tuned_c2 p | None => ROk [] end) (fun tuned => ROk (
    [("2d FFTs with %s library, precision = %s", [VS (fst (fft_get_string p "fft1d")); VS (fst (fft_get_string p "precision"))]);
     ("Grid size: %d %d", ints (o_g o));
     ("  initial proc grid: %d %d", ints (e_inp e));
     ("  x pencil proc grid: %d %d", ints [fft2d_get_int p "npfast1"; fft2d_get_int p "npfast2"]);
     ("  y pencil proc grid: %d %d", ints [fft2d_get_int p "npslow1"; fft2d_get_int p "npslow2"]);
     ("  2d brick proc grid: %d %d", ints [fft2d_get_int p "npbrick1"; fft2d_get_int p "npbrick2"]);
     ("  final proc grid: %d %d", ints (e_outp e))] ++ tuned ++
    ffts_line (o_mode o) nloop (e_nprocs e) ++
    [("Collective, exchange, pack methods: %d %d %d", ints [fft2d_get_int p "collective"; fft2d_get_int p "exchange"; fft2d_get_int p "pack"]);
     ("Memory usage (per-proc) for FFT grid = %g MBytes", [d (megabytes gridbytes)]);
     ("Memory usage (per-proc) by fftMPI = %g MBytes", [d (megabytes (fft_get_int64 p "memusage"))])] ++
    (if o_v o then [("Max error = %g", [d (e_eps e)])] else []) ++
    [("Initialize grid = %g secs", [d (match o_tune o with None => m_init m - m_setup m | Some _ => m_init m - m_tune m end)%Q]);
     ("FFT setup = %g secs", [d (m_setup m)]);
     ("FFT tune = %g secs", [d (m_tune m)]);
     ("Time for 2d FFTs = %g secs", [d (m_fft m)]);
     ("  time/fft2d = %g secs", [VD one]);
     ("  flop rate for 2d FFTs = %g Gflops", [VD rate])] ++
    part_lines "#" nfft (m_fft m) (m_parts m)))).

(** *** Fortran *)
(** c_f_pointer(ptr,v,[nlen]): an array with elements 1..nlen *)
Definition rdf {A} (v : option (list A) * option Z) (i : Z) (f : A -> val) : rres val :=
  rbind (ropt (fst v)) (fun l => rbind (ropt (snd v)) (fun n => if (1 <=? i) && (i <=? n) then rd l (i - 1) f else RUB)).
(** test3d_f90.f90:1021-1049, test2d_f90.f90:908-935; [r4] only in 3d, whose text has "3dfft 1dfft" *)
Definition tuned_f (dim3 : bool) (p : pub) : rres (list line) :=
  let ntrial := get_int dim3 p "ntrial" in let npertrial := get_int dim3 p "npertrial" in
  let gd := if dim3 then fft3d_get_double_vector p else fft2d_get_double_vector p in
  rbind (rmap_ (fun i => rbind (rmap_ (fun x => x)
    ([rdf (fft_get_int_vector p "cflags") i VI; rdf (fft_get_int_vector p "eflags") i VI; rdf (fft_get_int_vector p "pflags") i VI;
      rdf (gd "tfft") i d; rdf (gd "t1d") i d; rdf (gd "tremap") i d; rdf (gd "tremap1") i d; rdf (gd "tremap2") i d; rdf (gd "tremap3") i d] ++
     (if dim3 then [rdf (gd "tremap4") i d] else [])))
    (fun l => ROk (if dim3 then "  coll exch pack 3dfft 1dfft remap r1 r2 r3 r4: %d %d %d %g %g %g %g %g %g %g"%string else trial_fmt2, l))) (map (Z.add 1) (zrange ntrial)))
  (fun l => ROk (("Tuning trials & iterations: %d %d", ints [ntrial; npertrial]) :: l)).
(** timing() from "stats output" on, test3d_f90.f90:974-1099, test2d_f90.f90:868-982.  default integers are ints: 8*2*fftsize (4*2*fftsize
    in single precision) and, in 2d, nx*ny are computed as such.  epsmax is set by validate() only, which runs without -v only *)
Definition report_f (dim3 : bool) (o : opts) (e : env) (p : pub) (fftsize nloop : Z) (m : times) : rres (list line) :=
  let g := get_int dim3 p in
  rbind (nfft_of (o_mode o) nloop) (fun nfft =>
  let one := onetime nfft (m_fft m) in
  rbind (if dim3 then ROk (product (o_g o)) else int32 (product (o_g o))) (fun nsize =>
  let rate := floprate (e_lg e) nsize one in
  rbind (int32 (e_esize e * 2 * fftsize)) (fun gridbytes =>
  if negb (e_me e =? 0) then ROk [] else
  rbind (match o_tune o with Some _ => tuned_f dim3 p | None => ROk [] end) (fun tuned => ROk (
    [((if dim3 then "3d FFTs with %s library, precision = %s" else "2d FFTs with %s library, precision = %s")%string, [VS (fst (fft_get_string p "fft1d")); VS (fst (fft_get_string p "precision"))]);
     ((if dim3 then "Grid size: %d %d %d" else "Grid size: %d %d")%string, ints (o_g o));
     ((if dim3 then "  initial proc grid: %d %d %d" else "  initial proc grid: %d %d")%string, ints (e_inp e))] ++
    (if dim3 then
    [("  x pencil proc grid: %d %d %d", ints [g "npfast1"; g "npfast2"; g "npfast3"]);
     ("  y pencil proc grid: %d %d %d", ints [g "npmid1"; g "npmid2"; g "npmid3"]);
     ("  z pencil proc grid: %d %d %d", ints [g "npslow1"; g "npslow2"; g "npslow3"]);
     ("  3d brick proc grid: %d %d %d", ints [g "npbrick1"; g "npbrick2"; g "npbrick3"]);
     ("  final proc grid: %d %d %d", ints (e_outp e))]
    else
    [("  x pencil proc grid: %d %d", ints [g "npfast1"; g "npfast2"]);
     ("  y pencil proc grid: %d %d", ints [g "npslow1"; g "npslow2"]);
     ("  2d brick proc grid: %d %d", ints [g "npbrick1"; g "npbrick2"]);
     ("  final proc grid: %d %d", ints (e_outp e))]) ++ tuned ++
    ffts_line (o_mode o) nloop (e_nprocs e) ++
    [("Collective, exchange, pack methods: %d %d %d", ints [g "collective"; g "exchange"; g "pack"]);
     ("Memory usage (per-proc) for FFT grid = %g MBytes", [d (megabytes gridbytes)]);
     ("Memory usage (per-proc) by fftMPI = %g MBytes", [d (megabytes (fft_get_int64 p "memusage"))])] ++
    (if o_v o then [("Max error = %g", [VD None])] else []) ++
    [("Initialize grid = %g secs", [d (match o_tune o with Some _ => m_init m - m_setup m | None => m_init m - m_tune m end)%Q]);
     ("FFT setup = %g secs", [d (m_setup m)]);
     ("FFT tune = %g secs", [d (m_tune m)]);
     ((if dim3 then "Time for 3d FFTs = %g secs" else "Time for 2d FFTs = %g secs")%string, [d (m_fft m)]);
     ((if dim3 then "  time/fft3d = %g secs" else "  time/fft2d = %g secs")%string, [VD one]);
     ((if dim3 then "  flop rate for 3d FFTs = %g Gflops" else "  flop rate for 2d FFTs = %g Gflops")%string, [VD rate])] ++
    part_lines "#" nfft (m_fft m) (m_parts m)))))).

(** *** Python *)
(** fft.get_int_vector(keyword)[i]: the first nlen elements are copied, None is not subscriptable *)
Definition rdy {A} (v : option (list A) * option Z) (i : Z) (f : A -> val) : rres val :=
  match v with
  | (Some l, Some n) => rbind (rmap_ (fun j => ropt (zget l j)) (zrange n)) (fun l => match zget l i with Some x => ROk (f x) | None => RExc end)
  | _ => RExc
  end.
(** test3d.py:643-657, test2d.py:570-582 *)
Definition tuned_y (dim3 : bool) (p : pub) : rres (list line) :=
  let ntrial := get_int dim3 p "ntrial" in let npertrial := get_int dim3 p "npertrial" in
  let gd := if dim3 then fft3d_get_double_vector p else fft2d_get_double_vector p in
  rbind (rmap_ (fun i => rbind (rmap_ (fun x => x)
    ([rdy (fft_get_int_vector p "cflags") i VI; rdy (fft_get_int_vector p "eflags") i VI; rdy (fft_get_int_vector p "pflags") i VI;
      rdy (gd "tfft") i d; rdy (gd "t1d") i d; rdy (gd "tremap") i d; rdy (gd "tremap1") i d; rdy (gd "tremap2") i d; rdy (gd "tremap3") i d] ++
     (if dim3 then [rdy (gd "tremap4") i d] else [])))
    (fun l => ROk (if dim3 then trial_fmt3 else trial_fmt2, l))) (zrange ntrial))
  (fun l => ROk (("Tuning trials & iterations: %d %d", ints [ntrial; npertrial]) :: l)).
(** timing() from "stats output" on, test3d.py:616-697, test2d.py:545-621; a division by 0.0 raises an exception.  test3d.py says "2d brick" and "time/fft2d" *)
Definition ydiv (a b : Q) : rres Q := if Qeq_bool b 0 then RExc else ROk (a / b)%Q.
Definition report_y (dim3 : bool) (o : opts) (e : env) (p : pub) (fftsize nloop : Z) (m : times) : rres (list line) :=
  let g := get_int dim3 p in
  let nfft := if o_mode o <? 2 then 2 * nloop else nloop in
  rbind (ydiv (m_fft m) (inject_Z nfft)) (fun one =>
  let nsize := product (o_g o) in
  rbind (ydiv (5 * inject_Z nsize * e_lg e nsize) one) (fun x =>
  rbind (ydiv x (inject_Z (1024 * 1024 * 1024))) (fun rate =>
  let gridbytes := e_esize e * 2 * fftsize in
  if negb (e_me e =? 0) then ROk [] else
  rbind (match o_tune o with Some _ => tuned_y dim3 p | None => ROk [] end) (fun tuned =>
  ROk (
    [((if dim3 then "3d FFTs with %s library, precision = %s" else "2d FFTs with %s library, precision = %s")%string, [VS (fst (fft_get_string p "fft1d")); VS (fst (fft_get_string p "precision"))]);
     ((if dim3 then "Grid size: %d %d %d" else "Grid size: %d %d")%string, ints (o_g o));
     ((if dim3 then "  initial proc grid: %d %d %d" else "  initial proc grid: %d %d")%string, ints (e_inp e))] ++
    (if dim3 then
    [("  x pencil proc grid: %d %d %d", ints [g "npfast1"; g "npfast2"; g "npfast3"]);
     ("  y pencil proc grid: %d %d %d", ints [g "npmid1"; g "npmid2"; g "npmid3"]);
     ("  z pencil proc grid: %d %d %d", ints [g "npslow1"; g "npslow2"; g "npslow3"]);
     ("  2d brick proc grid: %d %d %d", ints [g "npbrick1"; g "npbrick2"; g "npbrick3"]);
     ("  final proc grid: %d %d %d", ints (e_outp e))]
    else
    [("  x pencil proc grid: %d %d", ints [g "npfast1"; g "npfast2"]);
     ("  y pencil proc grid: %d %d", ints [g "npslow1"; g "npslow2"]);
     ("  2d brick proc grid: %d %d", ints [g "npbrick1"; g "npbrick2"]);
     ("  final proc grid: %d %d", ints (e_outp e))]) ++ tuned ++
    ffts_line (o_mode o) nloop (e_nprocs e) ++
    [("Collective, exchange, pack methods: %d %d %d", ints [g "collective"; g "exchange"; g "pack"]);
     ("Memory usage (per-proc) for FFT grid = %g MBytes", [d (megabytes gridbytes)]);
     ("Memory usage (per-proc) by fftMPI = %g MBytes", [d (megabytes (fft_get_int64 p "memusage"))])] ++
    (if o_v o then [("Max error = %g", [d (e_eps e)])] else []) ++
    [("Initialize grid = %g secs", [d (match o_tune o with None => m_init m - m_setup m | Some _ => m_init m - m_tune m end)%Q]);
     ("FFT setup = %g secs", [d (m_setup m)]);
     ("FFT tune = %g secs", [d (m_tune m)]);
     ((if dim3 then "Time for 3d FFTs = %g secs" else "Time for 2d FFTs = %g secs")%string, [d (m_fft m)]);
     ("  time/fft2d = %g secs", [d one]);
     ((if dim3 then "  flop rate for 3d FFTs = %g Gflops" else "  flop rate for 2d FFTs = %g Gflops")%string, [d rate])] ++
    part_lines (if dim3 then "#" else "\#") nfft (m_fft m) (m_parts m)))))).

(** *** the whole program *)
Definition report (L : lang) (dim3 : bool) : opts -> env -> pub -> Z -> Z -> times -> rres (list line) :=
  match L with
  | Cpp => if dim3 then report_cpp3 else report_cpp2
  | C => if dim3 then report_c3 else report_c2
  | Fortran => report_f dim3
  | Python => report_y dim3
  end.
(** what is printed at the end, and the calls made; test3d.py:755 calls fft3d_compute, which is not defined *)
Definition main (L : lang) (dim3 : bool) (o : opts) (e : env) : rres (list line * list pevent) :=
  let '((p, fftsize, nloop, m), (_, log)) := run L dim3 o e (O, []) in
  match L with
  | Python => if dim3 && negb (o_mode o <? 2) && (0 <? nloop) then RExc else rbind (report L dim3 o e p fftsize nloop m) (fun l => ROk (l, log))
  | _ => rbind (report L dim3 o e p fftsize nloop m) (fun l => ROk (l, log))
  end.
