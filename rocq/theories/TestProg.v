(** TestProg.v : model of the test and example programs test/test3d.cpp, test/test2d.cpp
    and test/simple.cpp: how they lay out the grid, what they put in the work array,
    which calls they make and what they report.  test3d_c.cpp, test2d_c.cpp and
    simple_c.cpp are the same programs calling the C interface (see Wrap.v).  The
    parsing of the command line is in TestOpt.v.

    Simplifications: C ints are unbounded [Z] (but the random number generator checks
    its range); a double is a rational and each operation is followed by a rounding
    function [rd], which is [fl] of Double.v for IEEE doubles and the identity for
    exact arithmetic; timers, barriers and printing of statistics are left out. *)

From Coq Require Import QArith Qround.
From Verif Require Import Base Spec Sched Kiss Layout Setup3d Setup2d Fft3d Fft2d.
Local Open Scope Z_scope.

(** ** integer division of C: undefined for divisor 0 *)
Definition cdiv (a b : Z) : option Z := if b =? 0 then None else Some (Z.quot a b).
Definition cmod (a b : Z) : option Z := if b =? 0 then None else Some (Z.rem a b).

(** ** processor grids *)
Section Layouts.
Variable rd : Q -> Q.

(** bestsurf, test3d.cpp:434; xprd = nx etc. are exact *)
Definition best3 (N : Z * Z * Z) : Q :=
  let '(nx, ny, nz) := N in
  let x := inject_Z nx in let y := inject_Z ny in let z := inject_Z nz in
  rd (2 * rd (rd (rd (x * y) + rd (y * z)) + rd (z * x))).
(** boxx .. surf, test3d.cpp:447-450 *)
Definition surf3 (N g : Z * Z * Z) : Q :=
  let '(nx, ny, nz) := N in let '(px, py, pz) := g in
  let x := rd (inject_Z nx / inject_Z px) in
  let y := rd (inject_Z ny / inject_Z py) in
  let z := rd (inject_Z nz / inject_Z pz) in
  rd (rd (rd (x * y) + rd (y * z)) + rd (z * x)).
(** test3d.cpp:475 and 486-488, test2d.cpp:428 and 439-441 *)
Definition best2 (N : Z * Z) : Q := let '(nx, ny) := N in rd (2 * rd (inject_Z nx + inject_Z ny)).
Definition surf2 (N g : Z * Z) : Q :=
  let '(nx, ny) := N in let '(px, py) := g in
  rd (rd (inject_Z nx / inject_Z px) + rd (inject_Z ny / inject_Z py)).

(** 1, 2, .., n *)
Definition upto (n : Z) : list Z := map (fun i => i + 1) (zrange n).

(** the loops of proc3d, test3d.cpp:439-462: bestsurf and px,py,pz, which start at 0 *)
Definition search3 (nprocs : Z) (N : Z * Z * Z) : Q * (Z * Z * Z) :=
  fold_left (fun st ipx =>
    if nprocs mod ipx =? 0 then
      let nremain := nprocs / ipx in
      fold_left (fun st ipy =>
        if nremain mod ipy =? 0 then
          let g := (ipx, ipy, nremain / ipy) in
          let surf := surf3 N g in
          if Qltb surf (fst st) then (surf, g) else st
        else st) (upto nremain) st
    else st) (upto nprocs) (best3 N, (0, 0, 0)).
(** proc3d, test3d.cpp:426-466; None = error_all *)
Definition proc3d (nprocs : Z) (N : Z * Z * Z) : option (Z * Z * Z) :=
  let '(px, py, pz) := snd (search3 nprocs N) in
  if px * py * pz =? nprocs then Some (px, py, pz) else None.

(** the loop of proc2d, test3d.cpp:480-495, test2d.cpp:433-448 *)
Definition search2 (nprocs : Z) (N : Z * Z) : Q * (Z * Z) :=
  fold_left (fun st ipx =>
    if nprocs mod ipx =? 0 then
      let g := (ipx, nprocs / ipx) in
      let surf := surf2 N g in
      if Qltb surf (fst st) then (surf, g) else st
    else st) (upto nprocs) (best2 N, (0, 0)).
(** proc2d of test2d, test2d.cpp:421-452 *)
Definition proc2d (nprocs : Z) (N : Z * Z) : option (Z * Z) :=
  let '(px, py) := snd (search2 nprocs N) in
  if px * py =? nprocs then Some (px, py) else None.
(** proc2d of test3d, test3d.cpp:468-500: the 2d grid of x and y, pz = 1 *)
Definition proc2d_of3 (nprocs : Z) (N : Z * Z * Z) : option (Z * Z * Z) :=
  let '(nx, ny, nz) := N in
  let '(px, py) := snd (search2 nprocs (nx, ny)) in
  if px * py * 1 =? nprocs then Some (px, py, 1) else None.

Definition unset3 (g : Z * Z * Z) : bool := let '(a, b, c) := g in (a =? 0) && (b =? 0) && (c =? 0).
Definition unset2 (g : Z * Z) : bool := let '(a, b) := g in (a =? 0) && (b =? 0).

(** proc_setup(IN) and proc_setup(OUT), test3d.cpp:412-424; pin, pout are the grids given
    by the user, 0 0 0 if none *)
Definition proc_setup3 (nprocs mode : Z) (N pin pout : Z * Z * Z) : option ((Z * Z * Z) * (Z * Z * Z)) :=
  gin <- (if unset3 pin then proc3d nprocs N else Some pin);
  gout <- (if unset3 pout then
             if (mode =? 0) || (mode =? 2) then proc3d nprocs N
             else if (mode =? 1) || (mode =? 3) then proc2d_of3 nprocs N else Some pout
           else Some pout);
  Some (gin, gout).
(** test2d.cpp:407-419 *)
Definition proc_setup2 (nprocs : Z) (N pin pout : Z * Z) : option ((Z * Z) * (Z * Z)) :=
  gin <- (if unset2 pin then proc2d nprocs N else Some pin);
  Some (gin, if unset2 pout then (nprocs, 1) else pout).

(** static_cast<int> (1.0 * ip * n / np), e.g. test3d.cpp:517.  The cast truncates; the
    value is not negative here *)
Definition dcut (ip n np : Z) : option Z :=
  if np =? 0 then None else Some (Qfloor (rd (rd (rd (1 * inject_Z ip) * inject_Z n) / inject_Z np))).

(** grid_setup for one of the two grids, test3d.cpp:511-545 *)
Definition tbox3 (N g : Z * Z * Z) (me : Z) : option box3 :=
  let '(nx, ny, nz) := N in
  let '(px, py, pz) := g in
  ipx <- cmod me px;
  q <- cdiv me px;
  ipy <- cmod q py;
  ipz <- cdiv me (px * py);
  xlo <- dcut ipx nx px; xhi <- dcut (ipx + 1) nx px;
  ylo <- dcut ipy ny py; yhi <- dcut (ipy + 1) ny py;
  zlo <- dcut ipz nz pz; zhi <- dcut (ipz + 1) nz pz;
  Some (mkbox3 xlo (xhi - 1) ylo (yhi - 1) zlo (zhi - 1)).
(** test2d.cpp:463-489 *)
Definition tbox2 (N g : Z * Z) (me : Z) : option box2 :=
  let '(nx, ny) := N in
  let '(px, py) := g in
  ipx <- cmod me px;
  ipy <- cdiv me px;
  xlo <- dcut ipx nx px; xhi <- dcut (ipx + 1) nx px;
  ylo <- dcut ipy ny py; yhi <- dcut (ipy + 1) ny py;
  Some (mkbox2 xlo (xhi - 1) ylo (yhi - 1)).
End Layouts.

(** permute, test3d.cpp:560-562; test2d.cpp:505-507 has the same constants, although 2 is
    not a permutation of a 2d grid *)
Definition permute3 (mode : Z) : Z := if (mode =? 0) || (mode =? 2) then 0 else 2.
Definition permute2 (mode : Z) : Z := if (mode =? 0) || (mode =? 2) then 0 else 2.

(** ** simple.cpp *)

(** while (np < n) { if (n % np == 0) break; np++; }, simple.cpp:69-72; np = 0 makes n % np undefined *)
Fixpoint next_divisor (fuel : nat) (n np : Z) : option Z :=
  if np <? n then
    match fuel with
    | O => None
    | S f => r <- cmod n np; if r =? 0 then Some np else next_divisor f n (np + 1)
    end
  else Some np.
(** simple.cpp:66-79; s1 and s2 are what (int) pow(nprocs,1.0/3.0) and (int) sqrt(npmidslow) give *)
Definition simple_grid (nprocs s1 : Z) (s2 : Z -> Z) : option (Z * Z * Z) :=
  npfast <- next_divisor (Z.to_nat nprocs) nprocs s1;
  npmidslow <- cdiv nprocs npfast;
  npmid <- next_divisor (Z.to_nat npmidslow) npmidslow (s2 npmidslow);
  q <- cdiv nprocs npfast;
  npslow <- cdiv q npmid;
  Some (npfast, npmid, npslow).
(** (int) 1.0*ip*n/np, simple.cpp:94: the cast applies to 1.0 only, the rest is integer arithmetic *)
Definition icut (ip n np : Z) : option Z := cdiv (1 * ip * n) np.
(** simple.cpp:90-99 *)
Definition simple_box (N g : Z * Z * Z) (me : Z) : option box3 :=
  let '(nfast, nmid, nslow) := N in
  let '(npfast, npmid, npslow) := g in
  ip <- cmod me npfast;
  q <- cdiv me npfast;
  im <- cmod q npmid;
  is <- cdiv me (npfast * npmid);
  ilo <- icut ip nfast npfast; ihi <- icut (ip + 1) nfast npfast;
  jlo <- icut im nmid npmid; jhi <- icut (im + 1) nmid npmid;
  klo <- icut is nslow npslow; khi <- icut (is + 1) nslow npslow;
  Some (mkbox3 ilo (ihi - 1) jlo (jhi - 1) klo (khi - 1)).

(** ** the random number generator, test3d.cpp:107-113, 1015-1023 *)
Definition IA : Z := 16807.
Definition IM : Z := 2147483647.
Definition IQ : Z := 127773.
Definition IR : Z := 2836.
(** the result of an int operation: None if it overflows *)
Definition c32 (z : Z) : option Z := if (- 2 ^ 31 <=? z) && (z <=? 2 ^ 31 - 1) then Some z else None.
Definition random (seed : Z) : option Z :=
  k <- cdiv seed IQ;
  a <- c32 (k * IQ);
  b <- c32 (seed - a);
  c <- c32 (IA * b);
  d <- c32 (IR * k);
  s <- c32 (c - d);
  if s <? 0 then c32 (s + IM) else Some s.

(** ** contents of the work array *)
Inductive init := ZERO | STEP | INDEX | RANDOM.

(** Type V is double, F is FFT_SCALAR, D is double again (the deltas); [vz] converts an
    int to double, [vr s] is AM*s, [cv] converts double to FFT_SCALAR, [dist w v] is
    fabs(w-v), [gtb] is >, [zero] is 0.0.  fabs(w) is written [dist w (vz 0)]. *)
Section Data.
Context {F V D : Type}.
Variables (vz vr : Z -> V) (cv : V -> F) (dist : F -> V -> D) (gtb : D -> D -> bool) (zero : D).

(** ilocal .. kglobal, test3d.cpp:629-634 *)
Definition at3 (b : box3) (m : Z) : option (Z * Z * Z) :=
  ilocal <- cmod m (ni b);
  q <- cdiv m (ni b);
  jlocal <- cmod q (nj b);
  klocal <- cdiv m (ni b * nj b);
  Some (ilo b + ilocal, jlo b + jlocal, klo b + klocal).
(** test2d.cpp:570-573 *)
Definition at2 (b : box2) (m : Z) : option (Z * Z) :=
  ilocal <- cmod m (ni2 b);
  jlocal <- cdiv m (ni2 b);
  Some (ilo2 b + ilocal, jlo2 b + jlocal).

(** test3d.cpp:635, 653; in C nx/2 truncates *)
Definition stepval3 (N p : Z * Z * Z) : Z :=
  let '(nx, ny, nz) := N in let '(i, j, k) := p in
  if (i <? Z.quot nx 2) && (j <? Z.quot ny 2) && (k <? Z.quot nz 2) then 1 else 0.
Definition indexval3 (p : Z * Z * Z) : Z := let '(i, j, k) := p in k + j + i + 1.
(** test2d.cpp:574, 588 *)
Definition stepval2 (N p : Z * Z) : Z :=
  let '(nx, ny) := N in let '(i, j) := p in if (i <? Z.quot nx 2) && (j <? Z.quot ny 2) then 1 else 0.
Definition indexval2 (p : Z * Z) : Z := let '(i, j) := p in j + i + 1.

(** the three kinds of loops over the points of a rank; [val m] is the value of point m *)
Definition fill_zero (nfft : Z) (work : list F) : option (list F) :=
  for_ (2 * nfft) (fun m w => zset w m (cv (vz 0))) work.
Definition fill_points (nfft : Z) (val : Z -> option Z) (work : list F) : option (list F) :=
  for_ nfft (fun m w => v <- val m; w <- zset w (2 * m) (cv (vz v)); zset w (2 * m + 1) (cv (vz 0))) work.
Definition fill_random (nfft seed : Z) (work : list F) : option (list F) :=
  s <- for_ (2 * nfft) (fun m s => let '(w, seed) := s in
         seed <- random seed; w <- zset w m (cv (vr seed)); Some (w, seed)) (work, seed);
  Some (fst s).

(** initialize, test3d.cpp:618-660 *)
Definition initialize3 (iflag : init) (seed : Z) (N : Z * Z * Z) (b : box3) (work : list F) : option (list F) :=
  let nfft_in := psize3 b in
  match iflag with
  | ZERO => fill_zero nfft_in work
  | STEP => fill_points nfft_in (fun m => p <- at3 b m; Some (stepval3 N p)) work
  | INDEX => fill_points nfft_in (fun m => p <- at3 b m; Some (indexval3 p)) work
  | RANDOM => fill_random nfft_in seed work
  end.
(** test2d.cpp:560-596 *)
Definition initialize2 (iflag : init) (seed : Z) (N : Z * Z) (b : box2) (work : list F) : option (list F) :=
  let nfft_in := psize2 b in
  match iflag with
  | ZERO => fill_zero nfft_in work
  | STEP => fill_points nfft_in (fun m => p <- at2 b m; Some (stepval2 N p)) work
  | INDEX => fill_points nfft_in (fun m => p <- at2 b m; Some (indexval2 p)) work
  | RANDOM => fill_random nfft_in seed work
  end.

(** ** validate, test3d.cpp:720-782: epsilon of one rank *)

(** delta = fabs(work[m]-v); if (delta > epsilon) epsilon = delta; *)
Definition worse (work : list F) (m : Z) (v : V) (eps : D) : option D :=
  w <- zget work m; let delta := dist w v in Some (if gtb delta eps then delta else eps).
Definition check_zero (nfft : Z) (work : list F) : option D :=
  for_ (2 * nfft) (fun m eps => worse work m (vz 0) eps) zero.
Definition check_points (nfft : Z) (val : Z -> option Z) (work : list F) : option D :=
  for_ nfft (fun m eps => v <- val m; eps <- worse work (2 * m) (vz v) eps; worse work (2 * m + 1) (vz 0) eps) zero.
(** the generator is restarted at seedinit, test3d.cpp:774 *)
Definition check_random (nfft seedinit : Z) (work : list F) : option D :=
  s <- for_ (2 * nfft) (fun m s => let '(eps, seed) := s in
         seed <- random seed; eps <- worse work m (vr seed) eps; Some (eps, seed)) (zero, seedinit);
  Some (fst s).
Definition validate3 (iflag : init) (seedinit : Z) (N : Z * Z * Z) (b : box3) (work : list F) : option D :=
  let nfft_in := psize3 b in
  match iflag with
  | ZERO => check_zero nfft_in work
  | STEP => check_points nfft_in (fun m => p <- at3 b m; Some (stepval3 N p)) work
  | INDEX => check_points nfft_in (fun m => p <- at3 b m; Some (indexval3 p)) work
  | RANDOM => check_random nfft_in seedinit work
  end.
(** test2d.cpp:648-704 *)
Definition validate2 (iflag : init) (seedinit : Z) (N : Z * Z) (b : box2) (work : list F) : option D :=
  let nfft_in := psize2 b in
  match iflag with
  | ZERO => check_zero nfft_in work
  | STEP => check_points nfft_in (fun m => p <- at2 b m; Some (stepval2 N p)) work
  | INDEX => check_points nfft_in (fun m => p <- at2 b m; Some (indexval2 p)) work
  | RANDOM => check_random nfft_in seedinit work
  end.

(** MPI_Allreduce(&epsilon,&epsmax,1,MPI_DOUBLE,MPI_MAX,world), test3d.cpp:781; None if some rank failed *)
Definition allmax (n : nat) (eps : nat -> option D) : option D :=
  fold_left (fun a r => a <- a; e <- eps r; Some (if gtb e a then e else a)) (seq 0 n) (Some zero).

(** simple.cpp:118-129: work[n] = n for the two values of every point.  The loops over
    k, j, i run over the extents, which are not negative *)
Definition simple_init (b : box3) (work : list F) : option (list F) :=
  s <- for_ (nk b) (fun _ s => for_ (nj b) (fun _ s => for_ (ni b) (fun _ s => let '(w, n) := s in
         w <- zset w n (cv (vz n)); w <- zset w (n + 1) (cv (vz (n + 1))); Some (w, n + 2)) s) s) (work, 0);
  Some (fst s).
(** simple.cpp:147-158 *)
Definition simple_diff (b : box3) (work : list F) : option D :=
  s <- for_ (nk b) (fun _ s => for_ (nj b) (fun _ s => for_ (ni b) (fun _ s => let '(e, n) := s in
         e <- worse work n (vz n) e; e <- worse work (n + 1) (vz (n + 1)) e; Some (e, n + 2)) s) s) (zero, 0);
  Some (fst s).
End Data.

(** ** the calls, test3d.cpp:227-237, test2d.cpp:226-236: nloop pairs of transforms, or
    nloop forward transforms, in place in the work array *)
Section Main.
Context {F : Type}.
Definition BWORK : bsel := BIn.

(** initialize() as a step of rank r *)
Definition start_with (w0 : list F -> option (list F)) : @instr F :=
  ILocal (fun m => w <- w0 (getb BWORK m); Some (setb BWORK w m)).

Fixpoint times_code (k : nat) (body : nat -> list (@instr F)) (r : nat) : list (@instr F) :=
  match k with O => [] | S k => body r ++ times_code k body r end.

Variables (O : sops F) (rnorm : Z -> F).
(** the body of the loop; remaponly = rflag, scaled is the default 1 (src/fft3d.cpp:130) *)
Definition round3 (f : fft3) (P : plans3) (ro : bool) (r : nat) : list (@instr F) :=
  compute3 O rnorm f P true ro FORWARD BWORK BWORK r ++ compute3 O rnorm f P true ro BACKWARD BWORK BWORK r.
(** [esize] as in Pack2d.v *)
Definition round2 (esize : Z) (f : fft2) (P : plans2) (ro : bool) (r : nat) : list (@instr F) :=
  compute2 O rnorm esize f P true ro FORWARD BWORK BWORK r ++ compute2 O rnorm esize f P true ro BACKWARD BWORK BWORK r.
(** initialize() followed by the loop of mode 0 and 1 *)
Definition test3 (f : fft3) (P : plans3) (ro : bool) (nloop : nat) (w0 : nat -> list F -> option (list F)) (r : nat) : list (@instr F) :=
  start_with (w0 r) :: times_code nloop (round3 f P ro) r.
Definition test2 (esize : Z) (f : fft2) (P : plans2) (ro : bool) (nloop : nat) (w0 : nat -> list F -> option (list F)) (r : nat) : list (@instr F) :=
  start_with (w0 r) :: times_code nloop (round2 esize f P ro) r.
End Main.
