(** TestInt.v : the index arithmetic of initialize(), validate() and the clearing loops of the test programs in ints of 32 bits (C83).
    As in Pack32.v every int expression is a tree of Overflow.v, evaluated by [ev], where overflow is undefined; a loop variable that
    counts from 0 to an int needs no check.  What TestProg.v has in unbounded integers. *)

From Verif Require Import Base Spec Layout Overflow OverflowProofs Setup3d Setup2d TestProg.
Local Open Scope Z_scope.

(** nfft_in, test3d.cpp:526, test2d.cpp:474 *)
Definition nfft32_3 (b : box3) : option Z :=
  ev ((#(ihi b) - #(ilo b) + #1) * (#(jhi b) - #(jlo b) + #1) * (#(khi b) - #(klo b) + #1))%I.
Definition nfft32_2 (b : box2) : option Z := ev ((#(ihi2 b) - #(ilo2 b) + #1) * (#(jhi2 b) - #(jlo2 b) + #1))%I.

Section Data32.
Context {F V D : Type}.
Variables (vz vr : Z -> V) (cv : V -> F) (dist : F -> V -> D) (gtb : D -> D -> bool) (zero : D).

(** test3d.cpp:629-634; nxlocal and nylocal are computed before the loop, test3d.cpp:625-626 *)
Definition at3_32 (b : box3) (nx ny m : Z) : option (Z * Z * Z) :=
  ilocal <- ev (#m % #nx)%I;
  jlocal <- ev ((#m / #nx) % #ny)%I;
  klocal <- ev (#m / (#nx * #ny))%I;
  i <- ev (#(ilo b) + #ilocal)%I; j <- ev (#(jlo b) + #jlocal)%I; k <- ev (#(klo b) + #klocal)%I;
  Some (i, j, k).
(** test2d.cpp:570-573 *)
Definition at2_32 (b : box2) (nx m : Z) : option (Z * Z) :=
  ilocal <- ev (#m % #nx)%I;
  jlocal <- ev (#m / #nx)%I;
  i <- ev (#(ilo2 b) + #ilocal)%I; j <- ev (#(jlo2 b) + #jlocal)%I;
  Some (i, j).
(** test3d.cpp:635, 653 *)
Definition step3_32 (N p : Z * Z * Z) : option Z :=
  let '(nx, ny, nz) := N in let '(i, j, k) := p in
  hx <- ev (#nx / #2)%I; hy <- ev (#ny / #2)%I; hz <- ev (#nz / #2)%I;
  Some (if (i <? hx) && (j <? hy) && (k <? hz) then 1 else 0).
Definition index3_32 (p : Z * Z * Z) : option Z := let '(i, j, k) := p in ev (#k + #j + #i + #1)%I.
(** test2d.cpp:574, 588 *)
Definition step2_32 (N p : Z * Z) : option Z :=
  let '(nx, ny) := N in let '(i, j) := p in
  hx <- ev (#nx / #2)%I; hy <- ev (#ny / #2)%I;
  Some (if (i <? hx) && (j <? hy) then 1 else 0).
Definition index2_32 (p : Z * Z) : option Z := let '(i, j) := p in ev (#j + #i + #1)%I.

(** the loops, test3d.cpp:621, 628-638, 657-658 *)
Definition fill_zero32 (nfft : Z) (work : list F) : option (list F) :=
  c <- ev (#2 * #nfft)%I; for_ c (fun m w => zset w m (cv (vz 0))) work.
Definition fill_points32 (nfft : Z) (val : Z -> option Z) (work : list F) : option (list F) :=
  for_ nfft (fun m w => v <- val m; a <- ev (#2 * #m)%I; w <- zset w a (cv (vz v)); a <- ev (#2 * #m + #1)%I; zset w a (cv (vz 0))) work.
Definition fill_random32 (nfft seed : Z) (work : list F) : option (list F) :=
  c <- ev (#2 * #nfft)%I;
  s <- for_ c (fun m s => let '(w, seed) := s in
         seed <- random seed; w <- zset w m (cv (vr seed)); Some (w, seed)) (work, seed);
  Some (fst s).
Definition val3_32 (step : bool) (N : Z * Z * Z) (b : box3) (nx ny m : Z) : option Z :=
  p <- at3_32 b nx ny m; if step then step3_32 N p else index3_32 p.
Definition val2_32 (step : bool) (N : Z * Z) (b : box2) (nx m : Z) : option Z :=
  p <- at2_32 b nx m; if step then step2_32 N p else index2_32 p.
(** initialize, test3d.cpp:618-660 *)
Definition initialize3_32 (iflag : init) (seed : Z) (N : Z * Z * Z) (b : box3) (work : list F) : option (list F) :=
  nfft_in <- nfft32_3 b;
  match iflag with
  | ZERO => fill_zero32 nfft_in work
  | STEP | INDEX =>
      nx <- ev (#(ihi b) - #(ilo b) + #1)%I; ny <- ev (#(jhi b) - #(jlo b) + #1)%I;
      fill_points32 nfft_in (val3_32 (match iflag with STEP => true | _ => false end) N b nx ny) work
  | RANDOM => fill_random32 nfft_in seed work
  end.
(** test2d.cpp:560-596 *)
Definition initialize2_32 (iflag : init) (seed : Z) (N : Z * Z) (b : box2) (work : list F) : option (list F) :=
  nfft_in <- nfft32_2 b;
  match iflag with
  | ZERO => fill_zero32 nfft_in work
  | STEP | INDEX =>
      nx <- ev (#(ihi2 b) - #(ilo2 b) + #1)%I;
      fill_points32 nfft_in (val2_32 (match iflag with STEP => true | _ => false end) N b nx) work
  | RANDOM => fill_random32 nfft_in seed work
  end.
(** validate, test3d.cpp:720-782, test2d.cpp:648-704 *)
Definition check_zero32 (nfft : Z) (work : list F) : option D :=
  c <- ev (#2 * #nfft)%I; for_ c (fun m eps => worse dist gtb work m (vz 0) eps) zero.
Definition check_points32 (nfft : Z) (val : Z -> option Z) (work : list F) : option D :=
  for_ nfft (fun m eps => v <- val m; a <- ev (#2 * #m)%I; eps <- worse dist gtb work a (vz v) eps; a <- ev (#2 * #m + #1)%I; worse dist gtb work a (vz 0) eps) zero.
Definition check_random32 (nfft seedinit : Z) (work : list F) : option D :=
  c <- ev (#2 * #nfft)%I;
  s <- for_ c (fun m s => let '(eps, seed) := s in
         seed <- random seed; eps <- worse dist gtb work m (vr seed) eps; Some (eps, seed)) (zero, seedinit);
  Some (fst s).
Definition validate3_32 (iflag : init) (seedinit : Z) (N : Z * Z * Z) (b : box3) (work : list F) : option D :=
  nfft_in <- nfft32_3 b;
  match iflag with
  | ZERO => check_zero32 nfft_in work
  | STEP | INDEX =>
      nx <- ev (#(ihi b) - #(ilo b) + #1)%I; ny <- ev (#(jhi b) - #(jlo b) + #1)%I;
      check_points32 nfft_in (val3_32 (match iflag with STEP => true | _ => false end) N b nx ny) work
  | RANDOM => check_random32 nfft_in seedinit work
  end.
Definition validate2_32 (iflag : init) (seedinit : Z) (N : Z * Z) (b : box2) (work : list F) : option D :=
  nfft_in <- nfft32_2 b;
  match iflag with
  | ZERO => check_zero32 nfft_in work
  | STEP | INDEX =>
      nx <- ev (#(ihi2 b) - #(ilo2 b) + #1)%I;
      check_points32 nfft_in (val2_32 (match iflag with STEP => true | _ => false end) N b nx) work
  | RANDOM => check_random32 nfft_in seedinit work
  end.
End Data32.
(** [for (i = 0; i < 2*nfft_in; i++) work[i] = 0.0], test3d.cpp:797 and twice more, test2d.cpp:719 and twice more *)
Definition clear3_32 {F} (z : F) (ins : nat -> box3) (r : nat) (w : list F) : option (list F) :=
  nfft <- nfft32_3 (ins r); c <- ev (#2 * #nfft)%I; for_ c (fun i w => zset w i z) w.
Definition clear2_32 {F} (z : F) (ins : nat -> box2) (r : nat) (w : list F) : option (list F) :=
  nfft <- nfft32_2 (ins r); c <- ev (#2 * #nfft)%I; for_ c (fun i w => zset w i z) w.
