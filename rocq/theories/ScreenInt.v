(** ScreenInt.v : output() of the test programs in ints of 32 bits, and main() with the option -o in such ints (C86).
    As in TestInt.v every int expression is a tree of Overflow.v, evaluated by [ev], where overflow is undefined.  What TestOpt.v
    and Screen.v have in unbounded integers.  The ranks me-1 and me+1 of the token are ranks of the communicator and fit. *)

From Verif Require Import Base Spec Layout Sched Overflow Setup3d Setup2d Kiss Fft1d RemapTop Fft3d Fft2d TestProg TestOpt Ops Screen Remap32Ops TestInt.
Local Open Scope Z_scope.

Section ScreenInt.
Context {F : Type}.

(** the part of one rank, test3d.cpp:680-709; [bi] gives the loop bound nfft_in (test3d.cpp:526), [b] is the box whose extents and
    corner are used, ilocal .. kglobal are computed as in initialize() *)
Definition out_rank3_32 (bi b : box3) (me : nat) (work : list F) : option (list line3) :=
  nfft_in <- nfft32_3 bi;
  nx <- ev (#(ihi b) - #(ilo b) + #1)%I; ny <- ev (#(jhi b) - #(jlo b) + #1)%I;
  for_ nfft_in (fun m acc =>
    p <- at3_32 b nx ny m; a <- ev (#2 * #m)%I; x <- zget work a; a <- ev (#2 * #m + #1)%I; y <- zget work a; Some (acc ++ [(p, me, x, y)])) [].
(** test2d.cpp:616-637 *)
Definition out_rank2_32 (bi b : box2) (me : nat) (work : list F) : option (list line2) :=
  nfft_in <- nfft32_2 bi;
  nx <- ev (#(ihi2 b) - #(ilo2 b) + #1)%I;
  for_ nfft_in (fun m acc =>
    p <- at2_32 b nx m; a <- ev (#2 * #m)%I; x <- zget work a; a <- ev (#2 * #m + #1)%I; y <- zget work a; Some (acc ++ [(p, me, x, y)])) [].
(** the lines of all ranks, [output3] and [output2] of TestOpt.v *)
Definition output3_32 (flag : Z) (n : nat) (ins outs : nat -> box3) (w : nat -> list F) : option (list line3) :=
  in_turn n (fun r => out_rank3_32 (ins r) (if flag =? 0 then ins r else outs r) r (w r)).
Definition output2_32 (flag : Z) (n : nat) (ins outs : nat -> box2) (w : nat -> list F) : option (list line2) :=
  in_turn n (fun r => out_rank2_32 (ins r) (if flag =? 0 then ins r else outs r) r (w r)).

(** output() as code of the message machine, [shown3] and [shown2] of Screen.v *)
Definition shown3_32 (flag : Z) (n : nat) (ins outs : nat -> box3) : nat -> list (@instr F) :=
  output_code n (fun r => show (out_rank3_32 (ins r) (if flag =? 0 then ins r else outs r) r)).
Definition shown2_32 (flag : Z) (n : nat) (ins outs : nat -> box2) : nat -> list (@instr F) :=
  output_code n (fun r => show (out_rank2_32 (ins r) (if flag =? 0 then ins r else outs r) r)).

(** main() with -o, test3d.cpp:214-252, test2d.cpp:213-251, [shown_main3] and [shown_main2] of Screen.v *)
Variables (O : sops F) (rnorm : Z -> F).
Definition shown_main3_32 (esize : Z) (f : fft3) (P : plans3) (n : nat) (ins outs : nat -> box3) (mode : Z) (rflag tflag : bool) (nloop : nat)
    (w0 zero : nat -> list F -> option (list F)) (r : nat) : list (@instr F) :=
  acts3_32 O rnorm false esize f P (begin_part w0) r ++ shown3_32 0 n ins outs r ++ acts3_32 O rnorm false esize f P (fft_part mode rflag nloop) r ++
  shown3_32 (last_flag mode) n ins outs r ++ acts3_32 O rnorm false esize f P (timing [1; 2; 3; 4] mode tflag nloop zero) r.
Definition shown_main2_32 (esize : Z) (f : fft2) (P : plans2) (n : nat) (ins outs : nat -> box2) (mode : Z) (rflag tflag : bool) (nloop : nat)
    (w0 zero : nat -> list F -> option (list F)) (r : nat) : list (@instr F) :=
  acts2_32 O rnorm false esize f P (begin_part w0) r ++ shown2_32 0 n ins outs r ++ acts2_32 O rnorm false esize f P (fft_part mode rflag nloop) r ++
  shown2_32 (last_flag mode) n ins outs r ++ acts2_32 O rnorm false esize f P (timing [1; 2; 3] mode tflag nloop zero) r.
End ScreenInt.
