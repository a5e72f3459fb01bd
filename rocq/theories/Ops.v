(** Ops.v : programs that mix the operations of an FFT object: tune_trial() of the library and the
    timing part of the test programs, on all ranks at once, as code of the message machine (Sched.v).

    MPI_Barrier is an all-to-all exchange of empty messages among all ranks: no rank leaves it before
    every rank has entered.  MPI_Wtime and printing are left out (they do not touch the arrays). *)

From Verif Require Import Base Spec Sched Setup3d Setup2d Kiss Fft1d RemapTop Fft3d Fft2d TestProg.
Local Open Scope Z_scope.

Section Acts.
Context {F : Type}.

Inductive act :=
| ACompute (scaled remaponly : bool) (flag : Z) (bi bo : bsel)   (* compute(in,out,flag) *)
| A1d (flag : Z) (b : bsel)                                     (* only_1d_ffts(in,flag) *)
| ARemaps (flag : Z) (bi bo : bsel)                             (* only_remaps(in,out,flag) *)
| AOne (flag which : Z) (bi bo : bsel)                          (* only_one_remap(in,out,flag,which) *)
| ABarrier                                                      (* MPI_Barrier(world) *)
| AFill (b : bsel) (w : nat -> list F -> option (list F)).      (* the caller writes its array *)

Definition barrier (n : nat) (_ : nat) : list (@instr F) := [IA2A (seq 0 n) (repeat (0, 0, 0, 0) n)].
Definition filling (b : bsel) (w : nat -> list F -> option (list F)) (r : nat) : list (@instr F) :=
  [ILocal (fun m => x <- w r (getb b m); Some (setb b x m))].

Variables (O : sops F) (rnorm : Z -> F).

Definition act_code3 (f : fft3) (P : plans3) (a : act) : nat -> list (@instr F) :=
  match a with
  | ACompute scaled ro flag bi bo => compute3 O rnorm f P scaled ro flag bi bo
  | A1d flag b => only_1d_ffts3 O f P flag b
  | ARemaps flag bi bo => only_remaps3 f flag bi bo
  | AOne flag which bi bo => only_one_remap3 f flag which bi bo
  | ABarrier => barrier (f_n f)
  | AFill b w => filling b w
  end.
Definition act_code2 (esize : Z) (f : fft2) (P : plans2) (a : act) : nat -> list (@instr F) :=
  match a with
  | ACompute scaled ro flag bi bo => compute2 O rnorm esize f P scaled ro flag bi bo
  | A1d flag b => only_1d_ffts2 O f P flag b
  | ARemaps flag bi bo => only_remaps2 esize f flag bi bo
  | AOne flag which bi bo => only_one_remap2 esize f flag which bi bo
  | ABarrier => barrier (t_n f)
  | AFill b w => filling b w
  end.
Definition acts_code3 (f : fft3) (P : plans3) (l : list act) : nat -> list (@instr F) := together (map (act_code3 f P) l).
Definition acts_code2 (esize : Z) (f : fft2) (P : plans2) (l : list act) : nat -> list (@instr F) := together (map (act_code2 esize f P) l).

(** ** tune_trial *)
(** [if (flag) for (i..nper) op(flag); else for (i..nper) { op(FORWARD); op(BACKWARD); }],
    fft3d.cpp:1036-1044 and five more times, fft2d.cpp:976-984 and so on *)
Definition both_ways (nper flag : Z) (op : Z -> act) : list act :=
  List.concat (repeat (if flag =? 0 then [op FORWARD; op BACKWARD] else [op flag]) (Z.to_nat nper)).

(** FFT3d::tune_trial, fft3d.cpp:1026-1101; FFT2d::tune_trial, fft2d.cpp:968-1040 ([whichs] 1..4 or 1..3).
    [b] is the data array of tune(), [ro] the variable remaponly, [scaled] the variable scaled of the object. *)
Definition trial (whichs : list Z) (scaled ro : bool) (b : bsel) (nper flag tflag : Z) : list act :=
  [ABarrier] ++ both_ways nper flag (fun f => ACompute scaled ro f b b) ++ [ABarrier] ++
  (if tflag =? 0 then [] else
     both_ways nper flag (fun f => A1d f b) ++ [ABarrier] ++
     both_ways nper flag (fun f => ARemaps f b b) ++ [ABarrier] ++
     List.concat (map (fun w => both_ways nper flag (fun f => AOne f w b b) ++ [ABarrier]) whichs)).
Definition trial3 := trial [1; 2; 3; 4].
Definition trial2 := trial [1; 2; 3].

(** ** the test programs *)
(** [if (mode < 2) for (i..nloop) { op(1); op(-1); } else for (i..nloop) op(1)] *)
Definition there_and_back (mode : Z) (nloop : nat) (op : Z -> act) : list act :=
  List.concat (repeat (if mode <? 2 then [op 1; op (-1)] else [op 1]) nloop).

(** timing(), test3d.cpp:789-908, test2d.cpp:711-816; [zero r] is the loop that clears 2*nfft_in values *)
Definition timing (whichs : list Z) (mode : Z) (tflag : bool) (nloop : nat) (zero : nat -> list F -> option (list F)) : list act :=
  if tflag then
    [AFill BWORK zero; ABarrier] ++ there_and_back mode nloop (fun f => A1d f BWORK) ++ [ABarrier] ++
    [AFill BWORK zero; ABarrier] ++ there_and_back mode nloop (fun f => ARemaps f BWORK BWORK) ++ [ABarrier] ++
    [AFill BWORK zero; ABarrier] ++ List.concat (map (fun w => there_and_back mode nloop (fun f => AOne f w BWORK BWORK) ++ [ABarrier]) whichs)
  else [].

(** main(), test3d.cpp:214-241, test2d.cpp:213-240: initialize(), the loop of FFTs and the barriers around it; [w0] fills the array,
    remaponly = rflag, scaled = 1; output() and validate() only read the array and do not appear *)
Definition run_part (mode : Z) (rflag : bool) (nloop : nat) (w0 : nat -> list F -> option (list F)) : list act :=
  [AFill BWORK w0; ABarrier; ABarrier] ++ there_and_back mode nloop (fun f => ACompute true rflag f BWORK BWORK) ++ [ABarrier].
(** main() up to timing(), test3d.cpp:214-252, test2d.cpp:213-251 *)
Definition test_main (whichs : list Z) (mode : Z) (rflag tflag : bool) (nloop : nat)
    (w0 zero : nat -> list F -> option (list F)) : list act :=
  run_part mode rflag nloop w0 ++ timing whichs mode tflag nloop zero.
(** the loop [for (i = 0; i < 2*nfft_in; i++) work[i] = 0.0] *)
Definition clear3 (z : F) (ins : nat -> box3) (r : nat) (w : list F) : option (list F) :=
  for_ (2 * psize3 (ins r)) (fun i w => zset w i z) w.
Definition clear2 (z : F) (ins : nat -> box2) (r : nat) (w : list F) : option (list F) :=
  for_ (2 * psize2 (ins r)) (fun i w => zset w i z) w.
Definition test_main3 := test_main [1; 2; 3; 4].
Definition test_main2 := test_main [1; 2; 3].
End Acts.
