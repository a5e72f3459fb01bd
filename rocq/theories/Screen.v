(** Screen.v : output() of the test programs on all ranks at once, with the token that orders the printing,
    as code of the message machine (Sched.v).

    test3d.cpp:668-715, test2d.cpp:604-642.  The loop over iproc with [if (me != iproc) continue] runs its body
    once on every rank.  The token is an empty message from rank me-1 to rank me with tag 0 on the communicator
    world, that is, on the same queue as the messages of the library.  MPI_Recv is MPI_Irecv followed by the wait
    for that one request.  Printing reads the array work and leaves the memory alone; the title line, printed by
    rank 0 before its values, is part of the printing of rank 0. *)

From Verif Require Import Base Spec Sched Setup3d Setup2d Kiss Fft1d RemapTop Fft3d Fft2d TestProg TestOpt Ops.
Local Open Scope Z_scope.

Section Screen.
Context {F : Type}.

(** [if (me >= 1) MPI_Recv(&tmp,0,MPI_INT,me-1,0,world,..)], test3d.cpp:676, test2d.cpp:612 *)
Definition token_recv (r : nat) : list (@instr F) :=
  match r with O => [] | S p => [IIrecv 0 p 0 0; IWaitany (fun _ m => Some m)] end.
(** [if (me < nprocs-1) MPI_Send(&tmp,0,MPI_INT,me+1,0,world)], test3d.cpp:712, test2d.cpp:640 *)
Definition token_send (n r : nat) : list (@instr F) := if Nat.ltb (S r) n then [ISend (S r) 0] else [].
(** output(), [f r] is what rank r does when it is its turn *)
Definition output_code (n : nat) (f : nat -> @rmem F -> option rmem) (r : nat) : list (@instr F) :=
  token_recv r ++ [ILocal (f r)] ++ token_send n r.

(** the loops over m, which only read the array work *)
Definition show {L} (g : list F -> option L) (m : @rmem F) : option rmem := _ <- g (getb BWORK m); Some m.
Definition shown3 (flag : Z) (n : nat) (ins outs : nat -> box3) : nat -> list (@instr F) :=
  output_code n (fun r => show (out_rank3 (if flag =? 0 then ins r else outs r) (psize3 (ins r)) r)).
Definition shown2 (flag : Z) (n : nat) (ins outs : nat -> box2) : nat -> list (@instr F) :=
  output_code n (fun r => show (out_rank2 (if flag =? 0 then ins r else outs r) (psize2 (ins r)) r)).

(** main() with the option -o, test3d.cpp:214-252, test2d.cpp:213-251: [output(0,..)] after the first barrier, the last
    output, of the layout of the result, between the FFTs and timing() *)
Definition begin_part (w0 : nat -> list F -> option (list F)) : list (@act F) := [AFill BWORK w0; ABarrier].
Definition fft_part (mode : Z) (rflag : bool) (nloop : nat) : list (@act F) :=
  [ABarrier] ++ there_and_back mode nloop (fun f => ACompute true rflag f BWORK BWORK) ++ [ABarrier].
Variables (O : sops F) (rnorm : Z -> F).
Definition last_flag (mode : Z) : Z := if mode <? 2 then 0 else 1.
Definition shown_main3 (f : fft3) (P : plans3) (n : nat) (ins outs : nat -> box3) (mode : Z) (rflag tflag : bool) (nloop : nat)
    (w0 zero : nat -> list F -> option (list F)) (r : nat) : list (@instr F) :=
  acts_code3 O rnorm f P (begin_part w0) r ++ shown3 0 n ins outs r ++ acts_code3 O rnorm f P (fft_part mode rflag nloop) r ++
  shown3 (last_flag mode) n ins outs r ++ acts_code3 O rnorm f P (timing [1; 2; 3; 4] mode tflag nloop zero) r.
Definition shown_main2 (esize : Z) (f : fft2) (P : plans2) (n : nat) (ins outs : nat -> box2) (mode : Z) (rflag tflag : bool) (nloop : nat)
    (w0 zero : nat -> list F -> option (list F)) (r : nat) : list (@instr F) :=
  acts_code2 O rnorm esize f P (begin_part w0) r ++ shown2 0 n ins outs r ++ acts_code2 O rnorm esize f P (fft_part mode rflag nloop) r ++
  shown2 (last_flag mode) n ins outs r ++ acts_code2 O rnorm esize f P (timing [1; 2; 3] mode tflag nloop zero) r.
End Screen.

(** ** specification *)
(** in the state [s] rank [r] has done its part of the printing: what is left of its program is at most [rest],
    the code that follows the printing *)
Definition has_printed {F} (r : nat) (rest : list (@instr F)) (s : @gstate F) : Prop :=
  exists c, nth_error (s_core s) r = Some c /\ (length (c_prog c) <= length rest)%nat.
