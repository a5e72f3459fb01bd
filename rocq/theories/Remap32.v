(** Remap32.v : Remap3d::remap, Remap2d::remap, FFT3d::compute and FFT2d::compute with the packing routines of Pack32.v.

    The loop counters of remap() (indices of messages), of perform_ffts() (offset, which ends at total, src/fft3d.cpp:1670-1684)
    and of scale_ffts() (up to normnum) stay at or below an int that setup() computed (C43) and need no check. *)

From Verif Require Import Base Spec Pack3d Pack2d Sched Remap Remap3d Remap2d RemapThms RemapTop Layout Setup3d Setup2d Kiss KissPure Fft1d Fft3d Fft2d Pack32.
Local Open Scope Z_scope.

(** a Remap3d object: the formulas of setup() as in Remap3d.v, the routines of Pack32.v *)
Definition ops3_32 {A} (strict : bool) (esize packflag nq permute : Z) : rops A box3 pack_plan_3d :=
  mkrops collide3 (soff3 nq) (splan3 nq) (roff3 nq permute) (rplan3 nq permute)
         (size3 nq) (outvol3 nq) (pack3_32 strict esize packflag) (unpack3_32 strict esize packflag permute nq).
Definition ops2_32 {A} (strict : bool) (esize packflag nq permute : Z) : rops A box2 pack_plan_2d :=
  mkrops collide2 (soff2 nq) (splan2 nq) (roff2 nq permute) (rplan2 nq permute)
         (size2 nq) (outvol2 nq) (pack2_32 strict esize packflag) (unpack2_32 strict esize packflag permute nq).

(** Remap3d::remap after setup, src/remap3d.cpp:629-711; Remap2d::remap, src/remap2d.cpp:582-664 *)
Definition remap3_32 {A} strict esize (n : nat) (coll : bool) (packflag nq permute : Z) (ins outs : nat -> box3) (din dout : bsel) : nat -> list (@instr A) :=
  remap_code (ops3_32 strict esize packflag nq permute) n coll ins outs din dout.
Definition remap2_32 {A} strict esize (n : nat) (coll : bool) (packflag nq permute : Z) (ins outs : nat -> box2) (din dout : bsel) : nat -> list (@instr A) :=
  remap_code (ops2_32 strict esize packflag nq permute) n coll ins outs din dout.

(** FFT3d::compute, src/fft3d.cpp:560-605, with [call m in out] for the call of remap() of the object [m] *)
Section Compute3.
Context {F : Type} (O : sops F) (rnorm : Z -> F).
Variables (f : fft3) (P : @plans3 F).
Variable call : rm3 -> bsel -> bsel -> nat -> list (@instr F).
Definition call_pair3 (p : remap_pair) (bi bo : bsel) : list (nat -> list (@instr F)) :=
  call (fst p) bi bo :: match snd p with Some m => [call m bi bo] | None => [] end.
Definition call_opt3 (p : option remap_pair) (bi bo : bsel) : list (nat -> list (@instr F)) :=
  match p with Some q => call_pair3 q bi bo | None => [] end.
Definition compute_with3 (scaled remaponly : bool) (flag : Z) (bi bo : bsel) : nat -> list (@instr F) :=
  let ffts := fun c => if remaponly then [] else [c] in
  together
  ((if (flag =? FORWARD) || f_same f then
     match f_prefast f with Some p => call_pair3 p bi bo | None => [copying3 (fun r => psize3 (f_in f r)) bi bo] end
     ++ ffts (ffts_fast O f P flag bo)
     ++ call_pair3 (f_fastmid f) bo bo
     ++ ffts (ffts_mid O f P flag bo)
     ++ call_pair3 (f_midslow f) bo bo
     ++ ffts (ffts_slow O f P flag bo)
     ++ call_opt3 (f_postslow f) bo bo
   else
     match f_preslow f with Some p => call_pair3 p bi bo | None => [copying3 (fun r => psize3 (f_out f r)) bi bo] end
     ++ ffts (ffts_slow O f P flag bo)
     ++ call_opt3 (f_slowmid f) bo bo
     ++ ffts (ffts_mid O f P flag bo)
     ++ call_opt3 (f_midfast f) bo bo
     ++ ffts (ffts_fast O f P flag bo)
     ++ call_opt3 (f_postfast f) bi bo)
   ++ (if (flag =? BACKWARD) && scaled && negb remaponly then [scaling3 O rnorm f bo] else [])).
End Compute3.
Definition compute3_32 {F} (O : sops F) rnorm strict esize f P :=
  compute_with3 O rnorm f P (fun m bi bo => remap3_32 strict esize (f_n f) (rm_coll m) (f_pack f) 2 (rm_perm m) (rm_in m) (rm_out m) bi bo).

(** FFT2d::compute, src/fft2d.cpp:526-565 *)
Section Compute2.
Context {F : Type} (O : sops F) (rnorm : Z -> F).
Variables (f : fft2) (P : @plans2 F).
Variable call : rm2 -> bsel -> bsel -> nat -> list (@instr F).
Definition call_pair2 (p : remap_pair2) (bi bo : bsel) : list (nat -> list (@instr F)) :=
  call (fst p) bi bo :: match snd p with Some m => [call m bi bo] | None => [] end.
Definition call_opt2 (p : option remap_pair2) (bi bo : bsel) : list (nat -> list (@instr F)) :=
  match p with Some q => call_pair2 q bi bo | None => [] end.
Definition compute_with2 (scaled remaponly : bool) (flag : Z) (bi bo : bsel) : nat -> list (@instr F) :=
  let ffts := fun c => if remaponly then [] else [c] in
  together
  ((if (flag =? FORWARD) || t_same f then
     match t_prefast f with Some p => call_pair2 p bi bo | None => [copying2 (fun r => psize2 (t_in f r)) bi bo] end
     ++ ffts (ffts_fast2 O f P flag bo)
     ++ call_pair2 (t_fastslow f) bo bo
     ++ ffts (ffts_slow2 O f P flag bo)
     ++ call_opt2 (t_postslow f) bo bo
   else
     match t_preslow f with Some p => call_pair2 p bi bo | None => [copying2 (fun r => psize2 (t_out f r)) bi bo] end
     ++ ffts (ffts_slow2 O f P flag bo)
     ++ call_opt2 (t_slowfast f) bo bo
     ++ ffts (ffts_fast2 O f P flag bo)
     ++ call_opt2 (t_postfast f) bi bo)
   ++ (if (flag =? BACKWARD) && scaled && negb remaponly then [scaling2 O rnorm f bo] else [])).
End Compute2.
Definition compute2_32 {F} (O : sops F) rnorm strict esize f P :=
  compute_with2 O rnorm f P (fun m bi bo => remap2_32 strict esize (t_n f) (rm2_coll m) (t_pack f) 2 (rm2_perm m) (rm2_in m) (rm2_out m) bi bo).
