(** Fft2d.v : model of FFT2d::compute, only_1d_ffts, only_remaps, only_one_remap
    (src/fft2d.cpp:526-656) with remap (1055-1060), setup_ffts, perform_ffts and
    scale_ffts (1452-1491, KISS build).  Same conventions as Fft3d.v; [esize] is
    sizeof(FFT_SCALAR), used by pack_2d_memcpy. *)

From Verif Require Import Base Spec Pack2d Sched Remap Remap2d RemapThms RemapTop Layout Setup3d Setup2d Kiss KissPure Fft1d Fft3d.

Section Fft2d.
Context {F : Type} (O : sops F).
Variable cexp : bool -> Z -> Z -> @cpx F.
Variable rnorm : Z -> F.
Variable esize : Z.

(** plan_forward and plan_backward of fft_fast, fft_slow *)
Record plans2 := mkplans2 { pt_ff : @cfg F; pt_fb : @cfg F; pt_sf : @cfg F; pt_sb : @cfg F }.

(** FFT2d::setup_ffts, src/fft2d.cpp:1452-1466 *)
Definition setup_ffts2 (N : Z * Z) : option plans2 :=
  let '(nfast, nslow) := N in
  ff <- kiss_fft_alloc cexp nfast false;
  fb <- kiss_fft_alloc cexp nfast true;
  '(sf, sb) <- (if nslow =? nfast then Some (ff, fb)
                else sf <- kiss_fft_alloc cexp nslow false; sb <- kiss_fft_alloc cexp nslow true; Some (sf, sb));
  Some (mkplans2 ff fb sf sb).

Section Obj.
Variables (f : fft2) (P : plans2).
Local Notation n := (t_n f).

(** perform_ffts on fft_fast, fft_slow; length, n, total: src/fft2d.cpp:420-426 *)
Definition ffts_fast2 (flag : Z) (b : bsel) : nat -> list (@instr F) := fun r =>
  let len := fst (t_N f) in
  [ILocal (cview b (perform_ffts O (if flag =? FORWARD then pt_ff P else pt_fb P) len (nj2 (t_fast f r) * len)))].
Definition ffts_slow2 (flag : Z) (b : bsel) : nat -> list (@instr F) := fun r =>
  let len := snd (t_N f) in
  [ILocal (cview b (perform_ffts O (if flag =? FORWARD then pt_sf P else pt_sb P) len (ni2 (t_slow f r) * len)))].

(** scale_ffts: norm and normnum = outsize, src/fft2d.cpp:430-431, 1484-1491 *)
Definition scaling2 (b : bsel) : nat -> list (@instr F) := fun r =>
  [ILocal (cview b (scale_ffts O (rnorm (fst (t_N f) * snd (t_N f))) (psize2 (t_out f r))))].

(** memcpy when there is no first remap, e.g. src/fft2d.cpp:536 *)
Definition copying2 (size : nat -> Z) (bi bo : bsel) : nat -> list (@instr F) := fun r =>
  if bsel_eqb bi bo then [] else [ILocal (copy_scalars (size r) bi bo)].

(** one Remap2d::remap call with the shared buffers; nqty = 2 *)
Definition one_remap2 (m : rm2) (bi bo : bsel) : nat -> list (@instr F) :=
  remap2 esize n (rm2_coll m) (t_pack f) 2 (rm2_perm m) (rm2_in m) (rm2_out m) bi bo.

(** FFT2d::remap, src/fft2d.cpp:1055-1060: the extra remap is given the same [in] *)
Definition remap_call2 (p : remap_pair2) (bi bo : bsel) : list (nat -> list (@instr F)) :=
  one_remap2 (fst p) bi bo :: match snd p with Some m => [one_remap2 m bi bo] | None => [] end.

Definition opt_remap2 (p : option remap_pair2) (bi bo : bsel) : list (nat -> list (@instr F)) :=
  match p with Some q => remap_call2 q bi bo | None => [] end.

Definition pieces_compute2 (scaled remaponly : bool) (flag : Z) (bi bo : bsel) : list (nat -> list (@instr F)) :=
  let ffts := fun c => if remaponly then [] else [c] in
  (if (flag =? FORWARD) || t_same f then
     match t_prefast f with Some p => remap_call2 p bi bo | None => [copying2 (fun r => psize2 (t_in f r)) bi bo] end
     ++ ffts (ffts_fast2 flag bo)
     ++ remap_call2 (t_fastslow f) bo bo
     ++ ffts (ffts_slow2 flag bo)
     ++ opt_remap2 (t_postslow f) bo bo
   else
     match t_preslow f with Some p => remap_call2 p bi bo | None => [copying2 (fun r => psize2 (t_out f r)) bi bo] end
     ++ ffts (ffts_slow2 flag bo)
     ++ opt_remap2 (t_slowfast f) bo bo
     ++ ffts (ffts_fast2 flag bo)
     ++ opt_remap2 (t_postfast f) bi bo)
  ++ (if (flag =? BACKWARD) && scaled && negb remaponly then [scaling2 bo] else []).

(** FFT2d::compute, src/fft2d.cpp:526-565 *)
Definition compute2 (scaled remaponly : bool) (flag : Z) (bi bo : bsel) : nat -> list (@instr F) :=
  together (pieces_compute2 scaled remaponly flag bi bo).

(** FFT2d::only_1d_ffts, src/fft2d.cpp:574-581 *)
Definition only_1d_ffts2 (flag : Z) (b : bsel) : nat -> list (@instr F) :=
  together [ffts_fast2 flag b; ffts_slow2 flag b].

(** FFT2d::only_remaps, src/fft2d.cpp:597-623 *)
Definition pieces_only_remaps2 (flag : Z) (bi bo : bsel) : list (nat -> list (@instr F)) :=
  if (flag =? FORWARD) || t_same f then
    match t_prefast f with Some p => remap_call2 p bi bo | None => [copying2 (fun r => psize2 (t_in f r)) bi bo] end
    ++ remap_call2 (t_fastslow f) bo bo ++ opt_remap2 (t_postslow f) bo bo
  else
    match t_preslow f with Some p => remap_call2 p bi bo | None => [copying2 (fun r => psize2 (t_out f r)) bi bo] end
    ++ opt_remap2 (t_slowfast f) bo bo ++ opt_remap2 (t_postfast f) bo bo.
Definition only_remaps2 (flag : Z) (bi bo : bsel) : nat -> list (@instr F) := together (pieces_only_remaps2 flag bi bo).

(** FFT2d::only_one_remap, src/fft2d.cpp:635-662 *)
Definition pieces_one_remap2 (flag which : Z) (bi bo : bsel) : list (nat -> list (@instr F)) :=
  if (flag =? FORWARD) || t_same f then
    if which =? 1 then
      match t_prefast f with Some p => remap_call2 p bi bo | None => [copying2 (fun r => psize2 (t_in f r)) bi bo] end
    else if which =? 2 then remap_call2 (t_fastslow f) bi bo
    else if which =? 3 then opt_remap2 (t_postslow f) bi bo
    else []
  else
    if which =? 3 then
      match t_preslow f with Some p => remap_call2 p bi bo | None => [copying2 (fun r => psize2 (t_out f r)) bi bo] end
    else if which =? 2 then opt_remap2 (t_slowfast f) bi bo
    else if which =? 1 then opt_remap2 (t_postfast f) bi bo
    else [].
Definition only_one_remap2 (flag which : Z) (bi bo : bsel) : nat -> list (@instr F) := together (pieces_one_remap2 flag which bi bo).

End Obj.
End Fft2d.
