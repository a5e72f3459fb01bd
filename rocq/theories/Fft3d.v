(** Fft3d.v : model of FFT3d::compute, only_1d_ffts, only_remaps, only_one_remap
    (src/fft3d.cpp:560-703) with remap (1116-1121), setup_ffts, perform_ffts and
    scale_ffts (1643-1693, KISS build).

    The caller's arrays are two of the four arrays of a rank: [bi] and [bo] are
    the selectors of in and out; in-place is [bi = bo].  The send and receive
    buffers are the shared sendbuf and recvbuf.  The protocol checks at the start
    of each call (setupflag, setup_memory_flag) are in Life.v. *)

From Verif Require Import Base Spec Pack3d Sched Remap Remap3d RemapThms RemapTop Layout Setup3d Kiss KissPure Fft1d.

(** ** FFT_SCALAR arrays seen as FFT_DATA arrays *)
Section View.
Context {F : Type}.

(** data cast to FFT_DATA pointer: the pairs, and a possible odd scalar at the end *)
Fixpoint pairs (l : list F) : list (F * F) * list F :=
  match l with
  | a :: b :: t => let '(ps, tl) := pairs t in ((a, b) :: ps, tl)
  | _ => ([], l)
  end.

Fixpoint unpairs (ps : list (F * F)) : list F :=
  match ps with [] => [] | (a, b) :: t => a :: b :: unpairs t end.

(** run [g] on the complex view of array [b] *)
Definition cview (b : bsel) (g : list (F * F) -> option (list (F * F))) (m : @rmem F) : option rmem :=
  let '(ps, tl) := pairs (getb b m) in
  ps' <- g ps;
  Some (setb b (unpairs ps' ++ tl) m).

Definition bsel_eqb (a b : bsel) : bool :=
  match a, b with BIn, BIn | BOut, BOut | BSend, BSend | BRecv, BRecv => true | _, _ => false end.

(** memcpy(out,in,k*sizeof(FFT_SCALAR)) *)
Definition copy_scalars (k : Z) (bi bo : bsel) (m : @rmem F) : option rmem :=
  if k <? 0 then None else
  for_ k (fun i m => v <- zget (getb bi m) i; a <- zset (getb bo m) i v; Some (setb bo a m)) m.
End View.

Definition FORWARD : Z := 1.
Definition BACKWARD : Z := -1.

Section Fft3d.
Context {F : Type} (O : sops F).
Variable cexp : bool -> Z -> Z -> @cpx F.   (* exp(+- 2 pi i a/n), see Kiss.v *)
Variable rnorm : Z -> F.                    (* 1.0/n as FFT_SCALAR *)

(** plan_forward and plan_backward of fft_fast, fft_mid, fft_slow *)
Record plans3 := mkplans3 {
  pl_ff : @cfg F; pl_fb : @cfg F; pl_mf : @cfg F; pl_mb : @cfg F; pl_sf : @cfg F; pl_sb : @cfg F }.

(** FFT3d::setup_ffts, src/fft3d.cpp:1643-1668: plans are shared between equal lengths *)
Definition setup_ffts3 (N : Z * Z * Z) : option plans3 :=
  let '(nfast, nmid, nslow) := N in
  ff <- kiss_fft_alloc cexp nfast false;
  fb <- kiss_fft_alloc cexp nfast true;
  '(mf, mb) <- (if nmid =? nfast then Some (ff, fb)
                else mf <- kiss_fft_alloc cexp nmid false; mb <- kiss_fft_alloc cexp nmid true; Some (mf, mb));
  '(sf, sb) <- (if nslow =? nfast then Some (ff, fb)
                else if nslow =? nmid then Some (mf, mb)
                else sf <- kiss_fft_alloc cexp nslow false; sb <- kiss_fft_alloc cexp nslow true; Some (sf, sb));
  Some (mkplans3 ff fb mf mb sf sb).

Section Obj.
Variables (f : fft3) (P : plans3).
Local Notation n := (f_n f).

(** perform_ffts on fft_fast, fft_mid, fft_slow; length, n, total: src/fft3d.cpp:447-457 *)
Definition ffts_fast (flag : Z) (b : bsel) : nat -> list (@instr F) := fun r =>
  let len := fst (fst (f_N f)) in
  [ILocal (cview b (perform_ffts O (if flag =? FORWARD then pl_ff P else pl_fb P) len (nj (f_fast f r) * nk (f_fast f r) * len)))].
Definition ffts_mid (flag : Z) (b : bsel) : nat -> list (@instr F) := fun r =>
  let len := snd (fst (f_N f)) in
  [ILocal (cview b (perform_ffts O (if flag =? FORWARD then pl_mf P else pl_mb P) len (ni (f_mid f r) * nk (f_mid f r) * len)))].
Definition ffts_slow (flag : Z) (b : bsel) : nat -> list (@instr F) := fun r =>
  let len := snd (f_N f) in
  [ILocal (cview b (perform_ffts O (if flag =? FORWARD then pl_sf P else pl_sb P) len (ni (f_slow f r) * nj (f_slow f r) * len)))].

(** scale_ffts: norm and normnum = outsize, src/fft3d.cpp:461-462, 1686-1693 *)
Definition scaling3 (b : bsel) : nat -> list (@instr F) := fun r =>
  [ILocal (cview b (scale_ffts O (rnorm (fst (fst (f_N f)) * snd (fst (f_N f)) * snd (f_N f))) (psize3 (f_out f r))))].

(** memcpy when there is no first remap, e.g. src/fft3d.cpp:570 *)
Definition copying3 (size : nat -> Z) (bi bo : bsel) : nat -> list (@instr F) := fun r =>
  if bsel_eqb bi bo then [] else [ILocal (copy_scalars (size r) bi bo)].

(** one Remap3d::remap call with the shared buffers; nqty = 2 *)
Definition one_remap3 (m : rm3) (bi bo : bsel) : nat -> list (@instr F) :=
  remap3 n (rm_coll m) (f_pack f) 2 (rm_perm m) (rm_in m) (rm_out m) bi bo.

(** FFT3d::remap, src/fft3d.cpp:1116-1121: the extra remap is given the same [in] *)
Definition remap_call3 (p : remap_pair) (bi bo : bsel) : list (nat -> list (@instr F)) :=
  one_remap3 (fst p) bi bo :: match snd p with Some m => [one_remap3 m bi bo] | None => [] end.

Definition opt_remap3 (p : option remap_pair) (bi bo : bsel) : list (nat -> list (@instr F)) :=
  match p with Some q => remap_call3 q bi bo | None => [] end.

Definition pieces_compute3 (scaled remaponly : bool) (flag : Z) (bi bo : bsel) : list (nat -> list (@instr F)) :=
  let ffts := fun c => if remaponly then [] else [c] in
  (if (flag =? FORWARD) || f_same f then
     match f_prefast f with Some p => remap_call3 p bi bo | None => [copying3 (fun r => psize3 (f_in f r)) bi bo] end
     ++ ffts (ffts_fast flag bo)
     ++ remap_call3 (f_fastmid f) bo bo
     ++ ffts (ffts_mid flag bo)
     ++ remap_call3 (f_midslow f) bo bo
     ++ ffts (ffts_slow flag bo)
     ++ opt_remap3 (f_postslow f) bo bo
   else
     match f_preslow f with Some p => remap_call3 p bi bo | None => [copying3 (fun r => psize3 (f_out f r)) bi bo] end
     ++ ffts (ffts_slow flag bo)
     ++ opt_remap3 (f_slowmid f) bo bo
     ++ ffts (ffts_mid flag bo)
     ++ opt_remap3 (f_midfast f) bo bo
     ++ ffts (ffts_fast flag bo)
     ++ opt_remap3 (f_postfast f) bi bo)
  ++ (if (flag =? BACKWARD) && scaled && negb remaponly then [scaling3 bo] else []).

(** FFT3d::compute, src/fft3d.cpp:560-605 *)
Definition compute3 (scaled remaponly : bool) (flag : Z) (bi bo : bsel) : nat -> list (@instr F) :=
  together (pieces_compute3 scaled remaponly flag bi bo).

(** FFT3d::only_1d_ffts, src/fft3d.cpp:614-622 *)
Definition only_1d_ffts3 (flag : Z) (b : bsel) : nat -> list (@instr F) :=
  together [ffts_fast flag b; ffts_mid flag b; ffts_slow flag b].

(** FFT3d::only_remaps, src/fft3d.cpp:633-661 *)
Definition pieces_only_remaps3 (flag : Z) (bi bo : bsel) : list (nat -> list (@instr F)) :=
  if (flag =? FORWARD) || f_same f then
    match f_prefast f with Some p => remap_call3 p bi bo | None => [copying3 (fun r => psize3 (f_in f r)) bi bo] end
    ++ remap_call3 (f_fastmid f) bo bo ++ remap_call3 (f_midslow f) bo bo ++ opt_remap3 (f_postslow f) bo bo
  else
    match f_preslow f with Some p => remap_call3 p bi bo | None => [copying3 (fun r => psize3 (f_out f r)) bi bo] end
    ++ opt_remap3 (f_slowmid f) bo bo ++ opt_remap3 (f_midfast f) bo bo ++ opt_remap3 (f_postfast f) bo bo.
Definition only_remaps3 (flag : Z) (bi bo : bsel) : nat -> list (@instr F) := together (pieces_only_remaps3 flag bi bo).

(** FFT3d::only_one_remap, src/fft3d.cpp:673-703 *)
Definition pieces_one_remap3 (flag which : Z) (bi bo : bsel) : list (nat -> list (@instr F)) :=
  if (flag =? FORWARD) || f_same f then
    if which =? 1 then
      match f_prefast f with Some p => remap_call3 p bi bo | None => [copying3 (fun r => psize3 (f_in f r)) bi bo] end
    else if which =? 2 then remap_call3 (f_fastmid f) bi bo
    else if which =? 3 then remap_call3 (f_midslow f) bi bo
    else if which =? 4 then opt_remap3 (f_postslow f) bi bo
    else []
  else
    if which =? 4 then
      match f_preslow f with Some p => remap_call3 p bi bo | None => [copying3 (fun r => psize3 (f_out f r)) bi bo] end
    else if which =? 3 then opt_remap3 (f_slowmid f) bi bo
    else if which =? 2 then opt_remap3 (f_midfast f) bi bo
    else if which =? 1 then opt_remap3 (f_postfast f) bi bo
    else [].
Definition only_one_remap3 (flag which : Z) (bi bo : bsel) : nat -> list (@instr F) := together (pieces_one_remap3 flag which bi bo).

End Obj.
End Fft3d.
