(** PropertiesRemap32.v : property C78, remaps and transforms in ints of 32 bits, proofs by reference.  tiles32, tiles32_2 (Remap32Top.v), fits32, fits32_2
    (Remap32Fft.v) and ints_index (Remap32Proofs.v) are the conditions on sizes; remap3_32 .. compute2_32 (Remap32.v) are the programs with the packing routines
    of Pack32.v, where an int that overflows is undefined; exec_all (Exec.v) quantifies over all schedules. *)

From Coq Require Import Reals.
From Verif Require Import Base Spec Pack3d Pack2d Sched SchedProofs Phases Exec Remap RemapProofs RemapMain RemapInst
  Remap3d Remap2d RemapThms RemapTop ExRemap RemapFinal Layout LayoutProofs Setup3d Setup3dProofs Setup2d Setup2dProofs LayoutFinal Kiss KissPure KissAlg KissReal Fft1d KissFinal
  Fft3d Frame Fft3dProofs Fft3dMain DftMulti Fft3dTop Fft3dFinal Fft3dStmt Fft3dEx Fft2d Fft2dMain Fft2dTop Fft2dFinal Fft2dStmt Fft2dEx
  Overflow OverflowProofs Pack32 Pack32Proofs Pack32Top Remap32 Remap32Proofs Remap32Top Remap32Fft Remap32Ex.
Local Open Scope Z_scope.

Ltac small := intros; first [lia | vm_compute; congruence].

(** a remap in 32-bit ints does, in every execution, what the remap in unbounded integers does *)
Theorem C78_remap_3d : forall (A : Type) esize n coll packflag nq permute ins outs din dout (M0 : nat -> @rmem A) Post,
  flag_ok packflag -> perm_ok3 permute -> 0 < nq ->
  (forall r, (r < n)%nat -> tiles32 esize packflag nq permute (ins r) (outs r)) -> (forall r, (r < n)%nat -> ints_index (M0 r)) ->
  exec_all n (remap3 n coll packflag nq permute ins outs din dout) M0 Post ->
  exec_all n (remap3_32 false esize n coll packflag nq permute ins outs din dout) M0 Post.
Proof. exact @remap3_same. Qed.
Print Assumptions C78_remap_3d.
Example C78_remap_3d_example : forall packflag, packflag = 0 \/ packflag = 1 \/ packflag = 2 ->
  (forall r, (r < 3)%nat -> tiles32 8 packflag 2 1 (e3_in r) (e3_out r)) /\ (forall r, (r < 3)%nat -> ints_index (e3_M true packflag 2 1 r)).
Proof.
  intros p Hp. split.
  - intros [|[|[|r]]] Hr; try lia; (split; [small|split; [small|split; [intros _; split; [lia|split; small]|small]]]).
  - intros [|[|[|r]]] Hr b; try lia; destruct Hp as [-> | [-> | ->]]; destruct b; vm_compute; congruence.
Qed.
Theorem C78_remap_2d : forall (A : Type) n coll packflag nq permute ins outs din dout (M0 : nat -> @rmem A) Post,
  flag_ok packflag -> perm_ok2 permute -> 0 < nq ->
  (forall r, (r < n)%nat -> tiles32_2 packflag nq permute (ins r) (outs r)) -> (forall r, (r < n)%nat -> ints_index (M0 r)) ->
  exec_all n (remap2 8 n coll packflag nq permute ins outs din dout) M0 Post ->
  exec_all n (remap2_32 false 8 n coll packflag nq permute ins outs din dout) M0 Post.
Proof. exact @remap2_same. Qed.
Print Assumptions C78_remap_2d.
Example C78_remap_2d_example : forall packflag permute, forall r, (r < 2)%nat -> tiles32_2 packflag 2 permute (split2 r) (isplit2 r).
Proof. intros p q [|[|r]] Hr; try lia; (split; [small|split; [small|split; [intros _; split; small|small]]]). Qed.

(** with C01: every point arrives *)
Theorem C78_delivers_3d : forall (A : Type) n N esize coll packflag nq permute ins outs (g : pt3 -> Z -> A) M0,
  perm_ok3 permute -> 0 < nq -> tiling3 n N ins -> tiling3 n N outs -> call_ok3 n nq permute ins outs coll packflag BIn BOut M0 ->
  (forall r, (r < n)%nat -> tiles32 esize packflag nq permute (ins r) (outs r)) -> (forall r, (r < n)%nat -> ints_index (M0 r)) ->
  (forall r, (r < n)%nat -> holds3 nq 0 (ins r) g (m_in (M0 r))) ->
  exec_all n (remap3_32 false esize n coll packflag nq permute ins outs BIn BOut) M0 (fun r m => holds3 nq permute (outs r) g (m_out m)).
Proof. exact @delivers32. Qed.
Print Assumptions C78_delivers_3d.
Example C78_delivers_3d_example :
  perm_ok3 1 /\ 0 < 2 /\ tiling3 3 e3_N e3_in /\ tiling3 3 e3_N e3_out /\
  call_ok3 3 2 1 e3_in e3_out true 2 BIn BOut (e3_M true 2 2 1) /\
  (forall r, (r < 3)%nat -> holds3 2 0 (e3_in r) e3_g (m_in (e3_M true 2 2 1 r))) /\
  (forall r, (r < 3)%nat -> tiles32 8 2 2 1 (e3_in r) (e3_out r)) /\ (forall r, (r < 3)%nat -> ints_index (e3_M true 2 2 1 r)).
Proof.
  destruct C01_example_proof as (H1 & H2 & H3 & H4 & H5 & H6). repeat (split; [assumption|]). apply C78_remap_3d_example. right. right. reflexivity.
Qed.

(** every sequence of calls of compute(), in every execution, does what it does in unbounded integers; the tiles of the transform are at most 2^30 complex
    numbers (2^29 with the array version), and with memcpy a line of the grid has at most INT_MAX bytes *)
Theorem C78_compute_3d : forall ar n st N permute ins outs f, ready3 ar n st N permute ins outs f ->
  forall esize, fits32 esize (st_pack st) n N (f_fftsize f) ->
  forall (F : Type) (O : sops F) rnorm P cs (M0 : nat -> @rmem F) Post, (forall r, (r < n)%nat -> ints_index (M0 r)) ->
  exec_all n (calls3 O rnorm f P cs) M0 Post -> exec_all n (calls3_32 O rnorm false esize f P cs) M0 Post.
Proof. exact @calls3_same. Qed.
Print Assumptions C78_compute_3d.
Definition small3 (f : fft3) : bool := forallb (fun r => 2 * f_fftsize f r <=? HALF) [0; 1]%nat.
Example C78_compute_3d_example : tryall all_sets (fun perm ins outs f P => small3 f &&
    ends_as f (compute3_32 Zops normZ false 8 f P true false FORWARD BIn BIn) 0 ins BIn perm outs (plain_sum exG)) = true /\
  start_ok (mkset 2 1 2) 1 split3 isplit3 FORWARD.
Proof. split; [vm_compute; reflexivity|apply C25_runs]. Qed.
Theorem C78_compute_2d : forall ar n st N permute ins outs f, ready2 8 ar n st N permute ins outs f -> fits32_2 (st_pack st) n N (t_fftsize f) ->
  forall (F : Type) (O : sops F) rnorm P cs (M0 : nat -> @rmem F) Post, (forall r, (r < n)%nat -> ints_index (M0 r)) ->
  exec_all n (calls2 O rnorm f P cs) M0 Post -> exec_all n (calls2_32 O rnorm false f P cs) M0 Post.
Proof. exact @calls2_same. Qed.
Print Assumptions C78_compute_2d.
Definition small2 (f : fft2) : bool := forallb (fun r => 2 * t_fftsize f r <=? HALF) [0; 1]%nat.
Example C78_compute_2d_example : tryall_2 all_sets (fun perm ins outs f P => small2 f &&
    ends_as_2 f (compute2_32 Zops normZ false 8 f P true false FORWARD BIn BIn) 0 ins BIn perm outs (plain_sum_2 exG_2)) = true /\
  start_ok_2 (mkset 2 1 2) 1 split2 isplit2 FORWARD.
Proof. split; [vm_compute; reflexivity|apply C25_runs_2]. Qed.

(** with C25, C27, C32 and C33: forward transforms and round trips *)
Theorem C78_forward_3d : forall ar n st N permute ins outs f esize bi bo (M0 : nat -> @rmem R) scaled x,
  ready3 ar n st N permute ins outs f -> fits32 esize (st_pack st) n N (f_fftsize f) -> (forall r, (r < n)%nat -> ints_index (M0 r)) ->
  isdata bi -> isdata bo -> bi = bo \/ f_pre f = true -> arrays_ok f bo M0 ->
  (forall r, (r < n)%nat -> holds3 2 0 (ins r) (fld x) (getb bi (M0 r))) ->
  exists P, setup_ffts3 cexpR N = Some P /\
  exec_all n (compute3_32 Rops rnormR false esize f P scaled false FORWARD bi bo) M0
    (fun r m => holds3 2 permute (outs r) (fld (DFT3 false N x)) (getb bo m) /\ framed M0 bo (fun r => 2 * f_fftsize f r) r m).
Proof. exact @forward32. Qed.
Print Assumptions C78_forward_3d.
Theorem C78_roundtrip_3d : forall ar n st N permute ins outs f esize b (M0 : nat -> @rmem R) s1 scaled x,
  ready3 ar n st N permute ins outs f -> fits32 esize (st_pack st) n N (f_fftsize f) -> (forall r, (r < n)%nat -> ints_index (M0 r)) ->
  isdata b -> Fft3dTop.room3 f BACKWARD b M0 ->
  (scaled = true -> forall r, (r < n)%nat -> psize3 (ins r) <= psize3 (outs r)) ->
  (forall r, (r < n)%nat -> holds3 2 0 (ins r) (fld x) (getb b (M0 r))) ->
  exists P, setup_ffts3 cexpR N = Some P /\
  exec_all n (fun r => compute3_32 Rops rnormR false esize f P s1 false FORWARD b b r ++ compute3_32 Rops rnormR false esize f P scaled false BACKWARD b b r) M0
    (fun r m => holds3 2 0 (ins r) (fld (fun p => if scaled then x p else rmulc (IZR (grid_points N)) (x p))) (getb b m) /\
                framed M0 b (fun r => 2 * f_fftsize f r) r m).
Proof. exact @roundtrip32. Qed.
Print Assumptions C78_roundtrip_3d.
Example C78_roundtrip_3d_example : tryall safe_sets (fun perm ins outs f P => small3 f &&
    ends_as f (fun r => compute3_32 Zops normZ false 8 f P true false FORWARD BIn BIn r ++ compute3_32 Zops normZ false 8 f P false false BACKWARD BIn BIn r) 0 ins BIn 0 ins (times 8 exG)) = true.
Proof. vm_compute. reflexivity. Qed.
Theorem C78_forward_2d : forall ar n st N permute ins outs f bi bo (M0 : nat -> @rmem R) scaled x,
  ready2 8 ar n st N permute ins outs f -> fits32_2 (st_pack st) n N (t_fftsize f) -> (forall r, (r < n)%nat -> ints_index (M0 r)) ->
  isdata bi -> isdata bo -> bi = bo \/ t_pre f = true -> arrays_ok2 f bo M0 ->
  (forall r, (r < n)%nat -> holds2 2 0 (ins r) (fld x) (getb bi (M0 r))) ->
  exists P, setup_ffts2 cexpR N = Some P /\
  exec_all n (compute2_32 Rops rnormR false 8 f P scaled false FORWARD bi bo) M0
    (fun r m => holds2 2 permute (outs r) (fld (DFT2 false N x)) (getb bo m) /\ framed M0 bo (fun r => 2 * t_fftsize f r) r m).
Proof. exact @forward32_2. Qed.
Print Assumptions C78_forward_2d.
Theorem C78_roundtrip_2d : forall ar n st N permute ins outs f b (M0 : nat -> @rmem R) s1 scaled x,
  ready2 8 ar n st N permute ins outs f -> fits32_2 (st_pack st) n N (t_fftsize f) -> (forall r, (r < n)%nat -> ints_index (M0 r)) ->
  isdata b -> arrays_ok2 f b M0 ->
  (scaled = true -> forall r, (r < n)%nat -> psize2 (ins r) <= psize2 (outs r)) ->
  (forall r, (r < n)%nat -> holds2 2 0 (ins r) (fld x) (getb b (M0 r))) ->
  exists P, setup_ffts2 cexpR N = Some P /\
  exec_all n (fun r => compute2_32 Rops rnormR false 8 f P s1 false FORWARD b b r ++ compute2_32 Rops rnormR false 8 f P scaled false BACKWARD b b r) M0
    (fun r m => holds2 2 0 (ins r) (fld (fun p => if scaled then x p else rmulc (IZR (grid_points2 N)) (x p))) (getb b m) /\
                framed M0 b (fun r => 2 * t_fftsize f r) r m).
Proof. exact @roundtrip32_2. Qed.
Print Assumptions C78_roundtrip_2d.
(** the conditions are satisfiable with large grids: a cube of 1024^3 points on two ranks *)
Example C78_fits_example : fits32 8 2 2 (1024, 1024, 1024) (fun _ => 1024 * 1024 * 512) /\ fits32 4 1 2 (1024, 1024, 1024) (fun _ => 1024 * 1024 * 512) /\
  ~ fits32 8 0 1 (1024, 1024, 1024) (fun _ => 1024 * 1024 * 1024) /\ ~ fits32 8 2 1 (2 ^ 28, 1, 1) (fun _ => 2 ^ 28).
Proof.
  split; [|split; [|split]].
  - split; [intros; vm_compute; congruence|]. intros _. split; [lia|]. repeat split; vm_compute; congruence.
  - split; [intros; vm_compute; congruence|]. discriminate.
  - intros (H & _). specialize (H 0%nat ltac:(lia)). vm_compute in H. congruence.
  - intros (_ & H). destruct (H eq_refl) as (_ & H1 & _). vm_compute in H1. congruence.
Qed.

(** without the condition on the bytes of a line a remap can end without having done anything, with no error: here out keeps its zeros, every point of in is 1 *)
Theorem C78_remap_silent_refuted : exists N ins outs (M0 : nat -> @rmem Z),
  tiling3 1 N ins /\ tiling3 1 N outs /\ call_ok3 1 2 0 ins outs false 2 BIn BOut M0 /\ ints_index (M0 0%nat) /\ 2 * vol3 (ins 0%nat) <= INT_MAX /\ 2 * vol3 (outs 0%nat) <= INT_MAX /\
  holds3 2 0 (ins 0%nat) (fun _ _ => 1) (m_in (M0 0%nat)) /\ holds3 2 0 (outs 0%nat) (fun _ _ => 0) (m_out (M0 0%nat)) /\
  forall strict, exec_all 1 (remap3_32 strict 8 1 false 2 2 0 ins outs BIn BOut) M0 (fun r m => m = M0 r).
Proof. exact remap_silent. Qed.
Print Assumptions C78_remap_silent_refuted.
