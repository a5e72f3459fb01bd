(** PropertiesOnly1d.v : property C50 (only_1d_ffts), proofs by reference. *)

From Coq Require Import Reals.
From Verif Require Import Base Spec Pack3d Sched SchedProofs Phases Exec Remap RemapMain RemapInst
  Remap3d RemapThms RemapTop ExRemap Layout Setup3d Setup2d LayoutFinal Kiss KissPure KissReal Fft1d KissFinal
  Fft3d Frame Fft3dProofs Fft3dMain Fft3dTop Fft3dFinal Fft3dStmt Fft3dEx Fft2d Fft2dMain Fft2dTop Fft2dFinal Fft2dStmt Fft2dEx Only1d.
Local Open Scope Z_scope.

(** ** C50 *)
(** only_1d_ffts replaces, in place and without communication, consecutive lines of the array by their DFT: first those
    of the fast layout, then of the result those of the mid layout, then those of the slow layout; nothing is moved,
    nothing beyond fftsize values is touched, in all executions, for both directions *)
Theorem C50_only_1d_3d : forall ar n st N permute ins outs f b (M0 : nat -> @rmem R) flag x,
  ready3 ar n st N permute ins outs f -> isdata b ->
  (forall r, (r < n)%nat -> 2 * f_fftsize f r <= zlen (getb b (M0 r)) /\ seen (x r) (f_fftsize f r) (getb b (M0 r))) ->
  exists P, setup_ffts3 cexpR N = Some P /\
  exec_all n (only_1d_ffts3 Rops f P flag b) M0
    (fun r m => seen (three_batches DFT f flag r (x r)) (f_fftsize f r) (getb b m) /\
                framed M0 b (fun r => 2 * f_fftsize f r) r m).
Proof. exact @only_1d_3d. Qed.
Print Assumptions C50_only_1d_3d.
Theorem C50_only_1d_2d : forall esize ar n st N permute ins outs f b (M0 : nat -> @rmem R) flag x,
  ready2 esize ar n st N permute ins outs f -> isdata b ->
  (forall r, (r < n)%nat -> 2 * t_fftsize f r <= zlen (getb b (M0 r)) /\ seen (x r) (t_fftsize f r) (getb b (M0 r))) ->
  exists P, setup_ffts2 cexpR N = Some P /\
  exec_all n (only_1d_ffts2 Rops f P flag b) M0
    (fun r m => seen (two_batches DFT f flag r (x r)) (t_fftsize f r) (getb b m) /\
                framed M0 b (fun r => 2 * t_fftsize f r) r m).
Proof. exact @only_1d_2d. Qed.
Print Assumptions C50_only_1d_2d.
(** runs with integers on a 2x2x2 and a 2x2 grid; the DFT of length 2 is a sum and a difference *)
Definition dft2Z (inv : bool) (L : Z) (y : Z -> Z * Z) (j : Z) : Z * Z :=
  if j =? 0 then (fst (y 0) + fst (y 1), snd (y 0) + snd (y 1)) else (fst (y 0) - fst (y 1), snd (y 0) - snd (y 1)).
Definition seenb (x : Z -> Z * Z) (k : Z) (l : list Z) : bool :=
  forallb (fun a => match zget l (2 * a), zget l (2 * a + 1) with Some u, Some v => (u =? fst (x a)) && (v =? snd (x a)) | _, _ => false end) (zrange k).
Definition cells (l : list Z) (a : Z) : Z * Z := (nth (Z.to_nat (2 * a)) l 0, nth (Z.to_nat (2 * a + 1)) l 0).
Example C50_only_1d_3d_example : with_plan (mkset 2 0 2) 0 isplit3 split3 (fun f P =>
  let s := final 2 (only_1d_ffts3 Zops f P FORWARD BIn) (exM f 0 isplit3) in
  doneb s && forallb (fun r => match nth_error (mems_of s) r with
    | Some m => seenb (three_batches dft2Z f FORWARD r (cells (m_in (exM f 0 isplit3 r)))) (f_fftsize f r) (m_in m)
    | None => false end) [0; 1]%nat) = true /\
  start_ok (mkset 2 1 2) 1 split3 isplit3 FORWARD.
Proof. split; [vm_compute; reflexivity|]. exact (proj2 C25_runs). Qed.
Example C50_only_1d_2d_example : with_plan_2 (mkset 2 0 2) 0 isplit2 split2 (fun f P =>
  let s := final 2 (only_1d_ffts2 Zops f P FORWARD BIn) (exM_2 f 0 isplit2) in
  doneb s && forallb (fun r => match nth_error (mems_of s) r with
    | Some m => seenb (two_batches dft2Z f FORWARD r (cells (m_in (exM_2 f 0 isplit2 r)))) (t_fftsize f r) (m_in m)
    | None => false end) [0; 1]%nat) = true /\
  start_ok_2 (mkset 2 1 2) 1 split2 isplit2 FORWARD.
Proof. split; [vm_compute; reflexivity|]. exact (proj2 C25_runs_2). Qed.
