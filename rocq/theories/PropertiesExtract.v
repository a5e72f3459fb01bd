(** PropertiesExtract.v : C80, output boxes that do not tile the grid. Vocabulary of Extract.v: [loose3], [loose2], [owned3], [owned2]. *)

From Coq Require Import Reals.
From Verif Require Import Base Spec Sched Exec Remap RemapMain RemapInst RemapThms Remap3d Remap2d RemapTop ExRemap Layout Setup3d Setup2d LayoutFinal
  Kiss KissReal Fft1d KissFinal Fft3d Frame Fft3dMain DftMulti Fft3dTop Fft3dEx Fft2d Fft2dMain Fft2dTop Fft2dEx Extract ExtractEx.
Local Open Scope Z_scope.

(** C80: a remap gives every process the values of the points of its output box that some process has, however the
    output boxes overlap or miss points, and leaves the cells of the other points as they were *)
Theorem C80_remap_3d : forall (A : Type) n coll packflag nq permute ins outs din dout (g : pt3 -> Z -> A) M0,
  perm_ok3 permute -> 0 < nq -> disjoint_owners3 n ins -> call_ok3 n nq permute ins outs coll packflag din dout M0 ->
  (forall r, (r < n)%nat -> holds3 nq 0 (ins r) g (getb din (M0 r))) ->
  exec_all n (remap3 n coll packflag nq permute ins outs din dout) M0 (fun r m => forall p q, inb3 p (outs r) -> 0 <= q < nq ->
    (owned3 n ins p -> zget (getb dout m) (cell3 nq permute (outs r) p q) = Some (g p q)) /\
    (~ owned3 n ins p -> zget (getb dout m) (cell3 nq permute (outs r) p q) = zget (getb dout (M0 r)) (cell3 nq permute (outs r) p q))).
Proof. exact @extract_remap_3d. Qed.
Print Assumptions C80_remap_3d.
Example C80_remap_3d_example : (forall (coll : bool) packflag nq perm, In packflag [0; 1; 2] -> In nq [1; 2] -> In perm [0; 1; 2] ->
  perm_ok3 perm /\ 0 < nq /\ disjoint_owners3 2 split3 /\ call_ok3 2 nq perm split3 want3 coll packflag BIn BOut (want3_M coll packflag nq perm) /\
  (forall r, (r < 2)%nat -> holds3 nq 0 (split3 r) e3_g (getb BIn (want3_M coll packflag nq perm r)))) /\
  forall coll, out_after 2 (remap3 2 coll 2 1 0 split3 want3 BIn BOut) (want3_M coll 2 1 0) = [ [-1; -1; 0; 10; 1; 11]; [11; 111; -1] ].
Proof. exact (conj want3_ok want3_run). Qed.

Theorem C80_remap_2d : forall (A : Type) esize n coll packflag nq permute ins outs din dout (g : pt2 -> Z -> A) M0,
  perm_ok2 permute -> 0 < nq -> disjoint_owners2 n ins -> call_ok2 esize n nq permute ins outs coll packflag din dout M0 ->
  (forall r, (r < n)%nat -> holds2 nq 0 (ins r) g (getb din (M0 r))) ->
  exec_all n (remap2 esize n coll packflag nq permute ins outs din dout) M0 (fun r m => forall p q, inb2 p (outs r) -> 0 <= q < nq ->
    (owned2 n ins p -> zget (getb dout m) (cell2 nq permute (outs r) p q) = Some (g p q)) /\
    (~ owned2 n ins p -> zget (getb dout m) (cell2 nq permute (outs r) p q) = zget (getb dout (M0 r)) (cell2 nq permute (outs r) p q))).
Proof. exact @extract_remap_2d. Qed.
Print Assumptions C80_remap_2d.
Example C80_remap_2d_example : (forall (coll : bool) packflag nq perm, In packflag [0; 1; 2] -> In nq [1; 2] -> In perm [0; 1] ->
  perm_ok2 perm /\ 0 < nq /\ disjoint_owners2 2 split2 /\ call_ok2 8 2 nq perm split2 want2 coll packflag BIn BOut (want2_M coll packflag nq perm) /\
  (forall r, (r < 2)%nat -> holds2 nq 0 (split2 r) e2_g (getb BIn (want2_M coll packflag nq perm r)))) /\
  forall coll, out_after 2 (remap2 8 2 coll 2 1 0 split2 want2 BIn BOut) (want2_M coll 2 1 0) = [ [0; 10; -1]; [-1; 0; 1] ].
Proof. exact (conj want2_ok want2_run). Qed.

(** a forward transform gives every process the DFT at the points of its output box, however the output boxes overlap or miss points of the grid *)
Theorem C80_forward_3d : forall ar n st N permute ins outs f bi bo (M0 : nat -> @rmem R) scaled x,
  loose3 ar n st N permute ins outs f -> isdata bi -> isdata bo -> bi = bo \/ f_pre f = true -> arrays_ok f bo M0 ->
  (forall r, (r < n)%nat -> holds3 2 0 (ins r) (fld x) (getb bi (M0 r))) ->
  exists P, setup_ffts3 cexpR N = Some P /\
  exec_all n (compute3 Rops rnormR f P scaled false FORWARD bi bo) M0
    (fun r m => holds3 2 permute (outs r) (fld (DFT3 false N x)) (getb bo m) /\ framed M0 bo (fun r => 2 * f_fftsize f r) r m).
Proof. exact @extract_forward_3d. Qed.
Print Assumptions C80_forward_3d.
Example C80_forward_3d_example :
  (forall outs permute (x : pt3 -> R * R), In outs [lap3; part3; pen3] -> permute = 0 \/ permute = 1 \/ permute = 2 ->
   exists f (M0 : nat -> @rmem R), loose3 exact_areas 2 (mkset 2 1 2) g2 permute split3 outs f /\ arrays_ok f BIn M0 /\
     forall r, (r < 2)%nat -> holds3 2 0 (split3 r) (fld x) (getb BIn (M0 r))) /\
  (~ tiling3 2 g2 lap3 /\ ~ tiling3 2 g2 part3 /\ ~ tiling3 2 g2 pen3) /\
  forallb (fun outs => forallb (fun st => forallb (fun perm => with_plan st perm split3 outs (fun f P =>
    ends_as f (compute3 Zops normZ f P true false FORWARD BIn BIn) 0 split3 BIn perm outs (plain_sum exG))) [0; 1; 2]) all_sets) [lap3; part3; pen3] = true.
Proof. exact (conj extract_meets_3d (conj not_tilings3 extract_runs_3d)). Qed.

Theorem C80_forward_2d : forall esize ar n st N permute ins outs f bi bo (M0 : nat -> @rmem R) scaled x,
  loose2 esize ar n st N permute ins outs f -> isdata bi -> isdata bo -> bi = bo \/ t_pre f = true -> arrays_ok2 f bo M0 ->
  (forall r, (r < n)%nat -> holds2 2 0 (ins r) (fld x) (getb bi (M0 r))) ->
  exists P, setup_ffts2 cexpR N = Some P /\
  exec_all n (compute2 Rops rnormR esize f P scaled false FORWARD bi bo) M0
    (fun r m => holds2 2 permute (outs r) (fld (DFT2 false N x)) (getb bo m) /\ framed M0 bo (fun r => 2 * t_fftsize f r) r m).
Proof. exact @extract_forward_2d. Qed.
Print Assumptions C80_forward_2d.
Example C80_forward_2d_example :
  (forall outs permute (x : pt2 -> R * R), In outs [lap2; part2; pen2] -> permute = 0 \/ permute = 1 ->
   exists f (M0 : nat -> @rmem R), loose2 8 exact_areas 2 (mkset 2 1 2) sq2 permute split2 outs f /\ arrays_ok2 f BIn M0 /\
     forall r, (r < 2)%nat -> holds2 2 0 (split2 r) (fld x) (getb BIn (M0 r))) /\
  (~ tiling2 2 sq2 lap2 /\ ~ tiling2 2 sq2 part2 /\ ~ tiling2 2 sq2 pen2) /\
  forallb (fun outs => forallb (fun st => forallb (fun perm => with_plan_2 st perm split2 outs (fun f P =>
    ends_as_2 f (compute2 Zops normZ 8 f P true false FORWARD BIn BIn) 0 split2 BIn perm outs (plain_sum_2 exG_2))) [0; 1]) all_sets) [lap2; part2; pen2] = true.
Proof. exact (conj extract_meets_2d (conj not_tilings2 extract_runs_2d)). Qed.

(** there is no way back from boxes that leave points out: forward then backward ends with something else than the data times the number of points *)
Theorem C80_back_3d_refuted : exists st permute ins outs f P (M0 : nat -> @rmem Z) G r p q v,
  loose3 exact_areas 2 st g2 permute ins outs f /\ setup_ffts3 cexpZ g2 = Some P /\ Fft3dTop.room3 f BACKWARD BIn M0 /\
  (forall r, (r < 2)%nat -> holds3 2 0 (ins r) (fld G) (getb BIn (M0 r))) /\ (r < 2)%nat /\ inb3 p (ins r) /\ 0 <= q < 2 /\
  may_end_with 2 (fun r => compute3 Zops normZ f P false false FORWARD BIn BIn r ++ compute3 Zops normZ f P false false BACKWARD BIn BIn r) M0
    r BIn (cell3 2 0 (ins r) p q) v /\ v <> 8 * fld G p q.
Proof. exact extract_back_3d_refuted. Qed.
Print Assumptions C80_back_3d_refuted.

Theorem C80_back_2d_refuted : exists st permute ins outs f P (M0 : nat -> @rmem Z) G r p q v,
  loose2 8 exact_areas 2 st sq2 permute ins outs f /\ setup_ffts2 cexpZ sq2 = Some P /\ arrays_ok2 f BIn M0 /\
  (forall r, (r < 2)%nat -> holds2 2 0 (ins r) (fld G) (getb BIn (M0 r))) /\ (r < 2)%nat /\ inb2 p (ins r) /\ 0 <= q < 2 /\
  may_end_with 2 (fun r => compute2 Zops normZ 8 f P false false FORWARD BIn BIn r ++ compute2 Zops normZ 8 f P false false BACKWARD BIn BIn r) M0
    r BIn (cell2 2 0 (ins r) p q) v /\ v <> 4 * fld G p q.
Proof. exact extract_back_2d_refuted. Qed.
Print Assumptions C80_back_2d_refuted.
