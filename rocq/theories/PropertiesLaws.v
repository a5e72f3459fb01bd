(** PropertiesLaws.v : C84, laws of the transforms as relations between runs. Statements only; proofs are in SymMath.v,
    Laws.v and LawsEx.v. *)

From Coq Require Import Reals.
From Verif Require Import Base Spec Pack3d Pack2d Sched SchedProofs Phases Exec Remap RemapMain RemapInst
  Remap3d Remap2d RemapThms RemapTop ExRemap Layout LayoutProofs LayoutFinal Setup3d Setup3dProofs Setup2d Setup2dProofs Kiss KissPure KissAlg KissReal Fft1d KissFinal
  Fft3d Frame Fft3dProofs Fft3dMain DftMulti Fft3dTop Fft3dFinal Fft3dEx Fft2d Fft2dMain Fft2dTop Fft2dFinal Fft2dEx Ops OpsSeq OpsProofs RoundL2Fft ConvMath Convolve ConvolveEx SymMath Laws LawsEx.
Local Open Scope Z_scope.

(** a forward call is linear, with complex factors *)
Theorem C84_linear_3d ar n st N permute ins outs f bi bo s1 s2 s3 (M1 M2 M3 : nat -> @rmem R) a b x y :
  ready3 ar n st N permute ins outs f -> isdata bi -> isdata bo -> bi = bo \/ f_pre f = true -> 
  arrays_ok f bo M1 -> arrays_ok f bo M2 -> arrays_ok f bo M3 ->
  (forall r, (r < n)%nat -> holds3 2 0 (ins r) (fld x) (getb bi (M1 r))) ->
  (forall r, (r < n)%nat -> holds3 2 0 (ins r) (fld y) (getb bi (M2 r))) ->
  (forall r, (r < n)%nat -> holds3 2 0 (ins r) (fld (fun p => plusc (cprod a (x p)) (cprod b (y p)))) (getb bi (M3 r))) ->
  exists P X Y, setup_ffts3 cexpR N = Some P /\
  exec_all n (compute3 Rops rnormR f P s1 false FORWARD bi bo) M1 (fun r m => holds3 2 permute (outs r) (fld X) (getb bo m)) /\
  exec_all n (compute3 Rops rnormR f P s2 false FORWARD bi bo) M2 (fun r m => holds3 2 permute (outs r) (fld Y) (getb bo m)) /\
  exec_all n (compute3 Rops rnormR f P s3 false FORWARD bi bo) M3
    (fun r m => holds3 2 permute (outs r) (fld (fun p => plusc (cprod a (X p)) (cprod b (Y p)))) (getb bo m)).
Proof. intros Hr Hbi Hbo Hpl. exact (linear_3d ar n st N permute ins outs f bi bo Hr Hbi Hbo Hpl s1 s2 s3 M1 M2 M3 a b x y). Qed.
Print Assumptions C84_linear_3d.
Theorem C84_linear_2d esize ar n st N permute ins outs f bi bo s1 s2 s3 (M1 M2 M3 : nat -> @rmem R) a b x y :
  ready2 esize ar n st N permute ins outs f -> isdata bi -> isdata bo -> bi = bo \/ t_pre f = true -> 
  arrays_ok2 f bo M1 -> arrays_ok2 f bo M2 -> arrays_ok2 f bo M3 ->
  (forall r, (r < n)%nat -> holds2 2 0 (ins r) (fld x) (getb bi (M1 r))) ->
  (forall r, (r < n)%nat -> holds2 2 0 (ins r) (fld y) (getb bi (M2 r))) ->
  (forall r, (r < n)%nat -> holds2 2 0 (ins r) (fld (fun p => plusc (cprod a (x p)) (cprod b (y p)))) (getb bi (M3 r))) ->
  exists P X Y, setup_ffts2 cexpR N = Some P /\
  exec_all n (compute2 Rops rnormR esize f P s1 false FORWARD bi bo) M1 (fun r m => holds2 2 permute (outs r) (fld X) (getb bo m)) /\
  exec_all n (compute2 Rops rnormR esize f P s2 false FORWARD bi bo) M2 (fun r m => holds2 2 permute (outs r) (fld Y) (getb bo m)) /\
  exec_all n (compute2 Rops rnormR esize f P s3 false FORWARD bi bo) M3
    (fun r m => holds2 2 permute (outs r) (fld (fun p => plusc (cprod a (X p)) (cprod b (Y p)))) (getb bo m)).
Proof. intros Hr Hbi Hbo Hpl. exact (linear_2d esize ar n st N permute ins outs f bi bo Hr Hbi Hbo Hpl s1 s2 s3 M1 M2 M3 a b x y). Qed.
Print Assumptions C84_linear_2d.
(** moving the input around the grid multiplies the output by a phase *)
Theorem C84_shift_3d ar n st N permute ins outs f bi bo s1 s2 (M1 M2 : nat -> @rmem R) d x :
  ready3 ar n st N permute ins outs f -> isdata bi -> isdata bo -> bi = bo \/ f_pre f = true -> 
  arrays_ok f bo M1 -> arrays_ok f bo M2 -> in_grid N d ->
  (forall r, (r < n)%nat -> holds3 2 0 (ins r) (fld x) (getb bi (M1 r))) ->
  (forall r, (r < n)%nat -> holds3 2 0 (ins r) (fld (shifted3 N d x)) (getb bi (M2 r))) ->
  exists P X, setup_ffts3 cexpR N = Some P /\
  exec_all n (compute3 Rops rnormR f P s1 false FORWARD bi bo) M1 (fun r m => holds3 2 permute (outs r) (fld X) (getb bo m)) /\
  exec_all n (compute3 Rops rnormR f P s2 false FORWARD bi bo) M2
    (fun r m => holds3 2 permute (outs r) (fld (fun p => cprod (X p) (expi (turn3 false N d p)))) (getb bo m)).
Proof. intros Hr Hbi Hbo Hpl. exact (shift_3d ar n st N permute ins outs f bi bo Hr Hbi Hbo Hpl s1 s2 M1 M2 d x). Qed.
Print Assumptions C84_shift_3d.
Theorem C84_shift_2d esize ar n st N permute ins outs f bi bo s1 s2 (M1 M2 : nat -> @rmem R) d x :
  ready2 esize ar n st N permute ins outs f -> isdata bi -> isdata bo -> bi = bo \/ t_pre f = true -> 
  arrays_ok2 f bo M1 -> arrays_ok2 f bo M2 -> in_grid2 N d ->
  (forall r, (r < n)%nat -> holds2 2 0 (ins r) (fld x) (getb bi (M1 r))) ->
  (forall r, (r < n)%nat -> holds2 2 0 (ins r) (fld (shifted2 N d x)) (getb bi (M2 r))) ->
  exists P X, setup_ffts2 cexpR N = Some P /\
  exec_all n (compute2 Rops rnormR esize f P s1 false FORWARD bi bo) M1 (fun r m => holds2 2 permute (outs r) (fld X) (getb bo m)) /\
  exec_all n (compute2 Rops rnormR esize f P s2 false FORWARD bi bo) M2
    (fun r m => holds2 2 permute (outs r) (fld (fun p => cprod (X p) (expi (turn2 false N d p)))) (getb bo m)).
Proof. intros Hr Hbi Hbo Hpl. exact (shift_2d esize ar n st N permute ins outs f bi bo Hr Hbi Hbo Hpl s1 s2 M1 M2 d x). Qed.
Print Assumptions C84_shift_2d.
(** real input: opposite wave vectors have conjugate values *)
Theorem C84_real_3d ar n st N permute ins outs f bi bo s1 (M : nat -> @rmem R) x :
  ready3 ar n st N permute ins outs f -> isdata bi -> isdata bo -> bi = bo \/ f_pre f = true -> 
  arrays_ok f bo M -> real3 N x ->
  (forall r, (r < n)%nat -> holds3 2 0 (ins r) (fld x) (getb bi (M r))) ->
  exists P X, setup_ffts3 cexpR N = Some P /\
  exec_all n (compute3 Rops rnormR f P s1 false FORWARD bi bo) M (fun r m => holds3 2 permute (outs r) (fld X) (getb bo m)) /\ hermitian3 N X.
Proof. intros Hr Hbi Hbo Hpl. exact (real_3d ar n st N permute ins outs f bi bo Hr Hbi Hbo Hpl s1 M x). Qed.
Print Assumptions C84_real_3d.
Theorem C84_real_2d esize ar n st N permute ins outs f bi bo s1 (M : nat -> @rmem R) x :
  ready2 esize ar n st N permute ins outs f -> isdata bi -> isdata bo -> bi = bo \/ t_pre f = true -> 
  arrays_ok2 f bo M -> real2 N x ->
  (forall r, (r < n)%nat -> holds2 2 0 (ins r) (fld x) (getb bi (M r))) ->
  exists P X, setup_ffts2 cexpR N = Some P /\
  exec_all n (compute2 Rops rnormR esize f P s1 false FORWARD bi bo) M (fun r m => holds2 2 permute (outs r) (fld X) (getb bo m)) /\ hermitian2 N X.
Proof. intros Hr Hbi Hbo Hpl. exact (real_2d esize ar n st N permute ins outs f bi bo Hr Hbi Hbo Hpl s1 M x). Qed.
Print Assumptions C84_real_2d.
(** two real fields in one call: the transforms of both can be read off *)
Theorem C84_two_real_3d ar n st N permute ins outs f bi bo s1 s2 s3 (M M1 M2 : nat -> @rmem R) z :
  ready3 ar n st N permute ins outs f -> isdata bi -> isdata bo -> bi = bo \/ f_pre f = true -> 
  arrays_ok f bo M -> arrays_ok f bo M1 -> arrays_ok f bo M2 ->
  (forall r, (r < n)%nat -> holds3 2 0 (ins r) (fld z) (getb bi (M r))) ->
  (forall r, (r < n)%nat -> holds3 2 0 (ins r) (fld (re_part z)) (getb bi (M1 r))) ->
  (forall r, (r < n)%nat -> holds3 2 0 (ins r) (fld (im_part z)) (getb bi (M2 r))) ->
  exists P Y, setup_ffts3 cexpR N = Some P /\
  exec_all n (compute3 Rops rnormR f P s1 false FORWARD bi bo) M (fun r m => holds3 2 permute (outs r) (fld Y) (getb bo m)) /\
  exec_all n (compute3 Rops rnormR f P s2 false FORWARD bi bo) M1
    (fun r m => holds3 2 permute (outs r) (fld (fun p => rmulc (1 / 2) (plusc (Y p) (conjc (Y (opp3 N p)))))) (getb bo m)) /\
  exec_all n (compute3 Rops rnormR f P s3 false FORWARD bi bo) M2
    (fun r m => holds3 2 permute (outs r) (fld (fun p => cprod (0, - (1 / 2))%R (plusc (Y p) (rmulc (-1) (conjc (Y (opp3 N p))))))) (getb bo m)).
Proof. intros Hr Hbi Hbo Hpl. exact (two_real_3d ar n st N permute ins outs f bi bo Hr Hbi Hbo Hpl s1 s2 s3 M M1 M2 z). Qed.
Print Assumptions C84_two_real_3d.
Theorem C84_two_real_2d esize ar n st N permute ins outs f bi bo s1 s2 s3 (M M1 M2 : nat -> @rmem R) z :
  ready2 esize ar n st N permute ins outs f -> isdata bi -> isdata bo -> bi = bo \/ t_pre f = true -> 
  arrays_ok2 f bo M -> arrays_ok2 f bo M1 -> arrays_ok2 f bo M2 ->
  (forall r, (r < n)%nat -> holds2 2 0 (ins r) (fld z) (getb bi (M r))) ->
  (forall r, (r < n)%nat -> holds2 2 0 (ins r) (fld (re_part z)) (getb bi (M1 r))) ->
  (forall r, (r < n)%nat -> holds2 2 0 (ins r) (fld (im_part z)) (getb bi (M2 r))) ->
  exists P Y, setup_ffts2 cexpR N = Some P /\
  exec_all n (compute2 Rops rnormR esize f P s1 false FORWARD bi bo) M (fun r m => holds2 2 permute (outs r) (fld Y) (getb bo m)) /\
  exec_all n (compute2 Rops rnormR esize f P s2 false FORWARD bi bo) M1
    (fun r m => holds2 2 permute (outs r) (fld (fun p => rmulc (1 / 2) (plusc (Y p) (conjc (Y (opp2 N p)))))) (getb bo m)) /\
  exec_all n (compute2 Rops rnormR esize f P s3 false FORWARD bi bo) M2
    (fun r m => holds2 2 permute (outs r) (fld (fun p => cprod (0, - (1 / 2))%R (plusc (Y p) (rmulc (-1) (conjc (Y (opp2 N p))))))) (getb bo m)).
Proof. intros Hr Hbi Hbo Hpl. exact (two_real_2d esize ar n st N permute ins outs f bi bo Hr Hbi Hbo Hpl s1 s2 s3 M M1 M2 z). Qed.
Print Assumptions C84_two_real_2d.
(** the sum of squares grows by the number of points *)
Theorem C84_energy_3d ar n st N permute ins outs f bi bo s1 (M : nat -> @rmem R) x :
  ready3 ar n st N permute ins outs f -> isdata bi -> isdata bo -> bi = bo \/ f_pre f = true -> 
  arrays_ok f bo M ->
  (forall r, (r < n)%nat -> holds3 2 0 (ins r) (fld x) (getb bi (M r))) ->
  exists P X, setup_ffts3 cexpR N = Some P /\
  exec_all n (compute3 Rops rnormR f P s1 false FORWARD bi bo) M (fun r m => holds3 2 permute (outs r) (fld X) (getb bo m)) /\
  energy3 N X = (IZR (grid_points N) * energy3 N x)%R.
Proof. intros Hr Hbi Hbo Hpl. exact (energy_3d ar n st N permute ins outs f bi bo Hr Hbi Hbo Hpl s1 M x). Qed.
Print Assumptions C84_energy_3d.
Theorem C84_energy_2d esize ar n st N permute ins outs f bi bo s1 (M : nat -> @rmem R) x :
  ready2 esize ar n st N permute ins outs f -> isdata bi -> isdata bo -> bi = bo \/ t_pre f = true -> 
  arrays_ok2 f bo M ->
  (forall r, (r < n)%nat -> holds2 2 0 (ins r) (fld x) (getb bi (M r))) ->
  exists P X, setup_ffts2 cexpR N = Some P /\
  exec_all n (compute2 Rops rnormR esize f P s1 false FORWARD bi bo) M (fun r m => holds2 2 permute (outs r) (fld X) (getb bo m)) /\
  energy2 N X = (IZR (grid_points2 N) * energy2 N x)%R.
Proof. intros Hr Hbi Hbo Hpl. exact (energy_2d esize ar n st N permute ins outs f bi bo Hr Hbi Hbo Hpl s1 M x). Qed.
Print Assumptions C84_energy_2d.
(** backward from such data: the imaginary parts are zero, whatever was scaled *)
Theorem C84_hermitian_3d ar n st N permute ins outs f bi bo scaled (M : nat -> @rmem R) x :
  ready3 ar n st N permute ins outs f -> isdata bi -> isdata bo -> 
  place3 f BACKWARD bi bo -> Fft3dTop.room3 f BACKWARD bo M -> hermitian3 N x ->
  (forall r, (r < n)%nat -> holds3 2 permute (outs r) (fld x) (getb bi (M r))) ->
  exists P, setup_ffts3 cexpR N = Some P /\
  exec_all n (compute3 Rops rnormR f P scaled false BACKWARD bi bo) M
    (fun r m => forall p, inb3 p (ins r) -> exists v, zget (getb bo m) (cell3 2 0 (ins r) p 0) = Some v /\ zget (getb bo m) (cell3 2 0 (ins r) p 1) = Some 0%R).
Proof. intros Hr Hbi Hbo. exact (hermitian_3d ar n st N permute ins outs f bi bo Hr Hbi Hbo scaled M x). Qed.
Print Assumptions C84_hermitian_3d.
Theorem C84_hermitian_2d esize ar n st N permute ins outs f bi bo scaled (M : nat -> @rmem R) x :
  ready2 esize ar n st N permute ins outs f -> isdata bi -> isdata bo -> 
  place2 f BACKWARD bi bo -> arrays_ok2 f bo M -> hermitian2 N x ->
  (forall r, (r < n)%nat -> holds2 2 permute (outs r) (fld x) (getb bi (M r))) ->
  exists P, setup_ffts2 cexpR N = Some P /\
  exec_all n (compute2 Rops rnormR esize f P scaled false BACKWARD bi bo) M
    (fun r m => forall p, inb2 p (ins r) -> exists v, zget (getb bo m) (cell2 2 0 (ins r) p 0) = Some v /\ zget (getb bo m) (cell2 2 0 (ins r) p 1) = Some 0%R).
Proof. intros Hr Hbi Hbo. exact (hermitian_2d esize ar n st N permute ins outs f bi bo Hr Hbi Hbo scaled M x). Qed.
Print Assumptions C84_hermitian_2d.
(** a real field filtered by a Hermitian multiplier is real *)
Theorem C84_filter_3d ar n st N permute ins outs f b (M0 : nat -> @rmem R) s1 scaled x w G :
  ready3 ar n st N permute ins outs f -> isdata b -> Fft3dTop.room3 f BACKWARD b M0 ->
  (scaled = true -> forall r, (r < n)%nat -> psize3 (ins r) <= psize3 (outs r)) -> multiplies3 n permute outs w G ->
  real3 N x -> hermitian3 N G -> (forall r, (r < n)%nat -> holds3 2 0 (ins r) (fld x) (getb b (M0 r))) ->
  exists P y, setup_ffts3 cexpR N = Some P /\
  exec_all n (fun r => compute3 Rops rnormR f P s1 false FORWARD b b r ++ filling b w r ++ compute3 Rops rnormR f P scaled false BACKWARD b b r) M0
    (fun r m => holds3 2 0 (ins r) (fld (fun p => (y p, 0%R))) (getb b m)).
Proof. exact (filter_3d ar n st N permute ins outs f b M0 s1 scaled x w G). Qed.
Print Assumptions C84_filter_3d.
Theorem C84_filter_2d esize ar n st N permute ins outs f b (M0 : nat -> @rmem R) s1 scaled x w G :
  ready2 esize ar n st N permute ins outs f -> isdata b -> arrays_ok2 f b M0 ->
  (scaled = true -> forall r, (r < n)%nat -> psize2 (ins r) <= psize2 (outs r)) -> multiplies2 n permute outs w G ->
  real2 N x -> hermitian2 N G -> (forall r, (r < n)%nat -> holds2 2 0 (ins r) (fld x) (getb b (M0 r))) ->
  exists P y, setup_ffts2 cexpR N = Some P /\
  exec_all n (fun r => compute2 Rops rnormR esize f P s1 false FORWARD b b r ++ filling b w r ++ compute2 Rops rnormR esize f P scaled false BACKWARD b b r) M0
    (fun r m => holds2 2 0 (ins r) (fld (fun p => (y p, 0%R))) (getb b m)).
Proof. exact (filter_2d esize ar n st N permute ins outs f b M0 s1 scaled x w G). Qed.
Print Assumptions C84_filter_2d.

Example C84_start_3d_example : exists f, ready3 exact_areas 2 (mkset 1 0 1) g2 1 split3 isplit3 f /\ place3 f BACKWARD BIn BIn /\
  (forall r, (r < 2)%nat -> psize3 (split3 r) <= psize3 (isplit3 r)) /\ in_grid g2 (1, 0, 1) /\
  forall x : pt3 -> R * R,
    (exists M0 : nat -> @rmem R, Fft3dTop.room3 f BACKWARD BIn M0 /\ arrays_ok f BIn M0 /\ forall r, (r < 2)%nat -> holds3 2 0 (split3 r) (fld x) (getb BIn (M0 r))) /\
    (exists M0 : nat -> @rmem R, Fft3dTop.room3 f BACKWARD BIn M0 /\ forall r, (r < 2)%nat -> holds3 2 1 (isplit3 r) (fld x) (getb BIn (M0 r))).
Proof. exact C84_start_3d. Qed.
Example C84_fields_3d_example : real3 g2 (fun p => (IZR (fst (exG p)), 0%R)) /\ fst (exG (0, 0, 0)) <> fst (exG (1, 0, 0)) /\
  hermitian3 (4, 2, 2) exHerm /\ snd (exHerm (1, 0, 0)) <> 0%R /\ opp3 (4, 3, 2) (1, 2, 1) = (3, 1, 1).
Proof. exact C84_fields_3d. Qed.
Example C84_runs_3d_example : tryall safe_sets (fun perm ins outs f P =>
    let F := compute3 Zops normZ f P false false FORWARD BIn BIn in
    ends_from (linZ (2, 3) exG (-1, 4) exK) f F 0 ins perm outs (linZ (2, 3) (dftZ exG) (-1, 4) (dftZ exK)) &&
    ends_from (shiftZ (1, 0, 1) exG) f F 0 ins perm outs (turnZ (1, 0, 1) (dftZ exG)) &&
    ends_from (reZ exG) f F 0 ins perm outs (reZ (dftZ exG)) &&
    ends_from (reZ exG) f (compute3 Zops normZ f P false false BACKWARD BIn BIn) perm outs 0 ins (reZ (dftZ exG))) = true.
Proof. exact C84_runs_3d. Qed.
Example C84_start_2d_example : exists f, ready2 8 exact_areas 2 (mkset 1 1 1) sq2 1 split2 isplit2 f /\ place2 f BACKWARD BIn BIn /\
  (forall r, (r < 2)%nat -> psize2 (split2 r) <= psize2 (isplit2 r)) /\ in_grid2 sq2 (1, 0) /\
  forall x : pt2 -> R * R,
    (exists M0 : nat -> @rmem R, arrays_ok2 f BIn M0 /\ forall r, (r < 2)%nat -> holds2 2 0 (split2 r) (fld x) (getb BIn (M0 r))) /\
    (exists M0 : nat -> @rmem R, arrays_ok2 f BIn M0 /\ forall r, (r < 2)%nat -> holds2 2 1 (isplit2 r) (fld x) (getb BIn (M0 r))).
Proof. exact C84_start_2d. Qed.
Example C84_fields_2d_example : real2 sq2 (fun p => (IZR (fst (exG_2 p)), 0%R)) /\ fst (exG_2 (0, 0)) <> fst (exG_2 (1, 0)) /\
  hermitian2 (4, 2) exHerm_2 /\ snd (exHerm_2 (1, 0)) <> 0%R /\ opp2 (4, 3) (1, 2) = (3, 1).
Proof. exact C84_fields_2d. Qed.
Example C84_runs_2d_example : tryall_2 all_sets (fun perm ins outs f P =>
    let F := compute2 Zops normZ 8 f P false false FORWARD BIn BIn in
    ends_from_2 (linZ (2, 3) exG_2 (-1, 4) exK_2) f F 0 ins perm outs (linZ (2, 3) (dftZ_2 exG_2) (-1, 4) (dftZ_2 exK_2)) &&
    ends_from_2 (shiftZ_2 (1, 0) exG_2) f F 0 ins perm outs (turnZ_2 (1, 0) (dftZ_2 exG_2)) &&
    ends_from_2 (reZ exG_2) f F 0 ins perm outs (reZ (dftZ_2 exG_2)) &&
    ends_from_2 (reZ exG_2) f (compute2 Zops normZ 8 f P false false BACKWARD BIn BIn) perm outs 0 ins (reZ (dftZ_2 exG_2))) = true.
Proof. exact C84_runs_2d. Qed.
