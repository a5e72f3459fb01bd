(** PropertiesBits.v : C79.  Proofs in Bits.v and BitsEx.v. *)

From Coq Require Import Reals Floats.SpecFloat.
From Verif Require Import Base Spec Pack3d Pack2d Sched SchedProofs Phases Exec Remap RemapMain RemapInst
  Remap3d Remap2d RemapThms RemapTop ExRemap Layout LayoutProofs Setup3d Setup3dProofs Setup2d Setup2dProofs LayoutFinal
  Kiss KissPure KissAlg KissReal Fft1d KissFinal Binary
  Fft3d Frame Fft3dProofs Fft3dMain DftMulti Fft3dTop Fft3dFinal Fft3dStmt Fft3dEx Fft2d Fft2dMain Fft2dTop Fft2dFinal Fft2dStmt Fft2dEx Bits BitsEx.
Local Open Scope Z_scope.

(** C79: in any arithmetic, the forward transform [H] of a grid [G] depends on the grid only: whatever the number of processes, the
    layouts, permute, the settings and the order of events, each process ends with the values of [H] at its points *)
Theorem C79_forward_3d : forall (F : Type) (O : sops F) (cexp : bool -> Z -> Z -> F * F) (rnorm : Z -> F) (N : Z * Z * Z) P (G : pt3 -> F * F),
  setup_ffts3 cexp N = Some P -> exists H : pt3 -> F * F,
  forall ar n st permute ins outs f bi bo (M0 : nat -> @rmem F) scaled, ready3 ar n st N permute ins outs f -> isdata bi -> isdata bo ->
  place3 f FORWARD bi bo -> Fft3dTop.room3 f FORWARD bo M0 ->
  (forall r, (r < n)%nat -> holds3 2 0 (ins r) (fld G) (getb bi (M0 r))) ->
  exec_all n (compute3 O rnorm f P scaled false FORWARD bi bo) M0
    (fun r m => holds3 2 permute (outs r) (fld H) (getb bo m) /\ framed M0 bo (fun r => 2 * f_fftsize f r) r m).
Proof. exact @bits_forward_3d. Qed.
Print Assumptions C79_forward_3d.
Example C79_forward_3d_example : forall permute c, permute = 0 \/ permute = 1 \/ permute = 2 -> 0 <= c <= 2 ->
  (exists f M0, ready3 exact_areas 1 (mkset 2 0 2) g2 permute whole3 whole3 f /\ place3 f FORWARD BIn BIn /\ Fft3dTop.room3 f FORWARD BIn M0 /\
    forall r, (r < 1)%nat -> holds3 2 0 (whole3 r) (fld bitG) (getb BIn (M0 r))) /\
  (exists f M0, ready3 exact_areas 2 (mkset c 0 (2 - c)) g2 permute split3 isplit3 f /\ place3 f FORWARD BIn BIn /\ Fft3dTop.room3 f FORWARD BIn M0 /\
    forall r, (r < 2)%nat -> holds3 2 0 (split3 r) (fld bitG) (getb BIn (M0 r))).
Proof. exact (jobs3 FORWARD _ dmark bitG). Qed.

Theorem C79_forward_2d : forall (F : Type) (O : sops F) (cexp : bool -> Z -> Z -> F * F) (rnorm : Z -> F) (N : Z * Z) P (G : pt2 -> F * F),
  setup_ffts2 cexp N = Some P -> exists H : pt2 -> F * F,
  forall esize ar n st permute ins outs f bi bo (M0 : nat -> @rmem F) scaled, ready2 esize ar n st N permute ins outs f -> isdata bi -> isdata bo ->
  place2 f FORWARD bi bo -> arrays_ok2 f bo M0 ->
  (forall r, (r < n)%nat -> holds2 2 0 (ins r) (fld G) (getb bi (M0 r))) ->
  exec_all n (compute2 O rnorm esize f P scaled false FORWARD bi bo) M0
    (fun r m => holds2 2 permute (outs r) (fld H) (getb bo m) /\ framed M0 bo (fun r => 2 * t_fftsize f r) r m).
Proof. exact @bits_forward_2d. Qed.
Print Assumptions C79_forward_2d.
Example C79_forward_2d_example : forall permute c, permute = 0 \/ permute = 1 -> 0 <= c <= 2 ->
  (exists f M0, ready2 8 exact_areas 1 (mkset 2 0 2) sq2 permute whole2 whole2 f /\ place2 f FORWARD BIn BIn /\ arrays_ok2 f BIn M0 /\
    forall r, (r < 1)%nat -> holds2 2 0 (whole2 r) (fld bitG2) (getb BIn (M0 r))) /\
  (exists f M0, ready2 8 exact_areas 2 (mkset c 0 (2 - c)) sq2 permute split2 isplit2 f /\ place2 f FORWARD BIn BIn /\ arrays_ok2 f BIn M0 /\
    forall r, (r < 2)%nat -> holds2 2 0 (split2 r) (fld bitG2) (getb BIn (M0 r))).
Proof. exact (jobs2 FORWARD _ dmark bitG2). Qed.

(** the backward transform also depends on whether input and output are laid out alike; with scaling, where all points are scaled (C26) *)
Theorem C79_backward_3d : forall (F : Type) (O : sops F) (cexp : bool -> Z -> Z -> F * F) (rnorm : Z -> F) (N : Z * Z * Z) P (G : pt3 -> F * F) (same scaled : bool),
  setup_ffts3 cexp N = Some P -> exists H : pt3 -> F * F,
  forall ar n st permute ins outs f bi bo (M0 : nat -> @rmem F), ready3 ar n st N permute ins outs f -> isdata bi -> isdata bo ->
  place3 f BACKWARD bi bo -> Fft3dTop.room3 f BACKWARD bo M0 ->
  (same = true <-> permute = 0 /\ forall r, (r < n)%nat -> ins r = outs r) ->
  (scaled = true -> forall r, (r < n)%nat -> psize3 (ins r) <= psize3 (outs r)) ->
  (forall r, (r < n)%nat -> holds3 2 permute (outs r) (fld G) (getb bi (M0 r))) ->
  exec_all n (compute3 O rnorm f P scaled false BACKWARD bi bo) M0
    (fun r m => holds3 2 0 (ins r) (fld H) (getb bo m) /\ framed M0 bo (fun r => 2 * f_fftsize f r) r m).
Proof. exact @bits_backward_3d. Qed.
Print Assumptions C79_backward_3d.
Example C79_backward_3d_example : forall permute c, permute = 1 \/ permute = 2 -> 0 <= c <= 2 ->
  (exists f M0, ready3 exact_areas 1 (mkset 2 0 2) g2 permute whole3 whole3 f /\ place3 f BACKWARD BIn BIn /\ Fft3dTop.room3 f BACKWARD BIn M0 /\
    forall r, (r < 1)%nat -> holds3 2 permute (whole3 r) (fld bitG) (getb BIn (M0 r))) /\
  (exists f M0, ready3 exact_areas 2 (mkset c 0 (2 - c)) g2 permute split3 isplit3 f /\ place3 f BACKWARD BIn BIn /\ Fft3dTop.room3 f BACKWARD BIn M0 /\
    forall r, (r < 2)%nat -> holds3 2 permute (isplit3 r) (fld bitG) (getb BIn (M0 r))) /\
  ~ (permute = 0 /\ forall r, (r < 1)%nat -> whole3 r = whole3 r) /\ ~ (permute = 0 /\ forall r, (r < 2)%nat -> split3 r = isplit3 r) /\
  (forall r, (r < 2)%nat -> psize3 (split3 r) <= psize3 (isplit3 r)).
Proof.
  intros permute c Hp Hc. destruct (jobs3 BACKWARD _ dmark bitG permute c ltac:(tauto) Hc) as (A & B). split; [exact A|]. split; [exact B|].
  split; [lia|]. split; [lia|]. intros [|[|r]] Hr; try lia; vm_compute; discriminate.
Qed.

Theorem C79_backward_2d : forall (F : Type) (O : sops F) (cexp : bool -> Z -> Z -> F * F) (rnorm : Z -> F) (N : Z * Z) P (G : pt2 -> F * F) (same scaled : bool),
  setup_ffts2 cexp N = Some P -> exists H : pt2 -> F * F,
  forall esize ar n st permute ins outs f bi bo (M0 : nat -> @rmem F), ready2 esize ar n st N permute ins outs f -> isdata bi -> isdata bo ->
  place2 f BACKWARD bi bo -> arrays_ok2 f bo M0 ->
  (same = true <-> permute = 0 /\ forall r, (r < n)%nat -> ins r = outs r) ->
  (scaled = true -> forall r, (r < n)%nat -> psize2 (ins r) <= psize2 (outs r)) ->
  (forall r, (r < n)%nat -> holds2 2 permute (outs r) (fld G) (getb bi (M0 r))) ->
  exec_all n (compute2 O rnorm esize f P scaled false BACKWARD bi bo) M0
    (fun r m => holds2 2 0 (ins r) (fld H) (getb bo m) /\ framed M0 bo (fun r => 2 * t_fftsize f r) r m).
Proof. exact @bits_backward_2d. Qed.
Print Assumptions C79_backward_2d.
Example C79_backward_2d_example : forall c, 0 <= c <= 2 ->
  (exists f M0, ready2 8 exact_areas 1 (mkset 2 0 2) sq2 1 whole2 whole2 f /\ place2 f BACKWARD BIn BIn /\ arrays_ok2 f BIn M0 /\
    forall r, (r < 1)%nat -> holds2 2 1 (whole2 r) (fld bitG2) (getb BIn (M0 r))) /\
  (exists f M0, ready2 8 exact_areas 2 (mkset c 0 (2 - c)) sq2 1 split2 isplit2 f /\ place2 f BACKWARD BIn BIn /\ arrays_ok2 f BIn M0 /\
    forall r, (r < 2)%nat -> holds2 2 1 (isplit2 r) (fld bitG2) (getb BIn (M0 r))) /\
  (forall r, (r < 2)%nat -> psize2 (split2 r) <= psize2 (isplit2 r)).
Proof.
  intros c Hc. destruct (jobs2 BACKWARD _ dmark bitG2 1 c ltac:(tauto) Hc) as (A & B). split; [exact A|]. split; [exact B|].
  intros [|[|r]] Hr; try lia; vm_compute; discriminate.
Qed.

(** without the condition on the layouts it is false in doubles: one process holding the whole grid, and two processes that hold the
    result in slabs and the spectrum in other slabs, get 2^-60 and 0 at the same point.  Of the twiddle factors only exp(0) = 1 matters *)
Theorem C79_backward_3d_refuted : forall cexp, cexp true 0 2 = (SFone 53, S754_zero false) -> exists f f' P (G : pt3 -> spec_float * spec_float) M0 M0' v v',
  ready3 exact_areas 1 (mkset 2 0 2) g2 0 whole3 whole3 f /\ ready3 exact_areas 2 (mkset 2 0 0) g2 0 split3 isplit3 f' /\ setup_ffts3 cexp g2 = Some P /\
  Fft3dTop.room3 f BACKWARD BIn M0 /\ Fft3dTop.room3 f' BACKWARD BIn M0' /\
  holds3 2 0 (whole3 0%nat) (fld G) (getb BIn (M0 0%nat)) /\
  (forall r, (r < 2)%nat -> holds3 2 0 (isplit3 r) (fld G) (getb BIn (M0' r))) /\
  inb3 (0, 0, 0) (whole3 0%nat) /\ inb3 (0, 0, 0) (split3 0%nat) /\
  exec_all 1 (compute3 (SFops 53 1024) normD f P false false BACKWARD BIn BIn) M0
    (fun r m => r = 0%nat -> zget (getb BIn m) (cell3 2 0 (whole3 0%nat) (0, 0, 0) 0) = Some v) /\
  exec_all 2 (compute3 (SFops 53 1024) normD f' P false false BACKWARD BIn BIn) M0'
    (fun r m => r = 0%nat -> zget (getb BIn m) (cell3 2 0 (split3 0%nat) (0, 0, 0) 0) = Some v') /\
  v <> v'.
Proof. exact bits_3d_refuted. Qed.
Print Assumptions C79_backward_3d_refuted.
Example C79_backward_refuted_example : forall cosd sind, cosd (S754_zero false) = SFone 53 -> sind (S754_zero false) = S754_zero false ->
  twiddleD cosd sind true 0 2 = (SFone 53, S754_zero false).
Proof. exact bit_twiddle. Qed.

Theorem C79_backward_2d_refuted : forall cexp, cexp true 0 2 = (SFone 53, S754_zero false) -> exists f f' P (G : pt2 -> spec_float * spec_float) M0 M0' v v',
  ready2 8 exact_areas 1 (mkset 2 0 2) sq2 0 whole2 whole2 f /\ ready2 8 exact_areas 2 (mkset 2 0 0) sq2 0 split2 isplit2 f' /\ setup_ffts2 cexp sq2 = Some P /\
  arrays_ok2 f BIn M0 /\ arrays_ok2 f' BIn M0' /\
  holds2 2 0 (whole2 0%nat) (fld G) (getb BIn (M0 0%nat)) /\
  (forall r, (r < 2)%nat -> holds2 2 0 (isplit2 r) (fld G) (getb BIn (M0' r))) /\
  inb2 (0, 0) (whole2 0%nat) /\ inb2 (0, 0) (split2 0%nat) /\
  exec_all 1 (compute2 (SFops 53 1024) normD 8 f P false false BACKWARD BIn BIn) M0
    (fun r m => r = 0%nat -> zget (getb BIn m) (cell2 2 0 (whole2 0%nat) (0, 0) 0) = Some v) /\
  exec_all 2 (compute2 (SFops 53 1024) normD 8 f' P false false BACKWARD BIn BIn) M0'
    (fun r m => r = 0%nat -> zget (getb BIn m) (cell2 2 0 (split2 0%nat) (0, 0) 0) = Some v') /\
  v <> v'.
Proof. exact bits_2d_refuted. Qed.
Print Assumptions C79_backward_2d_refuted.
