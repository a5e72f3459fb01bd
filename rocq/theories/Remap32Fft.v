(** Remap32Fft.v : every sequence of calls of compute() of a 3d or 2d transform, in ints of 32 bits. *)

From Coq Require Import Reals.
From Verif Require Import Base Spec Pack3d Pack2d Sched SchedProofs MemProofs Phases Exec Layout Overflow OverflowProofs Remap RemapProofs RemapMain Remap3d Remap2d RemapInst RemapThms RemapTop
  RemapFinal Setup3d Setup2d Setup3dProofs Setup2dProofs Kiss KissPure KissAlg KissReal Fft1d KissFinal Fft3d Frame Fft3dProofs Fft3dMain Fft2d Fft2dMain DftMulti Fft3dTop Fft2dTop Fft3dFinal Fft2dFinal Pack32 Pack32Proofs Pack32Top Remap32 Remap32Sim Remap32Proofs Remap32Top.
Local Open Scope Z_scope.

(** ** specification: a transform whose largest tile and longest line are small enough *)
Definition fits32 (esize packflag : Z) (n : nat) (N : Z * Z * Z) (fftsize : nat -> Z) : Prop :=
  (forall r, (r < n)%nat -> 2 * fftsize r <= if packflag =? 0 then HALF else INT_MAX) /\
  (packflag = 2 -> 0 < esize /\ let '(x, y, z) := N in 2 * x * esize <= INT_MAX /\ 2 * y * esize <= INT_MAX /\ 2 * z * esize <= INT_MAX).
Definition fits32_2 (packflag : Z) (n : nat) (N : Z * Z) (fftsize : nat -> Z) : Prop :=
  (forall r, (r < n)%nat -> 2 * fftsize r <= if packflag =? 0 then HALF else INT_MAX) /\
  (packflag = 2 -> let '(x, y) := N in 2 * x * 8 <= INT_MAX /\ 2 * y * 8 <= INT_MAX).

(** one call of compute(): scaling on, remaponly, flag, the arrays in and out *)
Record call := mkcall { c_scaled : bool; c_remaponly : bool; c_flag : Z; c_in : bsel; c_out : bsel }.
Definition calls3 {F} (O : sops F) rnorm f P (cs : list call) := together (map (fun c => compute3 O rnorm f P (c_scaled c) (c_remaponly c) (c_flag c) (c_in c) (c_out c)) cs).
Definition calls3_32 {F} (O : sops F) rnorm strict esize f P (cs : list call) := together (map (fun c => compute3_32 O rnorm strict esize f P (c_scaled c) (c_remaponly c) (c_flag c) (c_in c) (c_out c)) cs).
Definition calls2 {F} (O : sops F) rnorm f P (cs : list call) := together (map (fun c => compute2 O rnorm 8 f P (c_scaled c) (c_remaponly c) (c_flag c) (c_in c) (c_out c)) cs).
Definition calls2_32 {F} (O : sops F) rnorm strict f P (cs : list call) := together (map (fun c => compute2_32 O rnorm strict 8 f P (c_scaled c) (c_remaponly c) (c_flag c) (c_in c) (c_out c)) cs).

Lemma half_max : HALF <= INT_MAX.
Proof. vm_compute. discriminate. Qed.

Lemma tile_side3 n N t r : tiling3 n N t -> (r < n)%nat -> 0 < vol3 (t r) -> let '(x, y, z) := N in ni (t r) <= x /\ nj (t r) <= y /\ nk (t r) <= z.
Proof.
  intros (H & _) Hr V. destruct N as [[x y] z]. unfold vol3 in V.
  assert (P : 0 < ni (t r) /\ 0 < nj (t r) /\ 0 < nk (t r)).
  { destruct (Z.max_spec 0 (ni (t r))) as [(A & E)|(A & E)]; rewrite E in V; [|lia]. destruct (Z.max_spec 0 (nj (t r))) as [(A' & E')|(A' & E')]; rewrite E' in V; [|lia].
    destruct (Z.max_spec 0 (nk (t r))) as [(A'' & E'')|(A'' & E'')]; rewrite E'' in V; lia. }
  unfold ni, nj, nk in *. pose proof (H (ilo (t r), jlo (t r), klo (t r)) r Hr) as H1. pose proof (H (ihi (t r), jhi (t r), khi (t r)) r Hr) as H2. cbn [inb3 grid3 ilo ihi jlo jhi klo khi] in H1, H2. lia.
Qed.
Lemma tile_side2 n N t r : tiling2 n N t -> (r < n)%nat -> 0 < vol2 (t r) -> let '(x, y) := N in ni2 (t r) <= x /\ nj2 (t r) <= y.
Proof.
  intros (H & _) Hr V. destruct N as [x y]. unfold vol2 in V.
  assert (P : 0 < ni2 (t r) /\ 0 < nj2 (t r)).
  { destruct (Z.max_spec 0 (ni2 (t r))) as [(A & E)|(A & E)]; rewrite E in V; [|lia]. destruct (Z.max_spec 0 (nj2 (t r))) as [(A' & E')|(A' & E')]; rewrite E' in V; lia. }
  unfold ni2, nj2 in *. pose proof (H (ilo2 (t r), jlo2 (t r)) r Hr) as H1. pose proof (H (ihi2 (t r), jhi2 (t r)) r Hr) as H2. cbn [inb2 grid2 ilo2 ihi2 jlo2 jhi2] in H1, H2. lia.
Qed.

Section T3.
Variables (ar : areas) (n : nat) (st : settings) (N : Z * Z * Z) (permute : Z) (ins outs : nat -> box3) (f : fft3).
Hypothesis R : ready3 ar n st N permute ins outs f.
Variable esize : Z.
Hypothesis Fit : fits32 esize (st_pack st) n N (f_fftsize f).

Lemma obj_tiles m r : In m (all_objs f) -> (r < n)%nat -> tiles32 esize (st_pack st) 2 (rm_perm m) (rm_in m r) (rm_out m r) /\ perm_ok3 (rm_perm m).
Proof.
  intros Hm Hr. destruct R as (HL & Hn & HI & HF & Ti & To & _ & HS). pose proof (setup3d_facts _ _ _ _ _ _ _ _ HL Hn HI HS) as Fa.
  destruct Fit as (F1 & F2). specialize (F1 r Hr). destruct (obj_fftsize _ _ _ _ _ _ _ Fa m r Hm Hr) as (V1 & V2).
  destruct (all_shape _ _ _ _ _ _ _ Fa m Hm) as (rot & a & b & Hrot & Hp & La & Lb & Ea & Eb). split; [|exact Hp]. pose proof half_max as HM.
  assert (W : 2 * f_fftsize f r <= INT_MAX) by (destruct (st_pack st =? 0); lia).
  split; [lia|]. split; [lia|]. split.
  - intros E2. destruct (F2 E2) as (He & D). split; [exact He|].
    assert (S : forall t, layout3 f t -> 0 < vol3 (rotb3 rot (t r)) -> 2 * ni (rotb3 rot (t r)) * esize <= INT_MAX).
    { intros t Lt Vt. rewrite rot_vol3 in Vt by exact Hrot. pose proof (tile_side3 n N t r (layout_tiling _ _ _ _ _ _ _ Fa t Ti To Lt) Hr Vt) as S. destruct N as [[x y] z]. destruct S as (S1 & S2 & S3). destruct D as (D1 & D2 & D3).
      unfold rotb3. destruct (rot =? 0); [nia|]. destruct (rot =? 1); unfold ni, nj, nk in *; cbn [ilo ihi]; nia. }
    split; [|intros _]; [rewrite Ea|rewrite Eb]; apply S; assumption.
  - intros E0 _. rewrite E0 in F1. cbn [Z.eqb] in F1. lia.
Qed.

Lemma calls3_rel {F} (O : sops F) rnorm P cs r : (r < n)%nat -> prel (@ints_index F) (calls3 O rnorm f P cs r) (calls3_32 O rnorm false esize f P cs r).
Proof.
  intros Hr. destruct R as (HL & Hn & HI & HF & Ti & To & _ & HS). pose proof (setup3d_facts _ _ _ _ _ _ _ _ HL Hn HI HS) as Fa.
  apply together_rel. induction cs as [|c cs IH]; cbn [map]; constructor; [|exact IH].
  unfold compute3_32. apply compute3_rel. intros m bi bo Hm. unfold one_remap3. rewrite (F_n _ _ _ _ _ _ _ Fa), (F_pack _ _ _ _ _ _ _ Fa).
  destruct (obj_tiles m r Hm Hr) as (T & Hp). apply remap3_rel; auto. lia.
Qed.

Theorem calls3_same {F} (O : sops F) rnorm P cs (M0 : nat -> @rmem F) Post : (forall r, (r < n)%nat -> ints_index (M0 r)) ->
  exec_all n (calls3 O rnorm f P cs) M0 Post -> exec_all n (calls3_32 O rnorm false esize f P cs) M0 Post.
Proof.
  intros Hm (M' & HP & E). exists M'. split; [exact HP|]. revert E. apply (exec_rel (@ints_index F)); [apply ints_wrm| |exact Hm]. intros r Hr. apply calls3_rel, Hr.
Qed.
End T3.

Section T2.
Variables (ar : areas) (n : nat) (st : settings) (N : Z * Z) (permute : Z) (ins outs : nat -> box2) (f : fft2).
Hypothesis R : ready2 8 ar n st N permute ins outs f.
Hypothesis Fit : fits32_2 (st_pack st) n N (t_fftsize f).

Lemma obj_tiles2 m r : In m (all_objs2 f) -> (r < n)%nat -> tiles32_2 (st_pack st) 2 (rm2_perm m) (rm2_in m r) (rm2_out m r) /\ perm_ok2 (rm2_perm m).
Proof.
  intros Hm Hr. destruct R as (HL & Hn & HI & HF & _ & Ti & To & _ & HS). pose proof (setup2d_facts _ _ _ _ _ _ _ _ HL Hn HI HS) as Fa.
  destruct Fit as (F1 & F2). specialize (F1 r Hr). destruct (obj_fftsize2 _ _ _ _ _ _ _ Fa m r Hm Hr) as (V1 & V2).
  destruct (all_shape2 _ _ _ _ _ _ _ Fa m Hm) as (rot & a & b & Hrot & Hp & La & Lb & Ea & Eb). split; [|exact Hp]. pose proof half_max as HM.
  assert (W : 2 * t_fftsize f r <= INT_MAX) by (destruct (st_pack st =? 0); lia).
  split; [lia|]. split; [lia|]. split.
  - intros E2. pose proof (F2 E2) as D.
    assert (S : forall t, layout2 f t -> 0 < vol2 (rotb2 rot (t r)) -> 2 * ni2 (rotb2 rot (t r)) * 8 <= INT_MAX).
    { intros t Lt Vt. rewrite rot_vol2 in Vt by exact Hrot. pose proof (tile_side2 n N t r (layout_tiling2 _ _ _ _ _ _ _ Fa t Ti To Lt) Hr Vt) as S. destruct N as [x y]. destruct S as (S1 & S2). destruct D as (D1 & D2).
      unfold rotb2. destruct (rot =? 0); unfold ni2, nj2 in *; cbn [ilo2 ihi2]; lia. }
    split; [|intros _]; [rewrite Ea|rewrite Eb]; apply S; assumption.
  - intros E0 _. rewrite E0 in F1. cbn [Z.eqb] in F1. lia.
Qed.

Lemma calls2_rel {F} (O : sops F) rnorm P cs r : (r < n)%nat -> prel (@ints_index F) (calls2 O rnorm f P cs r) (calls2_32 O rnorm false f P cs r).
Proof.
  intros Hr. destruct R as (HL & Hn & HI & HF & _ & Ti & To & _ & HS). pose proof (setup2d_facts _ _ _ _ _ _ _ _ HL Hn HI HS) as Fa.
  apply together_rel. induction cs as [|c cs IH]; cbn [map]; constructor; [|exact IH].
  unfold compute2_32. apply compute2_rel. intros m bi bo Hm. unfold one_remap2. rewrite (T_n _ _ _ _ _ _ _ Fa), (T_pack _ _ _ _ _ _ _ Fa).
  destruct (obj_tiles2 m r Hm Hr) as (T & Hp). apply remap2_rel; auto. lia.
Qed.

Theorem calls2_same {F} (O : sops F) rnorm P cs (M0 : nat -> @rmem F) Post : (forall r, (r < n)%nat -> ints_index (M0 r)) ->
  exec_all n (calls2 O rnorm f P cs) M0 Post -> exec_all n (calls2_32 O rnorm false f P cs) M0 Post.
Proof.
  intros Hm (M' & HP & E). exists M'. split; [exact HP|]. revert E. apply (exec_rel (@ints_index F)); [apply ints_wrm| |exact Hm]. intros r Hr. apply calls2_rel, Hr.
Qed.
End T2.

(** ** with the statements of C01, C25 and C27 *)
Theorem delivers32 {A} n N esize coll packflag nq permute ins outs (g : pt3 -> Z -> A) M0 :
  perm_ok3 permute -> 0 < nq -> tiling3 n N ins -> tiling3 n N outs -> call_ok3 n nq permute ins outs coll packflag BIn BOut M0 ->
  (forall r, (r < n)%nat -> tiles32 esize packflag nq permute (ins r) (outs r)) -> (forall r, (r < n)%nat -> ints_index (M0 r)) ->
  (forall r, (r < n)%nat -> holds3 nq 0 (ins r) g (m_in (M0 r))) ->
  exec_all n (remap3_32 false esize n coll packflag nq permute ins outs BIn BOut) M0 (fun r m => holds3 nq permute (outs r) g (m_out m)).
Proof.
  intros Hp Hq Ti To Hc Ht Hm Hh. apply remap3_same; auto; [apply Hc|]. apply (C01_proof A n N); assumption.
Qed.

Lemma exec_code {A} n (c d : nat -> list (@instr A)) M0 Post : (forall r, c r = d r) -> exec_all n c M0 Post -> exec_all n d M0 Post.
Proof.
  intros E (M' & HP & L & H). exists M'. split; [exact HP|]. exists L. intros eager labels s Hs. apply (H eager labels s).
  replace (start n c M0) with (start n d M0); [exact Hs|]. unfold start. f_equal. apply map_ext. intros r. rewrite E. reflexivity.
Qed.

Theorem forward32 ar n st N permute ins outs f esize bi bo (M0 : nat -> @rmem R) scaled x :
  ready3 ar n st N permute ins outs f -> fits32 esize (st_pack st) n N (f_fftsize f) -> (forall r, (r < n)%nat -> ints_index (M0 r)) ->
  isdata bi -> isdata bo -> bi = bo \/ f_pre f = true -> arrays_ok f bo M0 ->
  (forall r, (r < n)%nat -> holds3 2 0 (ins r) (fld x) (getb bi (M0 r))) ->
  exists P, setup_ffts3 cexpR N = Some P /\
  exec_all n (compute3_32 Rops rnormR false esize f P scaled false FORWARD bi bo) M0
    (fun r m => holds3 2 permute (outs r) (fld (DFT3 false N x)) (getb bo m) /\ framed M0 bo (fun r => 2 * f_fftsize f r) r m).
Proof.
  intros HR HF Hm Hbi Hbo Hpl Ha Hx. destruct (C25_proof ar n st N permute ins outs f bi bo M0 scaled x HR Hbi Hbo Hpl Ha Hx) as (P & HP & H). exists P. split; [exact HP|].
  apply (exec_code n (calls3_32 Rops rnormR false esize f P [mkcall scaled false FORWARD bi bo])); [intros r; apply app_nil_r|].
  apply (calls3_same ar n st N permute ins outs f HR esize HF); [exact Hm|]. revert H. apply exec_code. intros r. symmetry. apply app_nil_r.
Qed.
Theorem roundtrip32 ar n st N permute ins outs f esize b (M0 : nat -> @rmem R) s1 scaled x :
  ready3 ar n st N permute ins outs f -> fits32 esize (st_pack st) n N (f_fftsize f) -> (forall r, (r < n)%nat -> ints_index (M0 r)) ->
  isdata b -> room3 f BACKWARD b M0 ->
  (scaled = true -> forall r, (r < n)%nat -> psize3 (ins r) <= psize3 (outs r)) ->
  (forall r, (r < n)%nat -> holds3 2 0 (ins r) (fld x) (getb b (M0 r))) ->
  exists P, setup_ffts3 cexpR N = Some P /\
  exec_all n (fun r => compute3_32 Rops rnormR false esize f P s1 false FORWARD b b r ++ compute3_32 Rops rnormR false esize f P scaled false BACKWARD b b r) M0
    (fun r m => holds3 2 0 (ins r) (fld (fun p => if scaled then x p else rmulc (IZR (grid_points N)) (x p))) (getb b m) /\
                framed M0 b (fun r => 2 * f_fftsize f r) r m).
Proof.
  intros HR HF Hm Hb Ha Hsz Hx. destruct (C27_all_proof ar n st N permute ins outs f b M0 s1 scaled x HR Hb Ha Hsz Hx) as (P & HP & H). exists P. split; [exact HP|].
  apply (exec_code n (calls3_32 Rops rnormR false esize f P [mkcall s1 false FORWARD b b; mkcall scaled false BACKWARD b b])); [intros r; unfold calls3_32, together; cbn [map concat c_scaled c_remaponly c_flag c_in c_out]; rewrite app_nil_r; reflexivity|].
  apply (calls3_same ar n st N permute ins outs f HR esize HF); [exact Hm|]. revert H. apply exec_code. intros r. unfold calls3, together. cbn [map concat c_scaled c_remaponly c_flag c_in c_out]. rewrite app_nil_r. reflexivity.
Qed.
Theorem forward32_2 ar n st N permute ins outs f bi bo (M0 : nat -> @rmem R) scaled x :
  ready2 8 ar n st N permute ins outs f -> fits32_2 (st_pack st) n N (t_fftsize f) -> (forall r, (r < n)%nat -> ints_index (M0 r)) ->
  isdata bi -> isdata bo -> bi = bo \/ t_pre f = true -> arrays_ok2 f bo M0 ->
  (forall r, (r < n)%nat -> holds2 2 0 (ins r) (fld x) (getb bi (M0 r))) ->
  exists P, setup_ffts2 cexpR N = Some P /\
  exec_all n (compute2_32 Rops rnormR false 8 f P scaled false FORWARD bi bo) M0
    (fun r m => holds2 2 permute (outs r) (fld (DFT2 false N x)) (getb bo m) /\ framed M0 bo (fun r => 2 * t_fftsize f r) r m).
Proof.
  intros HR HF Hm Hbi Hbo Hpl Ha Hx. destruct (C25_proof2 8 ar n st N permute ins outs f bi bo M0 scaled x HR Hbi Hbo Hpl Ha Hx) as (P & HP & H). exists P. split; [exact HP|].
  apply (exec_code n (calls2_32 Rops rnormR false f P [mkcall scaled false FORWARD bi bo])); [intros r; apply app_nil_r|].
  apply (calls2_same ar n st N permute ins outs f HR HF); [exact Hm|]. revert H. apply exec_code. intros r. symmetry. apply app_nil_r.
Qed.
Theorem roundtrip32_2 ar n st N permute ins outs f b (M0 : nat -> @rmem R) s1 scaled x :
  ready2 8 ar n st N permute ins outs f -> fits32_2 (st_pack st) n N (t_fftsize f) -> (forall r, (r < n)%nat -> ints_index (M0 r)) ->
  isdata b -> arrays_ok2 f b M0 ->
  (scaled = true -> forall r, (r < n)%nat -> psize2 (ins r) <= psize2 (outs r)) ->
  (forall r, (r < n)%nat -> holds2 2 0 (ins r) (fld x) (getb b (M0 r))) ->
  exists P, setup_ffts2 cexpR N = Some P /\
  exec_all n (fun r => compute2_32 Rops rnormR false 8 f P s1 false FORWARD b b r ++ compute2_32 Rops rnormR false 8 f P scaled false BACKWARD b b r) M0
    (fun r m => holds2 2 0 (ins r) (fld (fun p => if scaled then x p else rmulc (IZR (grid_points2 N)) (x p))) (getb b m) /\
                framed M0 b (fun r => 2 * t_fftsize f r) r m).
Proof.
  intros HR HF Hm Hb Ha Hsz Hx. destruct (C27_all_proof2 8 ar n st N permute ins outs f b M0 s1 scaled x HR Hb Ha Hsz Hx) as (P & HP & H). exists P. split; [exact HP|].
  apply (exec_code n (calls2_32 Rops rnormR false f P [mkcall s1 false FORWARD b b; mkcall scaled false BACKWARD b b])); [intros r; unfold calls2_32, together; cbn [map concat c_scaled c_remaponly c_flag c_in c_out]; rewrite app_nil_r; reflexivity|].
  apply (calls2_same ar n st N permute ins outs f HR HF); [exact Hm|]. revert H. apply exec_code. intros r. unfold calls2, together. cbn [map concat c_scaled c_remaponly c_flag c_in c_out]. rewrite app_nil_r. reflexivity.
Qed.
