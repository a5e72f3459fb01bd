(** LayoutFinal.v : proofs behind PropertiesLayout.v (C15-C21, C46). *)

From Coq Require Import String QArith.
From Verif Require Import Base Spec Pack3d Pack2d Sched Remap Remap3d Remap2d RemapInst RemapThms RemapTop ExRemap
  Layout LayoutProofs Count Setup3d Setup3dProofs Setup2d Setup2dProofs.
Open Scope Z_scope.

(** ** C15 *)
Lemma C15_proof ar P x y z : area_laws ar -> 1 <= P ->
  2 <= x <= INT_MAX -> 2 <= y <= INT_MAX -> 2 <= z <= INT_MAX ->
  (exists b c, procfactors ar P 1 y z = Some (1, b, c) /\ 1 <= b /\ 1 <= c /\ b * c = P) /\
  (exists a c, procfactors ar P x 1 z = Some (a, 1, c) /\ 1 <= a /\ 1 <= c /\ a * c = P) /\
  (exists a b, procfactors ar P x y 1 = Some (a, b, 1) /\ 1 <= a /\ 1 <= b /\ a * b = P) /\
  (exists a b c, procfactors ar P x y z = Some (a, b, c) /\ 1 <= a /\ 1 <= b /\ 1 <= c /\ a * b * c = P).
Proof.
  intros L HP Hx Hy Hz.
  assert (I1 : in_int 1) by (unfold in_int, INT_MAX; lia).
  assert (Ix : in_int x) by (unfold in_int; lia). assert (Iy : in_int y) by (unfold in_int; lia). assert (Iz : in_int z) by (unfold in_int; lia).
  destruct (procfactors_good ar L P 1 y z HP I1 Iy Iz ltac:(lia)) as (gf & E1 & Gf).
  destruct (procfactors_good ar L P x 1 z HP Ix I1 Iz ltac:(lia)) as (gm & E2 & Gm).
  destruct (procfactors_good ar L P x y 1 HP Ix Iy I1 ltac:(lia)) as (gs & E3 & Gs).
  destruct (procfactors_good ar L P x y z HP Ix Iy Iz ltac:(lia)) as (gb & E4 & Gb).
  destruct (good_unit1 _ _ _ _ Gf) as (b & c & -> & H1). destruct (good_unit2 _ _ _ _ Gm) as (a & c' & -> & H2).
  destruct (good_unit3 _ _ _ _ Gs) as (a' & b' & -> & H3). destruct gb as [[a'' b''] c'']. destruct Gb as (B1 & B2 & B3 & B4 & _).
  split; [|split; [|split]].
  - exists b, c. split; [exact E1|lia].
  - exists a, c'. split; [exact E2|lia].
  - exists a', b'. split; [exact E3|lia].
  - exists a'', b'', c''. split; [exact E4|lia].
Qed.
Lemma C15_2d_proof ar P x y : area_laws ar -> 1 <= P -> 2 <= x <= INT_MAX -> 2 <= y <= INT_MAX ->
  exists a b, procfactors2 ar P x y = Some (a, b) /\ 1 <= a /\ 1 <= b /\ a * b = P.
Proof.
  intros L HP Hx Hy.
  destruct (procfactors2_good ar L P x y HP ltac:(unfold in_int; lia) ltac:(unfold in_int; lia) ltac:(lia)) as ([a b] & E & G1 & G2 & G3 & _).
  exists a, b. auto.
Qed.
(** each rank has its own place in the grid and every place has a rank *)
Lemma C15_places_proof x y z : 1 <= x -> 1 <= y -> 1 <= z ->
  (forall me, 0 <= me < x * y * z -> let '(a, b, c) := ploc (x, y, z) me in 0 <= a < x /\ 0 <= b < y /\ 0 <= c < z) /\
  (forall a b c, 0 <= a < x -> 0 <= b < y -> 0 <= c < z -> exists! me, 0 <= me < x * y * z /\ ploc (x, y, z) me = (a, b, c)).
Proof.
  intros X Y Z'. split.
  - intros me Hm. pose proof (ploc_range x y z me X Y Z' Hm) as H. destruct (ploc (x, y, z) me) as [[a b] c]. tauto.
  - intros a b c Ha Hb Hc. destruct (ploc_of x y z a b c X Y Z' Ha Hb Hc) as (E & R).
    exists (a + x * (b + y * c)). split; [auto|]. intros me (Hm & Em).
    pose proof (ploc_range x y z me X Y Z' Hm) as H. rewrite Em in H. symmetry. apply H.
Qed.
Lemma C15_places2_proof x y : 1 <= x -> 1 <= y ->
  (forall me, 0 <= me < x * y -> let '(a, b) := ploc2 (x, y) me in 0 <= a < x /\ 0 <= b < y) /\
  (forall a b, 0 <= a < x -> 0 <= b < y -> exists! me, 0 <= me < x * y /\ ploc2 (x, y) me = (a, b)).
Proof.
  intros X Y. cbn [ploc2]. split.
  - intros me Hm. split; [apply Z.mod_pos_bound; lia|]. split; [apply Z.div_pos; lia|apply Z.div_lt_upper_bound; lia].
  - intros a b Ha Hb. exists (a + x * b). split.
    + split; [nia|]. f_equal.
      * rewrite Z.mul_comm, Z.mod_add, Z.mod_small by lia. reflexivity.
      * rewrite Z.mul_comm, Z.div_add, Z.div_small by lia. reflexivity.
    + intros me (Hm & [= E1 E2]). rewrite (Z.div_mod me x) by lia. rewrite E1, E2. lia.
Qed.

(** ** C16 *)
Lemma C16_proof ar n st N permute ins outs f : area_laws ar -> (1 <= n)%nat -> ints3 N ->
  tiling3 n N ins -> tiling3 n N outs ->
  setup3d ar n st N permute ins outs = SOk f ->
  tiling3 n N (f_fast f) /\ tiling3 n N (f_mid f) /\ tiling3 n N (f_slow f) /\ (f_exch f = true -> tiling3 n N (f_brick f)) /\
  forall r, (r < n)%nat ->
    (ilo (f_fast f r) = 0 /\ ihi (f_fast f r) = fst (fst N) - 1) /\
    (jlo (f_mid f r) = 0 /\ jhi (f_mid f r) = snd (fst N) - 1) /\
    (klo (f_slow f r) = 0 /\ khi (f_slow f r) = snd N - 1).
Proof.
  intros L Hn HI Hi Ho HS. pose proof (setup3d_facts _ _ _ _ _ _ _ _ L Hn HI HS) as F.
  split; [apply (F_fast _ _ _ _ _ _ _ F Hi)|]. split; [apply (F_mid _ _ _ _ _ _ _ F)|].
  split; [apply (F_slow _ _ _ _ _ _ _ F Ho)|]. split; [apply (F_brick _ _ _ _ _ _ _ F)|].
  intros r Hr. split; [apply (F_fast_span _ _ _ _ _ _ _ F r Hr)|]. split; [apply (F_mid_span _ _ _ _ _ _ _ F r Hr)|apply (F_slow_span _ _ _ _ _ _ _ F r Hr)].
Qed.
Lemma C16_2d_proof ar n st N permute ins outs f : area_laws ar -> (1 <= n)%nat -> ints2 N ->
  tiling2 n N ins -> tiling2 n N outs ->
  setup2d ar n st N permute ins outs = SOk f ->
  tiling2 n N (t_fast f) /\ tiling2 n N (t_slow f) /\ (t_exch f = true -> tiling2 n N (t_brick f)) /\
  forall r, (r < n)%nat ->
    (ilo2 (t_fast f r) = 0 /\ ihi2 (t_fast f r) = fst N - 1) /\ (jlo2 (t_slow f r) = 0 /\ jhi2 (t_slow f r) = snd N - 1).
Proof.
  intros L Hn HI Hi Ho HS. pose proof (setup2d_facts _ _ _ _ _ _ _ _ L Hn HI HS) as F.
  split; [apply (T_fast _ _ _ _ _ _ _ F Hi)|].
  split; [apply (T_slow _ _ _ _ _ _ _ F Ho)|]. split; [apply (T_brick _ _ _ _ _ _ _ F)|].
  intros r Hr. split; [apply (T_fast_span _ _ _ _ _ _ _ F r Hr)|apply (T_slow_span _ _ _ _ _ _ _ F r Hr)].
Qed.

(** ** C17 *)
(** the divisors of P not above its square root *)
Definition few_divisors (P : Z) : Prop :=
  forall l, NoDup l -> (forall d, In d l -> 1 <= d /\ d * d <= P /\ P mod d = 0) -> (length l <= 50)%nat.
Lemma few_divisors_length P : 1 <= P -> few_divisors P -> (length (small_divisors P) <= NFACTOR)%nat.
Proof.
  intros HP H. apply H.
  - unfold small_divisors. apply NoDup_filter.
    assert (G : forall k a, NoDup (zseq a k) /\ forall x, In x (zseq a k) -> a <= x).
    { induction k as [|k IH]; intros a; cbn [zseq]; [split; [constructor|contradiction]|].
      destruct (IH (a + 1)) as (D & B). split.
      - constructor; [intros Hin; apply B in Hin; lia|exact D].
      - intros x [-> | Hx]; [lia|]. apply B in Hx. lia. }
    apply G.
  - intros d Hd. unfold small_divisors in Hd. apply filter_In in Hd as (Hd & Hm). apply Z.eqb_eq in Hm. apply In_zseq in Hd.
    pose proof (Z.sqrt_nonneg P). destruct (Z.sqrt_spec P ltac:(lia)) as (Hs & _).
    split; [lia|]. split; [|exact Hm]. transitivity (Z.sqrt P * Z.sqrt P); [apply Z.mul_le_mono_nonneg; lia|exact Hs].
Qed.
Lemma few_divisors_small P : P <= 2600 -> few_divisors P.
Proof.
  intros HP l Hn Hl.
  change 50%nat with (length (zseq 1 50)). apply NoDup_incl_length; [exact Hn|].
  intros d Hd. apply Hl in Hd. apply In_zseq. nia.
Qed.
Lemma C17_proof P nx ny nz g t : 1 <= P -> in_int nx -> in_int ny -> in_int nz -> few_divisors P ->
  procfactors exact_areas P nx ny nz = Some g -> good_grid3 P nx ny nz t ->
  (surface3 nx ny nz g <= surface3 nx ny nz t)%Q.
Proof. intros HP Hx Hy Hz Hf Hg Ht. eapply exact_min; eauto. apply few_divisors_length; auto. Qed.
Lemma C17_refuted_proof : exists P nx ny nz g t, in_int nx /\ in_int ny /\ in_int nz /\
  procfactors exact_areas P nx ny nz = Some g /\ good_grid3 P nx ny nz t /\
  (surface3 nx ny nz t < surface3 nx ny nz g)%Q.
Proof.
  exists 50400, 1, 1000, 1000, (1, 175, 288), (1, 224, 225).
  unfold in_int, INT_MAX. repeat (split; [lia|]). split; [vm_compute; reflexivity|]. split; [cbn; lia|vm_compute; reflexivity].
Qed.
(** half the perimeter of a tile *)
Definition perimeter2 (nx ny : Z) (g : Z * Z) : Q := let '(i, j) := g in (qdiv nx i + qdiv ny j)%Q.
Lemma C17_2d_proof P nx ny : 1 <= P -> 2 <= nx <= INT_MAX -> 2 <= ny <= INT_MAX -> procfactors2 exact_areas P nx ny = Some (1, P).
Proof. intros. apply exact_flat; lia. Qed.
Lemma C17_2d_refuted_proof : exists P nx ny g t, procfactors2 exact_areas P nx ny = Some g /\ good_grid2 P nx ny t /\
  (perimeter2 nx ny t < perimeter2 nx ny g)%Q.
Proof. exists 4, 8, 8, (1, 4), (2, 2). split; [vm_compute; reflexivity|]. split; [cbn; lia|vm_compute; reflexivity]. Qed.

(** ** C18 *)
Lemma dims_dec3 ar n st N permute ins outs : area_laws ar -> (1 <= n)%nat -> ints3 N ->
  ~ dims_ok3 N -> exists msg, setup3d ar n st N permute ins outs = SErr msg.
Proof. intros L Hn HI HN. apply setup3d_rejects; auto. tauto. Qed.
Lemma C18_proof ar n st N permute ins outs : area_laws ar -> (1 <= n)%nat -> ints3 N -> perm_ok3 permute ->
  (forall r, (r < n)%nat -> inside3 N (ins r)) -> tiling3 n N ins ->
  ((exists f, setup3d ar n st N permute ins outs = SOk f) <-> dims_ok3 N) /\
  ((exists msg, setup3d ar n st N permute ins outs = SErr msg) <-> ~ dims_ok3 N).
Proof.
  intros L Hn HI Hp Hi Ht.
  assert (Hs : dims_ok3 N -> zsum n (fun r => vol3 (ins r)) = (let '(x, y, z) := N in x * y * z)).
  { intros Hd. rewrite (tiling3_sum n N ins Ht). apply grid3_vol; auto. }
  split.
  - rewrite (setup3d_accepts ar n st N permute ins outs L Hn HI). tauto.
  - rewrite (setup3d_rejects ar n st N permute ins outs L Hn HI). tauto.
Qed.
Lemma C18_2d_proof ar n st N permute ins outs : area_laws ar -> (1 <= n)%nat -> ints2 N -> perm_ok2 permute ->
  (forall r, (r < n)%nat -> inside2 N (ins r)) -> tiling2 n N ins ->
  ((exists f, setup2d ar n st N permute ins outs = SOk f) <-> dims_ok2 N) /\
  ((exists msg, setup2d ar n st N permute ins outs = SErr msg) <-> ~ dims_ok2 N).
Proof.
  intros L Hn HI Hp Hi Ht.
  assert (Hs : dims_ok2 N -> zsum n (fun r => vol2 (ins r)) = (let '(x, y) := N in x * y)).
  { intros Hd. rewrite (tiling2_sum n N ins Ht). apply grid2_vol; auto. }
  split.
  - rewrite (setup2d_accepts ar n st N permute ins outs L Hn HI). tauto.
  - rewrite (setup2d_rejects ar n st N permute ins outs L Hn HI). tauto.
Qed.

(** ** C19 *)
Lemma inside3_grid N b p : inside3 N b -> inb3 p b -> inb3 p (grid3 N).
Proof. destruct N as [[x y] z], p as [[i j] k]. unfold inside3, legal3, inb3, grid3. cbn. lia. Qed.
Lemma inside2_grid N b p : inside2 N b -> inb2 p b -> inb2 p (grid2 N).
Proof. destruct N as [x y], p as [i j]. unfold inside2, legal2, inb2, grid2. cbn. lia. Qed.
Lemma C19_proof ar n st N permute ins outs f : area_laws ar -> (1 <= n)%nat -> ints3 N ->
  setup3d ar n st N permute ins outs = SOk f -> disjoint_owners3 n ins ->
  tiling3 n N ins /\ forall r, (r < n)%nat -> inside3 N (ins r).
Proof.
  intros L Hn HI HS Hd. pose proof (setup3d_facts _ _ _ _ _ _ _ _ L Hn HI HS) as F.
  assert (Hin := F_in _ _ _ _ _ _ _ F). split; [|exact Hin]. apply sum_tiling3; auto.
  - intros p r Hr. apply inside3_grid. auto.
  - apply (F_sum _ _ _ _ _ _ _ F).
Qed.
Lemma C19_rejects_proof ar n st N permute ins outs : area_laws ar -> (1 <= n)%nat -> ints3 N ->
  ((exists r, (r < n)%nat /\ ~ inside3 N (ins r)) \/ (disjoint_owners3 n ins /\ ~ tiling3 n N ins)) ->
  exists msg, setup3d ar n st N permute ins outs = SErr msg.
Proof.
  intros L Hn HI H. apply setup3d_rejects; auto. intros (H1 & H2 & H3). destruct H as [(r & Hr & H)|(H & H')].
  - apply H, H2, Hr.
  - apply H'. apply sum_tiling3; auto.
    + intros p r Hr. apply inside3_grid. auto.
    + rewrite H3. symmetry. apply grid3_vol; auto.
Qed.
Lemma C19_2d_proof ar n st N permute ins outs f : area_laws ar -> (1 <= n)%nat -> ints2 N ->
  setup2d ar n st N permute ins outs = SOk f -> disjoint_owners2 n ins ->
  tiling2 n N ins /\ forall r, (r < n)%nat -> inside2 N (ins r).
Proof.
  intros L Hn HI HS Hd. pose proof (setup2d_facts _ _ _ _ _ _ _ _ L Hn HI HS) as F.
  assert (Hin := T_ins _ _ _ _ _ _ _ F). split; [|exact Hin]. apply sum_tiling2; auto.
  - intros p r Hr. apply inside2_grid. auto.
  - apply (T_sum _ _ _ _ _ _ _ F).
Qed.
Lemma C19_2d_rejects_proof ar n st N permute ins outs : area_laws ar -> (1 <= n)%nat -> ints2 N ->
  ((exists r, (r < n)%nat /\ ~ inside2 N (ins r)) \/ (disjoint_owners2 n ins /\ ~ tiling2 n N ins)) ->
  exists msg, setup2d ar n st N permute ins outs = SErr msg.
Proof.
  intros L Hn HI H. apply setup2d_rejects; auto. intros (H1 & H2 & H3). destruct H as [(r & Hr & H)|(H & H')].
  - apply H, H2, Hr.
  - apply H'. apply sum_tiling2; auto.
    + intros p r Hr. apply inside2_grid. auto.
    + rewrite H3. symmetry. apply grid2_vol; auto.
Qed.
Definition is_ok {T} (s : sres T) : bool := match s with SOk _ => true | _ => false end.
Lemma is_ok_ex {T} (s : sres T) : is_ok s = true -> exists f, s = SOk f.
Proof. destruct s; try discriminate. eauto. Qed.
Definition half3 (r : nat) : box3 := mkbox3 0 1 0 1 0 0.
Definition split3 (r : nat) : box3 := match r with O => mkbox3 0 1 0 1 0 0 | _ => mkbox3 0 1 0 1 1 1 end.
Definition default_settings : settings := mkset 2 0 2.
Lemma half3_not_tiling : ~ tiling3 2 (2, 2, 2) half3.
Proof. intros (_ & _ & H). destruct (H (0, 0, 1)) as (r & _ & Hr); [cbn; lia|]. cbn in Hr. lia. Qed.
Lemma split3_tiling : tiling3 2 (2, 2, 2) split3.
Proof.
  split; [|split].
  - intros [[i j] k] [|r] Hr; cbn; lia.
  - intros [[i j] k] [|r] [|r'] Hr Hr'; cbn; lia.
  - intros [[i j] k] H. destruct (Z.eq_dec k 0).
    + exists 0%nat. cbn in *. lia.
    + exists 1%nat. cbn in *. lia.
Qed.
(** the input boxes overlap and leave points unowned *)
Lemma C19_overlap_refuted_proof : exists n st N permute ins outs f, (1 <= n)%nat /\ ints3 N /\
  tiling3 n N outs /\ ~ tiling3 n N ins /\ setup3d exact_areas n st N permute ins outs = SOk f.
Proof.
  destruct (is_ok_ex (setup3d exact_areas 2 default_settings (2, 2, 2) 0 half3 split3)) as (f & E); [vm_compute; reflexivity|].
  exists 2%nat, default_settings, (2, 2, 2), 0, half3, split3, f.
  split; [lia|]. split; [unfold ints3, INT_MAX; lia|]. split; [apply split3_tiling|]. split; [apply half3_not_tiling|exact E].
Qed.
(** the output boxes are not checked at all *)
Lemma C19_out_refuted_proof : exists n st N permute ins outs f, (1 <= n)%nat /\ ints3 N /\
  tiling3 n N ins /\ ~ tiling3 n N outs /\ ~ inside3 N (outs 0%nat) /\ setup3d exact_areas n st N permute ins outs = SOk f.
Proof.
  set (o := fun r : nat => mkbox3 (-7) 5 0 1 0 1).
  destruct (is_ok_ex (setup3d exact_areas 2 default_settings (2, 2, 2) 0 split3 o)) as (f & E); [vm_compute; reflexivity|].
  exists 2%nat, default_settings, (2, 2, 2), 0, split3, o, f.
  split; [lia|]. split; [unfold ints3, INT_MAX; lia|]. split; [apply split3_tiling|]. split; [|split; [cbn; lia|exact E]].
  intros (H & _). specialize (H (-7, 0, 0) 0%nat ltac:(lia)). cbn in H. lia.
Qed.
Definition split2 (r : nat) : box2 := match r with O => mkbox2 0 1 0 0 | _ => mkbox2 0 1 1 1 end.
Lemma split2_tiling : tiling2 2 (2, 2) split2.
Proof.
  split; [|split].
  - intros [i j] [|r] Hr; cbn; lia.
  - intros [i j] [|r] [|r'] Hr Hr'; cbn; lia.
  - intros [i j] H. destruct (Z.eq_dec j 0).
    + exists 0%nat. cbn in *. lia.
    + exists 1%nat. cbn in *. lia.
Qed.
Lemma C19_2d_refuted_proof : exists n st N permute ins outs f, (1 <= n)%nat /\ ints2 N /\
  ~ tiling2 n N ins /\ ~ tiling2 n N outs /\ setup2d exact_areas n st N permute ins outs = SOk f.
Proof.
  set (i := fun r : nat => mkbox2 0 1 0 0). set (o := fun r : nat => mkbox2 (-7) 5 0 1).
  destruct (is_ok_ex (setup2d exact_areas 2 default_settings (2, 2) 0 i o)) as (f & E); [vm_compute; reflexivity|].
  exists 2%nat, default_settings, (2, 2), 0, i, o, f.
  split; [lia|]. split; [unfold ints2, INT_MAX; lia|]. split; [|split; [|exact E]].
  - intros (_ & _ & H). destruct (H (0, 1)) as (r & _ & Hr); [cbn; lia|]. cbn in Hr. lia.
  - intros (H & _). specialize (H (-7, 0) 0%nat ltac:(lia)). cbn in H. lia.
Qed.

(** ** C20 *)
Lemma C20_proof ar n st N permute ins outs f r : area_laws ar -> (1 <= n)%nat -> ints3 N ->
  setup3d ar n st N permute ins outs = SOk f -> (r < n)%nat ->
  (forall m, In m (all_objs f) -> vol3 (rm_in m r) <= f_fftsize f r /\ vol3 (rm_out m r) <= f_fftsize f r) /\
  vol3 (ins r) <= f_fftsize f r /\ vol3 (outs r) <= f_fftsize f r /\ vol3 (f_fast f r) <= f_fftsize f r /\
  vol3 (f_mid f r) <= f_fftsize f r /\ vol3 (f_slow f r) <= f_fftsize f r /\ (f_exch f = true -> vol3 (f_brick f r) <= f_fftsize f r).
Proof.
  intros L Hn HI HS Hr. pose proof (setup3d_facts _ _ _ _ _ _ _ _ L Hn HI HS) as F.
  split; [intros m Hm; eapply obj_fftsize; eauto|].
  assert (Q := fun t H => layout_fftsize _ _ _ _ _ _ _ F t r H Hr). unfold layout3 in Q.
  rewrite (F_fin _ _ _ _ _ _ _ F), (F_fout _ _ _ _ _ _ _ F) in Q.
  repeat split; try (apply Q; tauto).
  intros He. apply Q. tauto.
Qed.
Lemma C20_2d_proof ar n st N permute ins outs f r : area_laws ar -> (1 <= n)%nat -> ints2 N ->
  setup2d ar n st N permute ins outs = SOk f -> (r < n)%nat ->
  (forall m, In m (all_objs2 f) -> vol2 (rm2_in m r) <= t_fftsize f r /\ vol2 (rm2_out m r) <= t_fftsize f r) /\
  vol2 (ins r) <= t_fftsize f r /\ vol2 (outs r) <= t_fftsize f r /\ vol2 (t_fast f r) <= t_fftsize f r /\
  vol2 (t_slow f r) <= t_fftsize f r /\ (t_exch f = true -> vol2 (t_brick f r) <= t_fftsize f r).
Proof.
  intros L Hn HI HS Hr. pose proof (setup2d_facts _ _ _ _ _ _ _ _ L Hn HI HS) as F.
  split; [intros m Hm; eapply obj_fftsize2; eauto|].
  assert (Q := fun t H => layout_fftsize2 _ _ _ _ _ _ _ F t r H Hr). unfold layout2 in Q.
  rewrite (T_fin _ _ _ _ _ _ _ F), (T_fout _ _ _ _ _ _ _ F) in Q.
  repeat split; try (apply Q; tauto).
  intros He. apply Q. tauto.
Qed.

(** ** C21 *)
Lemma C21_proof ar n st N permute ins outs f m r pl : area_laws ar -> (1 <= n)%nat -> ints3 N ->
  setup3d ar n st N permute ins outs = SOk f ->
  (In m (fwd_objs f) \/ (In m (bwd_objs f) /\ (st_exch st = 0 \/ exists q, f_midfast f = Some q /\ snd q <> Some m))) ->
  setup3 n (rm_coll m) (st_pack st) 2 (rm_perm m) (rm_in m) (rm_out m) r = Some pl ->
  rp_sendsize pl <= f_sendsize f r /\ rp_recvsize pl <= f_recvsize f r.
Proof.
  intros L Hn HI HS Hm Hpl. pose proof (setup3d_facts _ _ _ _ _ _ _ _ L Hn HI HS) as F.
  eapply counted_sizes; eauto. destruct Hm as [Hm|(Hm & Hx)].
  - unfold fwd_objs in Hm. unfold counted_objs. rewrite !in_app_iff in *. tauto.
  - destruct (uncounted _ _ _ _ _ _ _ F m) as [H|(_ & He & q & Hq & Hs)]; auto.
    + unfold all_objs. apply in_app_iff. auto.
    + exfalso. destruct Hx as [Hx|(q' & Hq' & Hs')].
      * rewrite (F_exch _ _ _ _ _ _ _ F), Hx in He. discriminate.
      * rewrite Hq in Hq'. injection Hq' as ->. contradiction.
Qed.
Lemma C21_2d_proof ar n st N permute ins outs f m r pl : area_laws ar -> (1 <= n)%nat -> ints2 N ->
  setup2d ar n st N permute ins outs = SOk f -> In m (fwd_objs2 f ++ bwd_objs2 f) ->
  setup2 n (rm2_coll m) (st_pack st) 2 (rm2_perm m) (rm2_in m) (rm2_out m) r = Some pl ->
  rp_sendsize pl <= t_sendsize f r /\ rp_recvsize pl <= t_recvsize f r.
Proof.
  intros L Hn HI HS Hm Hpl. pose proof (setup2d_facts _ _ _ _ _ _ _ _ L Hn HI HS) as F.
  eapply obj_sizes2; eauto.
Qed.
(** rank 0 owns the whole 2x2x2 grid on input; exchange 1 *)
Definition whole3 (r : nat) : box3 := match r with O => mkbox3 0 1 0 1 0 1 | _ => mkbox3 0 1 0 1 2 1 end.
Definition isplit3 (r : nat) : box3 := match r with O => mkbox3 0 0 0 1 0 1 | _ => mkbox3 1 1 0 1 0 1 end.
Lemma whole3_tiling : tiling3 2 (2, 2, 2) whole3.
Proof.
  split; [|split].
  - intros [[i j] k] [|r] Hr; cbn; lia.
  - intros [[i j] k] [|r] [|r'] Hr Hr'; cbn; lia.
  - intros [[i j] k] H. exists 0%nat. cbn in *. lia.
Qed.
Lemma isplit3_tiling : tiling3 2 (2, 2, 2) isplit3.
Proof.
  split; [|split].
  - intros [[i j] k] [|r] Hr; cbn; lia.
  - intros [[i j] k] [|r] [|r'] Hr Hr'; cbn; lia.
  - intros [[i j] k] H. destruct (Z.eq_dec i 0).
    + exists 0%nat. cbn in *. lia.
    + exists 1%nat. cbn in *. lia.
Qed.
Definition overrun_check (c : Z) : bool :=
  match setup3d exact_areas 2 (mkset c 1 0) (2, 2, 2) 0 whole3 isplit3 with
  | SOk f => match f_midfast f with
             | Some (_, Some m) => match setup3 2 (rm_coll m) 0 2 (rm_perm m) (rm_in m) (rm_out m) 0 with
                                   | Some pl => (f_recvsize f 0%nat <? rp_recvsize pl)
                                   | None => false end
             | _ => false end
  | _ => false end.
Lemma C21_refuted_proof : forall c, c = 0 \/ c = 1 \/ c = 2 ->
  exists n N permute ins outs f m pl r, (r < n)%nat /\ ints3 N /\ tiling3 n N ins /\ tiling3 n N outs /\
    setup3d exact_areas n (mkset c 1 0) N permute ins outs = SOk f /\ In m (bwd_objs f) /\
    setup3 n (rm_coll m) 0 2 (rm_perm m) (rm_in m) (rm_out m) r = Some pl /\ f_recvsize f r < rp_recvsize pl.
Proof.
  intros c Hc. assert (E : overrun_check c = true) by (destruct Hc as [-> | [-> | ->]]; vm_compute; reflexivity).
  unfold overrun_check in E.
  destruct (setup3d exact_areas 2 (mkset c 1 0) (2, 2, 2) 0 whole3 isplit3) as [| |f] eqn:Es; try discriminate.
  destruct (f_midfast f) as [[m1 [m|]]|] eqn:Em; try discriminate.
  destruct (setup3 2 (rm_coll m) 0 2 (rm_perm m) (rm_in m) (rm_out m) 0) as [pl|] eqn:Ep; [|discriminate].
  exists 2%nat, (2, 2, 2), 0, whole3, isplit3, f, m, pl, 0%nat.
  split; [lia|]. split; [unfold ints3, INT_MAX; lia|]. split; [apply whole3_tiling|]. split; [apply isplit3_tiling|].
  split; [exact Es|]. split; [|split; [exact Ep|apply Z.ltb_lt, E]].
  unfold bwd_objs. rewrite Em. rewrite !in_app_iff. right. right. left. cbn. auto.
Qed.

(** ** C46 *)
Lemma C46_proof ar n st N permute ins outs f : area_laws ar -> (1 <= n)%nat -> ints3 N ->
  setup3d ar n st N permute ins outs = SOk f ->
  ((f_prefast f = None <-> (forall r, (r < n)%nat -> ilo (ins r) = 0 /\ ihi (ins r) = fst (fst N) - 1)) /\
   (f_prefast f = None -> f_fast f = ins)) /\
  ((f_postslow f = None <-> (permute = 2 /\ forall r, (r < n)%nat -> klo (outs r) = 0 /\ khi (outs r) = snd N - 1)) /\
   (f_postslow f = None -> f_slow f = outs)) /\
  (f_same f = false -> (f_preslow f = None <-> f_postslow f = None) /\ (f_postfast f = None <-> f_prefast f = None)).
Proof.
  intros L Hn HI HS. pose proof (setup3d_facts _ _ _ _ _ _ _ _ L Hn HI HS) as F.
  rewrite (F_prefast _ _ _ _ _ _ _ F), (F_postslow _ _ _ _ _ _ _ F), (F_preslow _ _ _ _ _ _ _ F), (F_postfast _ _ _ _ _ _ _ F).
  pose proof (F_pre _ _ _ _ _ _ _ F) as H1. pose proof (F_post _ _ _ _ _ _ _ F) as H2.
  pose proof (F_pre_fast _ _ _ _ _ _ _ F) as H3. pose proof (F_post_slow _ _ _ _ _ _ _ F) as H4.
  split; [|split].
  - rewrite <- H1. destruct (f_pre f); (split; [split; intros; congruence|]); intros; [discriminate|auto].
  - rewrite <- H2. destruct (f_post f); (split; [split; intros; congruence|]); intros; [discriminate|auto].
  - intros ->. destruct (f_pre f), (f_post f); split; split; intros; congruence.
Qed.
Lemma C46_2d_proof ar n st N permute ins outs f : area_laws ar -> (1 <= n)%nat -> ints2 N ->
  setup2d ar n st N permute ins outs = SOk f ->
  ((t_prefast f = None <-> (forall r, (r < n)%nat -> ilo2 (ins r) = 0 /\ ihi2 (ins r) = fst N - 1)) /\
   (t_prefast f = None -> t_fast f = ins)) /\
  ((t_postslow f = None <-> (permute = 1 /\ forall r, (r < n)%nat -> jlo2 (outs r) = 0 /\ jhi2 (outs r) = snd N - 1)) /\
   (t_postslow f = None -> t_slow f = outs)) /\
  (t_same f = false -> (t_preslow f = None <-> t_postslow f = None) /\ (t_postfast f = None <-> t_prefast f = None)).
Proof.
  intros L Hn HI HS. pose proof (setup2d_facts _ _ _ _ _ _ _ _ L Hn HI HS) as F.
  rewrite (T_prefast _ _ _ _ _ _ _ F), (T_postslow _ _ _ _ _ _ _ F), (T_preslow _ _ _ _ _ _ _ F), (T_postfast _ _ _ _ _ _ _ F).
  pose proof (T_pre _ _ _ _ _ _ _ F) as H1. pose proof (T_post _ _ _ _ _ _ _ F) as H2.
  pose proof (T_pre_fast _ _ _ _ _ _ _ F) as H3. pose proof (T_post_slow _ _ _ _ _ _ _ F) as H4.
  split; [|split].
  - rewrite <- H1. destruct (t_pre f); (split; [split; intros; congruence|]); intros; [discriminate|auto].
  - rewrite <- H2. destruct (t_post f); (split; [split; intros; congruence|]); intros; [discriminate|auto].
  - intros ->. destruct (t_pre f), (t_post f); split; split; intros; congruence.
Qed.

(** ** examples: 3 ranks, the layouts of ExRemap.v *)
Lemma e3_inside r : (r < 3)%nat -> inside3 e3_N (e3_in r).
Proof. destruct r as [|[|[|r]]]; intros H; cbn; unfold legal3, ni, nj, nk; cbn; lia. Qed.
Lemma e3_ints : ints3 e3_N.
Proof. unfold ints3, e3_N, INT_MAX. lia. Qed.
Lemma e3_setup : exists f, setup3d exact_areas 3 (mkset 2 1 2) e3_N 1 e3_in e3_out = SOk f /\ f_pre f = true /\ f_post f = true /\ f_same f = false /\ f_exch f = true.
Proof.
  assert (H : match setup3d exact_areas 3 (mkset 2 1 2) e3_N 1 e3_in e3_out with
              | SOk f => f_pre f && f_post f && negb (f_same f) && f_exch f | _ => false end = true) by (vm_compute; reflexivity).
  destruct (setup3d exact_areas 3 (mkset 2 1 2) e3_N 1 e3_in e3_out) as [| |f]; try discriminate. exists f.
  rewrite !andb_true_iff, negb_true_iff in H. tauto.
Qed.
Lemma C46_example_proof :
  exists f, setup3d exact_areas 2 default_settings (2, 2, 2) 2 split3 isplit3 = SOk f /\ f_prefast f = None /\ f_postslow f = None.
Proof.
  assert (H : match setup3d exact_areas 2 default_settings (2, 2, 2) 2 split3 isplit3 with
              | SOk f => match f_prefast f, f_postslow f with None, None => true | _, _ => false end | _ => false end = true) by (vm_compute; reflexivity).
  destruct (setup3d exact_areas 2 default_settings (2, 2, 2) 2 split3 isplit3) as [| |f]; try discriminate. exists f.
  destruct (f_prefast f), (f_postslow f); try discriminate. auto.
Qed.
