(** RemapInst.v : the 3d and 2d formulas satisfy what the generic remap proof needs. *)

From Verif Require Import Base Spec Pack3d Pack3dProofs Pack2d Pack2dProofs Sched Remap RemapPlan RemapProofs Remap3d Remap2d.

(** ** nested enumerations *)
Lemma flat_map_map {B C D} (f : B -> list C) (g : C -> D) l : map g (flat_map f l) = flat_map (fun x => map g (f x)) l.
Proof. induction l as [|x l IH]; cbn; [reflexivity|]. rewrite map_app, IH. reflexivity. Qed.

Lemma flat_map_assoc {B C D} (f : B -> list C) (g : C -> list D) l :
  flat_map g (flat_map f l) = flat_map (fun x => flat_map g (f x)) l.
Proof. induction l as [|x l IH]; cbn; [reflexivity|]. rewrite flat_map_app, IH. reflexivity. Qed.

Lemma zseq_shift c a k : map (fun x => c + x) (zseq a k) = zseq (c + a) k.
Proof. revert a. induction k as [|k IH]; intros a; cbn; [reflexivity|]. f_equal. rewrite IH. f_equal. lia. Qed.

Lemma zrange_mul na nb : 0 <= na -> 0 <= nb ->
  flat_map (fun a => map (fun b => a * nb + b) (zrange nb)) (zrange na) = zrange (na * nb).
Proof.
  intros Ha Hb. unfold zrange. rewrite Z2Nat.inj_mul by assumption.
  rewrite (flat_map_ext _ (fun a => map (fun b => a * Z.of_nat (Z.to_nat nb) + b) (zseq 0 (Z.to_nat nb))))
    by (intros a; rewrite Z2Nat.id by exact Hb; reflexivity).
  generalize (Z.to_nat na) as n, (Z.to_nat nb) as m. clear. intros n m.
  assert (H : forall a, flat_map (fun a => map (fun b => a * Z.of_nat m + b) (zseq 0 m)) (zseq a n) = zseq (a * Z.of_nat m) (n * m)).
  { induction n as [|n IH]; intros a; cbn [zseq flat_map]; [reflexivity|]. rewrite IH, zseq_shift.
    cbn [Nat.mul]. rewrite zseq_app. f_equal; f_equal; lia. }
  rewrite H. reflexivity.
Qed.

Lemma flat_zrange_mul {B} na nb (f : Z -> list B) : 0 <= na -> 0 <= nb ->
  flat_map f (zrange (na * nb)) = flat_map (fun a => flat_map (fun b => f (a * nb + b)) (zrange nb)) (zrange na).
Proof.
  intros Ha Hb. rewrite <- zrange_mul by assumption. rewrite flat_map_assoc. apply flat_map_ext. intros a.
  induction (zrange nb) as [|b l IH]; cbn; [reflexivity|]. rewrite IH. reflexivity.
Qed.

Lemma flat_map_single {B C} (f : B -> C) l : flat_map (fun x => [f x]) l = map f l.
Proof. induction l as [|x l IH]; cbn; [reflexivity|]. rewrite IH. reflexivity. Qed.

Lemma combine_split {B C} (l : list (B * C)) : combine (map fst l) (map snd l) = l.
Proof. induction l as [|[a b] l IH]; cbn; [reflexivity|]. rewrite IH. reflexivity. Qed.

Section Flat.
Context {E : Type}.
Variables (ns nm nx nq : Z) (el : Z -> Z -> Z -> Z -> E).
Hypothesis Hs : 0 <= ns. Hypothesis Hm : 0 <= nm. Hypothesis Hx : 0 <= nx. Hypothesis Hq : 0 <= nq.

Definition els : list E := flat3 ns nm nx (fun s m x => map (fun q => el s m x q) (zrange nq)).

Definition tagged : list (Z * E) :=
  flat3 ns nm nx (fun s m x => map (fun q => (slot3 nm nx s m x * nq + q, el s m x q)) (zrange nq)).

Lemma map_flat3 {B C} (g : B -> C) (f : Z -> Z -> Z -> list B) :
  map g (flat3 ns nm nx f) = flat3 ns nm nx (fun s m x => map g (f s m x)).
Proof.
  unfold flat3. rewrite flat_map_map. apply flat_map_ext. intros s. rewrite flat_map_map. apply flat_map_ext. intros m.
  apply flat_map_map.
Qed.

Lemma flat3_ext {B} (f g : Z -> Z -> Z -> list B) :
  (forall s m x, 0 <= s < ns -> 0 <= m < nm -> 0 <= x < nx -> f s m x = g s m x) -> flat3 ns nm nx f = flat3 ns nm nx g.
Proof.
  intros H. unfold flat3. apply flat_map_ext'. intros s Is. apply flat_map_ext'. intros m Im. apply flat_map_ext'. intros x Ix.
  apply In_zrange in Is, Im, Ix. apply H; assumption.
Qed.

Lemma tags : map fst tagged = zrange (ns * nm * nx * nq).
Proof.
  unfold tagged. rewrite map_flat3. unfold flat3.
  rewrite <- (zrange_mul (ns * nm * nx) nq) by (try assumption; nia).
  rewrite (flat_zrange_mul (ns * nm) nx) by (try assumption; nia).
  rewrite (flat_zrange_mul ns nm) by assumption.
  apply flat_map_ext. intros s. apply flat_map_ext. intros m. apply flat_map_ext. intros x.
  rewrite map_map. apply map_ext. intros q. unfold slot3. cbn. lia.
Qed.

Lemma tagged_snd : map snd tagged = els.
Proof.
  unfold tagged, els. rewrite map_flat3. apply flat3_ext. intros. rewrite map_map. reflexivity.
Qed.

Lemma zlen_els : zlen els = ns * nm * nx * nq.
Proof.
  rewrite <- tagged_snd, zlen_map, <- (zlen_map fst), tags, zlen_zrange. assert (0 <= ns * nm * nx * nq); [|lia].
  repeat apply Z.mul_nonneg_nonneg; assumption.
Qed.

Lemma enum_els : enum els = tagged.
Proof. unfold enum. rewrite zlen_els, <- tags, <- tagged_snd. apply combine_split. Qed.

Lemma In_els e : In e els <-> exists s m x q, 0 <= s < ns /\ 0 <= m < nm /\ 0 <= x < nx /\ 0 <= q < nq /\ e = el s m x q.
Proof.
  unfold els, flat3. rewrite in_flat_map. setoid_rewrite in_flat_map. setoid_rewrite in_flat_map. setoid_rewrite in_map_iff.
  setoid_rewrite In_zrange. split.
  - intros (s & H1 & m & H2 & x & H3 & q & <- & H4). exists s, m, x, q. tauto.
  - intros (s & m & x & q & H1 & H2 & H3 & H4 & ->). eauto 12.
Qed.

Lemma els_NoDup : (forall s m x q s' m' x' q', el s m x q = el s' m' x' q' -> s = s' /\ m = m' /\ x = x' /\ q = q') -> NoDup els.
Proof.
  intros HI. rewrite <- tagged_snd. 
  assert (H : NoDup tagged).
  { apply NoDup_map_inv with (f := fst). rewrite tags. apply zrange_NoDup. }
  assert (HJ : forall a b, In a tagged -> In b tagged -> snd a = snd b -> a = b).
  { intros a b Ha Hb Hab. unfold tagged, flat3 in Ha, Hb.
    apply in_flat_map in Ha as (s & _ & Ha). apply in_flat_map in Ha as (m & _ & Ha). apply in_flat_map in Ha as (x & _ & Ha).
    apply in_map_iff in Ha as (q & <- & _).
    apply in_flat_map in Hb as (s' & _ & Hb). apply in_flat_map in Hb as (m' & _ & Hb). apply in_flat_map in Hb as (x' & _ & Hb).
    apply in_map_iff in Hb as (q' & <- & _). cbn in Hab. apply HI in Hab as (-> & -> & -> & ->). reflexivity. }
  revert HJ. induction H as [|a l Ha H IH]; intros HJ; cbn; constructor.
  - intros Hc. apply in_map_iff in Hc as (b & Eb & Hb). apply Ha. rewrite (HJ a b); [exact Hb|left; reflexivity|right; exact Hb|congruence].
  - apply IH. intros x y Hx' Hy. apply HJ; right; assumption.
Qed.

(** the address lists of pack3d as lists over elements *)
Lemma ppairs_els b0 f : ppairs b0 f els =
  flat3 ns nm nx (fun s m x => map (fun q => (b0 + (slot3 nm nx s m x * nq + q), f (el s m x q))) (zrange nq)).
Proof. unfold ppairs. rewrite enum_els. unfold tagged. rewrite map_flat3. apply flat3_ext. intros. rewrite map_map. reflexivity. Qed.
Lemma upairs_els b0 f : upairs b0 f els =
  flat3 ns nm nx (fun s m x => map (fun q => (f (el s m x q), b0 + (slot3 nm nx s m x * nq + q))) (zrange nq)).
Proof. unfold upairs. rewrite enum_els. unfold tagged. rewrite map_flat3. apply flat3_ext. intros. rewrite map_map. reflexivity. Qed.

Lemma flat3_split {B} (f : Z -> Z -> Z -> B) :
  flat3 ns nm (nq * nx) (fun s m x => [f s m x]) = flat3 ns nm nx (fun s m x => map (fun q => f s m (x * nq + q)) (zrange nq)).
Proof.
  unfold flat3. apply flat_map_ext. intros s. apply flat_map_ext. intros m.
  rewrite (Z.mul_comm nq nx), flat_zrange_mul by assumption. apply flat_map_ext. intros x. apply flat_map_single.
Qed.

Lemma pack_els pl d0 b0 f : nslow pl = ns -> nmid pl = nm -> nfast pl = nq * nx ->
  (forall s m x q, 0 <= s < ns -> 0 <= m < nm -> 0 <= x < nx -> 0 <= q < nq ->
     d0 + addr0 pl s m (x * nq + q) = f (el s m x q)) ->
  pairs_pack pl d0 b0 = ppairs b0 f els.
Proof.
  intros E1 E2 E3 Hf. unfold pairs_pack. rewrite E1, E2, E3, flat3_split, ppairs_els. apply flat3_ext. intros s m x H1 H2 H3.
  apply map_ext_in. intros q H4. apply In_zrange in H4. rewrite Hf by assumption. f_equal. unfold slot3. ring.
Qed.

Lemma unpack_els pl d0 b0 f : nslow pl = ns -> nmid pl = nm -> nfast pl = nq * nx ->
  (forall s m x q, 0 <= s < ns -> 0 <= m < nm -> 0 <= x < nx -> 0 <= q < nq ->
     d0 + addr0 pl s m (x * nq + q) = f (el s m x q)) ->
  pairs_unpack pl d0 b0 = upairs b0 f els.
Proof.
  intros E1 E2 E3 Hf. unfold pairs_unpack. rewrite E1, E2, E3, flat3_split, upairs_els. apply flat3_ext. intros s m x H1 H2 H3.
  apply map_ext_in. intros q H4. apply In_zrange in H4. rewrite Hf by assumption. f_equal. unfold slot3. ring.
Qed.

Lemma unpackP_els addr pl d0 b0 f : nslow pl = ns -> nmid pl = nm -> nfast pl = nx ->
  (forall s m x q, 0 <= s < ns -> 0 <= m < nm -> 0 <= x < nx -> 0 <= q < nq ->
     d0 + addr pl s m x q = f (el s m x q)) ->
  pairs_unpackP addr nq pl d0 b0 = upairs b0 f els.
Proof.
  intros E1 E2 E3 Hf. unfold pairs_unpackP. rewrite E1, E2, E3, upairs_els. apply flat3_ext. intros s m x H1 H2 H3.
  apply map_ext_in. intros q H4. apply In_zrange in H4. rewrite Hf by assumption. reflexivity.
Qed.

End Flat.

(** position in a full box is injective and bounded *)
Lemma radix3 a b c a' b' c' n2 n1 : 0 <= b < n2 -> 0 <= b' < n2 -> 0 <= c < n1 -> 0 <= c' < n1 ->
  (a * n2 + b) * n1 + c = (a' * n2 + b') * n1 + c' -> a = a' /\ b = b' /\ c = c'.
Proof.
  intros H1 H2 H3 H4 H5.
  assert (E1 : a * n2 + b = a' * n2 + b') by (apply (Z.div_mod_unique n1) with (r1 := c) (r2 := c'); lia).
  assert (Ec : c = c') by nia.
  assert (Ea : a = a') by (apply (Z.div_mod_unique n2) with (r1 := b) (r2 := b'); lia).
  repeat split; nia.
Qed.
Lemma radix3_bound a b c n3 n2 n1 : 0 <= a < n3 -> 0 <= b < n2 -> 0 <= c < n1 ->
  0 <= (a * n2 + b) * n1 + c < n3 * n2 * n1.
Proof.
  intros. assert (0 <= a * n2 + b < n3 * n2) by nia. nia.
Qed.

(** ** 3d *)
Definition el3 := (pt3 * Z)%type.
Definition elems3 (nq : Z) (b : box3) : list el3 :=
  els (Z.max 0 (nk b)) (Z.max 0 (nj b)) (Z.max 0 (ni b)) nq (fun s m x q => ((ilo b + x, jlo b + m, klo b + s), q)).
Definition inbx3 (nq : Z) (e : el3) (b : box3) : Prop := inb3 (fst e) b /\ 0 <= snd e < nq.
Definition a3 (nq perm : Z) (b : box3) (e : el3) : Z := cell3 nq perm b (fst e) (snd e).

Lemma pos3_bound perm b p : inb3 p b -> 0 <= pos3 perm b p < ni b * nj b * nk b.
Proof.
  destruct p as [[i j] k]. unfold inb3, pos3. intros (H1 & H2 & H3).
  assert (B1 : 0 <= i - ilo b < ni b) by (unfold ni; lia).
  assert (B2 : 0 <= j - jlo b < nj b) by (unfold nj; lia).
  assert (B3 : 0 <= k - klo b < nk b) by (unfold nk; lia).
  destruct (perm =? 0); [|destruct (perm =? 1)].
  - pose proof (radix3_bound _ _ _ _ _ _ B3 B2 B1). lia.
  - pose proof (radix3_bound _ _ _ _ _ _ B1 B3 B2). lia.
  - pose proof (radix3_bound _ _ _ _ _ _ B2 B1 B3). lia.
Qed.

Lemma pos3_inj perm b p p' : inb3 p b -> inb3 p' b -> pos3 perm b p = pos3 perm b p' -> p = p'.
Proof.
  destruct p as [[i j] k], p' as [[i' j'] k']. unfold inb3, pos3. intros (H1 & H2 & H3) (H1' & H2' & H3') H.
  assert (i = i' /\ j = j' /\ k = k'); [|intuition congruence].
  unfold ni, nj, nk in H.
  destruct (perm =? 0); [|destruct (perm =? 1)]; apply radix3 in H; lia.
Qed.

Lemma cell3_bound nq perm b p q : inb3 p b -> 0 <= q < nq -> 0 <= cell3 nq perm b p q < nq * ni b * nj b * nk b.
Proof. intros H Hq. unfold cell3. pose proof (pos3_bound perm b p H). nia. Qed.

Lemma cell3_inj nq perm b p q p' q' : inb3 p b -> inb3 p' b -> 0 <= q < nq -> 0 <= q' < nq ->
  cell3 nq perm b p q = cell3 nq perm b p' q' -> p = p' /\ q = q'.
Proof.
  unfold cell3. intros H H' Hq Hq' E.
  assert (Hp : pos3 perm b p = pos3 perm b p') by (apply (Z.div_mod_unique nq) with (r1 := q) (r2 := q'); lia).
  split; [apply (pos3_inj perm b); assumption|]. rewrite Hp in E. lia.
Qed.

Lemma collide3_Some a b ov : collide3 a b = Some ov ->
  (0 < ni ov /\ 0 < nj ov /\ 0 < nk ov) /\ (0 < ni a /\ 0 < nj a /\ 0 < nk a) /\
  (ilo a <= ilo ov /\ ihi ov <= ihi a /\ jlo a <= jlo ov /\ jhi ov <= jhi a /\ klo a <= klo ov /\ khi ov <= khi a) /\
  (forall p, inb3 p ov <-> inb3 p a /\ inb3 p b).
Proof.
  unfold collide3. destruct (Z.ltb_spec (Z.min (ihi a) (ihi b)) (Z.max (ilo a) (ilo b)));
    destruct (Z.ltb_spec (Z.min (jhi a) (jhi b)) (Z.max (jlo a) (jlo b)));
    destruct (Z.ltb_spec (Z.min (khi a) (khi b)) (Z.max (klo a) (klo b))); cbn; try discriminate.
  all: try (destruct (Z.ltb_spec (Z.min (ihi a) (ihi b)) (Z.max (ilo a) (ilo b))); try lia;
    destruct (Z.ltb_spec (Z.min (jhi a) (jhi b)) (Z.max (jlo a) (jlo b))); try lia;
    destruct (Z.ltb_spec (Z.min (khi a) (khi b)) (Z.max (klo a) (klo b))); try lia; cbn; try discriminate).
  intros E. injection E as <-. unfold ni, nj, nk. cbn.
  split; [lia|]. split; [lia|]. split; [lia|]. intros [[i j] k]. cbn. lia.
Qed.

Lemma collide3_None a b p : collide3 a b = None -> inb3 p a -> inb3 p b -> False.
Proof.
  destruct p as [[i j] k]. unfold collide3, inb3. cbn.
  destruct (Z.ltb_spec (Z.min (ihi a) (ihi b)) (Z.max (ilo a) (ilo b)));
    destruct (Z.ltb_spec (Z.min (jhi a) (jhi b)) (Z.max (jlo a) (jlo b)));
    destruct (Z.ltb_spec (Z.min (khi a) (khi b)) (Z.max (klo a) (klo b))); cbn; try discriminate; lia.
Qed.

Lemma In_elems3 nq b e : 0 <= nq -> In e (elems3 nq b) <-> inbx3 nq e b.
Proof.
  intros Hq. unfold elems3. rewrite In_els by lia. unfold inbx3. destruct e as [[[i j] k] q]. cbn.
  unfold ni, nj, nk. split.
  - intros (s & m & x & q' & H1 & H2 & H3 & H4 & E). injection E as -> -> -> ->. lia.
  - intros ((H1 & H2 & H3) & H4). exists (k - klo b), (j - jlo b), (i - ilo b), q.
    repeat (split; [lia|]). f_equal. f_equal; [f_equal|]; lia.
Qed.

Definition flag_ok (packflag : Z) := packflag = 0 \/ packflag = 1 \/ packflag = 2.
Definition perm_ok3 (permute : Z) := permute = 0 \/ permute = 1 \/ permute = 2.

Lemma rspec3 {A} packflag nq permute : flag_ok packflag -> perm_ok3 permute -> 0 < nq ->
  rspec (ops3 (A := A) packflag nq permute) (elems3 nq) (inbx3 nq) (a3 nq 0) (a3 nq permute).
Proof.
  intros Hf Hp Hq. constructor; cbn.
  - intros a b. unfold collide3.
    rewrite (Z.max_comm (ilo a)), (Z.max_comm (jlo a)), (Z.max_comm (klo a)), (Z.min_comm (ihi a)), (Z.min_comm (jhi a)), (Z.min_comm (khi a)).
    reflexivity.
  - intros b. apply els_NoDup; try lia. intros. injection H. lia.
  - intros b e. apply In_elems3. lia.
  - intros a b ov H. apply collide3_Some in H as (H & _). unfold elems3. rewrite zlen_els by lia. unfold size3. rewrite !Z.max_r by lia. ring.
  - intros a b e H (H1 & _) (H2 & _). apply (collide3_None a b (fst e)); assumption.
  - intros a b ov e H. apply collide3_Some in H as (_ & _ & _ & H). unfold inbx3. rewrite (H (fst e)). tauto.
  - intros a b ov data buf b0 H. apply collide3_Some in H as (Ho & Ha & Hc & _).
    assert (Hw : wfp (splan3 nq a ov)) by (unfold wfp, splan3; cbn; nia).
    assert (E1 : pack3 packflag data (soff3 nq a ov) buf b0 (splan3 nq a ov) = copies data (pairs_pack (splan3 nq a ov) (soff3 nq a ov) b0) buf).
    { unfold pack3. destruct Hf as [-> | [-> | ->]]; cbn [Z.eqb Pos.eqb];
        [apply pack_3d_array_ok|apply pack_3d_pointer_ok|apply pack_3d_memcpy_ok]; exact Hw. }
    rewrite E1. f_equal. unfold elems3. apply pack_els; cbn; try lia.
    intros s m x q H1 H2 H3 H4. unfold a3, cell3, addr0, soff3. cbn. ring.
  - intros a b ov data buf b0 H. apply collide3_Some in H as (Ho & Ha & Hc & _).
    unfold unpack3. unfold elems3. rewrite !Z.max_r by lia.
    assert (Hw : wfp (rplan3 nq permute a ov)).
    { unfold wfp, rplan3. destruct (permute =? 0); [|destruct (permute =? 1)]; cbn; nia. }
    assert (Hnq : nqty (rplan3 nq permute a ov) = nq) by (unfold rplan3; destruct (permute =? 0); [|destruct (permute =? 1)]; reflexivity).
    assert (Hst : 0 < nstride_line (rplan3 nq permute a ov) /\ 0 < nstride_plane (rplan3 nq permute a ov)).
    { unfold rplan3. destruct (permute =? 0); [|destruct (permute =? 1)]; cbn; split; repeat apply Z.mul_pos_pos; lia. }
    destruct Hst as (Hsl & Hsp).
    destruct Hp as [-> | [-> | ->]]; cbn [Z.eqb Pos.eqb] in *.
    + transitivity (copies buf (pairs_unpack (rplan3 nq 0 a ov) (roff3 nq 0 a ov) b0) data).
      { destruct Hf as [-> | [-> | ->]]; cbn [Z.eqb Pos.eqb];
          [apply unpack_3d_array_ok|apply unpack_3d_pointer_ok|apply unpack_3d_memcpy_ok]; exact Hw. }
      f_equal. apply unpack_els; cbn; try lia.
      intros s m x q H1 H2 H3 H4. unfold a3, cell3, addr0, roff3. cbn. ring.
    + transitivity (copies buf (pairs_unpackP addr1 nq (rplan3 nq 1 a ov) (roff3 nq 1 a ov) b0) data).
      { rewrite <- Hnq at 4. destruct (Z.eqb_spec nq 1); [|destruct (Z.eqb_spec nq 2)];
          destruct Hf as [-> | [-> | ->]]; cbn [Z.eqb Pos.eqb];
          [apply unpack_3d_permute1_1_array_ok|apply unpack_3d_permute1_1_pointer_ok|apply unpack_3d_permute1_1_memcpy_ok
          |apply unpack_3d_permute1_2_array_ok|apply unpack_3d_permute1_2_pointer_ok|apply unpack_3d_permute1_2_memcpy_ok
          |apply unpack_3d_permute1_n_array_ok|apply unpack_3d_permute1_n_pointer_ok|apply unpack_3d_permute1_n_memcpy_ok]; lia || assumption. }
      f_equal. apply unpackP_els; cbn; try lia.
      intros s m x q H1 H2 H3 H4. unfold a3, cell3, addr1, roff3. cbn. ring.
    + transitivity (copies buf (pairs_unpackP addr2 nq (rplan3 nq 2 a ov) (roff3 nq 2 a ov) b0) data).
      { rewrite <- Hnq at 4. destruct (Z.eqb_spec nq 1); [|destruct (Z.eqb_spec nq 2)];
          destruct Hf as [-> | [-> | ->]]; cbn [Z.eqb Pos.eqb];
          [apply unpack_3d_permute2_1_array_ok|apply unpack_3d_permute2_1_pointer_ok|apply unpack_3d_permute2_1_memcpy_ok
          |apply unpack_3d_permute2_2_array_ok|apply unpack_3d_permute2_2_pointer_ok|apply unpack_3d_permute2_2_memcpy_ok
          |apply unpack_3d_permute2_n_array_ok|apply unpack_3d_permute2_n_pointer_ok|apply unpack_3d_permute2_n_memcpy_ok]; lia || assumption. }
      f_equal. apply unpackP_els; cbn; try lia.
      intros s m x q H1 H2 H3 H4. unfold a3, cell3, addr2, roff3. cbn. ring.
  - intros b [p q] [p' q'] (H1 & H2) (H1' & H2') E. unfold a3 in E. cbn in *.
    apply cell3_inj in E as (-> & ->); auto.
  - intros b [p q] (H1 & H2). apply cell3_bound; assumption.
  - intros b [[[i j] k] q] (H1 & H2). cbn in H1, H2. unfold elems3. rewrite zlen_els by lia. unfold outvol3.
    unfold ni, nj, nk. rewrite !Z.max_r by lia. ring.
Qed.

(** ** 2d *)
Definition el2 := (pt2 * Z)%type.
Definition elems2 (nq : Z) (b : box2) : list el2 :=
  els (Z.max 0 (nj2 b)) 1 (Z.max 0 (ni2 b)) nq (fun s m x q => ((ilo2 b + x, jlo2 b + m + s), q)).
Definition inbx2 (nq : Z) (e : el2) (b : box2) : Prop := inb2 (fst e) b /\ 0 <= snd e < nq.
Definition a2 (nq perm : Z) (b : box2) (e : el2) : Z := cell2 nq perm b (fst e) (snd e).

Lemma pos2_bound perm b p : inb2 p b -> 0 <= pos2 perm b p < ni2 b * nj2 b.
Proof. destruct p as [i j]. unfold inb2, pos2, ni2, nj2. intros (H1 & H2). destruct (perm =? 0); nia. Qed.

Lemma pos2_inj perm b p p' : inb2 p b -> inb2 p' b -> pos2 perm b p = pos2 perm b p' -> p = p'.
Proof.
  destruct p as [i j], p' as [i' j']. unfold inb2, pos2, ni2, nj2. intros (H1 & H2) (H1' & H2') H.
  assert (i = i' /\ j = j'); [|intuition congruence].
  destruct (perm =? 0); (split; [|]).
  all: try (assert (j - jlo2 b = j' - jlo2 b) by (apply (Z.div_mod_unique (ihi2 b - ilo2 b + 1)) with (r1 := i - ilo2 b) (r2 := i' - ilo2 b); lia); nia).
  all: assert (i - ilo2 b = i' - ilo2 b) by (apply (Z.div_mod_unique (jhi2 b - jlo2 b + 1)) with (r1 := j - jlo2 b) (r2 := j' - jlo2 b); lia); nia.
Qed.

Lemma cell2_bound nq perm b p q : inb2 p b -> 0 <= q < nq -> 0 <= cell2 nq perm b p q < nq * ni2 b * nj2 b.
Proof. intros H Hq. unfold cell2. pose proof (pos2_bound perm b p H). nia. Qed.

Lemma cell2_inj nq perm b p q p' q' : inb2 p b -> inb2 p' b -> 0 <= q < nq -> 0 <= q' < nq ->
  cell2 nq perm b p q = cell2 nq perm b p' q' -> p = p' /\ q = q'.
Proof.
  unfold cell2. intros H H' Hq Hq' E.
  assert (Hp : pos2 perm b p = pos2 perm b p') by (apply (Z.div_mod_unique nq) with (r1 := q) (r2 := q'); lia).
  split; [apply (pos2_inj perm b); assumption|]. rewrite Hp in E. lia.
Qed.

Lemma collide2_Some a b ov : collide2 a b = Some ov ->
  (0 < ni2 ov /\ 0 < nj2 ov) /\ (0 < ni2 a /\ 0 < nj2 a) /\
  (ilo2 a <= ilo2 ov /\ ihi2 ov <= ihi2 a /\ jlo2 a <= jlo2 ov /\ jhi2 ov <= jhi2 a) /\
  (forall p, inb2 p ov <-> inb2 p a /\ inb2 p b).
Proof.
  unfold collide2. cbn. destruct (Z.ltb_spec (Z.min (ihi2 a) (ihi2 b)) (Z.max (ilo2 a) (ilo2 b)));
    destruct (Z.ltb_spec (Z.min (jhi2 a) (jhi2 b)) (Z.max (jlo2 a) (jlo2 b))); cbn; try discriminate.
  intros E. injection E as <-. unfold ni2, nj2. cbn.
  split; [lia|]. split; [lia|]. split; [lia|]. intros [i j]. cbn. lia.
Qed.
Lemma collide2_None a b p : collide2 a b = None -> inb2 p a -> inb2 p b -> False.
Proof.
  destruct p as [i j]. unfold collide2, inb2. cbn.
  destruct (Z.ltb_spec (Z.min (ihi2 a) (ihi2 b)) (Z.max (ilo2 a) (ilo2 b)));
    destruct (Z.ltb_spec (Z.min (jhi2 a) (jhi2 b)) (Z.max (jlo2 a) (jlo2 b))); cbn; try discriminate; lia.
Qed.

Lemma In_elems2 nq b e : 0 <= nq -> In e (elems2 nq b) <-> inbx2 nq e b.
Proof.
  intros Hq. unfold elems2. rewrite In_els by lia. unfold inbx2. destruct e as [[i j] q]. cbn.
  unfold ni2, nj2. split.
  - intros (s & m & x & q' & H1 & H2 & H3 & H4 & E). injection E as -> -> ->. lia.
  - intros ((H1 & H2) & H3). exists (j - jlo2 b), 0, (i - ilo2 b), q.
    repeat (split; [lia|]). f_equal. f_equal; lia.
Qed.

Definition perm_ok2 (permute : Z) := permute = 0 \/ permute = 1.

Lemma NoDup_els2 nq b : 0 <= nq -> NoDup (elems2 nq b).
Proof.
  intros Hq. unfold elems2.
  (* the middle index is 0: compare through the 3d enumeration *)
  rewrite <- (tagged_snd (Z.max 0 (nj2 b)) 1 (Z.max 0 (ni2 b)) nq).
  assert (H : NoDup (tagged (Z.max 0 (nj2 b)) 1 (Z.max 0 (ni2 b)) nq (fun s m x q => ((ilo2 b + x, jlo2 b + m + s), q)))).
  { apply NoDup_map_inv with (f := fst). rewrite tags by lia. apply zrange_NoDup. }
  set (l := tagged _ _ _ _ _) in *.
  assert (HJ : forall a c, In a l -> In c l -> snd a = snd c -> a = c).
  { intros a c Ha Hc Hac. unfold l, tagged, flat3 in Ha, Hc.
    apply in_flat_map in Ha as (s & Is & Ha). apply in_flat_map in Ha as (m & Im & Ha). apply in_flat_map in Ha as (x & Ix & Ha).
    apply in_map_iff in Ha as (q & <- & _).
    apply in_flat_map in Hc as (s' & _ & Hc). apply in_flat_map in Hc as (m' & Im' & Hc). apply in_flat_map in Hc as (x' & _ & Hc).
    apply in_map_iff in Hc as (q' & <- & _). cbn in Hac. apply In_zrange in Im, Im'. injection Hac as E1 E2 E3.
    assert (m = 0) by lia. assert (m' = 0) by lia. assert (s = s') by lia. assert (x = x') by lia. subst. reflexivity. }
  clearbody l. revert HJ. induction H as [|a l Ha H IH]; intros HJ; cbn; constructor.
  - intros Hc. apply in_map_iff in Hc as (c & Ec & Hc). apply Ha. rewrite (HJ a c); [exact Hc|left; reflexivity|right; exact Hc|congruence].
  - apply IH. intros x y Hx' Hy. apply HJ; right; assumption.
Qed.

(** [esize] matters only for the memcpy variants without permutation *)
Lemma rspec2 {A} esize packflag nq permute : flag_ok packflag -> perm_ok2 permute -> 0 < nq ->
  esize = 8 \/ packflag <> 2 ->
  rspec (ops2 (A := A) esize packflag nq permute) (elems2 nq) (inbx2 nq) (a2 nq 0) (a2 nq permute).
Proof.
  intros Hf Hp Hq He. constructor; cbn.
  - intros a b. unfold collide2.
    rewrite (Z.max_comm (ilo2 a)), (Z.max_comm (jlo2 a)), (Z.min_comm (ihi2 a)), (Z.min_comm (jhi2 a)).
    reflexivity.
  - intros b. apply NoDup_els2. lia.
  - intros b e. apply In_elems2. lia.
  - intros a b ov H. apply collide2_Some in H as (H & _). unfold elems2. rewrite zlen_els by lia. unfold size2. rewrite !Z.max_r by lia. ring.
  - intros a b e H (H1 & _) (H2 & _). apply (collide2_None a b (fst e)); assumption.
  - intros a b ov e H. apply collide2_Some in H as (_ & _ & _ & H). unfold inbx2. rewrite (H (fst e)). tauto.
  - intros a b ov data buf b0 H. apply collide2_Some in H as (Ho & Ha & Hc & _).
    assert (Hw : wfp2 (splan2 nq a ov)) by (unfold wfp2, splan2; cbn; nia).
    transitivity (copies data (pairs_pack (up0 (splan2 nq a ov)) (soff2 nq a ov) b0) buf).
    { unfold pack2. destruct Hf as [-> | [-> | ->]]; cbn [Z.eqb Pos.eqb];
        [apply pack_2d_array_ok|apply pack_2d_pointer_ok|]; try exact Hw.
      destruct He as [-> | He]; [|congruence]. apply pack_2d_memcpy_ok, Hw. }
    f_equal. unfold elems2. apply pack_els; cbn; try lia.
    intros s m x q H1 H2 H3 H4. assert (m = 0) by lia. subst m. unfold a2, cell2, addr0, soff2. cbn. ring.
  - intros a b ov data buf b0 H. apply collide2_Some in H as (Ho & Ha & Hc & _).
    unfold unpack2, elems2. rewrite !Z.max_r by lia.
    assert (Hw : wfp2 (rplan2 nq permute a ov)).
    { unfold wfp2, rplan2. destruct (permute =? 0); cbn; nia. }
    assert (Hnq : nqty (up1 (rplan2 nq permute a ov)) = nq) by (unfold rplan2; destruct (permute =? 0); reflexivity).
    assert (Hst : 0 < nstride2 (rplan2 nq permute a ov)).
    { unfold rplan2. destruct (permute =? 0); cbn; repeat apply Z.mul_pos_pos; lia. }
    destruct Hp as [-> | ->]; cbn [Z.eqb Pos.eqb] in *.
    + transitivity (copies buf (pairs_unpack (up0 (rplan2 nq 0 a ov)) (roff2 nq 0 a ov) b0) data).
      { destruct Hf as [-> | [-> | ->]]; cbn [Z.eqb Pos.eqb];
          [apply unpack_2d_array_ok|apply unpack_2d_pointer_ok|]; try exact Hw.
        destruct He as [-> | He]; [|congruence]. apply unpack_2d_memcpy_ok, Hw. }
      f_equal. apply unpack_els; cbn; try lia.
      intros s m x q H1 H2 H3 H4. assert (m = 0) by lia. subst m. unfold a2, cell2, addr0, roff2. cbn. ring.
    + transitivity (copies buf (pairs_unpackP addr2 nq (up1 (rplan2 nq 1 a ov)) (roff2 nq 1 a ov) b0) data).
      { rewrite <- Hnq at 4. cbn in Hnq. destruct (Z.eqb_spec nq 1); [|destruct (Z.eqb_spec nq 2)];
          destruct Hf as [-> | [-> | ->]]; cbn [Z.eqb Pos.eqb];
          [apply unpack_2d_permute_1_array_ok|apply unpack_2d_permute_1_pointer_ok|apply unpack_2d_permute_1_memcpy_ok
          |apply unpack_2d_permute_2_array_ok|apply unpack_2d_permute_2_pointer_ok|apply unpack_2d_permute_2_memcpy_ok
          |apply unpack_2d_permute_n_array_ok|apply unpack_2d_permute_n_pointer_ok|apply unpack_2d_permute_n_memcpy_ok]; first [assumption | cbn; lia]. }
      f_equal. apply unpackP_els; cbn; try lia.
      intros s m x q H1 H2 H3 H4. assert (m = 0) by lia. subst m. unfold a2, cell2, addr2, roff2. cbn. ring.
  - intros b [p q] [p' q'] (H1 & H2) (H1' & H2') E. unfold a2 in E. cbn in *.
    apply cell2_inj in E as (-> & ->); auto.
  - intros b [p q] (H1 & H2). apply cell2_bound; assumption.
  - intros b [[i j] q] (H1 & H2). cbn in H1, H2. unfold elems2. rewrite zlen_els by lia. unfold outvol2.
    unfold ni2, nj2. rewrite !Z.max_r by lia. ring.
Qed.
