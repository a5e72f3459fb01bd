(** MemProofs.v : slices, memcpy and writes of received payloads. *)

From Coq Require Import FinFun.
From Verif Require Import Base Pack3dProofs Sched SchedProofs.

Section Slice.
Context {A : Type}.
Implicit Types (l p : list A).

Lemma zslice_nat_inv l o n p : zslice_nat l o n = Some p ->
  length p = n /\ forall k, 0 <= k < Z.of_nat n -> zget l (o + k) = zget p k.
Proof.
  revert o p. induction n as [|n IH]; intros o p H; cbn [zslice_nat] in H.
  - injection H as <-. split; [reflexivity|intros; lia].
  - apply bind_Some_inv in H. destruct H as (v & Hv & H).
    apply bind_Some_inv in H. destruct H as (t & Ht & H). injection H as <-.
    destruct (IH _ _ Ht) as (Hl & Hk). split; [cbn; congruence|].
    intros k Hk'. rewrite zget_cons. destruct (Z.eqb_spec k 0) as [->|Hn].
    + rewrite Z.add_0_r. exact Hv.
    + rewrite <- Hk by lia. f_equal. lia.
Qed.

Lemma zslice_nat_intro l o n p : length p = n ->
  (forall k, 0 <= k < Z.of_nat n -> zget l (o + k) = zget p k) -> zslice_nat l o n = Some p.
Proof.
  revert o p. induction n as [|n IH]; intros o p Hl Hk; cbn [zslice_nat].
  - destruct p; [reflexivity|discriminate].
  - destruct p as [|v t]; [discriminate|].
    pose proof (Hk 0 ltac:(lia)) as H0. rewrite Z.add_0_r in H0. rewrite H0. cbn.
    rewrite (IH (o + 1) t); [reflexivity|cbn in Hl; lia|].
    intros k Hk'. replace (o + 1 + k) with (o + (k + 1)) by lia. rewrite Hk by lia.
    rewrite zget_cons. destruct (Z.eqb_spec (k + 1) 0); [lia|]. f_equal. lia.
Qed.

Lemma zslice_inv l o n p : 0 <= n -> zslice l o n = Some p ->
  zlen p = n /\ forall k, 0 <= k < n -> zget l (o + k) = zget p k.
Proof.
  intros Hn H. apply zslice_nat_inv in H. destruct H as (Hl & Hk). unfold zlen. split; [lia|].
  intros k Hk'. apply Hk. lia.
Qed.

Lemma zslice_intro l o p : (forall k, 0 <= k < zlen p -> zget l (o + k) = zget p k) ->
  zslice l o (zlen p) = Some p.
Proof.
  intros H. apply zslice_nat_intro; [unfold zlen; lia|]. intros k Hk. apply H. unfold zlen in *. lia.
Qed.

Lemma zslice_ext l l' o n : (forall a, o <= a < o + n -> zget l a = zget l' a) ->
  zslice l o n = zslice l' o n.
Proof.
  intros H. unfold zslice.
  assert (G : forall m o', (forall a, o' <= a < o' + Z.of_nat m -> zget l a = zget l' a) ->
     zslice_nat l o' m = zslice_nat l' o' m).
  { induction m as [|m IH]; intros o' Hm; cbn [zslice_nat]; auto.
    rewrite Hm by lia. apply bind_ext. intros v _. rewrite IH; auto. intros a Ha. apply Hm. lia. }
  apply G. intros a Ha. apply H. lia.
Qed.

Lemma zslice_Some l o n : 0 <= o -> o + n <= zlen l -> exists p, zslice l o n = Some p.
Proof.
  intros Ho Hn. unfold zslice.
  assert (G : forall m o', 0 <= o' -> o' + Z.of_nat m <= zlen l -> exists p, zslice_nat l o' m = Some p).
  { induction m as [|m IH]; intros o' Ho' Hm; cbn [zslice_nat]; [eauto|].
    destruct (zget_Some l o') as [v ->]; [lia|]. cbn.
    destruct (IH (o' + 1)) as [t ->]; [lia|lia|]. cbn. eauto. }
  destruct (Z.lt_ge_cases n 0) as [H0|H0].
  - replace (Z.to_nat n) with 0%nat by lia. cbn. eauto.
  - apply G; [exact Ho|lia].
Qed.

(** the cells written by a payload of [n] elements at [o] *)
Definition seg (o n : Z) : list (Z * Z) := map (fun k => (o + k, k)) (zrange n).

Lemma seg_In o n d s : In (d, s) (seg o n) <-> 0 <= s < n /\ d = o + s.
Proof.
  unfold seg. rewrite in_map_iff. split.
  - intros (k & E & Hk). injection E as <- <-. apply In_zrange in Hk. lia.
  - intros (H & ->). exists s. split; [reflexivity|]. apply In_zrange. exact H.
Qed.

Lemma seg_fst o n a : In a (map fst (seg o n)) <-> o <= a < o + n.
Proof.
  rewrite in_map_iff. split.
  - intros ([d s] & <- & H). apply seg_In in H. cbn. lia.
  - intros H. exists (a, a - o). split; [reflexivity|]. apply seg_In. lia.
Qed.

Lemma seg_NoDup o n : NoDup (map fst (seg o n)).
Proof.
  unfold seg. rewrite map_map. cbn. apply Injective_map_NoDup; [|apply zrange_NoDup].
  intros x y E. lia.
Qed.

Lemma memcpy_seg (dst : list A) d (src : list A) : memcpy_elems dst d src 0 (zlen src) = copies src (seg d (zlen src)) dst.
Proof.
  rewrite memcpy_copies by apply zlen_nonneg. unfold seg. f_equal.
Qed.

Lemma wrm_copies loc pl (m : @rmem A) :
  wrm loc pl m = (b <- copies pl (seg loc (zlen pl)) (m_recv m); Some (set_recv m b)).
Proof. unfold wrm. rewrite memcpy_seg. reflexivity. Qed.

Lemma wrm_Some loc pl (m : @rmem A) : 0 <= loc -> loc + zlen pl <= zlen (m_recv m) ->
  exists m', wrm loc pl m = Some m'.
Proof.
  intros H1 H2. rewrite wrm_copies.
  destruct (copies_Some pl (seg loc (zlen pl)) (m_recv m)) as [b ->]; [|cbn; eauto].
  intros d s H. apply seg_In in H. lia.
Qed.

Lemma wrm_spec loc pl (m m' : @rmem A) : wrm loc pl m = Some m' ->
  m_in m' = m_in m /\ m_out m' = m_out m /\ m_send m' = m_send m /\ zlen (m_recv m') = zlen (m_recv m) /\
  (forall a, ~ (loc <= a < loc + zlen pl) -> zget (m_recv m') a = zget (m_recv m) a) /\
  zslice (m_recv m') loc (zlen pl) = Some pl.
Proof.
  rewrite wrm_copies. intros H. apply bind_Some_inv in H. destruct H as (b & Hb & H). injection H as <-.
  cbn. repeat split; auto.
  - apply (copies_len _ _ _ _ Hb).
  - intros a Ha. apply (copies_other _ _ _ _ _ Hb). rewrite seg_fst. exact Ha.
  - apply zslice_intro. intros k Hk. apply (copies_hit _ _ _ _ _ _ Hb (seg_NoDup _ _)). apply seg_In. lia.
Qed.

(** ** commutation with writes to receive slots *)

(** a closure that performs a list of element copies from array [s] to array [d] *)
Definition cpy (d s : bsel) (ps : list (Z * Z)) (m : @rmem A) : option (@rmem A) :=
  b <- copies (getb s m) ps (getb d m); Some (setb d b m).

Lemma getb_setb_same b v (m : @rmem A) : getb b (setb b v m) = v.
Proof. destruct b; reflexivity. Qed.
Lemma getb_setb_other b b' v (m : @rmem A) : b <> b' -> getb b (setb b' v m) = getb b m.
Proof. destruct b, b'; congruence || reflexivity. Qed.
Lemma setb_setb_same b v w (m : @rmem A) : setb b v (setb b w m) = setb b v m.
Proof. destruct b; reflexivity. Qed.
Lemma setb_setb_other b b' v w (m : @rmem A) : b <> b' -> setb b v (setb b' w m) = setb b' w (setb b v m).
Proof. destruct b, b'; congruence || reflexivity. Qed.
Lemma bsel_eq_dec (b b' : bsel) : {b = b'} + {b <> b'}.
Proof. decide equality. Qed.

Lemma cpy_spec d s ps (m m' : @rmem A) : cpy d s ps m = Some m' ->
  (forall b, b <> d -> getb b m' = getb b m) /\ zlen (getb d m') = zlen (getb d m) /\
  copies (getb s m) ps (getb d m) = Some (getb d m').
Proof.
  unfold cpy. intros H. apply bind_Some_inv in H. destruct H as (b & Hb & H). injection H as <-.
  rewrite getb_setb_same. split; [|split].
  - intros b' Hb'. apply getb_setb_other. exact Hb'.
  - apply (copies_len _ _ _ _ Hb).
  - exact Hb.
Qed.

Lemma copies_len_Some (src : list A) ps (dst src' dst' x : list A) :
  copies src ps dst = Some x -> zlen src' = zlen src -> zlen dst' = zlen dst ->
  exists y, copies src' ps dst' = Some y.
Proof.
  intros H Hs Hd. apply copies_Some. intros d s Hin. rewrite Hs, Hd. apply (copies_inv _ _ _ _ H d s Hin).
Qed.

Lemma copies_len_None (src : list A) ps (dst src' dst' : list A) :
  copies src ps dst = None -> zlen src' = zlen src -> zlen dst' = zlen dst ->
  copies src' ps dst' = None.
Proof.
  intros H Hs Hd. destruct (copies src' ps dst') as [y|] eqn:E; [|reflexivity].
  destruct (copies_len_Some _ _ _ src dst _ E) as [z Hz]; congruence.
Qed.

(** two abstract writers *)
Lemma writer_commute (d1 d2 : bsel) (src1 src2 : @rmem A -> list A) ps1 ps2 :
  (* each writer's source is not changed by the other one where it reads *)
  (forall m b, copies (src2 m) ps2 (getb d2 m) = Some b ->
     zlen (src1 (setb d2 b m)) = zlen (src1 m) /\
     forall d s, In (d, s) ps1 -> zget (src1 (setb d2 b m)) s = zget (src1 m) s) ->
  (forall m b, copies (src1 m) ps1 (getb d1 m) = Some b ->
     zlen (src2 (setb d1 b m)) = zlen (src2 m) /\
     forall d s, In (d, s) ps2 -> zget (src2 (setb d1 b m)) s = zget (src2 m) s) ->
  (d1 = d2 -> forall a, In a (map fst ps1) -> ~ In a (map fst ps2)) ->
  commute (fun m => b <- copies (src1 m) ps1 (getb d1 m); Some (setb d1 b m))
          (fun m => b <- copies (src2 m) ps2 (getb d2 m); Some (setb d2 b m)).
Proof.
  intros H1 H2 Hd m.
  assert (L1 : forall b, copies (src2 m) ps2 (getb d2 m) = Some b ->
             zlen (getb d1 (setb d2 b m)) = zlen (getb d1 m)).
  { intros b Hb. destruct (bsel_eq_dec d1 d2) as [->|Hne];
      [rewrite getb_setb_same; apply (copies_len _ _ _ _ Hb)|rewrite getb_setb_other by exact Hne; reflexivity]. }
  assert (L2 : forall b, copies (src1 m) ps1 (getb d1 m) = Some b ->
             zlen (getb d2 (setb d1 b m)) = zlen (getb d2 m)).
  { intros b Hb. destruct (bsel_eq_dec d2 d1) as [->|Hne];
      [rewrite getb_setb_same; apply (copies_len _ _ _ _ Hb)|rewrite getb_setb_other by exact Hne; reflexivity]. }
  destruct (copies (src1 m) ps1 (getb d1 m)) as [b1|] eqn:E1;
  destruct (copies (src2 m) ps2 (getb d2 m)) as [b2|] eqn:E2; cbn [bind].
  - destruct (H1 m b2 E2) as (HL1 & HE1). destruct (H2 m b1 E1) as (HL2 & HE2).
    rewrite (copies_src_ext _ _ _ (getb d2 (setb d1 b1 m)) HE2).
    rewrite (copies_src_ext _ _ _ (getb d1 (setb d2 b2 m)) HE1).
    destruct (bsel_eq_dec d1 d2) as [He|Hne].
    + subst d2. rewrite !getb_setb_same.
      pose proof (copies_comm (src1 m) (src2 m) ps1 ps2 (getb d1 m) (Hd eq_refl)) as Hc.
      rewrite E1, E2 in Hc. cbn in Hc. rewrite Hc.
      destruct (copies (src1 m) ps1 b2) as [b3|] eqn:E3; cbn [bind].
      * rewrite !setb_setb_same. split; [reflexivity|].
        intros m1 m2 Hm1 Hm2. injection Hm1 as <-. rewrite getb_setb_same.
        rewrite (copies_src_ext _ _ _ b1 HE2), Hc. cbn. eauto.
      * exfalso. destruct (copies_len_Some _ _ _ (src1 m) b2 _ E1) as [z Hz]; auto.
        { apply (copies_len _ _ _ _ E2). } congruence.
    + rewrite (getb_setb_other d2 d1) by congruence. rewrite (getb_setb_other d1 d2) by congruence.
      rewrite E1, E2. cbn [bind]. rewrite (setb_setb_other d2 d1) by congruence. split; [reflexivity|].
      intros m1 m2 Hm1 Hm2. injection Hm1 as <-. rewrite (getb_setb_other d2 d1) by congruence.
      rewrite (copies_src_ext _ _ _ (getb d2 m) HE2), E2. cbn. eauto.
  - split; [|intros; discriminate]. destruct (H2 m b1 E1) as (HL2 & _).
    rewrite (copies_len_None _ _ _ _ _ E2 HL2 (L2 b1 eq_refl)). reflexivity.
  - split; [|intros; discriminate]. destruct (H1 m b2 E2) as (HL1 & _).
    rewrite (copies_len_None _ _ _ _ _ E1 HL1 (L1 b2 eq_refl)). reflexivity.
  - split; [reflexivity|intros; discriminate].
Qed.

Lemma commute_ext f f' g g' : (forall m : @rmem A, f m = f' m) -> (forall m, g m = g' m) ->
  commute f g -> commute f' g'.
Proof.
  intros Hf Hg H m. destruct (H m) as (H1 & H2). rewrite <- Hf, <- Hg.
  assert (Ef : bind (f m) g' = bind (f m) g) by (apply bind_ext; intros; symmetry; apply Hg).
  assert (Eg : bind (g m) f' = bind (g m) f) by (apply bind_ext; intros; symmetry; apply Hf).
  rewrite Ef, Eg. split; [exact H1|]. intros m1 m2 Hm1 Hm2. rewrite <- Hg. apply (H2 m1 m2 Hm1 Hm2).
Qed.

Lemma wrm_wrm_commute loc pl loc' pl' :
  loc + zlen pl <= loc' \/ loc' + zlen pl' <= loc \/ zlen pl = 0 \/ zlen pl' = 0 ->
  commute (@wrm A loc pl) (wrm loc' pl').
Proof.
  intros H.
  apply commute_ext with (f := fun m => b <- copies pl (seg loc (zlen pl)) (getb BRecv m); Some (setb BRecv b m))
     (g := fun m => b <- copies pl' (seg loc' (zlen pl')) (getb BRecv m); Some (setb BRecv b m));
    [intros m; symmetry; apply wrm_copies|intros m; symmetry; apply wrm_copies|].
  apply (writer_commute BRecv BRecv (fun _ => pl) (fun _ => pl')); auto.
  intros _ a H1 H2. apply seg_fst in H1, H2. lia.
Qed.

Lemma wrm_cpy_commute loc pl d s ps :
  d <> s ->
  (d = BRecv -> forall a, In a (map fst ps) -> ~ (loc <= a < loc + zlen pl)) ->
  (s = BRecv -> forall d a, In (d, a) ps -> ~ (loc <= a < loc + zlen pl)) ->
  commute (@wrm A loc pl) (cpy d s ps).
Proof.
  intros Hds Hd Hs.
  apply commute_ext with (f := fun m => b <- copies pl (seg loc (zlen pl)) (getb BRecv m); Some (setb BRecv b m))
     (g := fun m => b <- copies (getb s m) ps (getb d m); Some (setb d b m));
    [intros m; symmetry; apply wrm_copies|reflexivity|].
  apply (writer_commute BRecv d (fun _ => pl) (getb s)); auto.
  - intros m b Hb. destruct (bsel_eq_dec s BRecv) as [->|Hne].
    + rewrite getb_setb_same. split; [apply (copies_len _ _ _ _ Hb)|].
      intros d' a Hin. apply (copies_other _ _ _ _ _ Hb). rewrite seg_fst. apply (Hs eq_refl d' a Hin).
    + rewrite getb_setb_other by exact Hne. auto.
  - intros E a H1 H2. apply seg_fst in H1. apply (Hd (eq_sym E) a H2). exact H1.
Qed.

Lemma cpy_cpy_commute d s ps d' s' ps' :
  d <> s' -> d' <> s ->
  (d = d' -> forall a, In a (map fst ps) -> ~ In a (map fst ps')) ->
  commute (cpy d s ps) (cpy d' s' ps').
Proof.
  intros H1 H2 H3. apply (writer_commute d d' (getb s) (getb s')); auto.
  - intros m b Hb. rewrite getb_setb_other by congruence. auto.
  - intros m b Hb. rewrite getb_setb_other by congruence. auto.
Qed.

End Slice.
