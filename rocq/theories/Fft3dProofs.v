(** Fft3dProofs.v : FFT3d::compute step by step, for any scalar arithmetic. *)

From Verif Require Import Base Spec Pack3d Sched SchedProofs Phases Exec Remap RemapMain RemapInst
  Remap3d RemapThms RemapTop Layout LayoutProofs Setup3d Setup3dProofs Kiss KissPure KissReal Fft1d Fft3d Frame.

(** ** renaming axes and permuting *)
Lemma perm_ok_mod a b : perm_ok3 a -> perm_ok3 b -> perm_ok3 ((a + b) mod 3).
Proof. intros [-> | [-> | ->]] [-> | [-> | ->]]; vm_compute; auto. Qed.

Lemma holds_rotgen {A} nq rot perm b (g : pt3 -> Z -> A) arr : perm_ok3 rot -> perm_ok3 perm ->
  holds3 nq perm (rotb3 rot b) (fun p => g (rotp3 (back3 rot) p)) arr <-> holds3 nq ((rot + perm) mod 3) b g arr.
Proof.
  intros Hr Hp. rewrite (holds_rot3 nq perm) by exact Hp. rewrite (holds_rot3 nq ((rot + perm) mod 3)) by (apply perm_ok_mod; assumption).
  destruct b as [a1 a2 b1 b2 c1 c2]; destruct Hr as [-> | [-> | ->]]; destruct Hp as [-> | [-> | ->]];
    split; intros H [[i j] k] q Hb Hq; exact (H (i, j, k) q Hb Hq).
Qed.

(** ** batches of transforms on a pencil layout *)
Section Lines.
Context {F : Type} (O : sops F).

(** transform along axis [ax] (0 = i, 1 = j, 2 = k) of a field *)
Definition along (ax : Z) (T : (Z -> F * F) -> Z -> F * F) (G : pt3 -> F * F) (p : pt3) : F * F :=
  let '(i, j, k) := p in
  if ax =? 0 then T (fun t => G (t, j, k)) i
  else if ax =? 1 then T (fun t => G (i, t, k)) j
  else T (fun t => G (i, j, t)) k.

(** a plan as kiss_fft_alloc makes it *)
Definition plan_for (cexp : bool -> Z -> Z -> F * F) (L : Z) (inv : bool) (st : @cfg F) : Prop :=
  1 <= L < 2 ^ 31 /\ kiss_fft_alloc cexp L inv = Some st.

Lemma plan_facts cexp L inv st : plan_for cexp L inv st ->
  k_nfft st = L /\ zlen (k_tw st) = L /\ chain (k_factors st) L /\ 1 <= L.
Proof.
  intros (HL & E). destruct (alloc_ok O cexp L inv HL) as (st' & E' & H1 & H2 & H3 & H4 & _).
  assert (st' = st) by congruence. subst st'. repeat split; auto; lia.
Qed.

Lemma pencil_ffts cexp st inv L b (G : pt3 -> F * F) (l : list (F * F)) :
  plan_for cexp L inv st -> legal3 b -> ilo b = 0 -> ihi b = L - 1 -> psize3 b <= zlen l ->
  (forall p, inb3 p b -> zget l (pos3 0 b p) = Some (G p)) ->
  exists l', perform_ffts O st L (nj b * nk b * L) l = Some l' /\ zlen l' = zlen l /\
    (forall p, inb3 p b -> zget l' (pos3 0 b p) = Some (along 0 (lineT O st) G p)) /\
    (forall a, ~ (0 <= a < psize3 b) -> zget l' a = zget l a).
Proof.
  intros HP (L1 & L2 & L3) Hlo Hhi Hz Hl.
  destruct (plan_facts _ _ _ _ HP) as (E1 & E2 & E3 & E4).
  assert (Eni : ni b = L) by (unfold ni; lia).
  assert (Eps : psize3 b = nj b * nk b * L) by (unfold psize3; rewrite Eni; ring).
  rewrite Eps in *.
  set (x := fun a => match zget l a with Some v => v | None => czero O end).
  assert (Hx : forall a, 0 <= a < nj b * nk b * L -> zget l a = Some (x a)).
  { intros a Ha. unfold x. destruct (zget_Some l a ltac:(lia)) as [v ->]. reflexivity. }
  destruct (perform_ok O st L (nj b * nk b) l x) as (l' & E & Hz' & Hs & Hu); auto; try nia.
  exists l'. split; [exact E|]. split; [exact Hz'|]. split; [|exact Hu].
  intros [[i j] k] (Hi & Hj & Hk).
  set (li := (k - klo b) * nj b + (j - jlo b)).
  assert (Hli : 0 <= li < nj b * nk b) by (unfold li, nj, nk in *; nia).
  assert (Hpos : forall t, pos3 0 b (t, j, k) = li * L + t).
  { intros t. unfold pos3. cbn [Z.eqb]. rewrite Eni, Hlo. unfold li. ring. }
  rewrite Hpos. rewrite Hs by lia. f_equal. cbn [along Z.eqb]. unfold lineT.
  apply (wk_ext O st (k_factors st) 1) with (L := L); [exact E3|lia|].
  intros t Ht. assert (Hin : inb3 (t, j, k) b) by (cbn; repeat split; lia).
  specialize (Hl _ Hin). rewrite Hpos in Hl. unfold x. rewrite Hl. reflexivity.
Qed.

(** a local phase on the complex view of array [bo] *)
Lemma cview_step n eager (M0 : nat -> @rmem F) bo hi (g : nat -> list (F * F) -> option (list (F * F)))
  (pre post : nat -> list F -> Prop) : isdata bo ->
  (forall r (l : list F), (r < n)%nat -> pre r l -> zlen l = zlen (getb bo (M0 r)) ->
     exists ps' lo, g r (fst (pairs l)) = Some ps' /\ zlen ps' = zlen (fst (pairs l)) /\ 2 * lo <= hi r /\
       (forall i, ~ (0 <= i < lo) -> zget ps' i = zget (fst (pairs l)) i) /\
       (forall l', (forall i x y, zget ps' i = Some (x, y) -> zget l' (2 * i) = Some x /\ zget l' (2 * i + 1) = Some y) -> post r l')) ->
  triple n eager (fun r m => pre r (getb bo m) /\ framed M0 bo hi r m)
    (fun r => [ILocal (cview bo (g r))])
    (fun r m => post r (getb bo m) /\ framed M0 bo hi r m).
Proof.
  intros Hbo H. apply (triple_local n eager _ (fun r => [cview bo (g r)])).
  intros r m Hr (Hpre & Hfr). destruct (H r (getb bo m) Hr Hpre) as (ps' & lo & Hg & Hz & Hlo & Hu & Hpost).
  { apply Hfr. }
  destruct (cview_ok bo (g r) m ps' Hg Hz) as (m' & E & C1 & C2 & C3 & C4).
  exists m'. split; [cbn [seqf]; rewrite E; reflexivity|]. split; [apply Hpost, C3|].
  apply framed_trans with (fun _ => m); [exact Hfr|]. split; [|split].
  - intros c. destruct (bsel_eqb c bo) eqn:Eb.
    + assert (c = bo) by (destruct c, bo; try discriminate; reflexivity). subst c. exact C2.
    + rewrite C1; [reflexivity|]. intros ->. destruct bo; discriminate.
  - intros c _ Hc. apply C1, Hc.
  - intros a Ha. apply (C4 lo Hu). lia.
Qed.

Lemma holds_pairs perm b (G : pt3 -> F * F) (l : list F) p : holds3 2 perm b (fld G) l -> inb3 p b ->
  zget (fst (pairs l)) (pos3 perm b p) = Some (G p).
Proof.
  intros H Hp. rewrite holds3_cpx in H. destruct (H p Hp) as (H1 & H2).
  rewrite (pairs_get _ _ _ _ H1 H2). rewrite <- surjective_pairing. reflexivity.
Qed.

(** psize3 pairs fit if the array has room for them *)
Lemma pairs_room (l : list F) k : 2 * k <= zlen l -> k <= zlen (fst (pairs l)).
Proof. pose proof (zlen_pairs l). lia. Qed.

Lemma rot_legal3 rot b : legal3 b -> legal3 (rotb3 rot b).
Proof.
  intros (H1 & H2 & H3). unfold rotb3. destruct (rot =? 0); [|destruct (rot =? 1)]; repeat split; assumption.
Qed.

Lemma along_rot ax T (G : pt3 -> F * F) p : perm_ok3 ax ->
  along 0 T (fun q => G (rotp3 (back3 ax) q)) (rotp3 ax p) = along ax T G p.
Proof. destruct p as [[i j] k]. intros [-> | [-> | ->]]; reflexivity. Qed.

(** the transform along the contiguous axis of a pencil layout *)
Lemma ffts_step n eager (M0 : nat -> @rmem F) bo hi cexp st inv ax L (lay : nat -> box3) (tot : nat -> Z) (G : pt3 -> F * F) :
  isdata bo -> perm_ok3 ax -> plan_for cexp L inv st ->
  (forall r, (r < n)%nat -> legal3 (lay r) /\ ilo (rotb3 ax (lay r)) = 0 /\ ihi (rotb3 ax (lay r)) = L - 1) ->
  (forall r, (r < n)%nat -> tot r = nj (rotb3 ax (lay r)) * nk (rotb3 ax (lay r)) * L) ->
  (forall r, (r < n)%nat -> 2 * psize3 (lay r) <= hi r <= zlen (getb bo (M0 r))) ->
  triple n eager (fun r m => holds3 2 ax (lay r) (fld G) (getb bo m) /\ framed M0 bo hi r m)
    (fun r => [ILocal (cview bo (perform_ffts O st L (tot r)))])
    (fun r m => holds3 2 ax (lay r) (fld (along ax (lineT O st) G)) (getb bo m) /\ framed M0 bo hi r m).
Proof.
  intros Hbo Hax HP Hlay Htot Hhi.
  apply (cview_step n eager M0 bo hi (fun r => perform_ffts O st L (tot r))
     (fun r l => holds3 2 ax (lay r) (fld G) l) (fun r l => holds3 2 ax (lay r) (fld (along ax (lineT O st) G)) l)); [exact Hbo|].
  intros r l Hr Hh Hl. destruct (Hlay r Hr) as (H1 & H2 & H3). specialize (Hhi r Hr).
  destruct (pencil_ffts cexp st inv L (rotb3 ax (lay r)) (fun q => G (rotp3 (back3 ax) q)) (fst (pairs l))) as (l' & E & Z' & S & U); auto.
  { apply rot_legal3, H1. }
  { rewrite rot_psize3 by exact Hax. apply pairs_room. lia. }
  { intros p Hp. rewrite <- (back_rot3 ax p Hax) in Hp |- *. rewrite rot_inb3 in Hp by exact Hax.
    rewrite rot_pos3 by exact Hax. rewrite rot_back3 by exact Hax. apply holds_pairs; assumption. }
  exists l', (psize3 (lay r)). rewrite (Htot r Hr). split; [exact E|]. split; [exact Z'|]. split; [lia|]. split.
  - intros i Hi. apply U. rewrite rot_psize3 by exact Hax. exact Hi.
  - intros l2 Hl2. rewrite holds3_cpx. intros p Hp.
    specialize (S (rotp3 ax p)). rewrite rot_inb3, rot_pos3, along_rot in S by exact Hax. specialize (S Hp).
    rewrite (surjective_pairing (along ax (lineT O st) G p)) in S. apply (Hl2 _ _ _ S).
Qed.

(** scaling the first [num r] elements *)
Definition scl (c : F) (v : F * F) : F * F := (smul O (fst v) c, smul O (snd v) c).

Lemma scale_step n eager (M0 : nat -> @rmem F) bo hi norm (num : nat -> Z) perm (lay : nat -> box3) (G : pt3 -> F * F) :
  isdata bo ->
  (forall r, (r < n)%nat -> 0 <= num r /\ 2 * num r <= hi r <= zlen (getb bo (M0 r))) ->
  triple n eager (fun r m => holds3 2 perm (lay r) (fld G) (getb bo m) /\ framed M0 bo hi r m)
    (fun r => [ILocal (cview bo (scale_ffts O norm (num r)))])
    (fun r m => holds3 2 perm (lay r) (fld (fun p => if pos3 perm (lay r) p <? num r then scl norm (G p) else G p)) (getb bo m)
       /\ framed M0 bo hi r m).
Proof.
  intros Hbo Hn.
  apply (cview_step n eager M0 bo hi (fun r => scale_ffts O norm (num r))
     (fun r l => holds3 2 perm (lay r) (fld G) l)
     (fun r l => holds3 2 perm (lay r) (fld (fun p => if pos3 perm (lay r) p <? num r then scl norm (G p) else G p)) l)); [exact Hbo|].
  intros r l Hr Hh Hl. destruct (Hn r Hr) as (H0 & H1).
  destruct (scale_ok O norm (num r) (fst (pairs l))) as (l' & E & Z' & S & U).
  { split; [exact H0|]. apply pairs_room. lia. }
  exists l', (num r). split; [exact E|]. split; [exact Z'|]. split; [lia|]. split; [exact U|].
  intros l2 Hl2. rewrite holds3_cpx. intros p Hp.
  pose proof (holds_pairs _ _ _ _ p Hh Hp) as Hg. pose proof (zget_inv _ _ _ Hg) as Hb.
  destruct (Z.ltb_spec (pos3 perm (lay r) p) (num r)).
  - specialize (S _ _ (conj (proj1 Hb) H) Hg). apply (Hl2 _ _ _ S).
  - rewrite (surjective_pairing (G p)) in Hg. rewrite <- U in Hg by lia. apply (Hl2 _ _ _ Hg).
Qed.
End Lines.

(** ** plans *)
Lemma setup_ffts3_ok {F} (O : sops F) cexp N : let '(x, y, z) := N in
  1 <= x < 2 ^ 31 -> 1 <= y < 2 ^ 31 -> 1 <= z < 2 ^ 31 ->
  exists P, setup_ffts3 (F := F) cexp N = Some P /\
    plan_for cexp x false (pl_ff P) /\ plan_for cexp x true (pl_fb P) /\
    plan_for cexp y false (pl_mf P) /\ plan_for cexp y true (pl_mb P) /\
    plan_for cexp z false (pl_sf P) /\ plan_for cexp z true (pl_sb P).
Proof.
  destruct N as [[x y] z]. intros Hx Hy Hz. unfold setup_ffts3.
  destruct (alloc_ok O cexp x false Hx) as (ff & E1 & _). destruct (alloc_ok O cexp x true Hx) as (fb & E2 & _).
  destruct (alloc_ok O cexp y false Hy) as (mf & E3 & _). destruct (alloc_ok O cexp y true Hy) as (mb & E4 & _).
  destruct (alloc_ok O cexp z false Hz) as (sf & E5 & _). destruct (alloc_ok O cexp z true Hz) as (sb & E6 & _).
  rewrite E1, E2. cbn [bind]. unfold plan_for.
  destruct (Z.eqb_spec y x); destruct (Z.eqb_spec z x); try destruct (Z.eqb_spec z y); subst; rewrite ?E3, ?E4, ?E5, ?E6; cbn [bind];
    eexists; (split; [reflexivity|]); cbn [pl_ff pl_fb pl_mf pl_mb pl_sf pl_sb]; repeat split; first [assumption | lia | congruence].
Qed.
