(** PackTop.v : the packing routines against an address-level specification. *)

From Verif Require Import Base Pack3d Pack3dProofs Pack2d Pack2dProofs RemapInst.

(** ** specification
    Index (s,m,x,q): slow, mid, fast, component.  [moves_exactly]: element [i] of
    the index set goes from [src[src_at i]] to [dst[dst_at i]], everything else stays. *)
Definition idx := (Z * Z * Z * Z)%type.
Definition box_idx (ns nm nx nq : Z) (i : idx) : Prop :=
  let '(s, m, x, q) := i in 0 <= s < ns /\ 0 <= m < nm /\ 0 <= x < nx /\ 0 <= q < nq.

Definition moves_exactly {A} (I : idx -> Prop) (dst_at src_at : idx -> Z) (src dst dst' : list A) : Prop :=
  zlen dst' = zlen dst /\
  (forall i, I i -> zget dst' (dst_at i) = zget src (src_at i)) /\
  (forall a, (forall i, I i -> dst_at i <> a) -> zget dst' a = zget dst a).

Definition in_bounds {A} (I : idx -> Prop) (at_ : idx -> Z) (l : list A) : Prop := forall i, I i -> 0 <= at_ i < zlen l.
Definition apart (I : idx -> Prop) (at_ : idx -> Z) : Prop := forall i i', I i -> I i' -> at_ i = at_ i' -> i = i'.

(** addresses: the contiguous message and the strided array without / with permutation *)
Definition msg_at (b0 nm nx nq : Z) (i : idx) : Z := let '(s, m, x, q) := i in b0 + (((s * nm + m) * nx + x) * nq + q).
Definition arr_at (d0 ps pm px pq : Z) (i : idx) : Z := let '(s, m, x, q) := i in d0 + (s * ps + m * pm + x * px + q * pq).

(** a routine f (dst, src) moves the box exactly whenever the addresses are legal *)
Definition mover {A} (f : list A -> list A -> option (list A)) (I : idx -> Prop) (dst_at src_at : idx -> Z) (dst src : list A) : Prop :=
  in_bounds I dst_at dst -> in_bounds I src_at src -> apart I dst_at ->
  exists dst', f dst src = Some dst' /\ moves_exactly I dst_at src_at src dst dst'.

(** ** proofs *)
Section Gen.
Context {A : Type}.
Variables (ns nm nx nq : Z).
Hypothesis Hs : 0 <= ns. Hypothesis Hm : 0 <= nm. Hypothesis Hx : 0 <= nx. Hypothesis Hq : 0 <= nq.
Let I := box_idx ns nm nx nq.
Definition idxs : list idx := els ns nm nx nq (fun s m x q => (s, m, x, q)).

Lemma In_idxs i : In i idxs <-> I i.
Proof.
  unfold idxs. rewrite In_els. destruct i as [[[s m] x] q]. unfold I, box_idx. split.
  - intros (s' & m' & x' & q' & H1 & H2 & H3 & H4 & [= -> -> -> ->]). tauto.
  - intros (H1 & H2 & H3 & H4). exists s, m, x, q. tauto.
Qed.

Lemma copies_mover (dst src : list A) dst_at src_at ps :
  ps = map (fun i => (dst_at i, src_at i)) idxs ->
  mover (fun dst src => copies src ps dst) I dst_at src_at dst src.
Proof.
  intros -> Hd Hsrc Ha.
  assert (ND : NoDup (map fst (map (fun i => (dst_at i, src_at i)) idxs))).
  { rewrite map_map. cbn. assert (N : NoDup idxs) by (apply els_NoDup; try assumption; intros; repeat split; congruence).
    revert N. assert (G : forall i, In i idxs -> I i) by (intros i; apply In_idxs). revert G. generalize idxs.
    induction l as [|i l IH]; intros G N; cbn; constructor; inversion N; subst.
    - intros Hc. apply in_map_iff in Hc as (j & E & Hj). apply Ha in E; [subst; contradiction| |]; apply G; [right; exact Hj|left; reflexivity].
    - apply IH; auto. intros; apply G; right; assumption. }
  destruct (copies_Some src (map (fun i => (dst_at i, src_at i)) idxs) dst) as (dst' & E).
  { intros d s H. apply in_map_iff in H as (i & [= <- <-] & Hi). apply In_idxs in Hi. split; [apply Hd|apply Hsrc]; exact Hi. }
  exists dst'. split; [exact E|]. split; [|split].
  - eapply copies_len; eassumption.
  - intros i Hi. eapply copies_hit; [eassumption|exact ND|]. apply in_map_iff. exists i. split; [reflexivity|]. apply In_idxs, Hi.
  - intros a Ha'. eapply copies_other; [eassumption|]. rewrite map_map. cbn. intros Hc. apply in_map_iff in Hc as (i & <- & Hi).
    apply (Ha' i); [apply In_idxs, Hi|reflexivity].
Qed.

Lemma msg_apart b0 : apart I (msg_at b0 nm nx nq).
Proof.
  intros [[[s m] x] q] [[[s' m'] x'] q'] (H1 & H2 & H3 & H4) (H1' & H2' & H3' & H4') E. unfold msg_at in E.
  destruct (radix3 ((s * nm + m) * nx + x) 0 q ((s' * nm + m') * nx + x') 0 q' 1 nq) as (E1 & _ & ->); try lia.
  destruct (radix3 s m x s' m' x' nm nx) as (-> & -> & ->); try lia. reflexivity.
Qed.
End Gen.

Lemma mk_mover {A} ns nm nx nq (f : list A -> list A -> option (list A)) ps (h : idx -> Z * Z) dst_at src_at dst src :
  0 <= ns -> 0 <= nm -> 0 <= nx -> 0 <= nq ->
  f dst src = copies src ps dst -> ps = map h (idxs ns nm nx nq) ->
  (forall i, box_idx ns nm nx nq i -> h i = (dst_at i, src_at i)) ->
  mover f (box_idx ns nm nx nq) dst_at src_at dst src.
Proof.
  intros Hs Hm Hx Hq E1 E2 E3 B1 B2 HA.
  destruct (copies_mover ns nm nx nq Hs Hm Hx Hq dst src dst_at src_at ps) as (dst' & E & M); try assumption.
  - rewrite E2. apply map_ext_in. intros i Hi. apply E3. apply In_idxs in Hi; assumption.
  - exists dst'. split; [|exact M]. rewrite E1. exact E.
Qed.

Section R3.
Context {A : Type}.
Implicit Types (data buf : list A).

(** families of routines that must behave the same *)
Definition packs3 : list (list A -> Z -> list A -> Z -> pack_plan_3d -> option (list A)) := [pack_3d_array; pack_3d_pointer; pack_3d_memcpy].
Definition unpacks3 : list (list A -> Z -> list A -> Z -> pack_plan_3d -> option (list A)) := [unpack_3d_array; unpack_3d_pointer; unpack_3d_memcpy].
Definition permute1_3 (nq : Z) : list (list A -> Z -> list A -> Z -> pack_plan_3d -> option (list A)) :=
  [unpack_3d_permute1_n_array; unpack_3d_permute1_n_pointer; unpack_3d_permute1_n_memcpy] ++
  (if nq =? 1 then [unpack_3d_permute1_1_array; unpack_3d_permute1_1_pointer; unpack_3d_permute1_1_memcpy] else []) ++
  (if nq =? 2 then [unpack_3d_permute1_2_array; unpack_3d_permute1_2_pointer; unpack_3d_permute1_2_memcpy] else []).
Definition permute2_3 (nq : Z) : list (list A -> Z -> list A -> Z -> pack_plan_3d -> option (list A)) :=
  [unpack_3d_permute2_n_array; unpack_3d_permute2_n_pointer; unpack_3d_permute2_n_memcpy] ++
  (if nq =? 1 then [unpack_3d_permute2_1_array; unpack_3d_permute2_1_pointer; unpack_3d_permute2_1_memcpy] else []) ++
  (if nq =? 2 then [unpack_3d_permute2_2_array; unpack_3d_permute2_2_pointer; unpack_3d_permute2_2_memcpy] else []).

Lemma packs3_eq f data d0 buf b0 pl : In f packs3 -> wfp pl -> f data d0 buf b0 pl = copies data (pairs_pack pl d0 b0) buf.
Proof. intros [<- | [<- | [<- | []]]] H; auto using pack_3d_array_ok, pack_3d_pointer_ok, pack_3d_memcpy_ok. Qed.
Lemma unpacks3_eq f data d0 buf b0 pl : In f unpacks3 -> wfp pl -> f buf b0 data d0 pl = copies buf (pairs_unpack pl d0 b0) data.
Proof. intros [<- | [<- | [<- | []]]] H; auto using unpack_3d_array_ok, unpack_3d_pointer_ok, unpack_3d_memcpy_ok. Qed.
Lemma permute1_eq f data d0 buf b0 pl : In f (permute1_3 (nqty pl)) -> wfp pl -> 0 <= nqty pl -> 0 < nstride_plane pl ->
  f buf b0 data d0 pl = copies buf (pairs_unpackP addr1 (nqty pl) pl d0 b0) data.
Proof.
  unfold permute1_3. rewrite !in_app_iff. intros [[<- | [<- | [<- | []]]] | [H | H]] Hw Hq Hp;
    auto using unpack_3d_permute1_n_array_ok, unpack_3d_permute1_n_pointer_ok, unpack_3d_permute1_n_memcpy_ok.
  - destruct (Z.eqb_spec (nqty pl) 1) as [E|]; [|destruct H]. destruct H as [<- | [<- | [<- | []]]];
      auto using unpack_3d_permute1_1_array_ok, unpack_3d_permute1_1_pointer_ok, unpack_3d_permute1_1_memcpy_ok.
  - destruct (Z.eqb_spec (nqty pl) 2) as [E|]; [|destruct H]. destruct H as [<- | [<- | [<- | []]]];
      auto using unpack_3d_permute1_2_array_ok, unpack_3d_permute1_2_pointer_ok, unpack_3d_permute1_2_memcpy_ok.
Qed.
Lemma permute2_eq f data d0 buf b0 pl : In f (permute2_3 (nqty pl)) -> wfp pl -> 0 <= nqty pl -> 0 < nstride_line pl ->
  f buf b0 data d0 pl = copies buf (pairs_unpackP addr2 (nqty pl) pl d0 b0) data.
Proof.
  unfold permute2_3. rewrite !in_app_iff. intros [[<- | [<- | [<- | []]]] | [H | H]] Hw Hq Hp;
    auto using unpack_3d_permute2_n_array_ok, unpack_3d_permute2_n_pointer_ok, unpack_3d_permute2_n_memcpy_ok.
  - destruct (Z.eqb_spec (nqty pl) 1) as [E|]; [|destruct H]. destruct H as [<- | [<- | [<- | []]]];
      auto using unpack_3d_permute2_1_array_ok, unpack_3d_permute2_1_pointer_ok, unpack_3d_permute2_1_memcpy_ok.
  - destruct (Z.eqb_spec (nqty pl) 2) as [E|]; [|destruct H]. destruct H as [<- | [<- | [<- | []]]];
      auto using unpack_3d_permute2_2_array_ok, unpack_3d_permute2_2_pointer_ok, unpack_3d_permute2_2_memcpy_ok.
Qed.

Lemma pairs_idxs1 {B} ns nm nx (h : Z -> Z -> Z -> B) :
  flat3 ns nm nx (fun s m x => [h s m x]) = map (fun '(s, m, x, _) => h s m x) (idxs ns nm nx 1).
Proof.
  unfold idxs, els. rewrite map_flat3. unfold flat3. apply flat_map_ext. intros s. apply flat_map_ext. intros m. apply flat_map_ext. intros x.
  reflexivity.
Qed.
Lemma pairs_idxsq {B} ns nm nx nq (h : Z -> Z -> Z -> Z -> B) :
  flat3 ns nm nx (fun s m x => map (h s m x) (zrange nq)) = map (fun '(s, m, x, q) => h s m x q) (idxs ns nm nx nq).
Proof.
  unfold idxs, els. rewrite map_flat3. unfold flat3. apply flat_map_ext. intros s. apply flat_map_ext. intros m. apply flat_map_ext. intros x.
  rewrite map_map. reflexivity.
Qed.

Theorem pack3_moves f data d0 buf b0 pl : In f packs3 -> wfp pl ->
  mover (fun buf data => f data d0 buf b0 pl) (box_idx (nslow pl) (nmid pl) (nfast pl) 1)
    (msg_at b0 (nmid pl) (nfast pl) 1) (arr_at d0 (nstride_plane pl) (nstride_line pl) 1 1) buf data.
Proof.
  intros Hf Hw. destruct Hw as (W1 & W2 & W3).
  eapply (mk_mover (nslow pl) (nmid pl) (nfast pl) 1); [exact W3|exact W2|exact W1|lia|apply (packs3_eq f data d0 buf b0 pl Hf); repeat split; assumption|unfold pairs_pack, pairs_unpack, pairs_unpackP; cbn [nslow nmid nfast up0 up1]; apply pairs_idxs1|].
  intros [[[s m] x] q] (_ & _ & _ & H4). unfold msg_at, arr_at, slot3, addr0.  f_equal; lia.
Qed.

Theorem unpack3_moves f data d0 buf b0 pl : In f unpacks3 -> wfp pl ->
  mover (fun data buf => f buf b0 data d0 pl) (box_idx (nslow pl) (nmid pl) (nfast pl) 1)
    (arr_at d0 (nstride_plane pl) (nstride_line pl) 1 1) (msg_at b0 (nmid pl) (nfast pl) 1) data buf.
Proof.
  intros Hf Hw. destruct Hw as (W1 & W2 & W3).
  eapply (mk_mover (nslow pl) (nmid pl) (nfast pl) 1); [exact W3|exact W2|exact W1|lia|apply (unpacks3_eq f data d0 buf b0 pl Hf); repeat split; assumption|unfold pairs_pack, pairs_unpack, pairs_unpackP; cbn [nslow nmid nfast up0 up1]; apply pairs_idxs1|].
  intros [[[s m] x] q] (_ & _ & _ & H4). unfold msg_at, arr_at, slot3, addr0.  f_equal; lia.
Qed.

Theorem permute1_moves f data d0 buf b0 pl : In f (permute1_3 (nqty pl)) -> wfp pl -> 0 <= nqty pl -> 0 < nstride_plane pl ->
  mover (fun data buf => f buf b0 data d0 pl) (box_idx (nslow pl) (nmid pl) (nfast pl) (nqty pl))
    (arr_at d0 (nstride_line pl) (nqty pl) (nstride_plane pl) 1) (msg_at b0 (nmid pl) (nfast pl) (nqty pl)) data buf.
Proof.
  intros Hf Hw Hq Hp. destruct Hw as (W1 & W2 & W3).
  eapply (mk_mover (nslow pl) (nmid pl) (nfast pl) (nqty pl)); [exact W3|exact W2|exact W1|exact Hq|apply (permute1_eq f data d0 buf b0 pl Hf); try assumption; repeat split; assumption|unfold pairs_pack, pairs_unpack, pairs_unpackP; cbn [nslow nmid nfast up0 up1]; apply pairs_idxsq|].
  intros [[[s m] x] q] (_ & _ & _ & H4). unfold msg_at, arr_at, slot3, addr1.  f_equal; lia.
Qed.

Theorem permute2_moves f data d0 buf b0 pl : In f (permute2_3 (nqty pl)) -> wfp pl -> 0 <= nqty pl -> 0 < nstride_line pl ->
  mover (fun data buf => f buf b0 data d0 pl) (box_idx (nslow pl) (nmid pl) (nfast pl) (nqty pl))
    (arr_at d0 (nqty pl) (nstride_plane pl) (nstride_line pl) 1) (msg_at b0 (nmid pl) (nfast pl) (nqty pl)) data buf.
Proof.
  intros Hf Hw Hq Hp. destruct Hw as (W1 & W2 & W3).
  eapply (mk_mover (nslow pl) (nmid pl) (nfast pl) (nqty pl)); [exact W3|exact W2|exact W1|exact Hq|apply (permute2_eq f data d0 buf b0 pl Hf); try assumption; repeat split; assumption|unfold pairs_pack, pairs_unpack, pairs_unpackP; cbn [nslow nmid nfast up0 up1]; apply pairs_idxsq|].
  intros [[[s m] x] q] (_ & _ & _ & H4). unfold msg_at, arr_at, slot3, addr2. f_equal; lia.
Qed.

(** ** 2d *)
Definition packs2 (esize : Z) : list (list A -> Z -> list A -> Z -> pack_plan_2d -> option (list A)) :=
  [pack_2d_array; pack_2d_pointer; pack_2d_memcpy esize].
Definition unpacks2 (esize : Z) : list (list A -> Z -> list A -> Z -> pack_plan_2d -> option (list A)) :=
  [unpack_2d_array; unpack_2d_pointer; unpack_2d_memcpy esize].
Definition permute_2 (nq : Z) : list (list A -> Z -> list A -> Z -> pack_plan_2d -> option (list A)) :=
  [unpack_2d_permute_n_array; unpack_2d_permute_n_pointer; unpack_2d_permute_n_memcpy] ++
  (if nq =? 1 then [unpack_2d_permute_1_array; unpack_2d_permute_1_pointer; unpack_2d_permute_1_memcpy] else []) ++
  (if nq =? 2 then [unpack_2d_permute_2_array; unpack_2d_permute_2_pointer; unpack_2d_permute_2_memcpy] else []).

Theorem pack2_moves f data d0 buf b0 pl : In f (packs2 8) -> wfp2 pl ->
  mover (fun buf data => f data d0 buf b0 pl) (box_idx (nslow2 pl) 1 (nfast2 pl) 1)
    (msg_at b0 1 (nfast2 pl) 1) (arr_at d0 (nstride2 pl) 0 1 1) buf data.
Proof.
  intros Hf Hw.
  assert (E : f data d0 buf b0 pl = copies data (pairs_pack (up0 pl) d0 b0) buf).
  { destruct Hf as [<- | [<- | [<- | []]]]; auto using pack_2d_array_ok, pack_2d_pointer_ok, pack_2d_memcpy_ok. }
  destruct (up0_wf pl Hw) as (W1 & W2 & W3).
  eapply (mk_mover (nslow2 pl) 1 (nfast2 pl) 1); [exact W3|exact W2|exact W1|lia|exact E|unfold pairs_pack, pairs_unpack, pairs_unpackP; cbn [nslow nmid nfast up0 up1]; apply pairs_idxs1|].
  intros [[[s m] x] q] (_ & _ & _ & H4). unfold msg_at, arr_at, slot3, addr0. cbn [nstride_line nstride_plane up0].  f_equal; lia.
Qed.

Theorem unpack2_moves f data d0 buf b0 pl : In f (unpacks2 8) -> wfp2 pl ->
  mover (fun data buf => f buf b0 data d0 pl) (box_idx (nslow2 pl) 1 (nfast2 pl) 1)
    (arr_at d0 (nstride2 pl) 0 1 1) (msg_at b0 1 (nfast2 pl) 1) data buf.
Proof.
  intros Hf Hw.
  assert (E : f buf b0 data d0 pl = copies buf (pairs_unpack (up0 pl) d0 b0) data).
  { destruct Hf as [<- | [<- | [<- | []]]]; auto using unpack_2d_array_ok, unpack_2d_pointer_ok, unpack_2d_memcpy_ok. }
  destruct (up0_wf pl Hw) as (W1 & W2 & W3).
  eapply (mk_mover (nslow2 pl) 1 (nfast2 pl) 1); [exact W3|exact W2|exact W1|lia|exact E|unfold pairs_pack, pairs_unpack, pairs_unpackP; cbn [nslow nmid nfast up0 up1]; apply pairs_idxs1|].
  intros [[[s m] x] q] (_ & _ & _ & H4). unfold msg_at, arr_at, slot3, addr0. cbn [nstride_line nstride_plane up0].  f_equal; lia.
Qed.

Theorem permute2d_moves f data d0 buf b0 pl : In f (permute_2 (nqty2 pl)) -> wfp2 pl -> 0 <= nqty2 pl -> 0 < nstride2 pl ->
  mover (fun data buf => f buf b0 data d0 pl) (box_idx (nslow2 pl) 1 (nfast2 pl) (nqty2 pl))
    (arr_at d0 (nqty2 pl) 0 (nstride2 pl) 1) (msg_at b0 1 (nfast2 pl) (nqty2 pl)) data buf.
Proof.
  intros Hf Hw Hq Hp.
  assert (E : f buf b0 data d0 pl = copies buf (pairs_unpackP addr2 (nqty2 pl) (up1 pl) d0 b0) data).
  { unfold permute_2 in Hf. rewrite !in_app_iff in Hf. change (nqty2 pl) with (nqty (up1 pl)) in |- *.
    destruct Hf as [[<- | [<- | [<- | []]]] | [H | H]];
      auto using unpack_2d_permute_n_array_ok, unpack_2d_permute_n_pointer_ok, unpack_2d_permute_n_memcpy_ok.
    - destruct (Z.eqb_spec (nqty2 pl) 1) as [E|]; [|destruct H]. destruct H as [<- | [<- | [<- | []]]];
        auto using unpack_2d_permute_1_array_ok, unpack_2d_permute_1_pointer_ok, unpack_2d_permute_1_memcpy_ok.
    - destruct (Z.eqb_spec (nqty2 pl) 2) as [E|]; [|destruct H]. destruct H as [<- | [<- | [<- | []]]];
        auto using unpack_2d_permute_2_array_ok, unpack_2d_permute_2_pointer_ok, unpack_2d_permute_2_memcpy_ok. }
  destruct (up1_wf pl Hw) as (W1 & W2 & W3).
  eapply (mk_mover (nslow2 pl) 1 (nfast2 pl) (nqty2 pl)); [exact W3|exact W2|exact W1|exact Hq|exact E|unfold pairs_pack, pairs_unpack, pairs_unpackP; cbn [nslow nmid nfast up0 up1]; apply pairs_idxsq|].
  intros [[[s m] x] q] (_ & H2 & _ & H4). assert (m = 0) by lia. subst m. unfold msg_at, arr_at, slot3, addr2. cbn [nstride_line nstride_plane nqty up1]. f_equal; lia.
Qed.

End R3.
