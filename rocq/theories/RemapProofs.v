(** RemapProofs.v : the remap programs of Remap.v deliver every element, in every
    mode, for every schedule.  Generic in the 3d/2d formulas; what is required of
    them is the record [rspec]. *)

From Verif Require Import Base Pack3dProofs Sched SchedProofs MemProofs Phases Remap RemapPlan.

(** ** numbered lists and address lists *)
Section Enum.
Context {E : Type}.
Definition enum (l : list E) : list (Z * E) := combine (zrange (zlen l)) l.

Lemma enum_from_In (l : list E) b k e :
  In (k, e) (combine (zseq b (length l)) l) <-> b <= k /\ zget l (k - b) = Some e.
Proof.
  revert b. induction l as [|x l IH]; intros b; cbn [length zseq combine].
  - cbn. split; [intros []|]. intros (_ & H). apply zget_inv in H. unfold zlen in H; cbn in H. lia.
  - cbn [In]. rewrite IH, zget_cons. split.
    + intros [H|(H1 & H2)].
      * injection H as -> ->. rewrite Z.sub_diag. cbn. split; [lia|reflexivity].
      * destruct (Z.eqb_spec (k - b) 0); [lia|]. split; [lia|]. rewrite <- H2. f_equal. lia.
    + intros (H1 & H2). destruct (Z.eqb_spec (k - b) 0).
      * left. injection H2 as ->. f_equal. lia.
      * right. split; [lia|]. rewrite <- H2. f_equal. lia.
Qed.

Lemma enum_In (l : list E) k e : In (k, e) (enum l) <-> zget l k = Some e.
Proof.
  unfold enum, zrange, zlen. rewrite Nat2Z.id, enum_from_In, Z.sub_0_r. split; [tauto|].
  intros H. split; [|exact H]. apply zget_inv in H. lia.
Qed.

Lemma map_snd_enum (l : list E) : map snd (enum l) = l.
Proof.
  unfold enum, zrange, zlen. rewrite Nat2Z.id. generalize 0. induction l as [|x l IH]; intros b; cbn; [reflexivity|].
  f_equal. apply IH.
Qed.
Lemma map_fst_enum (l : list E) : map fst (enum l) = zrange (zlen l).
Proof.
  unfold enum, zrange, zlen. rewrite Nat2Z.id. generalize 0. induction l as [|x l IH]; intros b; cbn; [reflexivity|].
  f_equal. apply IH.
Qed.

(** pack: cell [f e] to consecutive cells from [b0]; unpack: the converse *)
Definition ppairs (b0 : Z) (f : E -> Z) (l : list E) : list (Z * Z) := map (fun '(k, e) => (b0 + k, f e)) (enum l).
Definition upairs (b0 : Z) (f : E -> Z) (l : list E) : list (Z * Z) := map (fun '(k, e) => (f e, b0 + k)) (enum l).

Lemma ppairs_In b0 f l d s : In (d, s) (ppairs b0 f l) <-> exists e, zget l (d - b0) = Some e /\ s = f e.
Proof.
  unfold ppairs. rewrite in_map_iff. split.
  - intros ([k e] & H & Hin). injection H as <- <-. apply enum_In in Hin. exists e. split; [|reflexivity].
    rewrite <- Hin. f_equal. lia.
  - intros (e & H & ->). exists (d - b0, e). split; [f_equal; lia|]. apply enum_In, H.
Qed.
Lemma upairs_In b0 f l d s : In (d, s) (upairs b0 f l) <-> exists e, zget l (s - b0) = Some e /\ d = f e.
Proof.
  unfold upairs. rewrite in_map_iff. split.
  - intros ([k e] & H & Hin). injection H as <- <-. apply enum_In in Hin. exists e. split; [|reflexivity].
    rewrite <- Hin. f_equal. lia.
  - intros (e & H & ->). exists (s - b0, e). split; [f_equal; lia|]. apply enum_In, H.
Qed.

Lemma upairs_fst b0 f l : map fst (upairs b0 f l) = map f l.
Proof.
  unfold upairs. rewrite map_map. rewrite <- (map_snd_enum l) at 2. rewrite map_map. apply map_ext. intros [k e]. reflexivity.
Qed.

Lemma ppairs_dst b0 f l a : In a (map fst (ppairs b0 f l)) <-> b0 <= a < b0 + zlen l.
Proof.
  rewrite in_map_iff. split.
  - intros ([d s] & <- & H). apply ppairs_In in H as (e & H & _). apply zget_inv in H. cbn. lia.
  - intros H. destruct (zget_Some l (a - b0)) as [e He]; [lia|]. exists (a, f e). split; [reflexivity|].
    apply ppairs_In. eauto.
Qed.

Lemma ppairs_NoDup b0 f l : NoDup (map fst (ppairs b0 f l)).
Proof.
  unfold ppairs. rewrite map_map.
  rewrite (map_ext _ (fun ke => b0 + fst ke)) by (intros [k e]; reflexivity).
  rewrite <- (map_map fst (fun k => b0 + k)), map_fst_enum.
  apply FinFun.Injective_map_NoDup; [|apply zrange_NoDup]. intros x y H. lia.
Qed.

Context {A : Type}.
Lemma ppairs_slice b0 f l (G : E -> A) data buf buf' :
  copies data (ppairs b0 f l) buf = Some buf' -> (forall e, In e l -> zget data (f e) = Some (G e)) ->
  zslice buf' b0 (zlen l) = Some (map G l).
Proof.
  intros H Hd. rewrite <- (zlen_map G l). apply zslice_intro. intros k Hk. rewrite zlen_map in Hk.
  destruct (zget_Some l k Hk) as [e He].
  rewrite (copies_hit _ _ _ _ (b0 + k) (f e) H (ppairs_NoDup _ _ _)).
  - rewrite Hd by (eapply zget_In; eauto). rewrite zget_map, He. reflexivity.
  - apply ppairs_In. exists e. split; [|reflexivity]. rewrite <- He. f_equal. lia.
Qed.

Lemma ppairs_Some b0 f l (G : E -> A) (data buf : list A) :
  (forall e, In e l -> zget data (f e) = Some (G e)) -> 0 <= b0 -> b0 + zlen l <= zlen buf ->
  exists buf', copies data (ppairs b0 f l) buf = Some buf'.
Proof.
  intros Hd Hb Hl. apply copies_Some. intros d s Hin. apply ppairs_In in Hin as (e & He & ->).
  split; [apply zget_inv in He; lia|]. apply zget_In in He. apply Hd in He. apply zget_inv in He. exact He.
Qed.
End Enum.

(** ** what the formulas have to satisfy *)
Record rspec {A ext plan} (o : rops A ext plan) {E : Type} (elems : ext -> list E) (inbx : E -> ext -> Prop)
    (ain aout : ext -> E -> Z) : Prop := mkrspec {
  sp_sym : forall a b, o_collide o a b = o_collide o b a;
  sp_nodup : forall b, NoDup (elems b);
  sp_mem : forall b e, In e (elems b) <-> inbx e b;
  sp_len : forall a b ov, o_collide o a b = Some ov -> zlen (elems ov) = o_size o ov;
  sp_none : forall a b e, o_collide o a b = None -> inbx e a -> inbx e b -> False;
  sp_some : forall a b ov e, o_collide o a b = Some ov -> (inbx e ov <-> inbx e a /\ inbx e b);
  sp_pack : forall a b ov data buf b0, o_collide o a b = Some ov ->
     o_pack o data (o_soff o a ov) buf b0 (o_splan o a ov) = copies data (ppairs b0 (ain a) (elems ov)) buf;
  sp_unpack : forall a b ov data buf b0, o_collide o a b = Some ov ->
     o_unpack o buf b0 data (o_roff o a ov) (o_rplan o a ov) = copies buf (upairs b0 (aout a) (elems ov)) data;
  sp_inj : forall b e e', inbx e b -> inbx e' b -> aout b e = aout b e' -> e = e';
  sp_aout : forall b e, inbx e b -> 0 <= aout b e < o_outvol o b;
  sp_outvol : forall b e, inbx e b -> zlen (elems b) = o_outvol o b
}.

(** ** well-formedness of point-to-point code *)
Section Wf.
Context {A : Type}.

Lemma del_spec id (sl : list slot) sl' : del id sl = Some sl' -> NoDup (map (fun x => fst (fst x)) sl) ->
  length sl = S (length sl') /\ incl sl' sl /\ NoDup (map (fun x => fst (fst x)) sl') /\
  In id (map (fun x => fst (fst x)) sl) /\ ~ In id (map (fun x => fst (fst x)) sl').
Proof.
  revert sl'. induction sl as [|x t IH]; intros sl' H ND; cbn in H; [discriminate|].
  cbn [map] in ND. inversion ND as [|? ? Hn ND']; subst.
  destruct (Nat.eqb_spec (fst (fst x)) id) as [<-|Hne].
  - injection H as <-. split; [reflexivity|]. split; [apply incl_tl, incl_refl|]. split; [exact ND'|].
    split; [left; reflexivity|exact Hn].
  - apply bind_Some_inv in H as (t' & Ht & H). injection H as <-.
    destruct (IH _ Ht ND') as (H1 & H2 & H3 & H4 & H5).
    split; [cbn; lia|]. split; [intros y [<-|Hy]; [left; reflexivity|right; apply H2, Hy]|].
    split; [|split; [right; exact H4|]].
    + cbn [map]. constructor; [|exact H3]. intros Hc. apply Hn.
      apply in_map_iff in Hc as (y & Ey & Hy). apply in_map_iff. exists y. split; [exact Ey|apply H2, Hy].
    + cbn. intros [?|?]; auto.
Qed.

Variable recvs : list (nat * nat * Z * Z).
Variable sends : list ((@rmem A -> option (@rmem A)) * nat * Z).
Variable selfs : list (@rmem A -> option (@rmem A)).
Variable h : nat -> @rmem A -> option (@rmem A).

Definition slots_of (l : list (nat * nat * Z * Z)) : list slot := map (fun '(id, _, loc, len) => (id, loc, len)) l.

Hypothesis W_disj : ForallOrdPairs (@slots_disj A) (slots_of recvs).
Hypothesis W_nodup : NoDup (ids_of recvs).
Hypothesis W_send : forall f q len x, In (f, q, len) sends -> In x (slots_of recvs) -> slot_comm x f.
Hypothesis W_self : forall f x, In f selfs -> In x (slots_of recvs) -> slot_comm x f.
Hypothesis W_h : forall id x, In id (ids_of recvs) -> In x (slots_of recvs) -> fst (fst x) <> id -> slot_comm x (h id).
Hypothesis W_hh : forall id id', In id (ids_of recvs) -> In id' (ids_of recvs) -> id <> id' -> commute (h id) (h id').

Lemma slots_ids l : map (fun x : slot => fst (fst x)) (slots_of l) = ids_of l.
Proof. unfold slots_of, ids_of. rewrite map_map. apply map_ext. intros [[[? ?] ?] ?]. reflexivity. Qed.

Lemma wf_waits k sl : length sl = k -> NoDup (map (fun x : slot => fst (fst x)) sl) -> incl sl (slots_of recvs) ->
  wf sl (repeat (IWaitany h) k).
Proof.
  revert sl. induction k as [|k IH]; intros sl Hl ND Hi; cbn [repeat].
  - destruct sl; [constructor|discriminate].
  - constructor.
    + intros ->. discriminate.
    + intros id sl' Hd. destruct (del_spec _ _ _ Hd ND) as (H1 & H2 & H3 & _).
      apply IH; [lia|exact H3|]. intros x Hx. apply Hi, H2, Hx.
    + intros id sl' Hd. destruct (del_spec _ _ _ Hd ND) as (H1 & H2 & H3 & H4 & H5).
      assert (Hid : In id (ids_of recvs)).
      { rewrite <- slots_ids. apply in_map_iff in H4 as (y & <- & Hy). apply in_map_iff. exists y. split; [reflexivity|apply Hi, Hy]. }
      split; [|split].
      * intros x Hx. apply W_h; [exact Hid|apply Hi, H2, Hx|].
        intros E. apply H5. apply in_map_iff. eauto.
      * intros id' sl'' Hne Hd'. destruct (del_spec _ _ _ Hd' H3) as (_ & _ & _ & H6 & _).
        apply W_hh; [exact Hid| |congruence].
        rewrite <- slots_ids. apply in_map_iff in H6 as (y & <- & Hy). apply in_map_iff. exists y. split; [reflexivity|apply Hi, H2, Hy].
      * intros Hne. destruct k; [destruct sl'; [congruence|cbn in H1; lia]|]. cbn. eauto.
Qed.

Lemma wf_p2p_code : wf [] (irecv_code recvs ++ send_code sends ++ map ILocal selfs ++ repeat (IWaitany h) (length recvs)).
Proof.
  assert (H1 : wf (slots_of recvs) (repeat (IWaitany h) (length recvs))).
  { apply wf_waits; [unfold slots_of; apply map_length|rewrite slots_ids; exact W_nodup|apply incl_refl]. }
  assert (H2 : wf (slots_of recvs) (map ILocal selfs ++ repeat (IWaitany h) (length recvs))).
  { revert W_self. clear - H1. induction selfs as [|f t IH]; intros Hs; cbn; [exact H1|].
    constructor; [intros x Hx; apply Hs; [left; reflexivity|exact Hx]|].
    apply IH. intros g x Hg. apply Hs. right; exact Hg. }
  assert (H3 : wf (slots_of recvs) (send_code sends ++ map ILocal selfs ++ repeat (IWaitany h) (length recvs))).
  { revert W_send. clear - H2. induction sends as [|[[f q] len] t IH]; intros Hs; cbn; [exact H2|].
    constructor; [intros x Hx; eapply Hs; [left; reflexivity|exact Hx]|]. constructor.
    apply IH. intros g q' l' x Hg. eapply Hs. right; exact Hg. }
  enough (G : forall done todo, done ++ todo = recvs -> wf (slots_of done) (irecv_code todo ++ send_code sends ++ map ILocal selfs ++ repeat (IWaitany h) (length recvs))).
  { apply (G [] recvs). reflexivity. }
  intros done todo. revert done. induction todo as [|[[[id src] loc] len] t IH]; intros done Hdt.
  - rewrite app_nil_r in Hdt. subst done. exact H3.
  - cbn [irecv_code map app]. constructor.
    + intros x Hx. clear IH. subst recvs. clear - W_disj Hx.
      induction done as [|d done IHd]; [destruct Hx|]. cbn in W_disj. inversion W_disj as [|? ? Hf Hr]; subst.
      destruct Hx as [<-|Hx]; [|apply IHd; auto].
      rewrite Forall_forall in Hf. destruct d as [[[a b] c] e]. apply Hf.
      unfold slots_of. rewrite map_app. apply in_app_iff. right. left. reflexivity.
    + specialize (IH (done ++ [(id, src, loc, len)])). rewrite <- app_assoc in IH. specialize (IH Hdt).
      unfold slots_of in IH at 1. rewrite map_app in IH. exact IH.
Qed.
End Wf.
