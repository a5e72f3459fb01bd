(** Pack32Proofs2.v : the 2d routines of Pack32.v. *)

From Verif Require Import Base Pack3d Pack3dProofs Pack2d Pack2dProofs Layout Wrap Overflow OverflowProofs Pack32 Pack32Proofs.
Local Open Scope Z_scope.



Section Array2.
Context {A : Type}.
Implicit Types (data buf : list A) (pl : pack_plan_2d).

Lemma dims0 pl : plan_ok2 pl -> dims_ok (up0 pl).
Proof. intros H. plan H. unfold dims_ok. cbn. lia. Qed.
Lemma dims1 pl : plan_ok2 pl -> dims_ok (up1 pl).
Proof. intros H. plan H. unfold dims_ok. cbn. lia. Qed.

(** a loop as a nest with one middle index *)
Ltac el1 := let d := fresh "d" in let a := fresh "a" in let b := fresh "b" in intros d a b;
  cbv beta iota; destruct (cp _ _ _ _); cbn [bind]; [rewrite !bind_ev, ?if_and; reflexivity|match goal with |- _ = if ?x then _ else _ => destruct x; reflexivity end].
Ltac ep1 := let E := fresh in intros ? ? ? ? E; cbv beta iota in E; apply bind_Some_inv in E as (? & _ & E); injection E as <-; eexists; reflexivity.
Ltac el2 := let d := fresh "d" in let a := fresh "a" in let b := fresh "b" in intros d a b;
  cbv beta iota; destruct (cp _ _ _ _); cbn [bind];
  [rewrite !bind_ev; unfold k2; destruct (safeb (incr b)); [|reflexivity]; destruct (safeb (#a + #1)%I); [|reflexivity];
   cbn [andb]; destruct (cp _ _ _ _); cbn [bind]; [rewrite !bind_ev, ?if_and; reflexivity|destruct (safeb _ && safeb _); reflexivity]
  |match goal with |- _ = if ?x then _ else _ => destruct x; reflexivity end].
Ltac ep2 := let E := fresh in intros ? ? ? ? E; cbv beta iota in E; apply bind_Some_inv in E as (? & _ & E); apply bind_Some_inv in E as (? & _ & E); injection E as <-; eexists; peq.
Ltac eln := let d := fresh "d" in let a := fresh "a" in let b := fresh "b" in intros d a b;
  cbv beta iota; rewrite el_n32, if_bind; unfold kn; rewrite <- if_and;
  match goal with |- (if ?x then _ else _) = _ => destruct x; [|reflexivity] end;
  destruct (for_ _ _ _) as [((? & ?) & ?)|]; cbn [bind]; [rewrite bind_ev; reflexivity|match goal with |- _ = if ?x then _ else _ => destruct x; reflexivity end].
Ltac epn := let E := fresh in intros ? ? ? ? E; cbv beta iota in E; rewrite copies_qn in E by lia; destruct (copies _ _ _); cbn in E; [|discriminate]; injection E as <-; eexists; peq.
Ltac okb := cbv beta; apply safeb_spec; sf; spl; apply small_ok; cbn [den]; rewrite ?Z.mul_1_l in *; first [assumption | unfold small in *; rewrite ?IMX in *; lia].
Ltac pe1 := let E := fresh in intros ? ? ? ? E; cbv beta iota in E; apply bind_Some_inv in E as (? & ?C & E); injection E as <-; apply cp_len in C; eexists; split; [reflexivity|congruence].
Ltac pep := let E := fresh in intros ? ? ? ? E; cbv beta iota in E; apply bind_Some_inv in E as (? & ?C & E); injection E as <-; eexists; split; [reflexivity|auto].
Ltac pe2 := let E := fresh in intros ? ? ? ? E; cbv beta iota in E; apply bind_Some_inv in E as (? & ?C & E); apply bind_Some_inv in E as (? & ?D & E); injection E as <-; apply cp_len in C; apply cp_len in D; eexists; split; [peq|congruence].
Ltac pen := let E := fresh in let C := fresh in intros ? ? ? ? E; cbv beta iota in E; rewrite copies_qn0 in E by lia; destruct (copies _ _ _) eqn:C; cbn in E; [|discriminate]; injection E as <-; apply copies_len in C; eexists; split; [peq|congruence].
Ltac one := let s := fresh "s" in intros s; match goal with |- exists body body', (forall d c, @?o d c = _) /\ (forall d' c', @?o' d' c' = _) /\ _ =>
  exists (fun _ '(d, c) => o d c), (fun _ '(d, c) => o' d c) end; repeat apply conj; [intros; rewrite for_1; reflexivity|intros; rewrite for_1; reflexivity| | ].
Ltac shape2 := one; [intros; reflexivity|intros; cbv beta iota; rewrite bind_ev; reflexivity].
Ltac pshape2 := one; [intros; reflexivity|let H := fresh in intros ? ? ? H; cbv beta iota; rewrite ?H; repeat rewrite ?bind_ev, ?bind_ptr; rewrite ?if_and, <- ?andb_assoc; reflexivity].

Lemma range_p nq pl : plan_ok2 pl -> nqty2 pl = nq -> addr2 (up1 pl) (nslow (up1 pl) - 1) (nmid (up1 pl) - 1) (nfast (up1 pl) - 1) (nq - 1) + 1 <= INT_MAX ->
  nslow (up1 pl) * nmid (up1 pl) * nfast (up1 pl) * nq <= INT_MAX -> in_range (nslow2 pl) 1 (nfast2 pl) nq (nstride2 pl) (fun s _ => nq * s).
Proof. intros Hp Hq Ha Hs. plan Hp. unfold addr2 in Ha. cbn [up1 nslow nmid nfast nqty nstride_line nstride_plane] in *. rewrite Hq in Ha. subst nq. constructor; try lia; nia. Qed.
Lemma range_0 pl : plan_ok2 pl -> addr0 (up0 pl) (nslow (up0 pl) - 1) (nmid (up0 pl) - 1) (nfast (up0 pl) - 1) + 1 <= INT_MAX ->
  nslow (up0 pl) * nmid (up0 pl) * nfast (up0 pl) <= INT_MAX -> in_range (nslow2 pl) 1 (nfast2 pl) 1 1 (fun s _ => s * nstride2 pl).
Proof. intros Hp Ha Hs. plan Hp. unfold addr0 in Ha. cbn [up0 nslow nmid nfast nqty nstride_line nstride_plane] in *. constructor; try (rewrite IMX in *; lia); nia. Qed.
Lemma start_p nq pl s : plan_ok2 pl -> nqty2 pl = nq -> addr2 (up1 pl) (nslow (up1 pl) - 1) (nmid (up1 pl) - 1) (nfast (up1 pl) - 1) (nq - 1) + 1 <= INT_MAX ->
  0 <= s < nslow2 pl -> small s /\ small (nq * s).
Proof.
  intros Hp Hq Ha Hs. plan Hp. unfold addr2 in Ha. cbn [up1 nslow nmid nfast nqty nstride_line nstride_plane] in *. rewrite Hq in *.
  assert (0 <= nq * s <= nq * (nslow2 pl - 1)) by nia. assert (0 <= (nfast2 pl - 1) * nstride2 pl) by nia. unfold small. lia.
Qed.
Lemma start_0 pl s : plan_ok2 pl -> addr0 (up0 pl) (nslow (up0 pl) - 1) (nmid (up0 pl) - 1) (nfast (up0 pl) - 1) + 1 <= INT_MAX ->
  0 <= s < nslow2 pl -> small s /\ small (s * nstride2 pl).
Proof.
  intros Hp Ha Hs. plan Hp. unfold addr0 in Ha. cbn [up0 nslow nmid nfast nqty nstride_line nstride_plane] in *.
  assert (0 <= s * nstride2 pl <= (nslow2 pl - 1) * nstride2 pl) by nia. unfold small. lia.
Qed.

Lemma unpack_2d_permute_1_array32_ok data d0 buf b0 pl : plan_ok2 pl -> nqty2 pl = 1 -> 0 <= d0 -> 0 <= b0 -> zlen data <= INT_MAX -> zlen buf <= INT_MAX ->
  unpack_2d_permute_1_array32 buf b0 data d0 pl =
  if past2 (up1 pl) <=? INT_MAX then copies buf (pairs_unpackP addr2 (nqty (up1 pl)) (up1 pl) d0 b0) data else None.
Proof.
  intros Hp Hq Hd Hb Ld Lb. pose proof Hp as Hp'. plan Hp'.
  eapply comb; [|apply (unpack_2d_permute_1_array_ok data d0 buf b0 pl); [unfold wfp2; lia|assumption]|].
  - unfold unpack_2d_permute_1_array32, unpack_2d_permute_1_array.
    eapply arr_guard with (nm := 1) (nf := nfast2 pl) (mk := fun d a b => (d, a, b)) (ex := fun '(d, _, c) => Some (d, c)) (k3 := k1 (nstride2 pl))
      (start := fun s _ => s) (step := nstride2 pl) (nq := 1) (p := fun _ => true) (q := fun s _ => safeb (#s)%I);
      [lia|lia|reflexivity| | |shape2]; [el1|ep1].
  - intros r E. destruct (unpackP_bounds _ (nqty (up1 pl)) _ _ _ _ _ _ (dims1 pl Hp) ltac:(cbn; lia) Hd Hb Ld Lb E) as (Ha & Hs). cbn [nqty up1] in Ha, Hs. rewrite Hq in Ha, Hs.
    rewrite (arr_value _ _ _ (1) (nstride2 pl)).
    + unfold past2, addr2. cbn [up1 nslow nmid nfast nqty nstride_line nstride_plane]. rewrite ?Hq. f_equal. ring.
    + eapply in_range_ext; [|apply (range_p (1) pl Hp Hq Ha Hs)]. intros; cbv beta; ring.
    + reflexivity.
    + intros s m Hs' Hm'. destruct (start_p (1) pl s Hp Hq Ha Hs') as (S1 & S2). okb.
    + intros. apply k1_value; lia.
Qed.

Lemma unpack_2d_permute_1_pointer32_ok strict data d0 buf b0 pl : plan_ok2 pl -> nqty2 pl = 1 -> 0 <= d0 -> 0 <= b0 -> zlen data <= INT_MAX -> zlen buf <= INT_MAX ->
  unpack_2d_permute_1_pointer32 strict buf b0 data d0 pl =
  if (nfast2 pl * nstride2 pl <=? INT_MAX) && (negb strict || (d0 + past2 (up1 pl) <=? zlen data)) then copies buf (pairs_unpackP addr2 (nqty (up1 pl)) (up1 pl) d0 b0) data else None.
Proof.
  intros Hp Hq Hd Hb Ld Lb. pose proof Hp as Hp'. plan Hp'.
  eapply comb; [|apply (unpack_2d_permute_1_pointer_ok data d0 buf b0 pl); [unfold wfp2; lia|assumption|lia]|].
  - unfold unpack_2d_permute_1_pointer32, unpack_2d_permute_1_pointer.
    eapply ptr_guard with (P := fun d => zlen d = zlen data) (nm := 1) (nf := nfast2 pl) (d0 := d0) (len := nfast2 pl * nstride2 pl)
      (start := fun s _ => s) (step := nstride2 pl) (nq := 1)
      (p := fun _ => true)
      (q := fun s _ => safeb (#s)%I && (ptrb strict (zlen data) (d0 + (s)) && (safeb (#(nfast2 pl) * #(nstride2 pl))%I && ptrb strict (zlen data) (d0 + (s) + nfast2 pl * nstride2 pl))));
      [lia|lia|lia|reflexivity| |pshape2|reflexivity]; pe1.
  - intros r E. destruct (unpackP_bounds _ (nqty (up1 pl)) _ _ _ _ _ _ (dims1 pl Hp) ltac:(cbn; lia) Hd Hb Ld Lb E) as (Ha & Hs). cbn [nqty up1] in Ha, Hs. rewrite Hq in Ha, Hs.
    rewrite (ptr_value _ _ (nfast2 pl) (nstride2 pl) (fun s _ => s) _ _ strict (zlen data) d0).
    + do 2 f_equal. unfold past2, addr2. cbn [up1 nslow nmid nfast nqty nstride_line nstride_plane]. rewrite ?Hq. f_equal. ring.
    + lia.
    + lia.
    + intros s m Hs' Hm'. destruct (range_p (1) pl Hp Hq Ha Hs) as [_ _ _ _ _ _ I7 _ _]. pose proof (I7 s m Hs' Hm') as I. cbv beta in I. lia.
    + reflexivity.
    + intros s m Hs' Hm'. destruct (start_p (1) pl s Hp Hq Ha Hs') as (S1 & S2).
      match goal with |- ?x && _ = _ => replace x with true by (symmetry; okb) end. cbn [andb].
      rewrite safeb_mul by (unfold small; lia). assert (0 <= nfast2 pl * nstride2 pl) by nia.
      rewrite !ptrb_value by (unfold small in *; lia). destruct strict; cbn [negb orb]; unfold small in *; lia.
Qed.

Lemma unpack_2d_permute_2_array32_ok data d0 buf b0 pl : plan_ok2 pl -> nqty2 pl = 2 -> 0 <= d0 -> 0 <= b0 -> zlen data <= INT_MAX -> zlen buf <= INT_MAX ->
  unpack_2d_permute_2_array32 buf b0 data d0 pl =
  if past2 (up1 pl) <=? INT_MAX then copies buf (pairs_unpackP addr2 (nqty (up1 pl)) (up1 pl) d0 b0) data else None.
Proof.
  intros Hp Hq Hd Hb Ld Lb. pose proof Hp as Hp'. plan Hp'.
  eapply comb; [|apply (unpack_2d_permute_2_array_ok data d0 buf b0 pl); [unfold wfp2; lia|assumption]|].
  - unfold unpack_2d_permute_2_array32, unpack_2d_permute_2_array.
    eapply arr_guard with (nm := 1) (nf := nfast2 pl) (mk := fun d a b => (d, a, b)) (ex := fun '(d, _, c) => Some (d, c)) (k3 := k2 (nstride2 pl))
      (start := fun s _ => 2 * s) (step := nstride2 pl) (nq := 2) (p := fun _ => true) (q := fun s _ => safeb (#2 * #s)%I);
      [lia|lia|reflexivity| | |shape2]; [el2|ep2].
  - intros r E. destruct (unpackP_bounds _ (nqty (up1 pl)) _ _ _ _ _ _ (dims1 pl Hp) ltac:(cbn; lia) Hd Hb Ld Lb E) as (Ha & Hs). cbn [nqty up1] in Ha, Hs. rewrite Hq in Ha, Hs.
    rewrite (arr_value _ _ _ (2) (nstride2 pl)).
    + unfold past2, addr2. cbn [up1 nslow nmid nfast nqty nstride_line nstride_plane]. rewrite ?Hq. f_equal. ring.
    + eapply in_range_ext; [|apply (range_p (2) pl Hp Hq Ha Hs)]. intros; cbv beta; ring.
    + reflexivity.
    + intros s m Hs' Hm'. destruct (start_p (2) pl s Hp Hq Ha Hs') as (S1 & S2). okb.
    + intros. apply k2_value; lia.
Qed.

Lemma unpack_2d_permute_2_pointer32_ok strict data d0 buf b0 pl : plan_ok2 pl -> nqty2 pl = 2 -> 0 <= d0 -> 0 <= b0 -> zlen data <= INT_MAX -> zlen buf <= INT_MAX ->
  unpack_2d_permute_2_pointer32 strict buf b0 data d0 pl =
  if (nfast2 pl * nstride2 pl <=? INT_MAX) && (negb strict || (d0 + past2 (up1 pl) <=? zlen data)) then copies buf (pairs_unpackP addr2 (nqty (up1 pl)) (up1 pl) d0 b0) data else None.
Proof.
  intros Hp Hq Hd Hb Ld Lb. pose proof Hp as Hp'. plan Hp'.
  eapply comb; [|apply (unpack_2d_permute_2_pointer_ok data d0 buf b0 pl); [unfold wfp2; lia|assumption|lia]|].
  - unfold unpack_2d_permute_2_pointer32, unpack_2d_permute_2_pointer.
    eapply ptr_guard with (P := fun d => zlen d = zlen data) (nm := 1) (nf := nfast2 pl) (d0 := d0) (len := nfast2 pl * nstride2 pl)
      (start := fun s _ => 2 * s) (step := nstride2 pl) (nq := 2)
      (p := fun _ => true)
      (q := fun s _ => safeb (#2 * #s)%I && (ptrb strict (zlen data) (d0 + (2 * s)) && (safeb (#(nfast2 pl) * #(nstride2 pl))%I && ptrb strict (zlen data) (d0 + (2 * s) + nfast2 pl * nstride2 pl))));
      [lia|lia|lia|reflexivity| |pshape2|reflexivity]; pe2.
  - intros r E. destruct (unpackP_bounds _ (nqty (up1 pl)) _ _ _ _ _ _ (dims1 pl Hp) ltac:(cbn; lia) Hd Hb Ld Lb E) as (Ha & Hs). cbn [nqty up1] in Ha, Hs. rewrite Hq in Ha, Hs.
    rewrite (ptr_value _ _ (nfast2 pl) (nstride2 pl) (fun s _ => 2 * s) _ _ strict (zlen data) d0).
    + do 2 f_equal. unfold past2, addr2. cbn [up1 nslow nmid nfast nqty nstride_line nstride_plane]. rewrite ?Hq. f_equal. ring.
    + lia.
    + lia.
    + intros s m Hs' Hm'. destruct (range_p (2) pl Hp Hq Ha Hs) as [_ _ _ _ _ _ I7 _ _]. pose proof (I7 s m Hs' Hm') as I. cbv beta in I. lia.
    + reflexivity.
    + intros s m Hs' Hm'. destruct (start_p (2) pl s Hp Hq Ha Hs') as (S1 & S2).
      match goal with |- ?x && _ = _ => replace x with true by (symmetry; okb) end. cbn [andb].
      rewrite safeb_mul by (unfold small; lia). assert (0 <= nfast2 pl * nstride2 pl) by nia.
      rewrite !ptrb_value by (unfold small in *; lia). destruct strict; cbn [negb orb]; unfold small in *; lia.
Qed.

Lemma unpack_2d_permute_n_array32_ok data d0 buf b0 pl : plan_ok2 pl -> 0 <= d0 -> 0 <= b0 -> zlen data <= INT_MAX -> zlen buf <= INT_MAX ->
  unpack_2d_permute_n_array32 buf b0 data d0 pl =
  if past2 (up1 pl) <=? INT_MAX then copies buf (pairs_unpackP addr2 (nqty (up1 pl)) (up1 pl) d0 b0) data else None.
Proof.
  intros Hp Hd Hb Ld Lb. pose proof Hp as Hp'. plan Hp'.
  eapply comb; [|apply (unpack_2d_permute_n_array_ok data d0 buf b0 pl); [unfold wfp2; lia|lia]|].
  - unfold unpack_2d_permute_n_array32, unpack_2d_permute_n_array.
    eapply arr_guard with (nm := 1) (nf := nfast2 pl) (mk := fun d a b => (d, a, b)) (ex := fun '(d, _, c) => Some (d, c)) (k3 := kn (nqty2 pl) (nstride2 pl))
      (start := fun s _ => nqty2 pl * s) (step := nstride2 pl) (nq := nqty2 pl) (p := fun _ => true) (q := fun s _ => safeb (#(nqty2 pl) * #s)%I);
      [lia|lia|reflexivity| | |shape2]; [eln|epn].
  - intros r E. destruct (unpackP_bounds _ (nqty (up1 pl)) _ _ _ _ _ _ (dims1 pl Hp) ltac:(cbn; lia) Hd Hb Ld Lb E) as (Ha & Hs). cbn [nqty up1] in Ha, Hs. set (Hq := eq_refl (nqty2 pl)).
    rewrite (arr_value _ _ _ (nqty2 pl) (nstride2 pl)).
    + unfold past2, addr2. cbn [up1 nslow nmid nfast nqty nstride_line nstride_plane].  f_equal. ring.
    + eapply in_range_ext; [|apply (range_p (nqty2 pl) pl Hp Hq Ha Hs)]. intros; cbv beta; ring.
    + reflexivity.
    + intros s m Hs' Hm'. destruct (start_p (nqty2 pl) pl s Hp Hq Ha Hs') as (S1 & S2). okb.
    + intros. apply kn_value; lia.
Qed.

Lemma unpack_2d_permute_n_pointer32_ok strict data d0 buf b0 pl : plan_ok2 pl -> 0 <= d0 -> 0 <= b0 -> zlen data <= INT_MAX -> zlen buf <= INT_MAX ->
  unpack_2d_permute_n_pointer32 strict buf b0 data d0 pl =
  if (nfast2 pl * nstride2 pl <=? INT_MAX) && (negb strict || (d0 + past2 (up1 pl) <=? zlen data)) then copies buf (pairs_unpackP addr2 (nqty (up1 pl)) (up1 pl) d0 b0) data else None.
Proof.
  intros Hp Hd Hb Ld Lb. pose proof Hp as Hp'. plan Hp'.
  eapply comb; [|apply (unpack_2d_permute_n_pointer_ok data d0 buf b0 pl); [unfold wfp2; lia|lia|lia]|].
  - unfold unpack_2d_permute_n_pointer32, unpack_2d_permute_n_pointer.
    eapply ptr_guard with (P := fun d => zlen d = zlen data) (nm := 1) (nf := nfast2 pl) (d0 := d0) (len := nfast2 pl * nstride2 pl)
      (start := fun s _ => nqty2 pl * s) (step := nstride2 pl) (nq := nqty2 pl)
      (p := fun _ => true)
      (q := fun s _ => safeb (#(nqty2 pl) * #s)%I && (ptrb strict (zlen data) (d0 + (nqty2 pl * s)) && (safeb (#(nfast2 pl) * #(nstride2 pl))%I && ptrb strict (zlen data) (d0 + (nqty2 pl * s) + nfast2 pl * nstride2 pl))));
      [lia|lia|lia|reflexivity| |pshape2|reflexivity]; pen.
  - intros r E. destruct (unpackP_bounds _ (nqty (up1 pl)) _ _ _ _ _ _ (dims1 pl Hp) ltac:(cbn; lia) Hd Hb Ld Lb E) as (Ha & Hs). cbn [nqty up1] in Ha, Hs. set (Hq := eq_refl (nqty2 pl)).
    rewrite (ptr_value _ _ (nfast2 pl) (nstride2 pl) (fun s _ => nqty2 pl * s) _ _ strict (zlen data) d0).
    + do 2 f_equal. unfold past2, addr2. cbn [up1 nslow nmid nfast nqty nstride_line nstride_plane].  f_equal. ring.
    + lia.
    + lia.
    + intros s m Hs' Hm'. destruct (range_p (nqty2 pl) pl Hp Hq Ha Hs) as [_ _ _ _ _ _ I7 _ _]. pose proof (I7 s m Hs' Hm') as I. cbv beta in I. lia.
    + reflexivity.
    + intros s m Hs' Hm'. destruct (start_p (nqty2 pl) pl s Hp Hq Ha Hs') as (S1 & S2).
      match goal with |- ?x && _ = _ => replace x with true by (symmetry; okb) end. cbn [andb].
      rewrite safeb_mul by (unfold small; lia). assert (0 <= nfast2 pl * nstride2 pl) by nia.
      rewrite !ptrb_value by (unfold small in *; lia). destruct strict; cbn [negb orb]; unfold small in *; lia.
Qed.

Lemma pack_2d_array32_ok data d0 buf b0 pl : plan_ok2 pl -> 0 <= d0 -> 0 <= b0 -> zlen data <= INT_MAX -> zlen buf <= INT_MAX ->
  pack_2d_array32 data d0 buf b0 pl = copies data (pairs_pack (up0 pl) d0 b0) buf.
Proof.
  intros Hp Hd Hb Ld Lb. pose proof Hp as Hp'. plan Hp'.
  eapply (comb _ _ _ _ true); [|apply (pack_2d_array_ok data d0 buf b0 pl); unfold wfp2; lia|].
  - unfold pack_2d_array32, pack_2d_array.
    eapply arr_guard with (nm := 1) (nf := nfast2 pl) (mk := fun d a b => (d, b, a)) (ex := fun '(d, c, _) => Some (d, c)) (k3 := k1 1)
      (start := fun s _ => s * nstride2 pl) (step := 1) (nq := 1) (p := fun _ => true) (q := fun s _ => safeb (#s * #(nstride2 pl))%I);
      [lia|lia|reflexivity| | |shape2]; [el1|ep1].
  - intros r E. destruct (pack_bounds _ _ _ _ _ _ (dims0 pl Hp) Hd Hb Ld Lb E) as (Ha & Hs).
    assert (Ha' : addr0 (up0 pl) (nslow (up0 pl) - 1) (nmid (up0 pl) - 1) (nfast (up0 pl) - 1) + 1 <= INT_MAX) by lia.
    assert (Hs0 : nslow (up0 pl) * nmid (up0 pl) * nfast (up0 pl) <= INT_MAX) by lia.
    rewrite (arr_value _ _ _ 1 1).
    + unfold addr0 in Ha'. cbn [up0 nslow nmid nfast nqty nstride_line nstride_plane] in Ha'. lia.
    + apply (range_0 pl Hp Ha' Hs0).
    + reflexivity.
    + intros s m Hs' Hm'. destruct (start_0 pl s Hp Ha' Hs') as (S1 & S2). okb.
    + intros. apply k1_value; rewrite ?IMX in *; lia.
Qed.

Lemma unpack_2d_array32_ok data d0 buf b0 pl : plan_ok2 pl -> 0 <= d0 -> 0 <= b0 -> zlen data <= INT_MAX -> zlen buf <= INT_MAX ->
  unpack_2d_array32 buf b0 data d0 pl = copies buf (pairs_unpack (up0 pl) d0 b0) data.
Proof.
  intros Hp Hd Hb Ld Lb. pose proof Hp as Hp'. plan Hp'.
  eapply (comb _ _ _ _ true); [|apply (unpack_2d_array_ok data d0 buf b0 pl); unfold wfp2; lia|].
  - unfold unpack_2d_array32, unpack_2d_array.
    eapply arr_guard with (nm := 1) (nf := nfast2 pl) (mk := fun d a b => (d, a, b)) (ex := fun '(d, _, c) => Some (d, c)) (k3 := k1 1)
      (start := fun s _ => s * nstride2 pl) (step := 1) (nq := 1) (p := fun _ => true) (q := fun s _ => safeb (#s * #(nstride2 pl))%I);
      [lia|lia|reflexivity| | |shape2]; [el1|ep1].
  - intros r E. destruct (unpack_bounds _ _ _ _ _ _ (dims0 pl Hp) Hd Hb Ld Lb E) as (Ha & Hs).
    assert (Ha' : addr0 (up0 pl) (nslow (up0 pl) - 1) (nmid (up0 pl) - 1) (nfast (up0 pl) - 1) + 1 <= INT_MAX) by lia.
    assert (Hs0 : nslow (up0 pl) * nmid (up0 pl) * nfast (up0 pl) <= INT_MAX) by lia.
    rewrite (arr_value _ _ _ 1 1).
    + unfold addr0 in Ha'. cbn [up0 nslow nmid nfast nqty nstride_line nstride_plane] in Ha'. lia.
    + apply (range_0 pl Hp Ha' Hs0).
    + reflexivity.
    + intros s m Hs' Hm'. destruct (start_0 pl s Hp Ha' Hs') as (S1 & S2). okb.
    + intros. apply k1_value; rewrite ?IMX in *; lia.
Qed.

Lemma pack_2d_pointer32_ok strict data d0 buf b0 pl : plan_ok2 pl -> 0 <= d0 -> 0 <= b0 -> zlen data <= INT_MAX -> zlen buf <= INT_MAX ->
  pack_2d_pointer32 strict data d0 buf b0 pl = copies data (pairs_pack (up0 pl) d0 b0) buf.
Proof.
  intros Hp Hd Hb Ld Lb. pose proof Hp as Hp'. plan Hp'.
  eapply (comb _ _ _ _ true); [|apply (pack_2d_pointer_ok data d0 buf b0 pl); unfold wfp2; lia|].
  - unfold pack_2d_pointer32, pack_2d_pointer.
    eapply ptr_guard with (P := fun _ => True) (nm := 1) (nf := nfast2 pl) (d0 := d0) (len := nfast2 pl)
      (start := fun s _ => s * nstride2 pl) (step := 1) (nq := 1) (p := fun _ => true)
      (q := fun s _ => safeb (#s * #(nstride2 pl))%I && (ptrb strict (zlen data) (d0 + (s * nstride2 pl)) && ptrb strict (zlen data) (d0 + (s * nstride2 pl) + nfast2 pl)));
      [lia|lia|lia|lia| |pshape2|auto]; pep.
  - intros r E. destruct (pack_bounds _ _ _ _ _ _ (dims0 pl Hp) Hd Hb Ld Lb E) as (Ha & Hs).
    assert (Ha' : addr0 (up0 pl) (nslow (up0 pl) - 1) (nmid (up0 pl) - 1) (nfast (up0 pl) - 1) + 1 <= INT_MAX) by lia.
    apply forallb_forall. intros s Hs'. apply In_zrange in Hs'. apply andb_true_intro. split; [reflexivity|].
    apply forallb_forall. intros m Hm'. destruct (start_0 pl s Hp Ha' Hs') as (S1 & S2).
    match goal with |- ?x && _ = _ => replace x with true by (symmetry; okb) end. cbn [andb]. unfold addr0 in Ha. cbn [up0 nslow nmid nfast nqty nstride_line nstride_plane] in Ha.
    assert (s * nstride2 pl <= (nslow2 pl - 1) * nstride2 pl) by nia.
    rewrite !ptrb_value by (unfold small in *; lia). destruct strict; cbn [negb orb]; unfold small in *; lia.
Qed.

Lemma unpack_2d_pointer32_ok strict data d0 buf b0 pl : plan_ok2 pl -> 0 <= d0 -> 0 <= b0 -> zlen data <= INT_MAX -> zlen buf <= INT_MAX ->
  unpack_2d_pointer32 strict buf b0 data d0 pl = copies buf (pairs_unpack (up0 pl) d0 b0) data.
Proof.
  intros Hp Hd Hb Ld Lb. pose proof Hp as Hp'. plan Hp'.
  eapply (comb _ _ _ _ true); [|apply (unpack_2d_pointer_ok data d0 buf b0 pl); unfold wfp2; lia|].
  - unfold unpack_2d_pointer32, unpack_2d_pointer.
    eapply ptr_guard with (P := fun d => zlen d = zlen data) (nm := 1) (nf := nfast2 pl) (d0 := d0) (len := nfast2 pl)
      (start := fun s _ => s * nstride2 pl) (step := 1) (nq := 1) (p := fun _ => true)
      (q := fun s _ => safeb (#s * #(nstride2 pl))%I && (ptrb strict (zlen data) (d0 + (s * nstride2 pl)) && ptrb strict (zlen data) (d0 + (s * nstride2 pl) + nfast2 pl)));
      [lia|lia|lia|lia| |pshape2|auto]; pe1.
  - intros r E. destruct (unpack_bounds _ _ _ _ _ _ (dims0 pl Hp) Hd Hb Ld Lb E) as (Ha & Hs).
    assert (Ha' : addr0 (up0 pl) (nslow (up0 pl) - 1) (nmid (up0 pl) - 1) (nfast (up0 pl) - 1) + 1 <= INT_MAX) by lia.
    apply forallb_forall. intros s Hs'. apply In_zrange in Hs'. apply andb_true_intro. split; [reflexivity|].
    apply forallb_forall. intros m Hm'. destruct (start_0 pl s Hp Ha' Hs') as (S1 & S2).
    match goal with |- ?x && _ = _ => replace x with true by (symmetry; okb) end. cbn [andb]. unfold addr0 in Ha. cbn [up0 nslow nmid nfast nqty nstride_line nstride_plane] in Ha.
    assert (s * nstride2 pl <= (nslow2 pl - 1) * nstride2 pl) by nia.
    rewrite !ptrb_value by (unfold small in *; lia). destruct strict; cbn [negb orb]; unfold small in *; lia.
Qed.

Lemma pack_2d_memcpy32_guard strict esize data d0 buf b0 pl : plan_ok2 pl -> 0 < esize -> 0 <= to_int (nfast2 pl * 8) ->
  pack_2d_memcpy32 strict esize data d0 buf b0 pl =
  if forallb (fun s => safeb (#s * #(nfast2 pl))%I && (ptrb strict (zlen buf) (b0 + s * nfast2 pl) && (safeb (#s * #(nstride2 pl))%I && ptrb strict (zlen data) (d0 + s * nstride2 pl)))) (zrange (nslow2 pl))
  then copies data (heads_pack (up0 pl) d0 b0 (to_int (nfast2 pl * 8) / esize)) buf else None.
Proof.
  intros Hp He Hz. pose proof Hp as Hp'. plan Hp'. assert (Hk : 0 <= to_int (nfast2 pl * 8) / esize) by (apply Z.div_pos; lia).
  replace (copies data (heads_pack (up0 pl) d0 b0 (to_int (nfast2 pl * 8) / esize)) buf) with
    (for_ (nslow2 pl) (fun s d => memcpy_elems d (b0 + s * nfast2 pl) data (d0 + s * nstride2 pl) (to_int (nfast2 pl * 8) / esize)) buf).
  - unfold pack_2d_memcpy32. cbv zeta. apply (for_guard (fun _ d => zlen d = zlen buf)); [reflexivity| |].
    + intros s d _ Hd. cbv beta. rewrite Hd. repeat rewrite ?bind_ev, ?bind_ptr. rewrite ?if_and, <- ?andb_assoc. unfold memcpy32.
      replace (to_int (nfast2 pl * 8) <? 0) with false by lia. reflexivity.
    + intros s d d' _ Hd E. cbv beta in E. apply memcpy_len in E; [congruence|assumption].
  - transitivity (for_ (nslow2 pl) (fun s d => for_ 1 (fun m d => memcpy_elems d (b0 + s * nfast2 pl) data (d0 + s * nstride2 pl) (to_int (nfast2 pl * 8) / esize)) d) buf).
    { apply for_ext. intros s d _. rewrite for_1. reflexivity. }
    rewrite (mem_nest data buf (nslow2 pl) 1 _ (fun s _ => b0 + s * nfast2 pl) (fun s _ => d0 + s * nstride2 pl)) by lia. f_equal. unfold heads_pack, flat3. cbn [up0 nslow nmid nfast nqty nstride_line nstride_plane].
    apply flat_map_ext'; intros s _. apply flat_map_ext'; intros m Hm. apply In_zrange in Hm. replace m with 0 by lia. apply flat_map_ext'; intros x _. unfold slot3, addr0.
    cbn [up0 nslow nmid nfast nqty nstride_line nstride_plane]. do 2 f_equal; ring.
Qed.

Lemma pack_2d_memcpy32_checks strict data d0 buf b0 pl r : plan_ok2 pl -> 0 <= d0 -> 0 <= b0 -> zlen data <= INT_MAX -> zlen buf <= INT_MAX ->
  copies data (pairs_pack (up0 pl) d0 b0) buf = Some r ->
  forallb (fun s => safeb (#s * #(nfast2 pl))%I && (ptrb strict (zlen buf) (b0 + s * nfast2 pl) && (safeb (#s * #(nstride2 pl))%I && ptrb strict (zlen data) (d0 + s * nstride2 pl)))) (zrange (nslow2 pl)) = true.
Proof.
  intros Hp Hd Hb Ld Lb E. pose proof Hp as Hp'. plan Hp'. destruct (pack_bounds _ _ _ _ _ _ (dims0 pl Hp) Hd Hb Ld Lb E) as (Ha & Hs).
  assert (Ha' : addr0 (up0 pl) (nslow (up0 pl) - 1) (nmid (up0 pl) - 1) (nfast (up0 pl) - 1) + 1 <= INT_MAX) by lia.
  apply forallb_forall. intros s Hs'. apply In_zrange in Hs'. destruct (start_0 pl s Hp Ha' Hs') as (S1 & S2).
  unfold addr0 in Ha. cbn [up0 nslow nmid nfast nqty nstride_line nstride_plane] in *.
  assert (0 <= s * nfast2 pl /\ s * nfast2 pl + nfast2 pl <= nslow2 pl * 1 * nfast2 pl) as (U1 & U2) by nia.
  assert (s * nstride2 pl <= (nslow2 pl - 1) * nstride2 pl) by nia.
  rewrite !ptrb_value by (unfold small in *; lia).
  apply andb_true_intro. split; [okb|]. apply andb_true_intro. split; [destruct strict; cbn [negb orb]; unfold small in *; lia|].
  apply andb_true_intro. split; [okb|destruct strict; cbn [negb orb]; unfold small in *; lia].
Qed.

Lemma pack_2d_memcpy32_ok strict data d0 buf b0 pl : plan_ok2 pl -> 0 <= d0 -> 0 <= b0 -> zlen data <= INT_MAX -> zlen buf <= INT_MAX ->
  nfast2 pl * 8 <= INT_MAX ->
  pack_2d_memcpy32 strict 8 data d0 buf b0 pl = copies data (pairs_pack (up0 pl) d0 b0) buf.
Proof.
  intros Hp Hd Hb Ld Lb Hf. pose proof Hp as Hp'. plan Hp'.
  assert (E : to_int (nfast2 pl * 8) = nfast2 pl * 8) by (apply to_int_exact; unfold small; lia).
  eapply (comb _ _ _ _ true); [apply (pack_2d_memcpy32_guard strict 8 data d0 buf b0 pl Hp); [lia|rewrite E; lia]| |].
  - rewrite E, Z.div_mul by lia. reflexivity.
  - intros r Er. apply (pack_2d_memcpy32_checks strict data d0 buf b0 pl r Hp Hd Hb Ld Lb Er).
Qed.

Lemma pack_2d_memcpy32_long strict esize data d0 buf b0 pl r : plan_ok2 pl -> 0 <= d0 -> 0 <= b0 -> zlen data <= INT_MAX -> zlen buf <= INT_MAX ->
  0 < esize -> copies data (pairs_pack (up0 pl) d0 b0) buf = Some r ->
  pack_2d_memcpy32 strict esize data d0 buf b0 pl =
  if to_int (nfast2 pl * 8) <? 0 then None else copies data (heads_pack (up0 pl) d0 b0 (to_int (nfast2 pl * 8) / esize)) buf.
Proof.
  intros Hp Hd Hb Ld Lb He Er. pose proof Hp as Hp'. plan Hp'. destruct (Z.ltb_spec (to_int (nfast2 pl * 8)) 0) as [L|L].
  - unfold pack_2d_memcpy32. cbv zeta. apply for_none; [lia|]. cbv beta. repeat rewrite ?bind_ev, ?bind_ptr. unfold memcpy32. replace (to_int (nfast2 pl * 8) <? 0) with true by lia.
    repeat match goal with |- (if ?x then _ else _) = _ => destruct x; [|reflexivity] end. reflexivity.
  - rewrite pack_2d_memcpy32_guard by assumption. rewrite (pack_2d_memcpy32_checks strict data d0 buf b0 pl r Hp Hd Hb Ld Lb Er). reflexivity.
Qed.

Lemma unpack_2d_memcpy32_guard strict esize data d0 buf b0 pl : plan_ok2 pl -> 0 < esize -> 0 <= to_int (nfast2 pl * 8) ->
  unpack_2d_memcpy32 strict esize buf b0 data d0 pl =
  if forallb (fun s => safeb (#s * #(nstride2 pl))%I && (ptrb strict (zlen data) (d0 + s * nstride2 pl) && (safeb (#s * #(nfast2 pl))%I && ptrb strict (zlen buf) (b0 + s * nfast2 pl)))) (zrange (nslow2 pl))
  then copies buf (heads_unpack (up0 pl) d0 b0 (to_int (nfast2 pl * 8) / esize)) data else None.
Proof.
  intros Hp He Hz. pose proof Hp as Hp'. plan Hp'. assert (Hk : 0 <= to_int (nfast2 pl * 8) / esize) by (apply Z.div_pos; lia).
  replace (copies buf (heads_unpack (up0 pl) d0 b0 (to_int (nfast2 pl * 8) / esize)) data) with
    (for_ (nslow2 pl) (fun s d => memcpy_elems d (d0 + s * nstride2 pl) buf (b0 + s * nfast2 pl) (to_int (nfast2 pl * 8) / esize)) data).
  - unfold unpack_2d_memcpy32. cbv zeta. apply (for_guard (fun _ d => zlen d = zlen data)); [reflexivity| |].
    + intros s d _ Hd. cbv beta. rewrite Hd. repeat rewrite ?bind_ev, ?bind_ptr. rewrite ?if_and, <- ?andb_assoc. unfold memcpy32.
      replace (to_int (nfast2 pl * 8) <? 0) with false by lia. reflexivity.
    + intros s d d' _ Hd E. cbv beta in E. apply memcpy_len in E; [congruence|assumption].
  - transitivity (for_ (nslow2 pl) (fun s d => for_ 1 (fun m d => memcpy_elems d (d0 + s * nstride2 pl) buf (b0 + s * nfast2 pl) (to_int (nfast2 pl * 8) / esize)) d) data).
    { apply for_ext. intros s d _. rewrite for_1. reflexivity. }
    rewrite (mem_nest buf data (nslow2 pl) 1 _ (fun s _ => d0 + s * nstride2 pl) (fun s _ => b0 + s * nfast2 pl)) by lia. f_equal. unfold heads_unpack, flat3. cbn [up0 nslow nmid nfast nqty nstride_line nstride_plane].
    apply flat_map_ext'; intros s _. apply flat_map_ext'; intros m Hm. apply In_zrange in Hm. replace m with 0 by lia. apply flat_map_ext'; intros x _. unfold slot3, addr0.
    cbn [up0 nslow nmid nfast nqty nstride_line nstride_plane]. do 2 f_equal; ring.
Qed.

Lemma unpack_2d_memcpy32_checks strict data d0 buf b0 pl r : plan_ok2 pl -> 0 <= d0 -> 0 <= b0 -> zlen data <= INT_MAX -> zlen buf <= INT_MAX ->
  copies buf (pairs_unpack (up0 pl) d0 b0) data = Some r ->
  forallb (fun s => safeb (#s * #(nstride2 pl))%I && (ptrb strict (zlen data) (d0 + s * nstride2 pl) && (safeb (#s * #(nfast2 pl))%I && ptrb strict (zlen buf) (b0 + s * nfast2 pl)))) (zrange (nslow2 pl)) = true.
Proof.
  intros Hp Hd Hb Ld Lb E. pose proof Hp as Hp'. plan Hp'. destruct (unpack_bounds _ _ _ _ _ _ (dims0 pl Hp) Hd Hb Ld Lb E) as (Ha & Hs).
  assert (Ha' : addr0 (up0 pl) (nslow (up0 pl) - 1) (nmid (up0 pl) - 1) (nfast (up0 pl) - 1) + 1 <= INT_MAX) by lia.
  apply forallb_forall. intros s Hs'. apply In_zrange in Hs'. destruct (start_0 pl s Hp Ha' Hs') as (S1 & S2).
  unfold addr0 in Ha. cbn [up0 nslow nmid nfast nqty nstride_line nstride_plane] in *.
  assert (0 <= s * nfast2 pl /\ s * nfast2 pl + nfast2 pl <= nslow2 pl * 1 * nfast2 pl) as (U1 & U2) by nia.
  assert (s * nstride2 pl <= (nslow2 pl - 1) * nstride2 pl) by nia.
  rewrite !ptrb_value by (unfold small in *; lia).
  apply andb_true_intro. split; [okb|]. apply andb_true_intro. split; [destruct strict; cbn [negb orb]; unfold small in *; lia|].
  apply andb_true_intro. split; [okb|destruct strict; cbn [negb orb]; unfold small in *; lia].
Qed.

Lemma unpack_2d_memcpy32_ok strict data d0 buf b0 pl : plan_ok2 pl -> 0 <= d0 -> 0 <= b0 -> zlen data <= INT_MAX -> zlen buf <= INT_MAX ->
  nfast2 pl * 8 <= INT_MAX ->
  unpack_2d_memcpy32 strict 8 buf b0 data d0 pl = copies buf (pairs_unpack (up0 pl) d0 b0) data.
Proof.
  intros Hp Hd Hb Ld Lb Hf. pose proof Hp as Hp'. plan Hp'.
  assert (E : to_int (nfast2 pl * 8) = nfast2 pl * 8) by (apply to_int_exact; unfold small; lia).
  eapply (comb _ _ _ _ true); [apply (unpack_2d_memcpy32_guard strict 8 data d0 buf b0 pl Hp); [lia|rewrite E; lia]| |].
  - rewrite E, Z.div_mul by lia. reflexivity.
  - intros r Er. apply (unpack_2d_memcpy32_checks strict data d0 buf b0 pl r Hp Hd Hb Ld Lb Er).
Qed.

Lemma unpack_2d_memcpy32_long strict esize data d0 buf b0 pl r : plan_ok2 pl -> 0 <= d0 -> 0 <= b0 -> zlen data <= INT_MAX -> zlen buf <= INT_MAX ->
  0 < esize -> copies buf (pairs_unpack (up0 pl) d0 b0) data = Some r ->
  unpack_2d_memcpy32 strict esize buf b0 data d0 pl =
  if to_int (nfast2 pl * 8) <? 0 then None else copies buf (heads_unpack (up0 pl) d0 b0 (to_int (nfast2 pl * 8) / esize)) data.
Proof.
  intros Hp Hd Hb Ld Lb He Er. pose proof Hp as Hp'. plan Hp'. destruct (Z.ltb_spec (to_int (nfast2 pl * 8)) 0) as [L|L].
  - unfold unpack_2d_memcpy32. cbv zeta. apply for_none; [lia|]. cbv beta. repeat rewrite ?bind_ev, ?bind_ptr. unfold memcpy32. replace (to_int (nfast2 pl * 8) <? 0) with true by lia.
    repeat match goal with |- (if ?x then _ else _) = _ => destruct x; [|reflexivity] end. reflexivity.
  - rewrite unpack_2d_memcpy32_guard by assumption. rewrite (unpack_2d_memcpy32_checks strict data d0 buf b0 pl r Hp Hd Hb Ld Lb Er). reflexivity.
Qed.

End Array2.
