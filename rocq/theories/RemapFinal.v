(** RemapFinal.v : proofs of the statements of PropertiesRemap.v. *)

From Verif Require Import Base Spec Pack3d Pack2d Sched SchedProofs MemProofs Phases Exec Remap RemapPlan RemapProofs RemapTriple RemapMain
  Remap3d Remap2d RemapInst RemapThms RemapTop Pack3dProofs Pack2dProofs PackTop ExRemap.

Lemma C01_proof (A : Type) n N coll packflag nq permute ins outs (g : pt3 -> Z -> A) M0 :
  perm_ok3 permute -> 0 < nq -> tiling3 n N ins -> tiling3 n N outs ->
  call_ok3 n nq permute ins outs coll packflag BIn BOut M0 ->
  (forall r, (r < n)%nat -> holds3 nq 0 (ins r) g (m_in (M0 r))) ->
  exec_all n (remap3 n coll packflag nq permute ins outs BIn BOut) M0
    (fun r m => holds3 nq permute (outs r) g (m_out m)).
Proof.
  intros Hp Hq T1 T2 Hc Hg. apply (remap3_correct n nq permute ins outs Hp Hq (tiling_disjoint3 _ _ _ T1) g); auto.
  eapply tilings_covered3; eassumption.
Qed.

Lemma zget_app_Some {A} (l1 l2 : list A) i v : zget l1 i = Some v -> zget (l1 ++ l2) i = Some v.
Proof.
  intros H. rewrite zget_app. destruct (Z.ltb_spec i (zlen l1)); [exact H|]. rewrite zget_None in H; [discriminate|lia].
Qed.
Lemma e3_holds coll packflag nq perm r : 0 < nq -> holds3 nq 0 (e3_in r) e3_g (m_in (e3_M coll packflag nq perm r)).
Proof.
  intros Hq p q Hp Hqq. unfold e3_M. destruct (setup3 3 coll packflag nq perm e3_in e3_out r); cbn [m_in];
    apply zget_app_Some, fill3_holds; assumption.
Qed.
Lemma e2_holds coll packflag nq perm r : 0 < nq -> holds2 nq 0 (e2_in r) e2_g (m_in (e2_M coll packflag nq perm r)).
Proof.
  intros Hq p q Hp Hqq. unfold e2_M. destruct (setup2 2 coll packflag nq perm e2_in e2_out r); cbn [m_in];
    apply zget_app_Some, fill2_holds; assumption.
Qed.

Ltac inl := cbn; tauto.
Ltac data := (left; reflexivity) || (right; reflexivity).
Ltac ok3 := apply e3_ok; [inl|inl|inl|data|data].

Lemma C01_example_proof :
  perm_ok3 1 /\ 0 < 2 /\ tiling3 3 e3_N e3_in /\ tiling3 3 e3_N e3_out /\
  call_ok3 3 2 1 e3_in e3_out true 2 BIn BOut (e3_M true 2 2 1) /\
  (forall r, (r < 3)%nat -> holds3 2 0 (e3_in r) e3_g (m_in (e3_M true 2 2 1 r))).
Proof.
  split; [right; left; reflexivity|]. split; [lia|]. split; [apply e3_tiling_in|]. split; [apply e3_tiling_out|]. split; [ok3|].
  intros r _. apply e3_holds. lia.
Qed.

Lemma C02_proof (A : Type) (dflt : A) n coll packflag nq permute ins outs din dout (M0 : nat -> @rmem A) :
  perm_ok3 permute -> 0 < nq -> disjoint_owners3 n ins ->
  call_ok3 n nq permute ins outs coll packflag din dout M0 ->
  exec_all n (remap3 n coll packflag nq permute ins outs din dout) M0 (fun r m =>
    (forall b, zlen (getb b m) = zlen (getb b (M0 r))) /\
    (forall b, isdata b -> b <> dout -> getb b m = getb b (M0 r)) /\
    (forall a, ~ (0 <= a < nq * vol3 (outs r)) -> zget (getb dout m) a = zget (getb dout (M0 r)) a)).
Proof. intros. apply remap3_safe; assumption. Qed.
Lemma C02_example_proof : call_ok3 3 3 2 e3_in e3_out false 1 BIn BIn (e3_M false 1 3 2).
Proof. ok3. Qed.
Lemma C02_total_proof n coll packflag nq permute ins outs r : (r < n)%nat ->
  exists pl, setup3 n coll packflag nq permute ins outs r = Some pl.
Proof. apply setup_total. Qed.

(** every address below nq*vol is the cell of some point *)
Lemma cell3_onto nq perm b a : 0 < nq -> perm_ok3 perm -> 0 <= a < nq * vol3 b -> exists p q, inb3 p b /\ 0 <= q < nq /\ cell3 nq perm b p q = a.
Proof.
  intros Hq Hp Ha.
  assert (Hv : 0 < vol3 b) by nia. unfold vol3 in Hv, Ha.
  destruct (Z_le_gt_dec (ni b) 0) as [H1|H1]; [rewrite (Z.max_l 0 (ni b)) in Hv; lia|].
  destruct (Z_le_gt_dec (nj b) 0) as [H2|H2]; [rewrite (Z.max_l 0 (nj b)) in Hv; lia|].
  destruct (Z_le_gt_dec (nk b) 0) as [H3|H3]; [rewrite (Z.max_l 0 (nk b)) in Hv; lia|].
  rewrite !Z.max_r in Ha by lia. clear Hv.
  assert (D : forall x m, 0 < m -> x = x / m * m + x mod m /\ 0 <= x mod m < m).
  { intros x m Hm. pose proof (Z.div_mod x m ltac:(lia)). pose proof (Z.mod_pos_bound x m Hm). lia. }
  destruct (D a nq Hq) as (Ea & Ra). set (c := a / nq) in *. set (q := a mod nq) in *.
  assert (Hc : 0 <= c < ni b * nj b * nk b) by (split; [apply Z.div_pos; lia|apply Z.div_lt_upper_bound; lia]).
  assert (G : forall n1 n2 n3, 0 < n1 -> 0 < n2 -> 0 < n3 -> c < n1 * n2 * n3 ->
    exists x y z, 0 <= x < n1 /\ 0 <= y < n2 /\ 0 <= z < n3 /\ c = (z * n2 + y) * n1 + x).
  { intros n1 n2 n3 P1 P2 P3 Hlt. exists (c mod n1), ((c / n1) mod n2), ((c / n1) / n2).
    destruct (D c n1 P1) as (E1 & R1). destruct (D (c / n1) n2 P2) as (E2 & R2).
    split; [exact R1|]. split; [exact R2|]. split; [|lia].
    split; [apply Z.div_pos; [apply Z.div_pos; lia|lia]|]. apply Z.div_lt_upper_bound; [lia|]. apply Z.div_lt_upper_bound; [lia|]. lia. }
  unfold cell3. destruct Hp as [-> | [-> | ->]].
  - destruct (G (ni b) (nj b) (nk b)) as (x & y & z & R1 & R2 & R3 & E); try lia.
    exists (ilo b + x, jlo b + y, klo b + z), q. unfold inb3, ni, nj, nk in *. split; [lia|]. split; [lia|]. cbn. unfold ni, nj. lia.
  - destruct (G (nj b) (nk b) (ni b)) as (x & y & z & R1 & R2 & R3 & E); try lia.
    exists (ilo b + z, jlo b + x, klo b + y), q. unfold inb3, ni, nj, nk in *. split; [lia|]. split; [lia|]. cbn. unfold nj, nk. lia.
  - destruct (G (nk b) (ni b) (nj b)) as (x & y & z & R1 & R2 & R3 & E); try lia.
    exists (ilo b + y, jlo b + z, klo b + x), q. unfold inb3, ni, nj, nk in *. split; [lia|]. split; [lia|]. cbn. unfold ni, nk. lia.
Qed.

Lemma modes_agree (A : Type) (dflt : A) n coll packflag din dout coll' packflag' din' dout' nq permute ins outs (M0 M0' : nat -> @rmem A) :
  perm_ok3 permute -> 0 < nq -> disjoint_owners3 n ins -> covered3 n ins outs ->
  call_ok3 n nq permute ins outs coll packflag din dout M0 -> call_ok3 n nq permute ins outs coll' packflag' din' dout' M0' ->
  (forall r a, (r < n)%nat -> 0 <= a < nq * vol3 (ins r) -> zget (getb din (M0 r)) a = zget (getb din' (M0' r)) a) ->
  exists (M1 M2 : nat -> @rmem A),
    exec_to n (remap3 n coll packflag nq permute ins outs din dout) M0 M1 /\
    exec_to n (remap3 n coll' packflag' nq permute ins outs din' dout') M0' M2 /\
    forall r a, (r < n)%nat -> 0 <= a < nq * vol3 (outs r) -> zget (getb dout (M1 r)) a = zget (getb dout' (M2 r)) a.
Proof.
  intros Hp Hq Hd Hc C1 C2 Hs.
  destruct (remap3_agree n nq permute ins outs Hp Hq Hd dflt _ _ _ _ _ _ _ _ _ _ Hc C1 C2 Hs) as (M1 & M2 & E1 & E2 & H).
  exists M1, M2. split; [exact E1|]. split; [exact E2|]. intros r a Hr Ha.
  destruct (cell3_onto nq permute (outs r) a Hq Hp Ha) as (p & q & Hpb & Hqq & <-). apply H; assumption.
Qed.

Lemma C03_proof (A : Type) (dflt : A) n coll packflag nq permute ins outs (M0 M0' : nat -> @rmem A) :
  perm_ok3 permute -> 0 < nq -> disjoint_owners3 n ins -> covered3 n ins outs ->
  call_ok3 n nq permute ins outs coll packflag BIn BIn M0 -> call_ok3 n nq permute ins outs coll packflag BIn BOut M0' ->
  (forall r a, (r < n)%nat -> 0 <= a < nq * vol3 (ins r) -> zget (m_in (M0 r)) a = zget (m_in (M0' r)) a) ->
  exists (M1 M2 : nat -> @rmem A),
    exec_to n (remap3 n coll packflag nq permute ins outs BIn BIn) M0 M1 /\
    exec_to n (remap3 n coll packflag nq permute ins outs BIn BOut) M0' M2 /\
    forall r a, (r < n)%nat -> 0 <= a < nq * vol3 (outs r) -> zget (m_in (M1 r)) a = zget (m_out (M2 r)) a.
Proof. intros. apply (modes_agree A dflt n coll packflag BIn BIn coll packflag BIn BOut); assumption. Qed.
Lemma C03_example_proof : call_ok3 3 2 1 e3_in e3_out false 0 BIn BIn (e3_M false 0 2 1) /\ call_ok3 3 2 1 e3_in e3_out false 0 BIn BOut (e3_M false 0 2 1).
Proof. split; ok3. Qed.

Lemma C04_proof (A : Type) (dflt : A) n packflag nq permute ins outs din dout (M0 : nat -> @rmem A) :
  perm_ok3 permute -> 0 < nq -> disjoint_owners3 n ins ->
  call_ok3 n nq permute ins outs false packflag din dout M0 ->
  forall eager1 eager2 l1 l2 s1 s2,
    run n eager1 (start n (remap3 n false packflag nq permute ins outs din dout) M0) l1 s1 ->
    run n eager2 (start n (remap3 n false packflag nq permute ins outs din dout) M0) l2 s2 ->
    (forall a, step n eager1 a s1 = Disabled) -> (forall a, step n eager2 a s2 = Disabled) ->
    mems_of s1 = mems_of s2.
Proof.
  intros Hp Hq Hd Hc e1 e2 l1 l2 s1 s2 R1 R2 T1 T2.
  destruct (remap3_safe n nq permute ins outs Hp Hq Hd dflt _ _ _ _ _ Hc) as (M' & _ & L & H).
  destruct (H _ _ _ R1) as (_ & [(_ & a & s' & E)|(_ & _ & _ & E1)]); [rewrite T1 in E; discriminate|].
  destruct (H _ _ _ R2) as (_ & [(_ & a & s' & E)|(_ & _ & _ & E2)]); [rewrite T2 in E; discriminate|].
  congruence.
Qed.

Lemma finished_stuck {A} n eager (M : nat -> @rmem A) s : finished n M s -> forall a, step n eager a s = Disabled.
Proof. intros F. destruct (finished_quiet n M s F) as (sent & ->). apply quiet_terminal. Qed.

Lemma C04_example_proof : call_ok3 3 2 1 e3_in e3_out false 0 BIn BOut (e3_M false 0 2 1) /\
  exists l s, run 3 (fun _ _ => false) (start 3 (remap3 3 false 0 2 1 e3_in e3_out BIn BOut) (e3_M false 0 2 1)) l s /\
              (forall a, step 3 (fun _ _ => false) a s = Disabled) /\ l <> [].
Proof.
  assert (Hc : call_ok3 3 2 1 e3_in e3_out false 0 BIn BOut (e3_M false 0 2 1)) by ok3. split; [exact Hc|].
  destruct (remap3_safe 3 2 1 e3_in e3_out ltac:(right; left; reflexivity) ltac:(lia) (tiling_disjoint3 _ _ _ e3_tiling_in) 0 _ _ _ _ _ Hc) as (M' & _ & HE).
  destruct (exec_complete 3 _ _ _ (fun _ _ => false) HE) as (l & s & R & F). exists l, s. split; [exact R|].
  split; [exact (finished_stuck 3 _ M' s F)|]. intros ->. inversion R; subst. destruct F as (D & _).
  assert (In (mkcore (remap3 3 false 0 2 1 e3_in e3_out BIn BOut 0) (e3_M false 0 2 1 0) [] false 0%nat)
    (s_core (start 3 (remap3 3 false 0 2 1 e3_in e3_out BIn BOut) (e3_M false 0 2 1)))) by (left; reflexivity).
  destruct (D _ H) as (E & _). vm_compute in E. discriminate.
Qed.

Lemma C05_proof (A : Type) (dflt : A) n packflag nq permute ins outs din dout (M0 : nat -> @rmem A) :
  perm_ok3 permute -> 0 < nq -> disjoint_owners3 n ins ->
  call_ok3 n nq permute ins outs false packflag din dout M0 ->
  exists L, forall eager l s,
    run n eager (start n (remap3 n false packflag nq permute ins outs din dout) M0) l s ->
    (length l <= L)%nat /\
    (forall a, step n eager a s <> Bad) /\
    ((exists a s', step n eager a s = Ok s') \/ (all_done s /\ s_ch s = empty_chans n)).
Proof.
  intros Hp Hq Hd Hc. destruct (remap3_safe n nq permute ins outs Hp Hq Hd dflt _ _ _ _ _ Hc) as (M' & _ & L & H).
  exists L. intros eager l s R. destruct (H _ _ _ R) as (H1 & [(H2 & H3)|(H2 & F1 & F2 & _)]).
  - split; [lia|]. split; [exact H1|]. left. exact H3.
  - split; [lia|]. split; [exact H1|]. right. split; assumption.
Qed.
Lemma C05_example_proof : call_ok3 3 1 0 e3_in e3_out false 2 BIn BIn (e3_M false 2 1 0).
Proof. ok3. Qed.

Lemma C06_proof (A : Type) (dflt : A) n (legs : list leg3) (M0 : nat -> @rmem A) :
  Forall (leg3_ok n M0) legs ->
  exists M', one_by_one n (map (leg3_code n) legs) M0 M' /\ exec_to n (together (map (leg3_code n) legs)) M0 M'.
Proof. apply legs3_run. exact dflt. Qed.
Lemma C06_example_proof : let M0 := e3_M false 0 2 0 in
  Forall (leg3_ok 3 M0) [mkleg3 false 0 2 0 e3_in e3_out BIn BOut; mkleg3 false 1 2 2 e3_in e3_out BIn BIn].
Proof.
  cbv zeta. constructor; [|constructor; [|constructor]].
  - split; [left; reflexivity|]. split; [cbn; lia|]. split; [apply (tiling_disjoint3 _ _ _ e3_tiling_in)|]. ok3.
  - split; [right; right; reflexivity|]. split; [cbn; lia|]. split; [apply (tiling_disjoint3 _ _ _ e3_tiling_in)|].
    cbn [l_nq l_perm l_ins l_outs l_coll l_pack l_din l_dout].
    split; [right; left; reflexivity|]. split; [data|]. split; [data|]. split.
    + intros r Hr. three r Hr; split; le_compute.
    + intros r pl Hr H. three r Hr; vm_compute in H; injection H as <-; split; le_compute.
Qed.

Lemma C07_proof n coll packflag nq permute ins outs r q plr plq :
  flag_ok packflag -> perm_ok3 permute -> 0 < nq -> (r < n)%nat -> (q < n)%nat -> coll = true \/ r <> q ->
  setup3 n coll packflag nq permute ins outs r = Some plr -> setup3 n coll packflag nq permute ins outs q = Some plq ->
  with_rank q (out_msgs plr) = with_rank r (in_msgs plq) /\
  exists l : list (pt3 * Z), NoDup l /\
    (forall p c, In (p, c) l <-> inb3 p (ins r) /\ inb3 p (outs q) /\ 0 <= c < nq) /\
    with_rank q (out_msgs plr) = if Nat.eqb (length l) 0 then [] else [zlen l].
Proof.
  intros Hf Hp Hq Hr Hqn Hc H1 H2.
  destruct (plans_agree (ops3 (A := Z) packflag nq permute) (elems3 nq) (inbx3 nq) _ _ (rspec3 packflag nq permute Hf Hp Hq) n ins outs
    coll r q plr plq Hr Hqn Hc H1 H2) as (E & l & ND & HI & Hs).
  split; [exact E|]. exists l. split; [exact ND|].
  assert (HI' : forall p c, In (p, c) l <-> inb3 p (ins r) /\ inb3 p (outs q) /\ 0 <= c < nq).
  { intros p c. rewrite HI. unfold inbx3. cbn. tauto. }
  split; [exact HI'|]. destruct Hs as [(Hs & Hn) | Hs].
  - rewrite Hs. destruct l as [|e l]; [reflexivity|]. exfalso. apply (Hn e). apply HI. left; reflexivity.
  - rewrite Hs. destruct l as [|e l]; [|reflexivity]. exfalso.
    rewrite (out_msgs_eq (ops3 (A := Z) packflag nq permute) n ins outs coll r plr Hr H1) in Hs.
    pose proof (with_rank_gen n ins outs (sent (ops3 (A := Z) packflag nq permute) ins outs r) coll r q
      (fun p e => sent_proc (ops3 (A := Z) packflag nq permute) ins outs r p e) Hr Hqn Hc) as Hw. rewrite Hw in Hs. clear Hw.
    unfold sent in Hs. cbn [o_collide ops3] in Hs. destruct (collide3 (ins r) (outs q)) as [ov|] eqn:Ec; [|discriminate].
    destruct (collide3_Some _ _ _ Ec) as (S1 & _ & _ & S2).
    assert (Hin : inb3 (ilo ov, jlo ov, klo ov) ov) by (unfold ni, nj, nk in S1; cbn; lia).
    assert (Hin2 := Hin). apply S2 in Hin2. 
    assert (In ((ilo ov, jlo ov, klo ov), 0) []) by (apply HI'; split; [apply Hin2|split; [apply Hin2|lia]]). destruct H.
Qed.
Lemma C07_example_proof : exists pl0 pl2, setup3 3 false 0 2 1 e3_in e3_out 0 = Some pl0 /\ setup3 3 false 0 2 1 e3_in e3_out 2 = Some pl2 /\
  with_rank 2 (out_msgs pl0) = [8] /\ with_rank 0 (in_msgs pl2) = [8].
Proof.
  eexists. eexists. split; [vm_compute; reflexivity|]. split; [vm_compute; reflexivity|]. split; vm_compute; reflexivity.
Qed.

Lemma C08_proof (A : Type) (dflt : A) n coll packflag coll' packflag' nq permute ins outs (M0 M0' : nat -> @rmem A) :
  perm_ok3 permute -> 0 < nq -> disjoint_owners3 n ins -> covered3 n ins outs ->
  call_ok3 n nq permute ins outs coll packflag BIn BOut M0 -> call_ok3 n nq permute ins outs coll' packflag' BIn BOut M0' ->
  (forall r a, (r < n)%nat -> 0 <= a < nq * vol3 (ins r) -> zget (m_in (M0 r)) a = zget (m_in (M0' r)) a) ->
  exists M1 M2,
    exec_to n (remap3 n coll packflag nq permute ins outs BIn BOut) M0 M1 /\
    exec_to n (remap3 n coll' packflag' nq permute ins outs BIn BOut) M0' M2 /\
    forall r a, (r < n)%nat -> 0 <= a < nq * vol3 (outs r) -> zget (m_out (M1 r)) a = zget (m_out (M2 r)) a.
Proof. intros. apply (modes_agree A dflt n coll packflag BIn BOut coll' packflag' BIn BOut); assumption. Qed.
Lemma C08_example_proof : call_ok3 3 2 1 e3_in e3_out false 0 BIn BOut (e3_M false 0 2 1) /\ call_ok3 3 2 1 e3_in e3_out true 2 BIn BOut (e3_M true 2 2 1).
Proof. split; ok3. Qed.

Section C09.
Context {A : Type}.
Implicit Types (data buf : list A).

Lemma C09_pack_proof f data d0 buf b0 pl : In f packs3 ->
  0 <= nfast pl -> 0 <= nmid pl -> 0 <= nslow pl ->
  let I := box_idx (nslow pl) (nmid pl) (nfast pl) 1 in
  in_bounds I (msg_at b0 (nmid pl) (nfast pl) 1) buf -> in_bounds I (arr_at d0 (nstride_plane pl) (nstride_line pl) 1 1) data ->
  exists buf', f data d0 buf b0 pl = Some buf' /\
    moves_exactly I (msg_at b0 (nmid pl) (nfast pl) 1) (arr_at d0 (nstride_plane pl) (nstride_line pl) 1 1) data buf buf'.
Proof. intros Hf H1 H2 H3 I HA HB. apply (pack3_moves f data d0 buf b0 pl Hf); [split; [|split]; assumption|exact HA|exact HB|apply msg_apart]. Qed.

Lemma C09_unpack_proof f data d0 buf b0 pl : In f unpacks3 ->
  0 <= nfast pl -> 0 <= nmid pl -> 0 <= nslow pl ->
  let I := box_idx (nslow pl) (nmid pl) (nfast pl) 1 in
  let at_ := arr_at d0 (nstride_plane pl) (nstride_line pl) 1 1 in
  in_bounds I at_ data -> in_bounds I (msg_at b0 (nmid pl) (nfast pl) 1) buf -> apart I at_ ->
  exists data', f buf b0 data d0 pl = Some data' /\ moves_exactly I at_ (msg_at b0 (nmid pl) (nfast pl) 1) buf data data'.
Proof. intros Hf H1 H2 H3 I at_ HA HB HC. apply (unpack3_moves f data d0 buf b0 pl Hf); [split; [|split]; assumption|exact HA|exact HB|exact HC]. Qed.

Lemma C09_permute1_proof f data d0 buf b0 pl : In f (permute1_3 (nqty pl)) ->
  0 <= nfast pl -> 0 <= nmid pl -> 0 <= nslow pl -> 0 <= nqty pl -> 0 < nstride_plane pl ->
  let I := box_idx (nslow pl) (nmid pl) (nfast pl) (nqty pl) in
  let at_ := arr_at d0 (nstride_line pl) (nqty pl) (nstride_plane pl) 1 in
  in_bounds I at_ data -> in_bounds I (msg_at b0 (nmid pl) (nfast pl) (nqty pl)) buf -> apart I at_ ->
  exists data', f buf b0 data d0 pl = Some data' /\ moves_exactly I at_ (msg_at b0 (nmid pl) (nfast pl) (nqty pl)) buf data data'.
Proof. intros Hf H1 H2 H3 Hq Hs I at_ HA HB HC. apply (permute1_moves f data d0 buf b0 pl Hf); [split; [|split]; assumption|exact Hq|exact Hs|exact HA|exact HB|exact HC]. Qed.

Lemma C09_permute2_proof f data d0 buf b0 pl : In f (permute2_3 (nqty pl)) ->
  0 <= nfast pl -> 0 <= nmid pl -> 0 <= nslow pl -> 0 <= nqty pl -> 0 < nstride_line pl ->
  let I := box_idx (nslow pl) (nmid pl) (nfast pl) (nqty pl) in
  let at_ := arr_at d0 (nqty pl) (nstride_plane pl) (nstride_line pl) 1 in
  in_bounds I at_ data -> in_bounds I (msg_at b0 (nmid pl) (nfast pl) (nqty pl)) buf -> apart I at_ ->
  exists data', f buf b0 data d0 pl = Some data' /\ moves_exactly I at_ (msg_at b0 (nmid pl) (nfast pl) (nqty pl)) buf data data'.
Proof. intros Hf H1 H2 H3 Hq Hs I at_ HA HB HC. apply (permute2_moves f data d0 buf b0 pl Hf); [split; [|split]; assumption|exact Hq|exact Hs|exact HA|exact HB|exact HC]. Qed.

Lemma C09_pack2_proof f data d0 buf b0 pl : In f (packs2 8) -> 0 <= nfast2 pl -> 0 <= nslow2 pl ->
  let I := box_idx (nslow2 pl) 1 (nfast2 pl) 1 in
  in_bounds I (msg_at b0 1 (nfast2 pl) 1) buf -> in_bounds I (arr_at d0 (nstride2 pl) 0 1 1) data ->
  exists buf', f data d0 buf b0 pl = Some buf' /\
    moves_exactly I (msg_at b0 1 (nfast2 pl) 1) (arr_at d0 (nstride2 pl) 0 1 1) data buf buf'.
Proof. intros Hf H1 H2 I HA HB. apply (pack2_moves f data d0 buf b0 pl Hf); [split; assumption|exact HA|exact HB|apply msg_apart]. Qed.

Lemma C09_unpack2_proof f data d0 buf b0 pl : In f (unpacks2 8) -> 0 <= nfast2 pl -> 0 <= nslow2 pl ->
  let I := box_idx (nslow2 pl) 1 (nfast2 pl) 1 in
  let at_ := arr_at d0 (nstride2 pl) 0 1 1 in
  in_bounds I at_ data -> in_bounds I (msg_at b0 1 (nfast2 pl) 1) buf -> apart I at_ ->
  exists data', f buf b0 data d0 pl = Some data' /\ moves_exactly I at_ (msg_at b0 1 (nfast2 pl) 1) buf data data'.
Proof. intros Hf H1 H2 I at_ HA HB HC. apply (unpack2_moves f data d0 buf b0 pl Hf); [split; assumption|exact HA|exact HB|exact HC]. Qed.

Lemma C09_permute2d_proof f data d0 buf b0 pl : In f (permute_2 (nqty2 pl)) ->
  0 <= nfast2 pl -> 0 <= nslow2 pl -> 0 <= nqty2 pl -> 0 < nstride2 pl ->
  let I := box_idx (nslow2 pl) 1 (nfast2 pl) (nqty2 pl) in
  let at_ := arr_at d0 (nqty2 pl) 0 (nstride2 pl) 1 in
  in_bounds I at_ data -> in_bounds I (msg_at b0 1 (nfast2 pl) (nqty2 pl)) buf -> apart I at_ ->
  exists data', f buf b0 data d0 pl = Some data' /\ moves_exactly I at_ (msg_at b0 1 (nfast2 pl) (nqty2 pl)) buf data data'.
Proof. intros Hf H1 H2 Hq Hs I at_ HA HB HC. apply (permute2d_moves f data d0 buf b0 pl Hf); [split; assumption|exact Hq|exact Hs|exact HA|exact HB|exact HC]. Qed.
End C09.

Lemma C09_example_proof : let pl := {| nfast := 2; nmid := 2; nslow := 1; nstride_line := 6; nstride_plane := 12; nqty := 3 |} in
  unpack_3d_permute1_n_memcpy [1;2;3;4;5;6;7;8;9;10;11;12] 0 (map (fun _ => 0) (zrange 20)) 1 pl =
    Some [0;1;2;3;7;8;9;0;0;0;0;0;0;4;5;6;10;11;12;0] /\ In unpack_3d_permute1_n_memcpy (permute1_3 (A := Z) 3) /\
  apart (box_idx 1 2 2 3) (arr_at 1 6 3 12 1).
Proof.
  cbv zeta. split; [vm_compute; reflexivity|]. split; [right; right; left; reflexivity|].
  intros [[[s m] x] q] [[[s' m'] x'] q'] H H' E. unfold box_idx, arr_at in *. assert (s = s' /\ m = m' /\ x = x' /\ q = q') as (-> & -> & -> & ->) by lia. reflexivity.
Qed.

Lemma C10_proof n packflag nq permute ins outs r pl :
  flag_ok packflag -> perm_ok3 permute -> 0 < nq -> (r < n)%nat -> setup3 n true packflag nq permute ins outs r = Some pl ->
  (exists f, rp_group pl = filter f (seq 0 n)) /\
  (rp_group pl <> [] -> In r (rp_group pl)) /\
  (forall q p, (q < n)%nat -> inb3 p (ins r) -> inb3 p (outs q) -> In q (rp_group pl)) /\
  (forall q p, (q < n)%nat -> inb3 p (outs r) -> inb3 p (ins q) -> In q (rp_group pl)) /\
  (forall q plq, In q (rp_group pl) -> setup3 n true packflag nq permute ins outs q = Some plq -> rp_group plq = rp_group pl) /\
  (forall q plq, (q < n)%nat -> setup3 n true packflag nq permute ins outs q = Some plq ->
     rp_group plq = rp_group pl \/ forall s, ~ (In s (rp_group pl) /\ In s (rp_group plq))).
Proof.
  intros Hf Hp Hq Hr Hs.
  destruct (groups_consistent (ops3 (A := Z) packflag nq permute) (elems3 nq) (inbx3 nq) _ _ (rspec3 packflag nq permute Hf Hp Hq) n ins outs
    r pl Hr Hs) as (G1 & G2 & G3 & G4 & G5 & G6).
  split; [exact G1|]. split; [exact G2|]. split; [|split; [|split; [exact G5|exact G6]]];
  intros q p Hqn H1 H2; [apply (G3 q (p, 0))|apply (G4 q (p, 0))]; try exact Hqn; split; cbn; auto; lia.
Qed.
Lemma C10_example_proof : exists pl, setup3 3 true 0 2 1 e3_in e3_out 2 = Some pl /\ rp_group pl = [0; 1; 2]%nat.
Proof. eexists. split; vm_compute; reflexivity. Qed.

Lemma C11_proof n packflag nq permute ins outs r q plr plq i j c d mp c' d' mp' :
  flag_ok packflag -> perm_ok3 permute -> 0 < nq ->
  (r < n)%nat -> setup3 n true packflag nq permute ins outs r = Some plr -> setup3 n true packflag nq permute ins outs q = Some plq ->
  nth_error (rp_group plr) i = Some q -> nth_error (rp_sside plr) i = Some (c, d, mp) ->
  nth_error (rp_group plq) j = Some r -> nth_error (rp_rside plq) j = Some (c', d', mp') ->
  c = c' /\ exists l : list (pt3 * Z), NoDup l /\
    (forall p x, In (p, x) l <-> inb3 p (ins r) /\ inb3 p (outs q) /\ 0 <= x < nq) /\ c = zlen l.
Proof.
  intros Hf Hp Hq Hr H1 H2 H3 H4 H5 H6.
  destruct (counts_match (ops3 (A := Z) packflag nq permute) (elems3 nq) (inbx3 nq) _ _ (rspec3 packflag nq permute Hf Hp Hq) n ins outs
    r q plr plq i j c d mp c' d' mp' Hr H1 H2 H3 H4 H5 H6) as (E & l & ND & HI & Hc).
  split; [exact E|]. exists l. split; [exact ND|]. split; [|exact Hc]. intros p x. rewrite HI. unfold inbx3. cbn. tauto.
Qed.
Lemma C11_slots_proof n packflag nq permute ins outs r pl :
  flag_ok packflag -> perm_ok3 permute -> 0 < nq -> (r < n)%nat -> setup3 n true packflag nq permute ins outs r = Some pl ->
  length (rp_sside pl) = length (rp_group pl) /\ length (rp_rside pl) = length (rp_group pl) /\
  (forall side size, (side, size) = (rp_sside pl, rp_sendsize pl) \/ (side, size) = (rp_rside pl, rp_recvsize pl) ->
    (forall i c d mp, nth_error side i = Some (c, d, mp) -> 0 < c -> 0 <= d /\ d + c <= size) /\
    (forall i i' c d mp c' d' mp', (i < i')%nat -> nth_error side i = Some (c, d, mp) -> nth_error side i' = Some (c', d', mp') ->
       0 < c -> 0 < c' -> d + c <= d')).
Proof.
  intros Hf Hp Hq Hr Hs.
  exact (slots_ok (ops3 (A := Z) packflag nq permute) (elems3 nq) (inbx3 nq) _ _ (rspec3 packflag nq permute Hf Hp Hq) n ins outs r pl Hr Hs).
Qed.
Lemma C11_example_proof : exists pl, setup3 3 true 0 2 1 e3_in e3_out 2 = Some pl /\
  map (fun x => fst x) (rp_rside pl) = [(8, 0); (8, 8); (0, 0)].
Proof. eexists. split; vm_compute; reflexivity. Qed.

Lemma C12_proof (A : Type) n N nq perm tA tB coll1 pack1 coll2 pack2 b1 b2 b3 (g : pt3 -> Z -> A) M0 :
  perm_ok3 perm -> 0 < nq -> tiling3 n N tA -> tiling3 n N tB ->
  call_ok3 n nq perm tA tB coll1 pack1 b1 b2 M0 ->
  call_ok3 n nq (back3 perm) (fun r => rotb3 perm (tB r)) (fun r => rotb3 perm (tA r)) coll2 pack2 b2 b3 M0 ->
  (forall r, (r < n)%nat -> holds3 nq 0 (tA r) g (getb b1 (M0 r))) ->
  exec_all n (fun r => remap3 n coll1 pack1 nq perm tA tB b1 b2 r ++
                       remap3 n coll2 pack2 nq (back3 perm) (fun r => rotb3 perm (tB r)) (fun r => rotb3 perm (tA r)) b2 b3 r) M0
    (fun r m => holds3 nq 0 (tA r) g (getb b3 m)).
Proof.
  intros Hp Hq T1 T2 C1 C2 Hg. apply remap3_back; auto; try (eapply tiling_disjoint3; eassumption); eapply tilings_covered3; eassumption.
Qed.

(** generously sized memory for both directions *)
Definition e3_big (nq : Z) (r : nat) : @rmem Z :=
  mkmem (fill3 nq 0 (e3_in r) e3_g ++ map (fun _ => -7) (zrange 100)) (map (fun _ => -1) (zrange 100))
        (map (fun _ => -2) (zrange 100)) (map (fun _ => -3) (zrange 100)).
Lemma e3_big_ok coll packflag perm ins outs din dout :
  flag_ok packflag -> isdata din -> isdata dout ->
  (forall r, (r < 3)%nat -> 2 * vol3 (ins r) <= 100 /\ 2 * vol3 (outs r) <= 100) ->
  (forall r pl, (r < 3)%nat -> setup3 3 coll packflag 2 perm ins outs r = Some pl -> rp_sendsize pl <= 100 /\ rp_recvsize pl <= 100) ->
  call_ok3 3 2 perm ins outs coll packflag din dout (e3_big 2).
Proof.
  intros Hf Hi Ho Hv Hb. split; [exact Hf|]. split; [exact Hi|]. split; [exact Ho|].
  assert (L : forall b r, 100 <= zlen (getb b (e3_big 2 r))).
  { intros b r. destruct b; cbn [getb e3_big m_in m_out m_send m_recv]; rewrite ?zlen_app, !zlen_map, !zlen_zrange; try lia;
    pose proof (zlen_nonneg (fill3 2 0 (e3_in r) e3_g)); lia. }
  split.
  - intros r Hr. destruct (Hv r Hr). pose proof (L din r). pose proof (L dout r). lia.
  - intros r pl Hr Hs. destruct (Hb r pl Hr Hs). pose proof (L BSend r). pose proof (L BRecv r). cbn [getb] in *. lia.
Qed.
Lemma C12_example_proof : let M0 := e3_big 2 in
  call_ok3 3 2 1 e3_in e3_out false 0 BIn BIn M0 /\
  call_ok3 3 2 2 (fun r => rotb3 1 (e3_out r)) (fun r => rotb3 1 (e3_in r)) true 2 BIn BIn M0 /\
  (forall r, (r < 3)%nat -> holds3 2 0 (e3_in r) e3_g (m_in (M0 r))).
Proof.
  cbv zeta. split; [|split].
  - apply e3_big_ok; [left; reflexivity|data|data| |].
    + intros r Hr. three r Hr; split; le_compute.
    + intros r pl Hr H. three r Hr; vm_compute in H; injection H as <-; split; le_compute.
  - apply e3_big_ok; [right; right; reflexivity|data|data| |].
    + intros r Hr. three r Hr; split; le_compute.
    + intros r pl Hr H. three r Hr; vm_compute in H; injection H as <-; split; le_compute.
  - intros r _ p q Hp Hq. cbn [e3_big m_in]. apply zget_app_Some, fill3_holds; [lia|exact Hp|exact Hq].
Qed.

Lemma C13_proof (A : Type) esize n N coll packflag nq permute ins outs din dout (g : pt2 -> Z -> A) M0 :
  perm_ok2 permute -> 0 < nq -> tiling2 n N ins -> tiling2 n N outs ->
  call_ok2 esize n nq permute ins outs coll packflag din dout M0 ->
  (forall r, (r < n)%nat -> holds2 nq 0 (ins r) g (getb din (M0 r))) ->
  exec_all n (remap2 esize n coll packflag nq permute ins outs din dout) M0
    (fun r m => holds2 nq permute (outs r) g (getb dout m)).
Proof.
  intros Hp Hq T1 T2 Hc Hg. apply (remap2_correct esize n nq permute ins outs Hp Hq (tiling_disjoint2 _ _ _ T1) g); auto.
  eapply tilings_covered2; eassumption.
Qed.
Lemma C13_safe_proof (A : Type) (dflt : A) esize n coll packflag nq permute ins outs din dout (M0 : nat -> @rmem A) :
  perm_ok2 permute -> 0 < nq -> disjoint_owners2 n ins ->
  call_ok2 esize n nq permute ins outs coll packflag din dout M0 ->
  exec_all n (remap2 esize n coll packflag nq permute ins outs din dout) M0 (fun r m =>
    (forall b, zlen (getb b m) = zlen (getb b (M0 r))) /\
    (forall b, isdata b -> b <> dout -> getb b m = getb b (M0 r)) /\
    (forall a, ~ (0 <= a < nq * vol2 (outs r)) -> zget (getb dout m) a = zget (getb dout (M0 r)) a)).
Proof. intros. apply remap2_safe; assumption. Qed.
Lemma C13_example_proof : tiling2 2 e2_N e2_in /\ tiling2 2 e2_N e2_out /\
  call_ok2 8 2 2 1 e2_in e2_out true 2 BIn BIn (e2_M true 2 2 1) /\
  (forall r, (r < 2)%nat -> holds2 2 0 (e2_in r) e2_g (m_in (e2_M true 2 2 1 r))).
Proof.
  split; [apply e2_tiling_in|]. split; [apply e2_tiling_out|]. split; [|intros r _; apply e2_holds; lia].
  apply e2_ok; [inl|inl|inl|left; reflexivity|data|data].
Qed.

Lemma C13_plans_proof n coll packflag nq permute ins outs r q plr plq :
  flag_ok packflag -> perm_ok2 permute -> 0 < nq -> (r < n)%nat -> (q < n)%nat -> coll = true \/ r <> q ->
  setup2 n coll packflag nq permute ins outs r = Some plr -> setup2 n coll packflag nq permute ins outs q = Some plq ->
  with_rank q (out_msgs plr) = with_rank r (in_msgs plq) /\
  exists l : list (pt2 * Z), NoDup l /\
    (forall p c, In (p, c) l <-> inb2 p (ins r) /\ inb2 p (outs q) /\ 0 <= c < nq) /\
    with_rank q (out_msgs plr) = if Nat.eqb (length l) 0 then [] else [zlen l].
Proof.
  intros Hf Hp Hq Hr Hqn Hc H1 H2.
  destruct (plans_agree (ops2 (A := Z) 8 packflag nq permute) (elems2 nq) (inbx2 nq) _ _ (rspec2 8 packflag nq permute Hf Hp Hq (or_introl eq_refl)) n ins outs
    coll r q plr plq Hr Hqn Hc H1 H2) as (E & l & ND & HI & Hs).
  split; [exact E|]. exists l. split; [exact ND|].
  assert (HI' : forall p c, In (p, c) l <-> inb2 p (ins r) /\ inb2 p (outs q) /\ 0 <= c < nq).
  { intros p c. rewrite HI. unfold inbx2. cbn. tauto. }
  split; [exact HI'|]. destruct Hs as [(Hs & Hn) | Hs].
  - rewrite Hs. destruct l as [|e l]; [reflexivity|]. exfalso. apply (Hn e). apply HI. left; reflexivity.
  - rewrite Hs. destruct l as [|e l]; [|reflexivity]. exfalso.
    rewrite (out_msgs_eq (ops2 (A := Z) 8 packflag nq permute) n ins outs coll r plr Hr H1) in Hs.
    pose proof (with_rank_gen n ins outs (sent (ops2 (A := Z) 8 packflag nq permute) ins outs r) coll r q
      (fun p e => sent_proc (ops2 (A := Z) 8 packflag nq permute) ins outs r p e) Hr Hqn Hc) as Hw. rewrite Hw in Hs. clear Hw.
    unfold sent in Hs. cbn [o_collide ops2] in Hs. destruct (collide2 (ins r) (outs q)) as [ov|] eqn:Ec; [|discriminate].
    destruct (collide2_Some _ _ _ Ec) as (S1 & _ & _ & S2).
    assert (Hin : inb2 (ilo2 ov, jlo2 ov) ov) by (unfold ni2, nj2 in S1; cbn; lia).
    assert (Hin2 := Hin). apply S2 in Hin2.
    assert (In ((ilo2 ov, jlo2 ov), 0) []) by (apply HI'; split; [apply Hin2|split; [apply Hin2|lia]]). destruct H.
Qed.

Lemma C13_groups_proof n packflag nq permute ins outs r pl :
  flag_ok packflag -> perm_ok2 permute -> 0 < nq -> (r < n)%nat -> setup2 n true packflag nq permute ins outs r = Some pl ->
  (exists f, rp_group pl = filter f (seq 0 n)) /\
  (rp_group pl <> [] -> In r (rp_group pl)) /\
  (forall q p, (q < n)%nat -> inb2 p (ins r) -> inb2 p (outs q) -> In q (rp_group pl)) /\
  (forall q p, (q < n)%nat -> inb2 p (outs r) -> inb2 p (ins q) -> In q (rp_group pl)) /\
  (forall q plq, In q (rp_group pl) -> setup2 n true packflag nq permute ins outs q = Some plq -> rp_group plq = rp_group pl) /\
  (forall q plq, (q < n)%nat -> setup2 n true packflag nq permute ins outs q = Some plq ->
     rp_group plq = rp_group pl \/ forall s, ~ (In s (rp_group pl) /\ In s (rp_group plq))).
Proof.
  intros Hf Hp Hq Hr Hs.
  destruct (groups_consistent (ops2 (A := Z) 8 packflag nq permute) (elems2 nq) (inbx2 nq) _ _ (rspec2 8 packflag nq permute Hf Hp Hq (or_introl eq_refl)) n ins outs
    r pl Hr Hs) as (G1 & G2 & G3 & G4 & G5 & G6).
  split; [exact G1|]. split; [exact G2|]. split; [|split; [|split; [exact G5|exact G6]]];
  intros q p Hqn H1 H2; [apply (G3 q (p, 0))|apply (G4 q (p, 0))]; try exact Hqn; split; cbn; auto; lia.
Qed.
Lemma C13_counts_proof n packflag nq permute ins outs r q plr plq i j c d mp c' d' mp' :
  flag_ok packflag -> perm_ok2 permute -> 0 < nq ->
  (r < n)%nat -> setup2 n true packflag nq permute ins outs r = Some plr -> setup2 n true packflag nq permute ins outs q = Some plq ->
  nth_error (rp_group plr) i = Some q -> nth_error (rp_sside plr) i = Some (c, d, mp) ->
  nth_error (rp_group plq) j = Some r -> nth_error (rp_rside plq) j = Some (c', d', mp') ->
  c = c' /\ exists l : list (pt2 * Z), NoDup l /\
    (forall p x, In (p, x) l <-> inb2 p (ins r) /\ inb2 p (outs q) /\ 0 <= x < nq) /\ c = zlen l.
Proof.
  intros Hf Hp Hq Hr H1 H2 H3 H4 H5 H6.
  destruct (counts_match (ops2 (A := Z) 8 packflag nq permute) (elems2 nq) (inbx2 nq) _ _ (rspec2 8 packflag nq permute Hf Hp Hq (or_introl eq_refl)) n ins outs
    r q plr plq i j c d mp c' d' mp' Hr H1 H2 H3 H4 H5 H6) as (E & l & ND & HI & Hc).
  split; [exact E|]. exists l. split; [exact ND|]. split; [|exact Hc]. intros p x. rewrite HI. unfold inbx2. cbn. tauto.
Qed.
Lemma C13_slots_proof n packflag nq permute ins outs r pl :
  flag_ok packflag -> perm_ok2 permute -> 0 < nq -> (r < n)%nat -> setup2 n true packflag nq permute ins outs r = Some pl ->
  length (rp_sside pl) = length (rp_group pl) /\ length (rp_rside pl) = length (rp_group pl) /\
  (forall side size, (side, size) = (rp_sside pl, rp_sendsize pl) \/ (side, size) = (rp_rside pl, rp_recvsize pl) ->
    (forall i c d mp, nth_error side i = Some (c, d, mp) -> 0 < c -> 0 <= d /\ d + c <= size) /\
    (forall i i' c d mp c' d' mp', (i < i')%nat -> nth_error side i = Some (c, d, mp) -> nth_error side i' = Some (c', d', mp') ->
       0 < c -> 0 < c' -> d + c <= d')).
Proof.
  intros Hf Hp Hq Hr Hs.
  exact (slots_ok (ops2 (A := Z) 8 packflag nq permute) (elems2 nq) (inbx2 nq) _ _ (rspec2 8 packflag nq permute Hf Hp Hq (or_introl eq_refl)) n ins outs r pl Hr Hs).
Qed.
Lemma C13_plans_example_proof : exists pl0 pl1, setup2 2 true 0 2 1 e2_in e2_out 0 = Some pl0 /\ setup2 2 true 0 2 1 e2_in e2_out 1 = Some pl1 /\
  with_rank 1 (out_msgs pl0) = [4] /\ with_rank 0 (in_msgs pl1) = [4] /\ rp_group pl0 = [0; 1]%nat /\ map (fun x => fst x) (rp_rside pl1) = [(4, 0); (4, 4)].
Proof. eexists. eexists. split; [vm_compute; reflexivity|]. split; [vm_compute; reflexivity|]. repeat split; vm_compute; reflexivity. Qed.

Lemma C14_proof :
  exists n N nq permute ins outs (M0 : nat -> @rmem Z),
    tiling2 n N ins /\ tiling2 n N outs /\ call_ok2 8 n nq permute ins outs false 2 BIn BOut M0 /\
    exists eager l s a, run n eager (start n (remap2 4 n false 2 nq permute ins outs BIn BOut) M0) l s /\ step n eager a s = Bad.
Proof.
  exists 2%nat, e2_N, 1, 0, e2_in, e2_out, (e2_M false 2 1 0).
  split; [apply e2_tiling_in|]. split; [apply e2_tiling_out|]. split; [apply e2_ok; [inl|inl|inl|left; reflexivity|data|data]|].
  exists (fun _ _ => false), [Lrank 0].
  set (s0 := start 2 (remap2 4 2 false 2 1 0 e2_in e2_out BIn BOut) (e2_M false 2 1 0)).
  assert (H : match step 2 (fun _ _ => false) (Lrank 0) s0 with Ok s => step 2 (fun _ _ => false) (Lrank 0) s = Bad | _ => False end)
    by (vm_compute; reflexivity).
  destruct (step 2 (fun _ _ => false) (Lrank 0) s0) as [ | |s] eqn:E; try (exfalso; exact H).
  exists s, (Lrank 0). split; [econstructor; [exact E|constructor]|exact H].
Qed.

Lemma memcpy_copies {A} (dst : list A) d src s n : 0 <= n ->
  memcpy_elems dst d src s n = copies src (map (fun k => (d + k, s + k)) (zrange n)) dst.
Proof.
  intros Hn. unfold memcpy_elems.
  rewrite (for_copies (fun _ x => x) src (fun k => [(d + k, s + k)]) n _ dst dst Hn eq_refl).
  - assert (E : flat_map (fun k => [(d + k, s + k)]) (zrange n) = map (fun k => (d + k, s + k)) (zrange n))
      by (induction (zrange n) as [|x l IH]; cbn; [reflexivity|rewrite IH; reflexivity]).
    rewrite E. destruct (copies _ _ _); reflexivity.
  - intros j x Hj. cbn [copies]. destruct (zget src (s + j)); [|reflexivity]. cbn. destruct (zset x (d + j) a); reflexivity.
Qed.

Lemma C14_overrun_proof (A : Type) (data : list A) d0 buf b0 pl :
  0 < nfast2 pl -> 0 < nslow2 pl -> zlen buf = b0 + nslow2 pl * nfast2 pl -> pack_2d_memcpy 4 data d0 buf b0 pl = None.
Proof.
  intros H1 H2 HL. destruct (pack_2d_memcpy 4 data d0 buf b0 pl) as [buf'|] eqn:E; [|reflexivity]. exfalso.
  unfold pack_2d_memcpy in E. assert (D : nfast2 pl * 8 / 4 = 2 * nfast2 pl).
  { replace (nfast2 pl * 8) with ((2 * nfast2 pl) * 4) by lia. apply Z.div_mul. lia. }
  rewrite D in E.
  rewrite (for_copies (fun _ x => x) data
    (fun slow => map (fun k => (b0 + slow * nfast2 pl + k, d0 + slow * nstride2 pl + k)) (zrange (2 * nfast2 pl))) (nslow2 pl) _ buf buf ltac:(lia) eq_refl) in E.
  - destruct (copies _ _ buf) as [x|] eqn:Ec; [|discriminate].
    assert (Hin := copies_inv _ _ _ _ Ec (b0 + (nslow2 pl - 1) * nfast2 pl + (2 * nfast2 pl - 1)) (d0 + (nslow2 pl - 1) * nstride2 pl + (2 * nfast2 pl - 1))).
    destruct Hin as (Hin & _); [|nia].
    apply in_flat_map. exists (nslow2 pl - 1). split; [apply In_zrange; lia|]. apply in_map_iff. exists (2 * nfast2 pl - 1).
    split; [reflexivity|]. apply In_zrange. lia.
  - intros j x Hj. rewrite memcpy_copies by lia. destruct (copies _ _ x); reflexivity.
Qed.
