(** ExRemap.v : concrete layouts used as examples (tests, not proofs). *)

From Verif Require Import Base Spec Pack3d Pack2d Sched Remap Remap3d Remap2d RemapMain RemapInst RemapThms RemapTop Exec.

(** *** running the machine with one fixed scheduler *)
Section Run.
Context {A : Type}.
Definition labels_of (n : nat) : list label :=
  map Lrank (seq 0 n) ++ flat_map (fun p => map (Ldeliver p) (seq 0 n)) (seq 0 n)
  ++ flat_map (fun p => map (Lwait p) (seq 0 n)) (seq 0 n).
Fixpoint first_ok (n : nat) (ls : list label) (s : @gstate A) : option gstate :=
  match ls with
  | [] => None
  | a :: t => match step n (fun _ _ => false) a s with Ok s' => Some s' | _ => first_ok n t s end
  end.
Fixpoint drive (fuel : nat) (n : nat) (s : @gstate A) : gstate :=
  match fuel with
  | O => s
  | S f => match first_ok n (labels_of n) s with Some s' => drive f n s' | None => s end
  end.
Definition out_after (n : nat) (code : nat -> list instr) (M0 : nat -> @rmem A) : list (list A) :=
  map m_out (mems_of (drive 1000 n (start n code M0))).
Definition in_after (n : nat) (code : nat -> list instr) (M0 : nat -> @rmem A) : list (list A) :=
  map m_in (mems_of (drive 1000 n (start n code M0))).
End Run.

(** *** 3d: 3 ranks, grid 4 x 2 x 2, rank 2 owns nothing on input *)
Definition e3_N := (4, 2, 2).
Definition e3_in (r : nat) : box3 :=
  match r with O => mkbox3 0 1 0 1 0 1 | 1%nat => mkbox3 2 3 0 1 0 1 | _ => mkbox3 4 3 0 1 0 1 end.
Definition e3_out (r : nat) : box3 :=
  match r with O => mkbox3 0 3 0 0 0 0 | 1%nat => mkbox3 0 3 1 1 0 0 | _ => mkbox3 0 3 0 1 1 1 end.
Definition e3_g (p : pt3) (q : Z) : Z := let '(i, j, k) := p in 1000 * q + 100 * i + 10 * j + k.

(** storage of the field on a tile *)
Definition fill3 (nq perm : Z) (b : box3) (g : pt3 -> Z -> Z) : list Z :=
  map (fun c => match find (fun e => cell3 nq perm b (fst e) (snd e) =? c) (elems3 nq b) with Some e => g (fst e) (snd e) | None => -1 end)
      (zrange (nq * vol3 b)).

Lemma zget_zrange n i : 0 <= i < n -> zget (zrange n) i = Some i.
Proof.
  intros H. unfold zrange. assert (G : forall k a j, 0 <= j < Z.of_nat k -> zget (zseq a k) j = Some (a + j)).
  { induction k as [|k IH]; intros a j Hj; [lia|]. cbn [zseq]. destruct (Z.eq_dec j 0) as [->|].
    - cbn. f_equal. lia.
    - rewrite zget_cons. destruct (Z.eqb_spec j 0); [contradiction|]. rewrite IH by lia. f_equal. lia. }
  rewrite G by lia. f_equal.
Qed.

Lemma fill3_holds nq perm b g : 0 < nq -> holds3 nq perm b g (fill3 nq perm b g).
Proof.
  intros Hq p q Hp Hqq. unfold fill3. pose proof (cell3_bound nq perm b p q Hp Hqq) as Hc.
  rewrite (vol3_pos b p Hp).
  rewrite zget_map, zget_zrange by lia. cbn [option_map]. f_equal.
  destruct (find (fun e => cell3 nq perm b (fst e) (snd e) =? cell3 nq perm b p q) (elems3 nq b)) as [e|] eqn:Ef.
  - apply find_some in Ef as (Hi & He). apply In_elems3 in Hi; [|lia]. apply Z.eqb_eq in He. destruct Hi as (H1 & H2).
    destruct (cell3_inj nq perm b _ _ _ _ H1 Hp H2 Hqq He) as (-> & ->). reflexivity.
  - exfalso. assert (Hn := find_none _ _ Ef (p, q)). cbn in Hn. rewrite Z.eqb_refl in Hn. assert (true = false); [|discriminate].
    apply Hn. apply In_elems3; [lia|]. split; assumption.
Qed.

(** memories: in holds the field, out and the buffers are filled with markers *)
Definition e3_M (coll : bool) (packflag nq perm : Z) (r : nat) : @rmem Z :=
  let '(s, t) := match setup3 3 coll packflag nq perm e3_in e3_out r with
                 | Some pl => (rp_sendsize pl, rp_recvsize pl) | None => (0, 0) end in
  let fit l := l ++ map (fun _ => -7) (zrange (nq * vol3 (e3_out r) - zlen l)) in
  mkmem (fit (fill3 nq 0 (e3_in r) e3_g)) (map (fun _ => -1) (zrange (nq * Z.max (vol3 (e3_in r)) (vol3 (e3_out r)))))
        (map (fun _ => -2) (zrange s)) (map (fun _ => -3) (zrange t)).

Ltac three r H := destruct r as [|[|[|r]]]; [| | |exfalso; lia].

Lemma e3_tiling_in : tiling3 3 e3_N e3_in.
Proof.
  split; [|split].
  - intros [[i j] k] r Hr H. three r Hr; cbn in *; lia.
  - intros [[i j] k] r r' Hr Hr' H H'. three r Hr; three r' Hr'; cbn in *; lia.
  - intros [[i j] k] H. cbn in H. destruct (Z_le_gt_dec i 1); [exists 0%nat|exists 1%nat]; cbn; lia.
Qed.
Lemma e3_tiling_out : tiling3 3 e3_N e3_out.
Proof.
  split; [|split].
  - intros [[i j] k] r Hr H. three r Hr; cbn in *; lia.
  - intros [[i j] k] r r' Hr Hr' H H'. three r Hr; three r' Hr'; cbn in *; lia.
  - intros [[i j] k] H. cbn in H. destruct (Z.eq_dec k 1); [exists 2%nat; cbn; lia|].
    destruct (Z_le_gt_dec j 0); [exists 0%nat|exists 1%nat]; cbn; lia.
Qed.

Lemma tiling_disjoint3 n N t : tiling3 n N t -> disjoint_owners3 n t.
Proof. intros H. apply H. Qed.
Lemma tilings_covered3 n N t u : tiling3 n N t -> tiling3 n N u -> covered3 n t u.
Proof. intros (_ & _ & H) (H2 & _) p r Hr Hp. apply H. eapply H2; eassumption. Qed.
Lemma tiling_disjoint2 n N t : tiling2 n N t -> disjoint_owners2 n t.
Proof. intros H. apply H. Qed.
Lemma tilings_covered2 n N t u : tiling2 n N t -> tiling2 n N u -> covered2 n t u.
Proof. intros (_ & _ & H) (H2 & _) p r Hr Hp. apply H. eapply H2; eassumption. Qed.

Ltac le_compute := vm_compute; let H := fresh in intros H; discriminate H.
Lemma e3_ok coll packflag nq perm din dout : In packflag [0; 1; 2] -> In nq [1; 2; 3] -> In perm [0; 1; 2] ->
  isdata din -> isdata dout ->
  call_ok3 3 nq perm e3_in e3_out coll packflag din dout (e3_M coll packflag nq perm).
Proof.
  intros Hf Hq Hp Hdi Hdo. split; [cbn in Hf; unfold flag_ok; intuition lia|]. split; [exact Hdi|]. split; [exact Hdo|].
  cbn in Hf, Hq, Hp. split.
  - intros r Hr. destruct Hdi as [-> | ->], Hdo as [-> | ->]; three r Hr; cbn [getb];
    destruct coll, Hf as [<- | [<- | [<- | []]]], Hq as [<- | [<- | [<- | []]]], Hp as [<- | [<- | [<- | []]]]; split; le_compute.
  - intros r pl Hr H. unfold e3_M. rewrite H. cbn [m_send m_recv]. rewrite !zlen_map, !zlen_zrange. lia.
Qed.

(** executions *)
Example e3_run_p2p : out_after 3 (remap3 3 false 0 1 1 e3_in e3_out BIn BOut) (e3_M false 0 1 1) =
  [ [0; 100; 200; 300; -1; -1; -1; -1]; [10; 110; 210; 310; -1; -1; -1; -1]; [1; 11; 101; 111; 201; 211; 301; 311] ].
Proof. vm_compute. reflexivity. Qed.
Example e3_run_coll : out_after 3 (remap3 3 true 2 1 1 e3_in e3_out BIn BOut) (e3_M true 2 1 1) =
  [ [0; 100; 200; 300; -1; -1; -1; -1]; [10; 110; 210; 310; -1; -1; -1; -1]; [1; 11; 101; 111; 201; 211; 301; 311] ].
Proof. vm_compute. reflexivity. Qed.

(** *** 2d: 2 ranks, grid 3 x 2 *)
Definition e2_N := (3, 2).
Definition e2_in (r : nat) : box2 := match r with O => mkbox2 0 2 0 0 | _ => mkbox2 0 2 1 1 end.
Definition e2_out (r : nat) : box2 := match r with O => mkbox2 0 0 0 1 | _ => mkbox2 1 2 0 1 end.
Definition e2_g (p : pt2) (q : Z) : Z := let '(i, j) := p in 100 * q + 10 * i + j.
Definition fill2 (nq perm : Z) (b : box2) (g : pt2 -> Z -> Z) : list Z :=
  map (fun c => match find (fun e => cell2 nq perm b (fst e) (snd e) =? c) (elems2 nq b) with Some e => g (fst e) (snd e) | None => -1 end)
      (zrange (nq * vol2 b)).
Lemma fill2_holds nq perm b g : 0 < nq -> holds2 nq perm b g (fill2 nq perm b g).
Proof.
  intros Hq p q Hp Hqq. unfold fill2. pose proof (cell2_bound nq perm b p q Hp Hqq) as Hc.
  rewrite (vol2_pos b p Hp).
  rewrite zget_map, zget_zrange by lia. cbn [option_map]. f_equal.
  destruct (find (fun e => cell2 nq perm b (fst e) (snd e) =? cell2 nq perm b p q) (elems2 nq b)) as [e|] eqn:Ef.
  - apply find_some in Ef as (Hi & He). apply In_elems2 in Hi; [|lia]. apply Z.eqb_eq in He. destruct Hi as (H1 & H2).
    destruct (cell2_inj nq perm b _ _ _ _ H1 Hp H2 Hqq He) as (-> & ->). reflexivity.
  - exfalso. assert (Hn := find_none _ _ Ef (p, q)). cbn in Hn. rewrite Z.eqb_refl in Hn. assert (true = false); [|discriminate].
    apply Hn. apply In_elems2; [lia|]. split; assumption.
Qed.
Definition e2_M (coll : bool) (packflag nq perm : Z) (r : nat) : @rmem Z :=
  let '(s, t) := match setup2 2 coll packflag nq perm e2_in e2_out r with
                 | Some pl => (rp_sendsize pl, rp_recvsize pl) | None => (0, 0) end in
  let sz := nq * Z.max (vol2 (e2_in r)) (vol2 (e2_out r)) in
  let fit l := l ++ map (fun _ => -7) (zrange (sz - zlen l)) in
  mkmem (fit (fill2 nq 0 (e2_in r) e2_g)) (map (fun _ => -1) (zrange sz))
        (map (fun _ => -2) (zrange s)) (map (fun _ => -3) (zrange t)).
Lemma e2_tiling_in : tiling2 2 e2_N e2_in.
Proof.
  split; [|split].
  - intros [i j] r Hr H. destruct r as [|[|r]]; [| |exfalso; lia]; cbn in *; lia.
  - intros [i j] r r' Hr Hr' H H'. destruct r as [|[|r]]; [| |exfalso; lia]; (destruct r' as [|[|r']]; [| |exfalso; lia]); cbn in *; lia.
  - intros [i j] H. cbn in H. destruct (Z_le_gt_dec j 0); [exists 0%nat|exists 1%nat]; cbn; lia.
Qed.
Lemma e2_tiling_out : tiling2 2 e2_N e2_out.
Proof.
  split; [|split].
  - intros [i j] r Hr H. destruct r as [|[|r]]; [| |exfalso; lia]; cbn in *; lia.
  - intros [i j] r r' Hr Hr' H H'. destruct r as [|[|r]]; [| |exfalso; lia]; (destruct r' as [|[|r']]; [| |exfalso; lia]); cbn in *; lia.
  - intros [i j] H. cbn in H. destruct (Z_le_gt_dec i 0); [exists 0%nat|exists 1%nat]; cbn; lia.
Qed.
Lemma e2_ok esize coll packflag nq perm din dout : In packflag [0; 1; 2] -> In nq [1; 2; 3] -> In perm [0; 1] ->
  esize = 8 \/ packflag <> 2 -> isdata din -> isdata dout ->
  call_ok2 esize 2 nq perm e2_in e2_out coll packflag din dout (e2_M coll packflag nq perm).
Proof.
  intros Hf Hq Hp He Hdi Hdo. split; [cbn in Hf; unfold flag_ok; intuition lia|]. split; [exact He|]. split; [exact Hdi|]. split; [exact Hdo|].
  clear He. cbn in Hf, Hq, Hp. split.
  - intros r Hr. destruct Hdi as [-> | ->], Hdo as [-> | ->]; (destruct r as [|[|r]]; [| |exfalso; lia]); cbn [getb];
    destruct coll, Hf as [<- | [<- | [<- | []]]], Hq as [<- | [<- | [<- | []]]], Hp as [<- | [<- | []]]; split; le_compute.
  - intros r pl Hr H. unfold e2_M. rewrite H. cbn [m_send m_recv]. rewrite !zlen_map, !zlen_zrange. lia.
Qed.
Example e2_run : out_after 2 (remap2 8 2 false 2 1 0 e2_in e2_out BIn BOut) (e2_M false 2 1 0) = [ [0; 1; -1]; [10; 20; 11; 21] ].
Proof. vm_compute. reflexivity. Qed.
Example e2_run_coll : out_after 2 (remap2 8 2 true 0 1 1 e2_in e2_out BIn BOut) (e2_M true 0 1 1) = [ [0; 1; -1]; [10; 11; 20; 21] ].
Proof. vm_compute. reflexivity. Qed.
(** single precision with packflag 2: the copy runs past the end of the buffers *)
Example e2_single : out_after 2 (remap2 4 2 false 2 1 0 e2_in e2_out BIn BOut) (e2_M false 2 1 0) <> [ [0; 1; -1]; [10; 20; 11; 21] ].
Proof. vm_compute. discriminate. Qed.
