(** ExtractEx.v : transforms to boxes that overlap, or leave points out, on a 2 x 2 x 2 and a 2 x 2 grid; after such a
    transform there is no way back (C80). *)

From Coq Require Import Reals Lra.
From Verif Require Import Base Spec Pack3d Pack2d Sched SchedProofs Phases Exec Remap RemapMain RemapInst
  Remap3d Remap2d RemapThms RemapTop ExRemap Layout LayoutProofs Setup3d Setup3dProofs Setup2d Setup2dProofs LayoutFinal
  Kiss KissPure KissAlg KissReal Fft1d KissFinal
  Fft3d Frame Fft3dProofs Fft3dMain DftMulti Fft3dTop Fft3dFinal Fft3dStmt Fft3dEx Fft2d Fft2dMain Fft2dTop Fft2dFinal Fft2dStmt Fft2dEx Extract.
Local Open Scope Z_scope.

(** everything on rank 0 and one point of it also on rank 1; one half on rank 0 and nothing on rank 1 *)
Definition lap3 (r : nat) : box3 := match r with O => mkbox3 0 1 0 1 0 1 | _ => mkbox3 1 1 0 0 1 1 end.
Definition part3 (r : nat) : box3 := match r with O => mkbox3 1 1 0 1 0 1 | _ => mkbox3 0 (-1) 0 1 0 1 end.
(** two slow pencils, of which one is on both ranks: used without a last remap *)
Definition pen3 (r : nat) : box3 := match r with O => mkbox3 0 1 0 0 0 1 | _ => mkbox3 1 1 0 0 0 1 end.
Definition lap2 (r : nat) : box2 := match r with O => mkbox2 0 1 0 1 | _ => mkbox2 1 1 0 0 end.
Definition part2 (r : nat) : box2 := match r with O => mkbox2 1 1 0 1 | _ => mkbox2 0 (-1) 0 1 end.
Definition pen2 (r : nat) : box2 := match r with O => mkbox2 0 1 0 1 | _ => mkbox2 1 1 0 1 end.


Lemma in_lap3 p r : (r < 2)%nat -> inb3 p (lap3 r) -> inb3 p (grid3 g2).
Proof. destruct p as [[i j] k]. destruct r as [|[|r]]; cbn; lia. Qed.
Lemma in_part3 p r : (r < 2)%nat -> inb3 p (part3 r) -> inb3 p (grid3 g2).
Proof. destruct p as [[i j] k]. destruct r as [|[|r]]; cbn; lia. Qed.
Lemma in_pen3 p r : (r < 2)%nat -> inb3 p (pen3 r) -> inb3 p (grid3 g2).
Proof. destruct p as [[i j] k]. destruct r as [|[|r]]; cbn; lia. Qed.
Lemma in_lap2 p r : (r < 2)%nat -> inb2 p (lap2 r) -> inb2 p (grid2 sq2).
Proof. destruct p as [i j]. destruct r as [|[|r]]; cbn; lia. Qed.
Lemma in_part2 p r : (r < 2)%nat -> inb2 p (part2 r) -> inb2 p (grid2 sq2).
Proof. destruct p as [i j]. destruct r as [|[|r]]; cbn; lia. Qed.
Lemma in_pen2 p r : (r < 2)%nat -> inb2 p (pen2 r) -> inb2 p (grid2 sq2).
Proof. destruct p as [i j]. destruct r as [|[|r]]; cbn; lia. Qed.

(** none of them is a tiling *)
Lemma not_tilings3 : ~ tiling3 2 g2 lap3 /\ ~ tiling3 2 g2 part3 /\ ~ tiling3 2 g2 pen3.
Proof.
  split; [|split].
  - intros (_ & H & _). specialize (H (1, 0, 1) 0%nat 1%nat ltac:(lia) ltac:(lia)). cbn in H. discriminate H; lia.
  - intros (_ & _ & H). destruct (H (0, 0, 0)) as ([|[|r]] & Hr & Hp); [cbn; lia|cbn in Hp; lia|cbn in Hp; lia|lia].
  - intros (_ & H & _). specialize (H (1, 0, 1) 0%nat 1%nat ltac:(lia) ltac:(lia)). cbn in H. discriminate H; lia.
Qed.
Lemma not_tilings2 : ~ tiling2 2 sq2 lap2 /\ ~ tiling2 2 sq2 part2 /\ ~ tiling2 2 sq2 pen2.
Proof.
  split; [|split].
  - intros (_ & H & _). specialize (H (1, 0) 0%nat 1%nat ltac:(lia) ltac:(lia)). cbn in H. discriminate H; lia.
  - intros (_ & _ & H). destruct (H (0, 0)) as ([|[|r]] & Hr & Hp); [cbn; lia|cbn in Hp; lia|cbn in Hp; lia|lia].
  - intros (_ & H & _). specialize (H (1, 0) 0%nat 1%nat ltac:(lia) ltac:(lia)). cbn in H. discriminate H; lia.
Qed.

Lemma ex_loose3 st permute outs f : flag_ok (st_pack st) -> In outs [lap3; part3; pen3] -> exSetup st permute split3 outs = SOk f ->
  loose3 exact_areas 2 st g2 permute split3 outs f.
Proof.
  intros Hf Ho E. split; [exact exact_laws|]. split; [lia|]. split; [unfold ints3, g2, INT_MAX; lia|].
  split; [exact Hf|]. split; [exact (proj1 tile_split)|]. split; [|split; [|exact E]].
  - intros p r Hr. destruct Ho as [<- |[<- |[<- |[]]]]; [apply in_lap3|apply in_part3|apply in_pen3]; exact Hr.
  - intros r Hr. destruct Ho as [<- |[<- |[<- |[]]]]; destruct r as [|[|r]]; try lia; unfold legal3, ni, nj, nk; cbn; lia.
Qed.
Lemma ex_loose2 st permute outs f : flag_ok (st_pack st) -> In outs [lap2; part2; pen2] -> exSetup_2 st permute split2 outs = SOk f ->
  loose2 8 exact_areas 2 st sq2 permute split2 outs f.
Proof.
  intros Hf Ho E. split; [exact exact_laws|]. split; [lia|]. split; [unfold ints2, sq2, INT_MAX; lia|].
  split; [exact Hf|]. split; [left; reflexivity|]. split; [exact (proj1 tile_split_2)|]. split; [|split; [|exact E]].
  - intros p r Hr. destruct Ho as [<- |[<- |[<- |[]]]]; [apply in_lap2|apply in_part2|apply in_pen2]; exact Hr.
  - intros r Hr. destruct Ho as [<- |[<- |[<- |[]]]]; destruct r as [|[|r]]; try lia; unfold legal2, ni2, nj2; cbn; lia.
Qed.

Lemma loose_room3 {A} (mk : Z -> A) G n st permute ins outs f perm lay b : loose3 exact_areas n st g2 permute ins outs f -> layout3 f lay -> isdata b ->
  arrays_ok f b (exMem mk G f perm lay).
Proof.
  intros Hr Hl Hb r Hrn. pose proof (loose_facts _ _ _ _ _ _ _ _ Hr) as FA.
  rewrite (F_n _ _ _ _ _ _ _ FA) in Hrn.
  assert (0 <= f_sendsize f r /\ 0 <= f_recvsize f r).
  { rewrite (F_sendsize _ _ _ _ _ _ _ FA), (F_recvsize _ _ _ _ _ _ _ FA). split; apply maxsizes_nonneg. }
  pose proof (layout_fftsize _ _ _ _ _ _ _ FA lay r Hl Hrn) as Hv.
  assert (0 <= vol3 (lay r)) by (unfold vol3; nia).
  assert (Ez : zlen (fillA (mk (-1)) 2 perm (lay r) (fld G)) = 2 * vol3 (lay r)) by (unfold fillA; rewrite zlen_map, zlen_zrange; lia).
  unfold exMem. cbn [m_send m_recv]. rewrite !zlen_mark by lia. split; [|lia].
  destruct Hb as [-> | ->]; cbn [getb m_in m_out].
  - rewrite zlen_app, Ez, zlen_mark by lia. lia.
  - rewrite zlen_mark by lia. lia.
Qed.
Lemma loose_room2 {A} (mk : Z -> A) G n st permute ins outs f perm lay b : loose2 8 exact_areas n st sq2 permute ins outs f -> layout2 f lay -> isdata b ->
  arrays_ok2 f b (exMem_2 mk G f perm lay).
Proof.
  intros Hr Hl Hb r Hrn. pose proof (loose_facts2 _ _ _ _ _ _ _ _ _ Hr) as FA.
  rewrite (T_n _ _ _ _ _ _ _ FA) in Hrn.
  assert (0 <= t_sendsize f r /\ 0 <= t_recvsize f r).
  { rewrite (T_sendsize _ _ _ _ _ _ _ FA), (T_recvsize _ _ _ _ _ _ _ FA). split; apply maxsizes_nonneg_2. }
  pose proof (layout_fftsize2 _ _ _ _ _ _ _ FA lay r Hl Hrn) as Hv.
  assert (0 <= vol2 (lay r)) by (unfold vol2; nia).
  assert (Ez : zlen (fillA_2 (mk (-1)) 2 perm (lay r) (fld G)) = 2 * vol2 (lay r)) by (unfold fillA_2; rewrite zlen_map, zlen_zrange; lia).
  unfold exMem_2. cbn [m_send m_recv]. rewrite !zlen_mark by lia. split; [|lia].
  destruct Hb as [-> | ->]; cbn [getb m_in m_out].
  - rewrite zlen_app, Ez, zlen_mark by lia. lia.
  - rewrite zlen_mark by lia. lia.
Qed.

(** the hypotheses of C80_forward_3d and C80_forward_2d are met by real data on these boxes, and runs of the model give the sums *)
Lemma extract_meets_3d outs permute (x : pt3 -> R * R) : In outs [lap3; part3; pen3] -> permute = 0 \/ permute = 1 \/ permute = 2 ->
  exists f (M0 : nat -> @rmem R), loose3 exact_areas 2 (mkset 2 1 2) g2 permute split3 outs f /\ arrays_ok f BIn M0 /\
    forall r, (r < 2)%nat -> holds3 2 0 (split3 r) (fld x) (getb BIn (M0 r)).
Proof.
  intros Ho Hp. assert (H : match exSetup (mkset 2 1 2) permute split3 outs with SOk _ => true | _ => false end = true).
  { destruct Ho as [<- |[<- |[<- |[]]]]; destruct Hp as [-> |[-> | ->]]; vm_compute; reflexivity. }
  destruct (exSetup (mkset 2 1 2) permute split3 outs) as [| |f] eqn:Es; try discriminate.
  assert (Hl : loose3 exact_areas 2 (mkset 2 1 2) g2 permute split3 outs f) by (apply ex_loose3; [right; right; reflexivity|exact Ho|exact Es]).
  exists f, (exMem IZR x f 0 split3). split; [exact Hl|]. split; [|intros r _; apply ex_holds].
  eapply loose_room3; [exact Hl| |left; reflexivity]. eapply L_in. eapply loose_facts, Hl.
Qed.
Lemma extract_meets_2d outs permute (x : pt2 -> R * R) : In outs [lap2; part2; pen2] -> permute = 0 \/ permute = 1 ->
  exists f (M0 : nat -> @rmem R), loose2 8 exact_areas 2 (mkset 2 1 2) sq2 permute split2 outs f /\ arrays_ok2 f BIn M0 /\
    forall r, (r < 2)%nat -> holds2 2 0 (split2 r) (fld x) (getb BIn (M0 r)).
Proof.
  intros Ho Hp. assert (H : match exSetup_2 (mkset 2 1 2) permute split2 outs with SOk _ => true | _ => false end = true).
  { destruct Ho as [<- |[<- |[<- |[]]]]; destruct Hp as [-> | ->]; vm_compute; reflexivity. }
  destruct (exSetup_2 (mkset 2 1 2) permute split2 outs) as [| |f] eqn:Es; try discriminate.
  assert (Hl : loose2 8 exact_areas 2 (mkset 2 1 2) sq2 permute split2 outs f) by (apply ex_loose2; [right; right; reflexivity|exact Ho|exact Es]).
  exists f, (exMem_2 IZR x f 0 split2). split; [exact Hl|]. split; [|intros r _; apply ex_holds_2].
  eapply loose_room2; [exact Hl| |left; reflexivity]. eapply L_in2. eapply loose_facts2, Hl.
Qed.
Lemma extract_runs_3d : forallb (fun outs => forallb (fun st => forallb (fun perm => with_plan st perm split3 outs (fun f P =>
    ends_as f (compute3 Zops normZ f P true false FORWARD BIn BIn) 0 split3 BIn perm outs (plain_sum exG))) [0; 1; 2]) all_sets) [lap3; part3; pen3] = true.
Proof. vm_compute. reflexivity. Qed.
Lemma extract_runs_2d : forallb (fun outs => forallb (fun st => forallb (fun perm => with_plan_2 st perm split2 outs (fun f P =>
    ends_as_2 f (compute2 Zops normZ 8 f P true false FORWARD BIn BIn) 0 split2 BIn perm outs (plain_sum_2 exG_2))) [0; 1]) all_sets) [lap2; part2; pen2] = true.
Proof. vm_compute. reflexivity. Qed.

(** ** no way back from boxes that leave points out *)
Definition back_check (f : fft3) (P : @plans3 Z) (ins : nat -> box3) (r : nat) (c want : Z) : bool :=
  let s := final 2 (fun r => compute3 Zops normZ f P false false FORWARD BIn BIn r ++ compute3 Zops normZ f P false false BACKWARD BIn BIn r) (exM f 0 ins) in
  doneb s && neqb (cell_of s r BIn c) (Some want).
Definition back_check2 (f : fft2) (P : @plans2 Z) (ins : nat -> box2) (r : nat) (c want : Z) : bool :=
  let s := final 2 (fun r => compute2 Zops normZ 8 f P false false FORWARD BIn BIn r ++ compute2 Zops normZ 8 f P false false BACKWARD BIn BIn r) (exM_2 f 0 ins) in
  doneb s && neqb (cell_of s r BIn c) (Some want).

Lemma extract_back_3d_refuted : exists st permute ins outs f P (M0 : nat -> @rmem Z) G r p q v,
  loose3 exact_areas 2 st g2 permute ins outs f /\ setup_ffts3 cexpZ g2 = Some P /\ Fft3dTop.room3 f BACKWARD BIn M0 /\
  (forall r, (r < 2)%nat -> holds3 2 0 (ins r) (fld G) (getb BIn (M0 r))) /\ (r < 2)%nat /\ inb3 p (ins r) /\ 0 <= q < 2 /\
  may_end_with 2 (fun r => compute3 Zops normZ f P false false FORWARD BIn BIn r ++ compute3 Zops normZ f P false false BACKWARD BIn BIn r) M0
    r BIn (cell3 2 0 (ins r) p q) v /\ v <> 8 * fld G p q.
Proof.
  destruct (with_plan_inv (mkset 2 0 2) 0 split3 part3 (fun f P => back_check f P split3 0%nat (cell3 2 0 (split3 0%nat) (0, 0, 0) 0) (8 * fld exG (0, 0, 0) 0)))
    as (f & P & Es & EP & Hk); [vm_compute; reflexivity|].
  apply andb_prop in Hk as (H1 & H2). apply neqb_inv in H2 as (v & w & E1 & E2 & Hne). injection E2 as <-.
  assert (Hl : loose3 exact_areas 2 (mkset 2 0 2) g2 0 split3 part3 f) by (apply ex_loose3; [right; right; reflexivity|right; left; reflexivity|exact Es]).
  pose proof (loose_facts _ _ _ _ _ _ _ _ Hl) as FA.
  exists (mkset 2 0 2), 0, split3, part3, f, P, (exM f 0 split3), exG, 0%nat, (0, 0, 0), 0, v.
  split; [exact Hl|]. split; [exact EP|]. split; [split|].
  { eapply loose_room3; [exact Hl|eapply L_in, FA|left; reflexivity]. }
  { intros _ q m Hq Hm. rewrite (F_midfast _ _ _ _ _ _ _ FA) in Hq. destruct (f_same f); [discriminate|]. injection Hq as <-. discriminate Hm. }
  split; [intros r _; apply ex_holds|]. split; [lia|]. split; [cbn; lia|]. split; [lia|]. split; [apply final_ends; assumption|exact Hne].
Qed.
Lemma extract_back_2d_refuted : exists st permute ins outs f P (M0 : nat -> @rmem Z) G r p q v,
  loose2 8 exact_areas 2 st sq2 permute ins outs f /\ setup_ffts2 cexpZ sq2 = Some P /\ arrays_ok2 f BIn M0 /\
  (forall r, (r < 2)%nat -> holds2 2 0 (ins r) (fld G) (getb BIn (M0 r))) /\ (r < 2)%nat /\ inb2 p (ins r) /\ 0 <= q < 2 /\
  may_end_with 2 (fun r => compute2 Zops normZ 8 f P false false FORWARD BIn BIn r ++ compute2 Zops normZ 8 f P false false BACKWARD BIn BIn r) M0
    r BIn (cell2 2 0 (ins r) p q) v /\ v <> 4 * fld G p q.
Proof.
  destruct (with_plan_inv_2 (mkset 2 0 2) 0 split2 part2 (fun f P => back_check2 f P split2 0%nat (cell2 2 0 (split2 0%nat) (0, 0) 0) (4 * fld exG_2 (0, 0) 0)))
    as (f & P & Es & EP & Hk); [vm_compute; reflexivity|].
  apply andb_prop in Hk as (H1 & H2). apply neqb_inv in H2 as (v & w & E1 & E2 & Hne). injection E2 as <-.
  assert (Hl : loose2 8 exact_areas 2 (mkset 2 0 2) sq2 0 split2 part2 f) by (apply ex_loose2; [right; right; reflexivity|right; left; reflexivity|exact Es]).
  pose proof (loose_facts2 _ _ _ _ _ _ _ _ _ Hl) as FA.
  exists (mkset 2 0 2), 0, split2, part2, f, P, (exM_2 f 0 split2), exG_2, 0%nat, (0, 0), 0, v.
  split; [exact Hl|]. split; [exact EP|]. split.
  { eapply loose_room2; [exact Hl|eapply L_in2, FA|left; reflexivity]. }
  split; [intros r _; apply ex_holds_2|]. split; [lia|]. split; [cbn; lia|]. split; [lia|]. split; [apply final_ends; assumption|exact Hne].
Qed.

(** ** remaps: rank 0 wants the two ranks' points and two that nobody has, rank 1 wants two of the same points and one that nobody has *)
Definition want3 (r : nat) : box3 := match r with O => mkbox3 0 0 0 1 (-1) 1 | _ => mkbox3 0 2 1 1 1 1 end.
Definition want3_M (coll : bool) (packflag nq perm : Z) (r : nat) : @rmem Z :=
  let '(s, t) := match setup3 2 coll packflag nq perm split3 want3 r with Some pl => (rp_sendsize pl, rp_recvsize pl) | None => (0, 0) end in
  mkmem (fill3 nq 0 (split3 r) e3_g) (map (fun _ => -1) (zrange (nq * vol3 (want3 r)))) (map (fun _ => -2) (zrange s)) (map (fun _ => -3) (zrange t)).
Lemma want3_ok (coll : bool) packflag nq perm : In packflag [0; 1; 2] -> In nq [1; 2] -> In perm [0; 1; 2] ->
  perm_ok3 perm /\ 0 < nq /\ disjoint_owners3 2 split3 /\ call_ok3 2 nq perm split3 want3 coll packflag BIn BOut (want3_M coll packflag nq perm) /\
  (forall r, (r < 2)%nat -> holds3 nq 0 (split3 r) e3_g (getb BIn (want3_M coll packflag nq perm r))).
Proof.
  intros Hf Hq Hp. cbn in Hf, Hq, Hp. split; [unfold perm_ok3; intuition lia|]. split; [intuition lia|]. split; [apply (proj1 (proj2 (proj1 tile_split)))|].
  split; [split; [unfold flag_ok; intuition lia|]; split; [left; reflexivity|]; split; [right; reflexivity|]; split|].
  - intros r Hr. destruct r as [|[|r]]; [| |exfalso; lia]; cbn [getb];
    destruct coll, Hf as [<- | [<- | [<- | []]]], Hq as [<- | [<- | []]], Hp as [<- | [<- | [<- | []]]]; split; le_compute.
  - intros r pl Hr H. unfold want3_M. rewrite H. cbn [m_send m_recv]. rewrite !zlen_map, !zlen_zrange. lia.
  - intros r Hr. unfold want3_M. destruct (match setup3 2 coll packflag nq perm split3 want3 r with Some pl => _ | None => _ end) as (s & t).
    cbn [getb m_in]. apply fill3_holds. intuition lia.
Qed.
Lemma want3_run : forall coll, out_after 2 (remap3 2 coll 2 1 0 split3 want3 BIn BOut) (want3_M coll 2 1 0) = [ [-1; -1; 0; 10; 1; 11]; [11; 111; -1] ].
Proof. intros []; vm_compute; reflexivity. Qed.

Definition want2 (r : nat) : box2 := match r with O => mkbox2 0 2 0 0 | _ => mkbox2 0 0 (-1) 1 end.
Definition want2_M (coll : bool) (packflag nq perm : Z) (r : nat) : @rmem Z :=
  let '(s, t) := match setup2 2 coll packflag nq perm split2 want2 r with Some pl => (rp_sendsize pl, rp_recvsize pl) | None => (0, 0) end in
  mkmem (fill2 nq 0 (split2 r) e2_g) (map (fun _ => -1) (zrange (nq * vol2 (want2 r)))) (map (fun _ => -2) (zrange s)) (map (fun _ => -3) (zrange t)).
Lemma want2_ok (coll : bool) packflag nq perm : In packflag [0; 1; 2] -> In nq [1; 2] -> In perm [0; 1] ->
  perm_ok2 perm /\ 0 < nq /\ disjoint_owners2 2 split2 /\ call_ok2 8 2 nq perm split2 want2 coll packflag BIn BOut (want2_M coll packflag nq perm) /\
  (forall r, (r < 2)%nat -> holds2 nq 0 (split2 r) e2_g (getb BIn (want2_M coll packflag nq perm r))).
Proof.
  intros Hf Hq Hp. cbn in Hf, Hq, Hp. split; [unfold perm_ok2; intuition lia|]. split; [intuition lia|]. split; [apply (proj1 (proj2 (proj1 tile_split_2)))|].
  split; [split; [unfold flag_ok; intuition lia|]; split; [left; reflexivity|]; split; [left; reflexivity|]; split; [right; reflexivity|]; split|].
  - intros r Hr. destruct r as [|[|r]]; [| |exfalso; lia]; cbn [getb];
    destruct coll, Hf as [<- | [<- | [<- | []]]], Hq as [<- | [<- | []]], Hp as [<- | [<- | []]]; split; le_compute.
  - intros r pl Hr H. unfold want2_M. rewrite H. cbn [m_send m_recv]. rewrite !zlen_map, !zlen_zrange. lia.
  - intros r Hr. unfold want2_M. destruct (match setup2 2 coll packflag nq perm split2 want2 r with Some pl => _ | None => _ end) as (s & t).
    cbn [getb m_in]. apply fill2_holds. intuition lia.
Qed.
Lemma want2_run : forall coll, out_after 2 (remap2 8 2 coll 2 1 0 split2 want2 BIn BOut) (want2_M coll 2 1 0) = [ [0; 10; -1]; [-1; 0; 1] ].
Proof. intros []; vm_compute; reflexivity. Qed.
