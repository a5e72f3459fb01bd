(** PropertiesSpmd.v : property C49 (setup run by every rank on its own), proofs by reference. *)

From Coq Require Import String.
From Verif Require Import Base Spec Pack3d Pack2d Sched Remap Remap3d Remap2d RemapInst RemapThms Layout Setup3d Setup2d Fft3dEx
  Spmd SpmdProofs SpmdSetup.
Open Scope Z_scope.

(** ** C49 *)
(** Every rank runs FFT3d::setup with its own boxes and learns about the others only through the
    collective calls.  All runs end, in the same state, and every rank holds its share of the
    global result of Setup3d.v, or every rank reports the same error. *)
Theorem C49_setup3d : forall ar n st N permute ins outs, (1 <= n)%nat ->
  let s0 := map (fun r => setup3d_rank ar n st N permute r (ins r) (outs r)) (seq 0 n) in
  exists e, csteps s0 e /\ stopped e /\ (forall t, csteps s0 t -> csteps t e) /\ List.length e = n /\
  forall r, (r < n)%nat ->
    match setup3d ar n st N permute ins outs with
    | SErr m => nth_error e r = Some (PErr m)
    | SUB => nth_error e r = Some PUB
    | SOk f => exists x, share3 n st f r = Some x /\ nth_error e r = Some (PRet x)
    end.
Proof. exact setup3d_runs. Qed.
Print Assumptions C49_setup3d.
Definition c49_in (r : nat) : box3 := mkbox3 0 1 0 1 (Z.of_nat r) (Z.of_nat r).
Definition c49_out (r : nat) : box3 := mkbox3 (Z.of_nat r) (Z.of_nat r) 0 1 0 1.
(** two ranks; with swapped layouts rank 1 builds both directions, with a wrong box both ranks stop with the error *)
Example C49_setup3d_example :
  (match setup3d exact_areas 2 (mkset 2 0 2) (2, 2, 2) 2 c49_in c49_out with
   | SOk f => match share3 2 (mkset 2 0 2) f 1 with
              | Some x => (l_pre x, l_post x, l_same x, match l_midfast x with Some (pl, _, _) => rp_nsend pl | None => 99%nat end, snd (fst (l_midslow x)), l_fftsize x)
              | None => (true, true, true, 99%nat, [], 0) end
   | _ => (true, true, true, 99%nat, [], 0) end) = (false, false, false, 1%nat, [0%nat; 1%nat], 4) /\
  setup3d exact_areas 2 (mkset 2 0 2) (2, 2, 2) 2 (fun r => if Nat.eqb r 1 then mkbox3 0 2 0 1 1 1 else c49_in r) c49_out =
    SErr "FFT setup in/out indices are invalid".
Proof. split; vm_compute; reflexivity. Qed.

Theorem C49_setup2d : forall ar n st N permute ins outs, (1 <= n)%nat ->
  let s0 := map (fun r => setup2d_rank ar n st N permute r (ins r) (outs r)) (seq 0 n) in
  exists e, csteps s0 e /\ stopped e /\ (forall t, csteps s0 t -> csteps t e) /\ List.length e = n /\
  forall r, (r < n)%nat ->
    match setup2d ar n st N permute ins outs with
    | SErr m => nth_error e r = Some (PErr m)
    | SUB => nth_error e r = Some PUB
    | SOk f => exists x, share2 n st f r = Some x /\ nth_error e r = Some (PRet x)
    end.
Proof. exact setup2d_runs. Qed.
Print Assumptions C49_setup2d.
Definition c49_in2 (r : nat) : box2 := mkbox2 0 3 (2 * Z.of_nat r) (2 * Z.of_nat r + 1).
Example C49_setup2d_example :
  (match setup2d exact_areas 2 (mkset 2 0 2) (4, 4) 0 c49_in2 c49_in2 with
   | SOk f => match share2 2 (mkset 2 0 2) f 1 with
              | Some x => (l2_pre x, l2_post x, l2_same x, snd (fst (l2_fastslow x)), l2_fftsize x)
              | None => (true, true, true, [], 0) end
   | _ => (true, true, true, [], 0) end) = (false, true, true, [0%nat; 1%nat], 8).
Proof. vm_compute. reflexivity. Qed.

(** A remap created by the user: any boxes on any rank. *)
Theorem C49_remap3d : forall n coll pack nqty permute (ins outs : nat -> box3), (1 <= n)%nat ->
  let s0 := map (fun r => remap_rank (ops3 (A := Z) pack nqty permute) n coll r (ins r) (outs r) (fun m => PRet m)) (seq 0 n) in
  exists e, csteps s0 e /\ stopped e /\ (forall t, csteps s0 t -> csteps t e) /\ List.length e = n /\
  forall r, (r < n)%nat -> exists pl, setup3 n coll pack nqty permute ins outs r = Some pl /\ nth_error e r = Some (PRet (pl, rp_group pl)).
Proof. exact remap3d_runs. Qed.
Print Assumptions C49_remap3d.
Theorem C49_remap2d : forall n coll pack nqty permute (ins outs : nat -> box2), (1 <= n)%nat ->
  let s0 := map (fun r => remap_rank (ops2 (A := Z) 8 pack nqty permute) n coll r (ins r) (outs r) (fun m => PRet m)) (seq 0 n) in
  exists e, csteps s0 e /\ stopped e /\ (forall t, csteps s0 t -> csteps t e) /\ List.length e = n /\
  forall r, (r < n)%nat -> exists pl, setup2 n coll pack nqty permute ins outs r = Some pl /\ nth_error e r = Some (PRet (pl, rp_group pl)).
Proof. exact remap2d_runs. Qed.
Print Assumptions C49_remap2d.
(** three ranks: 0 and 1 exchange their boxes, 2 keeps its own; the new communicator of ranks 0 and 1 leaves out rank 2 *)
Definition c49_rin (r : nat) : box3 := mkbox3 0 1 0 1 (Z.of_nat r) (Z.of_nat r).
Definition c49_rout (r : nat) : box3 := nth r [mkbox3 0 1 0 1 1 1; mkbox3 0 1 0 1 0 0] (mkbox3 0 1 0 1 2 2).
Example C49_remap3d_example :
  map (fun r => match setup3 3 true 0 1 0 c49_rin c49_rout r with Some pl => rp_group pl | None => [] end) (seq 0 3) =
  [[0; 1]; [0; 1]; [2]]%nat.
Proof. vm_compute. reflexivity. Qed.
Example C49_remap2d_example :
  map (fun r => match setup2 2 true 0 1 0 c49_in2 c49_in2 r with Some pl => rp_group pl | None => [] end) (seq 0 2) = [[0]; [1]]%nat.
Proof. vm_compute. reflexivity. Qed.

(** Without reference to the global functions: the ranks end alike, so that no rank performs a
    redistribution step, or calls error->all, when another does not. *)
Theorem C49_alike3d : forall ar n st N permute ins outs, (1 <= n)%nat ->
  let s0 := map (fun r => setup3d_rank ar n st N permute r (ins r) (outs r)) (seq 0 n) in
  exists e, csteps s0 e /\ (forall t, csteps s0 t -> csteps t e) /\ List.length e = n /\
  forall r q a b, nth_error e r = Some a -> nth_error e q = Some b -> alike3 a b.
Proof. exact setup3d_alike. Qed.
Print Assumptions C49_alike3d.
Theorem C49_alike2d : forall ar n st N permute ins outs, (1 <= n)%nat ->
  let s0 := map (fun r => setup2d_rank ar n st N permute r (ins r) (outs r)) (seq 0 n) in
  exists e, csteps s0 e /\ (forall t, csteps s0 t -> csteps t e) /\ List.length e = n /\
  forall r q a b, nth_error e r = Some a -> nth_error e q = Some b -> alike2 a b.
Proof. exact setup2d_alike. Qed.
Print Assumptions C49_alike2d.
(** [alike3] is not empty talk: a rank that returns is unlike one that reports an error *)
Example C49_alike3d_example : forall x m, ~ alike3 (PRet x) (PErr m) /\ ~ alike3 (PErr "Invalid nfast") (PErr "Invalid nslow").
Proof. intros x m. split; [intros []|discriminate]. Qed.
Example C49_alike2d_example : forall x m, ~ alike2 (PRet x) (PErr m) /\ ~ alike2 (PErr "Invalid nfast") (PErr "Invalid nslow").
Proof. intros x m. split; [intros []|discriminate]. Qed.

(** The grid dimensions and the settings must be the same on all ranks: otherwise a run can stop
    with one rank in a call the other never makes. *)
Theorem C49_dimensions_refuted : exists ar n st (N : nat -> Z * Z * Z) permute ins outs, (1 <= n)%nat /\
  let s0 := map (fun r => setup3d_rank ar n st (N r) permute r (ins r) (outs r)) (seq 0 n) in
  exists e, csteps s0 e /\ stopped e /\ exists r p, nth_error e r = Some p /\ ~ ended p.
Proof. exact dimensions_stuck. Qed.
Print Assumptions C49_dimensions_refuted.
Theorem C49_settings_refuted : exists n (coll : nat -> bool) pack nqty permute (ins outs : nat -> box3), (1 <= n)%nat /\
  let s0 := map (fun r => remap_rank (ops3 (A := Z) pack nqty permute) n (coll r) r (ins r) (outs r) (fun m => PRet m)) (seq 0 n) in
  exists e, csteps s0 e /\ stopped e /\ exists r p, nth_error e r = Some p /\ ~ ended p.
Proof. exact settings_stuck. Qed.
Print Assumptions C49_settings_refuted.
