(** PropertiesVolume.v : property C66 (communication volume and balance), proofs by reference. *)

From Verif Require Import Base Spec Pack3d Sched Phases Exec Remap RemapInst Remap3d Remap2d RemapThms RemapTop ExRemap Layout Setup3d Setup2d LayoutFinal
  Kiss KissPure Fft1d Fft3d Fft3dMain Fft3dTop Fft3dEx Fft2d Fft2dMain Fft2dTop Fft2dEx Volume VolumeFft.
Local Open Scope Z_scope.

(** ** C66 *)
(** what one rank sends to another in a remap is [nq] scalars for every point that the sender holds before and the receiver holds after,
    the receiver expects as much; without collective communication it is one message, or none if there is no such point *)
Theorem C66_pair_3d : forall {A} n coll packflag nq permute ins outs din dout r q, flag_ok packflag -> perm_ok3 permute -> 0 < nq ->
  (r < n)%nat -> (q < n)%nat -> r <> q ->
  exists k, number (fun p => inb3 p (ins r) /\ inb3 p (outs q)) k /\
    sends q (remap3 (A := A) n coll packflag nq permute ins outs din dout r) = nq * k /\
    expects r (remap3 (A := A) n coll packflag nq permute ins outs din dout q) = nq * k /\
    msgs q (remap3 (A := A) n coll packflag nq permute ins outs din dout r) = if coll then 0 else if 0 <? k then 1 else 0.
Proof. exact @volume_pair3. Qed.
Print Assumptions C66_pair_3d.
Theorem C66_pair_2d : forall {A} esize n coll packflag nq permute ins outs din dout r q, flag_ok packflag -> perm_ok2 permute -> 0 < nq ->
  esize = 8 \/ packflag <> 2 -> (r < n)%nat -> (q < n)%nat -> r <> q ->
  exists k, number (fun p => inb2 p (ins r) /\ inb2 p (outs q)) k /\
    sends q (remap2 (A := A) esize n coll packflag nq permute ins outs din dout r) = nq * k /\
    expects r (remap2 (A := A) esize n coll packflag nq permute ins outs din dout q) = nq * k /\
    msgs q (remap2 (A := A) esize n coll packflag nq permute ins outs din dout r) = if coll then 0 else if 0 <? k then 1 else 0.
Proof. exact @volume_pair2. Qed.
Print Assumptions C66_pair_2d.

(** without collective communication a rank sends nothing to itself, expects nothing from itself, and uses no other rank number *)
Theorem C66_self_3d : forall {A} n packflag nq permute ins outs din dout r q, flag_ok packflag -> perm_ok3 permute -> 0 < nq -> (r < n)%nat ->
  q = r \/ (n <= q)%nat ->
  let code := remap3 (A := A) n false packflag nq permute ins outs din dout r in sends q code = 0 /\ expects q code = 0 /\ msgs q code = 0.
Proof. exact @volume_self3. Qed.
Print Assumptions C66_self_3d.
Theorem C66_self_2d : forall {A} esize n packflag nq permute ins outs din dout r q, flag_ok packflag -> perm_ok2 permute -> 0 < nq ->
  esize = 8 \/ packflag <> 2 -> (r < n)%nat -> q = r \/ (n <= q)%nat ->
  let code := remap2 (A := A) esize n false packflag nq permute ins outs din dout r in sends q code = 0 /\ expects q code = 0 /\ msgs q code = 0.
Proof. exact @volume_self2. Qed.
Print Assumptions C66_self_2d.

(** all ranks together send [nq] scalars for every point that changes its owner, in every communication mode, packing mode and permutation *)
Theorem C66_total_3d : forall {A} n coll packflag nq permute ins outs din dout, flag_ok packflag -> perm_ok3 permute -> 0 < nq ->
  disjoint_owners3 n ins -> disjoint_owners3 n outs ->
  exists k, number (moves3 n ins outs) k /\ traffic n (remap3 (A := A) n coll packflag nq permute ins outs din dout) = nq * k.
Proof. exact @volume_total3. Qed.
Print Assumptions C66_total_3d.
Theorem C66_total_2d : forall {A} esize n coll packflag nq permute ins outs din dout, flag_ok packflag -> perm_ok2 permute -> 0 < nq ->
  esize = 8 \/ packflag <> 2 -> disjoint_owners2 n ins -> disjoint_owners2 n outs ->
  exists k, number (moves2 n ins outs) k /\ traffic n (remap2 (A := A) esize n coll packflag nq permute ins outs din dout) = nq * k.
Proof. exact @volume_total2. Qed.
Print Assumptions C66_total_2d.

(** compute and only_remaps send two scalars for every change of owner along the chain of layouts of the transform; only_1d_ffts sends nothing *)
Theorem C66_fft_3d : forall {F} (O : sops F) rnorm ar n st N permute ins outs f, ready3 ar n st N permute ins outs f ->
  (forall P scaled remaponly flag bi bo, sends_moved3 n 2 (route3 f flag) (compute3 O rnorm f P scaled remaponly flag bi bo)) /\
  (forall flag bi bo, sends_moved3 n 2 (route3 f flag) (only_remaps3 (F := F) f flag bi bo)) /\
  (forall P flag b, traffic n (only_1d_ffts3 O f P flag b) = 0).
Proof. exact @volume_fft3. Qed.
Print Assumptions C66_fft_3d.
Theorem C66_fft_2d : forall {F} (O : sops F) rnorm esize ar n st N permute ins outs f, ready2 esize ar n st N permute ins outs f ->
  (forall P scaled remaponly flag bi bo, sends_moved2 n 2 (route2 f flag) (compute2 O rnorm esize f P scaled remaponly flag bi bo)) /\
  (forall flag bi bo, sends_moved2 n 2 (route2 f flag) (only_remaps2 (F := F) esize f flag bi bo)) /\
  (forall P flag b, traffic n (only_1d_ffts2 O f P flag b) = 0).
Proof. exact @volume_fft2. Qed.
Print Assumptions C66_fft_2d.

(** in the layouts the library chooses itself every rank has, in every divided dimension, the size divided by the number of parts,
    rounded down or up; the numbers of parts multiply to the number of ranks *)
Theorem C66_balance_3d : forall ar n st N permute ins outs f, ready3 ar n st N permute ins outs f -> let '(x, y, z) := N in
  (f_pre f = true -> exists b c, 1 <= b /\ 1 <= c /\ b * c = Z.of_nat n /\
     forall r, (r < n)%nat -> fair y b (nj (f_fast f r)) /\ fair z c (nk (f_fast f r))) /\
  (exists a c, 1 <= a /\ 1 <= c /\ a * c = Z.of_nat n /\
     forall r, (r < n)%nat -> fair x a (ni (f_mid f r)) /\ fair z c (nk (f_mid f r))) /\
  (f_post f = true -> exists a b, 1 <= a /\ 1 <= b /\ a * b = Z.of_nat n /\
     forall r, (r < n)%nat -> fair x a (ni (f_slow f r)) /\ fair y b (nj (f_slow f r))) /\
  (f_exch f = true -> exists a b c, 1 <= a /\ 1 <= b /\ 1 <= c /\ a * b * c = Z.of_nat n /\
     forall r, (r < n)%nat -> fair x a (ni (f_brick f r)) /\ fair y b (nj (f_brick f r)) /\ fair z c (nk (f_brick f r))).
Proof. exact @balance3. Qed.
Print Assumptions C66_balance_3d.
Theorem C66_balance_2d : forall esize ar n st N permute ins outs f, ready2 esize ar n st N permute ins outs f -> let '(x, y) := N in
  (t_pre f = true -> forall r, (r < n)%nat -> fair y (Z.of_nat n) (nj2 (t_fast f r))) /\
  (t_post f = true -> forall r, (r < n)%nat -> fair x (Z.of_nat n) (ni2 (t_slow f r))) /\
  (t_exch f = true -> exists a b, 1 <= a /\ 1 <= b /\ a * b = Z.of_nat n /\
     forall r, (r < n)%nat -> fair x a (ni2 (t_brick f r)) /\ fair y b (nj2 (t_brick f r))).
Proof. exact @balance2. Qed.
Print Assumptions C66_balance_2d.

(** *** examples *)
Example C66_ex_owners : disjoint_owners3 3 e3_in /\ disjoint_owners3 3 e3_out /\ disjoint_owners2 2 e2_in /\ disjoint_owners2 2 e2_out.
Proof. split; [apply e3_tiling_in|split; [apply e3_tiling_out|split; [apply e2_tiling_in|apply e2_tiling_out]]]. Qed.
Example C66_ex_remap : map (fun c => traffic 3 (remap3 (A := Z) 3 (fst c) (snd c) 2 1 e3_in e3_out BIn BOut)) [(false, 0); (true, 2)] = [24; 24] /\
  map (fun r => map (fun q => msgs q (remap3 (A := Z) 3 false 0 2 1 e3_in e3_out BIn BOut r)) (seq 0 3)) (seq 0 3) = [[0; 1; 1]; [1; 0; 1]; [0; 0; 0]].
Proof. vm_compute. split; reflexivity. Qed.
Example C66_ex_fft : exists f P, ready3 exact_areas 2 (mkset 1 2 1) g2 0 isplit3 isplit3 f /\ setup_ffts3 cexpZ g2 = Some P /\
  f_pre f = true /\ f_post f = true /\ f_exch f = true /\ length (route3 f FORWARD) = 7%nat /\
  traffic 2 (compute3 Zops normZ f P true false FORWARD BIn BIn) = 24.
Proof.
  assert (W : with_plan (mkset 1 2 1) 0 isplit3 isplit3 (fun f P => f_pre f && f_post f && f_exch f && (length (route3 f FORWARD) =? 7)%nat &&
     (traffic 2 (compute3 Zops normZ f P true false FORWARD BIn BIn) =? 24)) = true) by (vm_compute; reflexivity).
  apply with_plan_inv in W as (f & P & E1 & E2 & H). rewrite !andb_true_iff in H. destruct H as ((((H1 & H2) & H3) & H4) & H5).
  exists f, P. split; [apply ex_ready; [right; left; reflexivity|apply tile_isplit|apply tile_isplit|exact E1]|]. split; [exact E2|].
  apply Nat.eqb_eq in H4. apply Z.eqb_eq in H5. auto.
Qed.
