(** SpmdSetup.v : the setup programs of all ranks end in the shares of the global setup of Setup3d.v and Setup2d.v. *)

From Coq Require Import String.
From Verif Require Import Base Spec Pack3d Pack2d Sched Remap RemapPlan RemapProofs Remap3d Remap2d RemapInst RemapThms Layout Setup3d Setup2d
  Spmd SpmdProofs.

Lemma sym3 pack nq perm a b : o_collide (ops3 (A := Z) pack nq perm) a b = o_collide (ops3 (A := Z) pack nq perm) b a.
Proof. change (collide3 a b = collide3 b a). refine (sp_sym _ _ _ _ _ (rspec3 (A := Z) 0 1 0 _ _ _) a b); unfold flag_ok, perm_ok3; lia. Qed.
Lemma sym2 pack nq perm a b : o_collide (ops2 (A := Z) 8 pack nq perm) a b = o_collide (ops2 (A := Z) 8 pack nq perm) b a.
Proof. change (collide2 a b = collide2 b a). refine (sp_sym _ _ _ _ _ (rspec2 (A := Z) 8 0 1 0 _ _ _ _) a b); unfold flag_ok, perm_ok2; lia. Qed.

Section Steps3.
Variables (n : nat) (st : settings).
Hypothesis Hn : (1 <= n)%nat.
Notation lift f := (map f (seq 0 n)).
Notation pr := (prog box3 lfft3).

Lemma lift_flag {B T} (f : nat -> bool) (k : nat -> Z -> prog B T) u :
  csteps (lift (fun r => k r (b2z (anyrank n f)))) u -> csteps (lift (fun r => PMax (b2z (f r)) (k r))) u.
Proof. intros H. apply lift_max. rewrite zmax_flags by exact Hn. exact H. Qed.
Lemma lift_total {B T} (f : nat -> Z) (k : nat -> Z -> prog B T) u :
  csteps (lift (fun r => k r (sumranks n f))) u -> csteps (lift (fun r => PSum (f r) (k r))) u.
Proof. intros H. apply lift_sum. rewrite zsum_ranks. exact H. Qed.

Definition lm (m : rm3) (r : nat) : lmap3 := lmapof (ops3 (A := Z) (st_pack st) 2 (rm_perm m)) n (rm_coll m) (rm_in m) (rm_out m) r.
Definition lp (p : remap_pair) (r : nat) : lpair3 := (lm (fst p) r, match snd p with Some m => Some (lm m r) | None => None end).
Definition szadd (r : nat) (sz : Z * Z) (m : rm3) : Z * Z := addsize sz (lm m r).

Lemma share_map_eq m r : (r < n)%nat -> share_map3 n st r m = Some (lm m r).
Proof. intros Hr. unfold share_map3, setup3. rewrite planof_some by exact Hr. reflexivity. Qed.
Lemma share_pair_eq p r : (r < n)%nat -> share_pair3 n st r p = Some (lp p r).
Proof.
  intros Hr. unfold share_pair3, lp. rewrite share_map_eq by exact Hr. cbn [bind].
  destruct (snd p); [rewrite share_map_eq by exact Hr|]; reflexivity.
Qed.
Lemma share_opt_eq p r : (r < n)%nat -> share_opt3 n st r p = Some (match p with Some q => Some (lp q r) | None => None end).
Proof. intros Hr. unfold share_opt3. destruct p; [rewrite share_pair_eq by exact Hr|]; reflexivity. Qed.
Lemma share3_some f r : (r < n)%nat -> exists x, share3 n st f r = Some x.
Proof.
  intros Hr. unfold share3. rewrite !share_pair_eq, !share_opt_eq by exact Hr. cbn [bind]. eauto.
Qed.

Lemma ssize_lm m r : (r < n)%nat -> rm_ssize n st m r = rp_sendsize (fst (lm m r)).
Proof. intros Hr. unfold rm_ssize, setup3. rewrite planof_some by exact Hr. reflexivity. Qed.
Lemma rsize_lm m r : (r < n)%nat -> rm_rsize n st m r = rp_recvsize (fst (lm m r)).
Proof. intros Hr. unfold rm_rsize, setup3. rewrite planof_some by exact Hr. reflexivity. Qed.
Lemma szs_fst r l sz : (r < n)%nat -> fst (fold_left (szadd r) l sz) = fold_left (fun s m => Z.max s (rm_ssize n st m r)) l (fst sz).
Proof. intros Hr. revert sz. induction l as [|m l IH]; intros sz; cbn [fold_left]; [reflexivity|]. rewrite IH, ssize_lm by exact Hr. reflexivity. Qed.
Lemma szs_snd r l sz : (r < n)%nat -> snd (fold_left (szadd r) l sz) = fold_left (fun s m => Z.max s (rm_rsize n st m r)) l (snd sz).
Proof. intros Hr. revert sz. induction l as [|m l IH]; intros sz; cbn [fold_left]; [reflexivity|]. rewrite IH, rsize_lm by exact Hr. reflexivity. Qed.

Lemma remap1_steps coll perm (a b : nat -> box3) (sz : nat -> Z * Z) (k : nat -> lmap3 -> Z * Z -> pr) u :
  csteps (lift (fun r => k r (lm (mkrm3 coll perm a b) r) (szadd r (sz r) (mkrm3 coll perm a b)))) u ->
  csteps (lift (fun r => remap1_3 n st r coll perm (a r) (b r) (sz r) (k r))) u.
Proof.
  intros H. unfold remap1_3.
  apply (remap_steps (ops3 (A := Z) (st_pack st) 2 perm) n (sym3 _ _ _) coll a b (fun r m => k r m (addsize (sz r) m))). exact H.
Qed.
Lemma plain_steps rot perm (a b : nat -> box3) (sz : nat -> Z * Z) (k : nat -> lpair3 -> Z * Z -> pr) u :
  csteps (lift (fun r => k r (lp (plain_pair st rot perm a b) r) (fold_left (szadd r) (objs (plain_pair st rot perm a b)) (sz r)))) u ->
  csteps (lift (fun r => plain_rank3 n st r rot perm (a r) (b r) (sz r) (k r))) u.
Proof.
  intros H. unfold plain_rank3.
  apply (remap1_steps (coll_bp st) perm (fun r => rotb3 rot (a r)) (fun r => rotb3 rot (b r)) sz (fun r m s => k r (m, None) s)). exact H.
Qed.
Lemma pencil_steps (cnt : bool) rot perm (a c b : nat -> box3) (sz : nat -> Z * Z) (k : nat -> lpair3 -> Z * Z -> pr) u :
  csteps (lift (fun r => k r (lp (pencil_pair st rot perm a c b) r)
     (fold_left (szadd r) (if cnt then objs (pencil_pair st rot perm a c b) else [fst (pencil_pair st rot perm a c b)]) (sz r)))) u ->
  csteps (lift (fun r => pencil_rank3 n st r cnt rot perm (a r) (c r) (b r) (sz r) (k r))) u.
Proof.
  intros H. unfold pencil_rank3. unfold pencil_pair in H. destruct (st_exch st =? 0).
  - apply (remap1_steps (coll_pp st) perm (fun r => rotb3 rot (a r)) (fun r => rotb3 rot (b r)) sz (fun r m s => k r (m, None) s)).
    destruct cnt; exact H.
  - apply (remap1_steps (coll_bp st) 0 (fun r => rotb3 rot (a r)) (fun r => rotb3 rot (c r)) sz (fun r m s =>
       remap1_3 n st r (coll_bp st) perm (rotb3 rot (c r)) (rotb3 rot (b r)) s (fun m2 s2 => k r (m, Some m2) (if cnt then s2 else s)))).
    set (m1 := mkrm3 (coll_bp st) 0 (fun r => rotb3 rot (a r)) (fun r => rotb3 rot (c r))) in *.
    apply (remap1_steps (coll_bp st) perm (fun r => rotb3 rot (c r)) (fun r => rotb3 rot (b r)) (fun r => szadd r (sz r) m1)
      (fun r m2 s2 => k r (lm m1 r, Some m2) (if cnt then s2 else szadd r (sz r) m1))).
    destruct cnt; exact H.
Qed.

Variables (permute : Z) (ins outs : nat -> box3).

Definition olp (p : option remap_pair) (r : nat) : option lpair3 := match p with Some q => Some (lp q r) | None => None end.

Lemma forward_steps (pre post : bool) (fast mid slow brick : nat -> box3) (sz : nat -> Z * Z)
    (k : nat -> option lpair3 -> lpair3 -> lpair3 -> option lpair3 -> Z * Z -> pr) u :
  let prefast := if pre then Some (plain_pair st 0 0 ins fast) else None in
  let fastmid := pencil_pair st 0 1 fast brick mid in
  let midslow := pencil_pair st 1 1 mid brick slow in
  match (if post then match newpermute permute with Some np => Some (Some (plain_pair st 2 np slow outs)) | None => None end else Some None) with
  | Some postslow => csteps (lift (fun r => k r (olp prefast r) (lp fastmid r) (lp midslow r) (olp postslow r)
       (fold_left (szadd r) (oobjs prefast ++ objs fastmid ++ objs midslow ++ oobjs postslow) (sz r)))) u
  | None => u = lift (fun _ : nat => @PUB box3 lfft3)
  end ->
  csteps (lift (fun r => forward_rank3 n st permute r (ins r) (outs r) pre post (fast r) (mid r) (slow r) (brick r) (sz r) (k r))) u.
Proof.
  intros prefast fastmid midslow H. unfold forward_rank3. cbv zeta.
  assert (R : forall (q : option remap_pair) (s : nat -> Z * Z),
    (match (if post then match newpermute permute with Some np => Some (Some (plain_pair st 2 np slow outs)) | None => None end else Some None) with
     | Some postslow => csteps (lift (fun r => k r (olp q r) (lp fastmid r) (lp midslow r) (olp postslow r)
         (fold_left (szadd r) (objs fastmid ++ objs midslow ++ oobjs postslow) (s r)))) u
     | None => u = lift (fun _ : nat => @PUB box3 lfft3) end) ->
    csteps (lift (fun r => pencil_rank3 n st r true 0 1 (fast r) (brick r) (mid r) (s r) (fun fastmid sz0 =>
      pencil_rank3 n st r true 1 1 (mid r) (brick r) (slow r) sz0 (fun midslow sz1 =>
      if post then match newpermute permute with
        | Some np => plain_rank3 n st r 2 np (slow r) (outs r) sz1 (fun p sz2 => k r (olp q r) fastmid midslow (Some p) sz2)
        | None => @PUB box3 lfft3 end
      else k r (olp q r) fastmid midslow None sz1)))) u).
  { clear H. intros q s H.
    apply (pencil_steps true 0 1 fast brick mid s (fun r fastmid sz0 =>
      pencil_rank3 n st r true 1 1 (mid r) (brick r) (slow r) sz0 (fun midslow sz1 =>
      if post then match newpermute permute with
        | Some np => plain_rank3 n st r 2 np (slow r) (outs r) sz1 (fun p sz2 => k r (olp q r) fastmid midslow (Some p) sz2)
        | None => @PUB box3 lfft3 end
      else k r (olp q r) fastmid midslow None sz1))).
    apply (pencil_steps true 1 1 mid brick slow (fun r => fold_left (szadd r) (objs fastmid) (s r)) (fun r midslow sz1 =>
      if post then match newpermute permute with
        | Some np => plain_rank3 n st r 2 np (slow r) (outs r) sz1 (fun p sz2 => k r (olp q r) (lp fastmid r) midslow (Some p) sz2)
        | None => @PUB box3 lfft3 end
      else k r (olp q r) (lp fastmid r) midslow None sz1)).
    destruct post; [destruct (newpermute permute) as [np|]|].
    - apply (plain_steps 2 np slow outs (fun r => fold_left (szadd r) (objs midslow) (fold_left (szadd r) (objs fastmid) (s r)))
        (fun r p sz2 => k r (olp q r) (lp fastmid r) (lp midslow r) (Some p) sz2)).

      eapply csteps_eq; [|exact H]. apply map_ext. intros r. rewrite !fold_left_app. reflexivity.
    - subst u. apply csteps_refl.
    - eapply csteps_eq; [|exact H]. apply map_ext. intros r. rewrite !fold_left_app. reflexivity. }
  destruct pre.
  - apply (plain_steps 0 0 ins fast sz (fun r p s => pencil_rank3 n st r true 0 1 (fast r) (brick r) (mid r) s (fun fastmid sz0 =>
      pencil_rank3 n st r true 1 1 (mid r) (brick r) (slow r) sz0 (fun midslow sz1 =>
      if post then match newpermute permute with
        | Some np => plain_rank3 n st r 2 np (slow r) (outs r) sz1 (fun p0 sz2 => k r (Some p) fastmid midslow (Some p0) sz2)
        | None => @PUB box3 lfft3 end
      else k r (Some p) fastmid midslow None sz1)))).
    apply (R prefast (fun r => fold_left (szadd r) (oobjs prefast) (sz r))).
    destruct post; [destruct (newpermute permute) as [np|]|]; auto;
      (eapply csteps_eq; [|exact H]; apply map_ext; intros r; rewrite (fold_left_app _ (oobjs prefast)); reflexivity).
  - apply (R None sz). exact H.
Qed.

Lemma inverse_steps (pre post : bool) (fast mid slow brick : nat -> box3) (sz : nat -> Z * Z)
    (k : nat -> option lpair3 -> lpair3 -> lpair3 -> option lpair3 -> Z * Z -> pr) u :
  let slowmid := pencil_pair st 2 2 slow brick mid in
  let midfast := pencil_pair st 1 2 mid brick fast in
  let postfast := if pre then Some (plain_pair st 0 0 fast ins) else None in
  match (if post then match preslow_pair st permute outs slow with Some p => Some (Some p) | None => None end else Some None) with
  | Some preslow => csteps (lift (fun r => k r (olp preslow r) (lp slowmid r) (lp midfast r) (olp postfast r)
       (fold_left (szadd r) (oobjs preslow ++ objs slowmid ++ [fst midfast] ++ oobjs postfast) (sz r)))) u
  | None => u = lift (fun _ : nat => @PUB box3 lfft3)
  end ->
  csteps (lift (fun r => inverse_rank3 n st permute r (ins r) (outs r) pre post (fast r) (mid r) (slow r) (brick r) (sz r) (k r))) u.
Proof.
  intros slowmid midfast postfast H. unfold inverse_rank3. cbv zeta.
  set (rest := fun (r : nat) (preslow : option lpair3) (s : Z * Z) =>
    pencil_rank3 n st r true 2 2 (slow r) (brick r) (mid r) s (fun slowmid s0 =>
    pencil_rank3 n st r false 1 2 (mid r) (brick r) (fast r) s0 (fun midfast s1 =>
    if pre then plain_rank3 n st r 0 0 (fast r) (ins r) s1 (fun p s2 => k r preslow slowmid midfast (Some p) s2)
    else k r preslow slowmid midfast None s1))).
  assert (R : forall (q : option remap_pair) (s : nat -> Z * Z),
    csteps (lift (fun r => k r (olp q r) (lp slowmid r) (lp midfast r) (olp postfast r)
       (fold_left (szadd r) (objs slowmid ++ [fst midfast] ++ oobjs postfast) (s r)))) u ->
    csteps (lift (fun r => rest r (olp q r) (s r))) u).
  { clear H. intros q s H. unfold rest.
    apply (pencil_steps true 2 2 slow brick mid s (fun r slowmid s0 =>
      pencil_rank3 n st r false 1 2 (mid r) (brick r) (fast r) s0 (fun midfast s1 =>
      if pre then plain_rank3 n st r 0 0 (fast r) (ins r) s1 (fun p s2 => k r (olp q r) slowmid midfast (Some p) s2)
      else k r (olp q r) slowmid midfast None s1))).
    apply (pencil_steps false 1 2 mid brick fast (fun r => fold_left (szadd r) (objs slowmid) (s r)) (fun r midfast s1 =>
      if pre then plain_rank3 n st r 0 0 (fast r) (ins r) s1 (fun p s2 => k r (olp q r) (lp slowmid r) midfast (Some p) s2)
      else k r (olp q r) (lp slowmid r) midfast None s1)).
    destruct pre.
    - apply (plain_steps 0 0 fast ins (fun r => fold_left (szadd r) [fst midfast] (fold_left (szadd r) (objs slowmid) (s r)))
        (fun r p s2 => k r (olp q r) (lp slowmid r) (lp midfast r) (Some p) s2)).
      eapply csteps_eq; [|exact H]. apply map_ext. intros r. rewrite !fold_left_app. reflexivity.
    - eapply csteps_eq; [|exact H]. apply map_ext. intros r. rewrite !fold_left_app. reflexivity. }
  assert (Q : forall rot perm, preslow_pair st permute outs slow = Some (plain_pair st rot perm outs slow) -> post = true ->
    csteps (lift (fun r => plain_rank3 n st r rot perm (outs r) (slow r) (sz r) (fun p s => rest r (Some p) s))) u).
  { intros rot perm E Ep. rewrite E, Ep in H.
    apply (plain_steps rot perm outs slow sz (fun r p s => rest r (Some p) s)).
    apply (R (Some (plain_pair st rot perm outs slow)) (fun r => fold_left (szadd r) (objs (plain_pair st rot perm outs slow)) (sz r))).
    eapply csteps_eq; [|exact H]. apply map_ext. intros r.
    rewrite (fold_left_app (szadd r) (oobjs (Some (plain_pair st rot perm outs slow)))). reflexivity. }
  destruct post.
  - unfold preslow_pair in *. destruct (permute =? 0); [now apply Q|]. destruct (permute =? 1); [now apply Q|].
    destruct (permute =? 2); [now apply Q|]. subst u. apply csteps_refl.
  - apply (R None sz). exact H.
Qed.

Variables (ar : areas) (N : Z * Z * Z).

Lemma setup3d_steps :
  csteps (lift (fun r => setup3d_rank ar n st N permute r (ins r) (outs r)))
         (lift (fun r => end3 n st (setup3d ar n st N permute ins outs) r)).
Proof.
  destruct N as [[nf nm] ns] eqn:EN. unfold setup3d_rank, setup3d.
  destruct ((nf <? 2) || (nm <? 2) || (ns <? 2)); [apply csteps_refl|].
  destruct (prime_factorable nf) as [okf|]; [|apply csteps_refl].
  destruct (prime_factorable nm) as [okm|]; [|apply csteps_refl].
  destruct (prime_factorable ns) as [oks|]; [|apply csteps_refl].
  destruct okf; cbn [negb]; [|apply csteps_refl]. destruct okm; cbn [negb]; [|apply csteps_refl].
  destruct oks; cbn [negb]; [|apply csteps_refl].
  apply (lift_flag (fun r => bad_index (nf, nm, ns) (ins r))). rewrite b2z_set.
  destruct (anyrank n (fun r => bad_index (nf, nm, ns) (ins r))); [apply csteps_refl|].
  apply (lift_total (fun r => psize3 (ins r))).
  destruct (sumranks n (fun r => psize3 (ins r)) =? nf * nm * ns); cbn [negb]; [|apply csteps_refl].
  apply (lift_flag (fun r => negb (box3_eqb (ins r) (outs r)) || negb (permute =? 0))). rewrite b2z_clear. cbv zeta.
  change (negb (anyrank n (fun r => negb (box3_eqb (ins r) (outs r)) || negb (permute =? 0)))) with (layout_same n permute ins outs).
  set (same := layout_same n permute ins outs). 
  destruct (Nat.ltb NFACTOR (List.length (factor (Z.of_nat n)))); [apply csteps_refl|].
  set (exch := negb (st_exch st =? 0)).
  destruct (procfactors ar (Z.of_nat n) 1 nm ns) as [gfast|]; [|apply csteps_refl].
  destruct (procfactors ar (Z.of_nat n) nf 1 ns) as [gmid|]; [|apply csteps_refl].
  destruct (procfactors ar (Z.of_nat n) nf nm 1) as [gslow|]; [|apply csteps_refl].
  destruct (if exch then procfactors ar (Z.of_nat n) nf nm ns else Some (0, 0, 0)) as [gbrick|]; [|apply csteps_refl].
  apply (lift_flag (fun r => negb ((ilo (ins r) =? 0) && (ihi (ins r) =? nf - 1)))). rewrite b2z_set.
  change (anyrank n (fun r => negb ((ilo (ins r) =? 0) && (ihi (ins r) =? nf - 1)))) with (preflag n (nf, nm, ns) ins).
  set (pre := preflag n (nf, nm, ns) ins).
  apply (lift_flag (fun r => negb ((permute =? 2) && (klo (outs r) =? 0) && (khi (outs r) =? ns - 1)))). rewrite b2z_set.
  change (anyrank n (fun r => negb ((permute =? 2) && (klo (outs r) =? 0) && (khi (outs r) =? ns - 1)))) with (slow_internal n (nf, nm, ns) permute outs).
  set (sint := slow_internal n (nf, nm, ns) permute outs).
  set (slow := fun r => if sint then slow_box3 (nf, nm, ns) gslow (Z.of_nat r) else outs r).
  apply (lift_flag (fun r => negb ((permute =? 2) && box3_eqb (outs r) (slow r)))). rewrite b2z_set.
  change (anyrank n (fun r => negb ((permute =? 2) && box3_eqb (outs r) (slow r)))) with (postflag n permute outs slow).
  set (post := postflag n permute outs slow).
  set (fast := fun r => if pre then fast_box3 (nf, nm, ns) gfast (Z.of_nat r) else ins r).
  set (mid := fun r => mid_box3 (nf, nm, ns) gmid (Z.of_nat r)).
  set (brick := fun r => gbox3 (nf, nm, ns) gbrick (Z.of_nat r)).
  set (prefast := if pre then Some (plain_pair st 0 0 ins fast) else None).
  set (fastmid := pencil_pair st 0 1 fast brick mid).
  set (midslow := pencil_pair st 1 1 mid brick slow).
  set (slowmid := pencil_pair st 2 2 slow brick mid).
  set (midfast := pencil_pair st 1 2 mid brick fast).
  set (postfast := if pre then Some (plain_pair st 0 0 fast ins) else None).
  unfold finish_rank3. cbv zeta.
  set (fsz := fun r => if exch then Z.max (Z.max (Z.max (Z.max (Z.max (psize3 (ins r)) (psize3 (outs r))) (psize3 (fast r))) (psize3 (mid r)))
     (psize3 (slow r))) (psize3 (brick r)) else Z.max (Z.max (Z.max (Z.max (psize3 (ins r)) (psize3 (outs r))) (psize3 (fast r))) (psize3 (mid r))) (psize3 (slow r))).
  apply (forward_steps pre post fast mid slow brick (fun _ => (0, 0)) (fun r prefast fastmid midslow postslow sz =>
    if same then
      PRet (mklfft3 (ins r) (outs r) (fast r) (mid r) (slow r) (brick r) pre post same
            prefast fastmid midslow postslow None None None None (fst sz) (snd sz) (fsz r))
    else
      inverse_rank3 n st permute r (ins r) (outs r) pre post (fast r) (mid r) (slow r) (brick r) sz (fun preslow slowmid midfast postfast sz =>
      PRet (mklfft3 (ins r) (outs r) (fast r) (mid r) (slow r) (brick r) pre post same
            prefast fastmid midslow postslow preslow (Some slowmid) (Some midfast) postfast (fst sz) (snd sz) (fsz r))))).
  fold prefast fastmid midslow.
  destruct (if post then match newpermute permute with Some np => Some (Some (plain_pair st 2 np slow outs)) | None => None end else Some None)
    as [postslow|] eqn:Epost; [|reflexivity].
  assert (Fin : forall preslow slowmid' midfast' postfast' r, (r < n)%nat ->
    PRet (mklfft3 (ins r) (outs r) (fast r) (mid r) (slow r) (brick r) pre post same
            (olp prefast r) (lp fastmid r) (lp midslow r) (olp postslow r) (olp preslow r) (olp slowmid' r) (olp midfast' r) (olp postfast' r)
            (fst (fold_left (szadd r) (oobjs preslow ++ oobjs slowmid' ++ counted_midfast midfast' ++ oobjs postfast')
                    (fold_left (szadd r) (oobjs prefast ++ objs fastmid ++ objs midslow ++ oobjs postslow) (0, 0))))
            (snd (fold_left (szadd r) (oobjs preslow ++ oobjs slowmid' ++ counted_midfast midfast' ++ oobjs postfast')
                    (fold_left (szadd r) (oobjs prefast ++ objs fastmid ++ objs midslow ++ oobjs postslow) (0, 0)))) (fsz r)) =
    end3 n st (SOk {| f_n := n; f_N := (nf, nm, ns); f_perm := permute; f_pack := st_pack st; f_exch := exch;
             f_in := ins; f_out := outs; f_fast := fast; f_mid := mid; f_slow := slow; f_brick := brick;
             f_pre := pre; f_post := post; f_same := same;
             f_prefast := prefast; f_fastmid := fastmid; f_midslow := midslow; f_postslow := postslow;
             f_preslow := preslow; f_slowmid := slowmid'; f_midfast := midfast'; f_postfast := postfast';
             f_sendsize := maxsizes (rm_ssize n st) (oobjs prefast ++ objs fastmid ++ objs midslow ++ oobjs postslow ++
                     oobjs preslow ++ oobjs slowmid' ++ counted_midfast midfast' ++ oobjs postfast');
             f_recvsize := maxsizes (rm_rsize n st) (oobjs prefast ++ objs fastmid ++ objs midslow ++ oobjs postslow ++
                     oobjs preslow ++ oobjs slowmid' ++ counted_midfast midfast' ++ oobjs postfast');
             f_fftsize := fsz |}) r).
  { intros preslow slowmid' midfast' postfast' r Hr. unfold end3, share3.
    cbn [f_prefast f_fastmid f_midslow f_postslow f_preslow f_slowmid f_midfast f_postfast f_in f_out f_fast f_mid f_slow f_brick
         f_pre f_post f_same f_sendsize f_recvsize f_fftsize].
    rewrite !share_pair_eq, !share_opt_eq by exact Hr. cbn [bind].
    rewrite <- fold_left_app, szs_fst, szs_snd by exact Hr. rewrite <- !app_assoc. reflexivity. }
  destruct same.
  - eapply csteps_eq; [|apply csteps_refl]. apply map_ext_in. intros r Hr. apply in_seq in Hr.
    refine (eq_trans _ (eq_trans (Fin None None None None r ltac:(lia)) _)); [reflexivity|].
    unfold end3, share3. reflexivity.
  - apply (inverse_steps pre post fast mid slow brick (fun r => fold_left (szadd r) (oobjs prefast ++ objs fastmid ++ objs midslow ++ oobjs postslow) (0, 0))
      (fun r preslow slowmid midfast postfast sz =>
      PRet (mklfft3 (ins r) (outs r) (fast r) (mid r) (slow r) (brick r) pre post false
            (olp prefast r) (lp fastmid r) (lp midslow r) (olp postslow r) preslow (Some slowmid) (Some midfast) postfast (fst sz) (snd sz) (fsz r)))).
    fold slowmid midfast postfast.
    destruct (if post then match preslow_pair st permute outs slow with Some p => Some (Some p) | None => None end else Some None)
      as [preslow|] eqn:Epre; [|reflexivity].
    eapply csteps_eq; [|apply csteps_refl]. apply map_ext_in. intros r Hr. apply in_seq in Hr.
    refine (eq_trans _ (eq_trans (Fin preslow (Some slowmid) (Some midfast) postfast r ltac:(lia)) _)); [reflexivity|].
    unfold end3, share3. reflexivity.
Qed.
End Steps3.

(** ** FFT2d::setup *)
Section Steps2.
Variables (n : nat) (st : settings).
Hypothesis Hn : (1 <= n)%nat.
Notation lift f := (map f (seq 0 n)).
Notation pr := (prog box2 lfft2).

Definition lm2 (m : rm2) (r : nat) : lmap2 := lmapof (ops2 (A := Z) 8 (st_pack st) 2 (rm2_perm m)) n (rm2_coll m) (rm2_in m) (rm2_out m) r.
Definition lp2 (p : remap_pair2) (r : nat) : lpair2 := (lm2 (fst p) r, match snd p with Some m => Some (lm2 m r) | None => None end).
Definition szadd2 (r : nat) (sz : Z * Z) (m : rm2) : Z * Z := addsize sz (lm2 m r).
Definition olp2 (p : option remap_pair2) (r : nat) : option lpair2 := match p with Some q => Some (lp2 q r) | None => None end.

Lemma share_map2_eq m r : (r < n)%nat -> share_map2 n st r m = Some (lm2 m r).
Proof. intros Hr. unfold share_map2, setup2. rewrite planof_some by exact Hr. reflexivity. Qed.
Lemma share_pair2_eq p r : (r < n)%nat -> share_pair2 n st r p = Some (lp2 p r).
Proof.
  intros Hr. unfold share_pair2, lp2. rewrite share_map2_eq by exact Hr. cbn [bind].
  destruct (snd p); [rewrite share_map2_eq by exact Hr|]; reflexivity.
Qed.
Lemma share_opt2_eq p r : (r < n)%nat -> share_opt2 n st r p = Some (olp2 p r).
Proof. intros Hr. unfold share_opt2. destruct p; [rewrite share_pair2_eq by exact Hr|]; reflexivity. Qed.
Lemma share2_some f r : (r < n)%nat -> exists x, share2 n st f r = Some x.
Proof.
  intros Hr. unfold share2. rewrite !share_pair2_eq, !share_opt2_eq by exact Hr. cbn [bind]. eauto.
Qed.

Lemma ssize_lm2 m r : (r < n)%nat -> rm2_ssize n st m r = rp_sendsize (fst (lm2 m r)).
Proof. intros Hr. unfold rm2_ssize, setup2. rewrite planof_some by exact Hr. reflexivity. Qed.
Lemma rsize_lm2 m r : (r < n)%nat -> rm2_rsize n st m r = rp_recvsize (fst (lm2 m r)).
Proof. intros Hr. unfold rm2_rsize, setup2. rewrite planof_some by exact Hr. reflexivity. Qed.
Lemma szs2_fst r l sz : (r < n)%nat -> fst (fold_left (szadd2 r) l sz) = fold_left (fun s m => Z.max s (rm2_ssize n st m r)) l (fst sz).
Proof. intros Hr. revert sz. induction l as [|m l IH]; intros sz; cbn [fold_left]; [reflexivity|]. rewrite IH, ssize_lm2 by exact Hr. reflexivity. Qed.
Lemma szs2_snd r l sz : (r < n)%nat -> snd (fold_left (szadd2 r) l sz) = fold_left (fun s m => Z.max s (rm2_rsize n st m r)) l (snd sz).
Proof. intros Hr. revert sz. induction l as [|m l IH]; intros sz; cbn [fold_left]; [reflexivity|]. rewrite IH, rsize_lm2 by exact Hr. reflexivity. Qed.

Lemma remap1_steps2 coll perm (a b : nat -> box2) (sz : nat -> Z * Z) (k : nat -> lmap2 -> Z * Z -> pr) u :
  csteps (lift (fun r => k r (lm2 (mkrm2 coll perm a b) r) (szadd2 r (sz r) (mkrm2 coll perm a b)))) u ->
  csteps (lift (fun r => remap1_2 n st r coll perm (a r) (b r) (sz r) (k r))) u.
Proof.
  intros H. unfold remap1_2.
  apply (remap_steps (ops2 (A := Z) 8 (st_pack st) 2 perm) n (sym2 _ _ _) coll a b (fun r m => k r m (addsize (sz r) m))). exact H.
Qed.
Lemma plain_steps2 rot perm (a b : nat -> box2) (sz : nat -> Z * Z) (k : nat -> lpair2 -> Z * Z -> pr) u :
  csteps (lift (fun r => k r (lp2 (plain_pair2 st rot perm a b) r) (fold_left (szadd2 r) (objs2 (plain_pair2 st rot perm a b)) (sz r)))) u ->
  csteps (lift (fun r => plain_rank2 n st r rot perm (a r) (b r) (sz r) (k r))) u.
Proof.
  intros H. unfold plain_rank2.
  apply (remap1_steps2 (coll_bp st) perm (fun r => rotb2 rot (a r)) (fun r => rotb2 rot (b r)) sz (fun r m s => k r (m, None) s)). exact H.
Qed.
Lemma pencil_steps2 rot perm (a c b : nat -> box2) (sz : nat -> Z * Z) (k : nat -> lpair2 -> Z * Z -> pr) u :
  csteps (lift (fun r => k r (lp2 (pencil_pair2 st rot perm a c b) r)
     (fold_left (szadd2 r) (objs2 (pencil_pair2 st rot perm a c b)) (sz r)))) u ->
  csteps (lift (fun r => pencil_rank2 n st r rot perm (a r) (c r) (b r) (sz r) (k r))) u.
Proof.
  intros H. unfold pencil_rank2. unfold pencil_pair2 in H. destruct (st_exch st =? 0).
  - apply (remap1_steps2 (coll_pp st) perm (fun r => rotb2 rot (a r)) (fun r => rotb2 rot (b r)) sz (fun r m s => k r (m, None) s)).
    exact H.
  - apply (remap1_steps2 (coll_bp st) 0 (fun r => rotb2 rot (a r)) (fun r => rotb2 rot (c r)) sz (fun r m s =>
       remap1_2 n st r (coll_bp st) perm (rotb2 rot (c r)) (rotb2 rot (b r)) s (fun m2 s2 => k r (m, Some m2) s2))).
    set (m1 := mkrm2 (coll_bp st) 0 (fun r => rotb2 rot (a r)) (fun r => rotb2 rot (c r))) in *.
    apply (remap1_steps2 (coll_bp st) perm (fun r => rotb2 rot (c r)) (fun r => rotb2 rot (b r)) (fun r => szadd2 r (sz r) m1)
      (fun r m2 s2 => k r (lm2 m1 r, Some m2) s2)).
    exact H.
Qed.

Variables (permute : Z) (ins outs : nat -> box2).

Lemma forward_steps2 (pre post : bool) (fast slow brick : nat -> box2) (sz : nat -> Z * Z)
    (k : nat -> option lpair2 -> lpair2 -> option lpair2 -> Z * Z -> pr) u :
  let prefast := if pre then Some (plain_pair2 st 0 0 ins fast) else None in
  let fastslow := pencil_pair2 st 0 1 fast brick slow in
  match (if post then match newpermute2 permute with Some np => Some (Some (plain_pair2 st 1 np slow outs)) | None => None end else Some None) with
  | Some postslow => csteps (lift (fun r => k r (olp2 prefast r) (lp2 fastslow r) (olp2 postslow r)
       (fold_left (szadd2 r) (oobjs2 prefast ++ objs2 fastslow ++ oobjs2 postslow) (sz r)))) u
  | None => u = lift (fun _ : nat => @PUB box2 lfft2)
  end ->
  csteps (lift (fun r => forward_rank2 n st permute r (ins r) (outs r) pre post (fast r) (slow r) (brick r) (sz r) (k r))) u.
Proof.
  intros prefast fastslow H. unfold forward_rank2. cbv zeta.
  set (rest := fun (r : nat) (prefast : option lpair2) (s : Z * Z) =>
    pencil_rank2 n st r 0 1 (fast r) (brick r) (slow r) s (fun fastslow s0 =>
    if post then match newpermute2 permute with
      | Some np => plain_rank2 n st r 1 np (slow r) (outs r) s0 (fun p s1 => k r prefast fastslow (Some p) s1)
      | None => @PUB box2 lfft2 end
    else k r prefast fastslow None s0)).
  assert (R : forall (q : option remap_pair2) (s : nat -> Z * Z),
    (match (if post then match newpermute2 permute with Some np => Some (Some (plain_pair2 st 1 np slow outs)) | None => None end else Some None) with
     | Some postslow => csteps (lift (fun r => k r (olp2 q r) (lp2 fastslow r) (olp2 postslow r)
         (fold_left (szadd2 r) (objs2 fastslow ++ oobjs2 postslow) (s r)))) u
     | None => u = lift (fun _ : nat => @PUB box2 lfft2) end) ->
    csteps (lift (fun r => rest r (olp2 q r) (s r))) u).
  { clear H. intros q s H. unfold rest.
    apply (pencil_steps2 0 1 fast brick slow s (fun r fastslow s0 =>
      if post then match newpermute2 permute with
        | Some np => plain_rank2 n st r 1 np (slow r) (outs r) s0 (fun p s1 => k r (olp2 q r) fastslow (Some p) s1)
        | None => @PUB box2 lfft2 end
      else k r (olp2 q r) fastslow None s0)).
    destruct post; [destruct (newpermute2 permute) as [np|]|].
    - apply (plain_steps2 1 np slow outs (fun r => fold_left (szadd2 r) (objs2 fastslow) (s r))
        (fun r p s1 => k r (olp2 q r) (lp2 fastslow r) (Some p) s1)).
      eapply csteps_eq; [|exact H]. apply map_ext. intros r. rewrite !fold_left_app. reflexivity.
    - subst u. apply csteps_refl.
    - eapply csteps_eq; [|exact H]. apply map_ext. intros r. rewrite !fold_left_app. reflexivity. }
  destruct pre.
  - apply (plain_steps2 0 0 ins fast sz (fun r p s => rest r (Some p) s)).
    apply (R prefast (fun r => fold_left (szadd2 r) (oobjs2 prefast) (sz r))).
    destruct post; [destruct (newpermute2 permute) as [np|]|]; auto;
      (eapply csteps_eq; [|exact H]; apply map_ext; intros r; rewrite (fold_left_app _ (oobjs2 prefast)); reflexivity).
  - apply (R None sz). exact H.
Qed.

Lemma inverse_steps2 (pre post : bool) (fast slow brick : nat -> box2) (sz : nat -> Z * Z)
    (k : nat -> option lpair2 -> lpair2 -> option lpair2 -> Z * Z -> pr) u :
  let slowfast := pencil_pair2 st 1 1 slow brick fast in
  let postfast := if pre then Some (plain_pair2 st 0 0 fast ins) else None in
  match (if post then match preslow_pair2 st permute outs slow with Some p => Some (Some p) | None => None end else Some None) with
  | Some preslow => csteps (lift (fun r => k r (olp2 preslow r) (lp2 slowfast r) (olp2 postfast r)
       (fold_left (szadd2 r) (oobjs2 preslow ++ objs2 slowfast ++ oobjs2 postfast) (sz r)))) u
  | None => u = lift (fun _ : nat => @PUB box2 lfft2)
  end ->
  csteps (lift (fun r => inverse_rank2 n st permute r (ins r) (outs r) pre post (fast r) (slow r) (brick r) (sz r) (k r))) u.
Proof.
  intros slowfast postfast H. unfold inverse_rank2. cbv zeta.
  set (rest := fun (r : nat) (preslow : option lpair2) (s : Z * Z) =>
    pencil_rank2 n st r 1 1 (slow r) (brick r) (fast r) s (fun slowfast s0 =>
    if pre then plain_rank2 n st r 0 0 (fast r) (ins r) s0 (fun p s1 => k r preslow slowfast (Some p) s1)
    else k r preslow slowfast None s0)).
  assert (R : forall (q : option remap_pair2) (s : nat -> Z * Z),
    csteps (lift (fun r => k r (olp2 q r) (lp2 slowfast r) (olp2 postfast r)
       (fold_left (szadd2 r) (objs2 slowfast ++ oobjs2 postfast) (s r)))) u ->
    csteps (lift (fun r => rest r (olp2 q r) (s r))) u).
  { clear H. intros q s H. unfold rest.
    apply (pencil_steps2 1 1 slow brick fast s (fun r slowfast s0 =>
      if pre then plain_rank2 n st r 0 0 (fast r) (ins r) s0 (fun p s1 => k r (olp2 q r) slowfast (Some p) s1)
      else k r (olp2 q r) slowfast None s0)).
    destruct pre.
    - apply (plain_steps2 0 0 fast ins (fun r => fold_left (szadd2 r) (objs2 slowfast) (s r))
        (fun r p s1 => k r (olp2 q r) (lp2 slowfast r) (Some p) s1)).
      eapply csteps_eq; [|exact H]. apply map_ext. intros r. rewrite !fold_left_app. reflexivity.
    - eapply csteps_eq; [|exact H]. apply map_ext. intros r. rewrite !fold_left_app. reflexivity. }
  assert (Q : forall rot perm, preslow_pair2 st permute outs slow = Some (plain_pair2 st rot perm outs slow) -> post = true ->
    csteps (lift (fun r => plain_rank2 n st r rot perm (outs r) (slow r) (sz r) (fun p s => rest r (Some p) s))) u).
  { intros rot perm E Ep. rewrite E, Ep in H.
    apply (plain_steps2 rot perm outs slow sz (fun r p s => rest r (Some p) s)).
    apply (R (Some (plain_pair2 st rot perm outs slow)) (fun r => fold_left (szadd2 r) (objs2 (plain_pair2 st rot perm outs slow)) (sz r))).
    eapply csteps_eq; [|exact H]. apply map_ext. intros r.
    rewrite (fold_left_app (szadd2 r) (oobjs2 (Some (plain_pair2 st rot perm outs slow)))). reflexivity. }
  destruct post.
  - unfold preslow_pair2 in *. destruct (permute =? 0); [now apply Q|]. destruct (permute =? 1); [now apply Q|].
    subst u. apply csteps_refl.
  - apply (R None sz). exact H.
Qed.

Variables (ar : areas) (N : Z * Z).

Lemma setup2d_steps :
  csteps (lift (fun r => setup2d_rank ar n st N permute r (ins r) (outs r)))
         (lift (fun r => end2 n st (setup2d ar n st N permute ins outs) r)).
Proof.
  destruct N as [nf ns] eqn:EN. unfold setup2d_rank, setup2d.
  destruct ((nf <? 2) || (ns <? 2)); [apply csteps_refl|].
  destruct (prime_factorable nf) as [okf|]; [|apply csteps_refl].
  destruct (prime_factorable ns) as [oks|]; [|apply csteps_refl].
  destruct okf; cbn [negb]; [|apply csteps_refl]. destruct oks; cbn [negb]; [|apply csteps_refl].
  apply (lift_flag n Hn (fun r => bad_index2 (nf, ns) (ins r))). rewrite b2z_set.
  destruct (anyrank n (fun r => bad_index2 (nf, ns) (ins r))); [apply csteps_refl|].
  apply (lift_total n (fun r => psize2 (ins r))).
  destruct (sumranks n (fun r => psize2 (ins r)) =? nf * ns); cbn [negb]; [|apply csteps_refl].
  apply (lift_flag n Hn (fun r => negb (box2_eqb (ins r) (outs r)) || negb (permute =? 0))). rewrite b2z_clear. cbv zeta.
  change (negb (anyrank n (fun r => negb (box2_eqb (ins r) (outs r)) || negb (permute =? 0)))) with (layout_same2 n permute ins outs).
  set (same := layout_same2 n permute ins outs).
  destruct (Nat.ltb NFACTOR (List.length (factor (Z.of_nat n)))); [apply csteps_refl|].
  set (exch := negb (st_exch st =? 0)).
  destruct (if exch then procfactors2 ar (Z.of_nat n) nf ns else Some (0, 0)) as [gbrick|]; [|apply csteps_refl].
  apply (lift_flag n Hn (fun r => negb ((ilo2 (ins r) =? 0) && (ihi2 (ins r) =? nf - 1)))). rewrite b2z_set.
  change (anyrank n (fun r => negb ((ilo2 (ins r) =? 0) && (ihi2 (ins r) =? nf - 1)))) with (preflag2 n (nf, ns) ins).
  set (pre := preflag2 n (nf, ns) ins).
  apply (lift_flag n Hn (fun r => negb ((permute =? 1) && (jlo2 (outs r) =? 0) && (jhi2 (outs r) =? ns - 1)))). rewrite b2z_set.
  change (anyrank n (fun r => negb ((permute =? 1) && (jlo2 (outs r) =? 0) && (jhi2 (outs r) =? ns - 1)))) with (slow_internal2 n (nf, ns) permute outs).
  set (sint := slow_internal2 n (nf, ns) permute outs).
  set (slow := fun r => if sint then slow_box2 (nf, ns) (Z.of_nat n) (Z.of_nat r) else outs r).
  apply (lift_flag n Hn (fun r => negb ((permute =? 1) && box2_eqb (outs r) (slow r)))). rewrite b2z_set.
  change (anyrank n (fun r => negb ((permute =? 1) && box2_eqb (outs r) (slow r)))) with (postflag2 n permute outs slow).
  set (post := postflag2 n permute outs slow).
  set (fast := fun r => if pre then fast_box2 (nf, ns) (Z.of_nat n) (Z.of_nat r) else ins r).
  set (brick := fun r => gbox2 (nf, ns) gbrick (Z.of_nat r)).
  set (prefast := if pre then Some (plain_pair2 st 0 0 ins fast) else None).
  set (fastslow := pencil_pair2 st 0 1 fast brick slow).
  set (slowfast := pencil_pair2 st 1 1 slow brick fast).
  set (postfast := if pre then Some (plain_pair2 st 0 0 fast ins) else None).
  unfold finish_rank2. cbv zeta.
  set (fsz := fun r => if exch then Z.max (Z.max (Z.max (Z.max (psize2 (ins r)) (psize2 (outs r))) (psize2 (fast r)))
     (psize2 (slow r))) (psize2 (brick r)) else Z.max (Z.max (Z.max (psize2 (ins r)) (psize2 (outs r))) (psize2 (fast r))) (psize2 (slow r))).
  apply (forward_steps2 pre post fast slow brick (fun _ => (0, 0)) (fun r prefast fastslow postslow sz =>
    if same then
      PRet (mklfft2 (ins r) (outs r) (fast r) (slow r) (brick r) pre post same
            prefast fastslow postslow None None None (fst sz) (snd sz) (fsz r))
    else
      inverse_rank2 n st permute r (ins r) (outs r) pre post (fast r) (slow r) (brick r) sz (fun preslow slowfast postfast sz =>
      PRet (mklfft2 (ins r) (outs r) (fast r) (slow r) (brick r) pre post same
            prefast fastslow postslow preslow (Some slowfast) postfast (fst sz) (snd sz) (fsz r))))).
  fold prefast fastslow.
  destruct (if post then match newpermute2 permute with Some np => Some (Some (plain_pair2 st 1 np slow outs)) | None => None end else Some None)
    as [postslow|] eqn:Epost; [|reflexivity].
  assert (Fin : forall preslow slowfast' postfast' r, (r < n)%nat ->
    PRet (mklfft2 (ins r) (outs r) (fast r) (slow r) (brick r) pre post same
            (olp2 prefast r) (lp2 fastslow r) (olp2 postslow r) (olp2 preslow r) (olp2 slowfast' r) (olp2 postfast' r)
            (fst (fold_left (szadd2 r) (oobjs2 preslow ++ oobjs2 slowfast' ++ oobjs2 postfast')
                    (fold_left (szadd2 r) (oobjs2 prefast ++ objs2 fastslow ++ oobjs2 postslow) (0, 0))))
            (snd (fold_left (szadd2 r) (oobjs2 preslow ++ oobjs2 slowfast' ++ oobjs2 postfast')
                    (fold_left (szadd2 r) (oobjs2 prefast ++ objs2 fastslow ++ oobjs2 postslow) (0, 0)))) (fsz r)) =
    end2 n st (SOk {| t_n := n; t_N := (nf, ns); t_perm := permute; t_pack := st_pack st; t_exch := exch;
             t_in := ins; t_out := outs; t_fast := fast; t_slow := slow; t_brick := brick;
             t_pre := pre; t_post := post; t_same := same;
             t_prefast := prefast; t_fastslow := fastslow; t_postslow := postslow;
             t_preslow := preslow; t_slowfast := slowfast'; t_postfast := postfast';
             t_sendsize := maxsizes2 (rm2_ssize n st) (oobjs2 prefast ++ objs2 fastslow ++ oobjs2 postslow ++
                     oobjs2 preslow ++ oobjs2 slowfast' ++ oobjs2 postfast');
             t_recvsize := maxsizes2 (rm2_rsize n st) (oobjs2 prefast ++ objs2 fastslow ++ oobjs2 postslow ++
                     oobjs2 preslow ++ oobjs2 slowfast' ++ oobjs2 postfast');
             t_fftsize := fsz |}) r).
  { intros preslow slowfast' postfast' r Hr. unfold end2, share2.
    cbn [t_prefast t_fastslow t_postslow t_preslow t_slowfast t_postfast t_in t_out t_fast t_slow t_brick
         t_pre t_post t_same t_sendsize t_recvsize t_fftsize].
    rewrite !share_pair2_eq, !share_opt2_eq by exact Hr. cbn [bind].
    rewrite <- fold_left_app, szs2_fst, szs2_snd by exact Hr. rewrite <- !app_assoc. reflexivity. }
  destruct same.
  - eapply csteps_eq; [|apply csteps_refl]. apply map_ext_in. intros r Hr. apply in_seq in Hr.
    refine (eq_trans _ (eq_trans (Fin None None None r ltac:(lia)) _)); [reflexivity|].
    unfold end2, share2. reflexivity.
  - apply (inverse_steps2 pre post fast slow brick (fun r => fold_left (szadd2 r) (oobjs2 prefast ++ objs2 fastslow ++ oobjs2 postslow) (0, 0))
      (fun r preslow slowfast postfast sz =>
      PRet (mklfft2 (ins r) (outs r) (fast r) (slow r) (brick r) pre post false
            (olp2 prefast r) (lp2 fastslow r) (olp2 postslow r) preslow (Some slowfast) postfast (fst sz) (snd sz) (fsz r)))).
    fold slowfast postfast.
    destruct (if post then match preslow_pair2 st permute outs slow with Some p => Some (Some p) | None => None end else Some None)
      as [preslow|] eqn:Epre; [|reflexivity].
    eapply csteps_eq; [|apply csteps_refl]. apply map_ext_in. intros r Hr. apply in_seq in Hr.
    refine (eq_trans _ (eq_trans (Fin preslow (Some slowfast) postfast r ltac:(lia)) _)); [reflexivity|].
    unfold end2, share2. reflexivity.
Qed.
End Steps2.

(** ** what the runs of all ranks look like *)
Section Runs.
Context {B T : Type}.
Lemma nth_lift {X} n (f : nat -> X) r : (r < n)%nat -> nth_error (map f (seq 0 n)) r = Some (f r).
Proof. intros Hr. rewrite nth_error_map, nth_seq. apply Nat.ltb_lt in Hr. now rewrite Hr. Qed.

Lemma runs_of n (s0 : list (prog B T)) (e : nat -> prog B T) :
  (1 <= n)%nat -> csteps s0 (map e (seq 0 n)) -> s0 <> [] -> stopped (map e (seq 0 n)) ->
  exists u, csteps s0 u /\ stopped u /\ (forall t, csteps s0 t -> csteps t u) /\ List.length u = n /\
    forall r, (r < n)%nat -> nth_error u r = Some (e r).
Proof.
  intros Hn Hs Hne Hst. exists (map e (seq 0 n)). split; [exact Hs|]. split; [exact Hst|].
  split; [intros t Ht; eapply csteps_confluent; eauto|]. split; [now rewrite map_length, seq_length|].
  intros r Hr. now apply nth_lift.
Qed.
End Runs.
Lemma lift_ne {X} n (f : nat -> X) : (1 <= n)%nat -> map f (seq 0 n) <> [].
Proof. intros Hn. destruct n; [lia|]. discriminate. Qed.

Lemma end3_stopped n st res : (1 <= n)%nat -> stopped (map (end3 n st res) (seq 0 n)).
Proof.
  intros Hn. destruct res as [m| |f]; cbn [end3]; [now apply stopped_err|now apply stopped_ub|].
  assert (E : exists x, forall r, (r < n)%nat -> share3 n st f r = Some (x r)).
  { exists (fun r => match share3 n st f r with Some x => x | None =>
        match share3 n st f 0 with Some y => y | None => mklfft3 (f_in f 0%nat) (f_in f 0%nat) (f_in f 0%nat) (f_in f 0%nat) (f_in f 0%nat) (f_in f 0%nat)
          false false false None (lp n st (f_fastmid f) 0) (lp n st (f_fastmid f) 0) None None None None None 0 0 0 end end).
    intros r Hr. destruct (share3_some n st f r Hr) as (x & ->). reflexivity. }
  destruct E as (x & E).
  rewrite (map_ext_in _ (fun r => PRet (x r))); [now apply stopped_ret|].
  intros r Hr. apply in_seq in Hr. cbn. rewrite E by lia. reflexivity.
Qed.
Lemma end2_stopped n st res : (1 <= n)%nat -> stopped (map (end2 n st res) (seq 0 n)).
Proof.
  intros Hn. destruct res as [m| |f]; cbn [end2]; [now apply stopped_err|now apply stopped_ub|].
  assert (E : exists x, forall r, (r < n)%nat -> share2 n st f r = Some (x r)).
  { exists (fun r => match share2 n st f r with Some x => x | None =>
        match share2 n st f 0 with Some y => y | None => mklfft2 (t_in f 0%nat) (t_in f 0%nat) (t_in f 0%nat) (t_in f 0%nat) (t_in f 0%nat)
          false false false None (lp2 n st (t_fastslow f) 0) None None None None 0 0 0 end end).
    intros r Hr. destruct (share2_some n st f r Hr) as (x & ->). reflexivity. }
  destruct E as (x & E).
  rewrite (map_ext_in _ (fun r => PRet (x r))); [now apply stopped_ret|].
  intros r Hr. apply in_seq in Hr. cbn. rewrite E by lia. reflexivity.
Qed.

Lemma setup3d_runs ar n st N permute ins outs : (1 <= n)%nat ->
  let s0 := map (fun r => setup3d_rank ar n st N permute r (ins r) (outs r)) (seq 0 n) in
  exists e, csteps s0 e /\ stopped e /\ (forall t, csteps s0 t -> csteps t e) /\ List.length e = n /\
  forall r, (r < n)%nat ->
    match setup3d ar n st N permute ins outs with
    | SErr m => nth_error e r = Some (PErr m)
    | SUB => nth_error e r = Some PUB
    | SOk f => exists x, share3 n st f r = Some x /\ nth_error e r = Some (PRet x)
    end.
Proof.
  intros Hn s0.
  destruct (runs_of n s0 (end3 n st (setup3d ar n st N permute ins outs)) Hn (setup3d_steps n st Hn permute ins outs ar N)
              (lift_ne n _ Hn) (end3_stopped n st _ Hn)) as (e & H1 & H2 & H3 & H4 & H5).
  exists e. split; [exact H1|]. split; [exact H2|]. split; [exact H3|]. split; [exact H4|].
  intros r Hr. specialize (H5 r Hr). destruct (setup3d ar n st N permute ins outs) as [m| |f]; cbn [end3] in H5; auto.
  destruct (share3_some n st f r Hr) as (x & E). rewrite E in H5. eauto.
Qed.
Lemma setup2d_runs ar n st N permute ins outs : (1 <= n)%nat ->
  let s0 := map (fun r => setup2d_rank ar n st N permute r (ins r) (outs r)) (seq 0 n) in
  exists e, csteps s0 e /\ stopped e /\ (forall t, csteps s0 t -> csteps t e) /\ List.length e = n /\
  forall r, (r < n)%nat ->
    match setup2d ar n st N permute ins outs with
    | SErr m => nth_error e r = Some (PErr m)
    | SUB => nth_error e r = Some PUB
    | SOk f => exists x, share2 n st f r = Some x /\ nth_error e r = Some (PRet x)
    end.
Proof.
  intros Hn s0.
  destruct (runs_of n s0 (end2 n st (setup2d ar n st N permute ins outs)) Hn (setup2d_steps n st Hn permute ins outs ar N)
              (lift_ne n _ Hn) (end2_stopped n st _ Hn)) as (e & H1 & H2 & H3 & H4 & H5).
  exists e. split; [exact H1|]. split; [exact H2|]. split; [exact H3|]. split; [exact H4|].
  intros r Hr. specialize (H5 r Hr). destruct (setup2d ar n st N permute ins outs) as [m| |f]; cbn [end2] in H5; auto.
  destruct (share2_some n st f r Hr) as (x & E). rewrite E in H5. eauto.
Qed.

(** a remap set up by itself *)
Lemma remap_runs {A ext plan} (o : rops A ext plan) n coll ins outs : (1 <= n)%nat -> (forall a b, o_collide o a b = o_collide o b a) ->
  let s0 := map (fun r => remap_rank o n coll r (ins r) (outs r) (fun m => PRet m)) (seq 0 n) in
  exists e, csteps s0 e /\ stopped e /\ (forall t, csteps s0 t -> csteps t e) /\ List.length e = n /\
  forall r, (r < n)%nat -> exists pl, setup o n coll ins outs r = Some pl /\ nth_error e r = Some (PRet (pl, rp_group pl)).
Proof.
  intros Hn Sym s0.
  assert (S : csteps s0 (map (fun r => PRet (lmapof o n coll ins outs r)) (seq 0 n))).
  { unfold s0. apply (remap_steps o n Sym coll ins outs (fun _ m => PRet m)). apply csteps_refl. }
  destruct (runs_of n s0 _ Hn S (lift_ne n _ Hn) (stopped_ret n _ Hn)) as (e & H1 & H2 & H3 & H4 & H5).
  exists e. split; [exact H1|]. split; [exact H2|]. split; [exact H3|]. split; [exact H4|].
  intros r Hr. exists (planof o n coll ins outs r). split; [now apply planof_some|]. exact (H5 r Hr).
Qed.

(** consequences that do not mention the global functions *)
Definition same_opt {X Y} (a : option X) (b : option Y) : Prop := a = None <-> b = None.
Definition alike3 (a b : prog box3 lfft3) : Prop :=
  match a, b with
  | PErr m, PErr m' => m = m'
  | PUB, PUB => True
  | PRet x, PRet y =>
      l_pre x = l_pre y /\ l_post x = l_post y /\ l_same x = l_same y /\
      same_opt (l_prefast x) (l_prefast y) /\ same_opt (l_postslow x) (l_postslow y) /\ same_opt (l_preslow x) (l_preslow y) /\
      same_opt (l_slowmid x) (l_slowmid y) /\ same_opt (l_midfast x) (l_midfast y) /\ same_opt (l_postfast x) (l_postfast y) /\
      same_opt (snd (l_fastmid x)) (snd (l_fastmid y)) /\ same_opt (snd (l_midslow x)) (snd (l_midslow y))
  | _, _ => False
  end.
Definition alike2 (a b : prog box2 lfft2) : Prop :=
  match a, b with
  | PErr m, PErr m' => m = m'
  | PUB, PUB => True
  | PRet x, PRet y =>
      l2_pre x = l2_pre y /\ l2_post x = l2_post y /\ l2_same x = l2_same y /\
      same_opt (l2_prefast x) (l2_prefast y) /\ same_opt (l2_postslow x) (l2_postslow y) /\ same_opt (l2_preslow x) (l2_preslow y) /\
      same_opt (l2_slowfast x) (l2_slowfast y) /\ same_opt (l2_postfast x) (l2_postfast y) /\
      same_opt (snd (l2_fastslow x)) (snd (l2_fastslow y))
  | _, _ => False
  end.

Lemma olp_same n st p r q : same_opt (olp n st p r) (olp n st p q).
Proof. destruct p; split; intros; discriminate || reflexivity. Qed.
Lemma lp_same n st p r q : same_opt (snd (lp n st p r)) (snd (lp n st p q)).
Proof. unfold lp. cbn [snd]. destruct (snd p); split; intros; discriminate || reflexivity. Qed.
Lemma olp2_same n st p r q : same_opt (olp2 n st p r) (olp2 n st p q).
Proof. destruct p; split; intros; discriminate || reflexivity. Qed.
Lemma lp2_same n st p r q : same_opt (snd (lp2 n st p r)) (snd (lp2 n st p q)).
Proof. unfold lp2. cbn [snd]. destruct (snd p); split; intros; discriminate || reflexivity. Qed.

Lemma setup3d_alike ar n st N permute ins outs : (1 <= n)%nat ->
  let s0 := map (fun r => setup3d_rank ar n st N permute r (ins r) (outs r)) (seq 0 n) in
  exists e, csteps s0 e /\ (forall t, csteps s0 t -> csteps t e) /\ List.length e = n /\
  forall r q a b, nth_error e r = Some a -> nth_error e q = Some b -> alike3 a b.
Proof.
  intros Hn s0. destruct (setup3d_runs ar n st N permute ins outs Hn) as (e & H1 & _ & H3 & H4 & H5).
  exists e. split; [exact H1|]. split; [exact H3|]. split; [exact H4|].
  intros r q a b Ha Hb.
  assert (Hr : (r < n)%nat) by (rewrite <- H4; apply nth_error_Some; congruence).
  assert (Hq : (q < n)%nat) by (rewrite <- H4; apply nth_error_Some; congruence).
  pose proof (H5 r Hr) as Er. pose proof (H5 q Hq) as Eq. clear H5 H1 H3 H4 s0.
  destruct (setup3d ar n st N permute ins outs) as [m| |f].
  - rewrite Ha in Er. rewrite Hb in Eq. inversion Er; inversion Eq; subst. reflexivity.
  - rewrite Ha in Er. rewrite Hb in Eq. inversion Er; inversion Eq; subst. exact I.
  - destruct Er as (x & Ex & Er), Eq as (y & Ey & Eq). rewrite Ha in Er. rewrite Hb in Eq. inversion Er; inversion Eq; subst.
    unfold share3 in Ex, Ey. rewrite !share_pair_eq, !share_opt_eq in Ex by exact Hr. rewrite !share_pair_eq, !share_opt_eq in Ey by exact Hq.
    cbn [bind] in Ex, Ey. inversion Ex; inversion Ey; subst. cbn [alike3].
    cbn [l_pre l_post l_same l_prefast l_postslow l_preslow l_slowmid l_midfast l_postfast l_fastmid l_midslow].
    split; [reflexivity|]. split; [reflexivity|]. split; [reflexivity|].
    split; [apply (olp_same n st)|]. split; [apply (olp_same n st)|]. split; [apply (olp_same n st)|]. split; [apply (olp_same n st)|].
    split; [apply (olp_same n st)|]. split; [apply (olp_same n st)|]. split; apply lp_same.
Qed.
Lemma setup2d_alike ar n st N permute ins outs : (1 <= n)%nat ->
  let s0 := map (fun r => setup2d_rank ar n st N permute r (ins r) (outs r)) (seq 0 n) in
  exists e, csteps s0 e /\ (forall t, csteps s0 t -> csteps t e) /\ List.length e = n /\
  forall r q a b, nth_error e r = Some a -> nth_error e q = Some b -> alike2 a b.
Proof.
  intros Hn s0. destruct (setup2d_runs ar n st N permute ins outs Hn) as (e & H1 & _ & H3 & H4 & H5).
  exists e. split; [exact H1|]. split; [exact H3|]. split; [exact H4|].
  intros r q a b Ha Hb.
  assert (Hr : (r < n)%nat) by (rewrite <- H4; apply nth_error_Some; congruence).
  assert (Hq : (q < n)%nat) by (rewrite <- H4; apply nth_error_Some; congruence).
  pose proof (H5 r Hr) as Er. pose proof (H5 q Hq) as Eq. clear H5 H1 H3 H4 s0.
  destruct (setup2d ar n st N permute ins outs) as [m| |f].
  - rewrite Ha in Er. rewrite Hb in Eq. inversion Er; inversion Eq; subst. reflexivity.
  - rewrite Ha in Er. rewrite Hb in Eq. inversion Er; inversion Eq; subst. exact I.
  - destruct Er as (x & Ex & Er), Eq as (y & Ey & Eq). rewrite Ha in Er. rewrite Hb in Eq. inversion Er; inversion Eq; subst.
    unfold share2 in Ex, Ey. rewrite !share_pair2_eq, !share_opt2_eq in Ex by exact Hr. rewrite !share_pair2_eq, !share_opt2_eq in Ey by exact Hq.
    cbn [bind] in Ex, Ey. inversion Ex; inversion Ey; subst. cbn [alike2].
    cbn [l2_pre l2_post l2_same l2_prefast l2_postslow l2_preslow l2_slowfast l2_postfast l2_fastslow].
    split; [reflexivity|]. split; [reflexivity|]. split; [reflexivity|].
    split; [apply olp2_same|]. split; [apply olp2_same|]. split; [apply olp2_same|]. split; [apply olp2_same|].
    split; [apply olp2_same|]. apply lp2_same.
Qed.


Lemma remap3d_runs n coll pack nqty permute (ins outs : nat -> box3) : (1 <= n)%nat ->
  let s0 := map (fun r => remap_rank (ops3 (A := Z) pack nqty permute) n coll r (ins r) (outs r) (fun m => PRet m)) (seq 0 n) in
  exists e, csteps s0 e /\ stopped e /\ (forall t, csteps s0 t -> csteps t e) /\ List.length e = n /\
  forall r, (r < n)%nat -> exists pl, setup3 n coll pack nqty permute ins outs r = Some pl /\ nth_error e r = Some (PRet (pl, rp_group pl)).
Proof. intros Hn. apply (remap_runs (ops3 (A := Z) pack nqty permute) n coll ins outs Hn). apply sym3. Qed.
Lemma remap2d_runs n coll pack nqty permute (ins outs : nat -> box2) : (1 <= n)%nat ->
  let s0 := map (fun r => remap_rank (ops2 (A := Z) 8 pack nqty permute) n coll r (ins r) (outs r) (fun m => PRet m)) (seq 0 n) in
  exists e, csteps s0 e /\ stopped e /\ (forall t, csteps s0 t -> csteps t e) /\ List.length e = n /\
  forall r, (r < n)%nat -> exists pl, setup2 n coll pack nqty permute ins outs r = Some pl /\ nth_error e r = Some (PRet (pl, rp_group pl)).
Proof. intros Hn. apply (remap_runs (ops2 (A := Z) 8 pack nqty permute) n coll ins outs Hn). apply sym2. Qed.

(** a rank that has left setup *)
Definition ended {B T} (p : prog B T) : Prop := match p with PRet _ | PErr _ | PUB => True | _ => False end.

(** rank 0 waits in MPI_Allreduce, rank 1 in the MPI_Barrier of error->all *)
Lemma dimensions_stuck : exists ar n st (N : nat -> Z * Z * Z) permute ins outs, (1 <= n)%nat /\
  let s0 := map (fun r => setup3d_rank ar n st (N r) permute r (ins r) (outs r)) (seq 0 n) in
  exists e, csteps s0 e /\ stopped e /\ exists r p, nth_error e r = Some p /\ ~ ended p.
Proof.
  exists exact_areas, 2%nat, (mkset 2 0 2), (fun r => if Nat.eqb r 0 then (2, 2, 2) else (1, 2, 2)), 0,
    (fun r => mkbox3 0 1 0 1 (Z.of_nat r) (Z.of_nat r)), (fun r => mkbox3 0 1 0 1 (Z.of_nat r) (Z.of_nat r)).
  split; [lia|]. cbv zeta. eexists. split; [apply csteps_refl|]. split.
  - intros t H. inversion H as [l E|l E|l E|l Hl E]; destruct l as [|? [|? ?]]; discriminate E.
  - exists 0%nat. eexists. split; [cbn [seq map nth_error]; reflexivity|]. cbv. auto.
Qed.
(** rank 0 waits in MPI_Comm_create, rank 1 has returned *)
Lemma settings_stuck : exists n (coll : nat -> bool) pack nqty permute (ins outs : nat -> box3), (1 <= n)%nat /\
  let s0 := map (fun r => remap_rank (ops3 (A := Z) pack nqty permute) n (coll r) r (ins r) (outs r) (fun m => PRet m)) (seq 0 n) in
  exists e, csteps s0 e /\ stopped e /\ exists r p, nth_error e r = Some p /\ ~ ended p.
Proof.
  exists 2%nat, (fun r => Nat.eqb r 0), 0, 1, 0, (fun r => mkbox3 0 1 0 1 (Z.of_nat r) (Z.of_nat r)), (fun r => mkbox3 0 1 0 1 (Z.of_nat r) (Z.of_nat r)).
  split; [lia|]. cbv zeta. eexists. split.
  - cbn [seq map]. unfold remap_rank.
    eapply csteps_step; [eapply (cs_gather [(_, _); (_, _)])|]. cbn [map fst snd].
    eapply csteps_step; [eapply (cs_gather [(_, _); (_, _)])|]. cbn [map fst snd].
    vm_compute. apply csteps_refl.
  - split.
    + intros t H. inversion H as [l E|l E|l E|l Hl E]; destruct l as [|? [|? ?]]; discriminate E.
    + exists 0%nat. eexists. split; [cbn [nth_error]; reflexivity|]. intros [].
Qed.
