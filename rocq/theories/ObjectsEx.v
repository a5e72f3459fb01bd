(** ObjectsEx.v : an FFT3d, an FFT2d and a Remap3d object used by turns on two ranks (tests, not proofs). *)

From Verif Require Import Base Spec Pack3d Pack2d Sched SchedProofs Phases Exec Remap RemapMain RemapInst
  Remap3d Remap2d RemapThms RemapTop Layout LayoutFinal Setup3d Setup2d Kiss KissPure Fft1d
  Fft3d Frame Fft3dProofs Fft3dMain Fft3dTop Fft3dFinal Fft3dStmt Fft3dEx Fft2d Fft2dMain Fft2dTop Fft2dFinal Fft2dStmt Fft2dEx
  Ops OpsSeq OpsProofs Objects.
Local Open Scope Z_scope.

Definition jset := mkset 2 0 2.
Definition jM (_ : nat) : @rmem Z := let l := zrange 40 in mkmem l (map (fun x => 3 * x + 1) l) l l.
Definition jleg := mkleg3 true 1 2 1 isplit3 split3 BIn BOut.
Definition small3 (f : fft3) : bool := forallb (fun r => (f_fftsize f r <=? 20) && (f_sendsize f r <=? 40) && (f_recvsize f r <=? 40)) [0%nat; 1%nat].
Definition small2 (f : fft2) : bool := forallb (fun r => (t_fftsize f r <=? 20) && (t_sendsize f r <=? 40) && (t_recvsize f r <=? 40)) [0%nat; 1%nat].
Definition o3 (f : fft3) (P : @plans3 Z) : obj3 := mkobj3 exact_areas jset g2 1 isplit3 split3 f P.
Definition o2 (f : fft2) (P : @plans2 Z) : obj2 := mkobj2 exact_areas jset sq2 1 isplit2 split2 f P.
Definition work3 f P : list (@job Z) := [JFft3 (o3 f P) (ACompute true false FORWARD BIn BIn); JFft3 (o3 f P) (ACompute true false BACKWARD BIn BIn)].
Definition work2 f P : list (@job Z) := [JFft2 (o2 f P) (ACompute true false FORWARD BOut BOut); JFft2 (o2 f P) (ACompute false false BACKWARD BOut BOut)].
Definition byturns f3 P3 f2 P2 : list (@job Z) :=
  match work3 f3 P3, work2 f2 P2 with [a; b], [c; d] => [a; c; d; b] | _, _ => [] end.
Definition rest : list (@job Z) := [JBarrier; JRemap3 jleg; JFill BIn (fun r l => zset l 1 (Z.of_nat r))].

(** what the calls need is there *)
Lemma ex_jobs : exists f3 P3 f2 P2, exSetup jset 1 isplit3 split3 = SOk f3 /\ setup_ffts3 cexpZ g2 = Some P3 /\
  exSetup_2 jset 1 isplit2 split2 = SOk f2 /\ setup_ffts2 cexpZ sq2 = Some P2 /\
  Forall (job_ok cexpZ 8 2 (fun _ => 20) jM) (byturns f3 P3 f2 P2 ++ rest) /\
  merge (work3 f3 P3) (work2 f2 P2) (byturns f3 P3 f2 P2) /\
  fed 2 (fun _ => 20) (array_of BIn) (work3 f3 P3) /\ fed 2 (fun _ => 20) (array_of BOut) (work2 f2 P2) /\
  Forall (only_writes BIn) (work3 f3 P3) /\ Forall (only_writes BOut) (work2 f2 P2).
Proof.
  destruct (with_plan_inv jset 1 isplit3 split3 (fun f _ => small3 f)) as (f3 & P3 & Es & EP & Hk); [vm_compute; reflexivity|].
  destruct (with_plan_inv_2 jset 1 isplit2 split2 (fun f _ => small2 f)) as (f2 & P2 & Es2 & EP2 & Hk2); [vm_compute; reflexivity|].
  exists f3, P3, f2, P2. split; [exact Es|]. split; [exact EP|]. split; [exact Es2|]. split; [exact EP2|].
  assert (R3 : ready3 exact_areas 2 jset g2 1 isplit3 split3 f3) by (apply ex_ready; [right; right; reflexivity|apply tile_isplit|apply tile_split|exact Es]).
  assert (R2 : ready2 8 exact_areas 2 jset sq2 1 isplit2 split2 f2) by (apply ex_ready_2; [right; right; reflexivity|apply tile_isplit_2|apply tile_split_2|exact Es2]).
  assert (L : forall b, zlen (getb b (jM 0%nat)) = 40) by (intros []; vm_compute; reflexivity).
  assert (K3 : forall r, (r < 2)%nat -> f_fftsize f3 r <= 20 /\ f_sendsize f3 r <= 40 /\ f_recvsize f3 r <= 40).
  { intros r Hr. unfold small3 in Hk. rewrite forallb_forall in Hk. specialize (Hk r). assert (In r [0%nat; 1%nat]) by (cbn; lia).
    apply Hk in H. apply andb_prop in H as (H & H3). apply andb_prop in H as (H1 & H2). apply Z.leb_le in H1, H2, H3. auto. }
  assert (K2 : forall r, (r < 2)%nat -> t_fftsize f2 r <= 20 /\ t_sendsize f2 r <= 40 /\ t_recvsize f2 r <= 40).
  { intros r Hr. unfold small2 in Hk2. rewrite forallb_forall in Hk2. specialize (Hk2 r). assert (In r [0%nat; 1%nat]) by (cbn; lia).
    apply Hk2 in H. apply andb_prop in H as (H & H3). apply andb_prop in H as (H1 & H2). apply Z.leb_le in H1, H2, H3. auto. }
  assert (Ro : forall flag, room3 f3 flag BIn jM).
  { intros flag. split; [|intros _; apply (midfast_auto _ _ _ _ _ _ _ _ _ R3); reflexivity]. intros r Hr.
    rewrite (en 2 jset g2 1 isplit3 split3 f3 (ready_facts _ _ _ _ _ _ _ _ R3)) in Hr. destruct (K3 r Hr) as (A & B & C).
    change (jM r) with (jM 0%nat). pose proof (L BIn). pose proof (L BSend). pose proof (L BRecv). cbn [getb] in *. lia. }
  assert (Ro2 : arrays_ok2 f2 BOut jM).
  { intros r Hr. rewrite (en2 2 jset sq2 1 isplit2 split2 f2 (ready_facts2 _ _ _ _ _ _ _ _ _ R2)) in Hr. destruct (K2 r Hr) as (A & B & C).
    change (jM r) with (jM 0%nat). pose proof (L BOut). pose proof (L BSend). pose proof (L BRecv). cbn [getb] in *. lia. }
  assert (DI : isdata BIn) by (left; reflexivity). assert (DO : isdata BOut) by (right; reflexivity).
  assert (J3 : forall flag, job_ok cexpZ 8 2 (fun _ => 20) jM (JFft3 (o3 f3 P3) (ACompute true false flag BIn BIn))).
  { intros flag. split; [exact R3|]. split; [exact EP|]. split; [intros r Hr; apply (K3 r Hr)|]. split; [exact DI|]. split; [exact DI|]. split; [left; reflexivity|]. split; apply Ro. }
  assert (J2 : forall s flag, job_ok cexpZ 8 2 (fun _ => 20) jM (JFft2 (o2 f2 P2) (ACompute s false flag BOut BOut))).
  { intros s flag. split; [exact R2|]. split; [exact EP2|]. split; [intros r Hr; apply (K2 r Hr)|]. split; [exact DO|]. split; [exact DO|]. split; [left; reflexivity|]. split; apply Ro2. }
  split; [|split; [|split; [|split; [|split]]]].
  - apply Forall_app. split; [constructor; [apply J3|constructor; [apply J2|constructor; [apply J2|constructor; [apply J3|constructor]]]]|].
    constructor; [exact I|]. constructor; [|constructor; [|constructor]].
    + split.
      * split; [right; left; reflexivity|]. split; [cbn; lia|]. split; [apply tile_isplit|]. split; [right; left; reflexivity|]. split; [exact DI|]. split; [exact DO|]. split.
        -- intros r Hr. change (jM r) with (jM 0%nat). cbn [l_din l_dout jleg l_nq l_ins l_outs]. rewrite !L. destruct r as [|[|r]]; [vm_compute; split; discriminate|vm_compute; split; discriminate|lia].
        -- intros r pl Hr Hs. destruct r as [|[|r]]; [| |lia]; vm_compute in Hs; injection Hs as <-; vm_compute; split; discriminate.
      * intros r Hr. destruct r as [|[|r]]; [vm_compute; discriminate|vm_compute; discriminate|lia].
    + split; [exact DI|]. intros r l Hr Hl. change (jM r) with (jM 0%nat) in Hl. rewrite L in Hl. split; [lia|].
      destruct (zset_Some l 1 (Z.of_nat r)) as (l' & E); [lia|]. exists l'. split; [exact E|]. split; [eapply zset_len; exact E|].
      intros x Hx. eapply zget_zset_other; [exact E|lia].
  - repeat constructor.
  - split; [intros b r x _ (-> & _); reflexivity|]. split; [|exact I]. intros b r x Hr H. exact H.
  - split; [intros b r x _ (-> & _); reflexivity|]. split; [|exact I]. intros b r x Hr H. exact H.
  - repeat constructor; intros b [<- | []]; reflexivity.
  - repeat constructor; intros b [<- | []]; reflexivity.
Qed.

Fixpoint zlist_eqb (a b : list Z) : bool := match a, b with [], [] => true | x :: a, y :: b => (x =? y) && zlist_eqb a b | _, _ => false end.
Definition arr (b : bsel) (l : list job) (r : nat) : list Z :=
  match nth_error (mems_of (final 2 (jobs_code Zops normZ 8 2 l) jM)) r with Some m => getb b m | None => [] end.
(** all of it runs; the 3d result is that of the 3d calls alone, the 2d result that of the 2d calls alone *)
Lemma ex_turns : with_plan jset 1 isplit3 split3 (fun f3 P3 => with_plan_2 jset 1 isplit2 split2 (fun f2 P2 =>
  doneb (final 2 (jobs_code Zops normZ 8 2 (byturns f3 P3 f2 P2 ++ rest)) jM) &&
  forallb (fun r => zlist_eqb (firstn 8 (arr BIn (byturns f3 P3 f2 P2) r)) (firstn 8 (arr BIn (work3 f3 P3) r)) &&
    negb (zlist_eqb (firstn 8 (arr BIn (byturns f3 P3 f2 P2) r)) (firstn 8 (zrange 40))) &&
    zlist_eqb (firstn 4 (arr BOut (byturns f3 P3 f2 P2) r)) (firstn 4 (arr BOut (work2 f2 P2) r))) [0%nat; 1%nat])) = true.
Proof. vm_compute. reflexivity. Qed.

(** two remaps, rank 1 in the other order: the messages of one are taken for those of the other *)
Definition turn (a b : @job Z) (r : nat) : list (@instr Z) :=
  if Nat.eqb r 0 then jobs_code Zops normZ 8 2 [a; b] r else jobs_code Zops normZ 8 2 [b; a] r.
Definition legA := JRemap3 (F := Z) (mkleg3 false 0 2 0 isplit3 split3 BIn BIn).
Definition legB := JRemap3 (F := Z) (mkleg3 false 0 2 0 isplit3 split3 BOut BOut).
Lemma ex_order : exists (a b : @job Z) (M0 : nat -> @rmem Z), Forall (job_ok cexpZ 8 2 (fun _ => 20) M0) [a; b] /\
  exists r c v w, may_end_with 2 (jobs_code Zops normZ 8 2 [a; b]) M0 r BIn c v /\ may_end_with 2 (jobs_code Zops normZ 8 2 [b; a]) M0 r BIn c v /\
    may_end_with 2 (turn a b) M0 r BIn c w /\ v <> w.
Proof.
  exists legA, legB, jM. split.
  - assert (L : forall b, zlen (getb b (jM 0%nat)) = 40) by (intros []; vm_compute; reflexivity).
    assert (DI : isdata BIn) by (left; reflexivity). assert (DO : isdata BOut) by (right; reflexivity).
    assert (K : forall b, isdata b -> job_ok cexpZ 8 2 (fun _ => 20) jM (JRemap3 (mkleg3 false 0 2 0 isplit3 split3 b b))).
    { intros b Hb. split.
      - split; [left; reflexivity|]. split; [cbn; lia|]. split; [apply tile_isplit|]. split; [left; reflexivity|]. split; [exact Hb|]. split; [exact Hb|]. split.
        + intros r Hr. change (jM r) with (jM 0%nat). cbn [l_din l_dout l_nq l_ins l_outs]. rewrite !L. destruct r as [|[|r]]; [vm_compute; split; discriminate|vm_compute; split; discriminate|lia].
        + intros r pl Hr Hs. destruct r as [|[|r]]; [| |lia]; vm_compute in Hs; injection Hs as <-; vm_compute; split; discriminate.
      - intros r Hr. destruct r as [|[|r]]; [vm_compute; discriminate|vm_compute; discriminate|lia]. }
    constructor; [apply K, DI|]. constructor; [apply K, DO|constructor].
  - destruct (cell_of (final 2 (jobs_code Zops normZ 8 2 [legA; legB]) jM) 0 BIn 2) as [v|] eqn:E; [|vm_compute in E; discriminate].
    destruct (cell_of (final 2 (turn legA legB) jM) 0 BIn 2) as [w|] eqn:E'; [|vm_compute in E'; discriminate].
    exists 0%nat, 2, v, w. split; [apply final_ends; [vm_compute; reflexivity|exact E]|]. split; [apply final_ends; [vm_compute; reflexivity|rewrite <- E; vm_compute; reflexivity]|].
    split; [apply final_ends; [vm_compute; reflexivity|exact E']|]. vm_compute in E, E'. congruence.
Qed.
