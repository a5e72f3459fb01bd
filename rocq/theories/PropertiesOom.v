(** PropertiesOom.v : property C67 (allocation failure), proofs by reference. *)

From Coq Require Import String.
From Verif Require Import Base Setup3d Life Oom OomProofs.
Local Open Scope string_scope.
Local Open Scope list_scope.
Local Open Scope Z_scope.

(** ** C67 *)
(** Remap setup under any pattern of failing allocations: it stops with the message that belongs to the first array that could not be
    allocated; pflag and pgroup have no message and are used all the same.  If no allocation fails, or only that of a pgroup that is not
    needed, setup ends and the remap uses live arrays only. *)
Theorem C67_remap : forall esize plsize rqsize xsize nprocs, 0 < esize -> 0 < plsize -> 0 < rqsize -> 0 < xsize -> 0 < nprocs ->
  forall o coll memflag c fails k e,
  let S := remap_setup esize plsize rqsize xsize nprocs o coll memflag c in
  match first_failing (serious_remap c) fails k (attempts S) with
  | Some v => run fails k e S = verdict v
  | None => exists e', run fails k e S = ADone (k + List.length (attempts S)) e' /\
            forall fails' k', run fails' k' e' (remap_use o coll memflag c) = ADone k' e'
  end.
Proof. exact remap_oom. Qed.
Print Assumptions C67_remap.

(** FFT setup: the same over all its remaps, with no message for the plans, whose failure setup does not notice.  A transform afterwards is
    sound iff the plans it uses were allocated and none of the temporary arrays of the 1d transforms fails; otherwise it is undefined,
    never reported. *)
Theorem C67_fft : forall esize plsize rqsize xsize nprocs, 0 < esize -> 0 < plsize -> 0 < rqsize -> 0 < xsize -> 0 < nprocs ->
  forall memflag sh fails k e,
  let S := fft_setup esize plsize rqsize xsize nprocs memflag sh in
  (forall d, In d (s_dims sh) -> 0 < d) ->
  match first_failing (serious_fft sh) fails k (attempts S) with
  | Some v => run fails k e S = verdict v
  | None => exists e', run fails k e S = ADone (k + List.length (attempts S)) e' /\
    forall fwd lines fails' k', (List.length lines <= List.length (s_dims sh))%nat ->
      let C := fft_compute esize fwd memflag sh lines in
      let sound := (forall d, (0 < nth d lines 0)%nat -> e' (plan_of fwd (s_dims sh) d) = Live) /\
                   (forall i, (k' <= i < k' + List.length (attempts C))%nat -> fails' i = false) in
      (sound -> exists e2, run fails' k' e' C = ADone (k' + List.length (attempts C)) e2) /\ (~ sound -> run fails' k' e' C = AUB)
  end.
Proof. exact fft_oom. Qed.
Print Assumptions C67_fft.

(** every plan that a transform uses is among the attempts of setup, and is live iff that attempt succeeded *)
Theorem C67_plans : forall esize plsize rqsize xsize nprocs, 0 < esize -> forall memflag sh,
  (forall d, In d (s_dims sh) -> 0 < d) -> (List.length (s_dims sh) = 2 \/ List.length (s_dims sh) = 3)%nat ->
  let S := fft_setup esize plsize rqsize xsize nprocs memflag sh in
  forall fwd d, (d < List.length (s_dims sh))%nat -> let v := plan_of fwd (s_dims sh) d in
  In v (attempts S) /\ forall fails k e k' e' i, run fails k e S = ADone k' e' -> nth_error (attempts S) i = Some v -> e' v = if fails (k + i)%nat then Null else Live.
Proof.
  exact (fun esize plsize rqsize xsize nprocs He memflag sh Hd Hl fwd d Hlt =>
    let H := plan_of_in esize plsize rqsize xsize nprocs He memflag sh fwd d Hd Hl Hlt in
    conj (proj2 H) (fun f k e k' e' i E Hi => plan_state esize plsize rqsize xsize nprocs He memflag sh f k e k' e' i _ Hd E Hi (proj1 H))).
Qed.
Print Assumptions C67_plans.

(** with point-to-point communication setup has no undefined behaviour under any pattern of failures *)
Theorem C67_p2p_remap : forall esize plsize rqsize xsize nprocs, 0 < esize -> 0 < plsize -> 0 < rqsize -> 0 < xsize -> 0 < nprocs ->
  forall o memflag c fails k e, run fails k e (remap_setup esize plsize rqsize xsize nprocs o 0 memflag c) <> AUB.
Proof. exact remap_p2p. Qed.
Print Assumptions C67_p2p_remap.
Theorem C67_p2p_fft : forall esize plsize rqsize xsize nprocs, 0 < esize -> 0 < plsize -> 0 < rqsize -> 0 < xsize -> 0 < nprocs ->
  forall memflag sh fails k e, (forall d, In d (s_dims sh) -> 0 < d) -> p2p_only sh ->
  run fails k e (fft_setup esize plsize rqsize xsize nprocs memflag sh) <> AUB.
Proof. exact fft_p2p. Qed.
Print Assumptions C67_p2p_fft.

(** tune's array: when it grows, the result of srealloc is written to without a test *)
Theorem C67_tune : forall esize old new fails k e, 0 < esize -> 0 <= old < new -> e (0%nat, "data") = Live \/ e (0%nat, "data") = Null ->
  run fails k e (tune_data esize old new) = if fails k then AUB else ADone (S k) (upd e (0%nat, "data") Live).
Proof. exact tune_oom. Qed.
Print Assumptions C67_tune.

(** "every allocation failure is reported" is false: in setup with collective communication, and in compute after a setup that ended *)
Definition exC := mkrcnt 2 2 true 3 6 8.
Definition exSh := mkshape [8; 6; 6] [Some (mkrmk (0, exC) None); None; Some (mkrmk (0, exC) (Some (0, exC)))] (48, 12, 16).
Definition from0 : avar -> pst := fun _ => Undef.
Theorem C67_refuted :
  (exists i, run (fun k => Nat.eqb k i) 0 from0 (remap_setup 8 64 8 24 4 1 1 1 exC) = AUB) /\
  (exists i k' e', run (fun k => Nat.eqb k i) 0 from0 (fft_setup 8 64 8 24 4 1 exSh) = ADone k' e' /\
    run (fun _ => false) k' e' (fft_compute 8 true 1 exSh [0; 2; 0]%nat) = AUB).
Proof.
  split; [exists 12%nat; vm_compute; reflexivity|].
  exists 52%nat. destruct (run (fun k => Nat.eqb k 52) 0 from0 (fft_setup 8 64 8 24 4 1 exSh)) as [m| |k' e'] eqn:E; [vm_compute in E; discriminate|vm_compute in E; discriminate|].
  exists k', e'. split; [reflexivity|]. vm_compute in E. injection E as <- <-. vm_compute. reflexivity.
Qed.
Print Assumptions C67_refuted.

Example C67_example_remap :
  first_failing (serious_remap exC) (fun k => Nat.eqb k 7) 0 (attempts (remap_setup 8 64 8 24 4 1 1 1 exC)) = Some (1%nat, "recv_size") /\
  run (fun k => Nat.eqb k 7) 0 from0 (remap_setup 8 64 8 24 4 1 1 1 exC) = AHalt "Could not allocate remap recv info" /\
  List.length (attempts (remap_setup 8 64 8 24 4 1 1 1 exC)) = 23%nat.
Proof. vm_compute. repeat split. Qed.
Example C67_example_fft :
  p2p_only exSh /\ (forall d, In d (s_dims exSh) -> 0 < d) /\
  first_failing (serious_fft exSh) (fun k => Nat.eqb k 52) 0 (attempts (fft_setup 8 64 8 24 4 1 exSh)) = None /\
  nth_error (attempts (fft_setup 8 64 8 24 4 1 exSh)) 52 = Some (plan_of true [8; 6; 6] 1) /\
  run (fun k => Nat.eqb k 21) 0 from0 (fft_setup 8 64 8 24 4 1 exSh) = AHalt "Could not allocate outarray".
Proof.
  split.
  { intros o k. unfold remap_of, exSh. cbn [s_remaps]. destruct (Nat.div2 (pred o)) as [|[|[|m]]]; cbn; [..|destruct m; discriminate];
      destruct (Nat.even o); try discriminate; intros H; injection H as <-; reflexivity. }
  split; [intros d H; cbn in H; repeat (destruct H as [<- | H]; [lia|]); destruct H|]. vm_compute. repeat split.
Qed.
