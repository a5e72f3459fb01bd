(** TestOptTop.v : from the command line of the test programs to the error they report, what
    they print, and where options() and output() go wrong. *)

From Coq Require Import QArith String Sorted Reals Lra Lia ZArith.
From Verif Require Import Base Spec Pack3d Sched Exec RemapInst Layout LayoutProofs Setup3d Setup3dProofs Setup2d Setup2dProofs LayoutFinal
  Fft1d Fft3d Fft3dMain Fft3dTop Fft3dFinal Fft2d Fft2dMain Fft2dTop Double DoubleProofs Fft3dEx Fft2dEx
  TestProg TestLayProofs TestDataProofs TestRunProofs TestFinal TestTop TestOpt TestOptProofs TestOutProofs.
Local Open Scope Z_scope.
Local Open Scope list_scope.

(** ** one run, from the command line *)
Definition triple (l : list Z) : Z * Z * Z := match l with [a; b; c] => (a, b, c) | _ => (0, 0, 0) end.
Definition pair_ (l : list Z) : Z * Z := match l with [a; b] => (a, b) | _ => (0, 0) end.
(** every number on the command line fits an int, also with the number of ranks added *)
Definition fits_ranks (n : nat) (args : list string) : Prop :=
  forall s, In s args -> exists v, atoi s = Some v /\ - 2 ^ 31 <= v /\ v + Z.of_nat n <= 2 ^ 31 - 1.
Lemma fits_rank n args r : fits_ranks n args -> (r < n)%nat -> fits (Z.of_nat r) args.
Proof. intros H Hr s Hs. destruct (H s Hs) as (v & E & A). exists v. split; [exact E|]. lia. Qed.

Lemma given_triple P l : List.length l = 3%nat -> given P l -> given3 P (triple l).
Proof.
  destruct l as [|a [|b [|c [|]]]]; try discriminate. intros _ [H | (H & E)].
  - left. repeat match goal with H : Forall _ _ |- _ => inversion H; subst; clear H end. reflexivity.
  - right. repeat match goal with H : Forall _ _ |- _ => inversion H; subst; clear H end. cbn [fold_right triple] in *. unfold factors3. repeat split; try lia.
Qed.
Lemma given_pair P l : List.length l = 2%nat -> given P l -> given2 P (pair_ l).
Proof.
  destruct l as [|a [|b [|]]]; try discriminate. intros _ [H | (H & E)].
  - left. repeat match goal with H : Forall _ _ |- _ => inversion H; subst; clear H end. reflexivity.
  - right. repeat match goal with H : Forall _ _ |- _ => inversion H; subst; clear H end. cbn [fold_right pair_] in *. unfold factors2. repeat split; try lia.
Qed.

Definition set_of (o : opts) : settings := mkset (o_c o) (o_e o) (o_p o).
Lemma set_flag o : 0 <= o_p o <= 2 -> flag_ok (st_pack (set_of o)).
Proof. intros H. unfold flag_ok. cbn. lia. Qed.

Theorem C59_run3_proof rd ar (n : nat) atof prog line o vr (M0 : fft3 -> nat -> @rmem R) :
  rd_laws rd -> area_laws ar -> (1 <= n)%nat -> Z.of_nat n <= 2 ^ 31 - 1 -> fits_ranks n (prog :: line) ->
  options 3 atof (Z.of_nat n) 0 (prog :: line) = OOk o ->
  ints3d (triple (o_g o)) -> small3 (Z.of_nat n) (triple (o_g o)) -> dims_ok3 (triple (o_g o)) ->
  o_mode o = 0 -> o_pout o = o_pin o -> o_tune o = None -> o_r o = false -> (forall r, (r < n)%nat -> seed_ok (o_init o) (seed_of o + Z.of_nat r)) ->
  (forall f, arrays_ok f BWORK (M0 f)) ->
  (forall r, (r < n)%nat -> options 3 atof (Z.of_nat n) (Z.of_nat r) (prog :: line) = OOk (shift (Z.of_nat r) o)) /\
  reports3 rd ar n (set_of o) (o_mode o) (triple (o_g o)) (triple (o_pin o)) (triple (o_pout o)) vr (o_init o) (fun r => seed_of (shift (Z.of_nat r) o))
    (Z.to_nat (o_nloop o)) M0 0%R.
Proof.
  intros L La Hn P1 Hf Ho HN Hs Hd Hm Hpo Ht Hr Hseed HM.
  assert (F0 : fits 0 (prog :: line)) by (apply (fits_rank n _ 0%nat Hf); lia). split.
  - intros r Hrn. pose proof (options_ranks 3 atof (Z.of_nat n) prog line (Z.of_nat r) ltac:(lia) F0 (fits_rank n _ r Hf Hrn)) as (H1 & _). apply H1, Ho.
  - destruct (options_ranges 3 atof _ 0 prog line o P1 Ho) as ((_ & Lp & _) & _ & _ & Hp).
    apply (options_iff 3 atof _ prog line 0 o P1) in Ho as (_ & A). rewrite Hpo, Hm.
    apply C56_test3d_proof; auto.
    + apply set_flag, Hp.
    + apply given_triple; [exact Lp|apply (a_pin _ _ _ A)].
    + intros r Hrn Hk. specialize (Hseed r Hrn Hk). unfold seed_of in *. cbn [shift o_seed]. destruct (a_seed _ _ _ A Hk) as (s & Es & _). rewrite Es in *. exact Hseed.
Qed.
Theorem C59_run2_proof rd esize ar (n : nat) atof prog line o vr (M0 : fft2 -> nat -> @rmem R) :
  rd_laws rd -> area_laws ar -> (1 <= n)%nat -> Z.of_nat n <= 2 ^ 31 - 1 -> fits_ranks n (prog :: line) ->
  options 2 atof (Z.of_nat n) 0 (prog :: line) = OOk o ->
  ints2d (pair_ (o_g o)) -> small2 (Z.of_nat n) (pair_ (o_g o)) -> dims_ok2 (pair_ (o_g o)) -> (esize = 8 \/ o_p o <> 2) ->
  o_mode o = 0 -> o_pin o <> [0; 0] -> o_pout o = o_pin o -> o_tune o = None -> o_r o = false -> (forall r, (r < n)%nat -> seed_ok (o_init o) (seed_of o + Z.of_nat r)) ->
  (forall f, arrays_ok2 f BWORK (M0 f)) ->
  (forall r, (r < n)%nat -> options 2 atof (Z.of_nat n) (Z.of_nat r) (prog :: line) = OOk (shift (Z.of_nat r) o)) /\
  reports2 rd esize ar n (set_of o) (o_mode o) (pair_ (o_g o)) (pair_ (o_pin o)) (pair_ (o_pout o)) vr (o_init o) (fun r => seed_of (shift (Z.of_nat r) o))
    (Z.to_nat (o_nloop o)) M0 0%R.
Proof.
  intros L La Hn P1 Hf Ho HN Hs Hd He Hm Hpi Hpo Ht Hr Hseed HM.
  assert (F0 : fits 0 (prog :: line)) by (apply (fits_rank n _ 0%nat Hf); lia). split.
  - intros r Hrn. pose proof (options_ranks 2 atof (Z.of_nat n) prog line (Z.of_nat r) ltac:(lia) F0 (fits_rank n _ r Hf Hrn)) as (H1 & _). apply H1, Ho.
  - destruct (options_ranges 2 atof _ 0 prog line o P1 Ho) as ((_ & Lp & _) & _ & _ & Hp).
    apply (options_iff 2 atof _ prog line 0 o P1) in Ho as (_ & A). rewrite Hpo.
    apply C56_test2d_proof; auto.
    + apply set_flag, Hp.
    + destruct (given_pair _ _ Lp (a_pin _ _ _ A)) as [E | G]; [|exact G]. destruct (o_pin o) as [|a [|b [|]]]; try discriminate. cbn in E. congruence.
    + intros r Hrn Hk. specialize (Hseed r Hrn Hk). unfold seed_of in *. cbn [shift o_seed]. destruct (a_seed _ _ _ A Hk) as (s & Es & _). rewrite Es in *. exact Hseed.
Qed.

(** ** where options() goes wrong *)
Definition no_atof (_ : string) : Q := 0%Q.
(** the seed is checked after the rank has been added *)
Lemma C59_seed_proof : exists line o, options 3 no_atof 2 0 line = OErr "Invalid initialize setting" /\ options 3 no_atof 2 1 line = OOk o.
Proof. exists ["test3d"; "-i"; "0"]%string. eexists. split; vm_compute; reflexivity. Qed.
Lemma C59_seed2_proof : exists line o, options 2 no_atof 2 0 line = OErr "Invalid initialize setting" /\ options 2 no_atof 2 1 line = OOk o.
Proof. exists ["test2d"; "-i"; "step1"]%string. eexists. split; vm_compute; reflexivity. Qed.
(** the product of the processor grid overflows *)
Lemma C59_product_proof : exists line, fits_ranks 2 line /\ options 3 no_atof 2 0 line = OUB.
Proof.
  exists ["test3d"; "-pin"; "65536"; "65536"; "2"]%string. split; [|vm_compute; reflexivity].
  intros s Hs. cbn [In] in Hs. destruct Hs as [<- | [<- | [<- | [<- | [<- | []]]]]]; (eexists; split; [vm_compute; reflexivity|lia]).
Qed.
(** -n 0 with -tune *)
Lemma C59_tune_proof : exists line o, options 3 no_atof 2 0 line = OOk o /\ options 2 no_atof 2 0 line = OErr "Invalid Nloop".
Proof. exists ["test"; "-n"; "0"; "-tune"; "5"; "10.0"; "0"]%string. eexists. split; vm_compute; reflexivity. Qed.

Lemma C59_example_proof : exists o, options 3 no_atof 12 0 ["test3d"; "-g"; "8"; "6"; "5"; "-pin"; "3"; "2"; "2"; "-pout"; "3"; "2"; "2"; "-n"; "10"; "-i"; "82783"; "-c"; "all"; "-p"; "ptr"; "-v"]%string = OOk o /\
  triple (o_g o) = (8, 6, 5) /\ o_pout o = o_pin o /\ o_mode o = 0 /\ o_tune o = None /\ o_r o = false /\ o_nloop o = 10 /\ set_of o = mkset 1 0 1 /\
  seed_of o = 82783 /\ o_init o = RANDOM /\ o_v o = true /\
  options 3 no_atof 12 7 ["test3d"; "-g"; "8"; "6"; "5"; "-pin"; "3"; "2"; "2"; "-pout"; "3"; "2"; "2"; "-n"; "10"; "-i"; "82783"; "-c"; "all"; "-p"; "ptr"; "-v"]%string = OOk (shift 7 o).
Proof. eexists. split; [vm_compute; reflexivity|]. vm_compute. repeat split. Qed.
Lemma C59_safe_example_proof : small_numbers "test3d" ["-g"; "12"; "+7"; " 9z"; "-m"; "-1"]%string 3 /\
  options 3 no_atof 4 3 ["test3d"; "-g"; "12"; "+7"; " 9z"; "-m"; "-1"]%string = OErr "Invalid FFT mode" /\ options 3 no_atof 4 3 ["test3d"; "-g"; "12"; "+7"]%string = OErr SYNTAX.
Proof.
  split; [|split; vm_compute; reflexivity]. intros s Hs. cbn [In] in Hs.
  repeat (destruct Hs as [<- | Hs]; [eexists; split; [vm_compute; reflexivity|lia]|]). destruct Hs.
Qed.

(** ** output() *)
Lemma sorted_nodup {A B} (R : A -> A -> Prop) (f : A -> B) l : StronglySorted R l -> (forall x y, In x l -> In y l -> R x y -> f x <> f y) -> NoDup (map f l).
Proof.
  induction 1 as [|x l Hs IH Hx]; intros H; cbn [map]; constructor.
  - intros Hi. apply in_map_iff in Hi. destruct Hi as (y & E & Hy). rewrite Forall_forall in Hx. apply (H x y); [left; reflexivity|right; exact Hy|apply Hx, Hy|congruence].
  - apply IH. intros a b Ha Hb. apply H; right; assumption.
Qed.
Definition point {P F : Type} (l : P * nat * F * F) : P := fst (fst (fst l)).
(** every grid point once *)
Lemma prints3_once {F} n N (t : nat -> box3) (w : nat -> list F) L : tiling3 n N t -> (forall r, (r < n)%nat -> 2 * psize3 (t r) <= zlen (w r)) -> prints3 n t w L ->
  NoDup (map point L) /\ (forall p, In p (map point L) <-> inb3 p (grid3 N)).
Proof.
  intros (T1 & T2 & T3) Hw (HI & HS). split.
  - eapply sorted_nodup; [exact HS|]. intros [[[p r] x] y] [[[p' r'] x'] y'] H H' R E. unfold point in E. cbn in E. subst p'.
    apply HI in H as (Hr & Hp & _). apply HI in H' as (Hr' & Hp' & _). pose proof (T2 p r r' Hr Hr' Hp Hp'). lia.
  - intros p. rewrite in_map_iff. split.
    + intros ([[[p' r] x] y] & E & H). unfold point in E. cbn in E. subst p'. apply HI in H as (Hr & Hp & _). apply (T1 p r Hr Hp).
    + intros Hp. destruct (T3 p Hp) as (r & Hr & Hpr). pose proof (pos3_psize 0 (t r) p (or_introl eq_refl) Hpr) as Hb. specialize (Hw r Hr).
      destruct (zget_Some (w r) (cell3 2 0 (t r) p 0)) as (x & Ex); [unfold cell3; lia|]. destruct (zget_Some (w r) (cell3 2 0 (t r) p 1)) as (y & Ey); [unfold cell3; lia|].
      exists (p, r, x, y). split; [reflexivity|]. apply HI. auto.
Qed.
Lemma prints2_once {F} n N (t : nat -> box2) (w : nat -> list F) L : tiling2 n N t -> (forall r, (r < n)%nat -> 2 * psize2 (t r) <= zlen (w r)) -> prints2 n t w L ->
  NoDup (map point L) /\ (forall p, In p (map point L) <-> inb2 p (grid2 N)).
Proof.
  intros (T1 & T2 & T3) Hw (HI & HS). split.
  - eapply sorted_nodup; [exact HS|]. intros [[[p r] x] y] [[[p' r'] x'] y'] H H' R E. unfold point in E. cbn in E. subst p'.
    apply HI in H as (Hr & Hp & _). apply HI in H' as (Hr' & Hp' & _). pose proof (T2 p r r' Hr Hr' Hp Hp'). lia.
  - intros p. rewrite in_map_iff. split.
    + intros ([[[p' r] x] y] & E & H). unfold point in E. cbn in E. subst p'. apply HI in H as (Hr & Hp & _). apply (T1 p r Hr Hp).
    + intros Hp. destruct (T3 p Hp) as (r & Hr & Hpr). pose proof (pos2_psize 0 (t r) p (or_introl eq_refl) Hpr) as Hb. specialize (Hw r Hr).
      destruct (zget_Some (w r) (cell2 2 0 (t r) p 0)) as (x & Ex); [unfold cell2; lia|]. destruct (zget_Some (w r) (cell2 2 0 (t r) p 1)) as (y & Ey); [unfold cell2; lia|].
      exists (p, r, x, y). split; [reflexivity|]. apply HI. auto.
Qed.

Theorem C60_3d_proof {F} n N (ins outs : nat -> box3) (w : nat -> list F) flag :
  tiling3 n N ins -> tiling3 n N outs -> (forall r, (r < n)%nat -> legal3 (ins r) /\ legal3 (outs r) /\ 2 * psize3 (ins r) <= zlen (w r)) ->
  flag = 0 \/ (forall r, (r < n)%nat -> psize3 (outs r) = psize3 (ins r)) ->
  exists L, output3 flag n ins outs w = Some L /\ prints3 n (if flag =? 0 then ins else outs) w L /\ NoDup (map point L) /\ (forall p, In p (map point L) <-> inb3 p (grid3 N)).
Proof.
  intros Ti To H Hf. unfold output3. destruct (Z.eqb_spec flag 0) as [E | E].
  - destruct (prints3_ok n ins w) as (L & E1 & E2); [intros r Hr; split; apply (H r Hr)|]. exists L. split; [exact E1|]. split; [exact E2|].
    apply (prints3_once n N ins w L Ti); [intros r Hr; apply (H r Hr)|exact E2].
  - destruct Hf as [Hf | Hf]; [congruence|]. assert (Hw : forall r, (r < n)%nat -> 2 * psize3 (outs r) <= zlen (w r)) by (intros r Hr; rewrite (Hf r Hr); apply (H r Hr)).
    destruct (prints3_ok n outs w) as (L & E1 & E2); [intros r Hr; split; [apply (H r Hr)|apply Hw, Hr]|]. exists L. split.
    + rewrite <- E1. unfold in_turn. assert (G : forall l a, (forall r, In r l -> (r < n)%nat) ->
        fold_left (fun a r => a <- a; l <- out_rank3 (outs r) (psize3 (ins r)) r (w r); Some (a ++ l)) l a =
        fold_left (fun a r => a <- a; l <- out_rank3 (outs r) (psize3 (outs r)) r (w r); Some (a ++ l)) l a).
      { induction l as [|r l IH]; intros a Hl; [reflexivity|]. cbn [fold_left]. rewrite (Hf r) by (apply Hl; left; reflexivity). apply IH. intros; apply Hl; right; assumption. }
      apply G. intros r Hr. apply in_seq in Hr. lia.
    + split; [exact E2|]. apply (prints3_once n N outs w L To Hw E2).
Qed.
Theorem C60_2d_proof {F} n N (ins outs : nat -> box2) (w : nat -> list F) flag :
  tiling2 n N ins -> tiling2 n N outs -> (forall r, (r < n)%nat -> legal2 (ins r) /\ legal2 (outs r) /\ 2 * psize2 (ins r) <= zlen (w r)) ->
  flag = 0 \/ (forall r, (r < n)%nat -> psize2 (outs r) = psize2 (ins r)) ->
  exists L, output2 flag n ins outs w = Some L /\ prints2 n (if flag =? 0 then ins else outs) w L /\ NoDup (map point L) /\ (forall p, In p (map point L) <-> inb2 p (grid2 N)).
Proof.
  intros Ti To H Hf. unfold output2. destruct (Z.eqb_spec flag 0) as [E | E].
  - destruct (prints2_ok n ins w) as (L & E1 & E2); [intros r Hr; split; apply (H r Hr)|]. exists L. split; [exact E1|]. split; [exact E2|].
    apply (prints2_once n N ins w L Ti); [intros r Hr; apply (H r Hr)|exact E2].
  - destruct Hf as [Hf | Hf]; [congruence|]. assert (Hw : forall r, (r < n)%nat -> 2 * psize2 (outs r) <= zlen (w r)) by (intros r Hr; rewrite (Hf r Hr); apply (H r Hr)).
    destruct (prints2_ok n outs w) as (L & E1 & E2); [intros r Hr; split; [apply (H r Hr)|apply Hw, Hr]|]. exists L. split.
    + rewrite <- E1. unfold in_turn. assert (G : forall l a, (forall r, In r l -> (r < n)%nat) ->
        fold_left (fun a r => a <- a; l <- out_rank2 (outs r) (psize2 (ins r)) r (w r); Some (a ++ l)) l a =
        fold_left (fun a r => a <- a; l <- out_rank2 (outs r) (psize2 (outs r)) r (w r); Some (a ++ l)) l a).
      { induction l as [|r l IH]; intros a Hl; [reflexivity|]. cbn [fold_left]. rewrite (Hf r) by (apply Hl; left; reflexivity). apply IH. intros; apply Hl; right; assumption. }
      apply G. intros r Hr. apply in_seq in Hr. lia.
    + split; [exact E2|]. apply (prints2_once n N outs w L To Hw E2).
Qed.

(** ** where output(1,..) goes wrong, with the default grids *)
Definition room_for (n : nat) (si so : nat -> Z) (w : nat -> list Z) : Prop := forall r, (r < n)%nat -> 2 * si r <= zlen (w r) /\ 2 * so r <= zlen (w r).
Lemma room_by n si so w : forallb (fun r => (2 * si r <=? zlen (w r)) && (2 * so r <=? zlen (w r))) (seq 0 n) = true -> room_for n si so w.
Proof. rewrite forallb_forall. intros H r Hr. specialize (H r ltac:(apply in_seq; lia)). rewrite andb_true_iff, !Z.leb_le in H. exact H. Qed.
Definition psizes3 (N g : Z * Z * Z) (r : nat) : Z := psize3 (tiles3 N g r).
Definition psizes2 (N g : Z * Z) (r : nat) : Z := psize2 (tiles2 N g r).

Lemma dim_2 : dim_ok 2.
Proof. split; [lia|]. apply (smooth_of 1 0 0); lia. Qed.
Lemma dim_4 : dim_ok 4.
Proof. split; [lia|]. apply (smooth_of 2 0 0); lia. Qed.
Lemma dim_5 : dim_ok 5.
Proof. split; [lia|]. apply (smooth_of 0 0 1); lia. Qed.
(** a rank without points in the output layout divides by zero *)
Lemma C60_division3_proof : exists n N gi go (w : nat -> list Z), proc_setup3 fl (Z.of_nat n) 3 N (0, 0, 0) (0, 0, 0) = Some (gi, go) /\ dims_ok3 N /\
  room_for n (psizes3 N gi) (psizes3 N go) w /\ output3 1 n (tiles3 N gi) (tiles3 N go) w = None.
Proof.
  exists 8%nat, (2, 2, 2), (2, 2, 2), (2, 4, 1), (fun _ => zrange 16). split; [vm_compute; reflexivity|].
  split; [cbv [dims_ok3 dims_ok2]; auto using dim_2|]. split; [apply room_by; vm_compute; reflexivity|vm_compute; reflexivity].
Qed.
Lemma C60_division2_proof : exists n N gi go (w : nat -> list Z), proc_setup2 fl (Z.of_nat n) N (0, 0) (0, 0) = Some (gi, go) /\ dims_ok2 N /\
  room_for n (psizes2 N gi) (psizes2 N go) w /\ output2 1 n (tiles2 N gi) (tiles2 N go) w = None.
Proof.
  exists 4%nat, (2, 2), (2, 2), (4, 1), (fun _ => zrange 16). split; [vm_compute; reflexivity|].
  split; [cbv [dims_ok3 dims_ok2]; auto using dim_2|]. split; [apply room_by; vm_compute; reflexivity|vm_compute; reflexivity].
Qed.
Definition pt3_eqb (p q : pt3) : bool := let '(a, b, c) := p in let '(x, y, z) := q in (a =? x) && (b =? y) && (c =? z).
Lemma pt3_eqb_refl p : pt3_eqb p p = true.
Proof. destruct p as [[a b] c]. cbn. rewrite !Z.eqb_refl. reflexivity. Qed.
(** a point outside the grid is printed, a point of the grid is not *)
Lemma C60_points_proof : exists n N gi go (w : nat -> list Z) L, proc_setup3 fl (Z.of_nat n) 3 N (0, 0, 0) (0, 0, 0) = Some (gi, go) /\ dims_ok3 N /\
  room_for n (psizes3 N gi) (psizes3 N go) w /\ output3 1 n (tiles3 N gi) (tiles3 N go) w = Some L /\
  (exists p, In p (map point L) /\ ~ inb3 p (grid3 N)) /\ (exists p, inb3 p (grid3 N) /\ ~ In p (map point L)).
Proof.
  exists 8%nat, (5, 5, 5), (2, 2, 2), (2, 4, 1), (fun _ => zrange 60). eexists. split; [vm_compute; reflexivity|]. split; [split; [|split]; exact dim_5|].
  split; [apply room_by; vm_compute; reflexivity|]. split; [vm_compute; reflexivity|]. split.
  - exists (0, 1, 5). split; [|cbn; lia]. vm_compute. tauto.
  - exists (1, 0, 4). split; [cbn; lia|]. intros H. apply (in_map (pt3_eqb (1, 0, 4))) in H. rewrite pt3_eqb_refl in H. revert H. vm_compute. intuition discriminate.
Qed.
(** with -m 3 the array is permuted, but the points are printed as if it were not *)
Lemma C60_permuted_proof : exists n N gi go (w : nat -> list Z) L p r x y, proc_setup3 fl (Z.of_nat n) 3 N (0, 0, 0) (0, 0, 0) = Some (gi, go) /\ dims_ok3 N /\
  room_for n (psizes3 N gi) (psizes3 N go) w /\ (forall r, (r < n)%nat -> psizes3 N go r = psizes3 N gi r) /\
  output3 1 n (tiles3 N gi) (tiles3 N go) w = Some L /\
  In (p, r, x, y) L /\ inb3 p (tiles3 N go r) /\ zget (w r) (cell3 2 (permute3 3) (tiles3 N go r) p 0) <> Some x.
Proof.
  exists 4%nat, (4, 4, 4), (1, 2, 2), (2, 2, 1), (fun _ => zrange 32). eexists. exists (1, 0, 0), 0%nat, 2, 3. split; [vm_compute; reflexivity|]. split; [split; [|split]; exact dim_4|].
  split; [apply room_by; vm_compute; reflexivity|]. split; [intros [|[|[|[|r]]]] Hr; [vm_compute; reflexivity..|lia]|]. split; [vm_compute; reflexivity|].
  split; [vm_compute; tauto|]. split; [vm_compute; intuition discriminate|]. vm_compute. discriminate.
Qed.
Lemma C60_example_proof : tiling3 8 (5, 5, 5) (tiles3 (5, 5, 5) (2, 2, 2)) /\ tiling3 8 (5, 5, 5) (tiles3 (5, 5, 5) (2, 4, 1)) /\
  (forall r, (r < 8)%nat -> legal3 (tiles3 (5, 5, 5) (2, 2, 2) r) /\ legal3 (tiles3 (5, 5, 5) (2, 4, 1) r) /\ 2 * psize3 (tiles3 (5, 5, 5) (2, 2, 2) r) <= zlen (zrange 60)) /\
  option_map (@List.length _) (output3 0 8 (tiles3 (5, 5, 5) (2, 2, 2)) (tiles3 (5, 5, 5) (2, 4, 1)) (fun _ => zrange 60)) = Some 125%nat /\
  option_map (@List.length _) (output3 1 8 (tiles3 (5, 5, 5) (2, 2, 2)) (tiles3 (5, 5, 5) (2, 2, 2)) (fun _ => zrange 60)) = Some 125%nat.
Proof.
  assert (P : pos3d (5, 5, 5)) by (repeat split; lia). assert (G1 : factors3 (Z.of_nat 8) (2, 2, 2)) by (repeat split; lia). assert (G2 : factors3 (Z.of_nat 8) (2, 4, 1)) by (repeat split; lia).
  split; [apply tiles3_tiling; assumption|]. split; [apply tiles3_tiling; assumption|]. split; [|split; vm_compute; reflexivity].
  intros r Hr. split; [apply (tiles3_legal 8); assumption|]. split; [apply (tiles3_legal 8); assumption|].
  assert (B : forallb (fun r => 2 * psize3 (tiles3 (5, 5, 5) (2, 2, 2) r) <=? zlen (zrange 60)) (seq 0 8) = true) by (vm_compute; reflexivity).
  rewrite forallb_forall in B. apply Z.leb_le, B, in_seq. lia.
Qed.
