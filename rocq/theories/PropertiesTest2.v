(** PropertiesTest2.v : properties C59 and C60 (command line and grid output of the test programs), proofs by reference. *)

From Coq Require Import QArith String Sorted Reals.
From Verif Require Import Base Spec Pack3d Sched Exec Layout Setup3d Setup3dProofs Setup2d Setup2dProofs LayoutFinal Fft3d Fft3dMain Fft2d Fft2dMain
  Double DoubleProofs TestProg TestLayProofs TestDataProofs TestRunProofs TestFinal TestTop TestOpt TestOptProofs TestOutProofs TestOptTop TestOptItems TestNum.
Local Open Scope Z_scope.
Local Open Scope list_scope.

(** ** C59 *)
(** accepted exactly the sequences of options of the grammar [cmd] whose values are [accepted]; d = 3 for test3d, 2 for test2d *)
Theorem C59_options : forall d atof P prog line me o, P <= 2 ^ 31 - 1 ->
  options d atof P me (prog :: line) = OOk o <-> cmd d atof me line (opts0 d) o /\ accepted d P o.
Proof. exact options_iff. Qed.
Print Assumptions C59_options.
(** the same with the globals given one by one: the value of the last option that names it, else the default; nothing else changes it *)
Theorem C59_globals : forall d atof P prog line me o, P <= 2 ^ 31 - 1 ->
  options d atof P me (prog :: line) = OOk o <-> exists items, spelled d atof me items line /\ globals d items o /\ accepted d P o.
Proof. exact options_items. Qed.
Print Assumptions C59_globals.
Example C59_globals_example : exists o, options 2 no_atof 6 4 ["test2d"; "-n"; "3"; "-pout"; "3"; "2"; "-i"; "5"; "-e"; "brick"; "-n"; "7"; "-i"; "step"; "-o"]%string = OOk o /\
  spelled 2 no_atof 4 [Loops 3; GridOut [3; 2]; Seed 9; Brick; Loops 7; Step; Printed] ["-n"; "3"; "-pout"; "3"; "2"; "-i"; "5"; "-e"; "brick"; "-n"; "7"; "-i"; "step"; "-o"]%string /\
  globals 2 [Loops 3; GridOut [3; 2]; Seed 9; Brick; Loops 7; Step; Printed] o /\ o_nloop o = 7 /\ o_pin o = [0; 0] /\ o_pout o = [3; 2] /\ o_init o = STEP /\ o_e o = 1.
Proof. exact C59_globals_example_proof. Qed.
Theorem C59_ranges : forall d atof P me prog line o, P <= 2 ^ 31 - 1 -> options d atof P me (prog :: line) = OOk o ->
  (List.length (o_g o) = d /\ List.length (o_pin o) = d /\ List.length (o_pout o) = d) /\ 0 <= o_c o <= 2 /\ 0 <= o_e o <= 1 /\ 0 <= o_p o <= 2.
Proof. exact options_ranges. Qed.
Print Assumptions C59_ranges.
(** all ranks decide as rank 0, except about the seed *)
Theorem C59_ranks : forall d atof P prog line me, 0 <= me -> fits 0 (prog :: line) -> fits me (prog :: line) ->
  follows me (options d atof P 0 (prog :: line)) (options d atof P me (prog :: line)).
Proof. exact options_ranks. Qed.
Print Assumptions C59_ranks.
Theorem C59_no_undefined_behaviour : forall d atof P prog line me, (d <= 3)%nat -> 0 <= me -> small_numbers prog line me ->
  options d atof P me (prog :: line) <> OUB.
Proof. exact options_safe. Qed.
Print Assumptions C59_no_undefined_behaviour.
(** from the command line to the reported error *)
Theorem C59_run_3d : forall rd ar (n : nat) atof prog line o vr (M0 : fft3 -> nat -> @rmem R),
  rd_laws rd -> area_laws ar -> (1 <= n)%nat -> Z.of_nat n <= 2 ^ 31 - 1 -> fits_ranks n (prog :: line) ->
  options 3 atof (Z.of_nat n) 0 (prog :: line) = OOk o ->
  ints3d (triple (o_g o)) -> small3 (Z.of_nat n) (triple (o_g o)) -> dims_ok3 (triple (o_g o)) ->
  o_mode o = 0 -> o_pout o = o_pin o -> o_tune o = None -> o_r o = false -> (forall r, (r < n)%nat -> seed_ok (o_init o) (seed_of o + Z.of_nat r)) ->
  (forall f, arrays_ok f BWORK (M0 f)) ->
  (forall r, (r < n)%nat -> options 3 atof (Z.of_nat n) (Z.of_nat r) (prog :: line) = OOk (shift (Z.of_nat r) o)) /\
  reports3 rd ar n (set_of o) (o_mode o) (triple (o_g o)) (triple (o_pin o)) (triple (o_pout o)) vr (o_init o) (fun r => seed_of (shift (Z.of_nat r) o))
    (Z.to_nat (o_nloop o)) M0 0%R.
Proof. exact C59_run3_proof. Qed.
Print Assumptions C59_run_3d.
Theorem C59_run_2d : forall rd esize ar (n : nat) atof prog line o vr (M0 : fft2 -> nat -> @rmem R),
  rd_laws rd -> area_laws ar -> (1 <= n)%nat -> Z.of_nat n <= 2 ^ 31 - 1 -> fits_ranks n (prog :: line) ->
  options 2 atof (Z.of_nat n) 0 (prog :: line) = OOk o ->
  ints2d (pair_ (o_g o)) -> small2 (Z.of_nat n) (pair_ (o_g o)) -> dims_ok2 (pair_ (o_g o)) -> (esize = 8 \/ o_p o <> 2) ->
  o_mode o = 0 -> o_pin o <> [0; 0] -> o_pout o = o_pin o -> o_tune o = None -> o_r o = false -> (forall r, (r < n)%nat -> seed_ok (o_init o) (seed_of o + Z.of_nat r)) ->
  (forall f, arrays_ok2 f BWORK (M0 f)) ->
  (forall r, (r < n)%nat -> options 2 atof (Z.of_nat n) (Z.of_nat r) (prog :: line) = OOk (shift (Z.of_nat r) o)) /\
  reports2 rd esize ar n (set_of o) (o_mode o) (pair_ (o_g o)) (pair_ (o_pin o)) (pair_ (o_pout o)) vr (o_init o) (fun r => seed_of (shift (Z.of_nat r) o))
    (Z.to_nat (o_nloop o)) M0 0%R.
Proof. exact C59_run2_proof. Qed.
Print Assumptions C59_run_2d.
Example C59_example : exists o, options 3 no_atof 12 0 ["test3d"; "-g"; "8"; "6"; "5"; "-pin"; "3"; "2"; "2"; "-pout"; "3"; "2"; "2"; "-n"; "10"; "-i"; "82783"; "-c"; "all"; "-p"; "ptr"; "-v"]%string = OOk o /\
  triple (o_g o) = (8, 6, 5) /\ o_pout o = o_pin o /\ o_mode o = 0 /\ o_tune o = None /\ o_r o = false /\ o_nloop o = 10 /\ set_of o = mkset 1 0 1 /\
  seed_of o = 82783 /\ o_init o = RANDOM /\ o_v o = true /\
  options 3 no_atof 12 7 ["test3d"; "-g"; "8"; "6"; "5"; "-pin"; "3"; "2"; "2"; "-pout"; "3"; "2"; "2"; "-n"; "10"; "-i"; "82783"; "-c"; "all"; "-p"; "ptr"; "-v"]%string = OOk (shift 7 o).
Proof. exact C59_example_proof. Qed.
Example C59_safe_example : small_numbers "test3d" ["-g"; "12"; "+7"; " 9z"; "-m"; "-1"]%string 3 /\
  options 3 no_atof 4 3 ["test3d"; "-g"; "12"; "+7"; " 9z"; "-m"; "-1"]%string = OErr "Invalid FFT mode" /\ options 3 no_atof 4 3 ["test3d"; "-g"; "12"; "+7"]%string = OErr SYNTAX.
Proof. exact C59_safe_example_proof. Qed.
(** the numbers of the grammar: blanks, sign, decimal figures, anything; undefined beyond an int; a word without figures counts as 0 *)
Theorem C59_numbers : forall s,
  (forall v, writes s v -> atoi s = if (- 2 ^ 31 <=? v) && (v <=? 2 ^ 31 - 1) then Some v else None) /\ ((forall v, ~ writes s v) -> atoi s = Some 0).
Proof. exact (fun s => conj (atoi_reads s) (atoi_other s)). Qed.
Print Assumptions C59_numbers.
Example C59_numbers_example : writes "  -120x7"%string (-120) /\ atoi "  -120x7" = Some (-120) /\ atoi "x" = Some 0 /\ atoi "3000000000" = None.
Proof.
  split; [|vm_compute; auto]. exists (map Ascii.ascii_of_nat [32; 32]%nat), "-"%string, [1; 2; 0]%nat, "x7"%string.
  split; [intros c [<- | [<- | []]]; cbn; tauto|]. split; [intros d [<- | [<- | [<- | []]]]; lia|]. split; [discriminate|].
  split; [intros d Hd; do 10 (destruct d as [|d]; [reflexivity|]); lia|]. split; [reflexivity|]. right. split; reflexivity.
Qed.
(** "all ranks agree": a seed of 0 stops rank 0 but not rank 1 *)
Theorem C59_seed_refuted : exists line o, options 3 no_atof 2 0 line = OErr "Invalid initialize setting" /\ options 3 no_atof 2 1 line = OOk o.
Proof. exact C59_seed_proof. Qed.
Print Assumptions C59_seed_refuted.
Theorem C59_seed_2d_refuted : exists line o, options 2 no_atof 2 0 line = OErr "Invalid initialize setting" /\ options 2 no_atof 2 1 line = OOk o.
Proof. exact C59_seed2_proof. Qed.
Print Assumptions C59_seed_2d_refuted.
(** "bad processor grids are rejected": the product can overflow *)
Theorem C59_product_refuted : exists line, fits_ranks 2 line /\ options 3 no_atof 2 0 line = OUB.
Proof. exact C59_product_proof. Qed.
Print Assumptions C59_product_refuted.
(** "-n 0 is for use with -tune": not in test2d *)
Theorem C59_tune_refuted : exists line o, options 3 no_atof 2 0 line = OOk o /\ options 2 no_atof 2 0 line = OErr "Invalid Nloop".
Proof. exact C59_tune_proof. Qed.
Print Assumptions C59_tune_refuted.

(** ** C60 *)
Theorem C60_output_3d : forall (F : Type) n N (ins outs : nat -> box3) (w : nat -> list F) flag,
  tiling3 n N ins -> tiling3 n N outs -> (forall r, (r < n)%nat -> legal3 (ins r) /\ legal3 (outs r) /\ 2 * psize3 (ins r) <= zlen (w r)) ->
  flag = 0 \/ (forall r, (r < n)%nat -> psize3 (outs r) = psize3 (ins r)) ->
  exists L, output3 flag n ins outs w = Some L /\ prints3 n (if flag =? 0 then ins else outs) w L /\ NoDup (map point L) /\ (forall p, In p (map point L) <-> inb3 p (grid3 N)).
Proof. exact @C60_3d_proof. Qed.
Print Assumptions C60_output_3d.
Theorem C60_output_2d : forall (F : Type) n N (ins outs : nat -> box2) (w : nat -> list F) flag,
  tiling2 n N ins -> tiling2 n N outs -> (forall r, (r < n)%nat -> legal2 (ins r) /\ legal2 (outs r) /\ 2 * psize2 (ins r) <= zlen (w r)) ->
  flag = 0 \/ (forall r, (r < n)%nat -> psize2 (outs r) = psize2 (ins r)) ->
  exists L, output2 flag n ins outs w = Some L /\ prints2 n (if flag =? 0 then ins else outs) w L /\ NoDup (map point L) /\ (forall p, In p (map point L) <-> inb2 p (grid2 N)).
Proof. exact @C60_2d_proof. Qed.
Print Assumptions C60_output_2d.
Example C60_example : tiling3 8 (5, 5, 5) (tiles3 (5, 5, 5) (2, 2, 2)) /\ tiling3 8 (5, 5, 5) (tiles3 (5, 5, 5) (2, 4, 1)) /\
  (forall r, (r < 8)%nat -> legal3 (tiles3 (5, 5, 5) (2, 2, 2) r) /\ legal3 (tiles3 (5, 5, 5) (2, 4, 1) r) /\ 2 * psize3 (tiles3 (5, 5, 5) (2, 2, 2) r) <= zlen (zrange 60)) /\
  option_map (@List.length _) (output3 0 8 (tiles3 (5, 5, 5) (2, 2, 2)) (tiles3 (5, 5, 5) (2, 4, 1)) (fun _ => zrange 60)) = Some 125%nat /\
  option_map (@List.length _) (output3 1 8 (tiles3 (5, 5, 5) (2, 2, 2)) (tiles3 (5, 5, 5) (2, 2, 2)) (fun _ => zrange 60)) = Some 125%nat.
Proof. exact C60_example_proof. Qed.
(** "output(1,..) prints the final grid", default grids of test3d -m 3 and of test2d *)
Theorem C60_division_3d_refuted : exists n N gi go (w : nat -> list Z), proc_setup3 fl (Z.of_nat n) 3 N (0, 0, 0) (0, 0, 0) = Some (gi, go) /\ dims_ok3 N /\
  room_for n (psizes3 N gi) (psizes3 N go) w /\ output3 1 n (tiles3 N gi) (tiles3 N go) w = None.
Proof. exact C60_division3_proof. Qed.
Print Assumptions C60_division_3d_refuted.
Theorem C60_division_2d_refuted : exists n N gi go (w : nat -> list Z), proc_setup2 fl (Z.of_nat n) N (0, 0) (0, 0) = Some (gi, go) /\ dims_ok2 N /\
  room_for n (psizes2 N gi) (psizes2 N go) w /\ output2 1 n (tiles2 N gi) (tiles2 N go) w = None.
Proof. exact C60_division2_proof. Qed.
Print Assumptions C60_division_2d_refuted.
Theorem C60_points_refuted : exists n N gi go (w : nat -> list Z) L, proc_setup3 fl (Z.of_nat n) 3 N (0, 0, 0) (0, 0, 0) = Some (gi, go) /\ dims_ok3 N /\
  room_for n (psizes3 N gi) (psizes3 N go) w /\ output3 1 n (tiles3 N gi) (tiles3 N go) w = Some L /\
  (exists p, In p (map point L) /\ ~ inb3 p (grid3 N)) /\ (exists p, inb3 p (grid3 N) /\ ~ In p (map point L)).
Proof. exact C60_points_proof. Qed.
Print Assumptions C60_points_refuted.
Theorem C60_permuted_refuted : exists n N gi go (w : nat -> list Z) L p r x y, proc_setup3 fl (Z.of_nat n) 3 N (0, 0, 0) (0, 0, 0) = Some (gi, go) /\ dims_ok3 N /\
  room_for n (psizes3 N gi) (psizes3 N go) w /\ (forall r, (r < n)%nat -> psizes3 N go r = psizes3 N gi r) /\
  output3 1 n (tiles3 N gi) (tiles3 N go) w = Some L /\
  In (p, r, x, y) L /\ inb3 p (tiles3 N go r) /\ zget (w r) (cell3 2 (permute3 3) (tiles3 N go r) p 0) <> Some x.
Proof. exact C60_permuted_proof. Qed.
Print Assumptions C60_permuted_refuted.
