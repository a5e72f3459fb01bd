(** PropertiesPort.v : properties C68 (the Fortran test programs) and C69 (the Python ones), proofs by reference. *)

From Coq Require Import QArith Reals String Ascii.
From Verif Require Import Base Spec Sched Layout LayoutProofs Setup3d Setup3dProofs Setup2d Setup2dProofs LayoutFinal RemapInst Wrap Kiss RemapTop Fft3d Fft2d
  WrapProofs Double DoubleProofs TestProg TestLayProofs TestDataProofs TestOpt TestOptProofs TestNum TestFinal Ops Port PortLay PortOpt PortNum PortData PortFinal.
Local Open Scope string_scope.
Local Open Scope list_scope.
Local Open Scope Z_scope.

(** ** C68: layouts.  rd rounds doubles, rs rounds single precision *)
Theorem C68_layout_3d : forall rd rs ar (n : nat) st mode N pin pout, rd_laws rd -> sp_laws rs -> area_laws ar -> (1 <= n)%nat -> ints3d N ->
  small3 (Z.of_nat n) N -> single3 (Z.of_nat n) N -> 0 <= mode <= 3 -> given3 (Z.of_nat n) pin -> given3 (Z.of_nat n) pout ->
  exists gi go, proc_setup3 rd (Z.of_nat n) mode N pin pout = Some (gi, go) /\ factors3 (Z.of_nat n) gi /\ factors3 (Z.of_nat n) go /\
    (forall r, (r < n)%nat -> exists bi bo, fo_box3 rs N gi (Z.of_nat r) = Some bi /\ fo_box3 rs N go (Z.of_nat r) = Some bo /\
       dec_bounds3 bi = Some (tiles3 N gi r) /\ dec_bounds3 bo = Some (tiles3 N go r)) /\
    tiling3 n N (tiles3 N gi) /\ tiling3 n N (tiles3 N go) /\
    ((exists f, setup3d ar n st N (permute3 mode) (tiles3 N gi) (tiles3 N go) = SOk f) <-> dims_ok3 N).
Proof. exact C68_layout3_proof. Qed.
Print Assumptions C68_layout_3d.
Theorem C68_layout_2d : forall rd rs (n : nat) mode N pin pout, rd_laws rd -> sp_laws rs -> (1 <= n)%nat -> ints2d N ->
  small2 (Z.of_nat n) N -> single2 (Z.of_nat n) N -> 0 <= mode <= 3 -> given2 (Z.of_nat n) pin -> given2 (Z.of_nat n) pout ->
  exists gi go, proc_setup2 rd (Z.of_nat n) N pin pout = Some (gi, go) /\ factors2 (Z.of_nat n) gi /\ factors2 (Z.of_nat n) go /\
    (forall r, (r < n)%nat -> exists bi bo, fo_box2 rs N gi (Z.of_nat r) = Some bi /\ fo_box2 rs N go (Z.of_nat r) = Some bo /\
       dec_bounds2 bi = Some (tiles2 N gi r) /\ dec_bounds2 bo = Some (tiles2 N go r)) /\
    tiling2 n N (tiles2 N gi) /\ tiling2 n N (tiles2 N go).
Proof. exact C68_layout2_proof. Qed.
Print Assumptions C68_layout_2d.
(** simple_f90 *)
Theorem C68_layout_simple : forall rs (n : nat) N s1 s2, sp_laws rs -> (1 <= n)%nat -> pos3d N -> single3 (Z.of_nat n) N ->
  1 <= s1 <= Z.of_nat n -> (forall m, 1 <= m -> 1 <= s2 m <= m) ->
  exists g, simple_grid (Z.of_nat n) s1 s2 = Some g /\
    (forall r, (r < n)%nat -> exists b, fo_box3 rs N g (Z.of_nat r) = Some b /\ dec_bounds3 b = Some (tiles3 N g r)) /\ tiling3 n N (tiles3 N g).
Proof. exact C68_simple_proof. Qed.
Print Assumptions C68_layout_simple.
(** IEEE single precision is such a rounding *)
Theorem C68_single_laws : sp_laws fl24.
Proof. exact fl24_sp. Qed.
Print Assumptions C68_single_laws.
Example C68_layout_example : sp_laws fl24 /\ single3 12 (8, 6, 5) /\ fo_box3 fl24 (8, 6, 5) (3, 2, 2) 11 = Some (mkbox3 6 8 4 6 3 5) /\
  tiles3 (8, 6, 5) (3, 2, 2) 11 = mkbox3 5 7 3 5 2 4.
Proof. split; [exact fl24_sp|]. split; [unfold single3; lia|]. split; vm_compute; reflexivity. Qed.
(** "the boxes cover the grid for all dimensions": with 2^24+1 points on one rank the last point is in no box, the C++ program has it *)
Theorem C68_layout_refuted : exists N b, ints3d N /\ fo_box3 fl24 N (1, 1, 1) 0 = Some b /\ tbox3 fl N (1, 1, 1) 0 = Some (tiles3 N (1, 1, 1) 0) /\
  forall b', dec_bounds3 b = Some b' -> ~ tiling3 1 N (fun _ => b').
Proof. exact C68_layout_refuted_proof. Qed.
Print Assumptions C68_layout_refuted.

(** ** C68: options.  What the Fortran program accepts the C++ program accepts, with the same settings ... *)
Theorem C68_options_sound : forall d atof P me args o, Forall word args -> agree fo_real atof args ->
  fo_options d P me args = OOk o -> d = 3%nat \/ o_nloop o <> 0 -> options d atof P me args = OOk o.
Proof. exact fo_options_cpp. Qed.
Print Assumptions C68_options_sound.
(** ... and conversely, unless READ stops at something that is no number *)
Theorem C68_options_complete : forall d atof P me args o, Forall word args -> agree fo_real atof args ->
  options d atof P me args = OOk o -> fo_options d P me args = OOk o \/ (fo_options d P me args = OErr FAIL /\ unreadable d fo_int fo_real [] args).
Proof. exact cpp_options_fo. Qed.
Print Assumptions C68_options_complete.
Example C68_options_example : let a := ["test3d_f90"; "-g"; "4"; "6"; "8"; "-n"; "5"; "-i"; "123"; "-m"; "1"; "-v"] in
  Forall word a /\ agree fo_real (fun _ => 0%Q) a /\ fo_options 3 2 1 a = options 3 (fun _ => 0%Q) 2 1 a /\
  exists o, fo_options 3 2 1 a = OOk o /\ o_g o = [4; 6; 8] /\ o_seed o = Some 124.
Proof. exact fo_ex. Qed.
(** "every word": a number is cut after 10 characters; test3d_f90 cuts arguments after 32 characters, test2d_f90 after 64, and goes on with what is left *)
Theorem C68_cut_refuted : (exists o o', options 3 (fun _ => 0%Q) 1 0 ["test3d"; "-n"; "00000000012"] = OOk o /\ fo_options 3 1 0 ["test3d"; "-n"; "00000000012"] = OOk o' /\ o_nloop o = 12 /\ o_nloop o' = 1) /\
  (exists z, String.length z = 33%nat /\ options 3 (fun _ => 0%Q) 1 0 ["test3d"; z] = OErr SYNTAX /\ (exists o, fo_options 3 1 0 ["test3d"; z] = OOk o /\ o_v o = true) /\
    options 2 (fun _ => 0%Q) 1 0 ["test2d"; z] = OErr SYNTAX /\ fo_options 2 1 0 ["test2d"; z] = OErr SYNTAX) /\
  exists y, String.length y = 65%nat /\ options 2 (fun _ => 0%Q) 1 0 ["test2d"; y] = OErr SYNTAX /\ exists o, fo_options 2 1 0 ["test2d"; y] = OOk o /\ o_v o = true.
Proof. exact fo_cut_args. Qed.
Print Assumptions C68_cut_refuted.
(** what READ takes for a number: nothing (0), or a sign or none and figures and nothing else, if it is a 4-byte integer *)
Theorem C68_numbers : forall s v, word s -> (fo_int s = Some v <-> (s = "" /\ v = 0) \/ (number s v /\ - 2 ^ 31 <= v <= 2 ^ 31 - 1)).
Proof. exact fo_int_spec. Qed.
Print Assumptions C68_numbers.
Example C68_numbers_example : word "-12" /\ fo_int "-12" = Some (-12) /\ word "12x" /\ fo_int "12x" = None /\ word "3000000000" /\ fo_int "3000000000" = None.
Proof. unfold word. cbn [String.length]. repeat split; try lia; vm_compute; reflexivity. Qed.
(** "-i step and -i index mean what they mean in C++": such a command line never gets through *)
Theorem C68_init_words_refuted : forall d atof P me args o, Forall word args -> agree fo_real atof args ->
  options d atof P me args = OOk o -> o_init o = STEP \/ o_init o = INDEX -> fo_options d P me args = OErr FAIL.
Proof. exact fo_options_noinit. Qed.
Print Assumptions C68_init_words_refuted.
(** nor does the program ever start from anything but zeros (no -i) or random numbers (-i number) *)
Theorem C68_init_kinds : forall d P me args o, fo_options d P me args = OOk o -> seeded o.
Proof. exact fo_options_init. Qed.
Print Assumptions C68_init_kinds.
Example C68_init_words_example : exists o, options 2 (fun _ => 0%Q) 1 0 ["test2d"; "-i"; "step"] = OOk o /\ o_init o = STEP /\
  fo_options 2 1 0 ["test2d_f90"; "-i"; "step"] = OErr FAIL.
Proof. eexists. split; [vm_compute; reflexivity|]. split; [reflexivity|vm_compute; reflexivity]. Qed.
(** test2d_f90 accepts -n 0 with -tune, test2d does not *)
Theorem C68_nloop_refuted : exists args o, fo_options 2 1 0 args = OOk o /\ options 2 (fun _ => 1%Q) 1 0 args = OErr "Invalid Nloop".
Proof.
  exists ["test2d"; "-n"; "0"; "-tune"; "1"; "1.0"; "0"]. eexists. split; vm_compute; reflexivity.
Qed.
Print Assumptions C68_nloop_refuted.
(** the time limit of -tune: written without a point it counts thousandths of seconds, with one it is what it says *)
Theorem C68_tune_time_refuted : forall s v, number s v -> (String.length s <= 10)%nat -> exists q, fo_real s = Some q /\ (q == inject_Z v / inject_Z 1000)%Q.
Proof. exact fo_real_thousandths. Qed.
Print Assumptions C68_tune_time_refuted.
Theorem C68_tune_time : forall a b, (forall d, In d (a ++ b) -> (d <= 9)%nat) -> a ++ b <> [] -> (List.length a + List.length b <= 9)%nat ->
  exists q, fo_real (str (map figure a) ++ String "."%char (str (map figure b)))%string = Some q /\
    (q == inject_Z (decimal (a ++ b)) / inject_Z (10 ^ Z.of_nat (List.length b)))%Q.
Proof. exact fo_real_point. Qed.
Print Assumptions C68_tune_time.
Example C68_tune_time_example : (exists q, fo_real "10" = Some q /\ q == 1 # 100)%Q /\ (exists q, fo_real "10.25" = Some q /\ q == 41 # 4)%Q.
Proof. split; eexists; (split; [vm_compute; reflexivity|reflexivity]). Qed.

(** ** C68: contents of the array *)
Theorem C68_start_3d : forall {F V : Type} (vz vr : Z -> V) (cv : V -> F) k seed N b w0, k = ZERO \/ k = RANDOM -> legal3 b -> 2 * psize3 b <= zlen w0 -> seed_ok k seed ->
  exists w, fo_init3 vz vr cv k seed N b w0 = Some w /\ filled cv (2 * psize3 b) (wanti3 vz vr k seed N b) w0 w.
Proof. exact @fo_init3_ok. Qed.
Print Assumptions C68_start_3d.
Theorem C68_start_2d : forall {F V : Type} (vz vr : Z -> V) (cv : V -> F) k seed N b w0, k = ZERO \/ k = RANDOM -> legal2 b -> 2 * psize2 b <= zlen w0 -> seed_ok k seed ->
  exists w, fo_init2 vz vr cv k seed N b w0 = Some w /\ filled cv (2 * psize2 b) (wanti2 vz vr k seed N b) w0 w.
Proof. exact @fo_init2_ok. Qed.
Print Assumptions C68_start_2d.
Example C68_start_example : legal3 (mkbox3 1 2 1 1 1 1) /\ seed_ok RANDOM 5 /\
  fo_init3 (fun z => z) (fun z => z) (fun z => z) RANDOM 5 (2, 1, 1) (mkbox3 1 2 1 1 1 1) [0; 0; 0; 0] = Some [84035; 1412376245; 1670799424; 629750996].
Proof. split; [unfold legal3; cbn; lia|]. split; [intros _; unfold IM; lia|]. vm_compute. reflexivity. Qed.
(** the code for step and index, were it reached: in 3d it writes in front of the array ... *)
Theorem C68_step_index_3d_refuted : forall {F V : Type} (vz vr : Z -> V) (cv : V -> F) k seed N b w0, k = STEP \/ k = INDEX -> 1 <= psize3 b ->
  fo_init3 vz vr cv k seed N b w0 = None.
Proof. exact @fo_init3_outside. Qed.
Print Assumptions C68_step_index_3d_refuted.
(** ... in 2d the index is right for bounds counted from 1, and a step leaves every second value inside the step as it was *)
Theorem C68_index_2d : forall {F V : Type} (vz vr : Z -> V) (cv : V -> F) seed N b w0, legal2 b -> 2 * psize2 b <= zlen w0 ->
  exists w, fo_init2 vz vr cv INDEX seed N b w0 = Some w /\ filled cv (2 * psize2 b) (wanti2 vz vr INDEX seed N b) w0 w.
Proof. exact @fo_init2_index. Qed.
Print Assumptions C68_index_2d.
Theorem C68_step_2d : forall {F V : Type} (vz vr : Z -> V) (cv : V -> F) seed N b w0, legal2 b -> 2 * psize2 b <= zlen w0 ->
  exists w, fo_init2 vz vr cv STEP seed N b w0 = Some w /\ stepped vz cv (psize2 b) N b w0 w.
Proof. exact @fo_init2_step. Qed.
Print Assumptions C68_step_2d.
Example C68_step_example : legal2 (mkbox2 1 2 1 1) /\
  fo_init2 (fun z => z) (fun z => z) (fun z => z) STEP 0 (4, 4) (mkbox2 1 2 1 1) [9; 9; 9; 9] = Some [1; 9; 0; 0] /\
  fo_init2 (fun z => z) (fun z => z) (fun z => z) INDEX 0 (4, 4) (mkbox2 1 2 1 1) [9; 9; 9; 9] = Some [3; 0; 4; 0].
Proof. split; [unfold legal2; cbn; lia|]. split; vm_compute; reflexivity. Qed.

(** ** C68: validate.  An untouched random start is found exact on rank 0 and wrong on every other rank that has points *)
Theorem C68_validate_3d : forall seedinit me N b w0, legal3 b -> 1 <= psize3 b -> 2 * psize3 b <= zlen w0 -> 1 <= seedinit -> 0 <= me -> seedinit + me <= IM - 1 ->
  exists w e, fo_init3 IZR vrR (fun x => x) RANDOM (seedinit + me) N b w0 = Some w /\ fo_validate3 IZR vrR distR Rgtb 0%R RANDOM seedinit N b w = Some e /\
    (me = 0 -> e = 0%R) /\ (1 <= me -> (am <= e)%R).
Proof. exact fo_validate_random3. Qed.
Print Assumptions C68_validate_3d.
Theorem C68_validate_2d : forall seedinit me N b w0, legal2 b -> 1 <= psize2 b -> 2 * psize2 b <= zlen w0 -> 1 <= seedinit -> 0 <= me -> seedinit + me <= IM - 1 ->
  exists w e, fo_init2 IZR vrR (fun x => x) RANDOM (seedinit + me) N b w0 = Some w /\ fo_validate2 IZR vrR distR Rgtb 0%R RANDOM seedinit N b w = Some e /\
    (me = 0 -> e = 0%R) /\ (1 <= me -> (am <= e)%R).
Proof. exact fo_validate_random2. Qed.
Print Assumptions C68_validate_2d.
Theorem C68_validate_zero : forall seed seedinit N b w0, legal3 b -> 2 * psize3 b <= zlen w0 ->
  exists w, fo_init3 IZR vrR (fun x => x) ZERO seed N b w0 = Some w /\ fo_validate3 IZR vrR distR Rgtb 0%R ZERO seedinit N b w = Some 0%R.
Proof. exact fo_validate_zero3. Qed.
Print Assumptions C68_validate_zero.
(** and whatever is in the array, the deviation is that of the C++ program started with seedinit *)
Theorem C68_validate_same : forall {F V D : Type} (vz vr : Z -> V) (dist : F -> V -> D) (gtb : D -> D -> bool) (zero : D) k seed,
  (forall N b w, fo_validate3 vz vr dist gtb zero k seed N b w = validate3 vz vr dist gtb zero k seed N b w) /\
  (forall N b w, fo_validate2 vz vr dist gtb zero k seed N b w = validate2 vz vr dist gtb zero k seed N b w).
Proof. intros. split; intros; [apply fo_validate3_eq|apply fo_validate2_eq]. Qed.
Print Assumptions C68_validate_same.
Example C68_validate_example : legal3 (mkbox3 1 2 1 1 1 1) /\ 1 <= psize3 (mkbox3 1 2 1 1 1 1) /\ 1 <= 5 /\ 5 + 3 <= IM - 1.
Proof. unfold legal3, psize3, IM. cbn. lia. Qed.
(** "-v prints the deviation": it is never computed when it is printed *)
Theorem C68_report_refuted : forall {D : Type} (e : D), fo_report true e = RUnset /\ cpp_report true e = RValue e /\ fo_report false e = RNothing.
Proof. intros. repeat split. Qed.
Print Assumptions C68_report_refuted.

(** ** C68: output, timing, settings, the example program *)
Theorem C68_output_refuted : forall {F : Type} n nfft me (work : list F), (1 <= n)%nat -> 1 <= nfft ->
  (forall b, fo_output3 n b nfft me work = None) /\ (forall b, fo_output2 n b nfft me work = None).
Proof. intros. split; intros; [apply fo_output3_outside|apply fo_output2_outside]; assumption. Qed.
Print Assumptions C68_output_refuted.
(** the loops that time the fourth remap execute nothing at all in modes 2 and 3, and only the forward half in modes 0 and 1 *)
Theorem C68_timing_refuted : forall {F : Type} (O : sops F) rnorm f P mode nloop r,
  (2 <= mode -> acts_code3 O rnorm f P (fo_last mode nloop) r = []) /\
  (mode < 2 -> acts_code3 O rnorm f P (fo_last mode nloop) r = List.concat (repeat (only_one_remap3 f 1 4 BWORK BWORK r) nloop)).
Proof. intros. split; intros; [apply fo_last_nothing|apply fo_last_forward]; assumption. Qed.
Print Assumptions C68_timing_refuted.
(** timing() of test3d_f90 does what timing() of test3d does up to these loops, and nothing but the barrier after them *)
Theorem C68_timing : forall {F : Type} (O : sops F) rnorm f P mode nloop zero,
  exists pre : nat -> list (@instr F), forall r,
    acts_code3 O rnorm f P (timing [1; 2; 3; 4] mode true nloop zero) r = pre r ++
      List.concat (repeat (only_one_remap3 f 1 4 BWORK BWORK r ++ (if mode <? 2 then only_one_remap3 f (-1) 4 BWORK BWORK r else [])) nloop) ++ barrier (f_n f) r /\
    acts_code3 O rnorm f P (fo_timing3 mode true nloop zero) r = pre r ++
      (if mode <? 2 then List.concat (repeat (only_one_remap3 f 1 4 BWORK BWORK r) nloop) else []) ++ barrier (f_n f) r.
Proof. exact @fo_timing_code. Qed.
Print Assumptions C68_timing.
(** a keyword handed over without its final zero sets the variable if the next byte in memory is zero, else nothing happens *)
Theorem C68_keyword : forall p kw rest v, In kw fo_keywords ->
  (rest = "" -> fft_set p (fo_keyword kw rest) v = fft_set p kw v) /\ (rest <> "" -> fft_set p (fo_keyword kw rest) v = p).
Proof.
  intros p kw rest v H. split; [intros ->; apply fo_set_done, H|]. intros N. destruct rest as [|c t]; [contradiction|]. apply fo_set_ignored, H.
Qed.
Print Assumptions C68_keyword.
Example C68_keyword_example : In "pack" fo_keywords /\ fft_set zero_pub (fo_keyword "pack" "exchange") 2 = zero_pub /\ v_packflag (fft_set zero_pub (fo_keyword "pack" "") 2) = 2.
Proof. split; [cbn; tauto|]. split; reflexivity. Qed.
(** simple_f90: the array holds 1,2,3,... and an untouched array has deviation 0 *)
Theorem C68_simple : forall b w0, legal3 b -> 2 * psize3 b <= zlen w0 ->
  exists w, fo_simple_init IZR (fun x => x) b w0 = Some w /\ filled (fun x : R => x) (2 * psize3 b) (fun i => IZR (i + 1)) w0 w /\
    fo_simple_diff IZR distR Rgtb 0%R b w = Some 0%R /\
    forall work a, reads work a (2 * psize3 b) -> fo_simple_diff IZR distR Rgtb 0%R b work = Some (dev distR Rgtb 0%R a (fun i => IZR (i + 1)) (2 * psize3 b)).
Proof.
  intros b w0 Hb Hl. destruct (fo_simple_init_ok IZR (fun x : R => x) b w0 Hb Hl) as (w & E & H). exists w. split; [exact E|]. split; [exact H|].
  split; [|intros work a Ha; apply fo_simple_diff_ok; assumption]. destruct (fo_simple_undisturbed b w0 Hb Hl) as (w' & E' & D). congruence.
Qed.
Print Assumptions C68_simple.
Example C68_simple_example : legal3 (mkbox3 1 2 1 1 1 1) /\ fo_simple_init (fun z => z) (fun z => z) (mkbox3 1 2 1 1 1 1) [0; 0; 0; 0] = Some [1; 2; 3; 4].
Proof. split; [unfold legal3; cbn; lia|reflexivity]. Qed.

(** ** C69: what int() takes for a number: a sign or none and figures, with blanks around and nothing else *)
Theorem C69_numbers : forall s v, py_int s = Some v <-> padded s v.
Proof. exact py_int_spec. Qed.
Print Assumptions C69_numbers.
Example C69_numbers_example : py_int " -12 " = Some (-12) /\ py_int "12x" = None /\ py_int "1 2" = None /\ py_int "1.5" = None /\ py_int "" = None.
Proof. repeat split; vm_compute; reflexivity. Qed.
(** ** C69: options of test2d.py: those of test2d *)
Theorem C69_options_2d : forall pf atof P me args o, 0 <= me -> P <= 2 ^ 31 - 1 -> agree pf atof args -> ints_only 2 me args ->
  (py_options 2 pf P me args = OOk o -> options 2 atof P me args = OOk o) /\
  (options 2 atof P me args = OOk o -> py_options 2 pf P me args = OOk o \/ (py_options 2 pf P me args = OErr FAIL /\ unreadable 2 py_int pf py_words args)).
Proof. intros. split; [apply py_options2_cpp|apply cpp_options2_py]; assumption. Qed.
Print Assumptions C69_options_2d.
(** test3d.py agrees with test3d exactly for grids of processors with 1 in z (or none given) and at least one iteration *)
Theorem C69_options_3d : forall pf atof P me args o, 0 <= me -> P <= 2 ^ 31 - 1 -> agree pf atof args -> ints_only 3 me args ->
  (py_options 3 pf P me args = OOk o -> (options 3 atof P me args = OOk o <-> plane (o_pin o) /\ plane (o_pout o))) /\
  (options 3 atof P me args = OOk o ->
    (py_options 3 pf P me args = OErr FAIL /\ unreadable 3 py_int pf py_words args) \/
    (plane (o_pin o) /\ plane (o_pout o) /\ o_nloop o <> 0 /\ py_options 3 pf P me args = OOk o) \/
    (plane (o_pin o) /\ plane (o_pout o) /\ o_nloop o = 0 /\ py_options 3 pf P me args = OErr "Invalid Nloop") \/
    (~ (plane (o_pin o) /\ plane (o_pout o)) /\ py_options 3 pf P me args = OErr "Specified proc grid does not match nprocs")).
Proof. intros. split; [apply py_options3_cpp|apply cpp_options3_py]; assumption. Qed.
Print Assumptions C69_options_3d.
Example C69_options_example : let a := ["test3d.py"; "-g"; "4"; "6"; "8"; "-pin"; "2"; "3"; "1"; "-n"; "5"; "-i"; "123"; "-m"; "1"; "-v"] in
  agree nofloat (fun _ => 0%Q) a /\ ints_only 3 1 a /\ py_options 3 nofloat 6 1 a = options 3 (fun _ => 0%Q) 6 1 a /\
  exists o, py_options 3 nofloat 6 1 a = OOk o /\ plane (o_pin o) /\ plane (o_pout o) /\ o_seed o = Some 124.
Proof. exact py_ex. Qed.
Theorem C69_grid_refuted :
  (exists o, cpp3 8 ["-pin"; "2"; "2"; "2"] = OOk o /\ py3 8 ["-pin"; "2"; "2"; "2"] = OErr "Specified proc grid does not match nprocs") /\
  (exists o, py3 4 ["-pin"; "2"; "2"; "3"] = OOk o /\ cpp3 4 ["-pin"; "2"; "2"; "3"] = OErr "Specified proc grid does not match nprocs") /\
  (exists o, py3 4 ["-pout"; "2"; "2"; "0"] = OOk o /\ cpp3 4 ["-pout"; "2"; "2"; "0"] = OErr "Invalid proc grid" /\ tbox3 fl (8, 8, 8) (2, 2, 0) 0 = None).
Proof. exact C69_grid_refuted_proof. Qed.
Print Assumptions C69_grid_refuted.

(** ** C69: layouts *)
Theorem C69_layout_3d : forall rd, rd_laws rd -> forall (n : nat) mode N pin pout, (1 <= n)%nat -> pos3d N -> small3 (Z.of_nat n) N -> 0 <= mode <= 3 ->
  given3 (Z.of_nat n) pin -> given3 (Z.of_nat n) pout ->
  exists gi go, py_proc_setup3 rd (Z.of_nat n) mode N pin pout = Some (gi, go) /\
    factors3 (Z.of_nat n) gi /\ factors3 (Z.of_nat n) go /\
    (pin <> (0, 0, 0) -> gi = pin) /\ (pin = (0, 0, 0) -> py_smallest3 (Z.of_nat n) N gi) /\
    (pout <> (0, 0, 0) -> go = pout) /\
    (pout = (0, 0, 0) -> mode = 0 \/ mode = 2 -> py_smallest3 (Z.of_nat n) N go) /\
    (pout = (0, 0, 0) -> mode = 1 \/ mode = 3 -> snd go = 1 /\ py_smallest2 (Z.of_nat n) (fst N) (fst go)) /\
    (forall r, (r < n)%nat -> tbox3 rd N gi (Z.of_nat r) = Some (tiles3 N gi r) /\ tbox3 rd N go (Z.of_nat r) = Some (tiles3 N go r)) /\
    tiling3 n N (tiles3 N gi) /\ tiling3 n N (tiles3 N go).
Proof. exact py_layout3. Qed.
Print Assumptions C69_layout_3d.
Theorem C69_layout_2d : forall rd, rd_laws rd -> forall (n : nat) N pin pout, (1 <= n)%nat -> pos2d N -> small2 (Z.of_nat n) N ->
  given2 (Z.of_nat n) pin -> given2 (Z.of_nat n) pout ->
  exists gi go, py_proc_setup2 rd (Z.of_nat n) N pin pout = Some (gi, go) /\
    factors2 (Z.of_nat n) gi /\ factors2 (Z.of_nat n) go /\
    (pin <> (0, 0) -> gi = pin) /\ (pin = (0, 0) -> py_smallest2 (Z.of_nat n) N gi) /\
    (pout <> (0, 0) -> go = pout) /\ (pout = (0, 0) -> go = (Z.of_nat n, 1)) /\
    (forall r, (r < n)%nat -> tbox2 rd N gi (Z.of_nat r) = Some (tiles2 N gi r) /\ tbox2 rd N go (Z.of_nat r) = Some (tiles2 N go r)) /\
    tiling2 n N (tiles2 N gi) /\ tiling2 n N (tiles2 N go).
Proof. exact py_layout2. Qed.
Print Assumptions C69_layout_2d.
Example C69_layout_example : rd_laws fl /\ small3 12 (8, 6, 5) /\ given3 12 (0, 0, 0) /\ py_proc_setup3 fl 12 1 (8, 6, 5) (0, 0, 0) (0, 0, 0) = Some ((3, 2, 2), (3, 4, 1)).
Proof. split; [exact fl_laws|]. split; [unfold small3; lia|]. split; [left; reflexivity|]. vm_compute. reflexivity. Qed.
Theorem C69_surface_refuted : exists P N g g', py_proc3d fl P N = Some g /\ proc3d fl P N = Some g' /\ factors3 P g' /\
  (surf3 (fun q => q) N g' < surf3 (fun q => q) N g)%Q /\
  (forall r, (r < Z.to_nat P)%nat -> psize3 (tiles3 N g' r) = 1) /\
  List.length (filter (fun r => psize3 (tiles3 N g r) =? 0) (seq 0 (Z.to_nat P))) = 48%nat.
Proof. exact C69_surface_refuted_proof. Qed.
Print Assumptions C69_surface_refuted.

(** ** C69: numbers, main, output, simple.py *)
Theorem C69_random : forall s, 0 <= s <= IM -> random s = Some (py_random s) /\ py_random s = (16807 * s) mod (2 ^ 31 - 1).
Proof. exact py_random_eq. Qed.
Print Assumptions C69_random.
Example C69_random_example : py_random 12345 = 207482415.
Proof. reflexivity. Qed.
Theorem C69_main : forall {F : Type} mode rflag nloop (w0 : nat -> list F -> option (list F)),
  (mode < 2 -> py_run3 mode rflag nloop w0 = Some (run_part mode rflag nloop w0)) /\
  (2 <= mode -> (1 <= nloop)%nat -> py_run3 mode rflag nloop w0 = None) /\
  py_run2 mode rflag nloop w0 = Some (run_part mode rflag nloop w0).
Proof. intros. split; [apply py_run3_same|]. split; [apply py_run3_fails|reflexivity]. Qed.
Print Assumptions C69_main.
Theorem C69_output_refuted : forall {F : Type} b nfft (work : list F),
  (forall n me, (2 <= n)%nat -> (me < n)%nat -> py_output n me b nfft work = None) /\ py_output 1 0 b nfft work = out_rank2 b nfft 0 work.
Proof. intros. split; [intros; apply py_output_fails; assumption|apply py_output_one]. Qed.
Print Assumptions C69_output_refuted.
Theorem C69_simple_refuted : exists mydiff : nat -> option Z, allmax Z.gtb 0 2 mydiff = Some 5 /\ py_simple_report mydiff = Some 0.
Proof. exact py_simple_refuted. Qed.
Print Assumptions C69_simple_refuted.
