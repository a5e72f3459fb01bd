(** PropertiesScreenInt.v : property C86 (output() and the test programs with -o in ints of 32 bits).
    Statements only; proofs are in ScreenIntProofs.v.  In ScreenInt.v an int expression that overflows is undefined. *)

From Coq Require Import Sorted.
From Verif Require Import Base Spec Pack3d Pack2d Sched SchedProofs Phases Exec Remap RemapProofs RemapMain RemapInst
  Remap3d Remap2d RemapThms RemapTop Layout Wrap Setup3d Setup3dProofs Setup2d Setup2dProofs LayoutFinal Kiss KissPure Fft1d KissFinal
  Fft3d Frame Fft3dProofs Fft3dMain Fft3dTop Fft3dFinal Fft3dStmt Fft3dEx Fft2d Fft2dMain Fft2dTop Fft2dFinal Fft2dStmt Fft2dEx
  Overflow OverflowProofs Pack32 Pack32Proofs Pack32Top Remap32 Remap32Proofs Remap32Top Remap32Fft Tune TestProg TestDataProofs TestOpt TestOptProofs TestOutProofs TestOptTop
  Ops OpsSeq OpsProofs OpsTop Remap32Ops TestInt TestIntProofs Remap32Main Screen ScreenProofs ScreenOrder ScreenTop ScreenInt ScreenIntProofs.
Local Open Scope Z_scope.

(** ** C86 *)
(** output() prints the same lines as in unbounded integers, for every content of the array *)
Theorem C86_output_3d : forall {F} N flag n ins outs (w : nat -> list F), (forall r, (r < n)%nat -> box32_3 N (ins r)) ->
  flag = 0 \/ (forall r, (r < n)%nat -> inside3 N (outs r) /\ psize3 (outs r) = psize3 (ins r)) ->
  output3_32 flag n ins outs w = output3 flag n ins outs w.
Proof. exact @output_same3. Qed.
Print Assumptions C86_output_3d.
(** the test programs with -o, every mode and initialisation, with or without -t and -r: under the conditions of C83, and for the last output of modes 2 and 3 those
    of C60, the program in 32-bit ints ends in every execution with the memory that the program in unbounded integers has without -o; both outputs are right *)
Theorem C86_main_3d : forall {F} (O : sops F) cexp rnorm ar n st N permute ins outs f P esize,
  ready3 ar n st N permute ins outs f -> setup_ffts3 cexp N = Some P -> fits32 esize (st_pack st) n N (f_fftsize f) ->
  forall (M0 : nat -> @rmem F) (vz vr : Z -> F) k sd z mode rflag tflag nloop,
  Fft3dTop.room3 f BACKWARD BWORK M0 -> (forall r, (r < n)%nat -> ints_index (M0 r)) ->
  (forall r, (r < n)%nat -> (psize3 (ins r) = 0 -> ni (ins r) * nj (ins r) <= INT_MAX) /\ seed_ok k (sd r)) -> index_fits3 k N ->
  mode < 2 \/ (forall r, (r < n)%nat -> inside3 N (outs r) /\ psize3 (outs r) = psize3 (ins r)) ->
  let w0 := fun r => initialize3 vz vr (fun v => v) k (sd r) N (ins r) in
  let w32 := fun r => initialize3_32 vz vr (fun v => v) k (sd r) N (ins r) in
  exists Ma Mb M2 L1 L2,
    exec_to n (acts3_32 O rnorm false esize f P (begin_part w32)) M0 Ma /\ exec_to n (acts3_32 O rnorm false esize f P (run_part mode rflag nloop w32)) M0 Mb /\
    exec_to n (acts_code3 O rnorm f P (test_main3 mode rflag tflag nloop w0 (clear3 z ins))) M0 M2 /\
    exec_to n (shown_main3_32 O rnorm esize f P n ins outs mode rflag tflag nloop w32 (clear3_32 z ins)) M0 M2 /\
    output3_32 0 n ins outs (fun r => getb BWORK (Ma r)) = Some L1 /\ TestOutProofs.prints3 n ins (fun r => getb BWORK (Ma r)) L1 /\
    output3_32 (if mode <? 2 then 0 else 1) n ins outs (fun r => getb BWORK (Mb r)) = Some L2 /\
    TestOutProofs.prints3 n (if mode <? 2 then ins else outs) (fun r => getb BWORK (Mb r)) L2 /\
    (forall p, inb3 p (grid3 N) -> In p (map point L1) /\ In p (map point L2)).
Proof. exact @screen_int3. Qed.
Print Assumptions C86_main_3d.
(** and in every state of every execution the ranks that have printed are the first ones, for both outputs *)
Theorem C86_order_3d : forall {F} (O : sops F) cexp rnorm ar n st N permute ins outs f P esize,
  ready3 ar n st N permute ins outs f -> setup_ffts3 cexp N = Some P -> fits32 esize (st_pack st) n N (f_fftsize f) ->
  forall (M0 : nat -> @rmem F) (vz vr : Z -> F) k sd z mode rflag tflag nloop,
  Fft3dTop.room3 f BACKWARD BWORK M0 -> (forall r, (r < n)%nat -> ints_index (M0 r)) ->
  (forall r, (r < n)%nat -> (psize3 (ins r) = 0 -> ni (ins r) * nj (ins r) <= INT_MAX) /\ seed_ok k (sd r)) -> index_fits3 k N ->
  mode < 2 \/ (forall r, (r < n)%nat -> inside3 N (outs r) /\ psize3 (outs r) = psize3 (ins r)) ->
  let w32 := fun r => initialize3_32 vz vr (fun v => v) k (sd r) N (ins r) in
  forall eager labels s,
  run n eager (start n (shown_main3_32 O rnorm esize f P n ins outs mode rflag tflag nloop w32 (clear3_32 z ins)) M0) labels s ->
  let rest2 := fun r => token_send n r ++ acts3_32 O rnorm false esize f P (timing [1; 2; 3; 4] mode tflag nloop (clear3_32 z ins)) r in
  let rest1 := fun r => token_send n r ++ acts3_32 O rnorm false esize f P (fft_part mode rflag nloop) r ++ shown3_32 (if mode <? 2 then 0 else 1) n ins outs r ++
    acts3_32 O rnorm false esize f P (timing [1; 2; 3; 4] mode tflag nloop (clear3_32 z ins)) r in
  forall p q, (p <= q)%nat -> (q < n)%nat ->
  (has_printed q (rest1 q) s -> has_printed p (rest1 p) s) /\ (has_printed q (rest2 q) s -> has_printed p (rest2 p) s).
Proof. exact @screen_int_order3. Qed.
Print Assumptions C86_order_3d.
(** output() prints the same lines as in unbounded integers, for every content of the array *)
Theorem C86_output_2d : forall {F} N flag n ins outs (w : nat -> list F), (forall r, (r < n)%nat -> box32_2 N (ins r)) ->
  flag = 0 \/ (forall r, (r < n)%nat -> inside2 N (outs r) /\ psize2 (outs r) = psize2 (ins r)) ->
  output2_32 flag n ins outs w = output2 flag n ins outs w.
Proof. exact @output_same2. Qed.
Print Assumptions C86_output_2d.
(** the test programs with -o, every mode and initialisation, with or without -t and -r: under the conditions of C83, and for the last output of modes 2 and 3 those
    of C60, the program in 32-bit ints ends in every execution with the memory that the program in unbounded integers has without -o; both outputs are right *)
Theorem C86_main_2d : forall {F} (O : sops F) cexp rnorm ar n st N permute ins outs f P,
  ready2 8 ar n st N permute ins outs f -> setup_ffts2 cexp N = Some P -> fits32_2 (st_pack st) n N (t_fftsize f) ->
  forall (M0 : nat -> @rmem F) (vz vr : Z -> F) k sd z mode rflag tflag nloop,
  arrays_ok2 f BWORK M0 -> (forall r, (r < n)%nat -> ints_index (M0 r)) ->
  (forall r, (r < n)%nat -> seed_ok k (sd r)) -> index_fits2 k N ->
  mode < 2 \/ (forall r, (r < n)%nat -> inside2 N (outs r) /\ psize2 (outs r) = psize2 (ins r)) ->
  let w0 := fun r => initialize2 vz vr (fun v => v) k (sd r) N (ins r) in
  let w32 := fun r => initialize2_32 vz vr (fun v => v) k (sd r) N (ins r) in
  exists Ma Mb M2 L1 L2,
    exec_to n (acts2_32 O rnorm false 8 f P (begin_part w32)) M0 Ma /\ exec_to n (acts2_32 O rnorm false 8 f P (run_part mode rflag nloop w32)) M0 Mb /\
    exec_to n (acts_code2 O rnorm 8 f P (test_main2 mode rflag tflag nloop w0 (clear2 z ins))) M0 M2 /\
    exec_to n (shown_main2_32 O rnorm 8 f P n ins outs mode rflag tflag nloop w32 (clear2_32 z ins)) M0 M2 /\
    output2_32 0 n ins outs (fun r => getb BWORK (Ma r)) = Some L1 /\ TestOutProofs.prints2 n ins (fun r => getb BWORK (Ma r)) L1 /\
    output2_32 (if mode <? 2 then 0 else 1) n ins outs (fun r => getb BWORK (Mb r)) = Some L2 /\
    TestOutProofs.prints2 n (if mode <? 2 then ins else outs) (fun r => getb BWORK (Mb r)) L2 /\
    (forall p, inb2 p (grid2 N) -> In p (map point L1) /\ In p (map point L2)).
Proof. exact @screen_int2. Qed.
Print Assumptions C86_main_2d.
(** and in every state of every execution the ranks that have printed are the first ones, for both outputs *)
Theorem C86_order_2d : forall {F} (O : sops F) cexp rnorm ar n st N permute ins outs f P,
  ready2 8 ar n st N permute ins outs f -> setup_ffts2 cexp N = Some P -> fits32_2 (st_pack st) n N (t_fftsize f) ->
  forall (M0 : nat -> @rmem F) (vz vr : Z -> F) k sd z mode rflag tflag nloop,
  arrays_ok2 f BWORK M0 -> (forall r, (r < n)%nat -> ints_index (M0 r)) ->
  (forall r, (r < n)%nat -> seed_ok k (sd r)) -> index_fits2 k N ->
  mode < 2 \/ (forall r, (r < n)%nat -> inside2 N (outs r) /\ psize2 (outs r) = psize2 (ins r)) ->
  let w32 := fun r => initialize2_32 vz vr (fun v => v) k (sd r) N (ins r) in
  forall eager labels s,
  run n eager (start n (shown_main2_32 O rnorm 8 f P n ins outs mode rflag tflag nloop w32 (clear2_32 z ins)) M0) labels s ->
  let rest2 := fun r => token_send n r ++ acts2_32 O rnorm false 8 f P (timing [1; 2; 3] mode tflag nloop (clear2_32 z ins)) r in
  let rest1 := fun r => token_send n r ++ acts2_32 O rnorm false 8 f P (fft_part mode rflag nloop) r ++ shown2_32 (if mode <? 2 then 0 else 1) n ins outs r ++
    acts2_32 O rnorm false 8 f P (timing [1; 2; 3] mode tflag nloop (clear2_32 z ins)) r in
  forall p q, (p <= q)%nat -> (q < n)%nat ->
  (has_printed q (rest1 q) s -> has_printed p (rest1 p) s) /\ (has_printed q (rest2 q) s -> has_printed p (rest2 p) s).
Proof. exact @screen_int_order2. Qed.
Print Assumptions C86_order_2d.

(** the conditions are met by the examples of C83 and C85; the programs in 32-bit ints run to their end with the arrays that they have without -o *)
Definition same_end32 (n : nat) (c1 c2 : nat -> list (@instr Z)) (M : nat -> @rmem Z) : bool :=
  let s1 := final n c1 M in let s2 := final n c2 M in doneb s1 && doneb s2 &&
  forallb (fun r => match nth_error (mems_of s1) r, nth_error (mems_of s2) r with
    | Some a, Some b => if list_eq_dec Z.eq_dec (getb BWORK a) (getb BWORK b) then true else false | _, _ => false end) (seq 0 n).
Example C86_main_3d_example : with_plan (mkset 2 0 2) 0 isplit3 split3 (fun f P =>
  let w0 := fun r => initialize3 (fun v => v) (fun v => v) (fun v => v) RANDOM (7 + Z.of_nat r) g2 (isplit3 r) in
  let w32 := fun r => initialize3_32 (fun v => v) (fun v => v) (fun v => v) RANDOM (7 + Z.of_nat r) g2 (isplit3 r) in
  forallb (fun r => (2 * f_fftsize f r <=? HALF) && forallb (fun b => zlen (getb b (exM f 0 isplit3 r)) <=? INT_MAX) [BIn; BOut; BSend; BRecv]) [0; 1]%nat &&
  forallb (fun mode => same_end32 2 (shown_main3_32 Zops normZ 8 f P 2 isplit3 split3 mode false true 1 w32 (clear3_32 0 isplit3))
    (acts_code3 Zops normZ f P (test_main3 mode false true 1 w0 (clear3 0 isplit3))) (exM f 0 isplit3)) [0; 2]) = true /\
  start_ok (mkset 1 0 1) 1 split3 isplit3 BACKWARD /\ (forall r, (r < 2)%nat -> box32_3 g2 (isplit3 r) /\ inside3 g2 (split3 r) /\ psize3 (split3 r) = psize3 (isplit3 r)).
Proof.
  split; [vm_compute; reflexivity|]. split; [exact (proj1 (proj2 (proj2 C26_runs)))|].
  intros [|[|r]] H; [repeat split; vm_compute; congruence|repeat split; vm_compute; congruence|lia].
Qed.
Example C86_main_2d_example : with_plan_2 (mkset 2 0 2) 0 isplit2 split2 (fun f P =>
  let w0 := fun r => initialize2 (fun v => v) (fun v => v) (fun v => v) STEP 0 sq2 (isplit2 r) in
  let w32 := fun r => initialize2_32 (fun v => v) (fun v => v) (fun v => v) STEP 0 sq2 (isplit2 r) in
  forallb (fun mode => same_end32 2 (shown_main2_32 Zops normZ 8 f P 2 isplit2 split2 mode false true 1 w32 (clear2_32 0 isplit2))
    (acts_code2 Zops normZ 8 f P (test_main2 mode false true 1 w0 (clear2 0 isplit2))) (exM_2 f 0 isplit2)) [0; 2]) = true /\
  start_ok_2 (mkset 2 1 2) 1 split2 isplit2 FORWARD /\ (forall r, (r < 2)%nat -> box32_2 sq2 (isplit2 r) /\ inside2 sq2 (split2 r) /\ psize2 (split2 r) = psize2 (isplit2 r)).
Proof.
  split; [vm_compute; reflexivity|]. split; [exact (proj2 C25_runs_2)|].
  intros [|[|r]] H; [repeat split; vm_compute; congruence|repeat split; vm_compute; congruence|lia].
Qed.
Example C86_output_example : output3_32 1 2 isplit3 split3 (fun r => match r with O => [1; 2; 3; 4; 5; 6; 7; 8] | _ => [9; 10; 11; 12; 13; 14; 15; 16] end) =
  Some [((0, 0, 0), 0%nat, 1, 2); ((1, 0, 0), 0%nat, 3, 4); ((0, 1, 0), 0%nat, 5, 6); ((1, 1, 0), 0%nat, 7, 8);
        ((0, 0, 1), 1%nat, 9, 10); ((1, 0, 1), 1%nat, 11, 12); ((0, 1, 1), 1%nat, 13, 14); ((1, 1, 1), 1%nat, 15, 16)].
Proof. vm_compute. reflexivity. Qed.

(** without the conditions output() overflows: a rank with 2^30+1 points, whose number fits in an int, computes 2*m for m = 2^30, whatever the array;
    in modes 2 and 3 a rank with one input point and a wide output box multiplies the sides of that box *)
Theorem C86_points_refuted : exists b, inside3 (1073741825, 1, 1) b /\ psize3 b <= INT_MAX /\
  (forall F me (work : list F), 2 * psize3 b <= zlen work -> exists L, out_rank3 b (psize3 b) me work = Some L) /\
  (forall F me (work : list F), out_rank3_32 b b me work = None).
Proof.
  exists (mkbox3 0 1073741824 0 0 0 0). split; [repeat split; vm_compute; congruence|]. split; [vm_compute; congruence|].
  split; [intros F me work; apply points_lines; repeat split; vm_compute; congruence|]. intros F me work. apply points_over. vm_compute. reflexivity.
Qed.
Print Assumptions C86_points_refuted.
Theorem C86_layout_refuted : exists N bi b, box32_3 N bi /\ inside3 N b /\ out_rank3 b (psize3 bi) 0 [1; 2] = Some [((0, 0, 0), 0%nat, 1, 2)] /\
  (forall F me (work : list F), out_rank3_32 bi b me work = None).
Proof.
  exists (65536, 32768, 1), (mkbox3 0 0 0 0 0 0), (mkbox3 0 65535 0 32767 0 0). split; [repeat split; vm_compute; congruence|]. split; [repeat split; vm_compute; congruence|].
  split; [vm_compute; reflexivity|]. intros F me work. reflexivity.
Qed.
Print Assumptions C86_layout_refuted.
