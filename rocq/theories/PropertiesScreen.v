(** PropertiesScreen.v : property C85 (the token of output() in the test programs), proofs by reference. *)

From Coq Require Import Sorted.
From Verif Require Import Base Spec Pack3d Sched SchedProofs Phases Exec Remap RemapMain RemapInst
  Remap3d RemapThms RemapTop Layout Setup3d Setup2d LayoutFinal Kiss KissPure Fft1d KissFinal
  Fft3d Frame Fft3dProofs Fft3dMain Fft3dTop Fft3dFinal Fft3dStmt Fft3dEx Fft2d Fft2dMain Fft2dTop Fft2dFinal Fft2dStmt Fft2dEx
  Tune TuneProofs TestProg TestLayProofs TestDataProofs TestOpt TestOptProofs TestOutProofs TestOptTop Ops OpsSeq OpsProofs OpsTop Screen ScreenProofs ScreenOrder ScreenTop.
Local Open Scope Z_scope.

(** ** C85 *)
(** whatever each rank does in its turn, all executions of output() end, each rank having done its part once *)
Theorem C85_output : forall {F} n (f : nat -> @rmem F -> option rmem) (M M2 : nat -> @rmem F),
  (forall r, (r < n)%nat -> f r (M r) = Some (M2 r)) -> exec_to n (output_code n f) M M2.
Proof. exact @output_exec. Qed.
Print Assumptions C85_output.
(** after any program that runs to its end, and before any other: in every state of every execution the ranks that have
    printed are the first ones *)
Theorem C85_order : forall {F} n (pre post : nat -> list (@instr F)) (f : nat -> @rmem F -> option rmem) (M M1 : nat -> @rmem F),
  exec_to n pre M M1 ->
  forall eager labels s, run n eager (start n (fun r => pre r ++ output_code n f r ++ post r) M) labels s ->
  forall p q, (p <= q)%nat -> (q < n)%nat -> has_printed q (token_send n q ++ post q) s -> has_printed p (token_send n p ++ post p) s.
Proof. exact @order_all. Qed.
Print Assumptions C85_order.
(** a rank whose part is undefined (C60) can always be reached *)
Theorem C85_undefined : forall {F} n (f : nat -> @rmem F -> option rmem) (M M2 : nat -> @rmem F) k,
  (k < n)%nat -> (forall r, (r < k)%nat -> f r (M r) = Some (M2 r)) -> f k (M k) = None ->
  forall eager, exists labels s, run n eager (start n (output_code n f) M) labels s /\ step n eager (Lrank k) s = Bad.
Proof. exact @output_crash. Qed.
Print Assumptions C85_undefined.
(** the test programs with -o: same final arrays as without; the two outputs are those of C60 on the arrays at their places; the guard is
    that of C60 for the last output *)
Theorem C85_main_3d : forall {F} (O : sops F) cexp rnorm ar n st N permute ins outs f P,
  ready3 ar n st N permute ins outs f -> setup_ffts3 cexp N = Some P ->
  forall (M0 : nat -> @rmem F) (vz vr : Z -> F) k sd z mode rflag tflag nloop,
  room3 f BACKWARD BWORK M0 -> (forall r, (r < n)%nat -> legal3 (ins r) /\ seed_ok k (sd r)) ->
  mode < 2 \/ (forall r, (r < n)%nat -> psize3 (outs r) = psize3 (ins r)) ->
  let w0 := fun r => initialize3 vz vr (fun v => v) k (sd r) N (ins r) in
  exists Ma Mb M2 L1 L2,
    exec_to n (acts_code3 O rnorm f P (begin_part w0)) M0 Ma /\ exec_to n (acts_code3 O rnorm f P (run_part mode rflag nloop w0)) M0 Mb /\
    exec_to n (acts_code3 O rnorm f P (test_main3 mode rflag tflag nloop w0 (clear3 z ins))) M0 M2 /\
    exec_to n (shown_main3 O rnorm f P n ins outs mode rflag tflag nloop w0 (clear3 z ins)) M0 M2 /\
    output3 0 n ins outs (fun r => getb BWORK (Ma r)) = Some L1 /\ prints3 n ins (fun r => getb BWORK (Ma r)) L1 /\
    output3 (if mode <? 2 then 0 else 1) n ins outs (fun r => getb BWORK (Mb r)) = Some L2 /\
    prints3 n (if mode <? 2 then ins else outs) (fun r => getb BWORK (Mb r)) L2 /\
    (forall p, inb3 p (grid3 N) -> In p (map point L1) /\ In p (map point L2)).
Proof. exact @screen3. Qed.
Print Assumptions C85_main_3d.
Theorem C85_main_order_3d : forall {F} (O : sops F) cexp rnorm ar n st N permute ins outs f P,
  ready3 ar n st N permute ins outs f -> setup_ffts3 cexp N = Some P ->
  forall (M0 : nat -> @rmem F) (vz vr : Z -> F) k sd z mode rflag tflag nloop,
  room3 f BACKWARD BWORK M0 -> (forall r, (r < n)%nat -> legal3 (ins r) /\ seed_ok k (sd r)) ->
  mode < 2 \/ (forall r, (r < n)%nat -> psize3 (outs r) = psize3 (ins r)) ->
  let w0 := fun r => initialize3 vz vr (fun v => v) k (sd r) N (ins r) in
  forall eager labels s, run n eager (start n (shown_main3 O rnorm f P n ins outs mode rflag tflag nloop w0 (clear3 z ins)) M0) labels s ->
  let rest2 := fun r => token_send n r ++ acts_code3 O rnorm f P (timing [1; 2; 3; 4] mode tflag nloop (clear3 z ins)) r in
  let rest1 := fun r => token_send n r ++ acts_code3 O rnorm f P (fft_part mode rflag nloop) r ++ shown3 (if mode <? 2 then 0 else 1) n ins outs r ++
    acts_code3 O rnorm f P (timing [1; 2; 3; 4] mode tflag nloop (clear3 z ins)) r in
  forall p q, (p <= q)%nat -> (q < n)%nat ->
  (has_printed q (rest1 q) s -> has_printed p (rest1 p) s) /\ (has_printed q (rest2 q) s -> has_printed p (rest2 p) s).
Proof. exact @screen_order3. Qed.
Print Assumptions C85_main_order_3d.
Theorem C85_main_2d : forall {F} (O : sops F) esize cexp rnorm ar n st N permute ins outs f P,
  ready2 esize ar n st N permute ins outs f -> setup_ffts2 cexp N = Some P ->
  forall (M0 : nat -> @rmem F) (vz vr : Z -> F) k sd z mode rflag tflag nloop,
  arrays_ok2 f BWORK M0 -> (forall r, (r < n)%nat -> legal2 (ins r) /\ seed_ok k (sd r)) ->
  mode < 2 \/ (forall r, (r < n)%nat -> psize2 (outs r) = psize2 (ins r)) ->
  let w0 := fun r => initialize2 vz vr (fun v => v) k (sd r) N (ins r) in
  exists Ma Mb M2 L1 L2,
    exec_to n (acts_code2 O rnorm esize f P (begin_part w0)) M0 Ma /\ exec_to n (acts_code2 O rnorm esize f P (run_part mode rflag nloop w0)) M0 Mb /\
    exec_to n (acts_code2 O rnorm esize f P (test_main2 mode rflag tflag nloop w0 (clear2 z ins))) M0 M2 /\
    exec_to n (shown_main2 O rnorm esize f P n ins outs mode rflag tflag nloop w0 (clear2 z ins)) M0 M2 /\
    output2 0 n ins outs (fun r => getb BWORK (Ma r)) = Some L1 /\ prints2 n ins (fun r => getb BWORK (Ma r)) L1 /\
    output2 (if mode <? 2 then 0 else 1) n ins outs (fun r => getb BWORK (Mb r)) = Some L2 /\
    prints2 n (if mode <? 2 then ins else outs) (fun r => getb BWORK (Mb r)) L2 /\
    (forall p, inb2 p (grid2 N) -> In p (map point L1) /\ In p (map point L2)).
Proof. exact @screen2. Qed.
Print Assumptions C85_main_2d.
Theorem C85_main_order_2d : forall {F} (O : sops F) esize cexp rnorm ar n st N permute ins outs f P,
  ready2 esize ar n st N permute ins outs f -> setup_ffts2 cexp N = Some P ->
  forall (M0 : nat -> @rmem F) (vz vr : Z -> F) k sd z mode rflag tflag nloop,
  arrays_ok2 f BWORK M0 -> (forall r, (r < n)%nat -> legal2 (ins r) /\ seed_ok k (sd r)) ->
  mode < 2 \/ (forall r, (r < n)%nat -> psize2 (outs r) = psize2 (ins r)) ->
  let w0 := fun r => initialize2 vz vr (fun v => v) k (sd r) N (ins r) in
  forall eager labels s, run n eager (start n (shown_main2 O rnorm esize f P n ins outs mode rflag tflag nloop w0 (clear2 z ins)) M0) labels s ->
  let rest2 := fun r => token_send n r ++ acts_code2 O rnorm esize f P (timing [1; 2; 3] mode tflag nloop (clear2 z ins)) r in
  let rest1 := fun r => token_send n r ++ acts_code2 O rnorm esize f P (fft_part mode rflag nloop) r ++ shown2 (if mode <? 2 then 0 else 1) n ins outs r ++
    acts_code2 O rnorm esize f P (timing [1; 2; 3] mode tflag nloop (clear2 z ins)) r in
  forall p q, (p <= q)%nat -> (q < n)%nat ->
  (has_printed q (rest1 q) s -> has_printed p (rest1 p) s) /\ (has_printed q (rest2 q) s -> has_printed p (rest2 p) s).
Proof. exact @screen_order2. Qed.
Print Assumptions C85_main_order_2d.
(** three ranks: after rank 0 has printed and sent, rank 1 prints; rank 2 is stopped at its receive.  Without the token rank 1 can print first *)
Definition quiet_print (_ : nat) (m : @rmem Z) : option rmem := Some m.
Definition no_mem (_ : nat) : @rmem Z := mkmem [] [] [] [].
Definition after_labels (n : nat) (code : nat -> list (@instr Z)) (l : list label) : option gstate :=
  fold_left (fun s a => s <- s; match step n strict a s with Ok s' => Some s' | _ => None end) l (Some (start n code no_mem)).
Example C85_order_example :
  option_map (fun s => map (fun c => length (c_prog c)) (s_core s))
    (after_labels 3 (output_code 3 quiet_print) [Lrank 2; Lrank 1; Lrank 0; Lrank 0; Ldeliver 0 1; Lwait 1 0; Lrank 1; Lrank 0]) = Some [0; 1; 2]%nat /\
  doneb (final 3 (output_code 3 quiet_print) no_mem) = true /\
  exists s, run 2 strict (start 2 (fun r => [ILocal (quiet_print r)]) no_mem) [Lrank 1] s /\ has_printed 1 [] s /\ ~ has_printed 0 [] s.
Proof.
  split; [vm_compute; reflexivity|]. split; [vm_compute; reflexivity|]. eexists. split; [econstructor; [reflexivity|constructor]|].
  split; [eexists; split; [reflexivity|cbn; lia]|]. intros (c & E & L). injection E as <-. cbn in L. lia.
Qed.
(** the test programs with -o on two ranks with integers, modes 0 and 2, end with the arrays they have without -o *)
Definition same_end (n : nat) (c1 c2 : nat -> list (@instr Z)) (M : nat -> @rmem Z) : bool :=
  let s1 := final n c1 M in let s2 := final n c2 M in doneb s1 && doneb s2 &&
  forallb (fun r => match nth_error (mems_of s1) r, nth_error (mems_of s2) r with
    | Some a, Some b => if list_eq_dec Z.eq_dec (getb BWORK a) (getb BWORK b) then true else false | _, _ => false end) (seq 0 n).
Example C85_main_3d_example : with_plan (mkset 2 0 2) 0 isplit3 split3 (fun f P =>
  let w0 := fun r => initialize3 (fun v => v) (fun v => v) (fun v => v) RANDOM (7 + Z.of_nat r) g2 (isplit3 r) in
  forallb (fun mode => same_end 2 (shown_main3 Zops normZ f P 2 isplit3 split3 mode false true 1 w0 (clear3 0 isplit3))
    (acts_code3 Zops normZ f P (test_main3 mode false true 1 w0 (clear3 0 isplit3))) (exM f 0 isplit3)) [0; 2]) = true /\
  start_ok (mkset 1 0 1) 1 split3 isplit3 BACKWARD /\ (forall r, (r < 2)%nat -> psize3 (split3 r) = psize3 (isplit3 r)).
Proof. split; [vm_compute; reflexivity|]. split; [exact (proj1 (proj2 (proj2 C26_runs)))|]. intros [|[|r]] H; [reflexivity|reflexivity|lia]. Qed.
Example C85_main_2d_example : with_plan_2 (mkset 2 0 2) 0 isplit2 split2 (fun f P =>
  let w0 := fun r => initialize2 (fun v => v) (fun v => v) (fun v => v) STEP 0 sq2 (isplit2 r) in
  forallb (fun mode => same_end 2 (shown_main2 Zops normZ 8 f P 2 isplit2 split2 mode false true 1 w0 (clear2 0 isplit2))
    (acts_code2 Zops normZ 8 f P (test_main2 mode false true 1 w0 (clear2 0 isplit2))) (exM_2 f 0 isplit2)) [0; 2]) = true /\
  start_ok_2 (mkset 2 1 2) 1 split2 isplit2 FORWARD /\ (forall r, (r < 2)%nat -> psize2 (split2 r) = psize2 (isplit2 r)).
Proof. split; [vm_compute; reflexivity|]. split; [exact (proj2 C25_runs_2)|]. intros [|[|r]] H; [reflexivity|reflexivity|lia]. Qed.
