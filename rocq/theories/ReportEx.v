(** ReportEx.v : runs of the programs of Report.v; C75, C76. *)

From Coq Require Import QArith String Lqa.
From Verif Require Import Base TestOpt Wrap TestProg Ops Report ReportProofs ReportCpp ReportPort.
Open Scope string_scope.
Open Scope list_scope.
Open Scope Z_scope.

(** the k-th reading of the clock is k(k+1)/2 *)
Definition clk_ex (k : nat) : Q := inject_Z (Z.of_nat (k * (k + 1) / 2)).
Definition new_ex : pub :=
  mkpub 1 0 0 2 0 2 1 0 0 0 0 0 0 0 0 0 0 0 0 0 0 0 0 0 0 0 0 [] [] [] 0%Q 0%Q [] [] [] [] [] [] [] "KISS" "double".
Definition setup_ex (size : Z) (p : pub) : pub * Z :=
  (mkpub (v_scaled p) (v_remaponly p) 0 (v_collective p) (v_exchange p) (v_packflag p) (v_memoryflag p) 0 0 4096 1 2 4 2 1 4 2 4 1 2 2 2 0 0 0 0 0 [] [] [] 0%Q 0%Q [] [] [] [] [] [] [] "KISS" "double", size).
Definition tune_ex (p : pub) : pub * Z :=
  (mkpub (v_scaled p) (v_remaponly p) 0 1 0 2 (v_memoryflag p) 0 0 4096 1 2 4 2 1 4 2 4 1 2 2 2 2 3 1 0 2 [0; 1] [0; 0] [2; 2] 4%Q (1 # 2)%Q [5%Q; 4%Q] [2%Q; 2%Q] [3%Q; 2%Q] [1%Q; 1%Q] [1%Q; 0%Q] [1%Q; 1%Q] [0%Q; 0%Q] "KISS" "double", 64).
Definition env_ex (clk : nat -> Q) (size : Z) (dim3 : bool) : env :=
  mkenv clk new_ex (setup_ex size) tune_ex (fun _ => 9%Q) (1 # 1000)%Q (if dim3 then [2; 2; 2] else [2; 4]) (if dim3 then [2; 2; 2] else [4; 2]) 8 0 8.
(** -g 8 8 8 -n 3 -t -v, or -n 0 -tune 3 0 1 *)
Definition opts_ex (dim3 tune : bool) (mode : Z) : opts :=
  mkopts (if dim3 then [8; 8; 8] else [8; 8]) (if dim3 then [0; 0; 0] else [0; 0]) (if dim3 then [0; 0; 0] else [0; 0]) (if tune then 0 else 3) ZERO None
    (if tune then Some (3, 0%Q, 1) else None) mode 2 0 2 true false false (mode <? 2).

Definition val_of (t : string) (l : list line) : option (list val) := option_map snd (find (fun x => (fst x =? t)%string) l).
Definition qred_val (v : val) : val := match v with VD (Some q) => VD (Some (Qred q)) | _ => v end.

Lemma cpp_ex : exists lines log, main Cpp true (opts_ex true true 0) (env_ex clk_ex 64 true) = ROk (lines, log) /\ length lines = 35%nat /\ length log = 66%nat /\
  printable true (opts_ex true true 0) (env_ex clk_ex 64 true) /\ loops (opts_ex true true 0) (env_ex clk_ex 64 true) = 3 /\
  option_map (map qred_val) (val_of "  time/fft3d = %g secs" lines) = Some [VD (Some (5 # 6)%Q)] /\
  option_map (map qred_val) (val_of "  fraction of time in remap #4 = %g" lines) = Some [VD (Some (14 # 5)%Q)].
Proof.
  do 2 eexists. split; [vm_compute; reflexivity|]. split; [reflexivity|]. split; [reflexivity|]. split; [|split; [reflexivity|split; vm_compute; reflexivity]].
  split; [vm_compute; discriminate|]. intros _. vm_compute. repeat split; try discriminate. repeat constructor; discriminate.
Qed.

Definition o3 := opts_ex true false 0.
Lemma python_ex : exists lines log, main Cpp true o3 (env_ex clk_ex 64 true) = ROk (lines, log) /\ 0 < loops o3 (env_ex clk_ex 64 true) /\ Qeq_bool (fft_time (env_ex clk_ex 64 true)) 0 = false /\
  main Python true o3 (env_ex clk_ex 64 true) = ROk (map (ren (py_title true)) lines, log) /\
  val_of "  3d brick proc grid: %d %d %d" lines = Some (map VI [2; 2; 2]) /\ val_of "  2d brick proc grid: %d %d %d" (map (ren (py_title true)) lines) = Some (map VI [2; 2; 2]).
Proof. do 2 eexists. split; [vm_compute; reflexivity|]. repeat split; vm_compute; reflexivity. Qed.
(** a clock that does not move between two readings *)
Lemma python_zero : exists lines log, main Cpp true o3 (env_ex (fun _ => 0%Q) 64 true) = ROk (lines, log) /\ main Python true o3 (env_ex (fun _ => 0%Q) 64 true) = RExc.
Proof. do 2 eexists. split; vm_compute; reflexivity. Qed.
Lemma python_mode : exists lines log, main Cpp true (opts_ex true false 2) (env_ex clk_ex 64 true) = ROk (lines, log) /\ main Python true (opts_ex true false 2) (env_ex clk_ex 64 true) = RExc.
Proof. do 2 eexists. split; vm_compute; reflexivity. Qed.

Lemma fortran_ex : exists lines log, main Cpp true o3 (env_ex clk_ex 64 true) = ROk (lines, log) /\ ~ f_overflow true o3 (env_ex clk_ex 64 true).
Proof. do 2 eexists. split; [vm_compute; reflexivity|]. intros [H|(H & _)]; [|discriminate]. apply H. vm_compute. split; discriminate. Qed.
Lemma fortran_init : exists lines log lines' log' x y, main Cpp true o3 (env_ex clk_ex 64 true) = ROk (lines, log) /\ main Fortran true o3 (env_ex clk_ex 64 true) = ROk (lines', log') /\
  val_of "Initialize grid = %g secs" lines = Some [VD (Some x)] /\ val_of "Initialize grid = %g secs" lines' = Some [VD (Some y)] /\ (x == 4)%Q /\ (y == 6)%Q /\
  val_of "Max error = %g" lines = Some [VD (Some (1 # 1000)%Q)] /\ val_of "Max error = %g" lines' = Some [VD None] /\ In PValidate log /\ ~ In PValidate log' /\
  ~ In (POne (-1) 4) log' /\ In (POne (-1) 4) log.
Proof.
  do 6 eexists. split; [vm_compute; reflexivity|]. split; [vm_compute; reflexivity|]. split; [vm_compute; reflexivity|]. split; [vm_compute; reflexivity|]. split; [reflexivity|]. split; [reflexivity|].
  split; [vm_compute; reflexivity|]. split; [vm_compute; reflexivity|]. assert (forall c l, existsb validating l = false -> c = PValidate -> ~ In c l) as V.
  { intros c l H -> I. assert (existsb validating l = true) as T by (apply existsb_exists; eexists; split; [exact I | reflexivity]). congruence. }
  assert (forall l, existsb (fun c => match c with POne (-1) 4 => true | _ => false end) l = false -> ~ In (POne (-1) 4) l) as W.
  { intros l H I. assert (existsb (fun c => match c with POne (-1) 4 => true | _ => false end) l = true) as T by (apply existsb_exists; eexists; split; [exact I | reflexivity]). congruence. }
  split; [|split; [eapply V; reflexivity|split; [apply W; reflexivity|]]].
  - repeat (first [left; reflexivity | right]).
  - repeat (first [left; reflexivity | right]).
Qed.
(** 2^27 points: 2^31 bytes *)
Lemma fortran_large : exists lines log, main Cpp true o3 (env_ex clk_ex (2 ^ 27) true) = ROk (lines, log) /\ main Fortran true o3 (env_ex clk_ex (2 ^ 27) true) = RUB.
Proof. do 2 eexists. split; vm_compute; reflexivity. Qed.
