(** PropertiesReport.v : C75, C76. *)

From Coq Require Import QArith String.
From Verif Require Import Base TestOpt Wrap TestProg Ops Report ReportProofs ReportCpp ReportPort ReportEx.
Open Scope Z_scope.

(** ** C75 *)
(** [faithful]: the lines of the report, their order, and for each what it states; a time is the difference of two readings
    of the clock between which exactly the calls of its title were made *)
Theorem C75_report : forall dim3 o e lines log, 0 <= o_mode o <= 3 -> e_me e = 0 -> loops o e <> 0 ->
  main Cpp dim3 o e = ROk (lines, log) -> faithful dim3 o e lines log.
Proof. exact cpp_faithful. Qed.
Print Assumptions C75_report.
Theorem C75_c : forall dim3 o e, main C dim3 o e = main Cpp dim3 o e.
Proof. exact c_is_cpp. Qed.
Print Assumptions C75_c.
(** the program ends if the tuning's vectors have an element for each trial and the number of transforms is an int *)
Theorem C75_ends : forall dim3 o e, 0 <= o_mode o -> 0 <= loops o e -> printable dim3 o e -> exists lines log, main Cpp dim3 o e = ROk (lines, log).
Proof. exact cpp_ends. Qed.
Print Assumptions C75_ends.
(** only rank 0 prints *)
Theorem C75_others : forall dim3 o e lines log, e_me e <> 0 -> main Cpp dim3 o e = ROk (lines, log) -> lines = [].
Proof. intros dim3 o e lines log E H. apply (cpp_others dim3 o e lines log E H). Qed.
Print Assumptions C75_others.
(** the calls, but for validate() and output(), are those of the program of C64 *)
Theorem C75_calls : forall (F : Type) dim3 o e (w0 zero : nat -> list F -> option (list F)) lines log, main Cpp dim3 o e = ROk (lines, log) ->
  filter (fun c => negb (reads c)) log =
    [PBarrier; PLayout; PCreate; PBarrier; if o_tune o then PTune else PSetup; PBarrier; PAlloc (e_esize e * 2 * snd (after_plan o e)); PInit] ++
    map ev_of (tl (test_main (nremaps dim3) (o_mode o) (o_r o) (o_t o) (Z.to_nat (loops o e)) w0 zero)).
Proof. exact @log_acts. Qed.
Print Assumptions C75_calls.
Example C75_example : exists lines log, main Cpp true (opts_ex true true 0) (env_ex clk_ex 64 true) = ROk (lines, log) /\ length lines = 35%nat /\ length log = 66%nat /\
  printable true (opts_ex true true 0) (env_ex clk_ex 64 true) /\ loops (opts_ex true true 0) (env_ex clk_ex 64 true) = 3 /\
  option_map (map qred_val) (val_of "  time/fft3d = %g secs" lines) = Some [VD (Some (5 # 6)%Q)] /\
  option_map (map qred_val) (val_of "  fraction of time in remap #4 = %g" lines) = Some [VD (Some (14 # 5)%Q)].
Proof. exact cpp_ex. Qed.

(** ** C76 *)
(** the Python programs print the same numbers under the titles of [py_title], unless they raise an exception *)
Theorem C76_python : forall dim3 o e lines log, 0 <= o_mode o <= 3 -> e_me e = 0 -> 0 < loops o e -> main Cpp dim3 o e = ROk (lines, log) ->
  main Python dim3 o e = if (dim3 && (2 <=? o_mode o)) || Qeq_bool (fft_time e) 0 then RExc else ROk (map (ren (py_title dim3)) lines, log).
Proof. exact python_same. Qed.
Print Assumptions C76_python.
Example C76_python_example : exists lines log, main Cpp true o3 (env_ex clk_ex 64 true) = ROk (lines, log) /\ 0 < loops o3 (env_ex clk_ex 64 true) /\ Qeq_bool (fft_time (env_ex clk_ex 64 true)) 0 = false /\
  main Python true o3 (env_ex clk_ex 64 true) = ROk (map (ren (py_title true)) lines, log) /\
  val_of "  3d brick proc grid: %d %d %d" lines = Some (map VI [2; 2; 2]) /\ val_of "  2d brick proc grid: %d %d %d" (map (ren (py_title true)) lines) = Some (map VI [2; 2; 2]).
Proof. exact python_ex. Qed.
Theorem C76_python_zero_refuted : exists lines log, main Cpp true o3 (env_ex (fun _ => 0%Q) 64 true) = ROk (lines, log) /\ main Python true o3 (env_ex (fun _ => 0%Q) 64 true) = RExc.
Proof. exact python_zero. Qed.
Print Assumptions C76_python_zero_refuted.
Theorem C76_python_mode_refuted : exists lines log, main Cpp true (opts_ex true false 2) (env_ex clk_ex 64 true) = ROk (lines, log) /\ main Python true (opts_ex true false 2) (env_ex clk_ex 64 true) = RExc.
Proof. exact python_mode. Qed.
Print Assumptions C76_python_mode_refuted.
(** the Fortran programs: [f_line] is the line they print for a line of the C++ programs, [f_call] the call they make for a call *)
Theorem C76_fortran : forall dim3 o e lines log, e_me e = 0 -> main Cpp dim3 o e = ROk (lines, log) ->
  (f_overflow dim3 o e -> main Fortran dim3 o e = RUB) /\
  (~ f_overflow dim3 o e -> exists flog, main Fortran dim3 o e = ROk (map (f_line dim3 o e) lines, flog) /\
    filter (fun c => negb (validating c)) flog = map (f_call dim3 (o_mode o)) (filter (fun c => negb (validating c)) log) /\
    existsb validating log = o_v o /\ existsb validating flog = negb (o_v o)).
Proof. exact fortran_same. Qed.
Print Assumptions C76_fortran.
Example C76_fortran_example : exists lines log, main Cpp true o3 (env_ex clk_ex 64 true) = ROk (lines, log) /\ ~ f_overflow true o3 (env_ex clk_ex 64 true).
Proof. exact fortran_ex. Qed.
Theorem C76_fortran_refuted : exists lines log lines' log' x y, main Cpp true o3 (env_ex clk_ex 64 true) = ROk (lines, log) /\ main Fortran true o3 (env_ex clk_ex 64 true) = ROk (lines', log') /\
  val_of "Initialize grid = %g secs" lines = Some [VD (Some x)] /\ val_of "Initialize grid = %g secs" lines' = Some [VD (Some y)] /\ (x == 4)%Q /\ (y == 6)%Q /\
  val_of "Max error = %g" lines = Some [VD (Some (1 # 1000)%Q)] /\ val_of "Max error = %g" lines' = Some [VD None] /\ In PValidate log /\ ~ In PValidate log' /\
  ~ In (POne (-1) 4) log' /\ In (POne (-1) 4) log.
Proof. exact fortran_init. Qed.
Print Assumptions C76_fortran_refuted.
Theorem C76_fortran_size_refuted : exists lines log, main Cpp true o3 (env_ex clk_ex (2 ^ 27) true) = ROk (lines, log) /\ main Fortran true o3 (env_ex clk_ex (2 ^ 27) true) = RUB.
Proof. exact fortran_large. Qed.
Print Assumptions C76_fortran_size_refuted.
