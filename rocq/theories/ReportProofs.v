(** ReportProofs.v : what the reports of the test programs say; C75. *)

From Coq Require Import QArith String Lqa.
From Verif Require Import Base TestOpt Wrap Ops Report.
Open Scope string_scope.
Open Scope list_scope.
Open Scope Z_scope.

(** ** specification *)

(** the calls between the k-th reading of the clock and the next (each reading follows a barrier) *)
Fixpoint after_reading (k : nat) (log : list pevent) : list pevent :=
  match log with
  | [] => []
  | PBarrier :: t => match k with O => t | S k => after_reading k t end
  | _ :: t => after_reading k t
  end.
Fixpoint until_reading (log : list pevent) : option (list pevent) :=
  match log with
  | [] => None
  | PBarrier :: _ => Some []
  | e :: t => option_map (cons e) (until_reading t)
  end.
(** [q] is the time between two readings of the clock with exactly these calls in between *)
Definition took (clk : nat -> Q) (log calls : list pevent) (q : Q) : Prop :=
  exists k, until_reading (after_reading k log) = Some calls /\ (q == clk (S k) - clk k)%Q.

(** [n] times: forward and back in modes 0 and 1, forward in modes 2 and 3 *)
Definition times_ (n mode : Z) (op : Z -> pevent) : list pevent :=
  flat_map (fun _ => if (mode =? 0) || (mode =? 1) then [op 1; op (-1)] else [op 1]) (seq 0 (Z.to_nat n)).
Definition number (n mode : Z) : Z := if (mode =? 0) || (mode =? 1) then 2 * n else n.

(** the object after plan(): the constructor's values with the settings of the command line, then setup or tune *)
Definition after_plan (o : opts) (e : env) : pub * Z :=
  let p := e_new e in
  (if o_tune o then e_tune e else e_setup e) (with_six (v_scaled p) (if o_r o then 1 else 0) (o_c o) (o_e o) (o_p o) (v_memoryflag p) p).
Definition object (o : opts) (e : env) : pub := fst (after_plan o e).
(** -n, or what tune() chose if -n 0 was given with -tune *)
Definition loops (o : opts) (e : env) : Z :=
  if o_tune o then if o_nloop o =? 0 then v_npertrial (object o e) else o_nloop o else o_nloop o.

(** the lines: their titles, in order *)
Definition nd (dim3 : bool) : string := if dim3 then "3d" else "2d".
Definition dims (dim3 : bool) (s : string) : string := (s ++ (if dim3 then ": %d %d %d" else ": %d %d"))%string.
Definition trial_title (dim3 : bool) : string :=
  if dim3 then "  coll exch pack 3dFFT 1dFFT remap r1 r2 r3 r4: %d %d %d %g %g %g %g %g %g %g"
  else "  coll exch pack 2dFFT 1dFFT remap r1 r2 r3: %d %d %d %g %g %g %g %g %g".
Definition count_title (mode : Z) : string :=
  if mode =? 0 then "%d forward and %d back FFTs on %d procs"
  else if mode =? 1 then "%d forward and %d back convolution FFTs on %d procs"
  else if mode =? 2 then "%d forward FFTs on %d procs" else "%d forward convolution FFTs on %d procs".
Definition numeral (i : Z) : string := if i =? 1 then "1" else if i =? 2 then "2" else if i =? 3 then "3" else "4".
Definition remap_title (i : Z) : string := ("Time for remap #" ++ numeral i ++ " = %g secs")%string.
Definition fraction_title (i : Z) : string := ("  fraction of time in remap #" ++ numeral i ++ " = %g")%string.
Definition nremaps (dim3 : bool) : list Z := if dim3 then [1; 2; 3; 4] else [1; 2; 3].
Definition titles (dim3 : bool) (o : opts) (ntrial : Z) : list string :=
  [(nd dim3 ++ " FFTs with %s library, precision = %s")%string; dims dim3 "Grid size"; dims dim3 "  initial proc grid"; dims dim3 "  x pencil proc grid"; dims dim3 "  y pencil proc grid"] ++
  (if dim3 then [dims dim3 "  z pencil proc grid"] else []) ++
  [dims dim3 ("  " ++ nd dim3 ++ " brick proc grid")%string; dims dim3 "  final proc grid"] ++
  (if o_tune o then "Tuning trials & iterations: %d %d"%string :: repeat (trial_title dim3) (Z.to_nat ntrial) else []) ++
  [count_title (o_mode o); "Collective, exchange, pack methods: %d %d %d"; "Memory usage (per-proc) for FFT grid = %g MBytes"; "Memory usage (per-proc) by fftMPI = %g MBytes"]%string ++
  (if o_v o then ["Max error = %g"]%string else []) ++
  ["Initialize grid = %g secs"; "FFT setup = %g secs"; "FFT tune = %g secs"; "Time for " ++ nd dim3 ++ " FFTs = %g secs"; "  time/fft" ++ nd dim3 ++ " = %g secs";
   "  flop rate for " ++ nd dim3 ++ " FFTs = %g Gflops"]%string ++
  (if o_t o then ["Time for 1d FFTs only = %g secs"; "  time/fft1d = %g secs"; "  fraction of time in 1d FFTs = %g"; "Time for remaps only = %g secs"; "  fraction of time in remaps = %g"]%string ++
     flat_map (fun i => [remap_title i; fraction_title i]) (nremaps dim3) else []).

Definition points (g : list Z) : Z := fold_right Z.mul 1 g.

(** a line with this title shows the number *)
Definition shows (lines : list line) (title : string) (q : Q) : Prop := exists x, In (title, [VD (Some x)]) lines /\ (x == q)%Q.

Definition times_of (dim3 : bool) (p : pub) : list (list Q) :=
  [v_tfft p; v_t1d p; v_tremap p; v_tremap1 p; v_tremap2 p; v_tremap3 p] ++ (if dim3 then [v_tremap4 p] else []).

Record faithful (dim3 : bool) (o : opts) (e : env) (lines : list line) (log : list pevent) : Prop := {
  f_titles : map fst lines = titles dim3 o (v_ntrial (object o e));
  f_lib : In ((nd dim3 ++ " FFTs with %s library, precision = %s")%string, [VS (Some (v_fft1d (object o e))); VS (Some (v_precision (object o e)))]) lines;
  f_grid : In (dims dim3 "Grid size", map VI (o_g o)) lines;
  f_in : In (dims dim3 "  initial proc grid", map VI (e_inp e)) lines;
  f_out : In (dims dim3 "  final proc grid", map VI (e_outp e)) lines;
  f_grids : let p := object o e in
    if dim3 then
      In (dims dim3 "  x pencil proc grid", map VI [v_npfast1 p; v_npfast2 p; v_npfast3 p]) lines /\
      In (dims dim3 "  y pencil proc grid", map VI [v_npmid1 p; v_npmid2 p; v_npmid3 p]) lines /\
      In (dims dim3 "  z pencil proc grid", map VI [v_npslow1 p; v_npslow2 p; v_npslow3 p]) lines /\
      In (dims dim3 "  3d brick proc grid", map VI [v_npbrick1 p; v_npbrick2 p; v_npbrick3 p]) lines
    else
      In (dims dim3 "  x pencil proc grid", map VI [v_npfast1 p; v_npfast2 p]) lines /\
      In (dims dim3 "  y pencil proc grid", map VI [v_npslow1 p; v_npslow2 p]) lines /\
      In (dims dim3 "  2d brick proc grid", map VI [v_npbrick1 p; v_npbrick2 p]) lines;
  (* the i-th trial: element i of each vector *)
  f_trials : o_tune o <> None -> let p := object o e in
    In ("Tuning trials & iterations: %d %d"%string, map VI [v_ntrial p; v_npertrial p]) lines /\
    forall i, 0 <= i < v_ntrial p -> exists c x k qs,
      zget (v_cflags p) i = Some c /\ zget (v_eflags p) i = Some x /\ zget (v_pflags p) i = Some k /\
      Forall2 (fun v q => zget v i = Some q) (times_of dim3 p) qs /\
      nth_error (filter (fun l => (fst l =? trial_title dim3)%string) lines) (Z.to_nat i) = Some (trial_title dim3, map VI [c; x; k] ++ map (fun q => VD (Some q)) qs);
  f_count : In (count_title (o_mode o), map VI (if (o_mode o =? 0) || (o_mode o =? 1) then [loops o e; loops o e; e_nprocs e] else [loops o e; e_nprocs e])) lines;
  f_methods : In ("Collective, exchange, pack methods: %d %d %d"%string, map VI [v_collective (object o e); v_exchange (object o e); v_packflag (object o e)]) lines;
  (* the megabytes allocated, and those the object reports *)
  f_grid_mem : exists b, In (PAlloc b) log /\ b = e_esize e * (2 * snd (after_plan o e)) /\ shows lines "Memory usage (per-proc) for FFT grid = %g MBytes" (inject_Z b / inject_Z (2 ^ 20));
  f_mem : shows lines "Memory usage (per-proc) by fftMPI = %g MBytes" (inject_Z (v_memusage (object o e)) / inject_Z (2 ^ 20));
  f_error : o_v o = true -> In PValidate log /\ shows lines "Max error = %g" (e_eps e);
  (* without the setup or the tuning *)
  f_init : exists b x y, took (e_clk e) log [PLayout; PCreate] x /\ took (e_clk e) log [PAlloc b; PInit] y /\ shows lines "Initialize grid = %g secs" (x + y);
  f_setup : if o_tune o then shows lines "FFT setup = %g secs" (v_setuptime (object o e)) else
    exists q, took (e_clk e) log [PSetup] q /\ shows lines "FFT setup = %g secs" q;
  f_tune : if o_tune o then exists q, took (e_clk e) log [PTune] q /\ shows lines "FFT tune = %g secs" q else shows lines "FFT tune = %g secs" 0;
  (* the transforms, the time of one of them, and the flop rate if that is not 0 *)
  f_fft : exists q, took (e_clk e) log (times_ (loops o e) (o_mode o) PCompute) q /\
    shows lines ("Time for " ++ nd dim3 ++ " FFTs = %g secs")%string q /\
    shows lines ("  time/fft" ++ nd dim3 ++ " = %g secs")%string (q / inject_Z (number (loops o e) (o_mode o))) /\
    (~ q == 0 -> shows lines ("  flop rate for " ++ nd dim3 ++ " FFTs = %g Gflops")%string
       (5 * inject_Z (points (o_g o)) * e_lg e (points (o_g o)) * inject_Z (number (loops o e) (o_mode o)) / q / inject_Z (2 ^ 30)))%Q;
  (* the parts *)
  f_1d : o_t o = true -> exists q f, took (e_clk e) log (times_ (loops o e) (o_mode o) PCompute) f /\ took (e_clk e) log (times_ (loops o e) (o_mode o) P1d) q /\
    shows lines "Time for 1d FFTs only = %g secs" q /\ shows lines "  time/fft1d = %g secs" (q / inject_Z (number (loops o e) (o_mode o))) /\
    (~ f == 0 -> shows lines "  fraction of time in 1d FFTs = %g" (q / f))%Q;
  f_remaps : o_t o = true -> exists q f, took (e_clk e) log (times_ (loops o e) (o_mode o) PCompute) f /\ took (e_clk e) log (times_ (loops o e) (o_mode o) PRemaps) q /\
    shows lines "Time for remaps only = %g secs" q /\ (~ f == 0 -> shows lines "  fraction of time in remaps = %g" (q / f))%Q;
  f_ones : o_t o = true -> forall i, In i (nremaps dim3) -> exists q f, took (e_clk e) log (times_ (loops o e) (o_mode o) PCompute) f /\
    took (e_clk e) log (times_ (loops o e) (o_mode o) (fun f => POne f i)) q /\ shows lines (remap_title i) q /\ (~ f == 0 -> shows lines (fraction_title i) (q / f))%Q
}.

(** the tuning lines can be read, and the number of transforms is an int *)
Definition printable (dim3 : bool) (o : opts) (e : env) : Prop :=
  number (loops o e) (o_mode o) <= 2147483647 /\
  (o_tune o <> None -> let p := object o e in
    v_ntrial p <= zlen (v_cflags p) /\ v_ntrial p <= zlen (v_eflags p) /\ v_ntrial p <= zlen (v_pflags p) /\ Forall (fun v => v_ntrial p <= zlen v) (times_of dim3 p)).

(** ** proofs *)
Theorem c_is_cpp dim3 o e : main C dim3 o e = main Cpp dim3 o e.
Proof. destruct dim3; reflexivity. Qed.

(** *** the calls and the times *)
Definition parts_log (L : lang) (dim3 : bool) (mode n : Z) : list pevent :=
  PClear :: PBarrier :: loop mode n P1d ++ PBarrier :: PClear :: PBarrier :: loop mode n PRemaps ++ PBarrier :: PClear :: PBarrier ::
  List.concat (map (fun l => l ++ [PBarrier]) (one_remaps L dim3 mode n)).
Definition validates (L : lang) (o : opts) : bool := match L with Fortran => negb (o_v o) | _ => o_v o end.
Definition the_log (L : lang) (dim3 : bool) (o : opts) (e : env) : list pevent :=
  [PBarrier; PLayout; PCreate; PBarrier] ++ (if o_tune o then [PTune] else [PSetup]) ++ [PBarrier; PAlloc (e_esize e * 2 * snd (after_plan o e)); PInit; PBarrier] ++
  (if o_o o then [POutput 0] else []) ++ PBarrier :: loop (o_mode o) (loops o e) PCompute ++ PBarrier ::
  (if validates L o then [PValidate] else []) ++ (if o_o o then [POutput (if o_mode o <? 2 then 0 else 1)] else []) ++
  (if o_t o then parts_log L dim3 (o_mode o) (loops o e) else []).
Definition the_parts (dim3 : bool) (c : nat -> Q) : Q * Q * list Q :=
  (c 7%nat - c 6%nat, c 9%nat - c 8%nat, [c 11%nat - c 10%nat; c 12%nat - c 11%nat; c 13%nat - c 12%nat] ++ (if dim3 then [c 14%nat - c 13%nat] else []))%Q.
Definition the_times (dim3 : bool) (o : opts) (e : env) : times :=
  let c := e_clk e in
  mktimes (c 3%nat - c 0%nat) (if o_tune o then v_setuptime (object o e) else c 2%nat - c 1%nat) (if o_tune o then c 2%nat - c 1%nat else 0) (c 5%nat - c 4%nat)
    (if o_t o then Some (the_parts dim3 c) else None).

Ltac norm := repeat (rewrite <- ?app_assoc; cbn [app]).

Lemma run_eq L dim3 o e : exists k, run L dim3 o e (O, []) = ((object o e, snd (after_plan o e), loops o e, the_times dim3 o e), (k, the_log L dim3 o e)).
Proof.
  assert (match L with Cpp => settings_cpp o (e_new e) | _ => settings_c o (e_new e) end =
    with_six (v_scaled (e_new e)) (if o_r o then 1 else 0) (o_c o) (o_e o) (o_p o) (v_memoryflag (e_new e)) (e_new e)) as S by (destruct L; reflexivity).
  unfold run, plan, measure, mbind, evs, wtime, ret. rewrite S. unfold the_log, the_times, loops, object, after_plan. clear S.
  set (p0 := with_six _ _ _ _ _ _ _). destruct (o_tune o) as [tn|].
  - cbn [fst snd]. destruct (e_tune e p0) as [p sz]. cbn [fst snd].
    assert (match L with Cpp => v_npertrial p | _ => get_int dim3 p "npertrial" end = v_npertrial p) as N1 by (destruct L, dim3; reflexivity).
    assert (match L with Cpp => v_setuptime p | _ => fft_get_double p "setuptime" end = v_setuptime p) as N2 by (destruct L; reflexivity).
    rewrite N1, N2. unfold validates. destruct (o_t o).
    + unfold parts_log, the_parts, one_remaps. destruct dim3; eexists; cbn [fst snd measure_all mbind evs wtime ret map List.concat]; unfold mbind, evs, wtime, ret; cbn [fst snd app]; f_equal; f_equal; norm; reflexivity.
    + eexists. cbn [fst snd app]. f_equal. f_equal. norm. rewrite ?app_nil_r. reflexivity.
  - cbn [fst snd]. destruct (e_setup e p0) as [p sz]. cbn [fst snd]. unfold validates. destruct (o_t o).
    + unfold parts_log, the_parts, one_remaps. destruct dim3; eexists; cbn [fst snd measure_all mbind evs wtime ret map List.concat]; unfold mbind, evs, wtime, ret; cbn [fst snd app]; f_equal; f_equal; norm; reflexivity.
    + eexists. cbn [fst snd app]. f_equal. f_equal. norm. rewrite ?app_nil_r. reflexivity.
Qed.

(** *** the readings of the clock *)
Definition quiet (l : list pevent) : Prop := ~ In PBarrier l.
Lemma after_skip l t k : quiet l -> after_reading k (l ++ t) = after_reading k t.
Proof.
  induction l as [|a l IH]; intros Q; [reflexivity|]. cbn [app after_reading].
  destruct a; try (apply IH; intros I; apply Q; right; exact I). exfalso. apply Q. left. reflexivity.
Qed.
Lemma until_take l t : quiet l -> until_reading (l ++ PBarrier :: t) = Some l.
Proof.
  induction l as [|a l IH]; intros Q; [reflexivity|]. cbn [app until_reading].
  destruct a; try (rewrite IH; [reflexivity | intros I; apply Q; right; exact I]). exfalso. apply Q. left. reflexivity.
Qed.
Definition joined (segs : list (list pevent)) : list pevent := List.concat (map (fun s => s ++ [PBarrier]) segs).
Lemma took_joined clk segs t k calls : Forall quiet segs -> nth_error segs (S k) = Some calls -> took clk (joined segs ++ t) calls (clk (S k) - clk k).
Proof.
  intros Q N. exists k. split; [|reflexivity]. revert k N. induction Q as [|s segs Qs Q IH]; intros k N; [destruct k; discriminate|].
  unfold joined. cbn [map List.concat]. rewrite <- !app_assoc. fold (joined segs). rewrite after_skip by exact Qs. cbn [app after_reading].
  cbn [nth_error] in N. destruct k as [|k].
  - destruct segs as [|s' segs]; [discriminate|]. cbn in N. injection N as <-. unfold joined. cbn [map List.concat]. rewrite <- !app_assoc. cbn [app].
    apply until_take. inversion Q; assumption.
  - apply IH, N.
Qed.

Lemma loop_times mode n op : 0 <= mode -> loop mode n op = times_ n mode op.
Proof.
  intros M. unfold loop, times_. assert ((mode <? 2) = ((mode =? 0) || (mode =? 1))) as -> by (destruct (Z.ltb_spec mode 2), (Z.eqb_spec mode 0), (Z.eqb_spec mode 1); cbn; lia || reflexivity).
  generalize (Z.to_nat n) as k. intros k. generalize 0%nat as s. induction k as [|k IH]; intros s; [reflexivity|]. cbn [repeat List.concat seq flat_map]. rewrite (IH (S s)). reflexivity.
Qed.
Lemma loop_quiet mode n op : (forall f, op f <> PBarrier) -> quiet (loop mode n op).
Proof.
  intros H I. unfold loop in I. apply in_concat in I as (l & I & J). apply repeat_spec in I as ->.
  destruct (mode <? 2); cbn in J; [destruct J as [J|[J|[]]] | destruct J as [J|[]]]; exact (H _ J).
Qed.

Definition segs (dim3 : bool) (o : opts) (e : env) : list (list pevent) :=
  [[]; [PLayout; PCreate]; if o_tune o then [PTune] else [PSetup]; [PAlloc (e_esize e * 2 * snd (after_plan o e)); PInit];
   if o_o o then [POutput 0] else []; loop (o_mode o) (loops o e) PCompute].
Definition segs_t (L : lang) (dim3 : bool) (o : opts) (e : env) : list (list pevent) :=
  [(if validates L o then [PValidate] else []) ++ (if o_o o then [POutput (if o_mode o <? 2 then 0 else 1)] else []) ++ [PClear];
   loop (o_mode o) (loops o e) P1d; [PClear]; loop (o_mode o) (loops o e) PRemaps; [PClear]] ++ one_remaps L dim3 (o_mode o) (loops o e).
Lemma joined_app a b : joined (a ++ b) = joined a ++ joined b.
Proof. unfold joined. rewrite map_app, concat_app. reflexivity. Qed.
Lemma log_segs L dim3 o e : exists t, the_log L dim3 o e = joined (segs dim3 o e) ++ t /\ (o_t o = true -> t = joined (segs_t L dim3 o e)).
Proof.
  exists (if o_t o then joined (segs_t L dim3 o e) else (if validates L o then [PValidate] else []) ++ (if o_o o then [POutput (if o_mode o <? 2 then 0 else 1)] else [])).
  unfold the_log, parts_log, segs, segs_t. destruct (o_t o).
  - split; [|intros _; reflexivity]. rewrite joined_app. unfold joined. cbn [map List.concat]. norm. destruct (o_tune o), (validates L o), (o_o o); norm; reflexivity.
  - split; [|discriminate]. unfold joined. cbn [map List.concat]. norm. rewrite ?app_nil_r. destruct (o_tune o), (o_o o); norm; reflexivity.
Qed.
Lemma segs_quiet dim3 o e : Forall quiet (segs dim3 o e).
Proof.
  unfold segs. repeat constructor; unfold quiet; try (intros [|]; discriminate || contradiction).
  - intros [].
  - cbn. intuition discriminate.
  - destruct (o_tune o); cbn; intuition discriminate.
  - cbn. intuition discriminate.
  - destruct (o_o o); cbn; intuition discriminate.
  - apply loop_quiet. discriminate.
Qed.
Lemma segs_t_quiet L dim3 o e : L <> Fortran -> Forall quiet (segs_t L dim3 o e).
Proof.
  intros NF. unfold segs_t, one_remaps. apply Forall_app. split.
  - repeat constructor; try (apply loop_quiet; discriminate); unfold quiet; try (cbn; intuition discriminate).
    destruct (validates L o), (o_o o); cbn; intuition discriminate.
  - destruct dim3; [destruct L; try (exfalso; apply NF; reflexivity) |]; repeat constructor; apply loop_quiet; discriminate.
Qed.
Section Took.
  Context (L : lang) (dim3 : bool) (o : opts) (e : env) (NF : L <> Fortran) (M : 0 <= o_mode o).
  Let c := e_clk e.
  Let log := the_log L dim3 o e.
  Lemma took_seg k calls : nth_error (segs dim3 o e) (S k) = Some calls -> took (e_clk e) (the_log L dim3 o e) calls (e_clk e (S k) - e_clk e k).
  Proof. intros N. destruct (log_segs L dim3 o e) as (t & -> & _). apply took_joined; [apply segs_quiet | exact N]. Qed.
  Lemma took_seg_t k calls : o_t o = true -> nth_error (segs dim3 o e ++ segs_t L dim3 o e) (S k) = Some calls ->
    took (e_clk e) (the_log L dim3 o e) calls (e_clk e (S k) - e_clk e k).
  Proof.
    intros T N. destruct (log_segs L dim3 o e) as (t & -> & E). rewrite (E T), <- joined_app, <- (app_nil_r (joined _)).
    apply took_joined; [apply Forall_app; split; [apply segs_quiet | apply segs_t_quiet, NF] | exact N].
  Qed.
  Lemma took_layout : took (e_clk e) (the_log L dim3 o e) [PLayout; PCreate] (e_clk e 1 - e_clk e 0).
  Proof. apply took_seg. reflexivity. Qed.
  Lemma took_plan : took (e_clk e) (the_log L dim3 o e) (if o_tune o then [PTune] else [PSetup]) (e_clk e 2 - e_clk e 1).
  Proof. apply took_seg. reflexivity. Qed.
  Lemma took_init : took (e_clk e) (the_log L dim3 o e) [PAlloc (e_esize e * 2 * snd (after_plan o e)); PInit] (e_clk e 3 - e_clk e 2).
  Proof. apply took_seg. reflexivity. Qed.
  Lemma took_fft : took (e_clk e) (the_log L dim3 o e) (times_ (loops o e) (o_mode o) PCompute) (e_clk e 5 - e_clk e 4).
  Proof. apply took_seg. cbn. rewrite loop_times by exact M. reflexivity. Qed.
  Lemma took_1d : o_t o = true -> took (e_clk e) (the_log L dim3 o e) (times_ (loops o e) (o_mode o) P1d) (e_clk e 7 - e_clk e 6).
  Proof. intros T. apply took_seg_t; [exact T|]. cbn. rewrite loop_times by exact M. reflexivity. Qed.
  Lemma took_remaps : o_t o = true -> took (e_clk e) (the_log L dim3 o e) (times_ (loops o e) (o_mode o) PRemaps) (e_clk e 9 - e_clk e 8).
  Proof. intros T. apply took_seg_t; [exact T|]. cbn. rewrite loop_times by exact M. reflexivity. Qed.
  Lemma took_ones : o_t o = true -> forall i, In i (nremaps dim3) ->
    took (e_clk e) (the_log L dim3 o e) (times_ (loops o e) (o_mode o) (fun f => POne f i)) (e_clk e (S (Z.to_nat (9 + i))) - e_clk e (Z.to_nat (9 + i))).
  Proof.
    intros T i I. apply took_seg_t; [exact T|]. rewrite <- loop_times by exact M.
    unfold nremaps in I. destruct dim3; [destruct I as [<- |[<- |[<- |[<- |[]]]]]; destruct L; try reflexivity; exfalso; apply NF; reflexivity | destruct I as [<- |[<- |[<- |[]]]]; reflexivity].
  Qed.
End Took.

(** *** the lines about the trials *)
Lemma rmap_inv {A B} (f : A -> rres B) l r : rmap_ f l = ROk r -> Forall2 (fun a b => f a = ROk b) l r.
Proof.
  revert r. induction l as [|a l IH]; intros r H; cbn in H; [injection H as <-; constructor|]. fold (rmap_ f l) in H.
  destruct (f a) as [b| |] eqn:E; try discriminate. destruct (rmap_ f l) as [t| |]; try discriminate. injection H as <-. constructor; [exact E | apply IH; reflexivity].
Qed.
Lemma rmap_intro {A B} (f : A -> rres B) l r : Forall2 (fun a b => f a = ROk b) l r -> rmap_ f l = ROk r.
Proof. induction 1 as [|a b l r E _ IH]; [reflexivity|]. cbn. fold (rmap_ f l). rewrite E, IH. reflexivity. Qed.
Lemma rmap_all {A B} (f : A -> rres B) l : (forall a, In a l -> exists b, f a = ROk b) -> exists r, rmap_ f l = ROk r.
Proof.
  induction l as [|a l IH]; intros H; [eexists; reflexivity|]. destruct (H a (or_introl eq_refl)) as (b & E). destruct (IH (fun x I => H x (or_intror I))) as (r & R).
  exists (b :: r). cbn. fold (rmap_ f l). rewrite E, R. reflexivity.
Qed.
Lemma Forall2_nth {A B} (P : A -> B -> Prop) l r k a : Forall2 P l r -> nth_error l k = Some a -> exists b, nth_error r k = Some b /\ P a b.
Proof. intros F. revert k. induction F as [|x y l r H F IH]; intros [|k] N; try discriminate; cbn in *; [injection N as <-; eauto | apply IH, N]. Qed.
Lemma Forall2_imp_ {A B} (P Q : A -> B -> Prop) l r : (forall a b, P a b -> Q a b) -> Forall2 P l r -> Forall2 Q l r.
Proof. intros H F. induction F; constructor; auto. Qed.
Lemma nth_zrange n i : 0 <= i < n -> nth_error (zrange n) (Z.to_nat i) = Some i.
Proof.
  intros H. unfold zrange. assert (forall a k j, (j < k)%nat -> nth_error (zseq a k) j = Some (a + Z.of_nat j)) as G.
  { intros a k. revert a. induction k as [|k IH]; intros a [|j] J; try lia; cbn [zseq nth_error]; [f_equal; lia|]. rewrite IH by lia. f_equal. lia. }
  rewrite G by lia. f_equal. lia.
Qed.

Definition tuned_cpp (dim3 : bool) : pub -> rres (list line) := if dim3 then tuned_cpp3 else tuned_cpp2.
Definition row (dim3 : bool) (p : pub) (i : Z) (l : line) : Prop := exists c x k qs,
  zget (v_cflags p) i = Some c /\ zget (v_eflags p) i = Some x /\ zget (v_pflags p) i = Some k /\
  Forall2 (fun v q => zget v i = Some q) (times_of dim3 p) qs /\ l = (trial_title dim3, map VI [c; x; k] ++ map (fun q => VD (Some q)) qs).
Ltac one_get := match goal with |- context [ropt (zget ?v ?i)] => let E := fresh "E" in destruct (zget v i) eqn:E; cbn [ropt rbind]; [|try discriminate] end.
Lemma tuned_inv dim3 p l : tuned_cpp dim3 p = ROk l ->
  exists rows, l = ("Tuning trials & iterations: %d %d"%string, map VI [v_ntrial p; v_npertrial p]) :: rows /\
    Forall2 (row dim3 p) (zrange (v_ntrial p)) rows.
Proof.
  unfold tuned_cpp. destruct dim3; unfold tuned_cpp3, tuned_cpp2; match goal with |- rbind ?m _ = _ -> _ => destruct m as [rows| |] eqn:E end; try discriminate;
    cbn [rbind]; intros H; injection H as <-; exists rows; (split; [reflexivity|]); apply rmap_inv in E; (eapply Forall2_imp_; [|exact E]); intros i r.
  - cbn [rmap_ fold_right]. unfold rd. repeat one_get. cbn [rbind]. intros H. injection H as <-. do 4 eexists. do 3 (split; [eassumption|]).
    split; [cbn; repeat constructor; eassumption | reflexivity].
  - cbn [rmap_ fold_right]. unfold rd. repeat one_get. cbn [rbind]. intros H. injection H as <-. do 4 eexists. do 3 (split; [eassumption|]).
    split; [cbn; repeat constructor; eassumption | reflexivity].
Qed.
Definition vectors (dim3 : bool) (p : pub) : Prop :=
  v_ntrial p <= zlen (v_cflags p) /\ v_ntrial p <= zlen (v_eflags p) /\ v_ntrial p <= zlen (v_pflags p) /\ Forall (fun v => v_ntrial p <= zlen v) (times_of dim3 p).
Lemma tuned_all dim3 p : vectors dim3 p -> exists l, tuned_cpp dim3 p = ROk l.
Proof.
  intros (A & B & C & D). unfold tuned_cpp, times_of in *. destruct dim3; unfold tuned_cpp3, tuned_cpp2; cbn [app] in D;
    repeat (match goal with H : Forall _ (_ :: _) |- _ => apply Forall_cons_iff in H as [? H] end); match goal with |- exists l, rbind ?m _ = _ => assert (exists r, m = ROk r) as (r & ->); [|eexists; reflexivity] end;
    apply rmap_all; intros i I; apply In_zrange in I; cbn [rmap_ fold_right]; unfold rd;
    repeat (match goal with |- context [ropt (zget ?v ?j)] => let x := fresh "x" in let E := fresh "E" in destruct (zget_Some v j ltac:(lia)) as (x & E); rewrite E; clear E; cbn [ropt rbind] end);
    eexists; reflexivity.
Qed.
Lemma row_titles dim3 p is rows : Forall2 (row dim3 p) is rows -> map fst rows = repeat (trial_title dim3) (length is).
Proof. induction 1 as [|i l is rows R _ IH]; [reflexivity|]. destruct R as (c & x & k & qs & _ & _ & _ & _ & ->). cbn [map fst length repeat]. f_equal. exact IH. Qed.
Lemma zrange_length n : length (zrange n) = Z.to_nat n.
Proof. unfold zrange. apply zseq_length. Qed.
Lemma filter_none (t : string) (l : list line) : forallb (fun s => negb (s =? t)%string) (map fst l) = true -> filter (fun x => (fst x =? t)%string) l = [].
Proof.
  induction l as [|a l IH]; intros H; [reflexivity|]. cbn [map forallb] in H. apply andb_prop in H as [H1 H2]. cbn [filter]. apply negb_true_iff in H1. rewrite H1. apply IH, H2.
Qed.
Lemma filter_rows dim3 p is rows : Forall2 (row dim3 p) is rows -> filter (fun x : line => (fst x =? trial_title dim3)%string) rows = rows.
Proof. induction 1 as [|i l is rows R _ IH]; [reflexivity|]. destruct R as (c & x & k & qs & _ & _ & _ & _ & ->). cbn [filter fst]. rewrite String.eqb_refl, IH. reflexivity. Qed.

(** *** the report of the C++ programs *)
Definition head_lines (dim3 : bool) (o : opts) (e : env) : list line :=
  let p := object o e in
  if dim3 then
    [("3d FFTs with %s library, precision = %s", [VS (Some (v_fft1d p)); VS (Some (v_precision p))]);
     ("Grid size: %d %d %d", ints (o_g o));
     ("  initial proc grid: %d %d %d", ints (e_inp e));
     ("  x pencil proc grid: %d %d %d", ints [v_npfast1 p; v_npfast2 p; v_npfast3 p]);
     ("  y pencil proc grid: %d %d %d", ints [v_npmid1 p; v_npmid2 p; v_npmid3 p]);
     ("  z pencil proc grid: %d %d %d", ints [v_npslow1 p; v_npslow2 p; v_npslow3 p]);
     ("  3d brick proc grid: %d %d %d", ints [v_npbrick1 p; v_npbrick2 p; v_npbrick3 p]);
     ("  final proc grid: %d %d %d", ints (e_outp e))]%string
  else
    [("2d FFTs with %s library, precision = %s", [VS (Some (v_fft1d p)); VS (Some (v_precision p))]);
     ("Grid size: %d %d", ints (o_g o));
     ("  initial proc grid: %d %d", ints (e_inp e));
     ("  x pencil proc grid: %d %d", ints [v_npfast1 p; v_npfast2 p]);
     ("  y pencil proc grid: %d %d", ints [v_npslow1 p; v_npslow2 p]);
     ("  2d brick proc grid: %d %d", ints [v_npbrick1 p; v_npbrick2 p]);
     ("  final proc grid: %d %d", ints (e_outp e))]%string.
Definition tail_lines (dim3 : bool) (o : opts) (e : env) (nfft : Z) : list line :=
  let p := object o e in let m := the_times dim3 o e in
  let one := onetime nfft (m_fft m) in
  ffts_line (o_mode o) (loops o e) (e_nprocs e) ++
    [("Collective, exchange, pack methods: %d %d %d", ints [v_collective p; v_exchange p; v_packflag p]);
     ("Memory usage (per-proc) for FFT grid = %g MBytes", [d (megabytes (e_esize e * 2 * snd (after_plan o e)))]);
     ("Memory usage (per-proc) by fftMPI = %g MBytes", [d (megabytes (v_memusage p))])]%string ++
    (if o_v o then [("Max error = %g"%string, [d (e_eps e)])] else []) ++
    [("Initialize grid = %g secs"%string, [d (match o_tune o with None => m_init m - m_setup m | Some _ => m_init m - m_tune m end)%Q]);
     ("FFT setup = %g secs"%string, [d (m_setup m)]);
     ("FFT tune = %g secs"%string, [d (m_tune m)]);
     ((if dim3 then "Time for 3d FFTs = %g secs" else "Time for 2d FFTs = %g secs")%string, [d (m_fft m)]);
     ((if dim3 then "  time/fft3d = %g secs" else "  time/fft2d = %g secs")%string, [VD one]);
     ((if dim3 then "  flop rate for 3d FFTs = %g Gflops" else "  flop rate for 2d FFTs = %g Gflops")%string, [VD (floprate (e_lg e) (product (o_g o)) one)])] ++
    part_lines "#" nfft (m_fft m) (m_parts m).

Lemma main_cpp dim3 o e : main Cpp dim3 o e =
  rbind (rbind (nfft_of (o_mode o) (loops o e)) (fun nfft =>
    if negb (e_me e =? 0) then ROk [] else
    rbind (match o_tune o with Some _ => tuned_cpp dim3 (object o e) | None => ROk [] end) (fun tuned =>
    ROk (head_lines dim3 o e ++ tuned ++ tail_lines dim3 o e nfft)))) (fun l => ROk (l, the_log Cpp dim3 o e)).
Proof. unfold main. destruct (run_eq Cpp dim3 o e) as (k & ->). unfold report. destruct dim3; reflexivity. Qed.
