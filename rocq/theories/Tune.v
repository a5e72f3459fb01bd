(** Tune.v : model of FFT3d::tune / tune_trial (src/fft3d.cpp:731-1101) and FFT2d::tune / tune_trial
    (src/fft2d.cpp:684-1040), one rank.  The two functions are the same text except for the arguments of setup()
    and the number of remaps timed (4 or 3); [dim3] selects.

    Times are exact rationals; [clk k] is the value of the k-th MPI_Wtime() call of this rank and is arbitrary.
    A division by a zero time, or a time that does not fit an int, makes static_cast<int> undefined: [LUB].
    Every MPI_Wtime() of tune() and tune_trial() directly follows an MPI_Barrier().  MPI_Bcast: [root = None] on rank 0, [Some (timesetup, timefft)] of rank 0 elsewhere. *)

From Coq Require Import QArith.
From Verif Require Import Base Setup3d Life.
Open Scope Z_scope.

(** what this rank does, in order: the calls that communicate with other ranks *)
Inductive tevent :=
  | TBarrier | TBcast
  | TSetup (s : settings) | TCompute (flag : Z) | TOnly1d (flag : Z) | TOnlyRemaps (flag : Z) | TOneRemap (flag which : Z).

Record tst := mktst { t_heap : heap; t_tick : nat; t_log : list tevent }.
Definition TM (X : Type) : Type := tst -> lres (X * tst).
Definition tret {X} (x : X) : TM X := fun s => LOk (x, s).
Definition tbind {X Y} (m : TM X) (k : X -> TM Y) : TM Y :=
  fun s => match m s with LHalt e => LHalt e | LUB => LUB | LOk (x, s') => k x s' end.
Definition tub {X} : TM X := fun _ => LUB.
Definition tfail {X} (msg : string) : TM X := fun _ => LHalt msg.
Definition tlift {X} (m : LM X) : TM X := fun s =>
  match m (t_heap s) with LHalt e => LHalt e | LUB => LUB | LOk (x, h) => LOk (x, mktst h (t_tick s) (t_log s)) end.
Definition tlog (e : tevent) : TM unit := fun s => LOk (tt, mktst (t_heap s) (t_tick s) (t_log s ++ [e])).
Definition topt {X} (o : option X) : TM X := match o with Some x => tret x | None => tub end.

Declare Scope tune_scope.
Delimit Scope tune_scope with tune.
Notation "x <== e ;; k" := (tbind e (fun x => k)) (at level 100, e at next level, right associativity) : tune_scope.
Notation "e ;;> k" := (tbind e (fun _ => k)) (at level 100, right associativity) : tune_scope.

(** tuning results, fft3d.h:38-48, fft2d.h:36-44.  Values a constructor leaves unset are arbitrary. *)
Record tobj := mktobj {
  n_trial : Z; n_per : Z; n_cbest : Z; n_ebest : Z; n_pbest : Z;
  n_cflags : list Z; n_eflags : list Z; n_pflags : list Z;
  n_besttime : Q; n_setuptime : Q;
  n_tfft : list Q; n_t1d : list Q; n_tremap : list Q; n_tremaps : list (list Q) }.

Definition int_ok (z : Z) : bool := (-2147483648 <=? z) && (z <=? 2147483647).

(** static_cast<int>(q): truncation towards zero, undefined outside the range of int *)
Definition qtrunc (q : Q) : Z := Z.quot (Qnum q) (Zpos (Qden q)).
Definition cast_int (q : Q) : option Z := let z := qtrunc q in if int_ok z then Some z else None.
Definition qdiv (a b : Q) : option Q := if Qeq_bool b 0 then None else Some (a / b)%Q.
Definition qlt (a b : Q) : bool := negb (Qle_bool b a).
Definition BIG : Q := inject_Z (10 ^ 20).   (* fft3d.cpp:48, fft2d.cpp:48 *)

(** for (i = 0; i < k; i++) body *)
Fixpoint times_ (k : nat) (m : TM unit) : TM unit :=
  match k with O => tret tt | S k => tbind m (fun _ => times_ k m) end.

Section Tune.
Variable strict : bool.
Variable esize plsize rqsize ptsize nprocs xsize : Z.
Variable dim3 : bool.
Variable setup_fn : settings -> sres shape.   (* validation and layout for the arguments given to tune() *)
Variable clk : nat -> Q.
Open Scope tune_scope.

(** MPI_Barrier(world); MPI_Wtime() *)
Definition wtime : TM Q := fun s => LOk (clk (t_tick s), mktst (t_heap s) (S (t_tick s)) (t_log s ++ [TBarrier])).

(** the data array must hold fftsize complex values for every call of a trial *)
Definition with_data (o : fobj) (data : ptr) (m : LM unit) : TM unit :=
  tlift (lbind m (fun _ => use_buf esize (2 * fst (fst (o_sizes o))) data)).

Definition t_compute o data flag := tlog (TCompute flag) ;;> with_data o data (compute_life esize o).
Definition t_only1d o data flag := tlog (TOnly1d flag) ;;> with_data o data (only1d_life o).
Definition t_onlyremaps o data flag := tlog (TOnlyRemaps flag) ;;> with_data o data (onlyremaps_life esize o).
Definition t_oneremap o data flag which := tlog (TOneRemap flag which) ;;> with_data o data (oneremap_life esize o).

(** [if (flag) for (i..nper) f(flag) else for (i..nper) { f(FORWARD); f(BACKWARD) }] *)
Definition both (nper flag : Z) (f : Z -> TM unit) : TM unit :=
  if flag =? 0 then times_ (Z.to_nat nper) (f 1 ;;> f (-1)) else times_ (Z.to_nat nper) (f flag).

(** the which loop of tune_trial, fft3d.cpp:1075-1096, fft2d.cpp:1016-1036 *)
Fixpoint time_remaps (o : fobj) (data : ptr) (nper flag : Z) (whichs : list Z) (time2 : Q) : TM (list Q) :=
  match whichs with
  | [] => tret []
  | w :: ws =>
    both nper flag (fun f => t_oneremap o data f w) ;;>
    time1 <== wtime ;;
    rest <== time_remaps o data nper flag ws time1 ;;
    tret ((time1 - time2)%Q :: rest)
  end.

Definition whichs : list Z := if dim3 then [1; 2; 3; 4] else [1; 2; 3].

(** tune_trial, fft3d.cpp:1026-1101, fft2d.cpp:968-1040; result time3d, time1d, timeremap, timeremap1.. *)
Definition tune_trial (o : fobj) (data : ptr) (nper flag tflag : Z) : TM (Q * Q * Q * list Q) :=
  time1 <== wtime ;;
  both nper flag (t_compute o data) ;;>
  time2 <== wtime ;;
  let time3d := (time2 - time1)%Q in
  if tflag =? 0 then tret (time3d, 0%Q, 0%Q, map (fun _ => 0%Q) whichs)
  else
    both nper flag (t_only1d o data) ;;>
    time1 <== wtime ;;
    let time1d := (time1 - time2)%Q in
    both nper flag (t_onlyremaps o data) ;;>
    time2 <== wtime ;;
    let timeremap := (time2 - time1)%Q in
    rs <== time_remaps o data nper flag whichs time2 ;;
    tret (time3d, time1d, timeremap, rs).

(** write entry i of each of the per-remap vectors *)
Fixpoint set_all (ls : list (list Q)) (i : Z) (vs : list Q) : option (list (list Q)) :=
  match ls, vs with
  | [], _ => Some []
  | l :: ls, v :: vs => l' <- zset l i v; ls' <- set_all ls i vs; Some (l' :: ls')
  | _ :: _, [] => None
  end.

Definition record_times (i : Z) (r : Q * Q * Q * list Q) (n : tobj) : option tobj :=
  let '(t3, t1, tr, trs) := r in
  a <- zset (n_tfft n) i t3; b <- zset (n_t1d n) i t1; c <- zset (n_tremap n) i tr; d <- set_all (n_tremaps n) i trs;
  Some (mktobj (n_trial n) (n_per n) (n_cbest n) (n_ebest n) (n_pbest n) (n_cflags n) (n_eflags n) (n_pflags n)
          (n_besttime n) (n_setuptime n) a b c d).

Definition record_flags (i : Z) (s : settings) (n : tobj) : option tobj :=
  a <- zset (n_cflags n) i (st_coll s); b <- zset (n_eflags n) i (st_exch s); c <- zset (n_pflags n) i (st_pack s);
  Some (mktobj (n_trial n) (n_per n) (n_cbest n) (n_ebest n) (n_pbest n) a b c
          (n_besttime n) (n_setuptime n) (n_tfft n) (n_t1d n) (n_tremap n) (n_tremaps n)).

Definition set_trial (k : Z) (n : tobj) : tobj :=
  mktobj k (n_per n) (n_cbest n) (n_ebest n) (n_pbest n) (n_cflags n) (n_eflags n) (n_pflags n)
    (n_besttime n) (n_setuptime n) (n_tfft n) (n_t1d n) (n_tremap n) (n_tremaps n).
Definition set_best (b : Q) (c e p : Z) (n : tobj) : tobj :=
  mktobj (n_trial n) (n_per n) c e p (n_cflags n) (n_eflags n) (n_pflags n)
    b (n_setuptime n) (n_tfft n) (n_t1d n) (n_tremap n) (n_tremaps n).

(** setting the public variables of the FFT object *)
Definition with_settings (s : settings) (mf : Z) (o : fobj) : fobj :=
  mkfobj (o_mem o) (o_err o) (o_primes o) (o_factors o) s mf (o_setup o) (o_smem o) (o_dims o)
    (o_remaps o) (o_ffts o) (o_send o) (o_recv o) (o_sizes o) (o_usage o).

Definition t_setup (o : fobj) : TM fobj :=
  tlog (TSetup (o_set o)) ;;>
  tlift (setup_fobj strict esize plsize rqsize ptsize nprocs xsize dim3 (setup_fn (o_set o)) o).

(** the local data array: [data] and [maxfftsize] *)
Definition dbuf : Type := (ptr * Z)%type.

(** fft3d.cpp:776-781, 889-894, 934-939 *)
Definition grow (o : fobj) (d : dbuf) : TM dbuf :=
  let '(data, maxfft) := d in
  let fftsize := fst (fst (o_sizes o)) in
  if maxfft <? fftsize then
    (* srealloc, memory.cpp:68-92 *)
    tlift (free data) ;;>
    data <== tlift (smalloc (o_mem o) (fftsize * 2 * esize)) ;;
    tret (data, fftsize)
  else tret d.

(** [deallocate_setup(); if (memoryflag) deallocate_setup_memory();] *)
Definition t_dealloc (o : fobj) : TM fobj :=
  o <== tlift (dealloc_setup strict dim3 o) ;;
  if o_memflag o =? 0 then tret o else tlift (dealloc_memory strict o).

(** the tuning state: FFT object, results, data *)
Definition tun : Type := (fobj * tobj * dbuf)%type.

(** body of the two trial loops: flags, setup, grow, trial, deallocate; fft3d.cpp:880-903, 925-948.
    The comparison with besttime and ntrial++ follow in the callers. *)
Definition one_trial (s : settings) (niter flag tflag : Z) (st : tun) : TM tun :=
  let '(o, n, d) := st in
  n <== topt (record_flags (n_trial n) s n) ;;
  o <== t_setup (with_settings s 1 o) ;;
  d <== grow o d ;;
  r <== tune_trial o (fst d) niter flag tflag ;;
  n <== topt (record_times (n_trial n) r n) ;;
  o <== t_dealloc o ;;
  tret (o, n, d).

Definition pdefault : Z := 2.
Definition edefault : Z := 0.
Definition cdefault : Z := 2.

(** fft3d.cpp:875-913: collective/exchange trials *)
Fixpoint ce_loop (ces : list (Z * Z)) (niter flag tflag : Z) (st : tun) : TM tun :=
  match ces with
  | [] => tret st
  | (c, e) :: t =>
    st <== one_trial (mkset c e pdefault) niter flag tflag st ;;
    let '(o, n, d) := st in
    cur <== topt (zget (n_tfft n) (n_trial n)) ;;
    let n := if qlt cur (n_besttime n) then set_best cur c e (n_pbest n) n else n in
    ce_loop t niter flag tflag (o, set_trial (n_trial n + 1) n, d)
  end.

(** fft3d.cpp:920-957: packflag trials *)
Fixpoint p_loop (ps : list Z) (niter flag tflag : Z) (st : tun) : TM tun :=
  match ps with
  | [] => tret st
  | p :: t =>
    let '(_, n0, _) := st in
    st <== one_trial (mkset (n_cbest n0) (n_ebest n0) p) niter flag tflag st ;;
    let '(o, n, d) := st in
    cur <== topt (zget (n_tfft n) (n_trial n)) ;;
    let n := if qlt cur (n_besttime n) then set_best cur (n_cbest n) (n_ebest n) p n else n in
    p_loop t niter flag tflag (o, set_trial (n_trial n + 1) n, d)
  end.

(** [for (cflag = cstart; cflag < cstop; ...) for (eflag = estart; eflag < estop; ...)] *)
Fixpoint pairs_of (cs es : list Z) : list (Z * Z) :=
  match cs with [] => [] | c :: t => map (fun e => (c, e)) es ++ pairs_of t es end.

(** ** how many runs fit in tmax, fft3d.cpp:803-827: result niter, tflag, nruns; None = undefined *)
Definition budget (tmax timesetup timefft : Q) (niter tflag : Z) : option (Z * Z * Z) :=
  if negb (tflag =? 0) && negb (int_ok (3 * niter)) then None else
  let per := if tflag =? 0 then niter else 3 * niter in
  let timetotal := (10 * (timesetup + inject_Z per * timefft))%Q in
  if qlt 0 tmax && qlt tmax timetotal then
    q <- qdiv (tmax / 10 - timesetup)%Q timefft;
    niter <- cast_int (if tflag =? 0 then q else (q / 3)%Q);
    if niter <=? 0 then
      niter <- cast_int q;
      if niter <=? 0 then
        q <- qdiv tmax (timesetup + timefft)%Q;
        nruns <- cast_int q;
        Some (1, 0, nruns)
      else Some (niter, 0, 10)
    else Some (niter, tflag, 10)
  else Some (niter, tflag, 10).

Definition default_set (s : settings) : bool := (st_coll s =? cdefault) && (st_exch s =? edefault) && (st_pack s =? pdefault).

(** which trials are made, fft3d.cpp:831-898: first trial index, collective/exchange pairs, pack values *)
Definition schedule (nruns : Z) (cur : settings) : Z * list (Z * Z) * list Z :=
  if 9 <=? nruns - 1 then (0, pairs_of [0; 1; 2] [0; 1], [0; 1; 2])
  else if 6 <=? nruns - 1 then (0, pairs_of [0; 1; 2] [0; 1], [])
  else if 3 <=? nruns - 1 then (0, pairs_of [0; 1; 2] [edefault], [])
  else if nruns - 1 =? 2 then (0, pairs_of [1; 2] [edefault], [])
  else if (nruns - 1 =? 1) && negb (default_set cur) then (1, pairs_of [cdefault] [edefault], [])
  else (1, [], []).

Definition scale_list (k : Z) (s : Q) (l : list Q) : list Q := map (fun x => (x * s)%Q) (firstn (Z.to_nat k) l) ++ skipn (Z.to_nat k) l.

(** fft3d.cpp:961-976 *)
Definition scale_times (niter flag : Z) (n : tobj) : tobj :=
  let s := (1 / inject_Z niter)%Q in
  let s := if flag =? 0 then (s * (1 # 2))%Q else s in
  let k := n_trial n in
  mktobj k niter (n_cbest n) (n_ebest n) (n_pbest n) (n_cflags n) (n_eflags n) (n_pflags n)
    (n_besttime n * s)%Q (n_setuptime n) (scale_list k s (n_tfft n)) (scale_list k s (n_t1d n))
    (scale_list k s (n_tremap n)) (map (scale_list k s) (n_tremaps n)).

Definition set_setuptime (q : Q) (n : tobj) : tobj :=
  mktobj (n_trial n) (n_per n) (n_cbest n) (n_ebest n) (n_pbest n) (n_cflags n) (n_eflags n) (n_pflags n)
    (n_besttime n) q (n_tfft n) (n_t1d n) (n_tremap n) (n_tremaps n).

(** tune, fft3d.cpp:731-1013, fft2d.cpp:684-955 *)
Definition tune (root : option (Q * Q)) (flag niter : Z) (tmax : Q) (tflag : Z) (o : fobj) (n : tobj) : TM (fobj * tobj) :=
  if o_setup o then tfail "FFT is already setup"
  else if (flag <? -1) || (1 <? flag) then tfail "Invalid flag arg for FFT tune"
  else if (niter <=? 0) || qlt tmax 0 then tfail "Invalid niter/tmax args for FFT tune"
  else if (tflag <? 0) || (1 <? tflag) then tfail "Invalid tflag arg for FFT tune"
  else
  let user_memoryflag := o_memflag o in
  let cur := o_set o in
  (* initial setup and single iteration, 756-797 *)
  time1 <== wtime ;;
  o <== t_setup (with_settings cur 1 o) ;;
  time2 <== wtime ;;
  let timesetup := (time2 - time1)%Q in
  d <== grow o (PNull, 0) ;;
  let n := set_trial 0 n in
  r <== tune_trial o (fst d) 1 flag 0 ;;
  n <== topt (record_times 0 r n) ;;
  timefft <== topt (zget (n_tfft n) 0) ;;
  n <== topt (record_flags 0 cur n) ;;
  o <== t_dealloc o ;;
  (* MPI_Bcast from rank 0, 794-795 *)
  tlog TBcast ;;> tlog TBcast ;;>
  let '(timesetup, timefft) := match root with None => (timesetup, timefft) | Some p => p end in
  b <== topt (budget tmax timesetup timefft niter tflag) ;;
  let '(niter, tflag, nruns) := b in
  let '(first, ces, ps) := schedule nruns cur in
  let n := set_trial first n in
  st <== (match ces with
         | [] =>
           (* initial run is all there is time to perform, 891-898 *)
           n <== topt (record_flags 0 cur n) ;;
           tret (o, set_best timefft (st_coll cur) (st_exch cur) (st_pack cur) n, d)
         | _ =>
           let n := match ps with [] => set_best (n_besttime n) (n_cbest n) (n_ebest n) pdefault n | _ => n end in
           let n := set_best BIG (n_cbest n) (n_ebest n) (n_pbest n) n in
           st <== ce_loop ces niter flag tflag (o, n, d) ;;
           let '(o, n, d) := st in
           match ps with
           | [] => tret (o, n, d)
           | _ => p_loop ps niter flag tflag (o, set_best BIG (n_cbest n) (n_ebest n) (n_pbest n) n, d)
           end
         end) ;;
  let '(o, n, d) := st in
  let n := scale_times niter flag n in
  tlift (sfree strict (o_mem o) (fst d)) ;;>
  let o := with_settings (mkset (n_cbest n) (n_ebest n) (n_pbest n)) user_memoryflag o in
  time1 <== wtime ;;
  o <== t_setup o ;;
  time2 <== wtime ;;
  tret (o, set_setuptime (time2 - time1)%Q n).

End Tune.
