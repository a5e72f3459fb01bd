(** Backend.v : the four alternatives for the 1d transforms, chosen when the library
    is compiled (src/ffttype.h:37-125): MKL, FFTW2, FFTW3 and KISS.

    setup_ffts, perform_ffts, scale_ffts and deallocate_ffts of FFT3d
    (src/fft3d.cpp:1457-1708) and of FFT2d (src/fft2d.cpp:1302-1502), and compute and
    only_1d_ffts on top of them.

    MKL, FFTW2 and FFTW3 are not part of the repository.  Each library call is
    modelled by what the library's manual promises for its arguments; a call outside
    the promise is undefined ([None]).  [T inv n x k] is value [k] of the transform of
    length [n] of [x] that the library computes (not rounded).  Not modelled: the
    alignment of the arrays (an FFTW3 plan is made for NULL arrays and run on the
    caller's), the ignored status values of the DFTI calls, malloc failures. *)

From Verif Require Import Base Spec Pack3d Sched Remap Remap3d RemapThms RemapTop Layout Setup3d Kiss KissPure Fft1d Fft3d
  Pack2d Remap2d Setup2d Fft2d.

Inductive backend := MKL | FFTW2 | FFTW3 | KISS.

(** ** Batches as the libraries define them *)

(** [m_cnt] transforms of length [m_len]; element [i] of line [l] is read at
    [l * m_id + i * m_is] and written at [l * m_od + i * m_os]
    (fftw_plan_many_dft: howmany, istride, idist, ostride, odist) *)
Record many := mkmany { m_len : Z; m_cnt : Z; m_is : Z; m_id : Z; m_os : Z; m_od : Z; m_inv : bool }.

(** arguments for which the result in place is specified: contiguous lines which do
    not overlap, read and written at the same places *)
Definition many_ok (c : many) : bool :=
  (1 <=? m_len c) && (0 <=? m_cnt c) && (m_is c =? 1) && (m_os c =? 1) && (m_id c =? m_od c) && (m_len c <=? m_id c).

Section Backend.
Context {F : Type} (O : sops F).
Local Notation C := (@cpx F).
Variable cexp : bool -> Z -> Z -> C.                       (* exp(+- 2 pi i a/n), see Kiss.v *)
Variable T : bool -> Z -> (Z -> C) -> Z -> C.
Variable rnorm : Z -> F.

(** one line of length [len] at [o], in place *)
Definition lib_line (inv : bool) (len o : Z) (data : list C) : option (list C) :=
  if (0 <=? o) && (o + len <=? zlen data) then
    let x := fun i => match zget data (o + i) with Some v => v | None => czero O end in
    cwrite data o (map (T inv len x) (zrange len))
  else None.

Definition run_many (c : many) (data : list C) : option (list C) :=
  if many_ok c then for_ (m_cnt c) (fun l data => lib_line (m_inv c) (m_len c) (l * m_id c) data) data else None.

(** ** Plans *)

(** a DFTI descriptor: length, DFTI_NUMBER_OF_TRANSFORMS, DFTI_PLACEMENT =
    DFTI_INPLACE, DFTI_INPUT_DISTANCE, DFTI_OUTPUT_DISTANCE, committed *)
Record dfti := mkdfti { d_len : Z; d_num : Z; d_inpl : bool; d_id : Z; d_od : Z; d_com : bool }.

Inductive plan1 :=
| PMkl (d : dfti)
| PFftw2 (len : Z) (inv : bool)
| PFftw3 (c : many)
| PKiss (st : @cfg F).

(** the plans of one rank; a destroyed plan leaves [None] *)
Definition table := list (option plan1).
Definition PM A := table -> option (A * table).
Definition pret {A} (a : A) : PM A := fun t => Some (a, t).
Definition pbind {A B} (m : PM A) (k : A -> PM B) : PM B := fun t => '(a, t') <- m t; k a t'.
Local Notation "a <~ m ; k" := (pbind m (fun a => k)) (at level 61, m at next level, right associativity).
Definition pnew (p : plan1) : PM nat := fun t => Some (length t, t ++ [Some p]).
Definition pget (h : nat) (t : table) : option plan1 := match nth_error t h with Some (Some p) => Some p | _ => None end.
Definition pput (h : nat) (p : option plan1) : PM unit := fun t =>
  _ <- pget h t; Some (tt, firstn h t ++ p :: skipn (S h) t).

(** DftiCreateDescriptor(&handle, prec, DFTI_COMPLEX, 1, len); defaults of the manual:
    one transform, in place, distances 0 *)
Definition dfti_create (len : Z) : PM nat := pnew (PMkl (mkdfti len 1 true 0 0 false)).
Definition dfti_set (h : nat) (g : dfti -> option dfti) : PM unit := fun t =>
  p <- pget h t;
  match p with PMkl d => d' <- g d; pput h (Some (PMkl d')) t | _ => None end.
Definition set_num (v : Z) (d : dfti) := Some (mkdfti (d_len d) v (d_inpl d) (d_id d) (d_od d) false).
Definition set_inpl (v : bool) (d : dfti) := Some (mkdfti (d_len d) (d_num d) v (d_id d) (d_od d) false).
Definition set_id (v : Z) (d : dfti) := Some (mkdfti (d_len d) (d_num d) (d_inpl d) v (d_od d) false).
Definition set_od (v : Z) (d : dfti) := Some (mkdfti (d_len d) (d_num d) (d_inpl d) (d_id d) v false).
Definition commit (d : dfti) := Some (mkdfti (d_len d) (d_num d) (d_inpl d) (d_id d) (d_od d) true).

(** FFT1d, src/fft3d.h:119-148 (src/fft2d.h likewise); for MKL both plans are the handle *)
Record fft1 := mkfft1 { q_len : Z; q_n : Z; q_total : Z; q_fwd : nat; q_bwd : nat }.
(** length, n, total before setup_ffts, src/fft3d.cpp:447-457, src/fft2d.cpp:420-426 *)
Definition unset (len n : Z) : fft1 := mkfft1 len n (n * len) 0 0.
Definition with_plans (q : fft1) (pl : nat * nat) : fft1 := mkfft1 (q_len q) (q_n q) (q_total q) (fst pl) (snd pl).

(** the six calls made for each of fft_fast, fft_mid, fft_slow:
    src/fft3d.cpp:1463-1470, 1472-1479, 1481-1488, src/fft2d.cpp:1308-1315, 1317-1324 *)
Definition mkl_setup (len : Z) (q : fft1) : PM (nat * nat) :=
  h <~ dfti_create len;
  _ <~ dfti_set h (set_num (Z.quot (q_total q) len));
  _ <~ dfti_set h (set_inpl true);
  _ <~ dfti_set h (set_id len);
  _ <~ dfti_set h (set_od len);
  _ <~ dfti_set h commit;
  pret (h, h).

(** two fftw_create_plan(len, dir, FFTW_ESTIMATE | FFTW_IN_PLACE): src/fft3d.cpp:1520-1523 *)
Definition fftw2_plans (len : Z) : PM (nat * nat) :=
  a <~ pnew (PFftw2 len false); b <~ pnew (PFftw2 len true); pret (a, b).
(** two plan_many_dft(1,&len,n,NULL,&len,1,len,NULL,&len,1,len,dir,FFTW_ESTIMATE):
    src/fft3d.cpp:1588-1594 *)
Definition fftw3_plans (len n : Z) : PM (nat * nat) :=
  a <~ pnew (PFftw3 (mkmany len n 1 len 1 len false));
  b <~ pnew (PFftw3 (mkmany len n 1 len 1 len true)); pret (a, b).
(** two kiss_fft_alloc: src/fft3d.cpp:1647-1648 *)
Definition kiss_plans (len : Z) : PM (nat * nat) := fun t =>
  f <- kiss_fft_alloc cexp len false; b <- kiss_fft_alloc cexp len true;
  (x <~ pnew (PKiss f); y <~ pnew (PKiss b); pret (x, y)) t.

(** setup_ffts for one rank: src/fft3d.cpp:1459-1489 (MKL), 1516-1547 (FFTW2),
    1584-1609 (FFTW3), 1643-1668 (KISS); [nf nm ns]: the rank's numbers of lines *)
Definition lib_setup3 (B : backend) (N : Z * Z * Z) (nf nm ns : Z) : PM (fft1 * fft1 * fft1) :=
  let '(nfast, nmid, nslow) := N in
  let qf := unset nfast nf in let qm := unset nmid nm in let qs := unset nslow ns in
  let shared := fun mk : Z -> PM (nat * nat) =>
    pf <~ mk nfast;
    pm <~ (if nmid =? nfast then pret pf else mk nmid);
    ps <~ (if nslow =? nfast then pret pf else if nslow =? nmid then pret pm else mk nslow);
    pret (with_plans qf pf, with_plans qm pm, with_plans qs ps) in
  match B with
  | MKL => pf <~ mkl_setup nfast qf; pm <~ mkl_setup nmid qm; ps <~ mkl_setup nslow qs;
           pret (with_plans qf pf, with_plans qm pm, with_plans qs ps)
  | FFTW2 => shared fftw2_plans
  | FFTW3 => pf <~ fftw3_plans nfast (q_n qf); pm <~ fftw3_plans nmid (q_n qm); ps <~ fftw3_plans nslow (q_n qs);
             pret (with_plans qf pf, with_plans qm pm, with_plans qs ps)
  | KISS => shared kiss_plans
  end.
(** src/fft2d.cpp:1304-1325, 1351-1369, 1402-1420, 1452-1466 *)
Definition lib_setup2 (B : backend) (N : Z * Z) (nf ns : Z) : PM (fft1 * fft1) :=
  let '(nfast, nslow) := N in
  let qf := unset nfast nf in let qs := unset nslow ns in
  let shared := fun mk : Z -> PM (nat * nat) =>
    pf <~ mk nfast;
    ps <~ (if nslow =? nfast then pret pf else mk nslow);
    pret (with_plans qf pf, with_plans qs ps) in
  match B with
  | MKL => pf <~ mkl_setup nfast qf; ps <~ mkl_setup nslow qs; pret (with_plans qf pf, with_plans qs ps)
  | FFTW2 => shared fftw2_plans
  | FFTW3 => pf <~ fftw3_plans nfast (q_n qf); ps <~ fftw3_plans nslow (q_n qs); pret (with_plans qf pf, with_plans qs ps)
  | KISS => shared kiss_plans
  end.

(** ** perform_ffts, scale_ffts, deallocate_ffts *)

(** DftiComputeForward / DftiComputeBackward(handle, data): the descriptor must be
    committed, in place, with at least one transform *)
Definition dfti_compute (d : dfti) (inv : bool) (data : list C) : option (list C) :=
  if d_com d && d_inpl d && (1 <=? d_num d)
  then run_many (mkmany (d_len d) (d_num d) 1 (d_id d) 1 (d_od d) inv) data else None.

(** src/fft3d.cpp:1491-1495, 1549-1553, 1611-1615, 1670-1684;
    src/fft2d.cpp:1327-1331, 1371-1375, 1422-1426, 1468-1482 *)
Definition lib_perform (B : backend) (t : table) (flag : Z) (q : fft1) (data : list C) : option (list C) :=
  p <- pget (if flag =? FORWARD then q_fwd q else q_bwd q) t;
  match B, p with
  | MKL, PMkl d => dfti_compute d (negb (flag =? FORWARD)) data
  | FFTW2, PFftw2 len inv => run_many (mkmany len (q_n q) 1 (q_len q) 1 (q_len q) inv) data
  | FFTW3, PFftw3 c => run_many c data
  | KISS, PKiss st => perform_ffts O st (q_len q) (q_total q) data
  | _, _ => None
  end.

(** the FFTW3 variant walks over the scalars: src/fft3d.cpp:1617-1625, src/fft2d.cpp:1428-1436 *)
Definition scale_flat (norm : F) (normnum : Z) (l : list F) : option (list F) :=
  '(_, l) <- for_ normnum (fun _ '(p, l) =>
     v <- zget l p; l <- zset l p (smul O v norm);
     w <- zget l (p + 1); l <- zset l (p + 1) (smul O w norm);
     Some (p + 2, l)) (0, l);
  Some l.
(** MKL multiplies a complex by a real number, src/fft3d.cpp:1497-1501; FFTW2 and KISS
    multiply .re and .im, src/fft3d.cpp:1555-1562, 1686-1693 *)
Definition lib_scale (B : backend) (norm : F) (normnum : Z) (b : bsel) (m : @rmem F) : option rmem :=
  match B with
  | FFTW3 => l <- scale_flat norm normnum (getb b m); Some (setb b l m)
  | _ => cview b (scale_ffts O norm normnum) m
  end.

(** DftiFreeDescriptor, fftw_destroy_plan, free *)
Definition destroy (h : nat) : PM unit := pput h None.
Definition destroy2 (q : fft1) : PM unit := _ <~ destroy (q_fwd q); destroy (q_bwd q).

(** src/fft3d.cpp:1503-1508, 1564-1576, 1627-1635, 1695-1707 *)
Definition lib_dealloc3 (B : backend) (N : Z * Z * Z) (qs3 : fft1 * fft1 * fft1) : PM unit :=
  let '(nfast, nmid, nslow) := N in
  let '(qf, qm, qs) := qs3 in
  let shared :=
    _ <~ (if negb (nslow =? nfast) && negb (nslow =? nmid) then destroy2 qs else pret tt);
    _ <~ (if negb (nmid =? nfast) then destroy2 qm else pret tt);
    destroy2 qf in
  match B with
  | MKL => _ <~ destroy (q_fwd qf); _ <~ destroy (q_fwd qm); destroy (q_fwd qs)
  | FFTW3 => _ <~ destroy2 qf; _ <~ destroy2 qm; destroy2 qs
  | FFTW2 | KISS => shared
  end.
(** src/fft2d.cpp:1339-1343, 1386-1394, 1438-1444, 1493-1501 *)
Definition lib_dealloc2 (B : backend) (N : Z * Z) (qs2 : fft1 * fft1) : PM unit :=
  let '(nfast, nslow) := N in
  let '(qf, qs) := qs2 in
  let shared :=
    _ <~ (if negb (nslow =? nfast) then destroy2 qs else pret tt);
    destroy2 qf in
  match B with
  | MKL => _ <~ destroy (q_fwd qf); destroy (q_fwd qs)
  | FFTW3 => _ <~ destroy2 qf; destroy2 qs
  | FFTW2 | KISS => shared
  end.

(** ** The transforms of a library built with back end [B] *)
Section Obj3.
Variable B : backend.
Variable f : fft3.
Local Notation n := (f_n f).

(** what setup leaves on rank [r] *)
Definition made3 (r : nat) : option (fft1 * fft1 * fft1 * table) :=
  lib_setup3 B (f_N f) (nj (f_fast f r) * nk (f_fast f r)) (ni (f_mid f r) * nk (f_mid f r)) (ni (f_slow f r) * nj (f_slow f r)) [].

Variable L : nat -> fft1 * fft1 * fft1 * table.
Definition lib_fast (flag : Z) (b : bsel) : nat -> list (@instr F) := fun r =>
  let '(qf, qm, qs, t) := L r in [ILocal (cview b (lib_perform B t flag qf))].
Definition lib_mid (flag : Z) (b : bsel) : nat -> list (@instr F) := fun r =>
  let '(qf, qm, qs, t) := L r in [ILocal (cview b (lib_perform B t flag qm))].
Definition lib_slow (flag : Z) (b : bsel) : nat -> list (@instr F) := fun r =>
  let '(qf, qm, qs, t) := L r in [ILocal (cview b (lib_perform B t flag qs))].
Definition lib_scaling3 (b : bsel) : nat -> list (@instr F) := fun r =>
  [ILocal (lib_scale B (rnorm (fst (fst (f_N f)) * snd (fst (f_N f)) * snd (f_N f))) (psize3 (f_out f r)) b)].

(** FFT3d::compute, src/fft3d.cpp:560-605; cf. [pieces_compute3] *)
Definition lib_pieces3 (scaled remaponly : bool) (flag : Z) (bi bo : bsel) : list (nat -> list (@instr F)) :=
  let ffts := fun c => if remaponly then [] else [c] in
  (if (flag =? FORWARD) || f_same f then
     match f_prefast f with Some p => remap_call3 f p bi bo | None => [copying3 (fun r => psize3 (f_in f r)) bi bo] end
     ++ ffts (lib_fast flag bo)
     ++ remap_call3 f (f_fastmid f) bo bo
     ++ ffts (lib_mid flag bo)
     ++ remap_call3 f (f_midslow f) bo bo
     ++ ffts (lib_slow flag bo)
     ++ opt_remap3 f (f_postslow f) bo bo
   else
     match f_preslow f with Some p => remap_call3 f p bi bo | None => [copying3 (fun r => psize3 (f_out f r)) bi bo] end
     ++ ffts (lib_slow flag bo)
     ++ opt_remap3 f (f_slowmid f) bo bo
     ++ ffts (lib_mid flag bo)
     ++ opt_remap3 f (f_midfast f) bo bo
     ++ ffts (lib_fast flag bo)
     ++ opt_remap3 f (f_postfast f) bi bo)
  ++ (if (flag =? BACKWARD) && scaled && negb remaponly then [lib_scaling3 bo] else []).
Definition lib_compute3 (scaled remaponly : bool) (flag : Z) (bi bo : bsel) : nat -> list (@instr F) :=
  together (lib_pieces3 scaled remaponly flag bi bo).
(** src/fft3d.cpp:614-622 *)
Definition lib_only_1d3 (flag : Z) (b : bsel) : nat -> list (@instr F) :=
  together [lib_fast flag b; lib_mid flag b; lib_slow flag b].
End Obj3.

Section Obj2.
Variable B : backend.
Variable esize : Z.
Variable f : fft2.

Definition made2 (r : nat) : option (fft1 * fft1 * table) :=
  lib_setup2 B (t_N f) (nj2 (t_fast f r)) (ni2 (t_slow f r)) [].

Variable L : nat -> fft1 * fft1 * table.
Definition lib_fast2 (flag : Z) (b : bsel) : nat -> list (@instr F) := fun r =>
  let '(qf, qs, t) := L r in [ILocal (cview b (lib_perform B t flag qf))].
Definition lib_slow2 (flag : Z) (b : bsel) : nat -> list (@instr F) := fun r =>
  let '(qf, qs, t) := L r in [ILocal (cview b (lib_perform B t flag qs))].
Definition lib_scaling2 (b : bsel) : nat -> list (@instr F) := fun r =>
  [ILocal (lib_scale B (rnorm (fst (t_N f) * snd (t_N f))) (psize2 (t_out f r)) b)].

(** FFT2d::compute, src/fft2d.cpp:526-565; cf. [pieces_compute2] *)
Definition lib_pieces2 (scaled remaponly : bool) (flag : Z) (bi bo : bsel) : list (nat -> list (@instr F)) :=
  let ffts := fun c => if remaponly then [] else [c] in
  (if (flag =? FORWARD) || t_same f then
     match t_prefast f with Some p => remap_call2 esize f p bi bo | None => [copying2 (fun r => psize2 (t_in f r)) bi bo] end
     ++ ffts (lib_fast2 flag bo)
     ++ remap_call2 esize f (t_fastslow f) bo bo
     ++ ffts (lib_slow2 flag bo)
     ++ opt_remap2 esize f (t_postslow f) bo bo
   else
     match t_preslow f with Some p => remap_call2 esize f p bi bo | None => [copying2 (fun r => psize2 (t_out f r)) bi bo] end
     ++ ffts (lib_slow2 flag bo)
     ++ opt_remap2 esize f (t_slowfast f) bo bo
     ++ ffts (lib_fast2 flag bo)
     ++ opt_remap2 esize f (t_postfast f) bi bo)
  ++ (if (flag =? BACKWARD) && scaled && negb remaponly then [lib_scaling2 bo] else []).
Definition lib_compute2 (scaled remaponly : bool) (flag : Z) (bi bo : bsel) : nat -> list (@instr F) :=
  together (lib_pieces2 scaled remaponly flag bi bo).
(** src/fft2d.cpp:574-581 *)
Definition lib_only_1d2 (flag : Z) (b : bsel) : nat -> list (@instr F) :=
  together [lib_fast2 flag b; lib_slow2 flag b].
End Obj2.
End Backend.
