(** Overflow.v : the C [int] arithmetic of setup, as expression trees.

    Everywhere else in the model C ints are unbounded [Z].  Here every integer
    expression that FFT3d::setup, FFT2d::setup, Remap3d::setup and Remap2d::setup
    evaluate is written down as a tree with the operators, the order and the
    grouping of the source.  [ev] evaluates a tree in 32-bit (or, for bigint,
    64-bit) arithmetic and yields None as soon as one intermediate result is out
    of range, which is undefined behaviour in C++; [den] is the unbounded value.

    The leaves are values of variables and of struct members.  The trees of one
    call are collected in a list: [remap_ints], [fft3_ints], [fft2_ints].

    Not listed: comparisons, MIN and MAX, assignments (they compute no new value);
    prime_factorable (only divides by 2, 3 and 5); arithmetic in double, in size_t
    (the arguments of smalloc) and in int64_t (memusage); the sums that MPI itself
    computes.  Where the source evaluates an expression only under a condition
    that does not matter here (short-circuit ||, which pairs of tiles the group
    search looks at), the list contains it unconditionally. *)

From Verif Require Import Base Spec Pack3d Pack2d Sched Remap Remap3d Remap2d RemapThms Layout Setup3d Setup3dProofs Setup2d Setup2dProofs Wrap.
Local Open Scope Z_scope.

(** ** expressions *)
Inductive iexp :=
  | Lit (z : Z)
  | Add (a b : iexp) | Sub (a b : iexp) | Mul (a b : iexp) | Quo (a b : iexp) | Rem (a b : iexp)
  | Mul64 (a b : iexp).   (* one operand is a bigint, src/fft3d.cpp:267,271 *)

Definition int_okb (z : Z) : bool := (INT_MIN <=? z) && (z <=? INT_MAX).
Definition BIG_MAX : Z := 2 ^ 63 - 1.
Definition BIG_MIN : Z := - 2 ^ 63.
Definition big_okb (z : Z) : bool := (BIG_MIN <=? z) && (z <=? BIG_MAX).
Definition chk (ok : Z -> bool) (z : Z) : option Z := if ok z then Some z else None.

Fixpoint ev (e : iexp) : option Z :=
  match e with
  | Lit z => chk int_okb z
  | Add a b => x <- ev a; y <- ev b; chk int_okb (x + y)
  | Sub a b => x <- ev a; y <- ev b; chk int_okb (x - y)
  | Mul a b => x <- ev a; y <- ev b; chk int_okb (x * y)
  | Quo a b => x <- ev a; y <- ev b; if y =? 0 then None else chk int_okb (Z.quot x y)
  | Rem a b => x <- ev a; y <- ev b; if y =? 0 then None else chk int_okb (Z.rem x y)
  | Mul64 a b => x <- ev a; y <- ev b; chk big_okb (x * y)
  end.

Fixpoint den (e : iexp) : Z :=
  match e with
  | Lit z => z
  | Add a b => den a + den b
  | Sub a b => den a - den b
  | Mul a b => den a * den b
  | Quo a b => Z.quot (den a) (den b)
  | Rem a b => Z.rem (den a) (den b)
  | Mul64 a b => den a * den b
  end.

(** no undefined behaviour *)
Definition safe (e : iexp) : Prop := ev e <> None.

Declare Scope iexp_scope.
Delimit Scope iexp_scope with I.
Bind Scope iexp_scope with iexp.
Infix "+" := Add : iexp_scope.
Infix "-" := Sub : iexp_scope.
Infix "*" := Mul : iexp_scope.
Infix "/" := Quo : iexp_scope.
Infix "%" := Rem (at level 40, left associativity) : iexp_scope.
Notation "# z" := (Lit z) (at level 1, format "# z") : iexp_scope.

(** x++ *)
Definition incr (x : Z) : iexp := (#x + #1)%I.
(** x++ executed k times starting from x = 0 *)
Definition count_to (k : Z) : list iexp := map incr (zrange k).
(** s += x for the elements x of a list *)
Fixpoint running (s : Z) (l : list Z) : list iexp :=
  match l with [] => [] | x :: t => (#s + #x)%I :: running (s + x) t end.

(** ** Remap3d::setup and Remap2d::setup *)

(** hi - lo + 1, remap3d.cpp:189-213, 735-737; remap2d.cpp:186-204, 683-684 *)
Definition ext_e (lo hi : Z) : iexp := (#hi - #lo + #1)%I.

Section RemapInts.
Context {A ext plan : Type}.
Variable o : rops A ext plan.
Variables (n : nat) (coll : bool) (ins outs : nat -> ext).
Variable ext_ints : ext -> list iexp.           (* isize, jsize, ksize of an extent *)
Variable send_ints recv_ints : ext -> ext -> list iexp.  (* offsets, plan and size of one message *)
Variable vol_ints : ext -> list iexp.           (* recvsize in point-to-point mode *)

(** what collide computes, and what follows when it returns 1 *)
Definition when_hit (a b : ext) (f : ext -> list iexp) : list iexp :=
  match o_collide o a b with Some ov => ext_ints ov ++ f ov | None => [] end.

Definition remap_ints (me : nat) : list iexp :=
  let send := send_entries o n ins outs me in
  let recv := recv_entries o n ins outs me in
  let nsend := Z.of_nat (drop_self coll me send) in
  let nrecv := Z.of_nat (drop_self coll me recv) in
  (* remap3d.cpp:187-213; remap2d.cpp:184-204 *)
  ext_ints (ins me) ++ ext_ints (outs me) ++
  (* i++ and iproc++ of the loops over the ranks *)
  count_to (Z.of_nat n) ++
  (* remap3d.cpp:232-236, 257-274; nsend is counted from 0 twice *)
  count_to (zlen send) ++
  flat_map (fun p => when_hit (ins me) (outs p) (send_ints (ins me))) (ring n me) ++
  (* remap3d.cpp:290-294, 349-396 *)
  count_to (zlen recv) ++
  flat_map (fun p => when_hit (outs me) (ins p) (recv_ints (outs me))) (ring n me) ++
  running 0 (map (@e_size plan) recv) ++
  (* send_proc[nsend-1], nsend--, recv_proc[nrecv-1], nrecv--: remap3d.cpp:279, 402 *)
  (if zlen send =? 0 then [] else [(#(zlen send) - #1)%I]) ++
  (if zlen recv =? 0 then [] else [(#(zlen recv) - #1)%I]) ++
  (if negb coll then
     (* remap3d.cpp:417 *)
     vol_ints (outs me)
   else
     match setup o n coll ins outs me with
     | None => []
     | Some pl =>
       (* ngroup++ and ngroup_extra++, remap3d.cpp:444-499 *)
       count_to (zlen (rp_group pl)) ++
       flat_map (fun a => flat_map (fun b =>
         when_hit (ins a) (outs b) (fun _ => []) ++ when_hit (outs a) (ins b) (fun _ => [])) (seq 0 n)) (seq 0 n) ++
       (* remap3d.cpp:513-516 *)
       running 0 (map (@e_size plan) (firstn (rp_nsend pl) send)) ++
       running 0 (map (@e_size plan) (firstn (rp_nrecv pl) recv)) ++
       (* offset += send_size[i], remap3d.cpp:538-575 *)
       map (fun t => let '(c, d, _) := t in (#d + #c)%I) (rp_sside pl) ++
       map (fun t => let '(c, d, _) := t in (#d + #c)%I) (rp_rside pl) ++
       (* remap3d.cpp:612; remap2d.cpp:565 *)
       [(#7 * #(zlen (rp_group pl)))%I]
     end) ++
  (* remap3d.cpp:597, 600; remap2d.cpp:550, 553 *)
  [(#3 * #nsend)%I; (#4 * #nrecv)%I].
End RemapInts.

(** 3d, remap3d.cpp:262-271 *)
Definition ext_ints3 (b : box3) : list iexp := [ext_e (ilo b) (ihi b); ext_e (jlo b) (jhi b); ext_e (klo b) (khi b)].
Definition size_e3 (nq : Z) (b : box3) : iexp := (#nq * #(ni b) * #(nj b) * #(nk b))%I.
Definition send_ints3 (nq : Z) (inb ov : box3) : list iexp :=
  [(#nq * ((#(klo ov) - #(klo inb)) * #(nj inb) * #(ni inb) + ((#(jlo ov) - #(jlo inb)) * #(ni inb) + #(ilo ov) - #(ilo inb))))%I;
   (#nq * #(ni ov))%I; (#nq * #(ni inb))%I; (#nq * #(nj inb) * #(ni inb))%I;
   size_e3 nq ov].
(** remap3d.cpp:358-392 *)
Definition recv_ints3 (nq permute : Z) (out ov : box3) : list iexp :=
  (if permute =? 0 then
    [(#nq * ((#(klo ov) - #(klo out)) * #(nj out) * #(ni out) + (#(jlo ov) - #(jlo out)) * #(ni out) + (#(ilo ov) - #(ilo out))))%I;
     (#nq * #(ni ov))%I; (#nq * #(ni out))%I; (#nq * #(nj out) * #(ni out))%I]
  else if permute =? 1 then
    [(#nq * ((#(ilo ov) - #(ilo out)) * #(nk out) * #(nj out) + (#(klo ov) - #(klo out)) * #(nj out) + (#(jlo ov) - #(jlo out))))%I;
     (#nq * #(nj out))%I; (#nq * #(nk out) * #(nj out))%I]
  else if permute =? 2 then
    [(#nq * ((#(jlo ov) - #(jlo out)) * #(ni out) * #(nk out) + (#(ilo ov) - #(ilo out)) * #(nk out) + (#(klo ov) - #(klo out))))%I;
     (#nq * #(nk out))%I; (#nq * #(ni out) * #(nk out))%I]
  else []) ++ [size_e3 nq ov].
Definition remap3_ints (n : nat) (coll : bool) (nq permute : Z) (ins outs : nat -> box3) (me : nat) : list iexp :=
  remap_ints (@ops3 Z 0 nq permute) n coll ins outs ext_ints3 (send_ints3 nq) (recv_ints3 nq permute)
    (fun b => [size_e3 nq b]) me.

(** 2d, remap2d.cpp:249-255 *)
Definition ext_ints2 (b : box2) : list iexp := [ext_e (ilo2 b) (ihi2 b); ext_e (jlo2 b) (jhi2 b)].
Definition size_e2 (nq : Z) (b : box2) : iexp := (#nq * #(ni2 b) * #(nj2 b))%I.
Definition send_ints2 (nq : Z) (inb ov : box2) : list iexp :=
  [(#nq * ((#(jlo2 ov) - #(jlo2 inb)) * #(ni2 inb) + #(ilo2 ov) - #(ilo2 inb)))%I;
   (#nq * #(ni2 ov))%I; (#nq * #(ni2 inb))%I; size_e2 nq ov].
(** remap2d.cpp:328-345 *)
Definition recv_ints2 (nq permute : Z) (out ov : box2) : list iexp :=
  (if permute =? 0 then
    [(#nq * ((#(jlo2 ov) - #(jlo2 out)) * #(ni2 out) + (#(ilo2 ov) - #(ilo2 out))))%I;
     (#nq * #(ni2 ov))%I; (#nq * #(ni2 out))%I]
  else if permute =? 1 then
    [(#nq * ((#(ilo2 ov) - #(ilo2 out)) * #(nj2 out) + (#(jlo2 ov) - #(jlo2 out))))%I;
     (#nq * #(nj2 out))%I]
  else []) ++ [size_e2 nq ov].
Definition remap2_ints (n : nat) (coll : bool) (nq permute : Z) (ins outs : nat -> box2) (me : nat) : list iexp :=
  remap_ints (@ops2 Z 8 0 nq permute) n coll ins outs ext_ints2 (send_ints2 nq) (recv_ints2 nq permute)
    (fun b => [size_e2 nq b]) me.

(** ** the processor grids *)

(** (int) sqrt(n) + 1, sqroot*sqroot, sqroot--: src/fft3d.cpp:1747-1748, 1773-1774 *)
Definition sqroot_ints (P : Z) : list iexp :=
  let s := Z.sqrt P + 1 in [(#(Z.sqrt P) + #1)%I; (#s * #s)%I; (#s - #1)%I].
(** factor, src/fft3d.cpp:1745-1755: n % i, i++, nfactor++ *)
Definition factor_ints (P : Z) : list iexp :=
  sqroot_ints P ++
  flat_map (fun i => [(#P % #(i + 1))%I; incr (i + 1)]) (zrange (sqroot P)) ++
  count_to (zlen (factor P)).
(** the loops of procfactors, src/fft3d.cpp:1783-1790 *)
Fixpoint pf_ints (P : Z) (fs : list Z) : list iexp :=
  match fs with
  | [] => []
  | ifac :: rest =>
      (#P / #ifac)%I ::
      flat_map (fun jfac => let jk := P / ifac in let kfac := jk / jfac in
        [(#jk / #jfac)%I; (#ifac * #jfac * #kfac)%I]) fs ++
      pf_ints P rest
  end.
(** src/fft3d.cpp:1844-1846; j++ and i++ of the loops *)
Definition procfactors_ints (P me : Z) (g : Z * Z * Z) : list iexp :=
  let '(npx, npy, npz) := g in
  sqroot_ints P ++ count_to (zlen (factor P)) ++ pf_ints P (factor P) ++
  [(#me % #npx)%I; (#me / #npx % #npy)%I; (#me / (#npx * #npy))%I].

(** src/fft2d.cpp:1573-1577, 1597-1598 *)
Fixpoint pf_ints2 (P : Z) (fs : list Z) : list iexp :=
  match fs with
  | [] => []
  | ifac :: rest =>
      flat_map (fun _ => let jfac := P / ifac in [(#P / #ifac)%I; (#ifac * #jfac)%I]) fs ++ pf_ints2 P rest
  end.
Definition procfactors_ints2 (P me : Z) (g : Z * Z) : list iexp :=
  let '(npx, npy) := g in
  sqroot_ints P ++ count_to (zlen (factor P)) ++ pf_ints2 P (factor P) ++ [(#me % #npx)%I; (#me / #npx)%I].

(** ** index ranges, e.g. src/fft3d.cpp:338-339 *)
Definition part_lo_e (ip n np : Z) : iexp := (#ip * #n / #np)%I.
Definition part_hi_e (ip n np : Z) : iexp := ((#ip + #1) * #n / #np - #1)%I.
Definition part_ints (ip n np : Z) : list iexp := [part_lo_e ip n np; part_hi_e ip n np].
(** n-1 *)
Definition last_e (n : Z) : iexp := (#n - #1)%I.

(** ** FFT3d::setup, src/fft3d.cpp:219-494 *)

(** the index check, src/fft3d.cpp:259 *)
Definition check_ints3 (b : box3) : list iexp := [incr (ihi b); incr (jhi b); incr (khi b)].
(** insize and the like, src/fft3d.cpp:418-431 *)
Definition box_size_e3 (b : box3) : iexp := (ext_e (ilo b) (ihi b) * ext_e (jlo b) (jhi b) * ext_e (klo b) (khi b))%I.
(** src/fft3d.cpp:267-271, 461: bigint *)
Definition count_ints3 (N : Z * Z * Z) (b : box3) : list iexp :=
  let '(nfast, nmid, nslow) := N in
  [Mul64 (Mul64 (ext_e (ilo b) (ihi b)) (ext_e (jlo b) (jhi b))) (ext_e (klo b) (khi b));
   Mul64 (Mul64 (Lit nfast) (Lit nmid)) (Lit nslow)].
(** fft->n and fft->total, src/fft3d.cpp:447-457 *)
Definition lines_ints (a b : iexp) (na nb len : Z) : list iexp := [(a * b)%I; (#(na * nb) * #len)%I].

Definition og (g : option (Z * Z * Z)) : Z * Z * Z := match g with Some g => g | None => (0, 0, 0) end.

Definition fft3_ints (ar : areas) (n : nat) (st : settings) (N : Z * Z * Z) (permute : Z) (ins outs : nat -> box3) (r : nat)
  : list iexp :=
  let '(nfast, nmid, nslow) := N in
  let P := Z.of_nat n in
  let me := Z.of_nat r in
  check_ints3 (ins r) ++
  match setup3d ar n st N permute ins outs with
  | SOk f =>
    let gf := og (procfactors ar P 1 nmid nslow) in
    let gm := og (procfactors ar P nfast 1 nslow) in
    let gs := og (procfactors ar P nfast nmid 1) in
    let gb := og (procfactors ar P nfast nmid nslow) in
    let fast := f_fast f r in let mid := f_mid f r in let slow := f_slow f r in let brick := f_brick f r in
    count_ints3 N (ins r) ++
    factor_ints P ++
    procfactors_ints P me gf ++ procfactors_ints P me gm ++ procfactors_ints P me gs ++
    (if f_exch f then procfactors_ints P me gb else []) ++
    (* the pencil layouts, src/fft3d.cpp:322-380 *)
    [last_e nfast; last_e nmid; last_e nslow] ++
    (let '(a, b, c) := gf in let '(x, y, z) := ploc gf me in
     if f_pre f then part_ints y nmid b ++ part_ints z nslow c else []) ++
    (let '(a, b, c) := gm in let '(x, y, z) := ploc gm me in part_ints x nfast a ++ part_ints z nslow c) ++
    (let '(a, b, c) := gs in let '(x, y, z) := ploc gs me in
     if slow_internal n N permute outs then part_ints x nfast a ++ part_ints y nmid b else []) ++
    (* src/fft3d.cpp:397-404 *)
    (let '(a, b, c) := gb in let '(x, y, z) := ploc gb me in
     if f_exch f then part_ints x nfast a ++ part_ints y nmid b ++ part_ints z nslow c else []) ++
    (* remap_forward_create, remap_inverse_create: 2 values per point *)
    flat_map (fun m => remap3_ints n (rm_coll m) 2 (rm_perm m) (rm_in m) (rm_out m) r) (all_objs f) ++
    (* src/fft3d.cpp:418-431 *)
    map box_size_e3 ([ins r; outs r; fast; mid; slow] ++ (if f_exch f then [brick] else [])) ++
    (* src/fft3d.cpp:447-457 *)
    lines_ints (ext_e (jlo fast) (jhi fast)) (ext_e (klo fast) (khi fast)) (nj fast) (nk fast) nfast ++
    lines_ints (ext_e (ilo mid) (ihi mid)) (ext_e (klo mid) (khi mid)) (ni mid) (nk mid) nmid ++
    lines_ints (ext_e (ilo slow) (ihi slow)) (ext_e (jlo slow) (jhi slow)) (ni slow) (nj slow) nslow
  | _ => []
  end.

(** ** FFT2d::setup, src/fft2d.cpp:227-463 *)
Definition check_ints2 (b : box2) : list iexp := [incr (ihi2 b); incr (jhi2 b)].
Definition box_size_e2 (b : box2) : iexp := (ext_e (ilo2 b) (ihi2 b) * ext_e (jlo2 b) (jhi2 b))%I.
Definition count_ints2 (N : Z * Z) (b : box2) : list iexp :=
  let '(nfast, nslow) := N in
  [Mul64 (ext_e (ilo2 b) (ihi2 b)) (ext_e (jlo2 b) (jhi2 b)); Mul64 (Lit nfast) (Lit nslow)].
(** src/fft2d.cpp:421-427 *)
Definition lines_ints2 (a : iexp) (na len : Z) : list iexp := [a; (#na * #len)%I].
Definition og2 (g : option (Z * Z)) : Z * Z := match g with Some g => g | None => (0, 0) end.

Definition fft2_ints (ar : areas) (n : nat) (st : settings) (N : Z * Z) (permute : Z) (ins outs : nat -> box2) (r : nat)
  : list iexp :=
  let '(nfast, nslow) := N in
  let P := Z.of_nat n in
  let me := Z.of_nat r in
  check_ints2 (ins r) ++
  match setup2d ar n st N permute ins outs with
  | SOk f =>
    let gb := og2 (procfactors2 ar P nfast nslow) in
    let fast := t_fast f r in let slow := t_slow f r in let brick := t_brick f r in
    count_ints2 N (ins r) ++
    factor_ints P ++
    (if t_exch f then procfactors_ints2 P me gb else []) ++
    (* src/fft2d.cpp:326-363 *)
    [last_e nfast; last_e nslow] ++
    (if t_pre f then part_ints me nslow P else []) ++
    (if slow_internal2 n N permute outs then part_ints me nfast P else []) ++
    (* src/fft2d.cpp:382-387 *)
    (let '(a, b) := gb in let '(x, y) := ploc2 gb me in
     if t_exch f then part_ints x nfast a ++ part_ints y nslow b else []) ++
    flat_map (fun m => remap2_ints n (rm2_coll m) 2 (rm2_perm m) (rm2_in m) (rm2_out m) r) (all_objs2 f) ++
    (* src/fft2d.cpp:400-406 *)
    map box_size_e2 ([ins r; outs r; fast; slow] ++ (if t_exch f then [brick] else [])) ++
    (* src/fft2d.cpp:420-427 *)
    lines_ints2 (ext_e (jlo2 fast) (jhi2 fast)) (nj2 fast) nfast ++
    lines_ints2 (ext_e (ilo2 slow) (ihi2 slow)) (ni2 slow) nslow
  | _ => []
  end.
