(** Layout.v : model of the grid-size check and of the choice of processor grids
    (src/fft3d.cpp:1722-1864, src/fft2d.cpp:1516-1614) and of the internal
    layouts computed by FFT3d::setup / FFT2d::setup.

    Simplifications: C ints are unbounded [Z] (overflow is treated in
    Overflow.v); [(int) sqrt(n)] is the integer square root. *)

From Coq Require Import QArith.
From Verif Require Import Base Spec.
Local Open Scope Z_scope.

(** ** prime_factorable, src/fft3d.cpp:1722-1737, src/fft2d.cpp:1516-1531 *)

(** primes[], src/fft3d.cpp:158-162 *)
Definition primes : list Z := [2; 3; 5].

(** the for loop: first listed prime dividing n, None when i reaches nprime *)
Fixpoint find_prime (ps : list Z) (n : Z) : option Z :=
  match ps with
  | [] => None
  | p :: t => if n mod p =? 0 then Some p else find_prime t n
  end.

(** the while loop; None = the loop has not ended within [fuel] iterations *)
Fixpoint pf_loop (fuel : nat) (n : Z) : option bool :=
  match fuel with
  | O => None
  | S f => if n >? 1 then match find_prime primes n with
                          | Some p => pf_loop f (n / p)
                          | None => Some false
                          end
           else Some true
  end.
(** each iteration at least halves n, so log2 n + 2 iterations are enough *)
Definition prime_factorable (n : Z) : option bool := pf_loop (S (S (Z.to_nat (Z.log2 n)))) n.

(** ** factor, src/fft3d.cpp:1745-1755, src/fft2d.cpp:1539-1549 *)

(** sqroot, src/fft3d.cpp:1747-1748 *)
Definition sqroot (n : Z) : Z := let s := Z.sqrt n + 1 in if s * s >? n then s - 1 else s.

(** NFACTOR, src/fft3d.cpp:47 *)
Definition NFACTOR : nat := 50.

Definition factor (n : Z) : list Z :=
  fold_left (fun factors i =>
    if n mod i =? 0 then (if Nat.ltb (length factors) NFACTOR then factors ++ [i] else factors) else factors)
    (map (fun i => i + 1) (zrange (sqroot n))) [].

(** ** surface areas

    procfactors compares surface areas, which are doubles in the source.  The
    model is written over any type of areas: [alt] is the comparison "<", [abig]
    the constant BIG (src/fft3d.cpp:48), [astart3], [asurf3] the expressions at
    src/fft3d.cpp:1776 and 1860-1863, [astart2], [asurf2] those at
    src/fft2d.cpp:1566 and 1611-1613.  [exact_areas] is exact rational arithmetic. *)
Record areas := mkareas {
  aD : Type;
  alt : aD -> aD -> bool;
  abig : aD;
  astart3 : Z -> Z -> Z -> aD;
  asurf3 : Z -> Z -> Z -> Z -> Z -> Z -> aD;
  astart2 : Z -> Z -> aD;
  asurf2 : Z -> Z -> Z -> Z -> aD }.

Definition Qltb (a b : Q) : bool := negb (Qle_bool b a).
Definition qdiv (a b : Z) : Q := (inject_Z a / inject_Z b)%Q.
Definition exact_areas : areas := {|
  aD := Q;
  alt := Qltb;
  abig := inject_Z (10 ^ 20);
  astart3 nx ny nz := inject_Z (2 * nx * ny + 2 * ny * nz + 2 * nx * nz);
  asurf3 i j k nx ny nz :=
    let dx := qdiv nx i in let dy := qdiv ny j in let dz := qdiv nz k in
    (dx * dy + dy * dz + dx * dz)%Q;
  astart2 nx ny := inject_Z (2 * nx * ny);
  asurf2 i j nx ny := let dx := qdiv nx i in let dy := qdiv ny j in (dx * dy)%Q |}.

(** what the proofs about the processor grids need of the arithmetic: "<" is
    transitive, the start value is not above BIG and is above every true area *)
Definition INT_MAX : Z := 2 ^ 31 - 1.
Definition in_int (n : Z) : Prop := 1 <= n <= INT_MAX.
Definition area_laws (ar : areas) : Prop :=
  (forall a b c, alt ar a b = true -> alt ar b c = true -> alt ar a c = true) /\
  (forall nx ny nz, in_int nx -> in_int ny -> in_int nz -> alt ar (abig ar) (astart3 ar nx ny nz) = false) /\
  (forall i j k nx ny nz, 1 <= i -> 1 <= j -> 1 <= k -> in_int nx -> in_int ny -> in_int nz ->
     alt ar (asurf3 ar i j k nx ny nz) (astart3 ar nx ny nz) = true) /\
  (forall nx ny, in_int nx -> in_int ny -> alt ar (abig ar) (astart2 ar nx ny) = false) /\
  (forall i j nx ny, 1 <= i -> 1 <= j -> in_int nx -> in_int ny ->
     alt ar (asurf2 ar i j nx ny) (astart2 ar nx ny) = true).

(** ** procfactors, src/fft3d.cpp:1766-1847 *)

Section Proc.
Variable ar : areas.

(** surfarea, src/fft3d.cpp:1854-1864 *)
Definition surfarea (i j k nx ny nz : Z) : aD ar :=
  if (nx =? 1) && negb (i =? 1) then abig ar
  else if (ny =? 1) && negb (j =? 1) then abig ar
  else if (nz =? 1) && negb (k =? 1) then abig ar
  else asurf3 ar i j k nx ny nz.

(** minarea and the processor grid found so far; None = npx,npy,npz not assigned *)
Definition pstate : Type := (aD ar * option (Z * Z * Z))%type.

Variables nprocs nx ny nz : Z.

(** one "if (newarea < minarea)" block *)
Definition try_grid (t : Z * Z * Z) (st : pstate) : pstate :=
  let '(x, y, z) := t in
  let newarea := surfarea x y z nx ny nz in
  if alt ar newarea (fst st) then (newarea, Some t) else st.

(** body of the j loop, src/fft3d.cpp:1787-1838 *)
Definition pf_body (ifac jk : Z) (st : pstate) (jfac : Z) : pstate :=
  let kfac := jk / jfac in
  if negb (ifac * jfac * kfac =? nprocs) then st
  else if (ifac >? jfac) || (jfac >? kfac) then st
  else
    let st := try_grid (ifac, jfac, kfac) st in
    let st := try_grid (ifac, kfac, jfac) st in
    let st := try_grid (jfac, ifac, kfac) st in
    let st := try_grid (jfac, kfac, ifac) st in
    let st := try_grid (kfac, ifac, jfac) st in
    try_grid (kfac, jfac, ifac) st.

(** the i and j loops over factors[i..], factors[j..] *)
Fixpoint pf_outer (fs : list Z) (st : pstate) : pstate :=
  match fs with
  | [] => st
  | ifac :: rest => pf_outer rest (fold_left (pf_body ifac (nprocs / ifac)) fs st)
  end.

(** None = the source leaves npx,npy,npz unassigned *)
Definition procfactors : option (Z * Z * Z) :=
  snd (pf_outer (factor nprocs) (astart3 ar nx ny nz, None)).
End Proc.

(** my location in the processor grid, src/fft3d.cpp:1843-1846 *)
Definition ploc (g : Z * Z * Z) (me : Z) : Z * Z * Z :=
  let '(npx, npy, npz) := g in (me mod npx, (me / npx) mod npy, me / (npx * npy)).

(** ** 2d: procfactors and surfarea, src/fft2d.cpp:1558-1614 *)

Section Proc2.
Variable ar : areas.
Definition surfarea2 (i j nx ny : Z) : aD ar :=
  if (nx =? 1) && negb (i =? 1) then abig ar
  else if (ny =? 1) && negb (j =? 1) then abig ar
  else asurf2 ar i j nx ny.
Definition pstate2 : Type := (aD ar * option (Z * Z))%type.
Variables nprocs nx ny : Z.
Definition try_grid2 (t : Z * Z) (st : pstate2) : pstate2 :=
  let '(x, y) := t in
  let newarea := surfarea2 x y nx ny in
  if alt ar newarea (fst st) then (newarea, Some t) else st.
(** body of the j loop (jfac is recomputed and does not depend on j) *)
Definition pf_body2 (ifac : Z) (st : pstate2) (_ : Z) : pstate2 :=
  let jfac := nprocs / ifac in
  if negb (ifac * jfac =? nprocs) then st
  else if ifac >? jfac then st
  else try_grid2 (jfac, ifac) (try_grid2 (ifac, jfac) st).
Fixpoint pf_outer2 (fs : list Z) (st : pstate2) : pstate2 :=
  match fs with
  | [] => st
  | ifac :: rest => pf_outer2 rest (fold_left (pf_body2 ifac) fs st)
  end.
Definition procfactors2 : option (Z * Z) := snd (pf_outer2 (factor nprocs) (astart2 ar nx ny, None)).
End Proc2.
(** src/fft2d.cpp:1595-1598 *)
Definition ploc2 (g : Z * Z) (me : Z) : Z * Z := let '(npx, npy) := g in (me mod npx, me / npx).

(** ** index ranges, e.g. src/fft3d.cpp:338-341 *)
Definition part_lo (ip n np : Z) : Z := ip * n / np.
Definition part_hi (ip n np : Z) : Z := (ip + 1) * n / np - 1.

(** the box of a processor grid, e.g. src/fft3d.cpp:397-404; a pencil stage has
    np = 1, ip = 0 in its transformed dimension, for which the source writes the
    constants 0 and n-1 (src/fft3d.cpp:336-337,350-351,376-377) *)
Definition gbox3 (N : Z * Z * Z) (g : Z * Z * Z) (me : Z) : box3 :=
  let '(nfast, nmid, nslow) := N in
  let '(np1, np2, np3) := g in
  let '(ip1, ip2, ip3) := ploc g me in
  mkbox3 (part_lo ip1 nfast np1) (part_hi ip1 nfast np1)
         (part_lo ip2 nmid np2) (part_hi ip2 nmid np2)
         (part_lo ip3 nslow np3) (part_hi ip3 nslow np3).

(** fast pencils, src/fft3d.cpp:334-341 *)
Definition fast_box3 (N g : Z * Z * Z) (me : Z) : box3 :=
  let '(nfast, nmid, nslow) := N in
  let '(np1, np2, np3) := g in
  let '(ip1, ip2, ip3) := ploc g me in
  mkbox3 0 (nfast - 1) (part_lo ip2 nmid np2) (part_hi ip2 nmid np2) (part_lo ip3 nslow np3) (part_hi ip3 nslow np3).
(** mid pencils, src/fft3d.cpp:348-353 *)
Definition mid_box3 (N g : Z * Z * Z) (me : Z) : box3 :=
  let '(nfast, nmid, nslow) := N in
  let '(np1, np2, np3) := g in
  let '(ip1, ip2, ip3) := ploc g me in
  mkbox3 (part_lo ip1 nfast np1) (part_hi ip1 nfast np1) 0 (nmid - 1) (part_lo ip3 nslow np3) (part_hi ip3 nslow np3).
(** slow pencils, src/fft3d.cpp:371-377 *)
Definition slow_box3 (N g : Z * Z * Z) (me : Z) : box3 :=
  let '(nfast, nmid, nslow) := N in
  let '(np1, np2, np3) := g in
  let '(ip1, ip2, ip3) := ploc g me in
  mkbox3 (part_lo ip1 nfast np1) (part_hi ip1 nfast np1) (part_lo ip2 nmid np2) (part_hi ip2 nmid np2) 0 (nslow - 1).

(** 2d: fast pencils np = (1,nprocs), slow pencils np = (nprocs,1), brick,
    src/fft2d.cpp:307-315, 337-342, 359-363, 383-388 *)
Definition fast_box2 (N : Z * Z) (nprocs me : Z) : box2 :=
  let '(nfast, nslow) := N in mkbox2 0 (nfast - 1) (part_lo me nslow nprocs) (part_hi me nslow nprocs).
Definition slow_box2 (N : Z * Z) (nprocs me : Z) : box2 :=
  let '(nfast, nslow) := N in mkbox2 (part_lo me nfast nprocs) (part_hi me nfast nprocs) 0 (nslow - 1).
Definition gbox2 (N g : Z * Z) (me : Z) : box2 :=
  let '(nfast, nslow) := N in
  let '(np1, np2) := g in
  let '(ip1, ip2) := ploc2 g me in
  mkbox2 (part_lo ip1 nfast np1) (part_hi ip1 nfast np1) (part_lo ip2 nslow np2) (part_hi ip2 nslow np2).
