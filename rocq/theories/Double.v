(** Double.v : the double arithmetic of procfactors and surfarea (src/fft3d.cpp:1766-1864, src/fft2d.cpp:1558-1614).

    [fl q] is the rational [q] rounded to 53 significant bits, ties to even, as IEEE binary64 does.  Exponents are not
    bounded: all values that occur are 0 or between 2^-62 and 2^66, far inside the range of binary64.  Every
    operation of the source is rounded on its own (no extended registers; DoubleFma.v fuses products with sums). *)

From Coq Require Import QArith Qround Qpower Qabs Lia Lqa.
From Verif Require Import Base Layout LayoutProofs.
Local Open Scope Z_scope.

(** nearest integer, ties to even *)
Definition qround (q : Q) : Z :=
  let f := Qfloor q in
  match Qcompare (2 * (q - inject_Z f)) 1 with
  | Lt => f
  | Gt => f + 1
  | Eq => if Z.even f then f else f + 1
  end.

(** floor of log2, for q > 0 *)
Definition qlog2 (q : Q) : Z :=
  let a := Qnum q in let b := Zpos (Qden q) in
  let d := Z.log2 a - Z.log2 b in
  if Qle_bool (2 ^ d)%Q q then d else d - 1.

(** rounding of a positive number, and of any number *)
Definition flp (q : Q) : Q := let s := 52 - qlog2 q in (inject_Z (qround (q * 2 ^ s)) * 2 ^ (- s))%Q.
Definition fl (q : Q) : Q :=
  match Qnum q with Z0 => 0%Q | Zpos _ => Qred (flp q) | Zneg _ => Qred (- flp (- q)) end.

Local Notation "a [+] b" := (fl (Qplus a b)) (at level 50, left associativity).
Local Notation "a [*] b" := (fl (Qmult a b)) (at level 40, left associativity).
Local Notation "a [/] b" := (fl (Qdiv a b)) (at level 40, left associativity).

(** src/fft3d.cpp:48, 1776, 1860-1863; src/fft2d.cpp:48, 1566, 1611-1613 *)
Definition double_areas : areas := {|
  aD := Q;
  alt := Qltb;
  abig := fl (inject_Z (10 ^ 20));
  astart3 nx ny nz :=
    let nx := inject_Z nx in let ny := inject_Z ny in let nz := inject_Z nz in
    2%Q [*] nx [*] ny [+] (2%Q [*] ny [*] nz) [+] (2%Q [*] nx [*] nz);
  asurf3 i j k nx ny nz :=
    let dx := 1%Q [*] inject_Z nx [/] inject_Z i in
    let dy := 1%Q [*] inject_Z ny [/] inject_Z j in
    let dz := 1%Q [*] inject_Z nz [/] inject_Z k in
    dx [*] dy [+] (dy [*] dz) [+] (dx [*] dz);
  astart2 nx ny := 2%Q [*] inject_Z nx [*] inject_Z ny;
  asurf2 i j nx ny :=
    let dx := 1%Q [*] inject_Z nx [/] inject_Z i in
    let dy := 1%Q [*] inject_Z ny [/] inject_Z j in
    dx [*] dy |}.
