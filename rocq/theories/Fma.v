(** Fma.v : the floating-point arithmetic of a compiler that fuses products with sums.  The C standard allows a compiler to
    evaluate an expression as if its intermediate results were not rounded (C11 6.5p8, FP_CONTRACT); gcc does so by default
    (-ffp-contract=fast) where the processor has a fused multiply-add, and so does the compiler of src/Makefile.mira.  The
    source does not say which products are fused, so this is a parameter: [fuse h h'] says whether the product of the numbers
    with the histories h and h' is kept exact until it is added to something.

    A number is a number of the standard library's type [spec_float] together with its history, the expression it was computed
    by.  A product that is kept is a [spec_float] whose significand is longer than the format's.  Sums and differences are
    rounded once, whatever their operands are.  A machine fuses at most one operand of a sum, rounds what it stores and never
    multiplies a product that is kept; here nothing forbids it, so the parameter ranges over more than what machines do.
    A product that is kept is kept in every sum it occurs in. *)

From Coq Require Import Reals Floats.SpecFloat.
From Verif Require Import Base Kiss Binary.
Local Open Scope Z_scope.

(** the expression a number was computed by *)
Inductive hist : Type :=
| Given (i : Z)
| Sum (a b : hist)
| Diff (a b : hist)
| Prod (a b : hist)
| Opp (a : hist).

Record fnum : Type := mkf { f_x : spec_float; f_h : hist }.

Section Fuse.
Variables prec emax : Z.
Variable fuse : hist -> hist -> bool.

(** rounding to the format *)
Definition xround (x : spec_float) : spec_float :=
  match x with S754_finite s m e => binary_round prec emax s m e | _ => x end.

(** the exact product *)
Definition xprod (x y : spec_float) : spec_float :=
  match x, y with
  | S754_finite s m e, S754_finite s' m' e' => S754_finite (xorb s s') (m * m') (e + e')
  | _, _ => SFmul prec emax x y
  end.

(** the rounded sum; SFadd gives back the other operand of a zero as it is *)
Definition xsum (x y : spec_float) : spec_float :=
  match x, y with
  | S754_finite _ _ _, S754_zero _ => xround x
  | S754_zero _, S754_finite _ _ _ => xround y
  | _, _ => SFadd prec emax x y
  end.

Definition f_mul (a b : fnum) : fnum :=
  mkf (if fuse (f_h a) (f_h b) then xprod (f_x a) (f_x b) else xround (xprod (f_x a) (f_x b))) (Prod (f_h a) (f_h b)).
Definition f_add (a b : fnum) : fnum := mkf (xsum (f_x a) (f_x b)) (Sum (f_h a) (f_h b)).
Definition f_sub (a b : fnum) : fnum := mkf (xsum (f_x a) (SFopp (f_x b))) (Diff (f_h a) (f_h b)).
Definition f_opp (a : fnum) : fnum := mkf (SFopp (f_x a)) (Opp (f_h a)).

(** kissfft.h:118-156, 160 : as [SFops] in Binary.v; the constants have histories of their own *)
Definition f_half : fnum := mkf (SFhalf prec) (Given (-3)).
Definition Fops : sops fnum :=
  mksops _ (mkf (S754_zero false) (Given (-1))) (mkf (SFone prec) (Given (-2))) f_add f_sub f_mul f_opp (fun a => f_mul a f_half).
End Fuse.

(** the value of a number; a number that is not an infinity or NaN *)
Definition f_val (a : fnum) : R := SFval (f_x a).
Definition f_fin (a : fnum) : Prop :=
  match f_x a with S754_zero _ | S754_finite _ _ _ => True | _ => False end.

(** numbers of a table, with their histories *)
Definition tagged2 (h : bool -> Z -> Z -> hist * hist) (cexp : bool -> Z -> Z -> spec_float * spec_float) (inv : bool) (i n : Z) : fnum * fnum :=
  (mkf (fst (cexp inv i n)) (fst (h inv i n)), mkf (snd (cexp inv i n)) (snd (h inv i n))).
Definition tagged1 (h : Z -> hist) (rnorm : Z -> spec_float) (k : Z) : fnum := mkf (rnorm k) (h k).
