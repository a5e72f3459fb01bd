(** Binary.v : the floating-point numbers of the code, as IEEE binary arithmetic.  The operations are the standard library's
    definition ([Coq.Floats.SpecFloat]: zeros, infinities, a NaN, finite numbers with [prec] bits and exponents up to [emax],
    round to nearest even).  For prec = 53, emax = 1024 this is the double of the default build, for prec = 24, emax = 128
    the float of -DFFT_SINGLE.  Every operation is rounded on its own; Fma.v fuses products with sums.  Not modelled:
    extended registers, the payload of a NaN, the status flags.  cos and sin of the C library are parameters. *)

From Coq Require Import Reals Floats.SpecFloat.
From Verif Require Import Base Kiss.
Local Open Scope Z_scope.

(** ** the number type *)
Section Format.
Variables prec emax : Z.

(** the value of a number, 0 where it has none *)
Definition SFval (x : spec_float) : R :=
  match x with
  | S754_finite s m e => ((if s then -1 else 1) * IZR (Zpos m) * powerRZ 2 e)%R
  | _ => 0%R
  end.

(** a finite number of the format *)
Definition SFfin (x : spec_float) : Prop :=
  match x with
  | S754_zero _ => True
  | S754_finite _ m e => bounded prec emax m e = true
  | _ => False
  end.

Definition SFhalf : spec_float := S754_finite false (Z.to_pos (2 ^ (prec - 1))) (- prec).
Definition SFone : spec_float := S754_finite false (Z.to_pos (2 ^ (prec - 1))) (1 - prec).

(** kissfft.h:118-156 : the operations are those of the C type; HALF_OF(x) is (x)*.5 (kissfft.h:160).  With FFT_SINGLE the
    constant .5 makes this product and the subtraction it occurs in (kissfft.h:254-255) double operations that are rounded
    to float once; here they are two float operations. *)
Definition SFops : sops spec_float :=
  mksops _ (S754_zero false) SFone (SFadd prec emax) (SFsub prec emax) (SFmul prec emax) SFopp
    (fun x => SFmul prec emax x SFhalf).

(** unit roundoff, smallest normal number, largest finite number *)
Definition SFu : R := powerRZ 2 (- prec).
Definition SFmu : R := powerRZ 2 (2 - emax).
Definition SFom : R := (IZR (2 ^ prec - 1) * powerRZ 2 (emax - prec))%R.

(** conversion of a number of another format, C's (float) x *)
Definition SFconv (x : spec_float) : spec_float :=
  match x with
  | S754_finite s m e => binary_normalize prec emax (cond_Zopp s (Zpos m)) e s
  | _ => x
  end.

(** conversion of an integer, C's (double) i *)
Definition SFofZ (k : Z) : spec_float := binary_normalize prec emax k 0 false.
End Format.

(** ** double *)
Notation dprec := 53 (only parsing).
Notation demax := 1024 (only parsing).

(** the double nearest to the literal 3.14159265358979323846 of math.h *)
Definition M_PI : spec_float := S754_finite false 7074237752028440 (-51).
Definition dtwo : spec_float := S754_finite false 4503599627370496 (-51).

(** kissfft.h:456 : phase = (st->inverse ? 2.0*M_PI:-2.0*M_PI)*i / nfft *)
Definition phaseD (inv : bool) (i n : Z) : spec_float :=
  SFdiv dprec demax
    (SFmul dprec demax (SFmul dprec demax (if inv then dtwo else SFopp dtwo) M_PI) (SFofZ dprec demax i))
    (SFofZ dprec demax n).

(** kissfft.h:158-166 : kf_cexp, the C library's cos and sin of the phase, converted to the scalar type *)
Section Libm.
Variables cosd sind : spec_float -> spec_float.
Definition twiddleD (inv : bool) (i n : Z) : spec_float * spec_float := (cosd (phaseD inv i n), sind (phaseD inv i n)).
Definition twiddleF (inv : bool) (i n : Z) : spec_float * spec_float :=
  (SFconv 24 128 (cosd (phaseD inv i n)), SFconv 24 128 (sind (phaseD inv i n))).
End Libm.

(** fft3d.cpp:461, fft2d.cpp:430 : norm = 1.0/((bigint) nfast * nmid*nslow), a double *)
Definition normD (k : Z) : spec_float := SFdiv dprec demax (SFone dprec) (SFofZ dprec demax k).
(** fft3d.cpp:1619, fft2d.cpp:1335 : FFT_SCALAR fnorm = norm *)
Definition normF (k : Z) : spec_float := SFconv 24 128 (normD k).
