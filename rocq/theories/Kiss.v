(** Kiss.v : model of the built-in 1d FFT (src/kissfft.h).

    The scalar type and its arithmetic are a parameter ([sops]), so the same
    model is run on exact scalars (real numbers, finite fields) and on IEEE
    doubles and floats (Binary.v).  A complex number (FFT_DATA) is a pair (re,im).
    The OpenMP and alloca compile-time variants are not modelled (alloca only
    changes where the temporary lives). *)

From Verif Require Import Base.

(** ** Scalars *)

(** The operations on FFT_SCALAR that the code uses: + - * unary minus and
    HALF_OF (kissfft.h:160); [s0]/[s1] are only used by specifications. *)
Record sops (F : Type) := mksops {
  s0 : F; s1 : F;
  sadd : F -> F -> F; ssub : F -> F -> F; smul : F -> F -> F;
  sopp : F -> F; shalf : F -> F }.

Arguments s0 {F} _. Arguments s1 {F} _. Arguments sadd {F} _ _ _.
Arguments ssub {F} _ _ _. Arguments smul {F} _ _ _.
Arguments sopp {F} _ _. Arguments shalf {F} _ _.

Section Kiss.
Context {F : Type} (O : sops F).

Definition cpx : Type := (F * F)%type.

Local Notation "a +. b" := (sadd O a b) (at level 50, left associativity).
Local Notation "a -. b" := (ssub O a b) (at level 50, left associativity).
Local Notation "a *. b" := (smul O a b) (at level 40, left associativity).
Local Notation "-. a" := (sopp O a) (at level 35, right associativity).
Local Notation re := (@fst F F).
Local Notation im := (@snd F F).

(** C_MUL, kissfft.h:119-121 *)
Definition c_mul (a b : cpx) : cpx :=
  (re a *. re b -. im a *. im b, re a *. im b +. im a *. re b).
(** C_ADD / C_ADDTO, kissfft.h:131-148 *)
Definition c_add (a b : cpx) : cpx := (re a +. re b, im a +. im b).
(** C_SUB, kissfft.h:137-142 *)
Definition c_sub (a b : cpx) : cpx := (re a -. re b, im a -. im b).
(** C_MULBYSCALAR, kissfft.h:123-125 *)
Definition c_scale (a : cpx) (s : F) : cpx := (re a *. s, im a *. s).

(** The plan: struct kiss_fft_state, kissfft.h:85-90.  [k_factors] is the list
    of the pairs (p,m) stored at factors[2i], factors[2i+1]. *)
Record cfg := mkcfg {
  k_nfft : Z; k_inverse : bool; k_factors : list (Z * Z); k_tw : list cpx }.

(** kf_bfly2, kissfft.h:168-186.  [o] is the offset of Fout inside the array;
    the do-while loop needs m >= 1 (m = 0 would run away: [None]). *)
Definition kf_bfly2 (st : cfg) (fs m o : Z) (out : list cpx) : option (list cpx) :=
  if m <? 1 then None else
  for_ m (fun k out =>
    f0 <- zget out (o + k);
    f1 <- zget out ((o + k) + m);
    w1 <- zget (k_tw st) (k * fs);
    let t := c_mul f1 w1 in
    out <- zset out ((o + k) + m) (c_sub f0 t);
    zset out (o + k) (c_add f0 t)) out.

(** kf_bfly4, kissfft.h:188-229 *)
Definition kf_bfly4 (st : cfg) (fs m o : Z) (out : list cpx) : option (list cpx) :=
  if m <? 1 then None else
  for_ m (fun k out =>
    let a := o + k in
    f0 <- zget out a;
    f1 <- zget out (a + m);
    f2 <- zget out (a + (2 * m));
    f3 <- zget out (a + (3 * m));
    w1 <- zget (k_tw st) (k * fs);
    w2 <- zget (k_tw st) (k * (fs * 2));
    w3 <- zget (k_tw st) (k * (fs * 3));
    let t0 := c_mul f1 w1 in
    let t1 := c_mul f2 w2 in
    let t2 := c_mul f3 w3 in
    let t5 := c_sub f0 t1 in
    let f0' := c_add f0 t1 in
    let t3 := c_add t0 t2 in
    let t4 := c_sub t0 t2 in
    out <- zset out (a + (2 * m)) (c_sub f0' t3);
    out <- zset out a (c_add f0' t3);
    if k_inverse st then
      out <- zset out (a + m) (re t5 -. im t4, im t5 +. re t4);
      zset out (a + (3 * m)) (re t5 +. im t4, im t5 -. re t4)
    else
      out <- zset out (a + m) (re t5 +. im t4, im t5 -. re t4);
      zset out (a + (3 * m)) (re t5 -. im t4, im t5 +. re t4)) out.

(** kf_bfly3, kissfft.h:231-269 *)
Definition kf_bfly3 (st : cfg) (fs m o : Z) (out : list cpx) : option (list cpx) :=
  if m <? 1 then None else
  epi3 <- zget (k_tw st) (fs * m);
  for_ m (fun k out =>
    let a := o + k in
    f0 <- zget out a;
    f1 <- zget out (a + m);
    f2 <- zget out (a + (2 * m));
    w1 <- zget (k_tw st) (k * fs);
    w2 <- zget (k_tw st) (k * (fs * 2));
    let t1 := c_mul f1 w1 in
    let t2 := c_mul f2 w2 in
    let t3 := c_add t1 t2 in
    let t0 := c_sub t1 t2 in
    let fm := (re f0 -. shalf O (re t3), im f0 -. shalf O (im t3)) in
    let t0 := c_scale t0 (im epi3) in
    out <- zset out a (c_add f0 t3);
    out <- zset out (a + (2 * m)) (re fm +. im t0, im fm -. re t0);
    zset out (a + m) (re fm -. im t0, im fm +. re t0)) out.

(** kf_bfly5, kissfft.h:271-326 *)
Definition kf_bfly5 (st : cfg) (fs m o : Z) (out : list cpx) : option (list cpx) :=
  ya <- zget (k_tw st) (fs * m);
  yb <- zget (k_tw st) ((fs * 2) * m);
  for_ m (fun u out =>
    let a := o + u in
    f0 <- zget out a;
    f1 <- zget out (a + m);
    f2 <- zget out (a + (2 * m));
    f3 <- zget out (a + (3 * m));
    f4 <- zget out (a + (4 * m));
    w1 <- zget (k_tw st) (u * fs);
    w2 <- zget (k_tw st) ((2 * u) * fs);
    w3 <- zget (k_tw st) ((3 * u) * fs);
    w4 <- zget (k_tw st) ((4 * u) * fs);
    let t0 := f0 in
    let t1 := c_mul f1 w1 in
    let t2 := c_mul f2 w2 in
    let t3 := c_mul f3 w3 in
    let t4 := c_mul f4 w4 in
    let t7 := c_add t1 t4 in
    let t10 := c_sub t1 t4 in
    let t8 := c_add t2 t3 in
    let t9 := c_sub t2 t3 in
    out <- zset out a (re f0 +. (re t7 +. re t8), im f0 +. (im t7 +. im t8));
    let t5 := (re t0 +. re t7 *. re ya +. re t8 *. re yb,
               im t0 +. im t7 *. re ya +. im t8 *. re yb) in
    let t6 := (im t10 *. im ya +. im t9 *. im yb,
               -. (re t10 *. im ya) -. re t9 *. im yb) in
    out <- zset out (a + m) (c_sub t5 t6);
    out <- zset out (a + (4 * m)) (c_add t5 t6);
    let t11 := (re t0 +. re t7 *. re yb +. re t8 *. re ya,
                im t0 +. im t7 *. re yb +. im t8 *. re ya) in
    let t12 := (-. (im t10 *. im yb) +. im t9 *. im ya,
                re t10 *. im yb -. re t9 *. im ya) in
    out <- zset out (a + (2 * m)) (c_add t11 t12);
    zset out (a + (3 * m)) (c_sub t11 t12)) out.

(** kf_bfly_generic, kissfft.h:329-360.  The inner q loop's state is
    (twidx, Fout[k]); Fout[k] is kept in a local value and stored after the
    loop, which is the same because nothing else reads it meanwhile. *)
Definition kf_bfly_generic (st : cfg) (fs m p o : Z) (out : list cpx) : option (list cpx) :=
  for_ m (fun u out =>
    scratch <- for_ p (fun q1 sc =>
      v <- zget out (o + (u + (q1 * m))); Some (sc ++ [v])) [];
    for_ p (fun q1 out =>
      let k := u + q1 * m in
      v0 <- zget scratch 0;
      r <- for_ (p - 1) (fun q' (s : Z * cpx) =>
        let q := q' + 1 in
        let twidx := fst s + fs * k in
        let twidx := if k_nfft st <=? twidx then twidx - k_nfft st else twidx in
        sq <- zget scratch q;
        w <- zget (k_tw st) twidx;
        Some (twidx, c_add (snd s) (c_mul sq w))) (0, v0);
      zset out (o + k) (snd r)) out) out.

(** kf_work, kissfft.h:362-397.  The output array is passed with the offset
    [o] of Fout and the (distinct) input array with the offset [i] of f. *)
Fixpoint kf_work (st : cfg) (facs : list (Z * Z)) (fs ist : Z)
  (fin : list cpx) (i : Z) (o : Z) (out : list cpx) : option (list cpx) :=
  match facs with
  | [] => None
  | (p, m) :: rest =>
    if (p <? 1) || (m <? 1) then None else
    out <- (if m =? 1
            then for_ p (fun q out =>
                   v <- zget fin (i + (q * (fs * ist)));
                   zset out (o + q) v) out
            else for_ p (fun q out =>
                   kf_work st rest (fs * p) ist fin (i + (q * (fs * ist)))
                     (o + (q * m)) out) out);
    if p =? 2 then kf_bfly2 st fs m o out
    else if p =? 3 then kf_bfly3 st fs m o out
    else if p =? 4 then kf_bfly4 st fs m o out
    else if p =? 5 then kf_bfly5 st fs m o out
    else kf_bfly_generic st fs m p o out
  end.

(** ** kf_factor, kissfft.h:403-427 *)

(** the switch and the test after it, kissfft.h:414-420 *)
Definition next_p (n fsq p : Z) : Z :=
  let p' := if p =? 4 then 2 else if p =? 2 then 3 else p + 2 in
  if fsq <? p' then n else p'.

(** while (n % p), kissfft.h:413-421.  [fsq] = floor_sqrt, taken to be the
    exact integer square root (sqrt of a double holding a 32-bit int is
    correctly rounded, so floor of it is exact). Out of fuel or p = 0: [None]. *)
Fixpoint find_p (fuel : nat) (n fsq p : Z) : option Z :=
  if p =? 0 then None else
  if n mod p =? 0 then Some p else
  match fuel with
  | Datatypes.O => None
  | S fu => find_p fu n fsq (next_p n fsq p)
  end.

Definition maxfactors : nat := 32.

(** the do-while loop, kissfft.h:411-426; [nf] counts the stored pairs.
    facbuf has room for 32 pairs: storing a 33rd one is [None]. *)
Fixpoint kf_factor_loop (fuel nf : nat) (n fsq p : Z) : option (list (Z * Z)) :=
  match fuel with
  | Datatypes.O => None
  | S fu =>
    let p := if Nat.eqb nf maxfactors then n else p in
    p <- find_p (Z.to_nat (fsq + 3)) n fsq p;
    let n := n / p in
    if Nat.leb maxfactors nf then None else
    if 1 <? n then
      rest <- kf_factor_loop fu (S nf) n fsq p;
      Some ((p, n) :: rest)
    else Some [(p, n)]
  end.

Definition kf_factor (n : Z) : option (list (Z * Z)) :=
  kf_factor_loop 34 0 n (Z.sqrt n) 4.

(** kiss_fft_alloc, kissfft.h:435-462.  [cexp inv i n] is the pair
    (cos phase, sin phase) for phase = (inv ? 2 pi : -2 pi) * i / n. *)
Definition kiss_fft_alloc (cexp : bool -> Z -> Z -> cpx) (nfft : Z) (inverse : bool) : option cfg :=
  facs <- kf_factor nfft;
  Some (mkcfg nfft inverse facs (map (fun i => cexp inverse i nfft) (zrange nfft))).

(** write a block into an array: memcpy(out+o, blk, |blk|) *)
Definition cwrite {A} (out : list A) (o : Z) (blk : list A) : option (list A) :=
  for_ (zlen blk) (fun j out => v <- zget blk j; zset out (o + j) v) out.

(** kiss_fft_stride, kissfft.h:464-476: [None] as output array = "fin == fout".
    In place a temporary of nfft cells is used and copied back; its initial
    contents are given by [tmp] (arbitrary, malloc). *)
Definition kiss_fft_inplace (st : cfg) (tmp : list cpx) (ist : Z) (arr : list cpx) (o : Z)
  : option (list cpx) :=
  t <- kf_work st (k_factors st) 1 ist arr o 0 tmp;
  cwrite arr o t.

Definition kiss_fft_outplace (st : cfg) (ist : Z) (fin : list cpx) (i : Z)
  (out : list cpx) (o : Z) : option (list cpx) :=
  kf_work st (k_factors st) 1 ist fin i o out.

End Kiss.
