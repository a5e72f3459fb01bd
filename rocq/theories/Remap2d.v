(** Remap2d.v : the formulas of src/remap2d.cpp that depend on the dimension.
    [esize] is sizeof(FFT_SCALAR) (8 or 4); the memcpy variants of pack2d.h copy
    nfast*sizeof(double) bytes whatever the precision. *)

From Verif Require Import Base Spec Pack2d Sched Remap.

(** collide(), remap2d.cpp:673-688 *)
Definition collide2 (a b : box2) : option box2 :=
  let ov := mkbox2 (Z.max (ilo2 a) (ilo2 b)) (Z.min (ihi2 a) (ihi2 b))
                   (Z.max (jlo2 a) (jlo2 b)) (Z.min (jhi2 a) (jhi2 b)) in
  if (ihi2 ov <? ilo2 ov) || (jhi2 ov <? jlo2 ov) then None else Some ov.

(** send_offset, remap2d.cpp:249-250 *)
Definition soff2 (nq : Z) (inb ov : box2) : Z :=
  nq * ((jlo2 ov - jlo2 inb) * ni2 inb + ilo2 ov - ilo2 inb).

(** packplan, remap2d.cpp:251-254 *)
Definition splan2 (nq : Z) (inb ov : box2) : pack_plan_2d :=
  {| nfast2 := nq * ni2 ov; nslow2 := nj2 ov; nstride2 := nq * ni2 inb; nqty2 := nq |}.

(** recv_offset, remap2d.cpp:329-330, 337-338 *)
Definition roff2 (nq permute : Z) (out ov : box2) : Z :=
  if permute =? 0 then nq * ((jlo2 ov - jlo2 out) * ni2 out + (ilo2 ov - ilo2 out))
  else nq * ((ilo2 ov - ilo2 out) * nj2 out + (jlo2 ov - jlo2 out)).

(** unpackplan, remap2d.cpp:331-334, 339-342 *)
Definition rplan2 (nq permute : Z) (out ov : box2) : pack_plan_2d :=
  if permute =? 0 then
    {| nfast2 := nq * ni2 ov; nslow2 := nj2 ov; nstride2 := nq * ni2 out; nqty2 := nq |}
  else
    {| nfast2 := ni2 ov; nslow2 := nj2 ov; nstride2 := nq * nj2 out; nqty2 := nq |}.

(** send_size, recv_size, remap2d.cpp:255, 345 *)
Definition size2 (nq : Z) (ov : box2) : Z := nq * ni2 ov * nj2 ov.
(** recvsize in point-to-point mode, remap2d.cpp:370 *)
Definition outvol2 (nq : Z) (out : box2) : Z := nq * ni2 out * nj2 out.

Section Fun.
Context {A : Type}.

(** pack pointer, remap2d.cpp:228-230 *)
Definition pack2 (esize packflag : Z) (data : list A) d0 buf b0 pl : option (list A) :=
  if packflag =? 0 then pack_2d_array data d0 buf b0 pl
  else if packflag =? 1 then pack_2d_pointer data d0 buf b0 pl
  else if packflag =? 2 then pack_2d_memcpy esize data d0 buf b0 pl
  else None.

(** unpack pointer, remap2d.cpp:283-300 *)
Definition unpack2 (esize packflag permute nq : Z) (buf : list A) b0 data d0 pl : option (list A) :=
  if permute =? 0 then
    if packflag =? 0 then unpack_2d_array buf b0 data d0 pl
    else if packflag =? 1 then unpack_2d_pointer buf b0 data d0 pl
    else if packflag =? 2 then unpack_2d_memcpy esize buf b0 data d0 pl
    else None
  else if permute =? 1 then
    if nq =? 1 then
      if packflag =? 0 then unpack_2d_permute_1_array buf b0 data d0 pl
      else if packflag =? 1 then unpack_2d_permute_1_pointer buf b0 data d0 pl
      else if packflag =? 2 then unpack_2d_permute_1_memcpy buf b0 data d0 pl
      else None
    else if nq =? 2 then
      if packflag =? 0 then unpack_2d_permute_2_array buf b0 data d0 pl
      else if packflag =? 1 then unpack_2d_permute_2_pointer buf b0 data d0 pl
      else if packflag =? 2 then unpack_2d_permute_2_memcpy buf b0 data d0 pl
      else None
    else
      if packflag =? 0 then unpack_2d_permute_n_array buf b0 data d0 pl
      else if packflag =? 1 then unpack_2d_permute_n_pointer buf b0 data d0 pl
      else if packflag =? 2 then unpack_2d_permute_n_memcpy buf b0 data d0 pl
      else None
  else None.

Definition ops2 (esize packflag nq permute : Z) : rops A box2 pack_plan_2d :=
  mkrops collide2 (soff2 nq) (splan2 nq) (roff2 nq permute) (rplan2 nq permute)
         (size2 nq) (outvol2 nq) (pack2 esize packflag) (unpack2 esize packflag permute nq).

End Fun.
