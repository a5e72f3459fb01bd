(** Remap3d.v : the formulas of src/remap3d.cpp that depend on the dimension.

    struct extent_3d (remap3d.h:94-98) is a box; its fields isize, jsize, ksize are
    always hi-lo+1 (remap3d.cpp:189-213, 735-737) and are written [ni], [nj], [nk].
    The function pointers [pack] and [unpack] are left unset by the code when
    packflag is not 0, 1 or 2 or permute is not 0, 1 or 2; calling them is an
    error ([None]).  The pointers are chosen when there is at least one message
    (remap3d.cpp:240-243, 298-331) and only called then. *)

From Verif Require Import Base Spec Pack3d Sched Remap.

(** collide(), remap3d.cpp:720-740 *)
Definition collide3 (a b : box3) : option box3 :=
  let ov := mkbox3 (Z.max (ilo a) (ilo b)) (Z.min (ihi a) (ihi b))
                   (Z.max (jlo a) (jlo b)) (Z.min (jhi a) (jhi b))
                   (Z.max (klo a) (klo b)) (Z.min (khi a) (khi b)) in
  if (ihi ov <? ilo ov) || (jhi ov <? jlo ov) || (khi ov <? klo ov) then None else Some ov.

(** send_offset, remap3d.cpp:262-264 *)
Definition soff3 (nq : Z) (inb ov : box3) : Z :=
  nq * ((klo ov - klo inb) * nj inb * ni inb + ((jlo ov - jlo inb) * ni inb + ilo ov - ilo inb)).

(** packplan, remap3d.cpp:265-270 *)
Definition splan3 (nq : Z) (inb ov : box3) : pack_plan_3d :=
  {| nfast := nq * ni ov; nmid := nj ov; nslow := nk ov;
     nstride_line := nq * ni inb; nstride_plane := nq * nj inb * ni inb; nqty := nq |}.

(** recv_offset, remap3d.cpp:359-361, 370-372, 381-383 *)
Definition roff3 (nq permute : Z) (out ov : box3) : Z :=
  if permute =? 0 then
    nq * ((klo ov - klo out) * nj out * ni out + (jlo ov - jlo out) * ni out + (ilo ov - ilo out))
  else if permute =? 1 then
    nq * ((ilo ov - ilo out) * nk out * nj out + (klo ov - klo out) * nj out + (jlo ov - jlo out))
  else
    nq * ((jlo ov - jlo out) * ni out * nk out + (ilo ov - ilo out) * nk out + (klo ov - klo out)).

(** unpackplan, remap3d.cpp:362-367, 373-378, 384-389 *)
Definition rplan3 (nq permute : Z) (out ov : box3) : pack_plan_3d :=
  if permute =? 0 then
    {| nfast := nq * ni ov; nmid := nj ov; nslow := nk ov;
       nstride_line := nq * ni out; nstride_plane := nq * nj out * ni out; nqty := nq |}
  else if permute =? 1 then
    {| nfast := ni ov; nmid := nj ov; nslow := nk ov;
       nstride_line := nq * nj out; nstride_plane := nq * nk out * nj out; nqty := nq |}
  else
    {| nfast := ni ov; nmid := nj ov; nslow := nk ov;
       nstride_line := nq * nk out; nstride_plane := nq * ni out * nk out; nqty := nq |}.

(** send_size, recv_size, remap3d.cpp:271, 392 *)
Definition size3 (nq : Z) (ov : box3) : Z := nq * ni ov * nj ov * nk ov.

(** recvsize in point-to-point mode, remap3d.cpp:417 *)
Definition outvol3 (nq : Z) (out : box3) : Z := nq * ni out * nj out * nk out.

Section Fun.
Context {A : Type}.

(** pack pointer, remap3d.cpp:241-243 *)
Definition pack3 (packflag : Z) (data : list A) d0 buf b0 pl : option (list A) :=
  if packflag =? 0 then pack_3d_array data d0 buf b0 pl
  else if packflag =? 1 then pack_3d_pointer data d0 buf b0 pl
  else if packflag =? 2 then pack_3d_memcpy data d0 buf b0 pl
  else None.

(** unpack pointer, remap3d.cpp:298-331 *)
Definition unpack3 (packflag permute nq : Z) (buf : list A) b0 data d0 pl : option (list A) :=
  if permute =? 0 then
    if packflag =? 0 then unpack_3d_array buf b0 data d0 pl
    else if packflag =? 1 then unpack_3d_pointer buf b0 data d0 pl
    else if packflag =? 2 then unpack_3d_memcpy buf b0 data d0 pl
    else None
  else if permute =? 1 then
    if nq =? 1 then
      if packflag =? 0 then unpack_3d_permute1_1_array buf b0 data d0 pl
      else if packflag =? 1 then unpack_3d_permute1_1_pointer buf b0 data d0 pl
      else if packflag =? 2 then unpack_3d_permute1_1_memcpy buf b0 data d0 pl
      else None
    else if nq =? 2 then
      if packflag =? 0 then unpack_3d_permute1_2_array buf b0 data d0 pl
      else if packflag =? 1 then unpack_3d_permute1_2_pointer buf b0 data d0 pl
      else if packflag =? 2 then unpack_3d_permute1_2_memcpy buf b0 data d0 pl
      else None
    else
      if packflag =? 0 then unpack_3d_permute1_n_array buf b0 data d0 pl
      else if packflag =? 1 then unpack_3d_permute1_n_pointer buf b0 data d0 pl
      else if packflag =? 2 then unpack_3d_permute1_n_memcpy buf b0 data d0 pl
      else None
  else if permute =? 2 then
    if nq =? 1 then
      if packflag =? 0 then unpack_3d_permute2_1_array buf b0 data d0 pl
      else if packflag =? 1 then unpack_3d_permute2_1_pointer buf b0 data d0 pl
      else if packflag =? 2 then unpack_3d_permute2_1_memcpy buf b0 data d0 pl
      else None
    else if nq =? 2 then
      if packflag =? 0 then unpack_3d_permute2_2_array buf b0 data d0 pl
      else if packflag =? 1 then unpack_3d_permute2_2_pointer buf b0 data d0 pl
      else if packflag =? 2 then unpack_3d_permute2_2_memcpy buf b0 data d0 pl
      else None
    else
      if packflag =? 0 then unpack_3d_permute2_n_array buf b0 data d0 pl
      else if packflag =? 1 then unpack_3d_permute2_n_pointer buf b0 data d0 pl
      else if packflag =? 2 then unpack_3d_permute2_n_memcpy buf b0 data d0 pl
      else None
  else None.

(** the settings of one Remap3d object: packflag, nqty, permute *)
Definition ops3 (packflag nq permute : Z) : rops A box3 pack_plan_3d :=
  mkrops collide3 (soff3 nq) (splan3 nq) (roff3 nq permute) (rplan3 nq permute)
         (size3 nq) (outvol3 nq) (pack3 packflag) (unpack3 packflag permute nq).

End Fun.
