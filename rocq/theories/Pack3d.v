(** Pack3d.v : model of src/pack3d.h (every pack and unpack routine).

    [data]/[buf] are whole C arrays; a C call [pack(&data[d0], &buf[b0], plan)]
    becomes [pack data d0 buf b0 plan] and returns the updated destination, or
    [None] if some access is out of bounds.  Index variables are [Z] (C [int],
    overflow is treated separately in Overflow.v).  Forming the one-past-the-end pointer
    [end] of the pointer loops is not checked, only dereferences are. *)

From Verif Require Import Base.

(** struct pack_plan_3d, src/pack3d.h:27-34 *)
Record pack_plan_3d := {
  nfast : Z; nmid : Z; nslow : Z;
  nstride_line : Z; nstride_plane : Z; nqty : Z }.

Section Pack3d.
Context {A : Type}.
Implicit Types (data buf : list A) (pl : pack_plan_3d).

(** [dst[d] = src[s]] *)
Definition cp (src : list A) (d s : Z) (dst : list A) : option (list A) :=
  v <- zget src s; zset dst d v.

(** ** array-index versions *)

(** pack_3d_array, src/pack3d.h:60-81 *)
Definition pack_3d_array data d0 buf b0 pl : option (list A) :=
  '(buf, _) <- for_ (nslow pl) (fun slow '(buf, in_) =>
     let plane := slow * nstride_plane pl in
     for_ (nmid pl) (fun mid '(buf, in_) =>
       let out := plane + mid * nstride_line pl in
       '(buf, in_, _) <- for_ (nfast pl) (fun _ '(buf, in_, out) =>
          buf <- cp data (b0 + in_) (d0 + out) buf;
          Some (buf, in_ + 1, out + 1)) (buf, in_, out);
       Some (buf, in_)) (buf, in_)) (buf, 0);
  Some buf.

(** unpack_3d_array, src/pack3d.h:87-108 *)
Definition unpack_3d_array buf b0 data d0 pl : option (list A) :=
  '(data, _) <- for_ (nslow pl) (fun slow '(data, out) =>
     let plane := slow * nstride_plane pl in
     for_ (nmid pl) (fun mid '(data, out) =>
       let in_ := plane + mid * nstride_line pl in
       '(data, _, out) <- for_ (nfast pl) (fun _ '(data, in_, out) =>
          data <- cp buf (d0 + in_) (b0 + out) data;
          Some (data, in_ + 1, out + 1)) (data, in_, out);
       Some (data, out)) (data, out)) (data, 0);
  Some data.

(** unpack_3d_permute1_1_array, src/pack3d.h:114-135 *)
Definition unpack_3d_permute1_1_array buf b0 data d0 pl : option (list A) :=
  '(data, _) <- for_ (nslow pl) (fun slow '(data, out) =>
     let plane := slow * nstride_line pl in
     for_ (nmid pl) (fun mid '(data, out) =>
       let in_ := plane + mid in
       '(data, _, out) <- for_ (nfast pl) (fun _ '(data, in_, out) =>
          data <- cp buf (d0 + in_) (b0 + out) data;
          Some (data, in_ + nstride_plane pl, out + 1)) (data, in_, out);
       Some (data, out)) (data, out)) (data, 0);
  Some data.

(** unpack_3d_permute1_2_array, src/pack3d.h:141-164 *)
Definition unpack_3d_permute1_2_array buf b0 data d0 pl : option (list A) :=
  '(data, _) <- for_ (nslow pl) (fun slow '(data, out) =>
     let plane := slow * nstride_line pl in
     for_ (nmid pl) (fun mid '(data, out) =>
       let in_ := plane + 2 * mid in
       '(data, _, out) <- for_ (nfast pl) (fun _ '(data, in_, out) =>
          data <- cp buf (d0 + in_) (b0 + out) data;
          data <- cp buf (d0 + (in_ + 1)) (b0 + (out + 1)) data;
          Some (data, in_ + nstride_plane pl, out + 1 + 1)) (data, in_, out);
       Some (data, out)) (data, out)) (data, 0);
  Some data.

(** unpack_3d_permute1_n_array, src/pack3d.h:170-195 *)
Definition unpack_3d_permute1_n_array buf b0 data d0 pl : option (list A) :=
  '(data, _) <- for_ (nslow pl) (fun slow '(data, out) =>
     let plane := slow * nstride_line pl in
     for_ (nmid pl) (fun mid '(data, out) =>
       let in_ := plane + nqty pl * mid in
       '(data, _, out) <- for_ (nfast pl) (fun _ '(data, instart, out) =>
          '(data, _, out) <- for_ (nqty pl) (fun _ '(data, in_, out) =>
             data <- cp buf (d0 + in_) (b0 + out) data;
             Some (data, in_ + 1, out + 1)) (data, instart, out);
          Some (data, instart + nstride_plane pl, out)) (data, in_, out);
       Some (data, out)) (data, out)) (data, 0);
  Some data.

(** unpack_3d_permute2_1_array, src/pack3d.h:201-222 *)
Definition unpack_3d_permute2_1_array buf b0 data d0 pl : option (list A) :=
  '(data, _) <- for_ (nslow pl) (fun slow '(data, out) =>
     for_ (nmid pl) (fun mid '(data, out) =>
       let in_ := slow + mid * nstride_plane pl in
       '(data, _, out) <- for_ (nfast pl) (fun _ '(data, in_, out) =>
          data <- cp buf (d0 + in_) (b0 + out) data;
          Some (data, in_ + nstride_line pl, out + 1)) (data, in_, out);
       Some (data, out)) (data, out)) (data, 0);
  Some data.

(** unpack_3d_permute2_2_array, src/pack3d.h:228-251 *)
Definition unpack_3d_permute2_2_array buf b0 data d0 pl : option (list A) :=
  '(data, _) <- for_ (nslow pl) (fun slow '(data, out) =>
     for_ (nmid pl) (fun mid '(data, out) =>
       let in_ := 2 * slow + mid * nstride_plane pl in
       '(data, _, out) <- for_ (nfast pl) (fun _ '(data, in_, out) =>
          data <- cp buf (d0 + in_) (b0 + out) data;
          data <- cp buf (d0 + (in_ + 1)) (b0 + (out + 1)) data;
          Some (data, in_ + nstride_line pl, out + 1 + 1)) (data, in_, out);
       Some (data, out)) (data, out)) (data, 0);
  Some data.

(** unpack_3d_permute2_n_array, src/pack3d.h:257-281 *)
Definition unpack_3d_permute2_n_array buf b0 data d0 pl : option (list A) :=
  '(data, _) <- for_ (nslow pl) (fun slow '(data, out) =>
     for_ (nmid pl) (fun mid '(data, out) =>
       let in_ := nqty pl * slow + mid * nstride_plane pl in
       '(data, _, out) <- for_ (nfast pl) (fun _ '(data, instart, out) =>
          '(data, _, out) <- for_ (nqty pl) (fun _ '(data, in_, out) =>
             data <- cp buf (d0 + in_) (b0 + out) data;
             Some (data, in_ + 1, out + 1)) (data, instart, out);
          Some (data, instart + nstride_line pl, out)) (data, in_, out);
       Some (data, out)) (data, out)) (data, 0);
  Some data.

(** ** pointer versions; a pointer into [data] or [buf] is its index *)

(** pack_3d_pointer, src/pack3d.h:291-315 *)
Definition pack_3d_pointer data d0 buf b0 pl : option (list A) :=
  '(buf, _) <- for_ (nslow pl) (fun slow '(buf, in_) =>
     let plane := slow * nstride_plane pl in
     for_ (nmid pl) (fun mid '(buf, in_) =>
       let begin := d0 + (plane + mid * nstride_line pl) in
       let end_ := begin + nfast pl in
       for_ptr begin end_ 1 (fun out '(buf, in_) =>
          buf <- cp data in_ out buf;
          Some (buf, in_ + 1)) (buf, in_)) (buf, in_)) (buf, b0);
  Some buf.

(** unpack_3d_pointer, src/pack3d.h:321-345 *)
Definition unpack_3d_pointer buf b0 data d0 pl : option (list A) :=
  '(data, _) <- for_ (nslow pl) (fun slow '(data, out) =>
     let plane := slow * nstride_plane pl in
     for_ (nmid pl) (fun mid '(data, out) =>
       let begin := d0 + (plane + mid * nstride_line pl) in
       let end_ := begin + nfast pl in
       for_ptr begin end_ 1 (fun in_ '(data, out) =>
          data <- cp buf in_ out data;
          Some (data, out + 1)) (data, out)) (data, out)) (data, b0);
  Some data.

(** unpack_3d_permute1_1_pointer, src/pack3d.h:351-375 *)
Definition unpack_3d_permute1_1_pointer buf b0 data d0 pl : option (list A) :=
  '(data, _) <- for_ (nslow pl) (fun slow '(data, out) =>
     let plane := slow * nstride_line pl in
     for_ (nmid pl) (fun mid '(data, out) =>
       let begin := d0 + (plane + mid) in
       let end_ := begin + nfast pl * (nstride_plane pl) in
       for_ptr begin end_ (nstride_plane pl) (fun in_ '(data, out) =>
          data <- cp buf in_ out data;
          Some (data, out + 1)) (data, out)) (data, out)) (data, b0);
  Some data.

(** unpack_3d_permute1_2_pointer, src/pack3d.h:381-407 *)
Definition unpack_3d_permute1_2_pointer buf b0 data d0 pl : option (list A) :=
  '(data, _) <- for_ (nslow pl) (fun slow '(data, out) =>
     let plane := slow * nstride_line pl in
     for_ (nmid pl) (fun mid '(data, out) =>
       let begin := d0 + (plane + 2 * mid) in
       let end_ := begin + nfast pl * (nstride_plane pl) in
       for_ptr begin end_ (nstride_plane pl) (fun in_ '(data, out) =>
          data <- cp buf in_ out data;
          data <- cp buf (in_ + 1) (out + 1) data;
          Some (data, out + 1 + 1)) (data, out)) (data, out)) (data, b0);
  Some data.

(** unpack_3d_permute1_n_pointer, src/pack3d.h:413-440 *)
Definition unpack_3d_permute1_n_pointer buf b0 data d0 pl : option (list A) :=
  '(data, _) <- for_ (nslow pl) (fun slow '(data, out) =>
     let plane := slow * nstride_line pl in
     for_ (nmid pl) (fun mid '(data, out) =>
       let begin := d0 + (plane + nqty pl * mid) in
       let end_ := begin + nfast pl * (nstride_plane pl) in
       for_ptr begin end_ (nstride_plane pl) (fun instart '(data, out) =>
          '(data, _, out) <- for_ (nqty pl) (fun _ '(data, in_, out) =>
             data <- cp buf in_ out data;
             Some (data, in_ + 1, out + 1)) (data, instart, out);
          Some (data, out)) (data, out)) (data, out)) (data, b0);
  Some data.

(** unpack_3d_permute2_1_pointer, src/pack3d.h:446-469 *)
Definition unpack_3d_permute2_1_pointer buf b0 data d0 pl : option (list A) :=
  '(data, _) <- for_ (nslow pl) (fun slow '(data, out) =>
     for_ (nmid pl) (fun mid '(data, out) =>
       let begin := d0 + (slow + mid * nstride_plane pl) in
       let end_ := begin + nfast pl * (nstride_line pl) in
       for_ptr begin end_ (nstride_line pl) (fun in_ '(data, out) =>
          data <- cp buf in_ out data;
          Some (data, out + 1)) (data, out)) (data, out)) (data, b0);
  Some data.

(** unpack_3d_permute2_2_pointer, src/pack3d.h:475-500 *)
Definition unpack_3d_permute2_2_pointer buf b0 data d0 pl : option (list A) :=
  '(data, _) <- for_ (nslow pl) (fun slow '(data, out) =>
     for_ (nmid pl) (fun mid '(data, out) =>
       let begin := d0 + (2 * slow + mid * nstride_plane pl) in
       let end_ := begin + nfast pl * (nstride_line pl) in
       for_ptr begin end_ (nstride_line pl) (fun in_ '(data, out) =>
          data <- cp buf in_ out data;
          data <- cp buf (in_ + 1) (out + 1) data;
          Some (data, out + 1 + 1)) (data, out)) (data, out)) (data, b0);
  Some data.

(** unpack_3d_permute2_n_pointer, src/pack3d.h:506-532 *)
Definition unpack_3d_permute2_n_pointer buf b0 data d0 pl : option (list A) :=
  '(data, _) <- for_ (nslow pl) (fun slow '(data, out) =>
     for_ (nmid pl) (fun mid '(data, out) =>
       let begin := d0 + (nqty pl * slow + mid * nstride_plane pl) in
       let end_ := begin + nfast pl * (nstride_line pl) in
       for_ptr begin end_ (nstride_line pl) (fun instart '(data, out) =>
          '(data, _, out) <- for_ (nqty pl) (fun _ '(data, in_, out) =>
             data <- cp buf in_ out data;
             Some (data, in_ + 1, out + 1)) (data, instart, out);
          Some (data, out)) (data, out)) (data, out)) (data, b0);
  Some data.

(** ** memcpy versions *)

(** pack_3d_memcpy, src/pack3d.h:543-567 *)
Definition pack_3d_memcpy data d0 buf b0 pl : option (list A) :=
  for_ (nslow pl) (fun slow buf =>
     let plane := slow * nstride_plane pl in
     let upto := slow * nmid pl * nfast pl in
     for_ (nmid pl) (fun mid buf =>
       let in_ := b0 + (upto + mid * nfast pl) in
       let out := d0 + (plane + mid * nstride_line pl) in
       memcpy_elems buf in_ data out (nfast pl)) buf) buf.

(** unpack_3d_memcpy, src/pack3d.h:573-597 *)
Definition unpack_3d_memcpy buf b0 data d0 pl : option (list A) :=
  for_ (nslow pl) (fun slow data =>
     let plane := slow * nstride_plane pl in
     let upto := slow * nmid pl * nfast pl in
     for_ (nmid pl) (fun mid data =>
       let in_ := d0 + (plane + mid * nstride_line pl) in
       let out := b0 + (upto + mid * nfast pl) in
       memcpy_elems data in_ buf out (nfast pl)) data) data.

(** The permuting "memcpy" routines of the source have the same statements as
    the pointer routines (src/pack3d.h:603-784); they are kept as separate
    definitions because setup() selects them by name. *)
(** unpack_3d_permute1_1_memcpy, src/pack3d.h:603-627 *)
Definition unpack_3d_permute1_1_memcpy buf b0 data d0 pl : option (list A) :=
  '(data, _) <- for_ (nslow pl) (fun slow '(data, out) =>
     let plane := slow * nstride_line pl in
     for_ (nmid pl) (fun mid '(data, out) =>
       let begin := d0 + (plane + mid) in
       let end_ := begin + nfast pl * (nstride_plane pl) in
       for_ptr begin end_ (nstride_plane pl) (fun in_ '(data, out) =>
          data <- cp buf in_ out data;
          Some (data, out + 1)) (data, out)) (data, out)) (data, b0);
  Some data.

(** unpack_3d_permute1_2_memcpy, src/pack3d.h:633-659 *)
Definition unpack_3d_permute1_2_memcpy buf b0 data d0 pl : option (list A) :=
  '(data, _) <- for_ (nslow pl) (fun slow '(data, out) =>
     let plane := slow * nstride_line pl in
     for_ (nmid pl) (fun mid '(data, out) =>
       let begin := d0 + (plane + 2 * mid) in
       let end_ := begin + nfast pl * (nstride_plane pl) in
       for_ptr begin end_ (nstride_plane pl) (fun in_ '(data, out) =>
          data <- cp buf in_ out data;
          data <- cp buf (in_ + 1) (out + 1) data;
          Some (data, out + 1 + 1)) (data, out)) (data, out)) (data, b0);
  Some data.

(** unpack_3d_permute1_n_memcpy, src/pack3d.h:665-692 *)
Definition unpack_3d_permute1_n_memcpy buf b0 data d0 pl : option (list A) :=
  '(data, _) <- for_ (nslow pl) (fun slow '(data, out) =>
     let plane := slow * nstride_line pl in
     for_ (nmid pl) (fun mid '(data, out) =>
       let begin := d0 + (plane + nqty pl * mid) in
       let end_ := begin + nfast pl * (nstride_plane pl) in
       for_ptr begin end_ (nstride_plane pl) (fun instart '(data, out) =>
          '(data, _, out) <- for_ (nqty pl) (fun _ '(data, in_, out) =>
             data <- cp buf in_ out data;
             Some (data, in_ + 1, out + 1)) (data, instart, out);
          Some (data, out)) (data, out)) (data, out)) (data, b0);
  Some data.

(** unpack_3d_permute2_1_memcpy, src/pack3d.h:698-721 *)
Definition unpack_3d_permute2_1_memcpy buf b0 data d0 pl : option (list A) :=
  '(data, _) <- for_ (nslow pl) (fun slow '(data, out) =>
     for_ (nmid pl) (fun mid '(data, out) =>
       let begin := d0 + (slow + mid * nstride_plane pl) in
       let end_ := begin + nfast pl * (nstride_line pl) in
       for_ptr begin end_ (nstride_line pl) (fun in_ '(data, out) =>
          data <- cp buf in_ out data;
          Some (data, out + 1)) (data, out)) (data, out)) (data, b0);
  Some data.

(** unpack_3d_permute2_2_memcpy, src/pack3d.h:727-752 *)
Definition unpack_3d_permute2_2_memcpy buf b0 data d0 pl : option (list A) :=
  '(data, _) <- for_ (nslow pl) (fun slow '(data, out) =>
     for_ (nmid pl) (fun mid '(data, out) =>
       let begin := d0 + (2 * slow + mid * nstride_plane pl) in
       let end_ := begin + nfast pl * (nstride_line pl) in
       for_ptr begin end_ (nstride_line pl) (fun in_ '(data, out) =>
          data <- cp buf in_ out data;
          data <- cp buf (in_ + 1) (out + 1) data;
          Some (data, out + 1 + 1)) (data, out)) (data, out)) (data, b0);
  Some data.

(** unpack_3d_permute2_n_memcpy, src/pack3d.h:758-784 *)
Definition unpack_3d_permute2_n_memcpy buf b0 data d0 pl : option (list A) :=
  '(data, _) <- for_ (nslow pl) (fun slow '(data, out) =>
     for_ (nmid pl) (fun mid '(data, out) =>
       let begin := d0 + (nqty pl * slow + mid * nstride_plane pl) in
       let end_ := begin + nfast pl * (nstride_line pl) in
       for_ptr begin end_ (nstride_line pl) (fun instart '(data, out) =>
          '(data, _, out) <- for_ (nqty pl) (fun _ '(data, in_, out) =>
             data <- cp buf in_ out data;
             Some (data, in_ + 1, out + 1)) (data, instart, out);
          Some (data, out)) (data, out)) (data, out)) (data, b0);
  Some data.

End Pack3d.
