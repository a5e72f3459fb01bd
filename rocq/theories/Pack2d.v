(** Pack2d.v : model of src/pack2d.h (every pack and unpack routine).

    Same conventions as Pack3d.v.  The two memcpy routines copy
    [nfast*sizeof(double)] bytes whatever PACK_DATA is; [esize] is
    sizeof(PACK_DATA), 8 in double and 4 in single precision builds. *)

From Verif Require Import Base Pack3d.

(** struct pack_plan_2d, src/pack2d.h:27-32 *)
Record pack_plan_2d := {
  nfast2 : Z; nslow2 : Z; nstride2 : Z; nqty2 : Z }.

Section Pack2d.
Context {A : Type}.
Implicit Types (data buf : list A) (pl : pack_plan_2d).

(** ** array-index versions *)

(** pack_2d_array, src/pack2d.h:58-74 *)
Definition pack_2d_array data d0 buf b0 pl : option (list A) :=
  '(buf, _) <- for_ (nslow2 pl) (fun slow '(buf, in_) =>
     let out := slow * nstride2 pl in
     '(buf, in_, _) <- for_ (nfast2 pl) (fun _ '(buf, in_, out) =>
        buf <- cp data (b0 + in_) (d0 + out) buf;
        Some (buf, in_ + 1, out + 1)) (buf, in_, out);
     Some (buf, in_)) (buf, 0);
  Some buf.

(** unpack_2d_array, src/pack2d.h:80-96 *)
Definition unpack_2d_array buf b0 data d0 pl : option (list A) :=
  '(data, _) <- for_ (nslow2 pl) (fun slow '(data, out) =>
     let in_ := slow * nstride2 pl in
     '(data, _, out) <- for_ (nfast2 pl) (fun _ '(data, in_, out) =>
        data <- cp buf (d0 + in_) (b0 + out) data;
        Some (data, in_ + 1, out + 1)) (data, in_, out);
     Some (data, out)) (data, 0);
  Some data.

(** unpack_2d_permute_1_array, src/pack2d.h:102-118 *)
Definition unpack_2d_permute_1_array buf b0 data d0 pl : option (list A) :=
  '(data, _) <- for_ (nslow2 pl) (fun slow '(data, out) =>
     let in_ := slow in
     '(data, _, out) <- for_ (nfast2 pl) (fun _ '(data, in_, out) =>
        data <- cp buf (d0 + in_) (b0 + out) data;
        Some (data, in_ + nstride2 pl, out + 1)) (data, in_, out);
     Some (data, out)) (data, 0);
  Some data.

(** unpack_2d_permute_2_array, src/pack2d.h:124-142 *)
Definition unpack_2d_permute_2_array buf b0 data d0 pl : option (list A) :=
  '(data, _) <- for_ (nslow2 pl) (fun slow '(data, out) =>
     let in_ := 2 * slow in
     '(data, _, out) <- for_ (nfast2 pl) (fun _ '(data, in_, out) =>
        data <- cp buf (d0 + in_) (b0 + out) data;
        data <- cp buf (d0 + (in_ + 1)) (b0 + (out + 1)) data;
        Some (data, in_ + nstride2 pl, out + 1 + 1)) (data, in_, out);
     Some (data, out)) (data, 0);
  Some data.

(** unpack_2d_permute_n_array, src/pack2d.h:148-168 *)
Definition unpack_2d_permute_n_array buf b0 data d0 pl : option (list A) :=
  '(data, _) <- for_ (nslow2 pl) (fun slow '(data, out) =>
     let in_ := nqty2 pl * slow in
     '(data, _, out) <- for_ (nfast2 pl) (fun _ '(data, instart, out) =>
        '(data, _, out) <- for_ (nqty2 pl) (fun _ '(data, in_, out) =>
           data <- cp buf (d0 + in_) (b0 + out) data;
           Some (data, in_ + 1, out + 1)) (data, instart, out);
        Some (data, instart + nstride2 pl, out)) (data, in_, out);
     Some (data, out)) (data, 0);
  Some data.

(** ** pointer versions *)

(** pack_2d_pointer, src/pack2d.h:178-197 *)
Definition pack_2d_pointer data d0 buf b0 pl : option (list A) :=
  '(buf, _) <- for_ (nslow2 pl) (fun slow '(buf, in_) =>
     let begin := d0 + slow * nstride2 pl in
     let end_ := begin + nfast2 pl in
     for_ptr begin end_ 1 (fun out '(buf, in_) =>
        buf <- cp data in_ out buf;
        Some (buf, in_ + 1)) (buf, in_)) (buf, b0);
  Some buf.

(** unpack_2d_pointer, src/pack2d.h:203-222 *)
Definition unpack_2d_pointer buf b0 data d0 pl : option (list A) :=
  '(data, _) <- for_ (nslow2 pl) (fun slow '(data, out) =>
     let begin := d0 + slow * nstride2 pl in
     let end_ := begin + nfast2 pl in
     for_ptr begin end_ 1 (fun in_ '(data, out) =>
        data <- cp buf in_ out data;
        Some (data, out + 1)) (data, out)) (data, b0);
  Some data.

(** unpack_2d_permute_1_pointer, src/pack2d.h:228-247 *)
Definition unpack_2d_permute_1_pointer buf b0 data d0 pl : option (list A) :=
  '(data, _) <- for_ (nslow2 pl) (fun slow '(data, out) =>
     let begin := d0 + slow in
     let end_ := begin + nfast2 pl * nstride2 pl in
     for_ptr begin end_ (nstride2 pl) (fun in_ '(data, out) =>
        data <- cp buf in_ out data;
        Some (data, out + 1)) (data, out)) (data, b0);
  Some data.

(** unpack_2d_permute_2_pointer, src/pack2d.h:253-274 *)
Definition unpack_2d_permute_2_pointer buf b0 data d0 pl : option (list A) :=
  '(data, _) <- for_ (nslow2 pl) (fun slow '(data, out) =>
     let begin := d0 + 2 * slow in
     let end_ := begin + nfast2 pl * nstride2 pl in
     for_ptr begin end_ (nstride2 pl) (fun in_ '(data, out) =>
        data <- cp buf in_ out data;
        data <- cp buf (in_ + 1) (out + 1) data;
        Some (data, out + 1 + 1)) (data, out)) (data, b0);
  Some data.

(** unpack_2d_permute_n_pointer, src/pack2d.h:280-302 *)
Definition unpack_2d_permute_n_pointer buf b0 data d0 pl : option (list A) :=
  '(data, _) <- for_ (nslow2 pl) (fun slow '(data, out) =>
     let begin := d0 + nqty2 pl * slow in
     let end_ := begin + nfast2 pl * nstride2 pl in
     for_ptr begin end_ (nstride2 pl) (fun instart '(data, out) =>
        '(data, _, out) <- for_ (nqty2 pl) (fun _ '(data, in_, out) =>
           data <- cp buf in_ out data;
           Some (data, in_ + 1, out + 1)) (data, instart, out);
        Some (data, out)) (data, out)) (data, b0);
  Some data.

(** ** memcpy versions; [size = nfast*sizeof(double)] bytes, i.e.
    [nfast*8/esize] elements of PACK_DATA *)

(** pack_2d_memcpy, src/pack2d.h:313-331 *)
Definition pack_2d_memcpy (esize : Z) data d0 buf b0 pl : option (list A) :=
  let size := nfast2 pl * 8 in
  for_ (nslow2 pl) (fun slow buf =>
     memcpy_elems buf (b0 + slow * nfast2 pl) data (d0 + slow * nstride2 pl) (size / esize)) buf.

(** unpack_2d_memcpy, src/pack2d.h:337-355 *)
Definition unpack_2d_memcpy (esize : Z) buf b0 data d0 pl : option (list A) :=
  let size := nfast2 pl * 8 in
  for_ (nslow2 pl) (fun slow data =>
     memcpy_elems data (d0 + slow * nstride2 pl) buf (b0 + slow * nfast2 pl) (size / esize)) data.

(** unpack_2d_permute_{1,2,n}_memcpy, src/pack2d.h:361-380, 386-407, 413-435:
    the same statements as the pointer versions *)
Definition unpack_2d_permute_1_memcpy buf b0 data d0 pl : option (list A) :=
  '(data, _) <- for_ (nslow2 pl) (fun slow '(data, out) =>
     let begin := d0 + slow in
     let end_ := begin + nfast2 pl * nstride2 pl in
     for_ptr begin end_ (nstride2 pl) (fun in_ '(data, out) =>
        data <- cp buf in_ out data;
        Some (data, out + 1)) (data, out)) (data, b0);
  Some data.

Definition unpack_2d_permute_2_memcpy buf b0 data d0 pl : option (list A) :=
  '(data, _) <- for_ (nslow2 pl) (fun slow '(data, out) =>
     let begin := d0 + 2 * slow in
     let end_ := begin + nfast2 pl * nstride2 pl in
     for_ptr begin end_ (nstride2 pl) (fun in_ '(data, out) =>
        data <- cp buf in_ out data;
        data <- cp buf (in_ + 1) (out + 1) data;
        Some (data, out + 1 + 1)) (data, out)) (data, b0);
  Some data.

Definition unpack_2d_permute_n_memcpy buf b0 data d0 pl : option (list A) :=
  '(data, _) <- for_ (nslow2 pl) (fun slow '(data, out) =>
     let begin := d0 + nqty2 pl * slow in
     let end_ := begin + nfast2 pl * nstride2 pl in
     for_ptr begin end_ (nstride2 pl) (fun instart '(data, out) =>
        '(data, _, out) <- for_ (nqty2 pl) (fun _ '(data, in_, out) =>
           data <- cp buf in_ out data;
           Some (data, in_ + 1, out + 1)) (data, instart, out);
        Some (data, out)) (data, out)) (data, b0);
  Some data.

End Pack2d.
