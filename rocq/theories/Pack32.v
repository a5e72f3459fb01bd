(** Pack32.v : the routines of src/pack3d.h and src/pack2d.h with the C arithmetic that Pack3d.v and Pack2d.v leave out.

    Every [int] expression is an expression tree of Overflow.v and is evaluated in 32 bits; overflow is undefined ([None]).
    With [strict] a pointer that is formed must point into its array or one past its end ([None] otherwise, C++ [expr.add]);
    without it pointers are plain numbers.  A loop variable that counts from 0 to an int needs no check.  The pointers of the
    pointer loops that are not checked, [in], [out], [instart] after an increment, lie between a pointer that was formed and
    [end], or are one past an element that was accessed.  [size] of the memcpy routines is an int that is assigned a size_t,
    reduced modulo 2^32 as the compilers do, and converted back to size_t by the call of memcpy.  The routines that permute
    with memcpy have the statements of the pointer routines (pack3d.h:603-784, pack2d.h:361-435) and are not repeated. *)

From Verif Require Import Base Pack3d Pack2d Wrap Overflow.
Local Open Scope Z_scope.

(** assignment of a size_t to an int *)
Definition to_int (z : Z) : Z := (z + 2 ^ 31) mod 2 ^ 32 - 2 ^ 31.

Section Pack32.
Context {A : Type}.
Variable strict : bool.
Implicit Types (data buf : list A) (pl : pack_plan_3d) (ql : pack_plan_2d).

(** the pointer [p] into an array of [len] elements *)
Definition ptr (len p : Z) : option Z :=
  if strict then (if (0 <=? p) && (p <=? len) then Some p else None) else Some p.

(** memcpy(in,out,size): [esize] bytes per element; a negative int is a huge size_t *)
Definition memcpy32 (esize : Z) (dst : list A) (d : Z) (src : list A) (s size : Z) : option (list A) :=
  if size <? 0 then None else memcpy_elems dst d src s (size / esize).

(** ** array-index versions, 3d *)

(** pack_3d_array, src/pack3d.h:60-81 *)
Definition pack_3d_array32 data d0 buf b0 pl : option (list A) :=
  '(buf, _) <- for_ (nslow pl) (fun slow '(buf, in_) =>
     plane <- ev (#slow * #(nstride_plane pl))%I;
     for_ (nmid pl) (fun mid '(buf, in_) =>
       out <- ev (#plane + #mid * #(nstride_line pl))%I;
       '(buf, in_, _) <- for_ (nfast pl) (fun _ '(buf, in_, out) =>
          buf <- cp data (b0 + in_) (d0 + out) buf;
          in_ <- ev (incr in_); out <- ev (incr out);
          Some (buf, in_, out)) (buf, in_, out);
       Some (buf, in_)) (buf, in_)) (buf, 0);
  Some buf.

(** unpack_3d_array, src/pack3d.h:87-108 *)
Definition unpack_3d_array32 buf b0 data d0 pl : option (list A) :=
  '(data, _) <- for_ (nslow pl) (fun slow '(data, out) =>
     plane <- ev (#slow * #(nstride_plane pl))%I;
     for_ (nmid pl) (fun mid '(data, out) =>
       in_ <- ev (#plane + #mid * #(nstride_line pl))%I;
       '(data, _, out) <- for_ (nfast pl) (fun _ '(data, in_, out) =>
          data <- cp buf (d0 + in_) (b0 + out) data;
          out <- ev (incr out); in_ <- ev (incr in_);
          Some (data, in_, out)) (data, in_, out);
       Some (data, out)) (data, out)) (data, 0);
  Some data.

(** unpack_3d_permute1_1_array, src/pack3d.h:114-135 *)
Definition unpack_3d_permute1_1_array32 buf b0 data d0 pl : option (list A) :=
  '(data, _) <- for_ (nslow pl) (fun slow '(data, out) =>
     plane <- ev (#slow * #(nstride_line pl))%I;
     for_ (nmid pl) (fun mid '(data, out) =>
       in_ <- ev (#plane + #mid)%I;
       '(data, _, out) <- for_ (nfast pl) (fun _ '(data, in_, out) =>
          data <- cp buf (d0 + in_) (b0 + out) data;
          out <- ev (incr out); in_ <- ev (#in_ + #(nstride_plane pl))%I;
          Some (data, in_, out)) (data, in_, out);
       Some (data, out)) (data, out)) (data, 0);
  Some data.

(** unpack_3d_permute1_2_array, src/pack3d.h:141-164 *)
Definition unpack_3d_permute1_2_array32 buf b0 data d0 pl : option (list A) :=
  '(data, _) <- for_ (nslow pl) (fun slow '(data, out) =>
     plane <- ev (#slow * #(nstride_line pl))%I;
     for_ (nmid pl) (fun mid '(data, out) =>
       in_ <- ev (#plane + #2 * #mid)%I;
       '(data, _, out) <- for_ (nfast pl) (fun _ '(data, in_, out) =>
          data <- cp buf (d0 + in_) (b0 + out) data;
          out <- ev (incr out); next <- ev (#in_ + #1)%I;
          data <- cp buf (d0 + next) (b0 + out) data;
          out <- ev (incr out); in_ <- ev (#in_ + #(nstride_plane pl))%I;
          Some (data, in_, out)) (data, in_, out);
       Some (data, out)) (data, out)) (data, 0);
  Some data.

(** unpack_3d_permute1_n_array, src/pack3d.h:170-195 *)
Definition unpack_3d_permute1_n_array32 buf b0 data d0 pl : option (list A) :=
  '(data, _) <- for_ (nslow pl) (fun slow '(data, out) =>
     plane <- ev (#slow * #(nstride_line pl))%I;
     for_ (nmid pl) (fun mid '(data, out) =>
       in_ <- ev (#plane + #(nqty pl) * #mid)%I;
       '(data, _, out) <- for_ (nfast pl) (fun _ '(data, instart, out) =>
          '(data, _, out) <- for_ (nqty pl) (fun _ '(data, in_, out) =>
             data <- cp buf (d0 + in_) (b0 + out) data;
             in_ <- ev (incr in_); out <- ev (incr out);
             Some (data, in_, out)) (data, instart, out);
          instart <- ev (#instart + #(nstride_plane pl))%I;
          Some (data, instart, out)) (data, in_, out);
       Some (data, out)) (data, out)) (data, 0);
  Some data.

(** unpack_3d_permute2_1_array, src/pack3d.h:201-222 *)
Definition unpack_3d_permute2_1_array32 buf b0 data d0 pl : option (list A) :=
  '(data, _) <- for_ (nslow pl) (fun slow '(data, out) =>
     for_ (nmid pl) (fun mid '(data, out) =>
       in_ <- ev (#slow + #mid * #(nstride_plane pl))%I;
       '(data, _, out) <- for_ (nfast pl) (fun _ '(data, in_, out) =>
          data <- cp buf (d0 + in_) (b0 + out) data;
          out <- ev (incr out); in_ <- ev (#in_ + #(nstride_line pl))%I;
          Some (data, in_, out)) (data, in_, out);
       Some (data, out)) (data, out)) (data, 0);
  Some data.

(** unpack_3d_permute2_2_array, src/pack3d.h:228-251 *)
Definition unpack_3d_permute2_2_array32 buf b0 data d0 pl : option (list A) :=
  '(data, _) <- for_ (nslow pl) (fun slow '(data, out) =>
     for_ (nmid pl) (fun mid '(data, out) =>
       in_ <- ev (#2 * #slow + #mid * #(nstride_plane pl))%I;
       '(data, _, out) <- for_ (nfast pl) (fun _ '(data, in_, out) =>
          data <- cp buf (d0 + in_) (b0 + out) data;
          out <- ev (incr out); next <- ev (#in_ + #1)%I;
          data <- cp buf (d0 + next) (b0 + out) data;
          out <- ev (incr out); in_ <- ev (#in_ + #(nstride_line pl))%I;
          Some (data, in_, out)) (data, in_, out);
       Some (data, out)) (data, out)) (data, 0);
  Some data.

(** unpack_3d_permute2_n_array, src/pack3d.h:257-281 *)
Definition unpack_3d_permute2_n_array32 buf b0 data d0 pl : option (list A) :=
  '(data, _) <- for_ (nslow pl) (fun slow '(data, out) =>
     for_ (nmid pl) (fun mid '(data, out) =>
       in_ <- ev (#(nqty pl) * #slow + #mid * #(nstride_plane pl))%I;
       '(data, _, out) <- for_ (nfast pl) (fun _ '(data, instart, out) =>
          '(data, _, out) <- for_ (nqty pl) (fun _ '(data, in_, out) =>
             data <- cp buf (d0 + in_) (b0 + out) data;
             in_ <- ev (incr in_); out <- ev (incr out);
             Some (data, in_, out)) (data, instart, out);
          instart <- ev (#instart + #(nstride_line pl))%I;
          Some (data, instart, out)) (data, in_, out);
       Some (data, out)) (data, out)) (data, 0);
  Some data.

(** ** pointer versions, 3d *)

(** pack_3d_pointer, src/pack3d.h:291-315 *)
Definition pack_3d_pointer32 data d0 buf b0 pl : option (list A) :=
  '(buf, _) <- for_ (nslow pl) (fun slow '(buf, in_) =>
     plane <- ev (#slow * #(nstride_plane pl))%I;
     for_ (nmid pl) (fun mid '(buf, in_) =>
       i <- ev (#plane + #mid * #(nstride_line pl))%I;
       begin <- ptr (zlen data) (d0 + i);
       end_ <- ptr (zlen data) (begin + nfast pl);
       for_ptr begin end_ 1 (fun out '(buf, in_) =>
          buf <- cp data in_ out buf;
          Some (buf, in_ + 1)) (buf, in_)) (buf, in_)) (buf, b0);
  Some buf.

(** unpack_3d_pointer, src/pack3d.h:321-345 *)
Definition unpack_3d_pointer32 buf b0 data d0 pl : option (list A) :=
  '(data, _) <- for_ (nslow pl) (fun slow '(data, out) =>
     plane <- ev (#slow * #(nstride_plane pl))%I;
     for_ (nmid pl) (fun mid '(data, out) =>
       i <- ev (#plane + #mid * #(nstride_line pl))%I;
       begin <- ptr (zlen data) (d0 + i);
       end_ <- ptr (zlen data) (begin + nfast pl);
       for_ptr begin end_ 1 (fun in_ '(data, out) =>
          data <- cp buf in_ out data;
          Some (data, out + 1)) (data, out)) (data, out)) (data, b0);
  Some data.

(** unpack_3d_permute1_1_pointer, src/pack3d.h:351-375 *)
Definition unpack_3d_permute1_1_pointer32 buf b0 data d0 pl : option (list A) :=
  '(data, _) <- for_ (nslow pl) (fun slow '(data, out) =>
     plane <- ev (#slow * #(nstride_line pl))%I;
     for_ (nmid pl) (fun mid '(data, out) =>
       i <- ev (#plane + #mid)%I;
       begin <- ptr (zlen data) (d0 + i);
       len <- ev (#(nfast pl) * #(nstride_plane pl))%I;
       end_ <- ptr (zlen data) (begin + len);
       for_ptr begin end_ (nstride_plane pl) (fun in_ '(data, out) =>
          data <- cp buf in_ out data;
          Some (data, out + 1)) (data, out)) (data, out)) (data, b0);
  Some data.

(** unpack_3d_permute1_2_pointer, src/pack3d.h:381-407 *)
Definition unpack_3d_permute1_2_pointer32 buf b0 data d0 pl : option (list A) :=
  '(data, _) <- for_ (nslow pl) (fun slow '(data, out) =>
     plane <- ev (#slow * #(nstride_line pl))%I;
     for_ (nmid pl) (fun mid '(data, out) =>
       i <- ev (#plane + #2 * #mid)%I;
       begin <- ptr (zlen data) (d0 + i);
       len <- ev (#(nfast pl) * #(nstride_plane pl))%I;
       end_ <- ptr (zlen data) (begin + len);
       for_ptr begin end_ (nstride_plane pl) (fun in_ '(data, out) =>
          data <- cp buf in_ out data;
          data <- cp buf (in_ + 1) (out + 1) data;
          Some (data, out + 1 + 1)) (data, out)) (data, out)) (data, b0);
  Some data.

(** unpack_3d_permute1_n_pointer, src/pack3d.h:413-440 *)
Definition unpack_3d_permute1_n_pointer32 buf b0 data d0 pl : option (list A) :=
  '(data, _) <- for_ (nslow pl) (fun slow '(data, out) =>
     plane <- ev (#slow * #(nstride_line pl))%I;
     for_ (nmid pl) (fun mid '(data, out) =>
       i <- ev (#plane + #(nqty pl) * #mid)%I;
       begin <- ptr (zlen data) (d0 + i);
       len <- ev (#(nfast pl) * #(nstride_plane pl))%I;
       end_ <- ptr (zlen data) (begin + len);
       for_ptr begin end_ (nstride_plane pl) (fun instart '(data, out) =>
          '(data, _, out) <- for_ (nqty pl) (fun _ '(data, in_, out) =>
             data <- cp buf in_ out data;
             Some (data, in_ + 1, out + 1)) (data, instart, out);
          Some (data, out)) (data, out)) (data, out)) (data, b0);
  Some data.

(** unpack_3d_permute2_1_pointer, src/pack3d.h:446-469 *)
Definition unpack_3d_permute2_1_pointer32 buf b0 data d0 pl : option (list A) :=
  '(data, _) <- for_ (nslow pl) (fun slow '(data, out) =>
     for_ (nmid pl) (fun mid '(data, out) =>
       i <- ev (#slow + #mid * #(nstride_plane pl))%I;
       begin <- ptr (zlen data) (d0 + i);
       len <- ev (#(nfast pl) * #(nstride_line pl))%I;
       end_ <- ptr (zlen data) (begin + len);
       for_ptr begin end_ (nstride_line pl) (fun in_ '(data, out) =>
          data <- cp buf in_ out data;
          Some (data, out + 1)) (data, out)) (data, out)) (data, b0);
  Some data.

(** unpack_3d_permute2_2_pointer, src/pack3d.h:475-500 *)
Definition unpack_3d_permute2_2_pointer32 buf b0 data d0 pl : option (list A) :=
  '(data, _) <- for_ (nslow pl) (fun slow '(data, out) =>
     for_ (nmid pl) (fun mid '(data, out) =>
       i <- ev (#2 * #slow + #mid * #(nstride_plane pl))%I;
       begin <- ptr (zlen data) (d0 + i);
       len <- ev (#(nfast pl) * #(nstride_line pl))%I;
       end_ <- ptr (zlen data) (begin + len);
       for_ptr begin end_ (nstride_line pl) (fun in_ '(data, out) =>
          data <- cp buf in_ out data;
          data <- cp buf (in_ + 1) (out + 1) data;
          Some (data, out + 1 + 1)) (data, out)) (data, out)) (data, b0);
  Some data.

(** unpack_3d_permute2_n_pointer, src/pack3d.h:506-532 *)
Definition unpack_3d_permute2_n_pointer32 buf b0 data d0 pl : option (list A) :=
  '(data, _) <- for_ (nslow pl) (fun slow '(data, out) =>
     for_ (nmid pl) (fun mid '(data, out) =>
       i <- ev (#(nqty pl) * #slow + #mid * #(nstride_plane pl))%I;
       begin <- ptr (zlen data) (d0 + i);
       len <- ev (#(nfast pl) * #(nstride_line pl))%I;
       end_ <- ptr (zlen data) (begin + len);
       for_ptr begin end_ (nstride_line pl) (fun instart '(data, out) =>
          '(data, _, out) <- for_ (nqty pl) (fun _ '(data, in_, out) =>
             data <- cp buf in_ out data;
             Some (data, in_ + 1, out + 1)) (data, instart, out);
          Some (data, out)) (data, out)) (data, out)) (data, b0);
  Some data.

(** ** memcpy versions, 3d; [esize] is sizeof(PACK_DATA) *)

(** pack_3d_memcpy, src/pack3d.h:543-567 *)
Definition pack_3d_memcpy32 (esize : Z) data d0 buf b0 pl : option (list A) :=
  let size := to_int (nfast pl * esize) in
  for_ (nslow pl) (fun slow buf =>
     plane <- ev (#slow * #(nstride_plane pl))%I;
     upto <- ev (#slow * #(nmid pl) * #(nfast pl))%I;
     for_ (nmid pl) (fun mid buf =>
       i <- ev (#upto + #mid * #(nfast pl))%I; in_ <- ptr (zlen buf) (b0 + i);
       o <- ev (#plane + #mid * #(nstride_line pl))%I; out <- ptr (zlen data) (d0 + o);
       memcpy32 esize buf in_ data out size) buf) buf.

(** unpack_3d_memcpy, src/pack3d.h:573-597 *)
Definition unpack_3d_memcpy32 (esize : Z) buf b0 data d0 pl : option (list A) :=
  let size := to_int (nfast pl * esize) in
  for_ (nslow pl) (fun slow data =>
     plane <- ev (#slow * #(nstride_plane pl))%I;
     upto <- ev (#slow * #(nmid pl) * #(nfast pl))%I;
     for_ (nmid pl) (fun mid data =>
       i <- ev (#plane + #mid * #(nstride_line pl))%I; in_ <- ptr (zlen data) (d0 + i);
       o <- ev (#upto + #mid * #(nfast pl))%I; out <- ptr (zlen buf) (b0 + o);
       memcpy32 esize data in_ buf out size) data) data.

(** ** array-index versions, 2d *)

(** pack_2d_array, src/pack2d.h:58-74 *)
Definition pack_2d_array32 data d0 buf b0 ql : option (list A) :=
  '(buf, _) <- for_ (nslow2 ql) (fun slow '(buf, in_) =>
     out <- ev (#slow * #(nstride2 ql))%I;
     '(buf, in_, _) <- for_ (nfast2 ql) (fun _ '(buf, in_, out) =>
        buf <- cp data (b0 + in_) (d0 + out) buf;
        in_ <- ev (incr in_); out <- ev (incr out);
        Some (buf, in_, out)) (buf, in_, out);
     Some (buf, in_)) (buf, 0);
  Some buf.

(** unpack_2d_array, src/pack2d.h:80-96 *)
Definition unpack_2d_array32 buf b0 data d0 ql : option (list A) :=
  '(data, _) <- for_ (nslow2 ql) (fun slow '(data, out) =>
     in_ <- ev (#slow * #(nstride2 ql))%I;
     '(data, _, out) <- for_ (nfast2 ql) (fun _ '(data, in_, out) =>
        data <- cp buf (d0 + in_) (b0 + out) data;
        out <- ev (incr out); in_ <- ev (incr in_);
        Some (data, in_, out)) (data, in_, out);
     Some (data, out)) (data, 0);
  Some data.

(** unpack_2d_permute_1_array, src/pack2d.h:102-118 *)
Definition unpack_2d_permute_1_array32 buf b0 data d0 ql : option (list A) :=
  '(data, _) <- for_ (nslow2 ql) (fun slow '(data, out) =>
     in_ <- ev (#slow)%I;
     '(data, _, out) <- for_ (nfast2 ql) (fun _ '(data, in_, out) =>
        data <- cp buf (d0 + in_) (b0 + out) data;
        out <- ev (incr out); in_ <- ev (#in_ + #(nstride2 ql))%I;
        Some (data, in_, out)) (data, in_, out);
     Some (data, out)) (data, 0);
  Some data.

(** unpack_2d_permute_2_array, src/pack2d.h:124-142 *)
Definition unpack_2d_permute_2_array32 buf b0 data d0 ql : option (list A) :=
  '(data, _) <- for_ (nslow2 ql) (fun slow '(data, out) =>
     in_ <- ev (#2 * #slow)%I;
     '(data, _, out) <- for_ (nfast2 ql) (fun _ '(data, in_, out) =>
        data <- cp buf (d0 + in_) (b0 + out) data;
        out <- ev (incr out); next <- ev (#in_ + #1)%I;
        data <- cp buf (d0 + next) (b0 + out) data;
        out <- ev (incr out); in_ <- ev (#in_ + #(nstride2 ql))%I;
        Some (data, in_, out)) (data, in_, out);
     Some (data, out)) (data, 0);
  Some data.

(** unpack_2d_permute_n_array, src/pack2d.h:148-168 *)
Definition unpack_2d_permute_n_array32 buf b0 data d0 ql : option (list A) :=
  '(data, _) <- for_ (nslow2 ql) (fun slow '(data, out) =>
     in_ <- ev (#(nqty2 ql) * #slow)%I;
     '(data, _, out) <- for_ (nfast2 ql) (fun _ '(data, instart, out) =>
        '(data, _, out) <- for_ (nqty2 ql) (fun _ '(data, in_, out) =>
           data <- cp buf (d0 + in_) (b0 + out) data;
           in_ <- ev (incr in_); out <- ev (incr out);
           Some (data, in_, out)) (data, instart, out);
        instart <- ev (#instart + #(nstride2 ql))%I;
        Some (data, instart, out)) (data, in_, out);
     Some (data, out)) (data, 0);
  Some data.

(** ** pointer versions, 2d *)

(** pack_2d_pointer, src/pack2d.h:178-197 *)
Definition pack_2d_pointer32 data d0 buf b0 ql : option (list A) :=
  '(buf, _) <- for_ (nslow2 ql) (fun slow '(buf, in_) =>
     i <- ev (#slow * #(nstride2 ql))%I;
     begin <- ptr (zlen data) (d0 + i);
     end_ <- ptr (zlen data) (begin + nfast2 ql);
     for_ptr begin end_ 1 (fun out '(buf, in_) =>
        buf <- cp data in_ out buf;
        Some (buf, in_ + 1)) (buf, in_)) (buf, b0);
  Some buf.

(** unpack_2d_pointer, src/pack2d.h:203-222 *)
Definition unpack_2d_pointer32 buf b0 data d0 ql : option (list A) :=
  '(data, _) <- for_ (nslow2 ql) (fun slow '(data, out) =>
     i <- ev (#slow * #(nstride2 ql))%I;
     begin <- ptr (zlen data) (d0 + i);
     end_ <- ptr (zlen data) (begin + nfast2 ql);
     for_ptr begin end_ 1 (fun in_ '(data, out) =>
        data <- cp buf in_ out data;
        Some (data, out + 1)) (data, out)) (data, b0);
  Some data.

(** unpack_2d_permute_1_pointer, src/pack2d.h:228-247 *)
Definition unpack_2d_permute_1_pointer32 buf b0 data d0 ql : option (list A) :=
  '(data, _) <- for_ (nslow2 ql) (fun slow '(data, out) =>
     i <- ev (#slow)%I;
     begin <- ptr (zlen data) (d0 + i);
     len <- ev (#(nfast2 ql) * #(nstride2 ql))%I;
     end_ <- ptr (zlen data) (begin + len);
     for_ptr begin end_ (nstride2 ql) (fun in_ '(data, out) =>
        data <- cp buf in_ out data;
        Some (data, out + 1)) (data, out)) (data, b0);
  Some data.

(** unpack_2d_permute_2_pointer, src/pack2d.h:253-274 *)
Definition unpack_2d_permute_2_pointer32 buf b0 data d0 ql : option (list A) :=
  '(data, _) <- for_ (nslow2 ql) (fun slow '(data, out) =>
     i <- ev (#2 * #slow)%I;
     begin <- ptr (zlen data) (d0 + i);
     len <- ev (#(nfast2 ql) * #(nstride2 ql))%I;
     end_ <- ptr (zlen data) (begin + len);
     for_ptr begin end_ (nstride2 ql) (fun in_ '(data, out) =>
        data <- cp buf in_ out data;
        data <- cp buf (in_ + 1) (out + 1) data;
        Some (data, out + 1 + 1)) (data, out)) (data, b0);
  Some data.

(** unpack_2d_permute_n_pointer, src/pack2d.h:280-302 *)
Definition unpack_2d_permute_n_pointer32 buf b0 data d0 ql : option (list A) :=
  '(data, _) <- for_ (nslow2 ql) (fun slow '(data, out) =>
     i <- ev (#(nqty2 ql) * #slow)%I;
     begin <- ptr (zlen data) (d0 + i);
     len <- ev (#(nfast2 ql) * #(nstride2 ql))%I;
     end_ <- ptr (zlen data) (begin + len);
     for_ptr begin end_ (nstride2 ql) (fun instart '(data, out) =>
        '(data, _, out) <- for_ (nqty2 ql) (fun _ '(data, in_, out) =>
           data <- cp buf in_ out data;
           Some (data, in_ + 1, out + 1)) (data, instart, out);
        Some (data, out)) (data, out)) (data, b0);
  Some data.

(** ** memcpy versions, 2d: sizeof(double) bytes are counted per element *)

(** pack_2d_memcpy, src/pack2d.h:313-331 *)
Definition pack_2d_memcpy32 (esize : Z) data d0 buf b0 ql : option (list A) :=
  let size := to_int (nfast2 ql * 8) in
  for_ (nslow2 ql) (fun slow buf =>
     i <- ev (#slow * #(nfast2 ql))%I; in_ <- ptr (zlen buf) (b0 + i);
     o <- ev (#slow * #(nstride2 ql))%I; out <- ptr (zlen data) (d0 + o);
     memcpy32 esize buf in_ data out size) buf.

(** unpack_2d_memcpy, src/pack2d.h:337-355 *)
Definition unpack_2d_memcpy32 (esize : Z) buf b0 data d0 ql : option (list A) :=
  let size := to_int (nfast2 ql * 8) in
  for_ (nslow2 ql) (fun slow data =>
     i <- ev (#slow * #(nstride2 ql))%I; in_ <- ptr (zlen data) (d0 + i);
     o <- ev (#slow * #(nfast2 ql))%I; out <- ptr (zlen buf) (b0 + o);
     memcpy32 esize data in_ buf out size) data.

(** ** the function pointers, src/remap3d.cpp:241-243, 298-331, src/remap2d.cpp:228-230, 283-300 *)
Definition pack3_32 (esize packflag : Z) data d0 buf b0 pl : option (list A) :=
  if packflag =? 0 then pack_3d_array32 data d0 buf b0 pl
  else if packflag =? 1 then pack_3d_pointer32 data d0 buf b0 pl
  else if packflag =? 2 then pack_3d_memcpy32 esize data d0 buf b0 pl
  else None.
Definition unpack3_32 (esize packflag permute nq : Z) buf b0 data d0 pl : option (list A) :=
  if permute =? 0 then
    if packflag =? 0 then unpack_3d_array32 buf b0 data d0 pl
    else if packflag =? 1 then unpack_3d_pointer32 buf b0 data d0 pl
    else if packflag =? 2 then unpack_3d_memcpy32 esize buf b0 data d0 pl
    else None
  else if permute =? 1 then
    if packflag =? 0 then
      if nq =? 1 then unpack_3d_permute1_1_array32 buf b0 data d0 pl
      else if nq =? 2 then unpack_3d_permute1_2_array32 buf b0 data d0 pl
      else unpack_3d_permute1_n_array32 buf b0 data d0 pl
    else if (packflag =? 1) || (packflag =? 2) then
      if nq =? 1 then unpack_3d_permute1_1_pointer32 buf b0 data d0 pl
      else if nq =? 2 then unpack_3d_permute1_2_pointer32 buf b0 data d0 pl
      else unpack_3d_permute1_n_pointer32 buf b0 data d0 pl
    else None
  else if permute =? 2 then
    if packflag =? 0 then
      if nq =? 1 then unpack_3d_permute2_1_array32 buf b0 data d0 pl
      else if nq =? 2 then unpack_3d_permute2_2_array32 buf b0 data d0 pl
      else unpack_3d_permute2_n_array32 buf b0 data d0 pl
    else if (packflag =? 1) || (packflag =? 2) then
      if nq =? 1 then unpack_3d_permute2_1_pointer32 buf b0 data d0 pl
      else if nq =? 2 then unpack_3d_permute2_2_pointer32 buf b0 data d0 pl
      else unpack_3d_permute2_n_pointer32 buf b0 data d0 pl
    else None
  else None.
Definition pack2_32 (esize packflag : Z) data d0 buf b0 ql : option (list A) :=
  if packflag =? 0 then pack_2d_array32 data d0 buf b0 ql
  else if packflag =? 1 then pack_2d_pointer32 data d0 buf b0 ql
  else if packflag =? 2 then pack_2d_memcpy32 esize data d0 buf b0 ql
  else None.
Definition unpack2_32 (esize packflag permute nq : Z) buf b0 data d0 ql : option (list A) :=
  if permute =? 0 then
    if packflag =? 0 then unpack_2d_array32 buf b0 data d0 ql
    else if packflag =? 1 then unpack_2d_pointer32 buf b0 data d0 ql
    else if packflag =? 2 then unpack_2d_memcpy32 esize buf b0 data d0 ql
    else None
  else if permute =? 1 then
    if packflag =? 0 then
      if nq =? 1 then unpack_2d_permute_1_array32 buf b0 data d0 ql
      else if nq =? 2 then unpack_2d_permute_2_array32 buf b0 data d0 ql
      else unpack_2d_permute_n_array32 buf b0 data d0 ql
    else if (packflag =? 1) || (packflag =? 2) then
      if nq =? 1 then unpack_2d_permute_1_pointer32 buf b0 data d0 ql
      else if nq =? 2 then unpack_2d_permute_2_pointer32 buf b0 data d0 ql
      else unpack_2d_permute_n_pointer32 buf b0 data d0 ql
    else None
  else None.

End Pack32.
