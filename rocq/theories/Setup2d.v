(** Setup2d.v : model of FFT2d::setup (src/fft2d.cpp:227-463) with
    remap_forward_create (1078-1155) and remap_inverse_create (1161-1247).
    Same conventions as Setup3d.v. *)

From Coq Require Import String.
From Verif Require Import Base Spec Pack2d Sched Remap Remap2d RemapThms Layout Setup3d.

(** one Remap2d object: collective flag, permute and the in/out tiles of all ranks *)
Record rm2 := mkrm2 { rm2_coll : bool; rm2_perm : Z; rm2_in : nat -> box2; rm2_out : nat -> box2 }.
(** struct Remap (src/fft2d.h): remap2d and remap2d_extra *)
Definition remap_pair2 : Type := (rm2 * option rm2)%type.

(** the members of an FFT2d object after setup, all ranks *)
Record fft2 := mkfft2 {
  t_n : nat; t_N : Z * Z; t_perm : Z; t_pack : Z; t_exch : bool;
  t_in : nat -> box2; t_out : nat -> box2;
  t_fast : nat -> box2; t_slow : nat -> box2; t_brick : nat -> box2;
  t_pre : bool; t_post : bool; t_same : bool;
  t_prefast : option remap_pair2; t_fastslow : remap_pair2; t_postslow : option remap_pair2;
  t_preslow : option remap_pair2; t_slowfast : option remap_pair2; t_postfast : option remap_pair2;
  t_sendsize : nat -> Z; t_recvsize : nat -> Z; t_fftsize : nat -> Z }.

(** insize etc., src/fft2d.cpp:400-406 *)
Definition psize2 (b : box2) : Z := ni2 b * nj2 b.

(** the test of src/fft2d.cpp:292-293 *)
Definition box2_eqb (a b : box2) : bool :=
  (ilo2 a =? ilo2 b) && (ihi2 a =? ihi2 b) && (jlo2 a =? jlo2 b) && (jhi2 a =? jhi2 b).

Section Setup.
Variables (ar : areas) (n : nat) (st : settings) (N : Z * Z) (permute : Z) (ins outs : nat -> box2).

(** index check, src/fft2d.cpp:262-265 *)
Definition bad_index2 (b : box2) : bool :=
  let '(nfast, nslow) := N in
  (ilo2 b >? ihi2 b + 1) || (jlo2 b >? jhi2 b + 1) || (ilo2 b <? 0) || (jlo2 b <? 0) || (ihi2 b >=? nfast) || (jhi2 b >=? nslow).

(** inout_layout_same, src/fft2d.cpp:291-297 *)
Definition layout_same2 : bool := negb (anyrank n (fun r => negb (box2_eqb (ins r) (outs r)) || negb (permute =? 0))).
(** remap_preflag, src/fft2d.cpp:326-328 *)
Definition preflag2 : bool :=
  let '(nfast, _) := N in anyrank n (fun r => negb ((ilo2 (ins r) =? 0) && (ihi2 (ins r) =? nfast - 1))).
(** src/fft2d.cpp:349-351 *)
Definition slow_internal2 : bool :=
  let '(_, nslow) := N in anyrank n (fun r => negb ((permute =? 1) && (jlo2 (outs r) =? 0) && (jhi2 (outs r) =? nslow - 1))).
(** remap_postflag, src/fft2d.cpp:369-377 *)
Definition postflag2 (slow : nat -> box2) : bool :=
  anyrank n (fun r => negb ((permute =? 1) && box2_eqb (outs r) (slow r))).
(** newpermute, src/fft2d.cpp:1141-1143; None = not assigned *)
Definition newpermute2 : option Z := if permute =? 0 then Some 1 else if permute =? 1 then Some 0 else None.

(** sizes returned by Remap2d::setup *)
Definition rm2_ssize (m : rm2) (r : nat) : Z :=
  match setup2 n (rm2_coll m) (st_pack st) 2 (rm2_perm m) (rm2_in m) (rm2_out m) r with
  | Some pl => rp_sendsize pl | None => 0 end.
Definition rm2_rsize (m : rm2) (r : nat) : Z :=
  match setup2 n (rm2_coll m) (st_pack st) 2 (rm2_perm m) (rm2_in m) (rm2_out m) r with
  | Some pl => rp_recvsize pl | None => 0 end.
Definition maxsizes2 (f : rm2 -> nat -> Z) (l : list rm2) (r : nat) : Z := fold_left (fun s m => Z.max s (f m r)) l 0.

Definition objs2 (p : remap_pair2) : list rm2 := fst p :: match snd p with Some m => [m] | None => [] end.
Definition oobjs2 (p : option remap_pair2) : list rm2 := match p with Some q => objs2 q | None => [] end.

(** fast <-> slow, direct or through the brick layout, src/fft2d.cpp:1102-1133 and 1198-1231;
    [rot] = 0, 1: the remap names the axes (i,j), (j,i) *)
Definition pencil_pair2 (rot perm : Z) (a brick b : nat -> box2) : remap_pair2 :=
  let R := fun (f : nat -> box2) r => rotb2 rot (f r) in
  if st_exch st =? 0 then (mkrm2 (coll_pp st) perm (R a) (R b), None)
  else (mkrm2 (coll_bp st) 0 (R a) (R brick), Some (mkrm2 (coll_bp st) perm (R brick) (R b))).
Definition plain_pair2 (rot perm : Z) (a b : nat -> box2) : remap_pair2 :=
  (mkrm2 (coll_bp st) perm (fun r => rotb2 rot (a r)) (fun r => rotb2 rot (b r)), None).
(** remap_preslow, src/fft2d.cpp:1168-1192 *)
Definition preslow_pair2 (slow : nat -> box2) : option remap_pair2 :=
  if permute =? 0 then Some (plain_pair2 0 1 outs slow)
  else if permute =? 1 then Some (plain_pair2 1 0 outs slow)
  else None.

Definition setup2d : sres fft2 :=
  let '(nfast, nslow) := N in
  let P := Z.of_nat n in
  (* src/fft2d.cpp:254-258 *)
  if (nfast <? 2) || (nslow <? 2) then SErr "Each FFT dimension must be >= 2"
  else match prime_factorable nfast, prime_factorable nslow with
  | Some okf, Some oks =>
  if negb okf then SErr "Invalid nfast"
  else if negb oks then SErr "Invalid nslow"
  (* src/fft2d.cpp:262-276 *)
  else if anyrank n (fun r => bad_index2 (ins r)) then SErr "FFT setup in/out indices are invalid"
  else if negb (sumranks n (fun r => psize2 (ins r)) =? nfast * nslow)
       then SErr "FFT setup in/out indices do not tile grid"
  (* src/fft2d.cpp:304-305 *)
  else if Nat.ltb NFACTOR (List.length (factor P)) then SErr "Nprocs is too large to factor"
  else
  let exch := negb (st_exch st =? 0) in
  (* src/fft2d.cpp:307-319 *)
  match (if exch then procfactors2 ar P nfast nslow else Some (0, 0)) with
  | Some gbrick =>
    let same := layout_same2 in
    let pre := preflag2 in
    let fast := fun r => if pre then fast_box2 N P (Z.of_nat r) else ins r in
    let sint := slow_internal2 in
    let slow := fun r => if sint then slow_box2 N P (Z.of_nat r) else outs r in
    let post := postflag2 slow in
    let brick := fun r => gbox2 N gbrick (Z.of_nat r) in
    let prefast := if pre then Some (plain_pair2 0 0 ins fast) else None in
    let fastslow := pencil_pair2 0 1 fast brick slow in
    match (if post then match newpermute2 with Some np => Some (Some (plain_pair2 1 np slow outs)) | None => None end
           else Some None),
          (if same then Some None
           else if post then match preslow_pair2 slow with Some p => Some (Some p) | None => None end
           else Some None) with
    | Some postslow, Some preslow =>
      let slowfast := if same then None else Some (pencil_pair2 1 1 slow brick fast) in
      let postfast := if same then None else if pre then Some (plain_pair2 0 0 fast ins) else None in
      let counted := oobjs2 prefast ++ objs2 fastslow ++ oobjs2 postslow ++
                     oobjs2 preslow ++ oobjs2 slowfast ++ oobjs2 postfast in
      SOk {| t_n := n; t_N := N; t_perm := permute; t_pack := st_pack st; t_exch := exch;
             t_in := ins; t_out := outs; t_fast := fast; t_slow := slow; t_brick := brick;
             t_pre := pre; t_post := post; t_same := same;
             t_prefast := prefast; t_fastslow := fastslow; t_postslow := postslow;
             t_preslow := preslow; t_slowfast := slowfast; t_postfast := postfast;
             t_sendsize := maxsizes2 rm2_ssize counted;
             t_recvsize := maxsizes2 rm2_rsize counted;
             t_fftsize := fun r =>
               (* src/fft2d.cpp:408-411 *)
               let s := Z.max (psize2 (ins r)) (psize2 (outs r)) in
               let s := Z.max s (psize2 (fast r)) in
               let s := Z.max s (psize2 (slow r)) in
               if exch then Z.max s (psize2 (brick r)) else s |}
    | _, _ => SUB
    end
  | None => SUB
  end
  | _, _ => SUB
  end.
End Setup.
