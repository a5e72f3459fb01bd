(** Setup3d.v : model of FFT3d::setup (src/fft3d.cpp:219-494) with
    remap_forward_create (1139-1255) and remap_inverse_create (1261-1392).

    The function is global: it maps the arguments of all ranks to the state of all
    ranks after the call.  MPI_Allreduce is the maximum or sum over the ranks.
    nfast, nmid, nslow and permute are the same on all ranks, as the documentation
    requires.  The 1d FFT plans and the scaling factor are in Kiss.v and Fft3d.v,
    the protocol checks (setupflag, memoryflag) in Life.v. *)

From Coq Require Import String.
From Verif Require Import Base Spec Pack3d Sched Remap Remap3d RemapThms Layout.

(** outcome of a setup call: error->all with a message, undefined behaviour, or success *)
Inductive sres (T : Type) := SErr (msg : string) | SUB | SOk (f : T).
Arguments SErr {T} _.
Arguments SUB {T}.
Arguments SOk {T} _.

(** the user settings that setup reads (src/fft3d.h:34-40) *)
Record settings := mkset { st_coll : Z; st_exch : Z; st_pack : Z }.

(** one Remap3d object: collective flag, permute and the in/out tiles of all ranks *)
Record rm3 := mkrm3 { rm_coll : bool; rm_perm : Z; rm_in : nat -> box3; rm_out : nat -> box3 }.
(** struct Remap (src/fft3d.h:86-89): remap3d and remap3d_extra *)
Definition remap_pair : Type := (rm3 * option rm3)%type.

(** the members of an FFT3d object after setup, all ranks *)
Record fft3 := mkfft3 {
  f_n : nat; f_N : Z * Z * Z; f_perm : Z; f_pack : Z; f_exch : bool;
  f_in : nat -> box3; f_out : nat -> box3;
  f_fast : nat -> box3; f_mid : nat -> box3; f_slow : nat -> box3; f_brick : nat -> box3;
  f_pre : bool; f_post : bool; f_same : bool;
  f_prefast : option remap_pair; f_fastmid : remap_pair; f_midslow : remap_pair; f_postslow : option remap_pair;
  f_preslow : option remap_pair; f_slowmid : option remap_pair; f_midfast : option remap_pair; f_postfast : option remap_pair;
  f_sendsize : nat -> Z; f_recvsize : nat -> Z; f_fftsize : nat -> Z }.

(** e.g. insize, src/fft3d.cpp:418-431: the plain product of the extents *)
Definition psize3 (b : box3) : Z := ni b * nj b * nk b.

(** the box equality test of src/fft3d.cpp:289-291 *)
Definition box3_eqb (a b : box3) : bool :=
  (ilo a =? ilo b) && (ihi a =? ihi b) && (jlo a =? jlo b) && (jhi a =? jhi b) && (klo a =? klo b) && (khi a =? khi b).

Section Setup.
Variables (ar : areas) (n : nat) (st : settings) (N : Z * Z * Z) (permute : Z) (ins outs : nat -> box3).

(** MPI_Allreduce(MAX) of a flag *)
Definition anyrank (f : nat -> bool) : bool := existsb f (seq 0 n).
(** MPI_Allreduce(SUM) *)
Definition sumranks (f : nat -> Z) : Z := fold_right (fun r s => f r + s) 0 (seq 0 n).

(** index check, src/fft3d.cpp:259-262 *)
Definition bad_index (b : box3) : bool :=
  let '(nfast, nmid, nslow) := N in
  (ilo b >? ihi b + 1) || (jlo b >? jhi b + 1) || (klo b >? khi b + 1) ||
  (ilo b <? 0) || (jlo b <? 0) || (klo b <? 0) ||
  (ihi b >=? nfast) || (jhi b >=? nmid) || (khi b >=? nslow).

(** collective_bp, collective_pp, src/fft3d.cpp:278-283 *)
Definition coll_bp : bool := st_coll st =? 1.
Definition coll_pp : bool := negb (st_coll st =? 0).

(** inout_layout_same, src/fft3d.cpp:288-295 *)
Definition layout_same : bool := negb (anyrank (fun r => negb (box3_eqb (ins r) (outs r)) || negb (permute =? 0))).

(** remap_preflag, src/fft3d.cpp:322-326 *)
Definition preflag : bool :=
  let '(nfast, _, _) := N in anyrank (fun r => negb ((ilo (ins r) =? 0) && (ihi (ins r) =? nfast - 1))).

(** the test of src/fft3d.cpp:360-362: some rank's output is not a slow pencil with permute 2 *)
Definition slow_internal : bool :=
  let '(_, _, nslow) := N in anyrank (fun r => negb ((permute =? 2) && (klo (outs r) =? 0) && (khi (outs r) =? nslow - 1))).

(** remap_postflag, src/fft3d.cpp:384-392 *)
Definition postflag (slow : nat -> box3) : bool :=
  anyrank (fun r => negb ((permute =? 2) && box3_eqb (outs r) (slow r))).

(** newpermute, src/fft3d.cpp:1238-1241; None = not assigned *)
Definition newpermute : option Z :=
  if permute =? 0 then Some 1 else if permute =? 1 then Some 2 else if permute =? 2 then Some 0 else None.

(** sizes returned by Remap3d::setup (it does not fail, see C02_setup_total) *)
Definition rm_ssize (m : rm3) (r : nat) : Z :=
  match setup3 n (rm_coll m) (st_pack st) 2 (rm_perm m) (rm_in m) (rm_out m) r with
  | Some pl => rp_sendsize pl | None => 0 end.
Definition rm_rsize (m : rm3) (r : nat) : Z :=
  match setup3 n (rm_coll m) (st_pack st) 2 (rm_perm m) (rm_in m) (rm_out m) r with
  | Some pl => rp_recvsize pl | None => 0 end.
Definition maxsizes (f : rm3 -> nat -> Z) (l : list rm3) (r : nat) : Z := fold_left (fun s m => Z.max s (f m r)) l 0.

(** all the Remap3d objects of a Remap *)
Definition objs (p : remap_pair) : list rm3 := fst p :: match snd p with Some m => [m] | None => [] end.
Definition oobjs (p : option remap_pair) : list rm3 := match p with Some q => objs q | None => [] end.
(** the objects whose sizes are folded into sendsize, recvsize: for remap_midfast the
    extra object is left out (src/fft3d.cpp:1371-1375) *)
Definition counted_midfast (p : option remap_pair) : list rm3 := match p with Some q => [fst q] | None => [] end.

(** a pencil-to-pencil Remap, direct or through the brick layout, e.g. src/fft3d.cpp:1163-1195;
    [rot] = 0, 1, 2: the remap names the axes (i,j,k), (j,k,i), (k,i,j) *)
Definition pencil_pair (rot perm : Z) (a brick b : nat -> box3) : remap_pair :=
  let R := fun (f : nat -> box3) r => rotb3 rot (f r) in
  if st_exch st =? 0 then (mkrm3 coll_pp perm (R a) (R b), None)
  else (mkrm3 coll_bp 0 (R a) (R brick), Some (mkrm3 coll_bp perm (R brick) (R b))).

Definition plain_pair (rot perm : Z) (a b : nat -> box3) : remap_pair :=
  (mkrm3 coll_bp perm (fun r => rotb3 rot (a r)) (fun r => rotb3 rot (b r)), None).

(** remap_preslow, src/fft3d.cpp:1269-1303; None = remap3d pointer not assigned *)
Definition preslow_pair (slow : nat -> box3) : option remap_pair :=
  if permute =? 0 then Some (plain_pair 0 2 outs slow)
  else if permute =? 1 then Some (plain_pair 1 1 outs slow)
  else if permute =? 2 then Some (plain_pair 2 0 outs slow)
  else None.

Definition setup3d : sres fft3 :=
  let '(nfast, nmid, nslow) := N in
  let P := Z.of_nat n in
  (* src/fft3d.cpp:250-255 *)
  if (nfast <? 2) || (nmid <? 2) || (nslow <? 2) then SErr "Each FFT dimension must be >= 2"
  else match prime_factorable nfast, prime_factorable nmid, prime_factorable nslow with
  | Some okf, Some okm, Some oks =>
  if negb okf then SErr "Invalid nfast"
  else if negb okm then SErr "Invalid nmid"
  else if negb oks then SErr "Invalid nslow"
  (* src/fft3d.cpp:259-273 *)
  else if anyrank (fun r => bad_index (ins r)) then SErr "FFT setup in/out indices are invalid"
  else if negb (sumranks (fun r => psize3 (ins r)) =? nfast * nmid * nslow)
       then SErr "FFT setup in/out indices do not tile grid"
  (* src/fft3d.cpp:302-303 *)
  else if Nat.ltb NFACTOR (List.length (factor P)) then SErr "Nprocs is too large to factor"
  else
  let exch := negb (st_exch st =? 0) in
  (* src/fft3d.cpp:305-315 *)
  match procfactors ar P 1 nmid nslow, procfactors ar P nfast 1 nslow, procfactors ar P nfast nmid 1,
        (if exch then procfactors ar P nfast nmid nslow else Some (0, 0, 0)) with
  | Some gfast, Some gmid, Some gslow, Some gbrick =>
    let same := layout_same in
    let pre := preflag in
    let fast := fun r => if pre then fast_box3 N gfast (Z.of_nat r) else ins r in
    let mid := fun r => mid_box3 N gmid (Z.of_nat r) in
    let sint := slow_internal in
    let slow := fun r => if sint then slow_box3 N gslow (Z.of_nat r) else outs r in
    let post := postflag slow in
    let brick := fun r => gbox3 N gbrick (Z.of_nat r) in
    let prefast := if pre then Some (plain_pair 0 0 ins fast) else None in
    let fastmid := pencil_pair 0 1 fast brick mid in
    let midslow := pencil_pair 1 1 mid brick slow in
    match (if post then match newpermute with Some np => Some (Some (plain_pair 2 np slow outs)) | None => None end
           else Some None),
          (if same then Some None
           else if post then match preslow_pair slow with Some p => Some (Some p) | None => None end
           else Some None) with
    | Some postslow, Some preslow =>
      let slowmid := if same then None else Some (pencil_pair 2 2 slow brick mid) in
      let midfast := if same then None else Some (pencil_pair 1 2 mid brick fast) in
      let postfast := if same then None else if pre then Some (plain_pair 0 0 fast ins) else None in
      let counted := oobjs prefast ++ objs fastmid ++ objs midslow ++ oobjs postslow ++
                     oobjs preslow ++ oobjs slowmid ++ counted_midfast midfast ++ oobjs postfast in
      SOk {| f_n := n; f_N := N; f_perm := permute; f_pack := st_pack st; f_exch := exch;
             f_in := ins; f_out := outs; f_fast := fast; f_mid := mid; f_slow := slow; f_brick := brick;
             f_pre := pre; f_post := post; f_same := same;
             f_prefast := prefast; f_fastmid := fastmid; f_midslow := midslow; f_postslow := postslow;
             f_preslow := preslow; f_slowmid := slowmid; f_midfast := midfast; f_postfast := postfast;
             f_sendsize := maxsizes rm_ssize counted;
             f_recvsize := maxsizes rm_rsize counted;
             f_fftsize := fun r =>
               (* src/fft3d.cpp:433-437 *)
               let s := Z.max (psize3 (ins r)) (psize3 (outs r)) in
               let s := Z.max s (psize3 (fast r)) in
               let s := Z.max s (psize3 (mid r)) in
               let s := Z.max s (psize3 (slow r)) in
               if exch then Z.max s (psize3 (brick r)) else s |}
    | _, _ => SUB
    end
  | _, _, _, _ => SUB
  end
  | _, _, _ => SUB
  end.
End Setup.
