(** Spmd.v : setup seen from one rank.

    Setup3d.v and Setup2d.v compute the state of all ranks at once.  Here every rank
    runs its own program, which only sees its own arguments and the results of the
    collective MPI calls it makes, and the programs of all ranks run side by side:
    Remap3d::setup (src/remap3d.cpp:173-613), Remap2d::setup (src/remap2d.cpp:170-566),
    FFT3d::setup (src/fft3d.cpp:219-494) with remap_forward_create and
    remap_inverse_create (1139-1392), FFT2d::setup (src/fft2d.cpp:227-463) with
    remap_forward_create and remap_inverse_create (1078-1248).

    Simplifications: the 1d FFT plans, memory allocation and the memory statistics are
    left out (Kiss.v, Life.v, MemUse.v); reading inarray or outarray beyond nprocs gives
    the rank's own box, which C49 shows never to matter. *)

From Coq Require Import String.
From Verif Require Import Base Spec Pack3d Pack2d Sched Remap Remap3d Remap2d RemapThms Layout Setup3d Setup2d.

(** ** programs of one rank that communicate by collective calls only *)
Section Prog.
Context {B T : Type}.
Inductive prog : Type :=
| PRet (x : T)                                   (* the call returns *)
| PErr (msg : string)                            (* error->all: MPI_Barrier, print, exit; src/error.cpp:36-47 *)
| PUB                                            (* undefined behaviour *)
| PMax (v : Z) (k : Z -> prog)                   (* MPI_Allreduce(&v,&all,1,..,MPI_MAX,world) *)
| PSum (v : Z) (k : Z -> prog)                   (* MPI_Allreduce(&v,&all,1,..,MPI_SUM,world) *)
| PGather (v : B) (k : list B -> prog)           (* MPI_Allgather(&v,..,array,..,world) *)
| PCreate (g : list nat) (k : list nat -> prog). (* MPI_Comm_create(world,group g,&newcomm); [] = MPI_COMM_NULL *)

Definition zmax_list (l : list Z) : Z := match l with [] => 0 | x :: t => fold_left Z.max t x end.
Definition zsum_list (l : list Z) : Z := fold_right Z.add 0 l.

(** MPI_Comm_create: all members of a rank's group must pass the same group *)
Definition legal_groups (gs : list (list nat)) : Prop :=
  forall r g q, nth_error gs r = Some g -> In q g -> nth_error gs q = Some g.
Definition member (r : nat) (g : list nat) : bool := existsb (Nat.eqb r) g.
Definition newcomm (r : nat) (g : list nat) : list nat := if member r g then g else [].

(** one collective call by all ranks (the list holds the programs of rank 0, 1, ...);
    there is no step when ranks are at different calls, which in MPI is an error or a deadlock *)
Inductive cstep : list prog -> list prog -> Prop :=
| cs_max (l : list (Z * (Z -> prog))) :
    cstep (map (fun c => PMax (fst c) (snd c)) l) (map (fun c => snd c (zmax_list (map fst l))) l)
| cs_sum (l : list (Z * (Z -> prog))) :
    cstep (map (fun c => PSum (fst c) (snd c)) l) (map (fun c => snd c (zsum_list (map fst l))) l)
| cs_gather (l : list (B * (list B -> prog))) :
    cstep (map (fun c => PGather (fst c) (snd c)) l) (map (fun c => snd c (map fst l)) l)
| cs_create (l : list (list nat * (list nat -> prog))) : legal_groups (map fst l) ->
    cstep (map (fun c => PCreate (fst c) (snd c)) l)
          (map (fun rc => snd (snd rc) (newcomm (fst rc) (fst (snd rc)))) (combine (seq 0 (List.length l)) l)).

Inductive csteps : list prog -> list prog -> Prop :=
| csteps_refl s : csteps s s
| csteps_step s t u : cstep s t -> csteps t u -> csteps s u.
End Prog.
Arguments prog : clear implicits.

Definition b2z (b : bool) : Z := if b then 1 else 0.

(** ** Remap3d::setup, Remap2d::setup *)
Section RankRemap.
Context {A ext plan T : Type}.
Variables (o : rops A ext plan) (n : nat).
(** a Remap3d or Remap2d object of one rank: its plan and newcomm (MPI_COMM_NULL if not collective) *)
Definition lremap : Type := (@rplan plan * list nat)%type.
Definition remap_rank (coll : bool) (me : nat) (inb outb : ext) (k : lremap -> prog ext T) : prog ext T :=
  PGather outb (fun outarray =>                                (* src/remap3d.cpp:225, src/remap2d.cpp:212 *)
  PGather inb (fun inarray =>                                  (* src/remap3d.cpp:283, src/remap2d.cpp:267 *)
  match setup o n coll (fun q => nth q inarray inb) (fun q => nth q outarray outb) me with
  | Some pl => if coll then PCreate (rp_group pl) (fun comm => k (pl, comm))   (* src/remap3d.cpp:507, src/remap2d.cpp:460 *)
               else k (pl, [])
  | None => PUB
  end)).
End RankRemap.

(** ** FFT3d::setup *)
Definition lmap3 : Type := @lremap pack_plan_3d.
Definition lpair3 : Type := (lmap3 * option lmap3)%type.

(** the members of the object of one rank after setup *)
Record lfft3 := mklfft3 {
  l_in : box3; l_out : box3; l_fast : box3; l_mid : box3; l_slow : box3; l_brick : box3;
  l_pre : bool; l_post : bool; l_same : bool;
  l_prefast : option lpair3; l_fastmid : lpair3; l_midslow : lpair3; l_postslow : option lpair3;
  l_preslow : option lpair3; l_slowmid : option lpair3; l_midfast : option lpair3; l_postfast : option lpair3;
  l_sendsize : Z; l_recvsize : Z; l_fftsize : Z }.

(** sendsize = MAX(sendsize,ssize); recvsize = MAX(recvsize,rsize) *)
Definition addsize {plan : Type} (sz : Z * Z) (m : @lremap plan) : Z * Z :=
  (Z.max (fst sz) (rp_sendsize (fst m)), Z.max (snd sz) (rp_recvsize (fst m))).

Section Rank3.
Variables (ar : areas) (n : nat) (st : settings) (N : Z * Z * Z) (permute : Z) (me : nat) (inb outb : box3).
Local Notation P := (Z.of_nat n).
Local Notation pr := (prog box3 lfft3).

Definition remap1_3 (coll : bool) (perm : Z) (a b : box3) (sz : Z * Z) (k : lmap3 -> Z * Z -> pr) : pr :=
  remap_rank (ops3 (A := Z) (st_pack st) 2 perm) n coll me a b (fun m => k m (addsize sz m)).

(** one Remap without extra object, e.g. src/fft3d.cpp:1145-1157 *)
Definition plain_rank3 (rot perm : Z) (a b : box3) (sz : Z * Z) (k : lpair3 -> Z * Z -> pr) : pr :=
  remap1_3 (coll_bp st) perm (rotb3 rot a) (rotb3 rot b) sz (fun m sz => k (m, None) sz).

(** pencil to pencil, e.g. src/fft3d.cpp:1163-1195; [cnt] says whether the sizes of the second
    object are taken into account: they are not for remap_midfast (1371-1375) *)
Definition pencil_rank3 (cnt : bool) (rot perm : Z) (a brick b : box3) (sz : Z * Z) (k : lpair3 -> Z * Z -> pr) : pr :=
  if st_exch st =? 0 then remap1_3 (coll_pp st) perm (rotb3 rot a) (rotb3 rot b) sz (fun m sz => k (m, None) sz)
  else remap1_3 (coll_bp st) 0 (rotb3 rot a) (rotb3 rot brick) sz (fun m sz =>
       remap1_3 (coll_bp st) perm (rotb3 rot brick) (rotb3 rot b) sz (fun m2 sz2 => k (m, Some m2) (if cnt then sz2 else sz))).

(** remap_forward_create, src/fft3d.cpp:1139-1255 *)
Definition forward_rank3 (pre post : bool) (fast mid slow brick : box3) (sz : Z * Z)
    (k : option lpair3 -> lpair3 -> lpair3 -> option lpair3 -> Z * Z -> pr) : pr :=
  let rest := fun prefast sz =>
    pencil_rank3 true 0 1 fast brick mid sz (fun fastmid sz =>
    pencil_rank3 true 1 1 mid brick slow sz (fun midslow sz =>
    if post then
      match newpermute permute with
      | Some np => plain_rank3 2 np slow outb sz (fun p sz => k prefast fastmid midslow (Some p) sz)
      | None => PUB
      end
    else k prefast fastmid midslow None sz)) in
  if pre then plain_rank3 0 0 inb fast sz (fun p sz => rest (Some p) sz) else rest None sz.

(** remap_inverse_create, src/fft3d.cpp:1261-1392 *)
Definition inverse_rank3 (pre post : bool) (fast mid slow brick : box3) (sz : Z * Z)
    (k : option lpair3 -> lpair3 -> lpair3 -> option lpair3 -> Z * Z -> pr) : pr :=
  let rest := fun preslow sz =>
    pencil_rank3 true 2 2 slow brick mid sz (fun slowmid sz =>
    pencil_rank3 false 1 2 mid brick fast sz (fun midfast sz =>
    if pre then plain_rank3 0 0 fast inb sz (fun p sz => k preslow slowmid midfast (Some p) sz)
    else k preslow slowmid midfast None sz)) in
  if post then
    if permute =? 0 then plain_rank3 0 2 outb slow sz (fun p sz => rest (Some p) sz)
    else if permute =? 1 then plain_rank3 1 1 outb slow sz (fun p sz => rest (Some p) sz)
    else if permute =? 2 then plain_rank3 2 0 outb slow sz (fun p sz => rest (Some p) sz)
    else PUB
  else rest None sz.

(** src/fft3d.cpp:405-489 *)
Definition finish_rank3 (pre post same exch : bool) (fast mid slow brick : box3) : pr :=
  let fftsize :=
    let s := Z.max (psize3 inb) (psize3 outb) in
    let s := Z.max s (psize3 fast) in
    let s := Z.max s (psize3 mid) in
    let s := Z.max s (psize3 slow) in
    if exch then Z.max s (psize3 brick) else s in
  forward_rank3 pre post fast mid slow brick (0, 0) (fun prefast fastmid midslow postslow sz =>
  if same then
    PRet (mklfft3 inb outb fast mid slow brick pre post same
            prefast fastmid midslow postslow None None None None (fst sz) (snd sz) fftsize)
  else
    inverse_rank3 pre post fast mid slow brick sz (fun preslow slowmid midfast postfast sz =>
    PRet (mklfft3 inb outb fast mid slow brick pre post same
            prefast fastmid midslow postslow preslow (Some slowmid) (Some midfast) postfast (fst sz) (snd sz) fftsize))).

Definition setup3d_rank : pr :=
  let '(nfast, nmid, nslow) := N in
  (* src/fft3d.cpp:250-255 *)
  if (nfast <? 2) || (nmid <? 2) || (nslow <? 2) then PErr "Each FFT dimension must be >= 2"
  else match prime_factorable nfast, prime_factorable nmid, prime_factorable nslow with
  | Some okf, Some okm, Some oks =>
  if negb okf then PErr "Invalid nfast"
  else if negb okm then PErr "Invalid nmid"
  else if negb oks then PErr "Invalid nslow"
  else
  (* src/fft3d.cpp:259-273 *)
  PMax (b2z (bad_index N inb)) (fun allflag =>
  if negb (allflag =? 0) then PErr "FFT setup in/out indices are invalid" else
  PSum (psize3 inb) (fun nall =>
  if negb (nall =? nfast * nmid * nslow) then PErr "FFT setup in/out indices do not tile grid" else
  (* src/fft3d.cpp:288-295 *)
  PMax (b2z (negb (box3_eqb inb outb) || negb (permute =? 0))) (fun allflag =>
  let same := allflag =? 0 in
  (* src/fft3d.cpp:302-315 *)
  if Nat.ltb NFACTOR (List.length (factor P)) then PErr "Nprocs is too large to factor" else
  let exch := negb (st_exch st =? 0) in
  match procfactors ar P 1 nmid nslow, procfactors ar P nfast 1 nslow, procfactors ar P nfast nmid 1,
        (if exch then procfactors ar P nfast nmid nslow else Some (0, 0, 0)) with
  | Some gfast, Some gmid, Some gslow, Some gbrick =>
  (* src/fft3d.cpp:322-344 *)
  PMax (b2z (negb ((ilo inb =? 0) && (ihi inb =? nfast - 1)))) (fun allflag =>
  let pre := negb (allflag =? 0) in
  let fast := if pre then fast_box3 N gfast (Z.of_nat me) else inb in
  let mid := mid_box3 N gmid (Z.of_nat me) in
  (* src/fft3d.cpp:360-379 *)
  PMax (b2z (negb ((permute =? 2) && (klo outb =? 0) && (khi outb =? nslow - 1)))) (fun allflag =>
  let slow := if negb (allflag =? 0) then slow_box3 N gslow (Z.of_nat me) else outb in
  (* src/fft3d.cpp:384-392 *)
  PMax (b2z (negb ((permute =? 2) && box3_eqb outb slow))) (fun allflag =>
  let post := negb (allflag =? 0) in
  finish_rank3 pre post same exch fast mid slow (gbox3 N gbrick (Z.of_nat me)))))
  | _, _, _, _ => PUB
  end)))
  | _, _, _ => PUB
  end.
End Rank3.

(** the share of rank [r] in the global result of Setup3d.setup3d *)
Section Share3.
Variables (n : nat) (st : settings).
Definition share_map3 (r : nat) (m : rm3) : option lmap3 :=
  pl <- setup3 n (rm_coll m) (st_pack st) 2 (rm_perm m) (rm_in m) (rm_out m) r; Some (pl, rp_group pl).
Definition share_pair3 (r : nat) (p : remap_pair) : option lpair3 :=
  a <- share_map3 r (fst p);
  match snd p with Some m => b <- share_map3 r m; Some (a, Some b) | None => Some (a, None) end.
Definition share_opt3 (r : nat) (p : option remap_pair) : option (option lpair3) :=
  match p with Some q => a <- share_pair3 r q; Some (Some a) | None => Some None end.
Definition share3 (f : fft3) (r : nat) : option lfft3 :=
  prefast <- share_opt3 r (f_prefast f);
  fastmid <- share_pair3 r (f_fastmid f);
  midslow <- share_pair3 r (f_midslow f);
  postslow <- share_opt3 r (f_postslow f);
  preslow <- share_opt3 r (f_preslow f);
  slowmid <- share_opt3 r (f_slowmid f);
  midfast <- share_opt3 r (f_midfast f);
  postfast <- share_opt3 r (f_postfast f);
  Some (mklfft3 (f_in f r) (f_out f r) (f_fast f r) (f_mid f r) (f_slow f r) (f_brick f r) (f_pre f) (f_post f) (f_same f)
          prefast fastmid midslow postslow preslow slowmid midfast postfast
          (f_sendsize f r) (f_recvsize f r) (f_fftsize f r)).
End Share3.

(** the state in which rank [r] ends *)
Definition end3 (n : nat) (st : settings) (res : sres fft3) (r : nat) : prog box3 lfft3 :=
  match res with
  | SErr m => PErr m
  | SUB => PUB
  | SOk f => match share3 n st f r with Some x => PRet x | None => PUB end
  end.

(** ** FFT2d::setup *)
Definition lmap2 : Type := @lremap pack_plan_2d.
Definition lpair2 : Type := (lmap2 * option lmap2)%type.

Record lfft2 := mklfft2 {
  l2_in : box2; l2_out : box2; l2_fast : box2; l2_slow : box2; l2_brick : box2;
  l2_pre : bool; l2_post : bool; l2_same : bool;
  l2_prefast : option lpair2; l2_fastslow : lpair2; l2_postslow : option lpair2;
  l2_preslow : option lpair2; l2_slowfast : option lpair2; l2_postfast : option lpair2;
  l2_sendsize : Z; l2_recvsize : Z; l2_fftsize : Z }.

Section Rank2.
Variables (ar : areas) (n : nat) (st : settings) (N : Z * Z) (permute : Z) (me : nat) (inb outb : box2).
Local Notation P := (Z.of_nat n).
Local Notation pr := (prog box2 lfft2).

Definition remap1_2 (coll : bool) (perm : Z) (a b : box2) (sz : Z * Z) (k : lmap2 -> Z * Z -> pr) : pr :=
  remap_rank (ops2 (A := Z) 8 (st_pack st) 2 perm) n coll me a b (fun m => k m (addsize sz m)).
(** e.g. src/fft2d.cpp:1085-1097 *)
Definition plain_rank2 (rot perm : Z) (a b : box2) (sz : Z * Z) (k : lpair2 -> Z * Z -> pr) : pr :=
  remap1_2 (coll_bp st) perm (rotb2 rot a) (rotb2 rot b) sz (fun m sz => k (m, None) sz).
(** src/fft2d.cpp:1102-1133 and 1198-1231 *)
Definition pencil_rank2 (rot perm : Z) (a brick b : box2) (sz : Z * Z) (k : lpair2 -> Z * Z -> pr) : pr :=
  if st_exch st =? 0 then remap1_2 (coll_pp st) perm (rotb2 rot a) (rotb2 rot b) sz (fun m sz => k (m, None) sz)
  else remap1_2 (coll_bp st) 0 (rotb2 rot a) (rotb2 rot brick) sz (fun m sz =>
       remap1_2 (coll_bp st) perm (rotb2 rot brick) (rotb2 rot b) sz (fun m2 sz2 => k (m, Some m2) sz2)).

(** remap_forward_create *)
Definition forward_rank2 (pre post : bool) (fast slow brick : box2) (sz : Z * Z)
    (k : option lpair2 -> lpair2 -> option lpair2 -> Z * Z -> pr) : pr :=
  let rest := fun prefast sz =>
    pencil_rank2 0 1 fast brick slow sz (fun fastslow sz =>
    if post then
      match newpermute2 permute with
      | Some np => plain_rank2 1 np slow outb sz (fun p sz => k prefast fastslow (Some p) sz)
      | None => PUB
      end
    else k prefast fastslow None sz) in
  if pre then plain_rank2 0 0 inb fast sz (fun p sz => rest (Some p) sz) else rest None sz.

(** remap_inverse_create *)
Definition inverse_rank2 (pre post : bool) (fast slow brick : box2) (sz : Z * Z)
    (k : option lpair2 -> lpair2 -> option lpair2 -> Z * Z -> pr) : pr :=
  let rest := fun preslow sz =>
    pencil_rank2 1 1 slow brick fast sz (fun slowfast sz =>
    if pre then plain_rank2 0 0 fast inb sz (fun p sz => k preslow slowfast (Some p) sz)
    else k preslow slowfast None sz) in
  if post then
    if permute =? 0 then plain_rank2 0 1 outb slow sz (fun p sz => rest (Some p) sz)
    else if permute =? 1 then plain_rank2 1 0 outb slow sz (fun p sz => rest (Some p) sz)
    else PUB
  else rest None sz.

Definition finish_rank2 (pre post same exch : bool) (fast slow brick : box2) : pr :=
  let fftsize :=
    let s := Z.max (psize2 inb) (psize2 outb) in
    let s := Z.max s (psize2 fast) in
    let s := Z.max s (psize2 slow) in
    if exch then Z.max s (psize2 brick) else s in
  forward_rank2 pre post fast slow brick (0, 0) (fun prefast fastslow postslow sz =>
  if same then
    PRet (mklfft2 inb outb fast slow brick pre post same prefast fastslow postslow None None None (fst sz) (snd sz) fftsize)
  else
    inverse_rank2 pre post fast slow brick sz (fun preslow slowfast postfast sz =>
    PRet (mklfft2 inb outb fast slow brick pre post same
            prefast fastslow postslow preslow (Some slowfast) postfast (fst sz) (snd sz) fftsize))).

Definition setup2d_rank : pr :=
  let '(nfast, nslow) := N in
  (* src/fft2d.cpp:254-258 *)
  if (nfast <? 2) || (nslow <? 2) then PErr "Each FFT dimension must be >= 2"
  else match prime_factorable nfast, prime_factorable nslow with
  | Some okf, Some oks =>
  if negb okf then PErr "Invalid nfast"
  else if negb oks then PErr "Invalid nslow"
  else
  (* src/fft2d.cpp:262-276 *)
  PMax (b2z (bad_index2 N inb)) (fun allflag =>
  if negb (allflag =? 0) then PErr "FFT setup in/out indices are invalid" else
  PSum (psize2 inb) (fun nall =>
  if negb (nall =? nfast * nslow) then PErr "FFT setup in/out indices do not tile grid" else
  (* src/fft2d.cpp:291-297 *)
  PMax (b2z (negb (box2_eqb inb outb) || negb (permute =? 0))) (fun allflag =>
  let same := allflag =? 0 in
  (* src/fft2d.cpp:304-319 *)
  if Nat.ltb NFACTOR (List.length (factor P)) then PErr "Nprocs is too large to factor" else
  let exch := negb (st_exch st =? 0) in
  match (if exch then procfactors2 ar P nfast nslow else Some (0, 0)) with
  | Some gbrick =>
  (* src/fft2d.cpp:326-340 *)
  PMax (b2z (negb ((ilo2 inb =? 0) && (ihi2 inb =? nfast - 1)))) (fun allflag =>
  let pre := negb (allflag =? 0) in
  let fast := if pre then fast_box2 N P (Z.of_nat me) else inb in
  (* src/fft2d.cpp:349-364 *)
  PMax (b2z (negb ((permute =? 1) && (jlo2 outb =? 0) && (jhi2 outb =? nslow - 1)))) (fun allflag =>
  let slow := if negb (allflag =? 0) then slow_box2 N P (Z.of_nat me) else outb in
  (* src/fft2d.cpp:369-377 *)
  PMax (b2z (negb ((permute =? 1) && box2_eqb outb slow))) (fun allflag =>
  let post := negb (allflag =? 0) in
  finish_rank2 pre post same exch fast slow (gbox2 N gbrick (Z.of_nat me)))))
  | None => PUB
  end)))
  | _, _ => PUB
  end.
End Rank2.

Section Share2.
Variables (n : nat) (st : settings).
Definition share_map2 (r : nat) (m : rm2) : option lmap2 :=
  pl <- setup2 n (rm2_coll m) (st_pack st) 2 (rm2_perm m) (rm2_in m) (rm2_out m) r; Some (pl, rp_group pl).
Definition share_pair2 (r : nat) (p : remap_pair2) : option lpair2 :=
  a <- share_map2 r (fst p);
  match snd p with Some m => b <- share_map2 r m; Some (a, Some b) | None => Some (a, None) end.
Definition share_opt2 (r : nat) (p : option remap_pair2) : option (option lpair2) :=
  match p with Some q => a <- share_pair2 r q; Some (Some a) | None => Some None end.
Definition share2 (f : fft2) (r : nat) : option lfft2 :=
  prefast <- share_opt2 r (t_prefast f);
  fastslow <- share_pair2 r (t_fastslow f);
  postslow <- share_opt2 r (t_postslow f);
  preslow <- share_opt2 r (t_preslow f);
  slowfast <- share_opt2 r (t_slowfast f);
  postfast <- share_opt2 r (t_postfast f);
  Some (mklfft2 (t_in f r) (t_out f r) (t_fast f r) (t_slow f r) (t_brick f r) (t_pre f) (t_post f) (t_same f)
          prefast fastslow postslow preslow slowfast postfast
          (t_sendsize f r) (t_recvsize f r) (t_fftsize f r)).
End Share2.
Definition end2 (n : nat) (st : settings) (res : sres fft2) (r : nat) : prog box2 lfft2 :=
  match res with
  | SErr m => PErr m
  | SUB => PUB
  | SOk f => match share2 n st f r with Some x => PRet x | None => PUB end
  end.
