(** WrapProofs.v : specification and proofs for the C and Fortran interface functions of Wrap.v (C41, C42). *)

From Coq Require Import QArith String.
From Verif Require Import Base Spec Pack3d Pack2d Sched Remap Remap3d Remap2d RemapThms Layout Setup3d Setup2d Life Tune Proto MemUse Wrap.
Open Scope Z_scope.

(** ** specification of C41: 1-based inclusive bounds [b'] describe the same tile as 0-based bounds [b] *)
Definition one_based3 (b b' : box3) : Prop :=
  ilo b' = ilo b + 1 /\ ihi b' = ihi b + 1 /\ jlo b' = jlo b + 1 /\ jhi b' = jhi b + 1 /\ klo b' = klo b + 1 /\ khi b' = khi b + 1.
Definition one_based2 (b b' : box2) : Prop :=
  ilo2 b' = ilo2 b + 1 /\ ihi2 b' = ihi2 b + 1 /\ jlo2 b' = jlo2 b + 1 /\ jhi2 b' = jhi2 b + 1.
(** the 0-based bounds are ints *)
Definition int_box3 (b : box3) : Prop :=
  Forall (fun z => - 2 ^ 31 <= z) [ilo b; ihi b; jlo b; jhi b; klo b; khi b].
Definition int_box2 (b : box2) : Prop := Forall (fun z => - 2 ^ 31 <= z) [ilo2 b; ihi2 b; jlo2 b; jhi2 b].

Lemma dec_ok x y : y = x + 1 -> - 2 ^ 31 <= x -> dec y = Some x.
Proof.
  intros -> H. unfold dec, INT_MIN. destruct (Z.eqb_spec (x + 1) (- 2 ^ 31)) as [E|E]; [lia|]. f_equal. lia.
Qed.
Ltac six H := unfold int_box3, int_box2 in H; repeat (let a := fresh in apply Forall_cons_iff in H; destruct H as [a H]).
Lemma dec3_ok b b' : one_based3 b b' -> int_box3 b -> dec_bounds3 b' = Some b.
Proof.
  intros (H1 & H2 & H3 & H4 & H5 & H6) Hi. six Hi. unfold dec_bounds3.
  rewrite (dec_ok _ _ H1), (dec_ok _ _ H2), (dec_ok _ _ H3), (dec_ok _ _ H4), (dec_ok _ _ H5), (dec_ok _ _ H6) by assumption.
  destruct b; reflexivity.
Qed.
Lemma dec2_ok b b' : one_based2 b b' -> int_box2 b -> dec_bounds2 b' = Some b.
Proof.
  intros (H1 & H2 & H3 & H4) Hi. six Hi. unfold dec_bounds2.
  rewrite (dec_ok _ _ H1), (dec_ok _ _ H2), (dec_ok _ _ H3), (dec_ok _ _ H4) by assumption. destruct b; reflexivity.
Qed.
Lemma map_opt_ok {X Y} (f : Y -> option X) (R : X -> Y -> Prop) (P : X -> Prop) :
  (forall x y, R x y -> P x -> f y = Some x) -> forall l l', Forall2 R l l' -> Forall P l -> map_opt f l' = Some l.
Proof.
  intros Hf l l' H. induction H as [|x y l l' Hxy H IH]; intros Hp; [reflexivity|].
  apply Forall_cons_iff in Hp. destruct Hp as [Hx Hp]. cbn [map_opt]. rewrite (Hf _ _ Hxy Hx), (IH Hp). reflexivity.
Qed.
Definition decs3 := map_opt_ok dec_bounds3 one_based3 int_box3 dec3_ok.
Definition decs2 := map_opt_ok dec_bounds2 one_based2 int_box2 dec2_ok.

(** the tile handed to the member function holds exactly the caller's points, renumbered from 0 *)
Definition same_points3 (b' : box3) : Prop :=
  exists b, dec_bounds3 b' = Some b /\ forall i j k, inb3 (i, j, k) b' <-> inb3 (i - 1, j - 1, k - 1) b.
Definition same_points2 (b' : box2) : Prop :=
  exists b, dec_bounds2 b' = Some b /\ forall i j, inb2 (i, j) b' <-> inb2 (i - 1, j - 1) b.

Section Same3.
Variables (ins ins' outs outs' : list box3).
Hypothesis Hi : Forall2 one_based3 ins ins'.
Hypothesis Ho : Forall2 one_based3 outs outs'.
Hypothesis Ii : Forall int_box3 ins.
Hypothesis Io : Forall int_box3 outs.
Lemma setup3_same ar N permute r : fft3d_setup_fortran ar N ins' outs' permute r = fft3d_setup ar N ins outs permute r.
Proof using All. unfold fft3d_setup_fortran. rewrite (decs3 _ _ Hi Ii), (decs3 _ _ Ho Io). reflexivity. Qed.
Lemma remap3_same coll pack nqty permute r :
  remap3d_setup_fortran coll pack ins' outs' nqty permute r = remap3d_setup coll pack ins outs nqty permute r.
Proof using All. unfold remap3d_setup_fortran. rewrite (decs3 _ _ Hi Ii), (decs3 _ _ Ho Io). reflexivity. Qed.
End Same3.
Section Same2.
Variables (ins ins' outs outs' : list box2).
Hypothesis Hi : Forall2 one_based2 ins ins'.
Hypothesis Ho : Forall2 one_based2 outs outs'.
Hypothesis Ii : Forall int_box2 ins.
Hypothesis Io : Forall int_box2 outs.
Lemma setup2_same ar N permute r : fft2d_setup_fortran ar N ins' outs' permute r = fft2d_setup ar N ins outs permute r.
Proof using All. unfold fft2d_setup_fortran. rewrite (decs2 _ _ Hi Ii), (decs2 _ _ Ho Io). reflexivity. Qed.
Lemma remap2_same coll pack nqty permute r :
  remap2d_setup_fortran coll pack ins' outs' nqty permute r = remap2d_setup coll pack ins outs nqty permute r.
Proof using All. unfold remap2d_setup_fortran. rewrite (decs2 _ _ Hi Ii), (decs2 _ _ Ho Io). reflexivity. Qed.
End Same2.

Lemma C41_fft3_proof : forall ins ins' outs outs', Forall2 one_based3 ins ins' -> Forall2 one_based3 outs outs' ->
  Forall int_box3 ins -> Forall int_box3 outs ->
  forall ar N permute r,
  (forall st, fft3d_setup_fortran ar N ins' outs' permute r st = fft3d_setup ar N ins outs permute r st) /\
  (forall strict esize plsize rqsize ptsize nprocs xsize st o n h,
     run strict esize plsize rqsize ptsize nprocs xsize true (call_setup3 true ar N ins' outs' permute r st) o n h =
     run strict esize plsize rqsize ptsize nprocs xsize true (call_setup3 false ar N ins outs permute r st) o n h) /\
  (forall strict esize plsize rqsize ptsize nprocs xsize clk root flag niter tmax tflag o n h,
     run strict esize plsize rqsize ptsize nprocs xsize true (call_tune3 true ar N ins' outs' permute r clk root flag niter tmax tflag) o n h =
     run strict esize plsize rqsize ptsize nprocs xsize true (call_tune3 false ar N ins outs permute r clk root flag niter tmax tflag) o n h).
Proof.
  intros ins ins' outs outs' H1 H2 H3 H4 ar N permute r. pose proof (setup3_same _ _ _ _ H1 H2 H3 H4 ar N permute r) as E.
  unfold call_setup3, call_tune3. rewrite E. auto.
Qed.
Lemma C41_fft2_proof : forall ins ins' outs outs', Forall2 one_based2 ins ins' -> Forall2 one_based2 outs outs' ->
  Forall int_box2 ins -> Forall int_box2 outs ->
  forall ar N permute r,
  (forall st, fft2d_setup_fortran ar N ins' outs' permute r st = fft2d_setup ar N ins outs permute r st) /\
  (forall strict esize plsize rqsize ptsize nprocs xsize st o n h,
     run strict esize plsize rqsize ptsize nprocs xsize false (call_setup2 true ar N ins' outs' permute r st) o n h =
     run strict esize plsize rqsize ptsize nprocs xsize false (call_setup2 false ar N ins outs permute r st) o n h) /\
  (forall strict esize plsize rqsize ptsize nprocs xsize clk root flag niter tmax tflag o n h,
     run strict esize plsize rqsize ptsize nprocs xsize false (call_tune2 true ar N ins' outs' permute r clk root flag niter tmax tflag) o n h =
     run strict esize plsize rqsize ptsize nprocs xsize false (call_tune2 false ar N ins outs permute r clk root flag niter tmax tflag) o n h).
Proof.
  intros ins ins' outs outs' H1 H2 H3 H4 ar N permute r. pose proof (setup2_same _ _ _ _ H1 H2 H3 H4 ar N permute r) as E.
  unfold call_setup2, call_tune2. rewrite E. auto.
Qed.
Lemma C41_points3_proof : forall b', Forall (fun z => - 2 ^ 31 < z) [ilo b'; ihi b'; jlo b'; jhi b'; klo b'; khi b'] -> same_points3 b'.
Proof.
  intros b' H. exists (mkbox3 (ilo b' - 1) (ihi b' - 1) (jlo b' - 1) (jhi b' - 1) (klo b' - 1) (khi b' - 1)). six H. split.
  - apply dec3_ok; unfold one_based3, int_box3; cbn; [lia|]. repeat constructor; lia.
  - intros i j k. unfold inb3. cbn. lia.
Qed.
Lemma C41_points2_proof : forall b', Forall (fun z => - 2 ^ 31 < z) [ilo2 b'; ihi2 b'; jlo2 b'; jhi2 b'] -> same_points2 b'.
Proof.
  intros b' H. exists (mkbox2 (ilo2 b' - 1) (ihi2 b' - 1) (jlo2 b' - 1) (jhi2 b' - 1)). six H. split.
  - apply dec2_ok; unfold one_based2, int_box2; cbn; [lia|]. repeat constructor; lia.
  - intros i j. unfold inb2. cbn. lia.
Qed.

(** ** specification of C42 *)
Open Scope string_scope.

(** the documented public variables: doc/api_setup.txt:19-26 (settable), doc/api_stats.txt:25-45 (readable) *)
Inductive var :=
  | Vcollective | Vexchange | Vpackflag | Vmemoryflag | Vscaled | Vremaponly
  | Vmemusage
  | Vnpfast1 | Vnpfast2 | Vnpfast3 | Vnpmid1 | Vnpmid2 | Vnpmid3 | Vnpslow1 | Vnpslow2 | Vnpslow3 | Vnpbrick1 | Vnpbrick2 | Vnpbrick3
  | Vntrial | Vnpertrial | Vcbest | Vebest | Vpbest | Vcflags | Veflags | Vpflags | Vbesttime | Vsetuptime
  | Vtfft | Vt1d | Vtremap | Vtremap1 | Vtremap2 | Vtremap3 | Vtremap4 | Vfft1d | Vprecision
  | Vpermute | Vcollective_bp | Vcollective_pp.  (* public, not documented: fft3d.h:28-29 *)
Inductive value := XInt (z : Z) | XInt64 (z : Z) | XDouble (q : Q) | XString (s : string) | XInts (l : list Z) | XDoubles (l : list Q).
Definition val (p : pub) (x : var) : value :=
  match x with
  | Vcollective => XInt (v_collective p) | Vexchange => XInt (v_exchange p) | Vpackflag => XInt (v_packflag p)
  | Vmemoryflag => XInt (v_memoryflag p) | Vscaled => XInt (v_scaled p) | Vremaponly => XInt (v_remaponly p)
  | Vmemusage => XInt64 (v_memusage p)
  | Vnpfast1 => XInt (v_npfast1 p) | Vnpfast2 => XInt (v_npfast2 p) | Vnpfast3 => XInt (v_npfast3 p)
  | Vnpmid1 => XInt (v_npmid1 p) | Vnpmid2 => XInt (v_npmid2 p) | Vnpmid3 => XInt (v_npmid3 p)
  | Vnpslow1 => XInt (v_npslow1 p) | Vnpslow2 => XInt (v_npslow2 p) | Vnpslow3 => XInt (v_npslow3 p)
  | Vnpbrick1 => XInt (v_npbrick1 p) | Vnpbrick2 => XInt (v_npbrick2 p) | Vnpbrick3 => XInt (v_npbrick3 p)
  | Vntrial => XInt (v_ntrial p) | Vnpertrial => XInt (v_npertrial p)
  | Vcbest => XInt (v_cbest p) | Vebest => XInt (v_ebest p) | Vpbest => XInt (v_pbest p)
  | Vcflags => XInts (v_cflags p) | Veflags => XInts (v_eflags p) | Vpflags => XInts (v_pflags p)
  | Vbesttime => XDouble (v_besttime p) | Vsetuptime => XDouble (v_setuptime p)
  | Vtfft => XDoubles (v_tfft p) | Vt1d => XDoubles (v_t1d p) | Vtremap => XDoubles (v_tremap p)
  | Vtremap1 => XDoubles (v_tremap1 p) | Vtremap2 => XDoubles (v_tremap2 p) | Vtremap3 => XDoubles (v_tremap3 p) | Vtremap4 => XDoubles (v_tremap4 p)
  | Vfft1d => XString (v_fft1d p) | Vprecision => XString (v_precision p)
  | Vpermute => XInt (v_permute p) | Vcollective_bp => XInt (v_collective_bp p) | Vcollective_pp => XInt (v_collective_pp p)
  end.
(** doc/api_setup.txt:316-322 *)
Definition set_names : list (string * var) :=
  [("collective", Vcollective); ("exchange", Vexchange); ("pack", Vpackflag); ("memory", Vmemoryflag); ("scale", Vscaled); ("remaponly", Vremaponly)].
(** doc/api_stats.txt:25-45; [false]: the variables that exist in 2d (fft2d.h) *)
Definition readable (dim3 : bool) : list var :=
  [Vcollective; Vexchange; Vpackflag; Vmemusage; Vnpfast1; Vnpfast2; Vnpslow1; Vnpslow2; Vnpbrick1; Vnpbrick2;
   Vntrial; Vnpertrial; Vcbest; Vebest; Vpbest; Vcflags; Veflags; Vpflags; Vbesttime; Vsetuptime;
   Vtfft; Vt1d; Vtremap; Vtremap1; Vtremap2; Vtremap3; Vfft1d; Vprecision]%list ++
  (if dim3 then [Vnpfast3; Vnpmid1; Vnpmid2; Vnpmid3; Vnpslow3; Vnpbrick3; Vtremap4] else [])%list.
Definition is_best (x : var) : bool := match x with Vcbest | Vebest | Vpbest | Vbesttime => true | _ => false end.

(** the get functions as one: None = the NULL pointer *)
Inductive getter := GInt | GInt64 | GDouble | GString | GInts | GDoubles.
Definition get (dim3 : bool) (g : getter) (p : pub) (keyword : string) : option value :=
  match g with
  | GInt => Some (XInt ((if dim3 then fft3d_get_int else fft2d_get_int) p keyword))
  | GInt64 => Some (XInt64 (fft_get_int64 p keyword))
  | GDouble => Some (XDouble (fft_get_double p keyword))
  | GString => option_map XString (fst (fft_get_string p keyword))
  | GInts => option_map XInts (fst (fft_get_int_vector p keyword))
  | GDoubles => option_map XDoubles (fst ((if dim3 then fft3d_get_double_vector else fft2d_get_double_vector) p keyword))
  end.
(** what is stored in *len *)
Definition get_len (dim3 : bool) (g : getter) (p : pub) (keyword : string) : option Z :=
  match g with
  | GInt | GInt64 | GDouble => None
  | GString => snd (fft_get_string p keyword)
  | GInts => snd (fft_get_int_vector p keyword)
  | GDoubles => snd ((if dim3 then fft3d_get_double_vector else fft2d_get_double_vector) p keyword)
  end.
(** the answer to an unknown keyword *)
Definition unknown (g : getter) : option value :=
  match g with GInt => Some (XInt (-1)) | GInt64 => Some (XInt64 (-1)) | GDouble => Some (XDouble (inject_Z (-1))) | _ => None end.
(** the names each get function knows: the variable names of doc/api_stats.txt, "pack" for packflag *)
Definition get_names (dim3 : bool) (g : getter) : list (string * var) :=
  match g with
  | GInt => [("collective", Vcollective); ("exchange", Vexchange); ("pack", Vpackflag);
             ("npfast1", Vnpfast1); ("npfast2", Vnpfast2); ("npslow1", Vnpslow1); ("npslow2", Vnpslow2);
             ("npbrick1", Vnpbrick1); ("npbrick2", Vnpbrick2); ("ntrial", Vntrial); ("npertrial", Vnpertrial)]%list ++
            (if dim3 then [("npfast3", Vnpfast3); ("npmid1", Vnpmid1); ("npmid2", Vnpmid2); ("npmid3", Vnpmid3);
                           ("npslow3", Vnpslow3); ("npbrick3", Vnpbrick3)] else [])%list
  | GInt64 => [("memusage", Vmemusage)]
  | GDouble => [("setuptime", Vsetuptime)]
  | GString => [("fft1d", Vfft1d); ("precision", Vprecision)]
  | GInts => [("cflags", Vcflags); ("eflags", Veflags); ("pflags", Vpflags)]
  | GDoubles => [("tfft", Vtfft); ("t1d", Vt1d); ("tremap", Vtremap); ("tremap1", Vtremap1); ("tremap2", Vtremap2); ("tremap3", Vtremap3)]%list ++
                (if dim3 then [("tremap4", Vtremap4)] else [])%list
  end.
Definition names (l : list (string * var)) (k : string) (x : var) : Prop := In (k, x) l.
Definition named (l : list (string * var)) (k : string) : Prop := exists x, names l k x.

Definition sets (p : pub) (l : list (string * Z)) : pub := fold_left (fun p kv => fft_set p (fst kv) (snd kv)) l p.

(** ** proofs *)
Ltac keys H := unfold names, set_names, get_names in H; cbn [In app] in H; decompose [or] H; clear H;
  repeat match goal with E : (_, _) = (_, _) |- _ => injection E as <- <- | F : False |- _ => destruct F end.

Lemma set_names_val : forall p k x v, names set_names k x -> val (fft_set p k v) x = XInt v.
Proof. intros p k x v H. keys H; reflexivity. Qed.
Lemma set_names_other : forall p k x v y, names set_names k x -> y <> x -> val (fft_set p k v) y = val p y.
Proof. intros p k x v y H N. keys H; destruct y; try reflexivity; exfalso; apply N; reflexivity. Qed.
Ltac test k s x := let E := fresh in destruct (String.eqb_spec k s) as [E|_]; [exfalso; match goal with H : ~ named _ _ |- _ => apply H; exists x; rewrite E; unfold names; cbn; tauto end|].
Lemma set_unknown : forall p k v, ~ named set_names k -> fft_set p k v = p.
Proof.
  intros p k v H. unfold fft_set.
  test k "collective" Vcollective. test k "exchange" Vexchange. test k "pack" Vpackflag. test k "memory" Vmemoryflag.
  test k "scale" Vscaled. test k "remaponly" Vremaponly. reflexivity.
Qed.
Lemma C42_set_proof : forall p k v,
  (forall x, names set_names k x -> val (fft_set p k v) x = XInt v /\ forall y, y <> x -> val (fft_set p k v) y = val p y) /\
  (~ named set_names k -> fft_set p k v = p).
Proof.
  intros p k v. split; [|apply set_unknown]. intros x H. split; [apply set_names_val, H|]. intros y Hy. apply (set_names_other _ _ _ _ _ H Hy).
Qed.

Lemma named_dec k : named set_names k \/ ~ named set_names k.
Proof.
  assert (D : forall l, named l k \/ ~ named l k).
  { induction l as [|[s x] l [IH|IH]].
    - right. intros [y []].
    - left. destruct IH as [y Hy]. exists y. right. exact Hy.
    - destruct (string_dec s k) as [->|E]; [left; exists x; left; reflexivity|].
      right. intros [y [Hy|Hy]]; [injection Hy as -> _; apply E; reflexivity|]. apply IH. exists y. exact Hy. }
  apply D.
Qed.
Lemma var_dec (x y : var) : x = y \/ x <> y.
Proof. destruct x, y; first [left; reflexivity | right; discriminate]. Qed.
Lemma sets_app p a b : sets p (a ++ b) = sets (sets p a) b.
Proof. unfold sets. apply fold_left_app. Qed.
Lemma sets_none : forall l p x, (forall k v, In (k, v) l -> ~ names set_names k x) -> val (sets p l) x = val p x.
Proof.
  induction l as [|[k v] l IH]; intros p x H; [reflexivity|]. change (val (sets (fft_set p k v) l) x = val p x).
  rewrite IH; [|intros k' v' Hin; apply (H k' v'); right; exact Hin].
  destruct (named_dec k) as [[y Hy]|Hn]; [|rewrite (set_unknown _ _ _ Hn); reflexivity].
  apply (set_names_other _ _ _ _ _ Hy). intros ->. apply (H k v); [left; reflexivity|exact Hy].
Qed.
Lemma C42_sequence_proof : forall l p x,
  (forall k v a b, l = (a ++ (k, v) :: b)%list -> names set_names k x -> (forall k' v', In (k', v') b -> ~ names set_names k' x) ->
     val (sets p l) x = XInt v) /\
  ((forall k v, In (k, v) l -> ~ names set_names k x) -> val (sets p l) x = val p x).
Proof.
  intros l p x. split; [|apply sets_none]. intros k v a b -> Hk Hb. rewrite sets_app.
  change (val (sets (fft_set (sets p a) k v) b) x = XInt v). rewrite (sets_none _ _ _ Hb). apply set_names_val, Hk.
Qed.

Lemma get_named : forall dim3 g p k x, names (get_names dim3 g) k x -> get dim3 g p k = Some (val p x).
Proof. intros [] [] p k x H; keys H; reflexivity. Qed.
Lemma get_unnamed : forall dim3 g p k, ~ named (get_names dim3 g) k -> get dim3 g p k = unknown g.
Proof.
  intros [] [] p k H; cbn [get unknown]; unfold fft3d_get_int, fft2d_get_int, fft_get_int64, fft_get_double, fft_get_string, fft_get_int_vector, fft3d_get_double_vector, fft2d_get_double_vector;
  repeat match goal with |- context [String.eqb k ?s] =>
    destruct (String.eqb_spec k s) as [E|_]; [exfalso; apply H; rewrite E; eexists; unfold names; cbn; repeat (first [left; reflexivity | right])|] end; reflexivity.
Qed.
Lemma get_len_ok : forall dim3 g p k,
  (g = GInts \/ g = GDoubles -> get_len dim3 g p k = Some (v_ntrial p)) /\
  (forall s, get dim3 g p k = Some (XString s) -> get_len dim3 g p k = Some (Z.of_nat (String.length s))) /\
  (g = GString -> get dim3 g p k = None -> get_len dim3 g p k = None).
Proof.
  intros dim3 g p k. split; [|split].
  - intros [-> | ->]; cbn [get_len]; unfold fft_get_int_vector, fft3d_get_double_vector, fft2d_get_double_vector;
    destruct dim3; repeat match goal with |- context [String.eqb k ?s] => destruct (String.eqb k s) end; reflexivity.
  - intros s. destruct g; cbn [get get_len]; try discriminate.
    + unfold fft_get_string. repeat match goal with |- context [String.eqb k ?s] => destruct (String.eqb k s) end; cbn; intros E; try discriminate E; injection E as <-; reflexivity.
    + destruct (fst _); cbn; discriminate.
    + destruct (fst _); cbn; discriminate.
  - intros ->. cbn [get get_len]. unfold fft_get_string. repeat match goal with |- context [String.eqb k ?s] => destruct (String.eqb k s) end; cbn; intros E; try discriminate E; reflexivity.
Qed.
Lemma C42_get_proof : forall dim3 g p k,
  (forall x, names (get_names dim3 g) k x -> get dim3 g p k = Some (val p x)) /\
  (~ named (get_names dim3 g) k -> get dim3 g p k = unknown g) /\
  (g = GInts \/ g = GDoubles -> get_len dim3 g p k = Some (v_ntrial p)) /\
  (forall s, get dim3 g p k = Some (XString s) -> get_len dim3 g p k = Some (Z.of_nat (String.length s))) /\
  (g = GString -> get dim3 g p k = None -> get_len dim3 g p k = None).
Proof.
  intros dim3 g p k. split; [intros x; apply get_named|]. split; [apply get_unnamed|]. apply get_len_ok.
Qed.

(** a variable that can be read: some function and keyword give its value, whatever the state of the object *)
Definition can_read (dim3 : bool) (x : var) : Prop := exists g k, forall p, get dim3 g p k = Some (val p x).
Lemma C42_readable_proof : forall dim3 x, In x (readable dim3) -> is_best x = false -> can_read dim3 x.
Proof.
  assert (W : forall dim3 x g k, names (get_names dim3 g) k x -> can_read dim3 x) by (intros dim3 x g k H; exists g, k; intros p; apply get_named, H).
  intros dim3 x H B. unfold readable in H.
  destruct dim3; cbn [In app] in H; decompose [or] H; clear H; subst; try discriminate B; try contradiction;
  match goal with |- can_read ?d ?x =>
    let y := eval cbn in (fold_right (fun g (o : option (getter * string)) =>
        fold_right (fun kx o => match kx, x with
          | (k, Vcollective), Vcollective | (k, Vexchange), Vexchange | (k, Vpackflag), Vpackflag | (k, Vmemusage), Vmemusage
          | (k, Vnpfast1), Vnpfast1 | (k, Vnpfast2), Vnpfast2 | (k, Vnpfast3), Vnpfast3
          | (k, Vnpmid1), Vnpmid1 | (k, Vnpmid2), Vnpmid2 | (k, Vnpmid3), Vnpmid3
          | (k, Vnpslow1), Vnpslow1 | (k, Vnpslow2), Vnpslow2 | (k, Vnpslow3), Vnpslow3
          | (k, Vnpbrick1), Vnpbrick1 | (k, Vnpbrick2), Vnpbrick2 | (k, Vnpbrick3), Vnpbrick3
          | (k, Vntrial), Vntrial | (k, Vnpertrial), Vnpertrial | (k, Vcflags), Vcflags | (k, Veflags), Veflags | (k, Vpflags), Vpflags
          | (k, Vsetuptime), Vsetuptime | (k, Vtfft), Vtfft | (k, Vt1d), Vt1d | (k, Vtremap), Vtremap
          | (k, Vtremap1), Vtremap1 | (k, Vtremap2), Vtremap2 | (k, Vtremap3), Vtremap3 | (k, Vtremap4), Vtremap4
          | (k, Vfft1d), Vfft1d | (k, Vprecision), Vprecision => Some (g, k)
          | _, _ => o end) o (get_names d g)) None [GInt; GInt64; GDouble; GString; GInts; GDoubles]) in
    lazymatch y with Some (?g, ?k) => apply (W d x g k); unfold names; cbn; repeat (first [left; reflexivity | right]) end
  end.
Qed.

(** two objects that differ in the four tuning results only *)
Definition zero_pub : pub :=
  mkpub 0 0 0 0 0 0 0 0 0 0 0 0 0 0 0 0 0 0 0 0 0 0 0 0 0 0 0 [] [] [] (inject_Z 0) (inject_Z 0) [] [] [] [] [] [] [] "" "".
Definition best_pub : pub :=
  mkpub 0 0 0 0 0 0 0 0 0 0 0 0 0 0 0 0 0 0 0 0 0 0 0 0 1 1 1 [] [] [] (inject_Z 1) (inject_Z 0) [] [] [] [] [] [] [] "" "".
Lemma blind dim3 g k : get dim3 g zero_pub k = get dim3 g best_pub k.
Proof.
  destruct dim3, g; cbn [get]; unfold fft3d_get_int, fft2d_get_int, fft_get_int64, fft_get_double, fft_get_string, fft_get_int_vector, fft3d_get_double_vector, fft2d_get_double_vector;
  repeat match goal with |- context [String.eqb k ?s] => destruct (String.eqb k s) end; reflexivity.
Qed.
Lemma C42_best_refuted_proof : forall dim3 x, is_best x = true -> In x (readable dim3) /\ ~ can_read dim3 x.
Proof.
  intros dim3 x B. split.
  - destruct x; try discriminate B; unfold readable; apply in_or_app; left; cbn; tauto.
  - intros (g & k & H). pose proof (H zero_pub) as A. pose proof (H best_pub) as C. rewrite blind in A. rewrite A in C.
    destruct x; try discriminate B; discriminate C.
Qed.

(** ** remaps: doc/api_remap.txt:40-42, 215-217 document the keywords collective, pack and memory *)
Inductive rvar := Wcollective | Wpackflag | Wmemusage | Wmemoryflag.
Definition rval (p : rpub) (x : rvar) : Z :=
  match x with Wcollective => w_collective p | Wpackflag => w_packflag p | Wmemusage => w_memusage p | Wmemoryflag => w_memoryflag p end.
Definition rset_names : list (string * rvar) := [("collective", Wcollective); ("pack", Wpackflag); ("memory", Wmemoryflag)].
Lemma C42_remap_proof : forall p k v,
  (forall x, In (k, x) rset_names -> k <> "memory" ->
     rval (remap_set p k v) x = v /\ forall y, y <> x -> rval (remap_set p k v) y = rval p y) /\
  ((forall x, ~ In (k, x) rset_names) -> remap_set p k v = p).
Proof.
  intros p k v. split.
  - intros x H N. unfold rset_names in H. cbn [In] in H. decompose [or] H; clear H;
    repeat match goal with E : (_, _) = (_, _) |- _ => injection E as <- <- | F : False |- _ => destruct F end;
    try (exfalso; apply N; reflexivity); (split; [reflexivity|]; intros [] Hy; try reflexivity; exfalso; apply Hy; reflexivity).
  - intros H. unfold remap_set. destruct (String.eqb_spec k "collective") as [->|_]; [exfalso; apply (H Wcollective); cbn; tauto|].
    destruct (String.eqb_spec k "pack") as [->|_]; [exfalso; apply (H Wpackflag); cbn; tauto|]. reflexivity.
Qed.
Lemma C42_remap_memory_refuted_proof : exists p k x v, In (k, x) rset_names /\ rval (remap_set p k v) x <> v.
Proof. exists (mkrpub 1 2 0 1), "memory", Wmemoryflag, 0%Z. split; [cbn; tauto|]. vm_compute. discriminate. Qed.
