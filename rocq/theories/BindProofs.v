(** BindProofs.v : proofs about the language bindings. *)

From Coq Require Import QArith String.
From Verif Require Import Base Bind BindSpec.
Local Open Scope string_scope.
Local Open Scope list_scope.
Local Open Scope Z_scope.

(** ** Fortran *)
(** decidable version of the agreement of one dummy with one parameter *)
Definition agree1 (p : string * ctype) (d : dummy) : bool :=
  String.eqb (fst p) (d_name d) &&
  match snd p, d_ty d, d_value d with
  | (TInt | TFint), FInt, true => true
  | TDouble, FReal, true => true
  | (TPtr TVoid | TPtr TScalar), FPtr, true => true
  | TPtr TInt, FInt, false => true
  | TPtr (TPtr TVoid), FPtr, false => true
  | TPtr TChar, FChars, false => true
  | _, _, _ => false
  end.
Fixpoint agree (ps : list (string * ctype)) (ds : list dummy) : bool :=
  match ps, ds with [], [] => true | p :: ps, d :: ds => agree1 p d && agree ps ds | _, _ => false end.
Definition agree_ret (c : ctype) (f : option fty) : bool :=
  match c, f with
  | TVoid, None | TInt, Some FInt | TInt64, Some FInt64 | TDouble, Some FReal | TPtr _, Some FPtr => true
  | _, _ => false
  end.

Lemma agree1_delivered : forall p d v, agree1 p d = true -> has_type (d_ty d) v -> delivered p v (pass d v).
Proof.
  intros [x t] [n ty b] [a vl] H T. unfold agree1, delivered, has_type, pass in *. cbn in *.
  apply andb_true_iff in H. destruct H as [_ H].
  destruct t as [ | | | | | | | | t]; try discriminate; try (destruct t as [ | | | | | | | | t]; try discriminate; try (destruct t; try discriminate));
    destruct ty; try discriminate; destruct b; try discriminate; destruct vl; try contradiction; cbn; eauto.
Qed.
Lemma agree_delivered : forall ps ds, agree ps ds = true ->
  map fst ps = map d_name ds /\ forall vs, types_ok ds vs -> delivered_all ps vs (received ds vs).
Proof.
  induction ps as [|p ps IH]; intros [|d ds] H; try discriminate.
  - split; [reflexivity|]. intros [|v vs] T; [exact Logic.I | destruct T].
  - cbn in H. apply andb_true_iff in H. destruct H as [H1 H2]. destruct (IH ds H2) as [HN HD]. split.
    + cbn. rewrite HN. f_equal. unfold agree1 in H1. apply andb_true_iff in H1. apply String.eqb_eq. tauto.
    + intros [|v vs] T; [destruct T|]. destruct T as [T1 T2]. split; [apply agree1_delivered; assumption|]. apply HD. exact T2.
Qed.
Lemma agree_ret_ok : forall c f, agree_ret c f = true -> result_ok c f.
Proof. intros c [f|] H; destruct c; try discriminate; try destruct f; try discriminate; exact Logic.I. Qed.

Definition bound (api : list cproto) (p : fproc) : bool :=
  match lookup api (f_symbol p) with Some c => agree_ret (c_ret c) (f_ret p) && agree (c_par c) (f_args p) | None => false end.
Definition is_setup_memory (p : fproc) : bool := String.eqb (f_name p) "fft3d_setup_memory" || String.eqb (f_name p) "fft2d_setup_memory".

Lemma fortran_table : forall api l, forallb (fun p => is_setup_memory p || bound api p) l = true ->
  forall p, In p l -> f_name p <> "fft3d_setup_memory" -> f_name p <> "fft2d_setup_memory" ->
  exists c, lookup api (f_symbol p) = Some c /\ result_ok (c_ret c) (f_ret p) /\ map fst (c_par c) = map d_name (f_args p) /\
    forall vs, types_ok (f_args p) vs -> delivered_all (c_par c) vs (received (f_args p) vs).
Proof.
  intros api l H p HI N3 N2. rewrite forallb_forall in H. specialize (H p HI). apply orb_true_iff in H. destruct H as [H|H].
  - unfold is_setup_memory in H. apply orb_true_iff in H. destruct H as [H|H]; apply String.eqb_eq in H; contradiction.
  - unfold bound in H. destruct (lookup api (f_symbol p)) as [c|] eqn:E; [|discriminate]. exists c. split; [reflexivity|].
    apply andb_true_iff in H. destruct H as [H1 H2]. split; [apply agree_ret_ok; exact H1|]. apply agree_delivered. exact H2.
Qed.
Lemma fortran_ok : forall d p, In p (fort d) -> f_name p <> "fft3d_setup_memory" -> f_name p <> "fft2d_setup_memory" ->
  exists c, lookup (api_of d) (f_symbol p) = Some c /\ result_ok (c_ret c) (f_ret p) /\ map fst (c_par c) = map d_name (f_args p) /\
    forall vs, types_ok (f_args p) vs -> delivered_all (c_par c) vs (received (f_args p) vs).
Proof. intros d. apply fortran_table. destruct d; vm_compute; reflexivity. Qed.

(** every function of the C interface, except those only meant to be bound, has an interface of the same name *)
Lemma fortran_complete : forall d c, In c (api_of d) -> for_fortran c = false ->
  exists p, In p (fort d) /\ f_name p = c_name c /\ (f_symbol p = c_name c \/ f_symbol p = String.append (c_name c) "_fortran").
Proof.
  intros d c HI HF.
  assert (H : forallb (fun c => for_fortran c || existsb (fun p => String.eqb (f_name p) (c_name c) &&
    (String.eqb (f_symbol p) (c_name c) || String.eqb (f_symbol p) (String.append (c_name c) "_fortran"))) (fort d)) (api_of d) = true)
    by (destruct d; vm_compute; reflexivity).
  rewrite forallb_forall in H. specialize (H c HI). rewrite HF in H. cbn in H. apply existsb_exists in H.
  destruct H as (p & HP & H). apply andb_true_iff in H. destruct H as [H1 H2]. exists p. split; [exact HP|].
  split; [apply String.eqb_eq; exact H1|]. apply orb_true_iff in H2. destruct H2 as [H2|H2]; apply String.eqb_eq in H2; auto.
Qed.
(** a routine that has to convert communicators or indices is bound to the variant that does *)
Lemma fortran_variant : forall d p c, In p (fort d) -> In c (api_of d) -> c_name c = String.append (f_name p) "_fortran" -> f_symbol p = c_name c.
Proof.
  intros d p c HP HC E.
  assert (H : forallb (fun p => forallb (fun c => negb (String.eqb (c_name c) (String.append (f_name p) "_fortran")) || String.eqb (f_symbol p) (c_name c)) (api_of d)) (fort d) = true)
    by (destruct d; vm_compute; reflexivity).
  rewrite forallb_forall in H. specialize (H p HP). cbv beta in H. rewrite forallb_forall in H. specialize (H c HC). cbv beta in H.
  rewrite E in H at 1. rewrite String.eqb_refl in H. cbn in H. apply String.eqb_eq. exact H.
Qed.

(** the two setup_memory routines pass the addresses of the caller's pointer variables *)
Lemma fortran_setup_memory : forall d p vs, In p (fort d) -> f_name p = "fft3d_setup_memory" \/ f_name p = "fft2d_setup_memory" ->
  types_ok (f_args p) vs ->
  exists h s r, vs = [h; s; r] /\ (exists a b c, v_val h = VP a /\ v_val s = VP b /\ v_val r = VP c /\
    received (f_args p) vs = [WP a; WP (v_addr s); WP (v_addr r)]).
Proof.
  intros d p vs HI HN T.
  assert (HA : f_args p = fptr ++ ref FPtr ["sendbuf"; "recvbuf"]).
  { assert (H : forallb (fun p => negb (is_setup_memory p) || match f_args p with
        | [mkd "ptr" FPtr true; mkd "sendbuf" FPtr false; mkd "recvbuf" FPtr false] => true | _ => false end) (fort d) = true)
      by (destruct d; vm_compute; reflexivity).
    rewrite forallb_forall in H. specialize (H p HI). cbv beta in H.
    assert (E : is_setup_memory p = true) by (unfold is_setup_memory; destruct HN as [-> | ->]; reflexivity).
    rewrite E in H. cbn [negb orb] in H.
    destruct d; cbn [fort app f_fft3 f_remap3 f_fft2 f_remap2 In] in HI;
      repeat (destruct HI as [<- | HI]; [first [vm_compute in E; discriminate | reflexivity]|]); destruct HI. }
  rewrite HA in *. destruct vs as [|h [|s [|r [|x vs]]]]; cbn in T; try tauto.
  destruct T as (T1 & T2 & T3 & _). exists h, s, r. split; [reflexivity|].
  unfold has_type in *. cbn in T1, T2, T3. destruct (v_val h) eqn:E1, (v_val s) eqn:E2, (v_val r) eqn:E3; try contradiction.
  eexists _, _, _. split; [reflexivity|]. split; [reflexivity|]. split; [reflexivity|]. cbn. unfold pass. cbn. rewrite E1. reflexivity.
Qed.

(** ** Python: generic facts *)
Lemma wrap32_id : forall z, - 2 ^ 31 <= z < 2 ^ 31 -> wrap32 z = z.
Proof. intros z H. unfold wrap32. rewrite Z.mod_small; lia. Qed.
Lemma conv_fits : forall mem t v w, conv mem t v = Some w ->
  match t, w with Yint, WI _ | Ycomm, WI _ | Ydouble, WD _ => True | (Yvoidp | Ycharp | YPtr _), WP _ => True | _, _ => False end.
Proof.
  intros mem t v w H. destruct t, v; cbn in H; try discriminate; try (injection H as <-; exact Logic.I);
    destruct k; try discriminate; try (injection H as <-; exact Logic.I); destruct p; try discriminate; injection H as <-; exact Logic.I.
Qed.
Definition yfits (t : ctype) (y : ytype) : bool :=
  match t, y with
  | TInt, Yint | TComm, Ycomm | TDouble, Ydouble => true
  | TPtr TVoid, Yvoidp | TPtr TChar, Ycharp | TPtr TInt, YPtr QInt | TPtr (TPtr TVoid), YPtr QVoidp => true
  | TPtr TScalar, YPtr (QFloat | QDouble) => true
  | _, _ => false
  end.
Fixpoint yfits_all (ps : list (string * ctype)) (ts : list ytype) : bool :=
  match ps, ts with [], [] => true | (_, t) :: ps, y :: ts => yfits t y && yfits_all ps ts | _, _ => false end.
Lemma yfits_len : forall ps ts, yfits_all ps ts = true -> List.length ps = List.length ts.
Proof.
  induction ps as [|[x t] ps IH]; intros [|y ts] H; try discriminate; [reflexivity|]. cbn in H.
  apply andb_true_iff in H. cbn. f_equal. apply IH. tauto.
Qed.
Lemma yfits_fits : forall mem t y v w, yfits t y = true -> conv mem y v = Some w -> fits t w = true.
Proof.
  intros mem t y v w H C. apply conv_fits in C.
  destruct t as [ | | | | | | | | t]; destruct y; try discriminate; destruct w; try contradiction; try reflexivity;
    destruct t as [ | | | | | | | | t]; try discriminate; try (destruct p; discriminate); destruct t; discriminate.
Qed.
Lemma convs_from_fit : forall mem ps ts vs ws, yfits_all ps ts = true -> List.length vs = List.length ts ->
  convs_from mem ts vs = EvOk ws -> all_fit ps ws = true.
Proof.
  intros mem. induction ps as [|[x t] ps IH]; intros [|y ts] vs ws H L C; try discriminate.
  - destruct vs; [|discriminate]. cbn in C. injection C as <-. reflexivity.
  - destruct vs as [|v vs]; [discriminate|]. cbn in C. cbn in H. apply andb_true_iff in H. destruct H as [H1 H2].
    destruct (conv mem y v) as [w|] eqn:E; [|discriminate].
    destruct (convs_from mem ts vs) as [r|e] eqn:E2; [|discriminate]. injection C as <-. cbn.
    rewrite (yfits_fits _ _ _ _ _ H1 E). cbn. eapply IH; [exact H2 | cbn in L; injection L as L; exact L | exact E2].
Qed.

(** ** The FFT classes *)
Definition declared (d : bool) (prec : Z) : obj := fst (declare (k_api (cls d)) (k_decls (cls d)) (mko true None prec [] [])).
(** the object after __init__ *)
Definition obj0 (d : bool) (prec cell : Z) : obj := mko true (Some cell) prec (o_args (declared d prec)) (o_res (declared d prec)).
Definition zeroed (w : world) : world := mkw (w_calls w) (fun a => if a =? w_next w then 0 else w_mem w a) (w_next w + 1).

Section Sem.
Variable sem : string -> list word -> (Z -> Z) -> cres.

Lemma construct_eq : forall d comm prec w, prec = 1 \/ prec = 2 ->
  construct sem (k_api (cls d)) (cls d) comm prec w =
  let ws := [WI comm; WI prec; WP (w_next w)] in
  let f := String.append (pre d) "create" in
  ROk XNone (obj0 d prec (w_next w)) (mkw (w_calls w ++ [(f, ws)]) (r_mem (sem f ws (w_mem (zeroed w)))) (w_next w + 1)).
Proof. intros d comm prec w [-> | ->]; destruct d; vm_compute; reflexivity. Qed.
Lemma construct_bad : forall d comm prec w, prec <> 1 -> prec <> 2 ->
  construct sem (k_api (cls d)) (cls d) comm prec w = RExn SystemExit (mko false None prec [] []) w.
Proof.
  intros d comm prec w H1 H2. unfold construct. rewrite (proj2 (Z.eqb_neq _ _) H1), (proj2 (Z.eqb_neq _ _) H2). reflexivity.
Qed.
Lemma construct_inv : forall d comm prec w v o w', construct sem (k_api (cls d)) (cls d) comm prec w = ROk v o w' ->
  (prec = 1 \/ prec = 2) /\ o = obj0 d prec (w_next w).
Proof.
  intros d comm prec w v o w' H. destruct (Z.eq_dec prec 1) as [E1|N1]; [|destruct (Z.eq_dec prec 2) as [E2|N2]].
  - rewrite construct_eq in H by auto. injection H as _ <- _. auto.
  - rewrite construct_eq in H by auto. injection H as _ <- _. auto.
  - rewrite construct_bad in H by auto. discriminate.
Qed.

(** *** Every method call is sound *)
Fixpoint outs_ok (params : list string) (ps : list (string * ctype)) (args : list expr) : bool :=
  match ps, args with
  | [], [] => true
  | (_, t) :: ps, a :: args =>
    match t with
    | TPtr TInt => match a with EByref x => negb (mem_str x params) | _ => false end
    | TPtr (TPtr TVoid) => false
    | _ => true
    end && outs_ok params ps args
  | _, _ => false
  end.
Definition ok_call (d : bool) (prec : Z) (params : list string) (f : string) (args : list expr) : bool :=
  negb (String.eqb f (String.append (pre d) "create")) && negb (String.eqb f (String.append (pre d) "destroy")) &&
  match lookup (k_api (cls d)) f, assoc f (o_args (declared d prec)), args with
  | Some c, Some ts, EFft :: _ => yfits_all (c_par c) ts && outs_ok params (c_par c) args
  | _, _, _ => false
  end.
Definition ok_stmt (d : bool) (prec : Z) (params : list string) (s : stmt) : bool :=
  match s with SCall _ f args => ok_call d prec params f args | SLibNone => false | _ => true end.

Section Alive.
Variable d : bool.
Hypothesis W : writes_results_only (k_api (cls d)) sem.
Variable prec cell h base : Z.
Hypothesis Hcell : cell < base.
Let api := k_api (cls d).
Let o := obj0 d prec cell.
Variable params : list string.
Variable locals : list string.

Definition env_ok (e : env) : Prop := forall x k a, mem_str x params = false -> assoc x e = Some (XCell k a) -> base <= a.
Notation mid_call := (between d h).

Lemma evals_len : forall e l vs, evals locals o e l = EvOk vs -> List.length vs = List.length l.
Proof.
  intros e. induction l as [|a l IH]; intros vs H; cbn in H; [injection H as <-; reflexivity|].
  destruct (eval locals o e a); [|discriminate]. destruct (evals locals o e l) eqn:E; [|discriminate]. injection H as <-.
  cbn. f_equal. apply IH. reflexivity.
Qed.
Lemma outs_ok_len : forall ps args, outs_ok params ps args = true -> List.length ps = List.length args.
Proof.
  induction ps as [|[x t] ps IH]; intros [|a args] H; try discriminate; [reflexivity|]. cbn in H. apply andb_true_iff in H.
  cbn. f_equal. apply IH. tauto.
Qed.
Lemma writable_new : forall mem e, env_ok e -> forall ps ts args vs ws, yfits_all ps ts = true -> outs_ok params ps args = true ->
  evals locals o e args = EvOk vs -> convs_from mem ts vs = EvOk ws -> forall a, In a (writable ps ws) -> base <= a.
Proof.
  intros mem e HE. induction ps as [|[x t] ps IH]; intros ts args vs ws HY HO HV HC a HA; [destruct HA|].
  destruct ts as [|y ts]; [discriminate|]. destruct args as [|ar args]; [discriminate|].
  cbn in HY, HO, HV. apply andb_true_iff in HY. destruct HY as [HY1 HY2]. apply andb_true_iff in HO. destruct HO as [HO1 HO2].
  destruct (eval locals o e ar) as [v|] eqn:Ev; [|discriminate]. destruct (evals locals o e args) as [vs'|] eqn:Evs; [|discriminate].
  injection HV as <-. cbn in HC. destruct (conv mem y v) as [w|] eqn:Ec; [|discriminate].
  destruct (convs_from mem ts vs') as [ws'|] eqn:Ecs; [|discriminate]. injection HC as <-. cbn in HA. apply in_app_iff in HA.
  destruct HA as [HA|HA]; [|eapply IH; eauto].
  destruct t as [ | | | | | | | | t]; try destruct HA. destruct t as [ | | | | | | | | t]; try destruct HA; [|destruct t; try discriminate; destruct HA].
  destruct w as [ | |b]; try destruct HA as [<-|[]]; try destruct HA.
  destruct ar as [ |z| | ]; try discriminate. apply negb_true_iff in HO1. cbn in Ev. unfold rd in Ev.
  destruct (assoc z e) as [u|] eqn:Ez; [|discriminate]. destruct u; try discriminate. injection Ev as <-.
  destruct y; try discriminate. cbn in Ec. destruct (yptr_eqb p k); [|discriminate]. injection Ec as <-. eapply HE; eauto.
Qed.

Lemma call_sound : forall w e f args, env_ok e -> w_mem w cell = h -> prec = 1 \/ prec = 2 -> ok_call d prec params f args = true ->
  match call sem api locals o w e f args with
  | CallUB => False
  | CallExn _ => True
  | CallOk v w' => (forall k a, v <> XCell k a) /\ w_next w' = w_next w /\
      (exists c, w_calls w' = w_calls w ++ [c] /\ mid_call c) /\ (forall a, a < base -> w_mem w' a = w_mem w a)
  end.
Proof.
  intros w e f args HE Hh Hp OK. unfold ok_call in OK. apply andb_true_iff in OK. destruct OK as [OK OK3].
  apply andb_true_iff in OK. destruct OK as [OK1 OK2]. apply negb_true_iff in OK1, OK2.
  apply String.eqb_neq in OK1. apply String.eqb_neq in OK2.
  unfold call. replace (o_lib o) with true by reflexivity. cbn [negb]. fold api in OK3.
  destruct (lookup api f) as [p|] eqn:Ep; [|discriminate].
  replace (o_args o) with (o_args (declared d prec)) by reflexivity.
  destruct (assoc f (o_args (declared d prec))) as [ts|] eqn:Et; [|discriminate].
  destruct args as [|ar args]; [discriminate|]. destruct ar; try discriminate.
  apply andb_true_iff in OK3. destruct OK3 as [HY HO].
  destruct (evals locals o e (EFft :: args)) as [vs|] eqn:Ev; [|exact Logic.I].
  pose proof (evals_len _ _ _ Ev) as L. pose proof (outs_ok_len _ _ HO) as L2. pose proof (yfits_len _ _ HY) as L3.
  unfold convs. replace (Nat.ltb (List.length vs) (List.length ts)) with false by (symmetry; apply Nat.ltb_ge; lia).
  destruct (convs_from (w_mem w) ts vs) as [ws|] eqn:Ec; [|exact Logic.I].
  assert (AF : all_fit (c_par p) ws = true) by (apply (convs_from_fit (w_mem w) (c_par p) ts vs ws HY); [lia | exact Ec]).
  rewrite AF. split; [|split; [reflexivity|split]].
  - intros k a. unfold result. destruct (match assoc f (o_res o) with Some r => r | None => Rint end); try discriminate.
    destruct (r_ptr (sem f ws (w_mem w)) =? 0); discriminate.
  - eexists. split; [reflexivity|]. split; [exact OK1|]. split; [exact OK2|]. exists p.
    cbn in Ev. destruct (evals locals o e args) as [vs'|]; [|discriminate]. injection Ev as <-.
    destruct (c_par p) as [|[x t] ps] eqn:EP; [discriminate|]. destruct ts as [|y ts]; [discriminate|].
    cbn in HY, HO. apply andb_true_iff in HY. destruct HY as [HY1 HY2]. apply andb_true_iff in HO. destruct HO as [HO1 _].
    cbn in Ec. destruct (conv (w_mem w) y (XCell QVoidp cell)) as [w1|] eqn:E1; [|discriminate].
    destruct (convs_from (w_mem w) ts vs') as [ws'|]; [|discriminate]. injection Ec as <-.
    exists ws'. split; [exact Ep|]. split; [|exact AF]. cbn. f_equal.
    destruct t as [ | | | | | | | | t]; try (destruct y; cbn in HY1, E1; discriminate).
    destruct t as [ | | | | | | | | t]; try discriminate; try (destruct t; discriminate);
      destruct y as [ | | | | |k]; try discriminate; try (destruct k; discriminate).
    cbn in E1. rewrite Hh in E1. injection E1 as <-. reflexivity.
  - intros a Ha. cbn. apply (W f p ws (w_mem w) a Ep). intros HI.
    assert (base <= a) by (eapply (writable_new (w_mem w) e HE); [exact HY | exact HO | exact Ev | exact Ec | exact HI]). lia.
Qed.

Lemma assoc_cons_env : forall e x v, env_ok e -> (forall k a, v = XCell k a -> base <= a) -> env_ok ((x, v) :: e).
Proof.
  intros e x v HE HV y k a Hy. cbn. destruct (String.eqb y x); [intros H; injection H as ->; eapply HV; reflexivity|]. apply HE. exact Hy.
Qed.

Definition sound_end (w : world) (r : res) : Prop :=
  match r with
  | RUB => False
  | ROk _ o' w' | RExn _ o' w' => o' = o /\ w_next w <= w_next w' /\
      (exists mid, w_calls w' = w_calls w ++ mid /\ Forall mid_call mid) /\ (forall a, a < base -> w_mem w' a = w_mem w a)
  end.
Lemma sound_stop : forall w r, (exists v, r = ROk v o w) \/ (exists x, r = RExn x o w) -> sound_end w r.
Proof.
  intros w r H. assert (G : o = o /\ w_next w <= w_next w /\ (exists mid, w_calls w = w_calls w ++ mid /\ Forall mid_call mid) /\
    (forall a, a < base -> w_mem w a = w_mem w a)).
  { split; [reflexivity|]. split; [lia|]. split; [|reflexivity]. exists []. split; [symmetry; apply app_nil_r|constructor]. }
  destruct H as [(v & ->)|(x & ->)]; exact G.
Qed.
Lemma sound_trans : forall w w1 r, w_next w <= w_next w1 -> (exists mid, w_calls w1 = w_calls w ++ mid /\ Forall mid_call mid) ->
  (forall a, a < base -> w_mem w1 a = w_mem w a) -> sound_end w1 r -> sound_end w r.
Proof.
  intros w w1 r HN (m1 & HC & HF) HM H.
  assert (G : forall o' w', (o' = o /\ w_next w1 <= w_next w' /\ (exists mid, w_calls w' = w_calls w1 ++ mid /\ Forall mid_call mid) /\
    (forall a, a < base -> w_mem w' a = w_mem w1 a)) -> o' = o /\ w_next w <= w_next w' /\
    (exists mid, w_calls w' = w_calls w ++ mid /\ Forall mid_call mid) /\ (forall a, a < base -> w_mem w' a = w_mem w a)).
  { intros o' w' (A & B & (m2 & C & D) & E). split; [exact A|]. split; [lia|]. split.
    - exists (m1 ++ m2). split; [rewrite C, HC, app_assoc; reflexivity|]. apply Forall_app. split; assumption.
    - intros a Ha. rewrite E, HM by exact Ha. reflexivity. }
  destruct r; [apply G; exact H | apply G; exact H | exact H].
Qed.

Lemma run_sound : prec = 1 \/ prec = 2 -> forall b w e, forallb (ok_stmt d prec params) b = true -> env_ok e -> base <= w_next w -> w_mem w cell = h ->
  sound_end w (run sem api locals b o w e).
Proof.
  intros Hp. induction b as [|s b IH]; intros w e HB HE HN Hh; [apply sound_stop; left; eexists; reflexivity|].
  cbn in HB. apply andb_true_iff in HB. destruct HB as [HS HB]. destruct s; cbn [run].
  - apply (sound_trans w (mkw (w_calls w) (fun a => if a =? w_next w then 0 else w_mem w a) (w_next w + 1))).
    + cbn. lia.
    + exists []. split; [symmetry; apply app_nil_r|constructor].
    + intros a Ha. cbn. destruct (Z.eqb_spec a (w_next w)); [lia|reflexivity].
    + apply IH; [exact HB| |cbn; lia|].
      * apply assoc_cons_env; [exact HE|]. intros k a E. injection E as _ <-. exact HN.
      * cbn. destruct (Z.eqb_spec cell (w_next w)); [lia|exact Hh].
  - destruct (arrays locals e xs) as [[|]|x]; [apply IH; assumption | apply sound_stop; right; eexists; reflexivity | apply sound_stop; right; eexists; reflexivity].
  - destruct (rd locals y e) as [v|x0]; [|apply sound_stop; right; eexists; reflexivity].
    destruct v; try (apply sound_stop; right; eexists; reflexivity). apply IH; try assumption.
    apply assoc_cons_env; [exact HE|]. intros; discriminate.
  - pose proof (call_sound w e f args HE Hh Hp HS) as C. destruct (call sem api locals o w e f args) as [v w'|x0|].
    + destruct C as (C1 & C2 & (c & C3 & C4) & C5). apply (sound_trans w w').
      * lia.
      * exists [c]. split; [exact C3|]. constructor; [exact C4|constructor].
      * exact C5.
      * apply IH; [exact HB| |lia|rewrite C5; [exact Hh|exact Hcell]].
        destruct x as [x|]; [|exact HE]. apply assoc_cons_env; [exact HE|]. intros k a E. exfalso. apply (C1 k a E).
    + apply sound_stop; right; eexists; reflexivity.
    + destruct C.
  - destruct (rd locals x e) as [v|x0]; [|apply sound_stop; right; eexists; reflexivity].
    destruct v; try (apply sound_stop; right; eexists; reflexivity). destruct k; try (apply sound_stop; right; eexists; reflexivity).
    apply IH; try assumption. apply assoc_cons_env; [exact HE|]. intros; discriminate.
  - destruct (rd locals x e) as [v|x0]; [|apply sound_stop; right; eexists; reflexivity].
    destruct (is_null v); [apply sound_stop; left; eexists; reflexivity|]. apply IH; assumption.
  - destruct (rd locals y e) as [v|x0]; [|apply sound_stop; right; eexists; reflexivity].
    destruct (rd locals n e) as [u|x0]; [|destruct v; apply sound_stop; right; eexists; reflexivity].
    destruct v; try (apply sound_stop; right; eexists; reflexivity). destruct u; try (apply sound_stop; right; eexists; reflexivity).
    destruct k0; try (apply sound_stop; right; eexists; reflexivity). apply IH; try assumption.
    apply assoc_cons_env; [exact HE|]. intros; discriminate.
  - destruct (rds locals e xs) as [l|x0]; [|apply sound_stop; right; eexists; reflexivity].
    destruct l as [|v [|u l]]; apply sound_stop; left; eexists; reflexivity.
  - discriminate.
Qed.
End Alive.
End Sem.
