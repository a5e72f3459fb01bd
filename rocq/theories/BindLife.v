(** BindLife.v : the life of a Python object, and the methods one by one. *)

From Coq Require Import QArith String.
From Verif Require Import Base Bind BindSpec BindProofs.
Local Open Scope string_scope.
Local Open Scope list_scope.
Local Open Scope Z_scope.

Section Sem.
Variable sem : string -> list word -> (Z -> Z) -> cres.

(** after destroy() nothing reaches C *)
Definition dead_end (o : obj) (w : world) (r : res) : Prop :=
  match r with
  | RUB => False
  | ROk _ o' w' | RExn _ o' w' => o' = o /\ w_next w <= w_next w' /\ w_calls w' = w_calls w /\ (forall a, a < w_next w -> w_mem w' a = w_mem w a)
  end.
Lemma dead_stop : forall o w r, (exists v, r = ROk v o w) \/ (exists x, r = RExn x o w) -> dead_end o w r.
Proof.
  intros o w r [(v & ->)|(x & ->)]; (split; [reflexivity|split; [lia|split; reflexivity]]).
Qed.
Lemma run_dead : forall api locals o b w e, o_lib o = false -> dead_end o w (run sem api locals b o w e).
Proof.
  intros api locals o b w e HL. revert w e. induction b as [|s b IH]; intros w e; [apply dead_stop; left; eexists; reflexivity|].
  destruct s; cbn [run].
  - pose proof (IH (mkw (w_calls w) (fun a => if a =? w_next w then 0 else w_mem w a) (w_next w + 1)) ((x, XCell QInt (w_next w)) :: e)) as H.
    assert (G : forall o' w', (o' = o /\ w_next w + 1 <= w_next w' /\ w_calls w' = w_calls w /\
      (forall a, a < w_next w + 1 -> w_mem w' a = (if a =? w_next w then 0 else w_mem w a))) ->
      o' = o /\ w_next w <= w_next w' /\ w_calls w' = w_calls w /\ (forall a, a < w_next w -> w_mem w' a = w_mem w a)).
    { intros o' w' (A & B & C & D). split; [exact A|]. split; [lia|]. split; [exact C|]. intros a Ha. rewrite D by lia.
      destruct (Z.eqb_spec a (w_next w)); [lia|reflexivity]. }
    destruct (run sem api locals b o _ _); [apply G; exact H | apply G; exact H | exact H].
  - destruct (arrays locals e xs) as [[|]|x]; [apply IH | apply dead_stop; right; eexists; reflexivity | apply dead_stop; right; eexists; reflexivity].
  - destruct (rd locals y e) as [v|x0]; [|apply dead_stop; right; eexists; reflexivity].
    destruct v; try (apply dead_stop; right; eexists; reflexivity). apply IH.
  - unfold call. rewrite HL. cbn [negb]. apply dead_stop; right; eexists; reflexivity.
  - destruct (rd locals x e) as [v|x0]; [|apply dead_stop; right; eexists; reflexivity].
    destruct v; try (apply dead_stop; right; eexists; reflexivity). destruct k; try (apply dead_stop; right; eexists; reflexivity). apply IH.
  - destruct (rd locals x e) as [v|x0]; [|apply dead_stop; right; eexists; reflexivity].
    destruct (is_null v); [apply dead_stop; left; eexists; reflexivity|]. apply IH.
  - destruct (rd locals y e) as [v|x0]; [|apply dead_stop; right; eexists; reflexivity].
    destruct (rd locals n e) as [u|x0]; [|destruct v; apply dead_stop; right; eexists; reflexivity].
    destruct v; try (apply dead_stop; right; eexists; reflexivity). destruct u; try (apply dead_stop; right; eexists; reflexivity).
    destruct k0; try (apply dead_stop; right; eexists; reflexivity). apply IH.
  - destruct (rds locals e xs) as [l|x0]; [|apply dead_stop; right; eexists; reflexivity].
    destruct l as [|v [|u l]]; apply dead_stop; left; eexists; reflexivity.
  - replace (mko false (o_cell o) (o_prec o) (o_args o) (o_res o)) with o by (destruct o; cbn in HL |- *; rewrite HL; reflexivity). apply IH.
Qed.
Lemma method_dead : forall k api m args o w, o_lib o = false -> dead_end o w (do_method sem api k m args o w).
Proof.
  intros k api m args o w HL. unfold do_method. destruct (find_method k m) as [mt|]; [|apply dead_stop; right; eexists; reflexivity].
  unfold invoke. destruct (Nat.eqb _ _); [apply run_dead; exact HL|apply dead_stop; right; eexists; reflexivity].
Qed.
Lemma use_dead : forall k api ops o w, o_lib o = false ->
  exists w', use sem api k ops o w = Some (o, w') /\ w_calls w' = w_calls w /\ w_next w <= w_next w' /\ (forall a, a < w_next w -> w_mem w' a = w_mem w a).
Proof.
  intros k api. induction ops as [|[m args] ops IH]; intros o w HL.
  - exists w. split; [reflexivity|]. split; [reflexivity|]. split; [lia|reflexivity].
  - cbn [use]. pose proof (method_dead k api m args o w HL) as H. destruct (do_method sem api k m args o w) as [v o' w1|x o' w1|]; [| |destruct H].
    + destruct H as (-> & H1 & H2 & H3). destruct (IH o w1 HL) as (w' & A & B & C & D). exists w'. split; [exact A|].
      split; [congruence|]. split; [lia|]. intros a Ha. rewrite D, H3 by lia. reflexivity.
    + destruct H as (-> & H1 & H2 & H3). destruct (IH o w1 HL) as (w' & A & B & C & D). exists w'. split; [exact A|].
      split; [congruence|]. split; [lia|]. intros a Ha. rewrite D, H3 by lia. reflexivity.
Qed.

Variable d : bool.
Hypothesis W : writes_results_only (k_api (cls d)) sem.

(** all methods but destroy satisfy the checks *)
Lemma methods_checked : forall prec, prec = 1 \/ prec = 2 -> forall m, In m (k_methods (cls d)) -> m_name m <> "destroy" ->
  forallb (ok_stmt d prec (m_par m)) (m_body m) = true.
Proof.
  intros prec Hp m HI HN.
  assert (H : forallb (fun m => String.eqb (m_name m) "destroy" || forallb (ok_stmt d prec (m_par m)) (m_body m)) (k_methods (cls d)) = true)
    by (destruct d; destruct Hp as [-> | ->]; vm_compute; reflexivity).
  rewrite forallb_forall in H. specialize (H m HI). cbv beta in H. apply orb_true_iff in H. destruct H as [H|H]; [|exact H].
  apply String.eqb_eq in H. contradiction.
Qed.
Lemma combine_env : forall params (args : list pval) x v, mem_str x params = false -> assoc x (combine params args) = Some v -> False.
Proof.
  induction params as [|p params IH]; intros [|a args] x v HM H; try discriminate. cbn in HM, H. apply orb_false_iff in HM.
  destruct HM as [H1 H2]. rewrite H1 in H. eapply IH; eauto.
Qed.
Lemma destroy_eq : forall prec cell h w, w_mem w cell = h -> prec = 1 \/ prec = 2 ->
  let ws := [WP h] in let f := String.append (pre d) "destroy" in
  run sem (k_api (cls d)) [] [SCall None f [EFft]; SLibNone] (obj0 d prec cell) w [] =
    ROk XNone (mko false (Some cell) prec (o_args (declared d prec)) (o_res (declared d prec)))
      (mkw (w_calls w ++ [(f, ws)]) (r_mem (sem f ws (w_mem w))) (w_next w)) /\
  run sem (k_api (cls d)) [] [SCall None f [EFft]] (obj0 d prec cell) w [] =
    ROk XNone (obj0 d prec cell) (mkw (w_calls w ++ [(f, ws)]) (r_mem (sem f ws (w_mem w))) (w_next w)).
Proof.
  clear W. intros prec cell h w <- Hp.
  destruct Hp as [-> | ->]; destruct d; split; vm_compute; reflexivity.
Qed.
Lemma destroy_mem : forall h mem a, r_mem (sem (String.append (pre d) "destroy") [WP h] mem) a = mem a.
Proof.
  intros h mem a. refine (W _ (mkc (String.append (pre d) "destroy") TVoid [handle]) _ _ _ _ _); [destruct d; reflexivity|]. cbn. tauto.
Qed.

Definition ended (h : Z) (prec cell base : Z) (w w' : world) (o' : obj) : Prop :=
  w_next w <= w_next w' /\ (forall a, a < base -> w_mem w' a = w_mem w a) /\
  exists mid, Forall (between d h) mid /\
    ((o' = obj0 d prec cell /\ w_calls w' = w_calls w ++ mid) \/
     (o_lib o' = false /\ w_calls w' = w_calls w ++ mid ++ [(String.append (pre d) "destroy", [WP h])])).
Lemma use_alive : forall prec cell h base, cell < base -> prec = 1 \/ prec = 2 -> forall ops w, base <= w_next w -> w_mem w cell = h ->
  exists o' w', use sem (k_api (cls d)) (cls d) ops (obj0 d prec cell) w = Some (o', w') /\ ended h prec cell base w w' o'.
Proof.
  intros prec cell h base Hc Hp. induction ops as [|[m args] ops IH]; intros w HN Hh.
  - exists (obj0 d prec cell), w. split; [reflexivity|]. split; [lia|]. split; [reflexivity|]. exists []. split; [constructor|]. left.
    split; [reflexivity|]. symmetry. apply app_nil_r.
  - cbn [use]. unfold do_method. unfold find_method. destruct (find _ (k_methods (cls d))) as [mt|] eqn:EF.
    2:{ apply IH; assumption. }
    apply find_some in EF. destruct EF as [HI HM]. apply String.eqb_eq in HM. unfold invoke.
    destruct (Nat.eqb (List.length args) (List.length (m_par mt))) eqn:EL; [|apply IH; assumption].
    destruct (string_dec (m_name mt) "destroy") as [ED|ND].
    + assert (EB : m_body mt = [SCall None (String.append (pre d) "destroy") [EFft]; SLibNone] /\ m_par mt = []).
      { destruct d; cbn [cls k_methods FFT3dMPI FFT2dMPI methods_fft3 methods_fft2 In] in HI;
          repeat (destruct HI as [<- | HI]; [first [split; reflexivity | discriminate ED]|]); destruct HI. }
      destruct EB as [EB EP]. rewrite EP in EL |- *. destruct args; [|discriminate]. rewrite EB. cbn [flat_map assigns app combine].
      destruct (destroy_eq prec cell h w Hh Hp) as [E1 _]. cbv zeta in E1. rewrite E1.
      match goal with |- context [use sem _ _ ops ?o1 ?w1] => destruct (use_dead (cls d) (k_api (cls d)) ops o1 w1 eq_refl) as (w' & A & B & C & D) end.
      eexists _, w'. split; [exact A|]. cbn in B, C, D. split; [exact C|]. split.
      * intros a Ha. rewrite D by lia. apply destroy_mem.
      * exists []. split; [constructor|]. right. split; [reflexivity|]. exact B.
    + pose proof (run_sound sem d W prec cell h base Hc (m_par mt) (m_par mt ++ flat_map assigns (m_body mt)) Hp (m_body mt) w (combine (m_par mt) args)
        (methods_checked prec Hp mt HI ND)) as S.
      assert (S' := S (fun x k a Hx Ha => False_ind _ (combine_env (m_par mt) args x _ Hx Ha)) HN Hh). clear S.
      destruct (run sem (k_api (cls d)) _ (m_body mt) (obj0 d prec cell) w (combine (m_par mt) args)) as [v o1 w1|x o1 w1|]; [| |destruct S'].
      * destruct S' as (-> & S1 & (m1 & S2 & S3) & S4).
        destruct (IH w1) as (o' & w' & A & B & C & m2 & D & E); [lia | rewrite S4; assumption|].
        exists o', w'. split; [exact A|]. split; [lia|]. split; [intros a Ha; rewrite C, S4 by assumption; reflexivity|].
        exists (m1 ++ m2). split; [apply Forall_app; split; assumption|]. rewrite S2 in E.
        destruct E as [[E1 E2]|[E1 E2]]; [left|right]; (split; [exact E1|]); rewrite E2, ?app_assoc; reflexivity.
      * destruct S' as (-> & S1 & (m1 & S2 & S3) & S4).
        destruct (IH w1) as (o' & w' & A & B & C & m2 & D & E); [lia | rewrite S4; assumption|].
        exists o', w'. split; [exact A|]. split; [lia|]. split; [intros a Ha; rewrite C, S4 by assumption; reflexivity|].
        exists (m1 ++ m2). split; [apply Forall_app; split; assumption|]. rewrite S2 in E.
        destruct E as [[E1 E2]|[E1 E2]]; [left|right]; (split; [exact E1|]); rewrite E2, ?app_assoc; reflexivity.
Qed.

(** the whole life: create first, destroy once and last, everything between on the handle create stored *)
Lemma life_calls : forall comm prec ops w, prec = 1 \/ prec = 2 ->
  let f := String.append (pre d) "create" in let ws := [WI comm; WI prec; WP (w_next w)] in
  let h := r_mem (sem f ws (w_mem (zeroed w))) (w_next w) in
  exists w' mid, life sem (k_api (cls d)) (cls d) comm prec ops w = Some w' /\
    w_calls w' = w_calls w ++ (f, ws) :: mid ++ [(String.append (pre d) "destroy", [WP h])] /\
    Forall (between d h) mid /\ (forall a, a < w_next w -> w_mem w' a = w_mem w a).
Proof.
  intros comm prec ops w Hp f ws h. unfold life. rewrite construct_eq by exact Hp. cbv zeta. fold f ws.
  set (w1 := mkw (w_calls w ++ [(f, ws)]) (r_mem (sem f ws (w_mem (zeroed w)))) (w_next w + 1)).
  destruct (use_alive prec (w_next w) h (w_next w + 1) ltac:(lia) Hp ops w1) as (o' & w2 & A & B & C & mid & D & E).
  { unfold w1. cbn. lia. } { reflexivity. }
  rewrite A. assert (M1 : forall a, a < w_next w -> w_mem w1 a = w_mem w a).
  { intros a Ha. unfold w1. cbn [w_mem]. assert (E1 : r_mem (sem f ws (w_mem (zeroed w))) a = w_mem (zeroed w) a).
    { refine (W f (mkc f TVoid [("comm", TComm); ("precision", TInt); ("ptr", TPtr (TPtr TVoid))]) ws _ a _ _); [destruct d; reflexivity|].
      cbn. intros [H|[]]. lia. }
    rewrite E1. cbn. destruct (Z.eqb_spec a (w_next w)); [lia|reflexivity]. }
  unfold finish. destruct E as [[-> E]|[E1 E2]].
  - assert (KD : k_del (cls d) = [SCall None (String.append (pre d) "destroy") [EFft]]) by (destruct d; reflexivity). rewrite KD.
    assert (Hh : w_mem w2 (w_next w) = h) by (rewrite C by lia; reflexivity).
    destruct (destroy_eq prec (w_next w) h w2 Hh Hp) as [_ E2]. cbv zeta in E2. rewrite E2.
    eexists _, mid. split; [reflexivity|]. cbn [w_calls w_mem]. split.
    + rewrite E. unfold w1. cbn [w_calls]. rewrite <- !app_assoc. reflexivity.
    + split; [exact D|]. intros a Ha. rewrite destroy_mem, C by lia. apply M1. exact Ha.
  - pose proof (run_dead (k_api (cls d)) [] o' (k_del (cls d)) w2 [] E1) as R.
    destruct (run sem (k_api (cls d)) [] (k_del (cls d)) o' w2 []) as [v o3 w3|x o3 w3|]; [| |destruct R].
    + destruct R as (_ & R1 & R2 & R3). exists w3, mid. split; [reflexivity|]. split.
      * rewrite R2, E2. unfold w1. cbn [w_calls]. rewrite <- !app_assoc. reflexivity.
      * split; [exact D|]. intros a Ha. unfold w1 in B. cbn in B. rewrite R3, C by lia. apply M1. exact Ha.
    + destruct R as (_ & R1 & R2 & R3). exists w3, mid. split; [reflexivity|]. split.
      * rewrite R2, E2. unfold w1. cbn [w_calls]. rewrite <- !app_assoc. reflexivity.
      * split; [exact D|]. intros a Ha. unfold w1 in B. cbn in B. rewrite R3, C by lia. apply M1. exact Ha.
Qed.
End Sem.

(** ** The methods one by one *)
Section Methods.
Variable sem : string -> list word -> (Z -> Z) -> cres.

Lemma expect_user : forall h n x t ps args ws, hidden t = false -> expect h n ((x, t) :: ps) args = Some ws ->
  exists a args' w ws', args = a :: args' /\ word_of t a = Some w /\ ws = w :: ws' /\ expect h n ps args' = Some ws'.
Proof.
  intros h n x t ps args ws HT H. destruct args as [|a args].
  - cbn in H. destruct t as [ | | | | | | | | t]; try discriminate; destruct t; discriminate.
  - exists a, args. assert (E : (w <- word_of t a; ws <- expect h n ps args; Some (w :: ws)) = Some ws).
    { destruct t as [ | | | | | | | | t]; try exact H; destruct t; try exact H; discriminate. }
    destruct (word_of t a) as [w|]; [|discriminate]. cbn in E. destruct (expect h n ps args) as [ws'|]; [|discriminate].
    injection E as <-. eauto 10.
Qed.

(** the Python values a method passes on *)
Definition qs (prec : Z) : yptr := if prec =? 1 then QFloat else QDouble.
Fixpoint vals (prec cell next : Z) (ps : list (string * ctype)) (args : list pval) : list pval :=
  match ps with
  | [] => []
  | (_, t) :: ps =>
    match t with
    | TPtr TVoid => XCell QVoidp cell :: vals prec cell next ps args
    | TPtr TInt => XByref QInt next :: vals prec cell (next + 1) ps args
    | _ => match args with
           | [] => []
           | a :: args => match a with XArr p => XCast (qs prec) p | _ => a end :: vals prec cell next ps args
           end
    end
  end.
Fixpoint ytypes (prec : Z) (ps : list (string * ctype)) : list ytype :=
  match ps with
  | [] => []
  | (_, t) :: ps => match t with
                    | TPtr TVoid => Yvoidp | TPtr TInt => YPtr QInt | TPtr TChar => Ycharp | TPtr TScalar => YPtr (qs prec)
                    | TDouble => Ydouble | _ => Yint
                    end :: ytypes prec ps
  end.
Lemma conv_user : forall mem prec t a w, word_of t a = Some w ->
  conv mem match t with TPtr TChar => Ycharp | TPtr TScalar => YPtr (qs prec) | TDouble => Ydouble | _ => Yint end
    match a with XArr p => XCast (qs prec) p | _ => a end = Some w /\ fits t w = true.
Proof.
  intros mem prec t a w H. destruct t as [ | | | | | | | | t]; destruct a; try discriminate; cbn [word_of] in H.
  - destruct (_ && _) eqn:E in H; [|discriminate]. injection H as <-.
    apply andb_true_iff in E. destruct E as [E1 E2]. split; [|reflexivity]. cbn [conv]. rewrite wrap32_id by lia. reflexivity.
  - injection H as <-. split; reflexivity.
  - destruct t; discriminate.
  - destruct t; discriminate.
  - destruct t; discriminate.
  - destruct t; try discriminate. injection H as <-. split; reflexivity.
  - destruct t; try discriminate. injection H as <-. split; [|reflexivity]. unfold qs. destruct (prec =? 1); reflexivity.
  - destruct t; discriminate.
  - destruct t; discriminate.
  - destruct t; discriminate.
  - destruct t; discriminate.
  - destruct t; discriminate.
  - destruct t; discriminate.
Qed.
Lemma convs_expect : forall mem prec cell h, mem cell = h -> forall ps next args ws, expect h next ps args = Some ws ->
  convs_from mem (ytypes prec ps) (vals prec cell next ps args) = EvOk ws /\ all_fit ps ws = true.
Proof.
  intros mem prec cell h Hh. induction ps as [|[x t] ps IH]; intros next args ws H.
  - cbn in H. destruct args; [|discriminate]. injection H as <-. split; reflexivity.
  - destruct (hidden t) eqn:HT.
    + destruct t as [ | | | | | | | | t]; try discriminate. destruct t; try discriminate; cbn [expect] in H.
      * destruct (expect h (next + 1) ps args) as [ws'|] eqn:E; [|discriminate]. injection H as <-.
        destruct (IH _ _ _ E) as [A B]. cbn. rewrite A, B. split; reflexivity.
      * destruct (expect h next ps args) as [ws'|] eqn:E; [|discriminate]. injection H as <-.
        destruct (IH _ _ _ E) as [A B]. cbn. rewrite A, B, Hh. split; reflexivity.
    + destruct (expect_user _ _ _ _ _ _ _ HT H) as (a & args' & w & ws' & -> & E1 & -> & E2).
      destruct (IH _ _ _ E2) as [A B]. destruct (conv_user mem prec t a w E1) as [C D].
      assert (HV : vals prec cell next ((x, t) :: ps) (a :: args') = match a with XArr p => XCast (qs prec) p | _ => a end :: vals prec cell next ps args').
      { destruct t as [ | | | | | | | | t]; try reflexivity; destruct t; try reflexivity; discriminate. }
      assert (HY : ytypes prec ((x, t) :: ps) = match t with TPtr TChar => Ycharp | TPtr TScalar => YPtr (qs prec) | TDouble => Ydouble | _ => Yint end :: ytypes prec ps).
      { destruct t as [ | | | | | | | | t]; try reflexivity; destruct t; try reflexivity; discriminate. }
      rewrite HV, HY. cbn [convs_from tl all_fit]. rewrite C, D, A, B. split; reflexivity.
Qed.
Lemma vals_len : forall prec cell h ps next args ws, expect h next ps args = Some ws -> List.length (vals prec cell next ps args) = List.length (ytypes prec ps).
Proof.
  intros prec cell h. induction ps as [|[x t] ps IH]; intros next args ws H; [reflexivity|].
  destruct (hidden t) eqn:HT.
  - destruct t as [ | | | | | | | | t]; try discriminate. destruct t; try discriminate; cbn [expect] in H.
    + destruct (expect h (next + 1) ps args) as [ws'|] eqn:E; [|discriminate]. cbn. f_equal. eapply IH. exact E.
    + destruct (expect h next ps args) as [ws'|] eqn:E; [|discriminate]. cbn. f_equal. eapply IH. exact E.
  - destruct (expect_user _ _ _ _ _ _ _ HT H) as (a & args' & w & ws' & -> & E1 & -> & E2).
    destruct t as [ | | | | | | | | t]; try (cbn; f_equal; eapply IH; exact E2); destruct t; try (cbn; f_equal; eapply IH; exact E2); discriminate.
Qed.
(** one call *)
Lemma call_expect : forall d prec cell locals w e f c args next vs ws r,
  lookup (k_api (cls d)) f = Some c ->
  assoc f (o_args (declared d prec)) = Some (ytypes prec (c_par c)) ->
  match assoc f (o_res (declared d prec)) with Some r => r | None => Rint end = r ->
  expect (w_mem w cell) next (c_par c) vs = Some ws ->
  evals locals (obj0 d prec cell) e args = EvOk (vals prec cell next (c_par c) vs) ->
  call sem (k_api (cls d)) locals (obj0 d prec cell) w e f args =
    CallOk (result r (sem f ws (w_mem w))) (mkw (w_calls w ++ [(f, ws)]) (r_mem (sem f ws (w_mem w))) (w_next w)).
Proof.
  intros d prec cell locals w e f c args next vs ws r HL HA HR HX HV. unfold call.
  replace (o_lib (obj0 d prec cell)) with true by reflexivity. cbn [negb]. rewrite HL, HV.
  replace (o_args (obj0 d prec cell)) with (o_args (declared d prec)) by reflexivity. rewrite HA.
  replace (o_res (obj0 d prec cell)) with (o_res (declared d prec)) by reflexivity. rewrite HR.
  unfold convs. rewrite (vals_len prec cell _ _ _ _ _ HX), Nat.ltb_irrefl.
  destruct (convs_expect (w_mem w) prec cell _ eq_refl _ _ _ _ HX) as [A B]. rewrite A, B. reflexivity.
Qed.

Definition meth_ok (d : bool) (prec cell : Z) (w : world) (m : method) : Prop :=
  exists c, lookup (k_api (cls d)) (String.append (pre d) (m_name m)) = Some c /\ m_par m = py_names (c_par c) /\
  forall args ws, expect (w_mem w cell) (w_next w) (c_par c) args = Some ws ->
  exists mem, with_new w (n_out (c_par c)) mem /\
    let f := String.append (pre d) (m_name m) in let r := sem f ws mem in
    invoke sem (k_api (cls d)) m args (obj0 d prec cell) w =
    ROk (gives c (w_next w) r) (obj0 d prec cell) (mkw (w_calls w ++ [(f, ws)]) (r_mem r) (w_next w + Z.of_nat (n_out (c_par c)))).


Fixpoint shape (ps : list (string * ctype)) (args : list pval) : Prop :=
  match ps with
  | [] => args = []
  | (_, t) :: ps =>
    match t with
    | TPtr TVoid | TPtr TInt => shape ps args
    | TPtr TScalar => exists p args', args = XArr p :: args' /\ shape ps args'
    | _ => exists a args', args = a :: args' /\ shape ps args' /\ (forall p, a <> XArr p)
    end
  end.
Lemma expect_shape : forall h ps n args ws, expect h n ps args = Some ws -> shape ps args.
Proof.
  intros h. induction ps as [|[x t] ps IH]; intros n args ws H.
  - cbn in *. destruct args; [reflexivity|discriminate].
  - destruct (hidden t) eqn:HT.
    + destruct t as [ | | | | | | | | t]; try discriminate. destruct t; try discriminate; cbn [expect] in H; cbn [shape].
      * destruct (expect h (n + 1) ps args) as [ws'|] eqn:E; [|discriminate]. eapply IH. exact E.
      * destruct (expect h n ps args) as [ws'|] eqn:E; [|discriminate]. eapply IH. exact E.
    + destruct (expect_user _ _ _ _ _ _ _ HT H) as (a & args' & w & ws' & -> & E1 & -> & E2). apply IH in E2.
      destruct t as [ | | | | | | | | t]; cbn [shape]; try (eexists _, _; split; [reflexivity|]; split; [exact E2|]; intros p ->; discriminate).
      destruct t; try (eexists _, _; split; [reflexivity|]; split; [exact E2|]; intros p ->; discriminate); try discriminate.
      destruct a; try discriminate. eexists _, _. split; [reflexivity|]. exact E2.
Qed.
Lemma no_arr : forall prec a, (forall p, a <> XArr p) -> match a with XArr p => XCast (qs prec) p | _ => a end = a.
Proof. intros prec a H. destruct a; try reflexivity. exfalso. eapply H. reflexivity. Qed.

Ltac args_of S := repeat (lazymatch type of S with
  | exists _ _, _ = XArr _ :: _ /\ _ => let p := fresh "p" in let l := fresh "l" in destruct S as (p & l & -> & S)
  | exists _ _, _ = _ :: _ /\ _ => let a := fresh "a" in let l := fresh "l" in let N := fresh "N" in destruct S as (a & l & -> & S & N)
  end); subst.


Definition new1 (w : world) : Z -> Z := fun a => if a =? w_next w then 0 else w_mem w a.
Definition new3 (w : world) : Z -> Z :=
  fun a => if a =? w_next w + 1 + 1 then 0 else if a =? w_next w + 1 then 0 else if a =? w_next w then 0 else w_mem w a.
Lemma fresh_0 : forall w, with_new w 0 (w_mem w).
Proof. intros w a. destruct (Z.leb_spec (w_next w) a); destruct (Z.ltb_spec a (w_next w + Z.of_nat 0)); cbn [andb]; try reflexivity; lia. Qed.
Lemma fresh_1 : forall w, with_new w 1 (new1 w).
Proof.
  intros w a. unfold new1. destruct (Z.leb_spec (w_next w) a); destruct (Z.ltb_spec a (w_next w + Z.of_nat 1)); cbn [andb];
    destruct (Z.eqb_spec a (w_next w)); try reflexivity; lia.
Qed.
Lemma fresh_3 : forall w, with_new w 3 (new3 w).
Proof.
  intros w a. unfold new3. destruct (Z.leb_spec (w_next w) a); destruct (Z.ltb_spec a (w_next w + Z.of_nat 3)); cbn [andb];
    destruct (Z.eqb_spec a (w_next w)), (Z.eqb_spec a (w_next w + 1)), (Z.eqb_spec a (w_next w + 1 + 1)); try reflexivity; lia.
Qed.
Lemma new1_old : forall w a, a < w_next w -> new1 w a = w_mem w a.
Proof. intros w a H. unfold new1. destruct (Z.eqb_spec a (w_next w)); [lia|reflexivity]. Qed.
Lemma new3_old : forall w a, a < w_next w -> new3 w a = w_mem w a.
Proof.
  intros w a H. unfold new3. destruct (Z.eqb_spec a (w_next w)), (Z.eqb_spec a (w_next w + 1)), (Z.eqb_spec a (w_next w + 1 + 1)); lia || reflexivity.
Qed.
Lemma qs_eq : forall prec, (if prec =? 1 then QFloat else QDouble) = qs prec.
Proof. reflexivity. Qed.

Ltac case_method :=
  eexists; split; [reflexivity|]; split; [reflexivity|]; intros args ws H;
  let S := fresh "S" in pose proof (expect_shape _ _ _ _ _ H) as S;
  cbv [shape c_par handle keyword ints outs data map app dims3 bounds3 dims2 bounds2] in S; args_of S.
Ltac step_call Hp H r0 :=
  erewrite call_expect with (r := r0); [ | reflexivity | destruct Hp as [-> | ->]; reflexivity | destruct Hp as [-> | ->]; reflexivity | | ];
  [ | cbn [w_mem]; exact H | cbn [vals c_par handle keyword ints outs data map app dims3 bounds3 dims2 bounds2]; rewrite ?no_arr by assumption; reflexivity ].



Ltac open_m := cbv zeta; unfold invoke;
  cbn [m_par List.length Nat.eqb m_body run w_next w_mem w_calls app dims3 bounds3 dims2 bounds2 arrays rd assoc combine String.eqb Ascii.eqb Bool.eqb is_arr obj0 o_prec];
  rewrite ?qs_eq.
Ltac hide_obj := generalize (obj0 true); generalize (obj0 false); intros; cbn.
Ltac three w := replace (w_next w + 1 + 1 + 1) with (w_next w + 3) by lia; replace (w_next w + 1 + 1) with (w_next w + 2) by lia; rewrite ?Z.add_0_r.

Lemma methods_ok : forall d prec cell w, prec = 1 \/ prec = 2 -> cell < w_next w -> forall m, In m (k_methods (cls d)) ->
  m_name m <> "destroy" -> m_name m <> "setup_memory" -> meth_ok d prec cell w m.
Proof.
  intros d prec cell w Hp Hc m HI N1 N2.
  destruct d; cbn [cls k_methods FFT3dMPI FFT2dMPI methods_fft3 methods_fft2 In] in HI.
  - (* 3d *)
    destruct HI as [<- | HI]; [contradiction N1; reflexivity|].
    destruct HI as [<- | HI]; [clear N1 N2; case_method|].
    { exists (w_mem w). split; [apply fresh_0|]. open_m. step_call Hp H Rnone. hide_obj. rewrite ?Z.add_0_r. reflexivity. }
    destruct HI as [<- | HI]; [clear N1 N2; case_method|].
    { exists (w_mem w). split; [apply fresh_0|]. open_m. step_call Hp H Rint. hide_obj. rewrite ?Z.add_0_r. reflexivity. }
    destruct HI as [<- | HI]; [clear N1 N2; case_method|].
    { exists (w_mem w). split; [apply fresh_0|]. open_m. step_call Hp H Rlonglong. hide_obj. rewrite ?Z.add_0_r. reflexivity. }
    destruct HI as [<- | HI]; [clear N1 N2; case_method|].
    { exists (w_mem w). split; [apply fresh_0|]. open_m. step_call Hp H Rdouble. hide_obj. rewrite ?Z.add_0_r. reflexivity. }
    destruct HI as [<- | HI]; [clear N1 N2; case_method|].
    { exists (new1 w). split; [apply fresh_1|]. open_m. fold (new1 w). rewrite <- (new1_old w cell Hc) in H. step_call Hp H Rcharp. hide_obj. destruct (r_ptr _ =? 0); reflexivity. }
    destruct HI as [<- | HI]; [clear N1 N2; case_method|].
    { exists (new1 w). split; [apply fresh_1|]. open_m. fold (new1 w). rewrite <- (new1_old w cell Hc) in H. step_call Hp H Rptr. hide_obj. destruct (r_ptr _ =? 0); reflexivity. }
    destruct HI as [<- | HI]; [clear N1 N2; case_method|].
    { exists (new1 w). split; [apply fresh_1|]. open_m. fold (new1 w). rewrite <- (new1_old w cell Hc) in H. step_call Hp H Rptr. hide_obj. destruct (r_ptr _ =? 0); reflexivity. }
    destruct HI as [<- | HI]; [clear N1 N2; case_method|].
    { exists (new3 w). split; [apply fresh_3|]. open_m. fold (new3 w). rewrite <- (new3_old w cell Hc) in H. step_call Hp H Rnone. hide_obj. three w. reflexivity. }
    destruct HI as [<- | HI]; [contradiction N2; reflexivity|].
    destruct HI as [<- | HI]; [clear N1 N2; case_method|].
    { exists (w_mem w). split; [apply fresh_0|]. open_m. step_call Hp H Rnone. hide_obj. rewrite ?Z.add_0_r. reflexivity. }
    destruct HI as [<- | HI]; [clear N1 N2; case_method|].
    { exists (w_mem w). split; [apply fresh_0|]. open_m. step_call Hp H Rnone. hide_obj. rewrite ?Z.add_0_r. reflexivity. }
    destruct HI as [<- | HI]; [clear N1 N2; case_method|].
    { exists (w_mem w). split; [apply fresh_0|]. open_m. step_call Hp H Rnone. hide_obj. rewrite ?Z.add_0_r. reflexivity. }
    destruct HI as [<- | HI]; [clear N1 N2; case_method|].
    { exists (w_mem w). split; [apply fresh_0|]. open_m. step_call Hp H Rint. hide_obj. rewrite ?Z.add_0_r. reflexivity. }
    destruct HI as [<- | HI]; [clear N1 N2; case_method|].
    { exists (new3 w). split; [apply fresh_3|]. open_m. fold (new3 w). rewrite <- (new3_old w cell Hc) in H. step_call Hp H Rnone. hide_obj. three w. reflexivity. }
    destruct HI.
  - (* 2d *)
    destruct HI as [<- | HI]; [contradiction N1; reflexivity|].
    destruct HI as [<- | HI]; [clear N1 N2; case_method|].
    { exists (w_mem w). split; [apply fresh_0|]. open_m. step_call Hp H Rnone. hide_obj. rewrite ?Z.add_0_r. reflexivity. }
    destruct HI as [<- | HI]; [clear N1 N2; case_method|].
    { exists (w_mem w). split; [apply fresh_0|]. open_m. step_call Hp H Rint. hide_obj. rewrite ?Z.add_0_r. reflexivity. }
    destruct HI as [<- | HI]; [clear N1 N2; case_method|].
    { exists (w_mem w). split; [apply fresh_0|]. open_m. step_call Hp H Rlonglong. hide_obj. rewrite ?Z.add_0_r. reflexivity. }
    destruct HI as [<- | HI]; [clear N1 N2; case_method|].
    { exists (w_mem w). split; [apply fresh_0|]. open_m. step_call Hp H Rdouble. hide_obj. rewrite ?Z.add_0_r. reflexivity. }
    destruct HI as [<- | HI]; [clear N1 N2; case_method|].
    { exists (new1 w). split; [apply fresh_1|]. open_m. fold (new1 w). rewrite <- (new1_old w cell Hc) in H. step_call Hp H Rcharp. hide_obj. destruct (r_ptr _ =? 0); reflexivity. }
    destruct HI as [<- | HI]; [clear N1 N2; case_method|].
    { exists (new1 w). split; [apply fresh_1|]. open_m. fold (new1 w). rewrite <- (new1_old w cell Hc) in H. step_call Hp H Rptr. hide_obj. destruct (r_ptr _ =? 0); reflexivity. }
    destruct HI as [<- | HI]; [clear N1 N2; case_method|].
    { exists (new1 w). split; [apply fresh_1|]. open_m. fold (new1 w). rewrite <- (new1_old w cell Hc) in H. step_call Hp H Rptr. hide_obj. destruct (r_ptr _ =? 0); reflexivity. }
    destruct HI as [<- | HI]; [clear N1 N2; case_method|].
    { exists (new3 w). split; [apply fresh_3|]. open_m. fold (new3 w). rewrite <- (new3_old w cell Hc) in H. step_call Hp H Rnone. hide_obj. three w. reflexivity. }
    destruct HI as [<- | HI]; [contradiction N2; reflexivity|].
    destruct HI as [<- | HI]; [clear N1 N2; case_method|].
    { exists (w_mem w). split; [apply fresh_0|]. open_m. step_call Hp H Rnone. hide_obj. rewrite ?Z.add_0_r. reflexivity. }
    destruct HI as [<- | HI]; [clear N1 N2; case_method|].
    { exists (w_mem w). split; [apply fresh_0|]. open_m. step_call Hp H Rnone. hide_obj. rewrite ?Z.add_0_r. reflexivity. }
    destruct HI as [<- | HI]; [clear N1 N2; case_method|].
    { exists (w_mem w). split; [apply fresh_0|]. open_m. step_call Hp H Rnone. hide_obj. rewrite ?Z.add_0_r. reflexivity. }
    destruct HI as [<- | HI]; [clear N1 N2; case_method|].
    { exists (w_mem w). split; [apply fresh_0|]. open_m. step_call Hp H Rint. hide_obj. rewrite ?Z.add_0_r. reflexivity. }
    destruct HI as [<- | HI]; [clear N1 N2; case_method|].
    { exists (new3 w). split; [apply fresh_3|]. open_m. fold (new3 w). rewrite <- (new3_old w cell Hc) in H. step_call Hp H Rnone. hide_obj. three w. reflexivity. }
    destruct HI.
Qed.

Lemma methods_spec : forall d prec cell w m c args ws, prec = 1 \/ prec = 2 -> cell < w_next w -> In m (map m_name (k_methods (cls d))) ->
  m <> "destroy" -> m <> "setup_memory" -> lookup (k_api (cls d)) (String.append (pre d) m) = Some c ->
  expect (w_mem w cell) (w_next w) (c_par c) args = Some ws ->
  exists mem, with_new w (n_out (c_par c)) mem /\
    let f := String.append (pre d) m in let r := sem f ws mem in
    do_method sem (k_api (cls d)) (cls d) m args (obj0 d prec cell) w =
    ROk (gives c (w_next w) r) (obj0 d prec cell) (mkw (w_calls w ++ [(f, ws)]) (r_mem r) (w_next w + Z.of_nat (n_out (c_par c)))).
Proof.
  intros d prec cell w m c args ws Hp Hc HI N1 N2 HL HX. unfold do_method.
  assert (HF : exists mt, find_method (cls d) m = Some mt /\ In mt (k_methods (cls d)) /\ m_name mt = m).
  { apply in_map_iff in HI. destruct HI as (mt & E & HI). unfold find_method.
    destruct (find (fun m0 => String.eqb (m_name m0) m) (k_methods (cls d))) as [m'|] eqn:EF.
    - apply find_some in EF. destruct EF as [A B]. apply String.eqb_eq in B. eauto.
    - exfalso. pose proof (find_none _ _ EF mt HI) as B. cbv beta in B. rewrite E, String.eqb_refl in B. discriminate. }
  destruct HF as (mt & HF & HM & EN). rewrite HF. subst m.
  destruct (methods_ok d prec cell w Hp Hc mt HM N1 N2) as (c' & HL' & _ & HS). rewrite HL in HL'. injection HL' as <-.
  apply HS. exact HX.
Qed.
Lemma methods_names : forall d m, In m (k_methods (cls d)) -> m_name m <> "destroy" ->
  exists c, lookup (k_api (cls d)) (String.append (pre d) (m_name m)) = Some c /\ m_par m = py_names (c_par c).
Proof.
  intros d m HI N1. destruct d; cbn [cls k_methods FFT3dMPI FFT2dMPI methods_fft3 methods_fft2 In] in HI;
    (destruct HI as [<- | HI]; [contradiction N1; reflexivity|]);
    repeat (destruct HI as [<- | HI]; [eexists; split; reflexivity|]); destruct HI.
Qed.

(** setup_memory stops before C is called *)
Lemma setup_memory_stops : forall d prec cell w args, 
  do_method sem (k_api (cls d)) (cls d) "setup_memory" args (obj0 d prec cell) w =
  RExn (match args with [XArr _; XArr _] => UnboundLocalError | [_; _] => SystemExit | _ => TypeError end) (obj0 d prec cell) w.
Proof.
  intros d prec cell w args. unfold do_method.
  assert (HF : find_method (cls d) "setup_memory" = Some (mkm "setup_memory" ["sendbuf"; "recvbuf"] [SNumpy ["sendbuf"; "recvbuf"]; SCast "csendbuf" "csendbuf"; SCast "crecvbuf" "crecvbuf";
    SCall None (String.append (pre d) "setup_memory") (EFft :: names ["csendbuf"; "crecvbuf"])])) by (destruct d; reflexivity).
  rewrite HF. unfold invoke. cbn [m_par m_body]. destruct args as [|a [|b [|c args]]]; [reflexivity | destruct a; reflexivity | destruct a; destruct b; reflexivity | destruct a; destruct b; reflexivity].
Qed.

(** the Remap classes *)
Lemma remap_construct : forall d comm prec w, exists o, 
  construct sem (k_api (rcls d)) (rcls d) comm prec w = RExn (if (prec =? 1) || (prec =? 2) then AttributeError else SystemExit) o w /\ o_cell o = None.
Proof.
  intros d comm prec w. unfold construct. destruct (Z.eqb_spec prec 1) as [->|N1]; [|destruct (Z.eqb_spec prec 2) as [->|N2]].
  - destruct d; vm_compute; eexists; split; reflexivity.
  - destruct d; vm_compute; eexists; split; reflexivity.
  - eexists. split; reflexivity.
Qed.
Lemma del_unset : forall k api o w f, k_del k = [SCall None f [EFft]] -> o_cell o = None -> finish sem api k o w = RExn AttributeError o w.
Proof.
  intros k api o w f HK HC. unfold finish. rewrite HK. cbn [run]. unfold call. destruct (negb (o_lib o)); [reflexivity|].
  destruct (lookup api f); [|reflexivity]. cbn [evals eval]. rewrite HC. reflexivity.
Qed.
Lemma remap_life : forall d comm prec ops w, life sem (k_api (rcls d)) (rcls d) comm prec ops w = Some w.
Proof.
  intros d comm prec ops w. unfold life. destruct (remap_construct d comm prec w) as (o & -> & HC).
  rewrite (del_unset (rcls d) (k_api (rcls d)) o w (if d then "remap3d_destroy" else "remap2d_destroy")); [reflexivity|destruct d; reflexivity|exact HC].
Qed.
Lemma bad_life : forall d comm prec ops w, prec <> 1 -> prec <> 2 -> life sem (k_api (cls d)) (cls d) comm prec ops w = Some w.
Proof.
  intros d comm prec ops w N1 N2. unfold life. rewrite construct_bad by assumption.
  rewrite (del_unset (cls d) (k_api (cls d)) _ w (String.append (pre d) "destroy")); [reflexivity|destruct d; reflexivity|reflexivity].
Qed.
(** whatever is passed, the words fit the prototype; and the ints are reduced *)
Lemma int_wraps : forall mem z, conv mem Yint (XInt z) = Some (WI (wrap32 z)).
Proof. reflexivity. Qed.
End Methods.

(** ** In terms of [construct] *)
Lemma method_delivers : forall sem d comm prec w0 v o w1, construct sem (k_api (cls d)) (cls d) comm prec w0 = ROk v o w1 ->
  forall w cell m c args ws, o_cell o = Some cell -> cell < w_next w -> In m (map m_name (k_methods (cls d))) ->
  m <> "destroy" -> m <> "setup_memory" -> lookup (k_api (cls d)) (String.append (pre d) m) = Some c ->
  expect (w_mem w cell) (w_next w) (c_par c) args = Some ws ->
  exists mem, with_new w (n_out (c_par c)) mem /\
    let f := String.append (pre d) m in let r := sem f ws mem in
    do_method sem (k_api (cls d)) (cls d) m args o w =
    ROk (gives c (w_next w) r) o (mkw (w_calls w ++ [(f, ws)]) (r_mem r) (w_next w + Z.of_nat (n_out (c_par c)))).
Proof.
  intros sem d comm prec w0 v o w1 H. destruct (construct_inv sem d comm prec w0 v o w1 H) as [Hp ->].
  intros w cell m c args ws HC. cbn in HC. injection HC as <-. intros. apply methods_spec; assumption.
Qed.
Lemma setup_memory_never : forall sem d comm prec w0 v o w1, construct sem (k_api (cls d)) (cls d) comm prec w0 = ROk v o w1 ->
  forall w args, do_method sem (k_api (cls d)) (cls d) "setup_memory" args o w =
  RExn (match args with [XArr _; XArr _] => UnboundLocalError | [_; _] => SystemExit | _ => TypeError end) o w.
Proof.
  intros sem d comm prec w0 v o w1 H. destruct (construct_inv sem d comm prec w0 v o w1 H) as [Hp ->]. intros w args. apply setup_memory_stops.
Qed.
Lemma construct_calls : forall sem d comm prec w,
  (prec = 1 \/ prec = 2 -> exists o, o_cell o = Some (w_next w) /\
     let f := String.append (pre d) "create" in let ws := [WI comm; WI prec; WP (w_next w)] in
     construct sem (k_api (cls d)) (cls d) comm prec w =
     ROk XNone o (mkw (w_calls w ++ [(f, ws)]) (r_mem (sem f ws (fun a => if a =? w_next w then 0 else w_mem w a))) (w_next w + 1))) /\
  (prec <> 1 -> prec <> 2 -> exists o, construct sem (k_api (cls d)) (cls d) comm prec w = RExn SystemExit o w).
Proof.
  intros sem d comm prec w. split.
  - intros Hp. exists (obj0 d prec (w_next w)). split; [reflexivity|]. cbv zeta. rewrite construct_eq by exact Hp. reflexivity.
  - intros N1 N2. eexists. apply construct_bad; assumption.
Qed.
Lemma remap_never : forall sem d comm prec w, prec = 1 \/ prec = 2 ->
  exists o, construct sem (k_api (rcls d)) (rcls d) comm prec w = RExn AttributeError o w.
Proof.
  intros sem d comm prec w Hp. destruct (remap_construct sem d comm prec w) as (o & H & _). exists o.
  destruct Hp as [-> | ->]; exact H.
Qed.
(** any integer can be given; C receives its residue *)
Lemma int_wrap : forall sem d comm prec w0 v o w1, construct sem (k_api (cls d)) (cls d) comm prec w0 = ROk v o w1 ->
  forall w key z, exists mem, do_method sem (k_api (cls d)) (cls d) "set" [XStr key; XInt z] o w =
    ROk XNone o (mkw (w_calls w ++ [(String.append (pre d) "set", [WP (w_mem w (w_next w0)); WP key; WI (wrap32 z)])]) mem (w_next w)).
Proof.
  intros sem d comm prec w0 v o w1 H. destruct (construct_inv sem d comm prec w0 v o w1 H) as [Hp ->]. intros w key z.
  assert (HA : assoc (String.append (pre d) "set") (o_args (declared d prec)) = Some [Yvoidp; Ycharp; Yint]) by (destruct d; destruct Hp as [-> | ->]; reflexivity).
  assert (HR : assoc (String.append (pre d) "set") (o_res (declared d prec)) = Some Rnone) by (destruct d; destruct Hp as [-> | ->]; reflexivity).
  assert (HF : find_method (cls d) "set" = Some (mkm "set" ["keyword"; "value"] [SCall None (String.append (pre d) "set") (EFft :: names ["keyword"; "value"])])) by (destruct d; reflexivity).
  assert (HL : exists c, lookup (k_api (cls d)) (String.append (pre d) "set") = Some c /\ c_par c = [handle; keyword; ("value", TInt)]) by (destruct d; eexists; split; reflexivity).
  destruct HL as (c & HL & HP). unfold do_method. rewrite HF. unfold invoke. cbn [List.length m_par m_body Nat.eqb run]. unfold call.
  replace (o_lib (obj0 d prec (w_next w0))) with true by reflexivity. cbn [negb]. rewrite HL.
  replace (o_args (obj0 d prec (w_next w0))) with (o_args (declared d prec)) by reflexivity. rewrite HA.
  replace (o_res (obj0 d prec (w_next w0))) with (o_res (declared d prec)) by reflexivity. rewrite HR, HP.
  eexists. unfold obj0 at 1. cbn -[wrap32 obj0 String.append pre]. reflexivity.
Qed.
