(** ReportPort.v : the reports of the Fortran and Python programs; C75. *)

From Coq Require Import QArith String Lqa.
From Verif Require Import Base TestOpt Wrap Ops Report ReportProofs ReportCpp.
Open Scope string_scope.
Open Scope list_scope.
Open Scope Z_scope.

(** ** specification *)
(** the titles that the Python programs print *)
Definition py_title (dim3 : bool) (s : string) : string :=
  if dim3 then
    if (s =? "  3d brick proc grid: %d %d %d")%string then "  2d brick proc grid: %d %d %d" else if (s =? "  time/fft3d = %g secs")%string then "  time/fft2d = %g secs" else s
  else if (s =? "Time for remap #1 = %g secs")%string then "Time for remap \#1 = %g secs" else if (s =? "Time for remap #2 = %g secs")%string then "Time for remap \#2 = %g secs"
  else if (s =? "Time for remap #3 = %g secs")%string then "Time for remap \#3 = %g secs" else s.
(** and the Fortran programs *)
Definition f_title (dim3 : bool) (s : string) : string :=
  if dim3 && (s =? "  coll exch pack 3dFFT 1dFFT remap r1 r2 r3 r4: %d %d %d %g %g %g %g %g %g %g")%string
  then "  coll exch pack 3dfft 1dfft remap r1 r2 r3 r4: %d %d %d %g %g %g %g %g %g %g" else s.
(** the calls for remap 4 that the Fortran program makes for remap 5 *)
Definition f_call (dim3 : bool) (mode : Z) (c : pevent) : pevent :=
  match c with POne f 4 => if dim3 && ((2 <=? mode) || (f =? -1)) then POne f 5 else c | _ => c end.
Definition validating (c : pevent) : bool := match c with PValidate => true | _ => false end.
(** what does not fit the Fortran program's integers *)
Definition f_overflow (dim3 : bool) (o : opts) (e : env) : Prop :=
  let fits z := -2147483648 <= z <= 2147483647 in
  ~ fits (e_esize e * 2 * snd (after_plan o e)) \/ (dim3 = false /\ ~ fits (points (o_g o))).
Definition fft_time (e : env) : Q := (e_clk e 5%nat - e_clk e 4%nat)%Q.
Definition init_time (o : opts) (e : env) : Q :=
  (e_clk e 3%nat - e_clk e 0%nat - (if o_tune o then v_setuptime (object o e) else 0))%Q.
(** a line with another title *)
Definition ren (t : string -> string) (l : line) : line := (t (fst l), snd l).
(** the Fortran programs' line for a line of the C++ programs *)
Definition f_line (dim3 : bool) (o : opts) (e : env) (l : line) : line :=
  if (fst l =? "Initialize grid = %g secs")%string then (fst l, [d (init_time o e)]) else if (fst l =? "Max error = %g")%string then (fst l, [VD None]) else ren (f_title dim3) l.

(** ** proofs *)
Lemma rmap_ext {A B} (f g : A -> rres B) l : (forall a, In a l -> f a = g a) -> rmap_ f l = rmap_ g l.
Proof.
  induction l as [|a l IH]; intros H; [reflexivity|]. cbn. fold (rmap_ f l) (rmap_ g l). rewrite IH by (intros; apply H; right; assumption). rewrite (H a) by (left; reflexivity). reflexivity.
Qed.
Lemma rmap_map {A A' B} (h : A -> A') (f : A' -> rres B) l : rmap_ f (map h l) = rmap_ (fun a => f (h a)) l.
Proof. induction l as [|a l IH]; [reflexivity|]. cbn. fold (rmap_ f (map h l)). rewrite IH. reflexivity. Qed.

(** what the rows of the C++ programs need *)
Lemma tuned_vectors dim3 p l : tuned_cpp dim3 p = ROk l ->
  forall i, 0 <= i < v_ntrial p -> zget (v_cflags p) i <> None /\ zget (v_eflags p) i <> None /\ zget (v_pflags p) i <> None /\ Forall (fun v => zget v i <> None) (times_of dim3 p).
Proof.
  intros T i I. destruct (tuned_inv _ _ _ T) as (rows & _ & R). destruct (Forall2_nth _ _ _ _ _ R (nth_zrange _ _ I)) as (x & _ & (c & y & k & qs & H1 & H2 & H3 & H4 & _)).
  rewrite H1, H2, H3. repeat split; try discriminate. induction H4 as [|v q vs qs E _ IH]; constructor; [rewrite E; discriminate | exact IH].
Qed.
Lemma rdy_rd {A} (l : list A) n i f : (forall j, 0 <= j < n -> zget l j <> None) -> 0 <= i < n -> rdy (Some l, Some n) i f = rd l i f.
Proof.
  intros H I. unfold rdy. destruct (rmap_all (fun j => ropt (zget l j)) (zrange n)) as (r & R).
  { intros j J. apply In_zrange in J. specialize (H j J). destruct (zget l j) as [x|]; [eexists; reflexivity | contradiction]. }
  rewrite R. cbn [rbind]. apply rmap_inv in R. destruct (Forall2_nth _ _ _ _ _ R (nth_zrange _ _ I)) as (x & Nx & E).
  assert (zget r i = Some x) as ->. { unfold zget. destruct (Z.ltb_spec i 0); [lia|]. exact Nx. }
  unfold rd. destruct (zget l i) as [y|]; [|discriminate]. cbn in E. injection E as ->. reflexivity.
Qed.
Lemma rdf_rd {A} (l : list A) n i f : 0 <= i < n -> rdf (Some l, Some n) (1 + i) f = rd l i f.
Proof.
  intros I. unfold rdf. cbn [fst snd ropt rbind]. destruct (Z.leb_spec 1 (1 + i)), (Z.leb_spec (1 + i) n); try lia. cbn [andb]. f_equal. lia.
Qed.
Lemma tuned_y_cpp dim3 p l : tuned_cpp dim3 p = ROk l -> tuned_y dim3 p = ROk l.
Proof.
  intros T. rewrite <- T. pose proof (tuned_vectors _ _ _ T) as V. unfold tuned_cpp, tuned_y, times_of in *.
  destruct dim3; unfold tuned_cpp3, tuned_cpp2; cbn [app] in *;
    (match goal with |- rbind ?a ?k = rbind ?b ?k' => change k with k'; replace a with b; [reflexivity|] end); symmetry; apply rmap_ext; intros i I; apply In_zrange in I;
    cbv beta iota delta [fft_get_int_vector fft3d_get_double_vector fft2d_get_double_vector]; cbn [String.eqb Ascii.eqb Bool.eqb];
    (rewrite !rdy_rd; [reflexivity | ..]); try exact I; intros j J; specialize (V j J) as (V1 & V2 & V3 & V4); try assumption;
    repeat (apply Forall_cons_iff in V4 as [? V4]; try assumption).
Qed.
Lemma Forall2_and_in {A B} (P : A -> B -> Prop) (S : A -> Prop) l r : (forall a, In a l -> S a) -> Forall2 P l r -> Forall2 (fun a b => S a /\ P a b) l r.
Proof. intros H F. induction F; constructor; [split; [apply H; left; reflexivity | assumption] | apply IHF; intros; apply H; right; assumption]. Qed.
Lemma Forall2_uncons {A B} (P : A -> B -> Prop) a l r : Forall2 P (a :: l) r -> exists b t, r = b :: t /\ P a b /\ Forall2 P l t.
Proof. intros H. inversion H; subst. eauto. Qed.
Lemma tuned_f_cpp dim3 p l : tuned_cpp dim3 p = ROk l -> tuned_f dim3 p = ROk (map (ren (f_title dim3)) l).
Proof.
  intros T. destruct (tuned_inv _ _ _ T) as (rows & -> & R). unfold tuned_f. rewrite rmap_map.
  assert (get_int dim3 p "ntrial" = v_ntrial p) as -> by (destruct dim3; reflexivity).
  match goal with |- rbind ?a _ = _ => assert (a = ROk (map (ren (f_title dim3)) rows)) as -> end.
  2:{ unfold get_int. destruct dim3; reflexivity. }
  apply rmap_intro. apply (Forall2_and_in _ (fun i => 0 <= i < v_ntrial p)) in R; [|intros i; apply In_zrange]. clear T.
  induction R as [|i r is rows (I & (c & x & k & qs & H1 & H2 & H3 & H4 & ->)) _ IH]; cbn [map]; constructor; [|exact IH]. clear IH.
  unfold times_of in H4. destruct dim3; cbn [app] in H4;
    repeat (apply Forall2_uncons in H4 as (? & ? & -> & ? & H4)); inversion H4; subst; clear H4;
    cbv beta iota delta [fft_get_int_vector fft3d_get_double_vector fft2d_get_double_vector]; cbn [String.eqb Ascii.eqb Bool.eqb app];
    rewrite !rdf_rd by exact I; unfold rd; repeat (match goal with H : zget _ _ = Some _ |- _ => rewrite H; clear H end); reflexivity.
Qed.

(** *** Python *)
Lemma number_lt n mode : 0 <= mode -> number n mode = if mode <? 2 then 2 * n else n.
Proof. intros M. unfold number. destruct (Z.ltb_spec mode 2), (Z.eqb_spec mode 0), (Z.eqb_spec mode 1); cbn [orb]; try lia; reflexivity. Qed.
Lemma ydiv_some a b : ~ (b == 0)%Q -> ydiv a b = ROk (a / b)%Q.
Proof. intros H. unfold ydiv. destruct (Qeq_bool b 0) eqn:E; [|reflexivity]. apply Qeq_bool_iff in E. contradiction. Qed.
Lemma one_not_0 q n : n <> 0 -> ~ (q == 0)%Q -> ~ (q / inject_Z n == 0)%Q.
Proof. intros N Q0 E. apply Q0. rewrite <- (Qmult_div_r q (inject_Z n)) by (apply inj_0, N). rewrite E. ring. Qed.
Lemma tuned_py dim3 o e tuned : match o_tune o with Some _ => tuned_cpp dim3 (object o e) | None => ROk [] end = ROk tuned -> map (ren (py_title dim3)) tuned = tuned.
Proof.
  destruct (o_tune o); [|intros H; injection H as <-; reflexivity]. intros T. destruct (tuned_inv _ _ _ T) as (rows & -> & R). cbn [map]. f_equal; [destruct dim3; reflexivity|].
  clear T. induction R as [|i l is rows (c & x & k & qs & _ & _ & _ & _ & ->) _ IH]; [reflexivity|]. cbn [map]. rewrite IH. f_equal. destruct dim3; reflexivity.
Qed.
Lemma ffts_ren (t : string -> string) mode n np : (forall m, t (count_title m) = count_title m) -> map (ren t) (ffts_line mode n np) = ffts_line mode n np.
Proof.
  intros H. unfold ffts_line. pose proof (H 0) as H0. pose proof (H 1) as H1. pose proof (H 2) as H2. pose proof (H 3) as H3. unfold count_title in H0, H1, H2, H3. cbn [Z.eqb Pos.eqb] in *.
  destruct (mode =? 0); [|destruct (mode =? 1); [|destruct (mode =? 2); [|destruct (mode =? 3)]]]; cbn [map]; unfold ren; cbn [fst snd]; rewrite ?H0, ?H1, ?H2, ?H3; reflexivity.
Qed.

Lemma report_py dim3 o e tuned nfft : nfft = number (loops o e) (o_mode o) -> 0 <= o_mode o -> loops o e <> 0 -> ~ (fft_time e == 0)%Q ->
  e_me e = 0 -> match o_tune o with Some _ => tuned_cpp dim3 (object o e) | None => ROk [] end = ROk tuned ->
  report_y dim3 o e (object o e) (snd (after_plan o e)) (loops o e) (the_times dim3 o e) = ROk (map (ren (py_title dim3)) (head_lines dim3 o e ++ tuned ++ tail_lines dim3 o e nfft)).
Proof.
  intros N M L0 T0 E0 T. assert (nfft <> 0) as F0 by (rewrite N; apply number_0, L0). unfold report_y. rewrite (number_lt _ _ M) in N. rewrite <- N, E0. cbn [Z.eqb negb].
  change (m_fft (the_times dim3 o e)) with (fft_time e). rewrite ydiv_some by (apply inj_0, F0). cbn [rbind].
  rewrite ydiv_some by (apply one_not_0; assumption). cbn [rbind]. rewrite ydiv_some by (apply inj_0; discriminate). cbn [rbind].
  assert (match o_tune o with Some _ => tuned_y dim3 (object o e) | None => ROk [] end = ROk tuned) as -> by (destruct (o_tune o); [apply tuned_y_cpp, T | exact T]).
  cbn [rbind]. f_equal. rewrite !map_app, (tuned_py _ _ _ _ T). unfold tail_lines. rewrite map_app, ffts_ren by (intros m; unfold count_title, py_title; destruct dim3, (m =? 0), (m =? 1), (m =? 2); reflexivity).
  change (m_fft (the_times dim3 o e)) with (fft_time e). rewrite (one_some _ _ F0). unfold floprate. rewrite fdiv_some by (apply one_not_0; assumption). rewrite fdiv_some by (apply inj_0; discriminate).
  generalize (ffts_line (o_mode o) (loops o e) (e_nprocs e)) as ff. intros ff. unfold the_times. clear.
  destruct dim3, (o_v o), (o_t o); reflexivity.
Qed.
Theorem python_same dim3 o e lines log : 0 <= o_mode o <= 3 -> e_me e = 0 -> 0 < loops o e -> main Cpp dim3 o e = ROk (lines, log) ->
  main Python dim3 o e = if (dim3 && (2 <=? o_mode o)) || Qeq_bool (fft_time e) 0 then RExc else ROk (map (ren (py_title dim3)) lines, log).
Proof.
  intros M E0 L0. rewrite main_cpp. destruct (nfft_of (o_mode o) (loops o e)) as [nfft| |] eqn:N; try discriminate. cbn [rbind]. rewrite E0. cbn [Z.eqb negb].
  destruct (match o_tune o with Some _ => _ | None => _ end) as [tuned| |] eqn:T; try discriminate. cbn [rbind]. intros H. injection H as <- <-.
  apply nfft_number in N; [|lia]. unfold main. destruct (run_eq Python dim3 o e) as (k & ->).
  assert (negb (o_mode o <? 2) = (2 <=? o_mode o)) as -> by (destruct (Z.ltb_spec (o_mode o) 2), (Z.leb_spec 2 (o_mode o)); cbn; lia || reflexivity).
  assert ((0 <? loops o e) = true) as -> by (apply Z.ltb_lt, L0). rewrite andb_true_r. destruct (dim3 && (2 <=? o_mode o)); [reflexivity|]. cbn [orb report].
  destruct (Qeq_bool (fft_time e) 0) eqn:Q0.
  - apply Qeq_bool_iff in Q0. unfold report_y. rewrite number_lt in N by lia. rewrite <- N. change (m_fft (the_times dim3 o e)) with (fft_time e).
    assert (nfft <> 0) as F0 by (rewrite N; destruct (_ <? _); lia). rewrite ydiv_some by (apply inj_0, F0). cbn [rbind].
    unfold ydiv. destruct (Qeq_bool (fft_time e / inject_Z nfft) 0) eqn:E1; [reflexivity|]. exfalso. assert (fft_time e / inject_Z nfft == 0)%Q as E2 by (rewrite Q0; unfold Qdiv; ring).
    apply Qeq_bool_iff in E2. congruence.
  - assert (~ (fft_time e == 0)%Q) as T0 by (intros E1; apply Qeq_bool_iff in E1; congruence). rewrite (report_py dim3 o e tuned nfft) by (assumption || lia). reflexivity.
Qed.

(** *** Fortran *)
Lemma tuned_f_line dim3 o e tuned : match o_tune o with Some _ => tuned_cpp dim3 (object o e) | None => ROk [] end = ROk tuned -> map (f_line dim3 o e) tuned = map (ren (f_title dim3)) tuned.
Proof.
  destruct (o_tune o); [|intros H; injection H as <-; reflexivity]. intros T. destruct (tuned_inv _ _ _ T) as (rows & -> & R). cbn [map]. apply f_equal2; [destruct dim3; reflexivity|].
  clear T. induction R as [|i l is rows (c & x & k & qs & _ & _ & _ & _ & ->) _ IH]; [reflexivity|]. cbn [map]. rewrite IH. apply f_equal2; [destruct dim3; reflexivity | reflexivity].
Qed.
Lemma ffts_f_line dim3 o e mode n np : map (f_line dim3 o e) (ffts_line mode n np) = ffts_line mode n np.
Proof. unfold ffts_line. destruct (mode =? 0); [|destruct (mode =? 1); [|destruct (mode =? 2); [|destruct (mode =? 3)]]]; destruct dim3; reflexivity. Qed.
Lemma init_time_eq dim3 o e : match o_tune o with Some _ => m_init (the_times dim3 o e) - m_setup (the_times dim3 o e) | None => m_init (the_times dim3 o e) - m_tune (the_times dim3 o e) end%Q = init_time o e.
Proof. unfold init_time, the_times. destruct (o_tune o); reflexivity. Qed.

Lemma report_f90 dim3 o e tuned nfft : nfft_of (o_mode o) (loops o e) = ROk nfft -> e_me e = 0 ->
  match o_tune o with Some _ => tuned_cpp dim3 (object o e) | None => ROk [] end = ROk tuned ->
  (f_overflow dim3 o e -> report_f dim3 o e (object o e) (snd (after_plan o e)) (loops o e) (the_times dim3 o e) = RUB) /\
  (~ f_overflow dim3 o e -> report_f dim3 o e (object o e) (snd (after_plan o e)) (loops o e) (the_times dim3 o e) =
    ROk (map (f_line dim3 o e) (head_lines dim3 o e ++ tuned ++ tail_lines dim3 o e nfft))).
Proof.
  intros N E0 T. unfold report_f, f_overflow. rewrite N. cbn [rbind]. set (b := e_esize e * 2 * snd (after_plan o e)).
  set (s := points (o_g o)). change (product (o_g o)) with s.
  assert (forall z, (-2147483648 <= z <= 2147483647 /\ int32 z = ROk z) \/ (~ (-2147483648 <= z <= 2147483647) /\ int32 z = RUB)) as I.
  { intros z. unfold int32. destruct (Z.leb_spec (-2147483648) z), (Z.leb_spec z 2147483647); cbn [andb]; [left|right..]; (split; [lia|reflexivity]). }
  split.
  - intros OV. destruct (I s) as [(S1 & S2)|(S1 & S2)], (I b) as [(B1 & B2)|(B1 & B2)]; rewrite S2, B2; destruct dim3; cbn [rbind]; try reflexivity; exfalso; destruct OV as [OV|(OV & OV')]; try discriminate; tauto.
  - intros OV. assert (int32 b = ROk b) as Hb by (destruct (I b) as [(B1 & B2)|(B1 & B2)]; [exact B2 | exfalso; apply OV; left; exact B1]).
    assert ((if dim3 then ROk s else int32 s) = ROk s) as -> by (destruct dim3; [reflexivity|]; destruct (I s) as [(B1 & B2)|(B1 & B2)]; [exact B2 | exfalso; apply OV; right; split; [reflexivity | exact B1]]).
    cbn [rbind]. rewrite Hb. cbn [rbind]. rewrite E0. cbn [Z.eqb negb].
    assert (match o_tune o with Some _ => tuned_f dim3 (object o e) | None => ROk [] end = ROk (map (ren (f_title dim3)) tuned)) as ->
      by (destruct (o_tune o); [apply tuned_f_cpp, T | injection T as <-; reflexivity]).
    cbn [rbind]. f_equal. rewrite !map_app, (tuned_f_line _ _ _ _ T). unfold tail_lines. rewrite map_app, ffts_f_line.
    rewrite (init_time_eq dim3 o e). subst s b.
    generalize (map (ren (f_title dim3)) tuned) as tt. generalize (ffts_line (o_mode o) (loops o e) (e_nprocs e)) as ff. clear. intros ff tt. unfold the_times.
    destruct dim3, (o_v o), (o_t o); reflexivity.
Qed.
Lemma map_rep {A B} (g : A -> B) a k : map g (repeat a k) = repeat (g a) k.
Proof. induction k as [|k IH]; [reflexivity|]. cbn [repeat map]. rewrite IH. reflexivity. Qed.
Lemma map_loop_one dim3 mode n w : w <> 4 -> map (f_call dim3 mode) (loop mode n (fun f => POne f w)) = loop mode n (fun f => POne f w).
Proof.
  intros W. unfold loop. rewrite concat_map, map_rep. f_equal. f_equal. assert (forall f, f_call dim3 mode (POne f w) = POne f w) as H.
  { intros f. unfold f_call. destruct w as [|p|p]; try reflexivity. destruct p as [p|p|]; try reflexivity. destruct p as [p|p|]; try reflexivity. destruct p; try reflexivity. exfalso. apply W. reflexivity. }
  destruct (mode <? 2); cbn [map]; rewrite !H; reflexivity.
Qed.
Lemma map_loop_id dim3 mode n op : (forall f, f_call dim3 mode (op f) = op f) -> map (f_call dim3 mode) (loop mode n op) = loop mode n op.
Proof. intros H. unfold loop. rewrite concat_map, map_rep. f_equal. f_equal. destruct (mode <? 2); cbn [map]; rewrite !H; reflexivity. Qed.
Lemma map_loop_4 mode n : map (f_call true mode) (loop mode n (fun f => POne f 4)) = List.concat (repeat (if mode <? 2 then [POne 1 4; POne (-1) 5] else [POne 1 5]) (Z.to_nat n)).
Proof.
  unfold loop. rewrite concat_map, map_rep. f_equal. f_equal. destruct (Z.ltb_spec mode 2); cbn [map f_call]; destruct (Z.leb_spec 2 mode); try lia; reflexivity.
Qed.
Definition sees (c : pevent) : bool := negb (validating c).
Lemma sees_loop mode n op : (forall f, validating (op f) = false) -> filter sees (loop mode n op) = loop mode n op.
Proof.
  intros H. unfold loop. generalize (Z.to_nat n) as k. intros k. induction k as [|k IH]; [reflexivity|]. cbn [repeat List.concat]. rewrite filter_app, IH. f_equal.
  unfold sees. destruct (mode <? 2); cbn [filter]; rewrite !H; reflexivity.
Qed.
Lemma f_log dim3 o e : filter sees (the_log Fortran dim3 o e) = map (f_call dim3 (o_mode o)) (filter sees (the_log Cpp dim3 o e)).
Proof.
  unfold the_log, parts_log, one_remaps, validates. set (n := loops o e). set (m := o_mode o). set (a := e_esize e * 2 * snd (after_plan o e)).
  generalize (if m <? 2 then 0 else 1) as fl. intros fl.
  assert (filter sees (List.concat (repeat (if m <? 2 then [POne 1 4; POne (-1) 5] else [POne 1 5]) (Z.to_nat n))) = List.concat (repeat (if m <? 2 then [POne 1 4; POne (-1) 5] else [POne 1 5]) (Z.to_nat n))) as F4.
  { generalize (Z.to_nat n) as k. induction k as [|k IH]; [reflexivity|]. cbn [repeat List.concat]. rewrite filter_app, IH. f_equal. destruct (m <? 2); reflexivity. }
  destruct (o_t o), dim3, (o_tune o), (o_o o), (o_v o); cbn [negb map List.concat app];
    repeat (progress (rewrite ?filter_app, ?map_app, ?app_nil_r; cbn [filter sees validating negb map f_call app]));
    rewrite ?F4; rewrite ?sees_loop by reflexivity; rewrite ?map_loop_one by discriminate; rewrite ?map_loop_4; rewrite ?map_loop_id by reflexivity; reflexivity.
Qed.
Lemma ex_loop mode n op : (forall f, validating (op f) = false) -> existsb validating (loop mode n op) = false.
Proof.
  intros H. unfold loop. generalize (Z.to_nat n) as k. intros k. induction k as [|k IH]; [reflexivity|]. cbn [repeat List.concat]. rewrite existsb_app, IH, orb_false_r.
  destruct (mode <? 2); cbn [existsb]; rewrite !H; reflexivity.
Qed.
Lemma log_validates L dim3 o e : existsb validating (the_log L dim3 o e) = validates L o.
Proof.
  unfold the_log, parts_log, one_remaps. set (n := loops o e). set (m := o_mode o). set (a := e_esize e * 2 * snd (after_plan o e)).
  assert (existsb validating (List.concat (repeat (if m <? 2 then [POne 1 4; POne (-1) 5] else [POne 1 5]) (Z.to_nat n))) = false) as F4.
  { generalize (Z.to_nat n) as k. induction k as [|k IH]; [reflexivity|]. cbn [repeat List.concat]. rewrite existsb_app, IH. destruct (m <? 2); reflexivity. }
  destruct (o_t o), dim3, (o_tune o), (o_o o), L; cbn [map List.concat app];
    repeat (progress (rewrite ?existsb_app; cbn [existsb validating orb app])); rewrite ?F4, ?ex_loop by reflexivity; cbn [orb]; destruct (validates _ o); reflexivity.
Qed.

Theorem fortran_same dim3 o e lines log : e_me e = 0 -> main Cpp dim3 o e = ROk (lines, log) ->
  (f_overflow dim3 o e -> main Fortran dim3 o e = RUB) /\
  (~ f_overflow dim3 o e -> exists flog, main Fortran dim3 o e = ROk (map (f_line dim3 o e) lines, flog) /\
    filter (fun c => negb (validating c)) flog = map (f_call dim3 (o_mode o)) (filter (fun c => negb (validating c)) log) /\
    existsb validating log = o_v o /\ existsb validating flog = negb (o_v o)).
Proof.
  intros E0. rewrite main_cpp. destruct (nfft_of (o_mode o) (loops o e)) as [nfft| |] eqn:N; try discriminate. cbn [rbind]. rewrite E0. cbn [Z.eqb negb].
  destruct (match o_tune o with Some _ => _ | None => _ end) as [tuned| |] eqn:T; try discriminate. cbn [rbind]. intros H. injection H as <- <-.
  unfold main. destruct (run_eq Fortran dim3 o e) as (k & ->). cbn [report]. destruct (report_f90 dim3 o e tuned nfft N E0 T) as [R1 R2]. split.
  - intros OV. rewrite (R1 OV). reflexivity.
  - intros OV. rewrite (R2 OV). cbn [rbind]. eexists. split; [reflexivity|]. split; [apply f_log|]. split; [exact (log_validates Cpp dim3 o e) | exact (log_validates Fortran dim3 o e)].
Qed.

(** *** the calls are those of the program of Ops.v *)
Section Acts.
  Context {F : Type}.
  Definition ev_of (a : @act F) : pevent :=
    match a with ACompute _ _ f _ _ => PCompute f | A1d f _ => P1d f | ARemaps f _ _ => PRemaps f | AOne f w _ _ => POne f w | ABarrier => PBarrier | AFill _ _ => PClear end.
  Definition reads (c : pevent) : bool := match c with POutput _ | PValidate => true | _ => false end.
  Lemma ev_loop mode n op op' : (forall f, ev_of (op f) = op' f) -> map ev_of (there_and_back mode (Z.to_nat n) op) = loop mode n op'.
  Proof. intros H. unfold there_and_back, loop. rewrite concat_map, map_rep. f_equal. f_equal. destruct (mode <? 2); cbn [map]; rewrite !H; reflexivity. Qed.
  Lemma reads_loop mode n op : (forall f, reads (op f) = false) -> filter (fun c => negb (reads c)) (loop mode n op) = loop mode n op.
  Proof.
    intros H. unfold loop. generalize (Z.to_nat n) as k. intros k. induction k as [|k IH]; [reflexivity|]. cbn [repeat List.concat]. rewrite filter_app, IH. f_equal.
    destruct (mode <? 2); cbn [filter]; rewrite !H; reflexivity.
  Qed.
  Theorem log_acts dim3 o e (w0 zero : nat -> list F -> option (list F)) lines log : main Cpp dim3 o e = ROk (lines, log) ->
    filter (fun c => negb (reads c)) log =
      [PBarrier; PLayout; PCreate; PBarrier; if o_tune o then PTune else PSetup; PBarrier; PAlloc (e_esize e * 2 * snd (after_plan o e)); PInit] ++
      map ev_of (tl (test_main (nremaps dim3) (o_mode o) (o_r o) (o_t o) (Z.to_nat (loops o e)) w0 zero)).
  Proof.
    rewrite main_cpp. destruct (rbind (nfft_of _ _) _) as [l| |]; try discriminate. cbn [rbind]. intros H. injection H as _ <-.
    unfold the_log, parts_log, one_remaps, test_main, run_part, timing. set (n := loops o e). set (m := o_mode o). set (a := e_esize e * 2 * snd (after_plan o e)).
    generalize (if m <? 2 then 0 else 1) as fl. intros fl. cbn [validates].
    destruct (o_t o), dim3, (o_tune o), (o_o o), (o_v o); cbn [nremaps map List.concat app tl];
      repeat (progress (rewrite ?filter_app, ?map_app, ?app_nil_r; cbn [filter reads negb map ev_of app]));
      rewrite ?reads_loop by reflexivity; repeat (erewrite ev_loop by (intros; reflexivity)); norm; reflexivity.
  Qed.
End Acts.
