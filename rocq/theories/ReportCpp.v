(** ReportCpp.v : the reports of the C++ and C programs state what was measured; C75. *)

From Coq Require Import QArith String Lqa.
From Verif Require Import Base TestOpt Wrap Ops Report ReportProofs.
Open Scope string_scope.
Open Scope list_scope.
Open Scope Z_scope.

Ltac memb := lazymatch goal with
  | |- In _ (_ :: _) => first [left; reflexivity | right; memb]
  | |- In _ (_ ++ _) => apply in_or_app; first [left; memb | right; memb]
  end.

Lemma nfft_number mode n nfft : 0 <= mode -> nfft_of mode n = ROk nfft -> nfft = number n mode.
Proof.
  intros M. unfold nfft_of, number, int32. destruct (Z.ltb_spec mode 2), (Z.eqb_spec mode 0), (Z.eqb_spec mode 1); cbn [orb]; try lia;
    try (destruct (_ && _); [|discriminate]); intros H'; injection H' as <-; reflexivity.
Qed.
Lemma number_0 mode n : n <> 0 -> number n mode <> 0.
Proof. unfold number. destruct (_ || _); lia. Qed.
Lemma inj_0 n : n <> 0 -> ~ (inject_Z n == 0)%Q.
Proof. intros H E. apply H. unfold Qeq, inject_Z in E. cbn in E. lia. Qed.
Lemma fdiv_some a b : ~ (b == 0)%Q -> fdiv (Some a) (Some b) = Some (a / b)%Q.
Proof. intros H. unfold fdiv. destruct (Qeq_bool b 0) eqn:E; [|reflexivity]. apply Qeq_bool_iff in E. contradiction. Qed.
Lemma mega b : (megabytes b == inject_Z b / inject_Z (2 ^ 20))%Q.
Proof. unfold megabytes. change (inject_Z (2 ^ 20)) with (1048576 # 1)%Q. field. Qed.
Lemma one_some q n : n <> 0 -> onetime n q = Some (q / inject_Z n)%Q.
Proof. intros H. apply fdiv_some, inj_0, H. Qed.
Lemma rate_some lg s q n : n <> 0 -> ~ (q == 0)%Q ->
  exists x, floprate lg s (onetime n q) = Some x /\ (x == 5 * inject_Z s * lg s * inject_Z n / q / inject_Z (2 ^ 30))%Q.
Proof.
  intros N Q0. rewrite one_some by exact N. unfold floprate. pose proof (inj_0 n N) as N0.
  rewrite fdiv_some. 2:{ intros E. apply Q0. rewrite <- (Qmult_div_r q (inject_Z n)) by exact N0. rewrite E. ring. }
  rewrite fdiv_some by (apply inj_0; discriminate). eexists. split; [reflexivity|]. change (1024 * 1024 * 1024) with (2 ^ 30).
  assert (~ inject_Z (2 ^ 30) == 0)%Q by (apply inj_0; discriminate). field. repeat split; assumption.
Qed.

Section Faithful.
  Context (dim3 : bool) (o : opts) (e : env) (nfft : Z) (tuned : list line).
  Context (M : 0 <= o_mode o <= 3) (N : nfft = number (loops o e) (o_mode o)) (N0 : loops o e <> 0).
  Context (T : match o_tune o with Some _ => tuned_cpp dim3 (object o e) | None => ROk [] end = ROk tuned).
  Notation lines := (head_lines dim3 o e ++ tuned ++ tail_lines dim3 o e nfft).
  Notation log := (the_log Cpp dim3 o e).

  Lemma in_head l : In l (head_lines dim3 o e) -> In l lines.
  Proof. intros. apply in_or_app. left. assumption. Qed.
  Lemma in_tail l : In l (tail_lines dim3 o e nfft) -> In l lines.
  Proof. intros. apply in_or_app. right. apply in_or_app. right. assumption. Qed.
  Lemma shows_tail t x q : In (t, [VD (Some x)]) (tail_lines dim3 o e nfft) -> (x == q)%Q -> shows lines t q.
  Proof. intros I E. exists x. split; [apply in_tail, I | exact E]. Qed.
  Lemma nfft0 : nfft <> 0.
  Proof. rewrite N. apply number_0, N0. Qed.

  Lemma modes (P : Z -> Prop) : P 0 -> P 1 -> P 2 -> P 3 -> P (o_mode o).
  Proof. intros. assert (o_mode o = 0 \/ o_mode o = 1 \/ o_mode o = 2 \/ o_mode o = 3) as [-> |[-> |[-> | ->]]] by lia; assumption. Qed.

  Lemma g_titles : map fst lines = titles dim3 o (v_ntrial (object o e)).
  Proof.
    assert (map fst tuned = if o_tune o then "Tuning trials & iterations: %d %d"%string :: repeat (trial_title dim3) (Z.to_nat (v_ntrial (object o e))) else []) as Tt.
    { destruct (o_tune o) as [tn|]; [|injection T as <-; reflexivity]. destruct (tuned_inv _ _ _ T) as (rows & -> & R).
      cbn [map fst]. rewrite (row_titles _ _ _ _ R), zrange_length. reflexivity. }
    assert (exists v, ffts_line (o_mode o) (loops o e) (e_nprocs e) = [(count_title (o_mode o), v)]) as (v & Tf)
      by (apply (modes (fun m => exists v, ffts_line m _ _ = [(count_title m, v)])); eexists; reflexivity).
    unfold titles. rewrite <- Tt. rewrite map_app, map_app. clear Tt. unfold tail_lines. rewrite Tf. clear Tf. unfold the_times. clear.
    destruct dim3, (o_v o), (o_t o); reflexivity.
  Qed.
  Lemma g_trials : o_tune o <> None -> let p := object o e in
    In ("Tuning trials & iterations: %d %d"%string, map VI [v_ntrial p; v_npertrial p]) lines /\
    forall i, 0 <= i < v_ntrial p -> exists c x k qs,
      zget (v_cflags p) i = Some c /\ zget (v_eflags p) i = Some x /\ zget (v_pflags p) i = Some k /\
      Forall2 (fun v q => zget v i = Some q) (times_of dim3 p) qs /\
      nth_error (filter (fun l => (fst l =? trial_title dim3)%string) lines) (Z.to_nat i) = Some (trial_title dim3, map VI [c; x; k] ++ map (fun q => VD (Some q)) qs).
  Proof.
    intros Tn p. destruct (o_tune o) as [tn|] eqn:EQ; [|exfalso; apply Tn; reflexivity]. destruct (tuned_inv _ _ _ T) as (rows & -> & R). fold p in R |- *.
    split; [apply in_or_app; right; left; reflexivity|]. intros i I. destruct (Forall2_nth _ _ _ _ _ R (nth_zrange _ _ I)) as (l & Nl & (c & x & k & qs & H1 & H2 & H3 & H4 & ->)).
    exists c, x, k, qs. do 4 (split; [assumption|]). rewrite !filter_app. cbn [filter fst app].
    rewrite (filter_none _ (head_lines dim3 o e)) by (destruct dim3; reflexivity).
    rewrite (filter_none _ (tail_lines dim3 o e nfft)).
    2:{ unfold tail_lines. rewrite map_app, forallb_app. apply andb_true_intro. split.
        - apply (modes (fun m => forallb _ (map fst (ffts_line m _ _)) = true)); destruct dim3; reflexivity.
        - unfold the_times. destruct dim3, (o_v o), (o_t o); reflexivity. }
    rewrite app_nil_r. pose proof (filter_rows _ _ _ _ R) as FR. destruct dim3; cbn [app]; (etransitivity; [|exact Nl]); exact (f_equal (fun l => nth_error l (Z.to_nat i)) FR).
  Qed.

  Theorem lines_faithful : faithful dim3 o e lines log.
  Proof.
    pose proof nfft0 as F0. assert (Cpp <> Fortran) as NF by discriminate. destruct M as [M0 _].
    constructor.
    - exact g_titles.
    - apply in_head. destruct dim3; left; reflexivity.
    - apply in_head. destruct dim3; cbv beta iota zeta delta [head_lines]; memb.
    - apply in_head. destruct dim3; cbv beta iota zeta delta [head_lines]; memb.
    - apply in_head. destruct dim3; cbv beta iota zeta delta [head_lines]; memb.
    - pose proof in_head as IH. destruct dim3; cbn zeta; repeat split; apply IH; cbv beta iota zeta delta [head_lines]; memb.
    - exact g_trials.
    - apply in_tail. unfold tail_lines. apply in_or_app. left.
      apply (modes (fun m => In (count_title m, map VI (if (m =? 0) || (m =? 1) then _ else _)) (ffts_line m _ _))); left; reflexivity.
    - apply in_tail. unfold tail_lines. apply in_or_app. right. memb.
    - exists (e_esize e * 2 * snd (after_plan o e)). split; [|split; [lia|]].
      + unfold the_log. apply in_or_app. right. apply in_or_app. right. right. left. reflexivity.
      + eapply shows_tail; [|apply mega]. unfold tail_lines. apply in_or_app. right. memb.
    - eapply shows_tail; [|apply mega]. unfold tail_lines. apply in_or_app. right. memb.
    - intros V. split.
      + unfold the_log, validates. rewrite V. do 4 (apply in_or_app; right). right. apply in_or_app. right. right. left. reflexivity.
      + eapply shows_tail; [|reflexivity]. unfold tail_lines. rewrite V. apply in_or_app. right. memb.
    - do 3 eexists. split; [apply took_layout; exact NF|]. split; [apply took_init; exact NF|]. eapply shows_tail.
      + unfold tail_lines. do 2 (apply in_or_app; right). apply in_or_app. right. left. reflexivity.
      + unfold the_times. destruct (o_tune o); cbn [m_init m_setup m_tune]; ring.
    - pose proof (took_plan Cpp dim3 o e) as P. assert (In ("FFT setup = %g secs"%string, [d (m_setup (the_times dim3 o e))]) (tail_lines dim3 o e nfft)) as I.
      { unfold tail_lines. do 2 (apply in_or_app; right). apply in_or_app. right. memb. }
      unfold the_times in I. destruct (o_tune o); cbn [m_setup] in I; [eapply shows_tail; [exact I | reflexivity]|].
      eexists. split; [exact P|]. eapply shows_tail; [exact I | reflexivity].
    - pose proof (took_plan Cpp dim3 o e) as P. assert (In ("FFT tune = %g secs"%string, [d (m_tune (the_times dim3 o e))]) (tail_lines dim3 o e nfft)) as I.
      { unfold tail_lines. do 2 (apply in_or_app; right). apply in_or_app. right. memb. }
      unfold the_times in I. destruct (o_tune o); cbn [m_tune] in I; [|eapply shows_tail; [exact I | reflexivity]].
      eexists. split; [exact P|]. eapply shows_tail; [exact I | reflexivity].
    - eexists. split; [apply took_fft; assumption|]. rewrite <- N. split; [|split].
      + eapply shows_tail; [|reflexivity]. unfold tail_lines, the_times. do 2 (apply in_or_app; right). apply in_or_app. right. cbn [m_fft]. destruct dim3; memb.
      + eapply shows_tail; [|reflexivity]. unfold tail_lines, the_times. do 2 (apply in_or_app; right). apply in_or_app. right. cbn [m_fft]. rewrite (one_some _ _ F0). destruct dim3; memb.
      + intros Q0. destruct (rate_some (e_lg e) (product (o_g o)) _ nfft F0 Q0) as (x & E & X). eapply shows_tail; [|exact X].
        unfold tail_lines, the_times. do 2 (apply in_or_app; right). apply in_or_app. right. cbn [m_fft]. rewrite E. destruct dim3; memb.
    - intros Tt. do 2 eexists. split; [apply took_fft; assumption|]. split; [apply took_1d; assumption|]. rewrite <- N.
      assert (forall l, In l (part_lines "#" nfft (m_fft (the_times dim3 o e)) (m_parts (the_times dim3 o e))) -> In l (tail_lines dim3 o e nfft)) as P.
      { intros l I. unfold tail_lines. do 4 (apply in_or_app; right). exact I. }
      unfold the_times in P. rewrite Tt in P. cbn [m_parts m_fft part_lines the_parts] in P. split; [|split].
      + eapply shows_tail; [|reflexivity]. apply P. memb.
      + eapply shows_tail; [|reflexivity]. apply P. rewrite fdiv_some by (apply inj_0, F0). memb.
      + intros Q0. eapply shows_tail; [|reflexivity]. apply P. rewrite (fdiv_some _ _ Q0). memb.
    - intros Tt. do 2 eexists. split; [apply took_fft; assumption|]. split; [apply took_remaps; assumption|].
      assert (forall l, In l (part_lines "#" nfft (m_fft (the_times dim3 o e)) (m_parts (the_times dim3 o e))) -> In l (tail_lines dim3 o e nfft)) as P.
      { intros l I. unfold tail_lines. do 4 (apply in_or_app; right). exact I. }
      unfold the_times in P. rewrite Tt in P. cbn [m_parts m_fft part_lines the_parts] in P. split.
      + eapply shows_tail; [|reflexivity]. apply P. memb.
      + intros Q0. eapply shows_tail; [|reflexivity]. apply P. rewrite !(fdiv_some _ _ Q0). memb.
    - intros Tt i I. do 2 eexists. split; [apply took_fft; assumption|]. split; [apply took_ones; assumption|].
      assert (forall l, In l (remap_lines "#" (m_fft (the_times dim3 o e)) 1 (snd (the_parts dim3 (e_clk e)))) -> In l (tail_lines dim3 o e nfft)) as P.
      { intros l J. unfold tail_lines. do 4 (apply in_or_app; right). unfold the_times. rewrite Tt. cbn [m_parts m_fft part_lines]. unfold the_parts. apply in_or_app. right. exact J. }
      unfold the_parts in P. cbn [snd the_times m_fft] in P. pose proof shows_tail as ST. unfold nremaps in I. destruct dim3;
        [destruct I as [<- |[<- |[<- |[<- |[]]]]] | destruct I as [<- |[<- |[<- |[]]]]];
        (split; [eapply ST; [|reflexivity]; apply P; cbn [remap_lines app]; memb | intros Q0; eapply ST; [|reflexivity]; apply P; cbn [remap_lines app]; rewrite !(fdiv_some _ _ Q0); memb]).
  Qed.
End Faithful.

(** ** the theorems *)
Theorem cpp_faithful dim3 o e lines log : 0 <= o_mode o <= 3 -> e_me e = 0 -> loops o e <> 0 -> main Cpp dim3 o e = ROk (lines, log) -> faithful dim3 o e lines log.
Proof.
  intros M E0 N0. rewrite main_cpp. destruct (nfft_of (o_mode o) (loops o e)) as [nfft| |] eqn:N; try discriminate. cbn [rbind]. rewrite E0. cbn [Z.eqb negb].
  destruct (match o_tune o with Some _ => _ | None => _ end) as [tuned| |] eqn:T; try discriminate. cbn [rbind]. intros H. injection H as <- <-.
  apply lines_faithful; [exact M | apply nfft_number; [lia | exact N] | exact N0 | exact T].
Qed.
(** the other ranks print nothing, and make the same calls *)
Theorem cpp_others dim3 o e lines log : e_me e <> 0 -> main Cpp dim3 o e = ROk (lines, log) -> lines = [] /\ log = the_log Cpp dim3 o e.
Proof.
  intros E0. rewrite main_cpp. destruct (nfft_of (o_mode o) (loops o e)) as [nfft| |]; try discriminate. cbn [rbind].
  destruct (Z.eqb_spec (e_me e) 0); [contradiction|]. cbn [negb rbind]. intros H. injection H as <- <-. split; reflexivity.
Qed.
Theorem cpp_ends dim3 o e : 0 <= o_mode o -> 0 <= loops o e -> printable dim3 o e -> exists lines log, main Cpp dim3 o e = ROk (lines, log).
Proof.
  intros M L (P1 & P2). rewrite main_cpp.
  assert (nfft_of (o_mode o) (loops o e) = ROk (number (loops o e) (o_mode o))) as ->.
  { unfold nfft_of. unfold number in *. destruct (Z.ltb_spec (o_mode o) 2), (Z.eqb_spec (o_mode o) 0), (Z.eqb_spec (o_mode o) 1); cbn [orb] in *; try lia; try reflexivity;
      unfold int32; destruct (Z.leb_spec (-2147483648) (2 * loops o e)), (Z.leb_spec (2 * loops o e) 2147483647); cbn [andb]; try lia; reflexivity. }
  cbn [rbind]. destruct (negb _); [do 2 eexists; reflexivity|]. destruct (o_tune o) as [tn|]; [|do 2 eexists; reflexivity].
  destruct (tuned_all dim3 (object o e)) as (l & ->); [apply P2; discriminate|]. do 2 eexists. reflexivity.
Qed.
