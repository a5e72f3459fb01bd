(** OomProofs.v : proofs behind PropertiesOom.v (allocation failure). *)

From Coq Require Import String.
From Verif Require Import Base Setup3d Life Oom.
Local Open Scope string_scope.
Local Open Scope list_scope.
Local Open Scope Z_scope.

Lemma veqb_eq a b : veqb a b = true <-> a = b.
Proof.
  unfold veqb. rewrite andb_true_iff, Nat.eqb_eq, String.eqb_eq. destruct a, b. cbn. split; [intros (-> & ->); reflexivity|intros [=]; auto].
Qed.
Lemma upd_same e v s : upd e v s v = s.
Proof. unfold upd. destruct (veqb v v) eqn:E; [reflexivity|]. exfalso. assert (veqb v v = true) by (apply veqb_eq; reflexivity). congruence. Qed.
Lemma upd_other e v w s : v <> w -> upd e v s w = e w.
Proof. intros H. unfold upd. destruct (veqb v w) eqn:E; [apply veqb_eq in E; contradiction|reflexivity]. Qed.

Lemma run_app f a b : forall k e, run f k e (a ++ b) = match run f k e a with ADone k' e' => run f k' e' b | x => x end.
Proof. induction a as [|x a IH]; intros k e; [reflexivity|]. cbn [app run]. destruct (step1 f k e x); auto. Qed.
Lemma attempts_app a b : attempts (a ++ b) = attempts a ++ attempts b.
Proof. apply flat_map_app. Qed.
Lemma first_app P f a b : forall k, first_failing P f k (a ++ b) =
  match first_failing P f k a with Some v => Some v | None => first_failing P f (k + List.length a)%nat b end.
Proof.
  induction a as [|x a IH]; intros k; [cbn; rewrite Nat.add_0_r; reflexivity|]. cbn [app first_failing List.length].
  destruct (f k && P x); [reflexivity|]. rewrite IH. replace (S k + List.length a)%nat with (k + S (List.length a))%nat by lia. reflexivity.
Qed.

(** which variables an action changes *)
Definition touch (a : act) : list avar := match a with Alloc v _ | New v | Realloc v _ | Free v => [v] | _ => [] end.
Definition touched (l : list act) : list avar := flat_map touch l.
Lemma step_frame f k e a k' e' v : step1 f k e a = ADone k' e' -> ~ In v (touch a) -> e' v = e v.
Proof.
  destruct a; cbn [step1 touch]; intros H Hv.
  - destruct (bytes =? 0); injection H as <- <-; apply upd_other; intros ->; apply Hv; left; reflexivity.
  - destruct (f k); [discriminate|]. injection H as <- <-; apply upd_other; intros ->; apply Hv; left; reflexivity.
  - destruct (e v0); try discriminate; destruct (bytes =? 0); injection H as <- <-; apply upd_other; intros ->; apply Hv; left; reflexivity.
  - destruct (existsb _ _); [discriminate|]. injection H as <- <-. reflexivity.
  - destruct (e v0); try discriminate. injection H as <- <-. reflexivity.
  - destruct (e v0); try discriminate; injection H as <- <-; [reflexivity|]. apply upd_other; intros ->; apply Hv; left; reflexivity.
Qed.
Lemma run_frame f l v : forall k e k' e', run f k e l = ADone k' e' -> ~ In v (touched l) -> e' v = e v.
Proof.
  induction l as [|a l IH]; intros k e k' e' H Hv; [injection H as <- <-; reflexivity|]. cbn [run] in H.
  destruct (step1 f k e a) as [| |k1 e1] eqn:E1; try discriminate. cbn [touched flat_map] in Hv. rewrite in_app_iff in Hv.
  rewrite (IH _ _ _ _ H) by tauto. eapply step_frame; [exact E1|tauto].
Qed.

(** ** chunks *)
Definition lives (L : list avar) (e : avar -> pst) : Prop := forall v, In v L -> e v = Live.

Section Chunk.
Variable P : avar -> bool.
Definition chunk (L L' : list avar) (l : list act) : Prop := forall f k e, lives L e ->
  match first_failing P f k (attempts l) with
  | Some v => run f k e l = verdict v
  | None => exists e', run f k e l = ADone (k + List.length (attempts l)) e' /\ lives L' e'
  end.

Lemma chunk_nil L L' : incl L' L -> chunk L L' [].
Proof. intros H f k e He. exists e. split; [cbn; f_equal; lia|]. intros v Hv. apply He, H, Hv. Qed.
Lemma chunk_weak L L' M M' l : incl L M -> incl M' L' -> chunk L L' l -> chunk M M' l.
Proof.
  intros H1 H2 H f k e He. specialize (H f k e (fun v Hv => He v (H1 v Hv))). destruct (first_failing P f k (attempts l)); [exact H|].
  destruct H as (e' & E & HL). exists e'. split; [exact E|]. intros v Hv. apply HL, H2, Hv.
Qed.
Lemma verdict_not v : match verdict v with ADone _ _ => False | _ => True end.
Proof. unfold verdict. destruct (report v); exact I. Qed.
Lemma chunk_app L M L' a b : chunk L M a -> chunk M L' b -> chunk L L' (a ++ b).
Proof.
  intros Ha Hb f k e He. rewrite attempts_app, first_app, run_app. specialize (Ha f k e He).
  destruct (first_failing P f k (attempts a)) as [v|].
  - rewrite Ha. pose proof (verdict_not v). destruct (verdict v); [reflexivity|reflexivity|contradiction].
  - destruct Ha as (e1 & E1 & H1). rewrite E1. specialize (Hb f (k + List.length (attempts a))%nat e1 H1).
    destruct (first_failing P f _ (attempts b)) as [v|]; [exact Hb|]. destruct Hb as (e2 & E2 & H2). exists e2. split; [|exact H2].
    rewrite E2. f_equal. rewrite app_length. lia.
Qed.
Lemma chunk_cons L M L' a b : chunk L M [a] -> chunk M L' b -> chunk L L' (a :: b).
Proof. intros Ha Hb. exact (chunk_app L M L' [a] b Ha Hb). Qed.
Lemma chunk_use L v : In v L -> chunk L L [Use v].
Proof. intros H f k e He. cbn. exists e. rewrite (He v H). split; [f_equal; lia|exact He]. Qed.
Lemma chunk_uses L vs : incl vs L -> chunk L L (map Use vs).
Proof.
  induction vs as [|v vs IH]; intros H; [apply chunk_nil, incl_refl|]. cbn [map]. apply chunk_cons with L; [apply chunk_use, H; left; reflexivity|].
  apply IH. intros w Hw. apply H. right; exact Hw.
Qed.
Lemma lives_upd L e v : lives L e -> lives (v :: L) (upd e v Live).
Proof.
  intros H w Hw. destruct (veqb v w) eqn:E; [apply veqb_eq in E; subst w; apply upd_same|].
  rewrite upd_other by (intros ->; assert (veqb w w = true) by (apply veqb_eq; reflexivity); congruence).
  destruct Hw as [-> | Hw]; [|apply H, Hw]. assert (veqb w w = true) by (apply veqb_eq; reflexivity). congruence.
Qed.
Lemma lives_out L e v s : lives L e -> ~ In v L -> lives L (upd e v s).
Proof. intros H Hv w Hw. rewrite upd_other; [apply H, Hw|]. intros ->. contradiction. Qed.
Lemma chunk_new L v : report v = Some "std::bad_alloc" -> P v = true -> chunk L (v :: L) [New v].
Proof.
  intros Hr HP f k e He. cbn. rewrite HP, andb_true_r. destruct (f k); [unfold verdict; rewrite Hr; reflexivity|].
  eexists. split; [f_equal; lia|]. apply lives_upd, He.
Qed.
Lemma chunk_free L L' v : In v L -> incl L' L -> ~ In v L' -> chunk L L' [Free v].
Proof.
  intros H1 H2 H3 f k e He. cbn. rewrite (He v H1). eexists. split; [f_equal; lia|]. apply lives_out; [|exact H3]. intros w Hw. apply He, H2, Hw.
Qed.
(** an allocation that is used without a test *)
Lemma chunk_raw L v b : report v = None -> P v = true -> b <> 0 -> chunk L (v :: L) [Alloc v b; Use v].
Proof.
  intros Hr HP Hb f k e He. cbn. destruct (Z.eqb_spec b 0); [contradiction|]. cbn [app first_failing]. rewrite HP, andb_true_r.
  destruct (f k); rewrite upd_same; [unfold verdict; rewrite Hr; reflexivity|]. eexists. split; [f_equal; cbn; lia|]. apply lives_upd, He.
Qed.
Lemma chunk_reraw L v b : report v = None -> P v = true -> b <> 0 -> In v L -> chunk L L [Realloc v b; Use v].
Proof.
  intros Hr HP Hb Hv f k e He. cbn. rewrite (He v Hv). destruct (Z.eqb_spec b 0); [contradiction|]. cbn [app first_failing]. rewrite HP, andb_true_r.
  destruct (f k); rewrite upd_same; [unfold verdict; rewrite Hr; reflexivity|]. eexists. split; [f_equal; cbn; lia|].
  intros w Hw. apply (lives_upd L e v He). right. exact Hw.
Qed.
Lemma chunk_idle L v b : P v = false -> ~ In v L -> chunk L L [Alloc v b; Realloc v 0].
Proof.
  intros HP Hv f k e He. cbn. destruct (Z.eqb_spec b 0).
  - cbn. rewrite upd_same. cbn. eexists. split; [f_equal; lia|]. apply lives_out; [apply lives_out; assumption|assumption].
  - cbn. rewrite HP, andb_false_r, upd_same. destruct (f k); (eexists; split; [f_equal; lia|]; apply lives_out; [apply lives_out; assumption|assumption]).
Qed.
(** an allocation whose failure does no harm here *)
Lemma chunk_silent L v b : P v = false \/ b = 0 -> ~ In v L -> chunk L L [Alloc v b].
Proof.
  intros HP Hv f k e He. cbn. destruct (Z.eqb_spec b 0).
  - cbn. eexists. split; [f_equal; lia|]. apply lives_out; assumption.
  - destruct HP as [HP|]; [|contradiction]. cbn. rewrite HP, andb_false_r. eexists. split; [f_equal; lia|]. apply lives_out; assumption.
Qed.
Lemma chunk_silents L vs b : b = 0 -> (forall v, In v vs -> ~ In v L) -> chunk L L (map (fun v => Alloc v b) vs).
Proof.
  intros Hb H. induction vs as [|v vs IH]; [apply chunk_nil, incl_refl|]. cbn [map]. apply chunk_cons with L; [apply chunk_silent; [right; exact Hb|apply H; left; reflexivity]|].
  apply IH. intros w Hw. apply H. right; exact Hw.
Qed.

(** several allocations tested together *)
Definition allocs (al : list (avar * Z)) : list act := map (fun x => Alloc (fst x) (snd x)) al.
Lemma allocs_attempts al : (forall x, In x al -> snd x <> 0) -> attempts (allocs al) = map fst al.
Proof.
  induction al as [|[v b] al IH]; intros H; [reflexivity|]. cbn [allocs map attempts flat_map attempt fst snd].
  destruct (Z.eqb_spec b 0) as [E|_]; [exfalso; apply (H (v, b) (or_introl eq_refl)); exact E|]. cbn [app]. f_equal. apply IH. intros; apply H; right; assumption.
Qed.
Lemma allocs_run f al : (forall x, In x al -> snd x <> 0) -> NoDup (map fst al) -> (forall x, In x al -> P (fst x) = true) -> forall k e, exists e',
  run f k e (allocs al) = ADone (k + List.length al) e' /\
  (forall w, ~ In w (map fst al) -> e' w = e w) /\
  match first_failing P f k (map fst al) with
  | Some v => In v (map fst al) /\ e' v = Null
  | None => forall v, In v (map fst al) -> e' v = Live
  end.
Proof.
  induction al as [|[v b] al IH]; intros Hs ND HP k e.
  - exists e. cbn. split; [f_equal; lia|]. split; [auto|]. intros ? [].
  - inversion ND as [|? ? Hv ND']; subst. cbn [allocs map run step1 fst snd].
    destruct (Z.eqb_spec b 0) as [E|_]; [exfalso; apply (Hs (v, b) (or_introl eq_refl)); exact E|].
    destruct (IH (fun x Hx => Hs x (or_intror Hx)) ND' (fun x Hx => HP x (or_intror Hx)) (S k) (upd e v (if f k then Null else Live))) as (e' & E' & F' & H').
    exists e'. split; [unfold allocs in E'; rewrite E'; f_equal; cbn; lia|]. split.
    + intros w Hw. cbn in Hw. rewrite F' by tauto. apply upd_other. tauto.
    + pose proof (HP (v, b) (or_introl eq_refl)) as HPv. cbn [fst] in HPv. cbn [first_failing map fst]. rewrite HPv, andb_true_r.
      destruct (f k); [split; [left; reflexivity|]; rewrite F' by exact Hv; apply upd_same|].
      destruct (first_failing P f (S k) (map fst al)) as [w|]; [split; [right|]; apply H'|].
      intros w [<- | Hw]; [rewrite F' by exact Hv; apply upd_same|apply H', Hw].
Qed.
Lemma chunk_group L al msg : (forall x, In x al -> snd x <> 0) -> NoDup (map fst al) -> (forall x, In x al -> P (fst x) = true /\ report (fst x) = Some msg) ->
  chunk L (map fst al ++ L) (allocs al ++ [Check (map fst al) msg]).
Proof.
  intros Hs ND HP f k e He. rewrite attempts_app, allocs_attempts by exact Hs. cbn [attempts flat_map attempt]. rewrite !app_nil_r, run_app.
  destruct (allocs_run f al Hs ND (fun x Hx => proj1 (HP x Hx)) k e) as (e' & E & F & H). rewrite E. cbn [run step1].
  destruct (first_failing P f k (map fst al)) as [v|].
  - destruct H as (Hi & Hn). assert (X : existsb (isnull e') (map fst al) = true) by (apply existsb_exists; exists v; split; [exact Hi|unfold isnull; rewrite Hn; reflexivity]).
    rewrite X. unfold verdict. apply in_map_iff in Hi as (x & <- & Hx). rewrite (proj2 (HP x Hx)). reflexivity.
  - assert (X : existsb (isnull e') (map fst al) = false).
    { apply not_true_iff_false. intros X. apply existsb_exists in X as (v & Hv & Hn). unfold isnull in Hn. rewrite (H v Hv) in Hn. discriminate. }
    rewrite X. exists e'. split; [f_equal; rewrite map_length; lia|]. intros v Hv. apply in_app_iff in Hv as [Hv|Hv]; [apply H, Hv|].
    destruct (in_dec (fun a b => match Bool.bool_dec (veqb a b) true with left H => left (proj1 (veqb_eq a b) H) | right H => right (fun E => H (proj2 (veqb_eq a b) E)) end) v (map fst al)) as [Hi|Hi].
    + apply H, Hi.
    + rewrite F by exact Hi. apply He, Hv.
Qed.
End Chunk.

Lemma run_uses f vs : forall k e, lives vs e -> run f k e (map Use vs) = ADone k e.
Proof.
  induction vs as [|v vs IH]; intros k e H; [reflexivity|]. cbn [map run step1]. rewrite (H v (or_introl eq_refl)). apply IH. intros w Hw. apply H. right; exact Hw.
Qed.

(** what is live after setup *)
Section Lib.
Variable esize plsize rqsize xsize nprocs : Z.
Hypothesis He : 0 < esize.
Hypothesis Hpl : 0 < plsize.
Hypothesis Hrq : 0 < rqsize.
Hypothesis Hx : 0 < xsize.
Hypothesis Hn : 0 < nprocs.

Definition wvars (n : Z) (l : list avar) : list avar := if n =? 0 then [] else l.
Definition bufvars (o : nat) (memflag ssize rsize : Z) : list avar :=
  wvars memflag (wvars ssize [(o, "sendbuf")] ++ wvars rsize [(o, "recvbuf")]).
Definition usevars (o : nat) (coll memflag : Z) (c : rcnt) : list avar :=
  bufvars o memflag (c_ssize c) (c_rsize c) ++ wvars (c_nsend c) (vars o send_names) ++ wvars (c_nrecv c) (vars o recv_names) ++
  (if coll =? 0 then [] else wvars (c_ngroup c) (vars o args_names)).
Lemma use_eq o coll memflag c : remap_use o coll memflag c = map Use (usevars o coll memflag c).
Proof.
  unfold remap_use, usevars, bufvars, when, wvars.
  destruct (memflag =? 0), (c_ssize c =? 0), (c_rsize c =? 0), (c_nsend c =? 0), (c_nrecv c =? 0), (coll =? 0), (c_ngroup c =? 0); reflexivity.
Qed.

Section One.
Variable P : avar -> bool.
Variable o : nat.

Hypothesis Pall : forall s, s <> "pgroup" -> report (o, s) <> None \/ s = "pflag" -> P (o, s) = true.

Ltac inl := let v := fresh in let H := fresh in intros v H; cbn [In app map vars send_names recv_names args_names] in *; tauto.
Ltac nin := let H := fresh in intros H; cbn [In app map vars send_names recv_names args_names] in H; repeat (destruct H as [H|H]; [congruence|]); try exact H.

Lemma P_ok s m : s <> "pgroup" -> report (o, s) = Some m -> P (o, s) = true.
Proof. intros Hs Hr. apply Pall; [exact Hs|]. left. rewrite Hr. discriminate. Qed.

Lemma group1 L s b msg : b <> 0 -> s <> "pgroup" -> report (o, s) = Some msg -> chunk P L ((o, s) :: L) [Alloc (o, s) b; Check [(o, s)] msg].
Proof.
  intros Hb Hs Hr. apply (chunk_group P L [((o, s), b)] msg).
  - intros x [<- | []]. exact Hb.
  - cbn. constructor; [intros []|constructor].
  - intros x [<- | []]. split; [apply (P_ok s msg); assumption|exact Hr].
Qed.
Lemma nodup_vars l : NoDup l -> NoDup (vars o l).
Proof.
  induction 1 as [|s l Hs ND IH]; [constructor|]. cbn. constructor; [|exact IH]. intros Hi. apply in_map_iff in Hi as (t & [= ->] & Ht). contradiction.
Qed.
Ltac nodupl := repeat (constructor; [cbn; intuition discriminate|]); constructor.

Lemma chunk_buffers L memflag ssize rsize : chunk P L (bufvars o memflag ssize rsize ++ L) (buffers esize o memflag ssize rsize).
Proof.
  unfold buffers, bufvars, when, wvars. destruct (memflag =? 0); [apply chunk_nil; inl|].
  apply chunk_app with ((if ssize =? 0 then [] else [(o, "sendbuf")]) ++ L).
  - destruct (Z.eqb_spec ssize 0); [apply chunk_nil; inl|]. apply group1; [nia|discriminate|reflexivity].
  - destruct (Z.eqb_spec rsize 0); [apply chunk_nil; rewrite app_nil_r; inl|].
    eapply chunk_weak; [apply incl_refl| |apply group1; [nia|discriminate|reflexivity]].
    intros v Hv. rewrite !in_app_iff in Hv. cbn [In] in *. rewrite in_app_iff. tauto.
Qed.

Lemma chunk_remap L coll memflag c : (forall v, In v L -> fst v <> o) -> (coll <> 0 -> P (o, "pgroup") = negb (c_ngroup c =? 0)) ->
  chunk P L (usevars o coll memflag c ++ L) (remap_setup esize plsize rqsize xsize nprocs o coll memflag c).
Proof.
  intros HL Hpg. unfold remap_setup.
  set (S0 := wvars (c_nsend c) (vars o send_names)). set (R0 := wvars (c_nrecv c) (vars o recv_names)).
  set (B0 := bufvars o memflag (c_ssize c) (c_rsize c)). set (A0 := if coll =? 0 then [] else wvars (c_ngroup c) (vars o args_names)).
  assert (HS : forall v, In v S0 -> In v (vars o send_names)) by (intros v; unfold S0, wvars; destruct (c_nsend c =? 0); [intros []|auto]).
  assert (HR : forall v, In v R0 -> In v (vars o recv_names)) by (intros v; unfold R0, wvars; destruct (c_nrecv c =? 0); [intros []|auto]).
  assert (HB : forall v, In v B0 -> In v (vars o ["sendbuf"; "recvbuf"])).
  { intros v. unfold B0, bufvars, wvars. destruct (memflag =? 0); [intros []|]. destruct (c_ssize c =? 0), (c_rsize c =? 0); cbn; tauto. }
  assert (HA : forall v, In v A0 -> In v (vars o args_names)) by (intros v; unfold A0, wvars; destruct (coll =? 0); [intros []|]; destruct (c_ngroup c =? 0); [intros []|auto]).
  set (I := (o, "inarray")). set (Q := (o, "outarray")).
  apply chunk_app with (Q :: I :: L).
  { apply (chunk_app P L (I :: L) _ [Alloc I (nprocs * xsize); Check [I] "Could not allocate inarray"]); [apply group1; [nia|discriminate|reflexivity]|].
    apply (chunk_app P _ (Q :: I :: L) _ [Alloc Q (nprocs * xsize); Check [Q] "Could not allocate outarray"]); [apply group1; [nia|discriminate|reflexivity]|].
    apply chunk_use. left; reflexivity. }
  apply chunk_app with (S0 ++ Q :: I :: L).
  { unfold S0, when, wvars. destruct (Z.eqb_spec (c_nsend c) 0); [apply chunk_nil; inl|].
    apply chunk_app with (vars o send_names ++ Q :: I :: L).
    - apply (chunk_group P (Q :: I :: L) [((o, "send_offset"), c_nsend c * 4); ((o, "send_size"), c_nsend c * 4); ((o, "send_proc"), c_nsend c * 4); ((o, "packplan"), c_nsend c * plsize)]).
      + intros x Hi. cbn in Hi. repeat (destruct Hi as [<- | Hi]; [cbn; nia|]). destruct Hi.
      + apply (nodup_vars send_names). unfold send_names. nodupl.
      + intros x Hi. cbn in Hi. repeat (destruct Hi as [<- | Hi]; [cbn [fst]; split; [eapply P_ok; [discriminate|reflexivity]|reflexivity]|]). destruct Hi.
    - apply chunk_uses. intros v Hv. apply in_app_iff. auto. }
  apply chunk_app with (S0 ++ Q :: I :: L).
  { apply chunk_use. apply in_app_iff. right. right. left. reflexivity. }
  apply chunk_app with (R0 ++ S0 ++ Q :: I :: L).
  { unfold R0, when, wvars. destruct (Z.eqb_spec (c_nrecv c) 0); [apply chunk_nil; intros v Hv; exact Hv|].
    apply chunk_app with (vars o recv_names ++ S0 ++ Q :: I :: L).
    - apply (chunk_group P (S0 ++ Q :: I :: L) [((o, "recv_offset"), c_nrecv c * 4); ((o, "recv_size"), c_nrecv c * 4); ((o, "recv_proc"), c_nrecv c * 4);
        ((o, "recv_bufloc"), c_nrecv c * 4); ((o, "request"), c_nrecv c * rqsize); ((o, "unpackplan"), c_nrecv c * plsize)]).
      + intros x Hi. cbn in Hi. repeat (destruct Hi as [<- | Hi]; [cbn; nia|]). destruct Hi.
      + apply (nodup_vars recv_names). unfold recv_names. nodupl.
      + intros x Hi. cbn in Hi. repeat (destruct Hi as [<- | Hi]; [cbn [fst]; split; [eapply P_ok; [discriminate|reflexivity]|reflexivity]|]). destruct Hi.
    - apply chunk_uses. intros v Hv. apply in_app_iff. auto. }
  set (L1 := R0 ++ S0 ++ Q :: I :: L).
  assert (N1 : forall s, ~ In s (recv_names ++ send_names ++ ["inarray"; "outarray"]) -> ~ In (o, s) L1).
  { intros s Hs Hi. unfold L1 in Hi. rewrite !in_app_iff in Hi. cbn [In] in Hi.
    destruct Hi as [Hi|[Hi|[Hi|[Hi|Hi]]]].
    - apply HR in Hi. apply in_map_iff in Hi as (t & [= ->] & Ht). apply Hs, in_app_iff. auto.
    - apply HS in Hi. apply in_map_iff in Hi as (t & [= ->] & Ht). apply Hs, in_app_iff. right. apply in_app_iff. auto.
    - injection Hi as <-. apply Hs. cbn. tauto.
    - injection Hi as <-. apply Hs. cbn. tauto.
    - apply HL in Hi. apply Hi. reflexivity. }
  apply chunk_app with (A0 ++ B0 ++ L1).
  2:{ assert (Z0 : forall s, In (o, s) (usevars o coll memflag c ++ L) -> In s (["sendbuf"; "recvbuf"] ++ send_names ++ recv_names ++ args_names)).
      { intros s Hi. apply in_app_iff in Hi as [Hi|Hi]; [|exfalso; apply (HL _ Hi); reflexivity]. unfold usevars in Hi. fold B0 S0 R0 A0 in Hi. rewrite !in_app_iff in Hi.
        assert (K : forall l, In (o, s) (vars o l) -> In s l) by (intros l Hl; apply in_map_iff in Hl as (t & [= ->] & Ht); exact Ht).
        rewrite !in_app_iff. destruct Hi as [Hi|[Hi|[Hi|Hi]]]; [left; apply K, HB, Hi|right; left; apply K, HS, Hi|right; right; left; apply K, HR, Hi|right; right; right; apply K, HA, Hi]. }
      assert (Z1 : incl (usevars o coll memflag c ++ L) (Q :: usevars o coll memflag c ++ L)) by (intros v Hv; right; exact Hv).
      apply chunk_cons with (Q :: usevars o coll memflag c ++ L).
      - apply chunk_free.
        + unfold L1. rewrite !in_app_iff. cbn. tauto.
        + intros v Hv. unfold usevars in Hv. fold B0 S0 R0 A0 in Hv. unfold L1. cbn [In] in Hv. rewrite !in_app_iff in Hv |- *. cbn [In]. tauto.
        + intros [H|H]; [discriminate|]. apply Z0 in H. cbn in H. repeat (destruct H as [H|H]; [discriminate|]). exact H.
      - apply chunk_free; [left; reflexivity|exact Z1|]. intros H. apply Z0 in H. cbn in H. repeat (destruct H as [H|H]; [discriminate|]). exact H. }
  unfold A0, B0. destruct (Z.eqb_spec coll 0) as [Hc|Hc]; [apply chunk_buffers|].
  set (pf := (o, "pflag")). set (pg := (o, "pgroup")).
  assert (Ppf : P pf = true) by (apply Pall; [discriminate|right; reflexivity]).
  assert (Npf : ~ In pf L1) by (apply N1; cbn; intuition discriminate).
  assert (Npg : ~ In pg L1) by (apply N1; cbn; intuition discriminate).
  assert (Xpf : chunk P L1 (pf :: L1) [Alloc pf (nprocs * 4); Use pf]) by (apply chunk_raw; [reflexivity|exact Ppf|lia]).
  specialize (Hpg Hc). unfold when, wvars. destruct (Z.eqb_spec (c_ngroup c) 0) as [Hg|Hg]; cbn [negb] in Hpg.
  - rewrite Hg. apply (chunk_app P _ (pf :: L1) _ [Alloc pf (nprocs * 4); Use pf]); [exact Xpf|].
    apply (chunk_app P _ (pf :: L1) _ [Alloc pg (nprocs * 4); Realloc pg 0]).
    { apply chunk_idle; [exact Hpg|]. intros [H|H]; [discriminate|contradiction]. }
    apply (chunk_app P _ L1 _ [Free pf]); [apply chunk_free; [left; reflexivity|intros v Hv; right; exact Hv|exact Npf]|].
    cbn [app]. apply chunk_app with (B0 ++ L1); [apply chunk_buffers|]. rewrite app_nil_r. apply chunk_silents; [reflexivity|].
    intros v Hv Hi. apply in_map_iff in Hv as (t & <- & Ht). apply in_app_iff in Hi as [Hi|Hi].
    + apply HB in Hi. apply in_map_iff in Hi as (u & [= ->] & Hu). cbn in Ht, Hu. destruct Hu as [<- | [<- | []]]; intuition discriminate.
    + revert Hi. apply N1. cbn in Ht. repeat (destruct Ht as [<- | Ht]; [cbn; intuition discriminate|]). destruct Ht.
  - apply (chunk_app P _ (pf :: L1) _ [Alloc pf (nprocs * 4); Use pf]); [exact Xpf|].
    apply (chunk_app P _ (pg :: pf :: L1) _ [Alloc pg (nprocs * 4); Use pg]); [apply chunk_raw; [reflexivity|exact Hpg|lia]|].
    apply (chunk_app P _ (pg :: pf :: L1) _ [Realloc pg (c_ngroup c * 4); Use pg]); [apply chunk_reraw; [reflexivity|exact Hpg|lia|left; reflexivity]|].
    apply (chunk_app P _ (pg :: L1) _ [Free pf]).
    { apply chunk_free; [right; left; reflexivity|intros v [Hv|Hv]; [left; exact Hv|right; right; exact Hv]|]. intros [H|H]; [discriminate|contradiction]. }
    apply (chunk_app P _ (pg :: L1) _ [Use pg]); [apply chunk_use; left; reflexivity|].
    apply chunk_app with (B0 ++ pg :: L1); [apply chunk_buffers|].
    apply chunk_weak with (B0 ++ pg :: L1) (vars o args_names ++ B0 ++ pg :: L1); [apply incl_refl| |].
    { intros v Hv. rewrite !in_app_iff in Hv |- *. cbn [In]. tauto. }
    change (map (fun v => Alloc v (4 * c_ngroup c)) (vars o args_names) ++ Check (vars o args_names) "Could not allocate all2all args" :: map Use (vars o args_names)) with
      ((allocs (map (fun v => (v, 4 * c_ngroup c)) (vars o args_names)) ++ [Check (map fst (map (fun v => (v, 4 * c_ngroup c)) (vars o args_names))) "Could not allocate all2all args"]) ++ map Use (vars o args_names)).
    apply chunk_app with (vars o args_names ++ B0 ++ pg :: L1).
    + apply (chunk_group P (B0 ++ pg :: L1) (map (fun v => (v, 4 * c_ngroup c)) (vars o args_names))).
      * intros x Hi. apply in_map_iff in Hi as (w & <- & _). cbn [snd]. lia.
      * apply (nodup_vars args_names). unfold args_names. nodupl.
      * intros x Hi. cbn in Hi. repeat (destruct Hi as [<- | Hi]; [cbn [fst]; split; [eapply P_ok; [discriminate|reflexivity]|reflexivity]|]). destruct Hi.
    + apply chunk_uses. intros v Hv. apply in_app_iff. auto.
Qed.
End One.

(** ** Remap *)
Lemma remap_oom o coll memflag c f k e :
  let S := remap_setup esize plsize rqsize xsize nprocs o coll memflag c in
  match first_failing (serious_remap c) f k (attempts S) with
  | Some v => run f k e S = verdict v
  | None => exists e', run f k e S = ADone (k + List.length (attempts S)) e' /\ forall f' k', run f' k' e' (remap_use o coll memflag c) = ADone k' e'
  end.
Proof.
  cbv zeta. assert (X : chunk (serious_remap c) [] (usevars o coll memflag c ++ []) (remap_setup esize plsize rqsize xsize nprocs o coll memflag c)).
  { apply chunk_remap.
    - intros s Hs _. unfold serious_remap. cbn [snd]. destruct (String.eqb_spec s "pgroup"); [contradiction|]. rewrite andb_false_r. reflexivity.
    - intros v [].
    - intros _. unfold serious_remap. cbn [snd]. rewrite String.eqb_refl, andb_true_r. reflexivity. }
  specialize (X f k e (fun v (H : In v []) => match H with end)). destruct (first_failing _ f k _); [exact X|].
  destruct X as (e' & E & H). exists e'. split; [exact E|]. intros f' k'. rewrite use_eq. apply run_uses. rewrite app_nil_r in H. exact H.
Qed.
Lemma run_p2p_attempts o memflag c v : In v (attempts (remap_setup esize plsize rqsize xsize nprocs o 0 memflag c)) -> report v <> None.
Proof.
  unfold remap_setup, buffers, when. rewrite !attempts_app. cbn [Z.eqb].
  rewrite !in_app_iff. intros [H|[H|[H|[H|[H|H]]]]]; revert H; unfold attempts;
    [..|]; try (intros H; apply in_flat_map in H as (a & Ha & Hv); revert Hv).
  all: repeat match goal with H : In _ (if ?b then _ else _) |- _ => destruct b; cbn [In app] in H end.
  all: repeat match goal with H : In _ (_ ++ _) |- _ => rewrite in_app_iff in H; destruct H as [H|H] end.
  all: repeat match goal with H : In _ (if ?b then _ else _) |- _ => destruct b; cbn [In app map vars send_names recv_names] in H end.
  all: cbn in Ha; repeat (destruct Ha as [<- | Ha]; [cbn [attempt]; try (destruct (_ =? 0)); intros [<- | []] || intros []; discriminate|]); try contradiction.
Qed.

(** ** FFT *)
Definition pairvars (i : nat) (k : option rmk) : list avar :=
  match k with
  | None => []
  | Some k => usevars (S (2 * i)) (fst (k_main k)) 0 (snd (k_main k)) ++
              match k_extra k with None => [] | Some x => usevars (S (S (2 * i))) (fst x) 0 (snd x) end
  end.
Fixpoint pairsvars (i : nat) (ks : list (option rmk)) : list avar :=
  match ks with [] => [] | k :: t => pairvars i k ++ pairsvars (S i) t end.
Lemma pairs_use_eq ks : forall i, pairs_use i ks = map Use (pairsvars i ks).
Proof.
  induction ks as [|k ks IH]; intros i; [reflexivity|]. cbn [pairs_use pairsvars]. rewrite map_app, IH. f_equal. destruct k as [k|]; [|reflexivity].
  unfold pair_use, pairvars. rewrite map_app, use_eq. f_equal. destruct (k_extra k); [apply use_eq|reflexivity].
Qed.
Lemma usevars_o o coll memflag c v : In v (usevars o coll memflag c) -> fst v = o.
Proof.
  unfold usevars, bufvars, wvars. rewrite !in_app_iff.
  assert (K : forall l, In v (vars o l) -> fst v = o) by (intros l Hl; apply in_map_iff in Hl as (t & <- & _); reflexivity).
  intros [H|[H|[H|H]]].
  - destruct (memflag =? 0); [destruct H|]. apply in_app_iff in H as [H|H].
    + destruct (c_ssize c =? 0); [destruct H|]. destruct H as [<- | []]. reflexivity.
    + destruct (c_rsize c =? 0); [destruct H|]. destruct H as [<- | []]. reflexivity.
  - destruct (c_nsend c =? 0); [destruct H|]. eapply K, H.
  - destruct (c_nrecv c =? 0); [destruct H|]. eapply K, H.
  - destruct (coll =? 0); [destruct H|]. destruct (c_ngroup c =? 0); [destruct H|]. eapply K, H.
Qed.
Lemma pairvars_o i k v : In v (pairvars i k) -> fst v = S (2 * i) \/ fst v = S (S (2 * i)).
Proof.
  destruct k as [k|]; [|intros []]. unfold pairvars. rewrite in_app_iff. intros [H|H]; [left; eapply usevars_o, H|].
  destruct (k_extra k); [right; eapply usevars_o, H|destruct H].
Qed.
Lemma pairsvars_o ks : forall i v, In v (pairsvars i ks) -> (2 * i < fst v)%nat.
Proof.
  induction ks as [|k ks IH]; intros i v H; [destruct H|]. cbn [pairsvars] in H. apply in_app_iff in H as [H|H]; [apply pairvars_o in H; lia|apply IH in H; lia].
Qed.

Section Fft.
Variable sh : shape.
Local Notation P := (serious_fft sh).

Lemma P_all o s : s <> "pgroup" -> report (o, s) <> None \/ s = "pflag" -> P (o, s) = true.
Proof.
  intros Hs Hr. unfold serious_fft. assert (Hp : is_plan (o, s) = false).
  { apply not_true_iff_false. unfold is_plan. cbn [snd]. intros X. apply existsb_exists in X as (t & Ht & X). apply String.eqb_eq in X. subst t. cbn in Ht.
    repeat (destruct Ht as [<- | Ht]; [destruct Hr as [Hr|Hr]; [apply Hr; reflexivity|discriminate]|]). exact Ht. }
  rewrite Hp. cbn [negb andb]. destruct (remap_of _ _); [|reflexivity]. unfold serious_remap. cbn [snd]. destruct (String.eqb_spec s "pgroup"); [contradiction|].
  rewrite andb_false_r. reflexivity.
Qed.
Lemma P_group o k : remap_of sh o = Some k -> P (o, "pgroup") = negb (c_ngroup (snd k) =? 0).
Proof. intros H. unfold serious_fft. cbn [fst]. rewrite H. unfold serious_remap. cbn [snd]. rewrite String.eqb_refl, andb_true_r. reflexivity. Qed.
Lemma chunk_new0 L o s : report (o, s) = Some "std::bad_alloc" -> s <> "pgroup" -> chunk P L L [New (o, s)].
Proof.
  intros Hr Hs. apply chunk_weak with L ((o, s) :: L); [apply incl_refl|intros v Hv; right; exact Hv|]. apply chunk_new; [exact Hr|].
  apply P_all; [exact Hs|]. left. rewrite Hr. discriminate.
Qed.
Lemma chunk_remap_new L o k : (forall v, In v L -> fst v <> o) -> remap_of sh o = Some k ->
  chunk P L (usevars o (fst k) 0 (snd k) ++ L) (remap_new esize plsize rqsize xsize nprocs o k).
Proof.
  intros HL Ho. unfold remap_new. apply chunk_app with L.
  - repeat (apply chunk_cons with L; [apply chunk_new0; [reflexivity|discriminate]|]). apply chunk_nil, incl_refl.
  - apply chunk_remap; [intros s; apply P_all|exact HL|]. intros _. apply P_group, Ho.
Qed.
Lemma div2_main i : Nat.div2 (pred (S (2 * i))) = i. Proof. cbn [pred]. apply Nat.div2_double. Qed.
Lemma div2_extra i : Nat.div2 (pred (S (S (2 * i)))) = i. Proof. cbn [pred]. apply Nat.div2_succ_double. Qed.
Lemma even_main i : Nat.even (S (2 * i)) = false. Proof. rewrite Nat.even_succ, <- Nat.negb_even, Nat.even_mul. reflexivity. Qed.
Lemma even_extra i : Nat.even (S (S (2 * i))) = true. Proof. cbn [Nat.even]. rewrite Nat.even_mul. reflexivity. Qed.

Lemma chunk_pairs ks : forall i L, (forall j, nth_error (s_remaps sh) (i + j) = nth_error ks j) -> (forall v, In v L -> (fst v <= 2 * i)%nat) ->
  chunk P L (pairsvars i ks ++ L) (pairs_new esize plsize rqsize xsize nprocs i ks).
Proof.
  induction ks as [|k ks IH]; intros i L Hks HL; [apply chunk_nil, incl_refl|]. cbn [pairs_new pairsvars].
  apply chunk_app with (pairvars i k ++ L).
  - destruct k as [k|]; [|apply chunk_nil, incl_refl]. pose proof (Hks 0%nat) as H0. rewrite Nat.add_0_r in H0. cbn in H0.
    unfold pair_new, pairvars. apply (chunk_app P L L); [apply chunk_new0; [reflexivity|discriminate]|].
    apply chunk_app with (usevars (S (2 * i)) (fst (k_main k)) 0 (snd (k_main k)) ++ L).
    + apply chunk_remap_new; [intros v Hv; specialize (HL v Hv); lia|]. unfold remap_of. rewrite div2_main, H0, even_main. reflexivity.
    + destruct (k_extra k) as [x|] eqn:Ex; [|rewrite app_nil_r; apply chunk_nil, incl_refl].
      eapply chunk_weak; [apply incl_refl| |apply chunk_remap_new].
      * intros v Hv. rewrite !in_app_iff in Hv |- *. tauto.
      * intros v Hv. apply in_app_iff in Hv as [Hv|Hv]; [apply usevars_o in Hv; lia|specialize (HL v Hv); lia].
      * unfold remap_of. rewrite div2_extra, H0, even_extra. exact Ex.
  - eapply chunk_weak; [apply incl_refl| |apply IH].
    + intros v Hv. rewrite !in_app_iff in Hv |- *. tauto.
    + intros j. pose proof (Hks (S j)) as Hj. cbn [nth_error] in Hj. rewrite <- Hj. f_equal. lia.
    + intros v Hv. apply in_app_iff in Hv as [Hv|Hv]; [apply pairvars_o in Hv; lia|specialize (HL v Hv); lia].
Qed.

Lemma chunk_plans L dims : (forall v, In v L -> fst v <> 0%nat) -> chunk P L L (plans esize dims).
Proof.
  intros HL. assert (X : forall s n, is_plan (0%nat, s) = true -> chunk P L L (plan esize s n)).
  { intros s n Hs. apply chunk_silent; [left; unfold serious_fft; rewrite Hs; reflexivity|]. intros H. apply HL in H. apply H. reflexivity. }
  assert (N : chunk P L L []) by (apply chunk_nil, incl_refl).
  unfold plans. destruct dims as [|x [|y [|z [|? ?]]]]; try exact N.
  - apply chunk_app with L; [apply X; reflexivity|]. apply chunk_app with L; [apply X; reflexivity|]. destruct (y =? x); [exact N|]. apply chunk_app with L; apply X; reflexivity.
  - apply chunk_app with L; [apply X; reflexivity|]. apply chunk_app with L; [apply X; reflexivity|].
    apply chunk_app with L; [destruct (y =? x); [exact N|]; apply chunk_app with L; apply X; reflexivity|].
    destruct (_ || _); [exact N|]. apply chunk_app with L; apply X; reflexivity.
Qed.

Definition objvars (memflag : Z) : list avar := bufvars 0 memflag (snd (fst (s_sizes sh))) (snd (s_sizes sh)) ++ pairsvars 0 (s_remaps sh).
Lemma chunk_fft memflag : chunk P [] (objvars memflag) (fft_setup esize plsize rqsize xsize nprocs memflag sh).
Proof.
  unfold fft_setup, objvars. apply chunk_app with (pairsvars 0 (s_remaps sh)).
  { rewrite <- (app_nil_r (pairsvars _ _)). apply chunk_pairs; [reflexivity|intros v []]. }
  apply chunk_app with (pairsvars 0 (s_remaps sh)).
  { induction (s_dims sh) as [|d l IH]; [apply chunk_nil, incl_refl|]. cbn [map]. eapply chunk_cons; [|exact IH]. apply chunk_new0; [reflexivity|discriminate]. }
  apply chunk_app with (pairsvars 0 (s_remaps sh)); [apply chunk_plans; intros v Hv; apply pairsvars_o in Hv; lia|].
  apply chunk_buffers. intros s. apply P_all.
Qed.
Lemma compute_eq fwd memflag lines : fft_compute esize fwd memflag sh lines = map Use (objvars memflag) ++ ffts_use esize fwd (s_dims sh) lines.
Proof.
  unfold fft_compute, objvars. rewrite pairs_use_eq, map_app, <- app_assoc. f_equal. unfold when, bufvars, wvars.
  destruct (memflag =? 0), (snd (fst (s_sizes sh)) =? 0), (snd (s_sizes sh) =? 0); reflexivity.
Qed.
End Fft.

(** the 1d transforms *)
Definition tmp : avar := (0%nat, "tmpbuf").
Definition jobs (fwd : bool) (dims : list Z) (lines : list nat) : list (avar * Z) :=
  List.concat (map (fun dl => repeat (plan_of fwd dims (fst dl), nth (fst dl) dims 0) (snd dl)) (combine (seq 0 (List.length lines)) lines)).
Definition lines_of (js : list (avar * Z)) : list act := List.concat (map (fun j => one_line esize (fst j) (snd j)) js).
Lemma lines_of_app a b : lines_of (a ++ b) = lines_of a ++ lines_of b.
Proof. unfold lines_of. rewrite map_app, concat_app. reflexivity. Qed.
Lemma ffts_use_eq fwd dims lines : ffts_use esize fwd dims lines = lines_of (jobs fwd dims lines).
Proof.
  unfold ffts_use, jobs. induction (combine (seq 0 (List.length lines)) lines) as [|[d n] l IH]; [reflexivity|]. cbn [map List.concat fst snd]. rewrite lines_of_app, IH. f_equal.
  unfold lines_of. induction n as [|n IHn]; [reflexivity|]. cbn [repeat List.concat map fst snd]. rewrite IHn. reflexivity.
Qed.
Lemma lines_attempts js : (forall j, In j js -> 0 < snd j) -> attempts (lines_of js) = repeat tmp (List.length js).
Proof.
  induction js as [|[p n] js IH]; intros H; [reflexivity|]. change (lines_of ((p, n) :: js)) with (one_line esize p n ++ lines_of js).
  rewrite attempts_app, IH by (intros; apply H; right; assumption). cbn [List.length repeat]. unfold one_line. cbn [attempts flat_map attempt].
  pose proof (H (p, n) (or_introl eq_refl)) as Hn1. cbn [snd] in Hn1. destruct (Z.eqb_spec (2 * esize * n) 0); [nia|]. reflexivity.
Qed.
Lemma lines_run f js : (forall j, In j js -> 0 < snd j /\ fst j <> tmp) -> forall k e,
  ((forall j, In j js -> e (fst j) = Live) -> (forall i, (k <= i < k + List.length js)%nat -> f i = false) -> exists e', run f k e (lines_of js) = ADone (k + List.length js) e') /\
  ((exists j, In j js /\ e (fst j) <> Live) \/ (exists i, (k <= i < k + List.length js)%nat /\ f i = true) -> run f k e (lines_of js) = AUB).
Proof.
  induction js as [|[p n] js IH]; intros H k e.
  - split; [intros _ _; exists e; cbn; f_equal; lia|]. intros [(j & [] & _)|(i & Hi & _)]. cbn in Hi. lia.
  - change (lines_of ((p, n) :: js)) with (one_line esize p n ++ lines_of js). rewrite run_app.
    destruct (H (p, n) (or_introl eq_refl)) as (Hn1 & Hp). cbn [fst snd] in Hn1, Hp.
    assert (Hb : (2 * esize * n =? 0) = false) by (apply Z.eqb_neq; nia).
    assert (R1 : run f k e (one_line esize p n) = match e p with Live => if f k then AUB else ADone (S k) (upd (upd e tmp Live) tmp Dead) | _ => AUB end).
    { unfold one_line. cbn [run step1]. rewrite Hb. destruct (e p); try reflexivity. fold tmp. rewrite upd_same. destruct (f k); [reflexivity|]. rewrite upd_same. reflexivity. }
    rewrite R1. destruct (IH (fun j Hj => H j (or_intror Hj)) (S k) (upd (upd e tmp Live) tmp Dead)) as (IH1 & IH2).
    assert (K : forall j, In j js -> upd (upd e tmp Live) tmp Dead (fst j) = e (fst j)).
    { intros j Hj. destruct (H j (or_intror Hj)) as (_ & Hj'). rewrite !upd_other by congruence. reflexivity. }
    cbn [List.length]. split.
    + intros H1 H2. pose proof (H1 (p, n) (or_introl eq_refl)) as E1. cbn [fst] in E1. rewrite E1, (H2 k) by lia.
      destruct IH1 as (e' & E').
      * intros j Hj. rewrite K by exact Hj. apply H1. right; exact Hj.
      * intros i Hi. apply H2. lia.
      * exists e'. rewrite E'. f_equal. lia.
    + intros HB. destruct (e p) eqn:Ep; try reflexivity. destruct (f k) eqn:Fk; [reflexivity|]. apply IH2. destruct HB as [(j & [<- | Hj] & Hl)|(i & Hi & Fi)].
      * cbn [fst] in Hl. contradiction.
      * left. exists j. split; [exact Hj|]. rewrite K by exact Hj. exact Hl.
      * right. exists i. split; [|exact Fi]. destruct (Nat.eq_dec i k) as [-> | ?]; [congruence|lia].
Qed.
Lemma in_jobs fwd dims lines p n : In (p, n) (jobs fwd dims lines) <-> exists d, (0 < nth d lines 0)%nat /\ p = plan_of fwd dims d /\ n = nth d dims 0.
Proof.
  unfold jobs. rewrite in_concat. split.
  - intros (l & Hl & Hp). apply in_map_iff in Hl as ([d m] & <- & Hd). cbn [fst snd] in Hp. exists d.
    apply (In_nth _ _ (0%nat, 0%nat)) in Hd as (i & Hi & Ei). rewrite combine_length, seq_length in Hi. rewrite combine_nth in Ei by apply seq_length.
    injection Ei as Ed Em. rewrite seq_nth in Ed by lia. cbn in Ed. subst i m.
    pose proof (repeat_spec _ _ _ Hp) as E. injection E as -> ->. split; [|split; reflexivity]. destruct (nth d lines 0%nat); [destruct Hp|lia].
  - intros (d & Hd & -> & ->). exists (repeat (plan_of fwd dims d, nth d dims 0) (nth d lines 0%nat)). split.
    + apply in_map_iff. exists (d, nth d lines 0%nat). split; [reflexivity|].
      assert (Hl : (d < List.length lines)%nat) by (destruct (Nat.lt_ge_cases d (List.length lines)); [assumption|]; rewrite nth_overflow in Hd by assumption; lia).
      replace (d, nth d lines 0%nat) with (nth d (combine (seq 0 (List.length lines)) lines) (0%nat, 0%nat)) by (rewrite combine_nth by apply seq_length; rewrite seq_nth by exact Hl; reflexivity).
      apply nth_In. rewrite combine_length, seq_length. lia.
    + destruct (nth d lines 0%nat); [lia|left; reflexivity].
Qed.
Lemma plan_of_tmp fwd dims d : plan_of fwd dims d <> tmp.
Proof.
  unfold plan_of, tmp. destruct dims as [|x [|y [|z [|? ?]]]], d as [|[|d]]; destruct fwd; try discriminate;
    try (destruct (y =? x); discriminate); destruct (z =? x); try discriminate; destruct (z =? y); try discriminate; destruct (y =? x); discriminate.
Qed.

(** setup of an FFT, then any number of transforms *)
Lemma fft_oom memflag sh f k e : 
  let S := fft_setup esize plsize rqsize xsize nprocs memflag sh in
  (forall d, In d (s_dims sh) -> 0 < d) ->
  match first_failing (serious_fft sh) f k (attempts S) with
  | Some v => run f k e S = verdict v
  | None => exists e', run f k e S = ADone (k + List.length (attempts S)) e' /\
    forall fwd lines f' k', (List.length lines <= List.length (s_dims sh))%nat ->
      let C := fft_compute esize fwd memflag sh lines in
      let sound := (forall d, (0 < nth d lines 0)%nat -> e' (plan_of fwd (s_dims sh) d) = Live) /\ (forall i, (k' <= i < k' + List.length (attempts C))%nat -> f' i = false) in
      (sound -> exists e2, run f' k' e' C = ADone (k' + List.length (attempts C)) e2) /\ (~ sound -> run f' k' e' C = AUB)
  end.
Proof.
  cbv zeta. intros Hd. pose proof (chunk_fft sh memflag f k e (fun v (H : In v []) => match H with end)) as X.
  destruct (first_failing _ f k _); [exact X|]. destruct X as (e' & E & HL). exists e'. split; [exact E|]. intros fwd lines f' k' Hl.
  rewrite compute_eq, ffts_use_eq, run_app, run_uses by exact HL.
  set (js := jobs fwd (s_dims sh) lines).
  assert (Hj : forall j, In j js -> 0 < snd j /\ fst j <> tmp).
  { intros [p n] Hi. apply in_jobs in Hi as (d & Hd1 & -> & ->). cbn [fst snd]. split; [|apply plan_of_tmp]. apply Hd, nth_In.
    destruct (Nat.lt_ge_cases d (List.length lines)); [lia|]. rewrite nth_overflow in Hd1 by assumption. lia. }
  assert (Ha : List.length (attempts (map Use (objvars sh memflag) ++ lines_of js)) = List.length js).
  { rewrite attempts_app, lines_attempts by (intros; apply Hj; assumption). rewrite app_length, repeat_length.
    assert (Z0 : forall l, attempts (map Use l) = []) by (induction l as [|v l IHl]; [reflexivity|exact IHl]). rewrite Z0. reflexivity. }
  rewrite Ha. destruct (lines_run f' js Hj k' e') as (R1 & R2). split.
  - intros (H1 & H2). apply R1; [|exact H2]. intros [p n] Hi. apply in_jobs in Hi as (d & Hd1 & -> & _). apply H1, Hd1.
  - intros Hs. apply R2.
    destruct (existsb (fun j => match e' (fst j) with Live => false | _ => true end) js) eqn:X.
    + left. apply existsb_exists in X as (j & Hi & X). exists j. split; [exact Hi|]. intros Y. rewrite Y in X. discriminate.
    + right. destruct (existsb f' (seq k' (List.length js))) eqn:Y.
      * apply existsb_exists in Y as (i & Hi & Fi). apply in_seq in Hi. exists i. split; [lia|exact Fi].
      * exfalso. apply Hs. split.
        -- intros d Hd1. assert (Hi : In (plan_of fwd (s_dims sh) d, nth d (s_dims sh) 0) js) by (apply in_jobs; exists d; auto).
           rewrite <- not_true_iff_false in X. destruct (e' (plan_of fwd (s_dims sh) d)) eqn:Ev; [..|]; try reflexivity; exfalso; apply X; apply existsb_exists; eexists; (split; [exact Hi|]); cbn [fst]; rewrite Ev; reflexivity.
        -- intros i Hi. rewrite <- not_true_iff_false in Y |- *. intros Fi. apply Y. apply existsb_exists. exists i. split; [apply in_seq; lia|exact Fi].
Qed.

(** the state of a plan after setup *)
Lemma once f v b l : b <> 0 -> filter (fun a => existsb (veqb v) (touch a)) l = [Alloc v b] -> forall k e k' e' i,
  run f k e l = ADone k' e' -> nth_error (attempts l) i = Some v -> e' v = if f (k + i)%nat then Null else Live.
Proof.
  intros Hb. induction l as [|a l IH]; intros Hf k e k' e' i E Hi; [discriminate|]. cbn [filter] in Hf. cbn [run] in E.
  change (attempts (a :: l)) with (attempt a ++ attempts l) in Hi.
  destruct (existsb (veqb v) (touch a)) eqn:X.
  - injection Hf as -> Hf. assert (Ht : ~ In v (touched l)).
    { intros Ht. apply in_flat_map in Ht as (a' & Ha & Hv). assert (Q : In a' []) by (rewrite <- Hf; apply filter_In; split; [exact Ha|apply existsb_exists; exists v; split; [exact Hv|apply veqb_eq; reflexivity]]). destruct Q. }
    cbn [step1 attempt] in E, Hi. destruct (Z.eqb_spec b 0); [contradiction|]. rewrite (run_frame f l v _ _ _ _ E Ht), upd_same.
    destruct i as [|i]; [rewrite Nat.add_0_r; reflexivity|]. cbn in Hi. exfalso. apply Ht. apply nth_error_In in Hi. apply in_flat_map in Hi as (a' & Ha & Hv).
    apply in_flat_map. exists a'. split; [exact Ha|]. destruct a'; cbn in Hv |- *; try (destruct (_ =? 0) in Hv); cbn in Hv; tauto.
  - destruct (step1 f k e a) as [| |k1 e1] eqn:E1; try discriminate.
    assert (Hk : k1 = (k + List.length (attempt a))%nat).
    { destruct a; cbn [step1 attempt] in E1 |- *.
      - destruct (_ =? 0); injection E1 as <- <-; cbn; lia.
      - destruct (f k); [discriminate|]. injection E1 as <- <-; cbn; lia.
      - destruct (e v0); try discriminate; destruct (_ =? 0); injection E1 as <- <-; cbn; lia.
      - destruct (existsb (isnull e) vs); [discriminate|]. injection E1 as <- <-; cbn; lia.
      - destruct (e v0); try discriminate. injection E1 as <- <-; cbn; lia.
      - destruct (e v0); try discriminate; injection E1 as <- <-; cbn; lia. }
    destruct (Nat.lt_ge_cases i (List.length (attempt a))) as [Hlt|Hge].
    + exfalso. rewrite nth_error_app1 in Hi by exact Hlt. apply nth_error_In in Hi. rewrite <- not_true_iff_false in X. apply X.
      apply existsb_exists. exists v. split; [|apply veqb_eq; reflexivity]. destruct a; cbn in Hi |- *; try (destruct (_ =? 0) in Hi); cbn in Hi; tauto.
    + rewrite nth_error_app2 in Hi by exact Hge. rewrite (IH Hf _ _ _ _ _ E Hi). replace (k1 + (i - List.length (attempt a)))%nat with (k + i)%nat by lia. reflexivity.
Qed.

Definition noplan (l : list act) : Prop := forallb (fun w => negb (is_plan w)) (touched l) = true.
Lemma touched_app a b : touched (a ++ b) = touched a ++ touched b.
Proof. apply flat_map_app. Qed.
Lemma noplan_app a b : noplan a -> noplan b -> noplan (a ++ b).
Proof. unfold noplan. intros Ha Hb. rewrite touched_app, forallb_app, Ha, Hb. reflexivity. Qed.
Lemma noplan_setup o coll memflag c : noplan (remap_setup esize plsize rqsize xsize nprocs o coll memflag c).
Proof.
  unfold remap_setup, buffers, when.
  destruct (c_nsend c =? 0), (c_nrecv c =? 0), (coll =? 0), (memflag =? 0), (c_ssize c =? 0), (c_rsize c =? 0), (c_ngroup c =? 0); reflexivity.
Qed.
Lemma noplan_pairs ks : forall i, noplan (pairs_new esize plsize rqsize xsize nprocs i ks).
Proof.
  assert (N : forall o k, noplan (remap_new esize plsize rqsize xsize nprocs o k)) by (intros o k; unfold remap_new; apply noplan_app; [reflexivity|apply noplan_setup]).
  induction ks as [|k ks IH]; intros i; [reflexivity|]. cbn [pairs_new]. apply noplan_app; [|apply IH]. destruct k as [k|]; [|reflexivity]. unfold pair_new.
  apply noplan_app; [reflexivity|]. apply noplan_app; [apply N|]. destruct (k_extra k); [apply N|reflexivity].
Qed.
Lemma noplan_new (l : list Z) : noplan (map (fun _ => New (0%nat, "FFT1d")) l).
Proof. induction l as [|x l IH]; [reflexivity|exact IH]. Qed.
Lemma noplan_buffers o memflag a b : noplan (buffers esize o memflag a b).
Proof. unfold buffers, when. destruct (memflag =? 0), (a =? 0), (b =? 0); reflexivity. Qed.
Lemma noplan_filter v l : is_plan v = true -> noplan l -> filter (fun a => existsb (veqb v) (touch a)) l = [].
Proof.
  intros Hv Hl. induction l as [|a l IH]; [reflexivity|]. unfold noplan in Hl. cbn [touched flat_map] in Hl. rewrite forallb_app, andb_true_iff in Hl. destruct Hl as (Ha & Hl).
  cbn [filter]. rewrite (IH Hl). destruct (existsb (veqb v) (touch a)) eqn:X; [|reflexivity]. exfalso.
  apply existsb_exists in X as (w & Hw & X). apply veqb_eq in X. subst w. rewrite forallb_forall in Ha. specialize (Ha v Hw). rewrite Hv in Ha. discriminate.
Qed.
Lemma attempts_touched l v : In v (attempts l) -> In v (touched l).
Proof.
  intros H. apply in_flat_map in H as (a & Ha & Hv). apply in_flat_map. exists a. split; [exact Ha|].
  destruct a; cbn in Hv |- *; try (destruct (_ =? 0) in Hv); cbn in Hv; tauto.
Qed.
Lemma noplan_in v l : is_plan v = true -> noplan l -> ~ In v (attempts l).
Proof. intros Hv Hl Hi. apply attempts_touched in Hi. unfold noplan in Hl. rewrite forallb_forall in Hl. specialize (Hl v Hi). rewrite Hv in Hl. discriminate. Qed.
Lemma plans_once dims v : (forall d, In d dims -> 0 < d) -> In v (attempts (plans esize dims)) ->
  exists b, b <> 0 /\ filter (fun a => existsb (veqb v) (touch a)) (plans esize dims) = [Alloc v b].
Proof.
  intros Hd H. assert (B : forall d, In d dims -> 264 + 2 * esize * d <> 0) by (intros d Hi; specialize (Hd d Hi); nia).
  apply attempts_touched in H. revert H. unfold plans, plan. destruct dims as [|x [|y [|z [|? ?]]]]; [intros []|intros []| | |intros []].
  - destruct (y =? x); cbn [app touched flat_map touch In]; intros H; repeat (destruct H as [<- | H]; [eexists; split; [|reflexivity]; apply B; cbn; tauto|]); destruct H.
  - destruct (y =? x), ((z =? x) || (z =? y)); cbn [app touched flat_map touch In]; intros H; repeat (destruct H as [<- | H]; [eexists; split; [|reflexivity]; apply B; cbn; tauto|]); destruct H.
Qed.

(** a plan is usable after setup iff its allocation succeeded *)
Lemma plan_state memflag sh f k e k' e' i v : (forall d, In d (s_dims sh) -> 0 < d) ->
  let S := fft_setup esize plsize rqsize xsize nprocs memflag sh in
  run f k e S = ADone k' e' -> nth_error (attempts S) i = Some v -> is_plan v = true -> e' v = if f (k + i)%nat then Null else Live.
Proof.
  cbv zeta. intros Hd E Hi Hv. pose proof (nth_error_In _ _ Hi) as Hin. unfold fft_setup in Hin. rewrite !attempts_app, !in_app_iff in Hin.
  destruct Hin as [H|[H|[H|H]]]; [exfalso; revert H; apply noplan_in; [exact Hv|apply noplan_pairs]|exfalso; revert H; apply noplan_in; [exact Hv|apply noplan_new]| |exfalso; revert H; apply noplan_in; [exact Hv|apply noplan_buffers]].
  destruct (plans_once _ _ Hd H) as (b & Hb & Hf). apply (once f v b (fft_setup esize plsize rqsize xsize nprocs memflag sh) Hb) with (2 := E) (3 := Hi).
  unfold fft_setup. rewrite !filter_app, Hf, (noplan_filter v (pairs_new _ _ _ _ _ _ _) Hv (noplan_pairs _ _)), (noplan_filter v (map _ _) Hv (noplan_new _)), (noplan_filter v (buffers _ _ _ _ _) Hv (noplan_buffers _ _ _ _)). reflexivity.
Qed.
Lemma plan_of_in memflag sh fwd d : (forall d, In d (s_dims sh) -> 0 < d) -> (List.length (s_dims sh) = 2 \/ List.length (s_dims sh) = 3)%nat -> (d < List.length (s_dims sh))%nat ->
  is_plan (plan_of fwd (s_dims sh) d) = true /\ In (plan_of fwd (s_dims sh) d) (attempts (fft_setup esize plsize rqsize xsize nprocs memflag sh)).
Proof.
  intros Hd Hl Hlt. assert (B : forall d, In d (s_dims sh) -> (264 + 2 * esize * d =? 0) = false) by (intros c Hi; specialize (Hd c Hi); apply Z.eqb_neq; nia).
  assert (X : is_plan (plan_of fwd (s_dims sh) d) = true /\ In (plan_of fwd (s_dims sh) d) (attempts (plans esize (s_dims sh)))).
  { destruct (s_dims sh) as [|x [|y [|z [|? ?]]]]; cbn [List.length] in Hl, Hlt; try (exfalso; lia).
    - pose proof (B x (or_introl eq_refl)) as Bx. pose proof (B y (or_intror (or_introl eq_refl))) as By. unfold plans, plan.
      destruct d as [|[|d]]; [..|exfalso; lia]; destruct fwd; cbn [plan_of]; destruct (y =? x); cbn [app attempts flat_map attempt]; rewrite ?Bx, ?By; (split; [reflexivity|cbn; tauto]).
    - pose proof (B x (or_introl eq_refl)) as Bx. pose proof (B y (or_intror (or_introl eq_refl))) as By. pose proof (B z (or_intror (or_intror (or_introl eq_refl)))) as Bz. unfold plans, plan.
      destruct d as [|[|[|d]]]; [..|exfalso; lia]; destruct fwd; cbn [plan_of]; destruct (y =? x), (z =? x), (z =? y); cbn [app orb attempts flat_map attempt]; rewrite ?Bx, ?By, ?Bz; (split; [reflexivity|cbn; tauto]). }
  split; [apply X|]. unfold fft_setup. rewrite !attempts_app, !in_app_iff. right. right. left. apply X.
Qed.

Lemma first_in P f l : forall k v, first_failing P f k l = Some v -> In v l /\ P v = true.
Proof.
  induction l as [|w l IH]; intros k v H; [discriminate|]. cbn [first_failing] in H. destruct (f k && P w) eqn:E.
  - injection H as ->. apply andb_true_iff in E. split; [left; reflexivity|apply E].
  - apply IH in H. split; [right|]; apply H.
Qed.
Lemma verdict_halts v : report v <> None -> exists m, verdict v = AHalt m.
Proof. unfold verdict. destruct (report v); [eauto|congruence]. Qed.
Lemma remap_p2p o memflag c f k e : run f k e (remap_setup esize plsize rqsize xsize nprocs o 0 memflag c) <> AUB.
Proof.
  pose proof (remap_oom o 0 memflag c f k e) as X. cbv zeta in X. destruct (first_failing _ f k _) as [v|] eqn:E.
  - rewrite X. apply first_in in E as (Hi & _). apply run_p2p_attempts in Hi. destruct (verdict_halts v Hi) as (m & ->). discriminate.
  - destruct X as (e' & -> & _). discriminate.
Qed.
Definition reported (l : list act) : Prop := forall v, In v (attempts l) -> is_plan v = true \/ report v <> None.
Lemma reported_app a b : reported a -> reported b -> reported (a ++ b).
Proof. intros Ha Hb v Hv. rewrite attempts_app in Hv. apply in_app_iff in Hv as [Hv|Hv]; auto. Qed.
Lemma fft_p2p memflag sh f k e : (forall d, In d (s_dims sh) -> 0 < d) -> p2p_only sh -> run f k e (fft_setup esize plsize rqsize xsize nprocs memflag sh) <> AUB.
Proof.
  intros Hd HP. assert (R : reported (fft_setup esize plsize rqsize xsize nprocs memflag sh)).
  { unfold fft_setup. apply reported_app; [|apply reported_app; [|apply reported_app]].
    - assert (N : forall o k, remap_of sh o = Some k -> reported (remap_new esize plsize rqsize xsize nprocs o k)).
      { intros o x Hx0. unfold remap_new. apply reported_app.
        - intros v Hv. right. cbn in Hv. repeat (destruct Hv as [<- | Hv]; [discriminate|]). destruct Hv.
        - rewrite (HP o x Hx0). intros v Hv. right. eapply run_p2p_attempts, Hv. }
      assert (G : forall ks i, (forall j, nth_error (s_remaps sh) (i + j) = nth_error ks j) -> reported (pairs_new esize plsize rqsize xsize nprocs i ks)).
      { induction ks as [|x ks IH]; intros i Hks; [intros v []|]. cbn [pairs_new]. apply reported_app.
        - pose proof (Hks 0%nat) as H0. rewrite Nat.add_0_r in H0. cbn in H0. destruct x as [x|]; [|intros v []]. unfold pair_new. apply reported_app; [|apply reported_app].
          + intros v [<- | []]. right. discriminate.
          + apply N. unfold remap_of. rewrite div2_main, H0, even_main. reflexivity.
          + destruct (k_extra x) eqn:Ex; [|intros v []]. apply N. unfold remap_of. rewrite div2_extra, H0, even_extra. exact Ex.
        - apply IH. intros j0. pose proof (Hks (S j0)) as Hj. cbn [nth_error] in Hj. rewrite <- Hj. f_equal. lia. }
      apply G. reflexivity.
    - intros v Hv. right. apply in_flat_map in Hv as (a & Ha & Hv). apply in_map_iff in Ha as (d & <- & _). destruct Hv as [<- | []]. discriminate.
    - intros v Hv. left. apply attempts_touched in Hv. revert Hv. unfold plans, plan. destruct (s_dims sh) as [|x [|y [|z [|? ?]]]]; [intros []|intros []| | |intros []].
      + destruct (y =? x); cbn [app touched flat_map touch In]; intros H; repeat (destruct H as [<- | H]; [reflexivity|]); destruct H.
      + destruct (y =? x), ((z =? x) || (z =? y)); cbn [app touched flat_map touch In]; intros H; repeat (destruct H as [<- | H]; [reflexivity|]); destruct H.
    - intros v Hv. right. apply attempts_touched in Hv. revert Hv. unfold buffers, when.
      destruct (memflag =? 0); [intros []|]. destruct (_ =? 0), (_ =? 0); cbn [app touched flat_map touch In]; intros H; repeat (destruct H as [<- | H]; [discriminate|]); destruct H. }
  pose proof (fft_oom memflag sh f k e Hd) as X. cbv zeta in X. destruct (first_failing _ f k _) as [v|] eqn:E.
  - rewrite X. apply first_in in E as (Hi & Hs). destruct (R v Hi) as [Hv|Hv].
    + unfold serious_fft in Hs. rewrite Hv in Hs. discriminate.
    + destruct (verdict_halts v Hv) as (m & ->). discriminate.
  - destruct X as (e' & -> & _). discriminate.
Qed.
End Lib.

Lemma tune_oom esize old new f k e : 0 < esize -> 0 <= old < new -> e (0%nat, "data") = Live \/ e (0%nat, "data") = Null ->
  run f k e (tune_data esize old new) = if f k then AUB else ADone (S k) (upd e (0%nat, "data") Live).
Proof.
  intros He Ho Hd. unfold tune_data. destruct (Z.ltb_spec old new); [|lia]. cbn [run step1].
  assert (Hb : (new * 2 * esize =? 0) = false) by (apply Z.eqb_neq; nia). rewrite Hb.
  destruct (f k); destruct Hd as [-> | ->]; rewrite upd_same; reflexivity.
Qed.
