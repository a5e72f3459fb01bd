(** ProtoProofs.v : invariants of call histories. *)

From Coq Require Import QArith Permutation.
From Verif Require Import Base Setup3d Life LifeProofs LifeFft LifeObj Tune TuneProofs TuneNum TuneTop Proto.
Open Scope Z_scope.

Lemma was_setup_snoc cs c : was_setup (cs ++ [c]) <-> was_setup cs \/ is_setup c.
Proof.
  unfold was_setup. rewrite Exists_app. split; (intros [X|X]; [left; exact X|right]).
  - inversion X as [? ? Y|? ? Y]; subst; [exact Y | inversion Y].
  - constructor. exact X.
Qed.
Lemma memflag_snoc cs c : memflag_after (cs ++ [c]) = match c with CSet _ mf => mf | _ => memflag_after cs end.
Proof. unfold memflag_after. rewrite fold_left_app. reflexivity. Qed.
Lemma user_buffers_snoc cs c : user_buffers (cs ++ [c]) = match c with CSetupMemory us ur => Some (us, ur) | _ => user_buffers cs end.
Proof. unfold user_buffers. rewrite fold_left_app. reflexivity. Qed.
Lemma snoc_split {X} (cs : list X) c a x b : cs ++ [c] = a ++ x :: b -> (b = [] /\ a = cs /\ x = c) \/ exists b', b = b' ++ [c] /\ cs = a ++ x :: b'.
Proof.
  destruct b as [|y b] using rev_ind; intros E.
  - left. apply app_inj_tail in E as [-> ->]. auto.
  - right. clear IHb. exists b. replace (a ++ x :: b ++ [y]) with ((a ++ x :: b) ++ [y]) in E by (rewrite <- app_assoc; reflexivity). apply app_inj_tail in E as [-> ->]. auto.
Qed.
Lemma has_buffers_snoc cs c : has_buffers (cs ++ [c]) <-> has_buffers cs \/ (is_setup c /\ memflag_after cs <> 0) \/ exists us ur, c = CSetupMemory us ur.
Proof.
  unfold has_buffers. split.
  - intros (a & x & b & E & D). apply snoc_split in E as [(-> & -> & ->)|(b' & -> & ->)]; [right; exact D | left; exists a, x, b'; auto].
  - intros [(a & x & b & -> & D)|D].
    + exists a, x, (b ++ [c]). split; [rewrite <- app_assoc; reflexivity | exact D].
    + exists cs, c, []. auto.
Qed.
Lemma steady_snoc cs c : steady (cs ++ [c]) <-> steady cs /\ match c with CSet _ mf => was_setup cs -> (mf = 0 <-> memflag_after cs = 0) | _ => True end.
Proof.
  unfold steady. split.
  - intros S. split; [intros a s mf b E; apply (S a s mf (b ++ [c])); rewrite E, <- app_assoc; reflexivity|]. destruct c; auto. intros W. exact (S cs s mf [] eq_refl W).
  - intros [S T] a s mf b E W. apply snoc_split in E as [(-> & -> & <-)|(b' & -> & E)]; [exact (T W) | exact (S a s mf b' E W)].
Qed.
Lemma once_snoc cs c : once (cs ++ [c]) <-> once cs /\ (is_setup c -> ~ was_setup cs).
Proof.
  unfold once. split.
  - intros S. split; [intros a x b E; apply (S a x (b ++ [c])); rewrite E, <- app_assoc; reflexivity|]. intros I. exact (S cs c [] eq_refl I).
  - intros [S T] a x b E I. apply snoc_split in E as [(-> & -> & <-)|(b' & -> & E)]; [exact (T I) | exact (S a x b' E I)].
Qed.

(** library blocks of a heap split into library and user parts *)
Definition split_heap (h : heap) (lib rest : list blk) : Prop :=
  has h (lib ++ rest) /\ Forall (fun b => b_own b = OLib) lib /\ Forall (fun b => b_own b = OUser) rest.

Lemma filter_all (f : blk -> bool) l : Forall (fun b => f b = true) l -> filter f l = l.
Proof. induction 1; cbn; [reflexivity|]. rewrite H, IHForall. reflexivity. Qed.
Lemma filter_none (f : blk -> bool) l : Forall (fun b => f b = false) l -> filter f l = [].
Proof. induction 1; cbn; [reflexivity|]. rewrite H, IHForall. reflexivity. Qed.

Lemma user_step_split h h' lib rest : split_heap h lib rest -> user_step h h' -> exists rest', split_heap h' lib rest'.
Proof.
  intros ((W & P) & L & R) (W' & F). exists (filter (fun b => negb (is_lib b)) (h_live h')). split; [|split; [exact L|]].
  - split; [exact W'|]. assert (Permutation (filter is_lib (h_live h)) lib) as PL.
    { rewrite (Permutation_filter_blk _ _ _ P), filter_app. rewrite (filter_all _ lib), (filter_none _ rest), app_nil_r; [reflexivity | |].
      - eapply Forall_impl; [|exact R]. intros b E. unfold is_lib. rewrite E. reflexivity.
      - eapply Forall_impl; [|exact L]. intros b E. unfold is_lib. rewrite E. reflexivity. }
    rewrite <- PL, <- F. clear. induction (h_live h') as [|b t IH]; [constructor|]. cbn. destruct (is_lib b); cbn [negb].
    + cbn. apply perm_skip, IH.
    + apply (Permutation_cons_app _ _ b). exact IH.
  - apply Forall_forall. intros b I. apply filter_In in I as [_ I]. unfold is_lib in I. destruct (b_own b); [discriminate | reflexivity].
Qed.

Section ProtoProofs.
Variable esize plsize rqsize ptsize nprocs xsize : Z.
Hypothesis esize_pos : 0 < esize.
Variable dim3 : bool.
Local Notation reach' := (reach false esize plsize rqsize ptsize nprocs xsize dim3).
Local Notation run' := (run false esize plsize rqsize ptsize nprocs xsize dim3).

Definition prs_set (o : fobj) : Prop := forall x, In x (flat_map oremap_pairs (o_remaps o)) -> pair_set x.

(** partial correctness of setup as far as flags go *)
Lemma make_robj_set k h x h' : make_robj false esize plsize rqsize ptsize nprocs xsize k h = LOk (x, h') -> pair_set x.
Proof using Type.
  unfold make_robj. unfold lbind at 1. destruct (alloc OLib KObj 0 h) as [?| |[p h1]]; try discriminate.
  unfold lbind at 1. destruct (new_robj h1) as [?| |[r h2]]; try discriminate. unfold lbind at 1.
  match goal with |- context [setup_robj _ _ _ _ _ _ _ _ _ ?r0 h2] => set (rr := r0) end.
  destruct (setup_robj _ _ _ _ _ _ _ (snd k) 0 rr h2) as [?| |[r' h3]] eqn:E; try discriminate. unfold lret. intros X. injection X as <- <-.
  unfold setup_robj in E.
  repeat match type of E with
  | lbind ?m ?k ?h = _ => unfold lbind at 1 in E; destruct (m h) as [?| |[? ?]]; [discriminate E | discriminate E |]; cbv beta zeta in E
  end.
  unfold lret in E. injection E as <- _. split; reflexivity.
Qed.

Lemma make_remap_set old k h r h' : (forall x, In x (oremap_pairs old) -> pair_set x) ->
  make_remap false esize plsize rqsize ptsize nprocs xsize old k h = LOk (r, h') -> forall x, In x (oremap_pairs r) -> pair_set x.
Proof using Type.
  intros O E. destruct k as [k|]; cbn [make_remap] in E; [|unfold lret in E; injection E as <- _; exact O].
  unfold lbind at 1 in E. destruct (alloc OLib KObj 0 h) as [?| |[b h1]]; try discriminate.
  unfold lbind at 1 in E. destruct (make_robj _ _ _ _ _ _ _ (k_main k) h1) as [?| |[m h2]] eqn:E1; try discriminate. apply make_robj_set in E1.
  unfold lbind at 1 in E. destruct (k_extra k) as [e|].
  - unfold lbind at 1 in E. destruct (make_robj _ _ _ _ _ _ _ e h2) as [?| |[y h3]] eqn:E2; try discriminate. apply make_robj_set in E2. unfold lret in E. injection E as <- _.
    intros x [<-|[<-|[]]]; assumption.
  - unfold lret in E. injection E as <- _. intros x [<-|[]]; assumption.
Qed.

Lemma make_remaps_set old ks h rs h' : (forall x, In x (flat_map oremap_pairs old) -> pair_set x) ->
  make_remaps false esize plsize rqsize ptsize nprocs xsize old ks h = LOk (rs, h') -> forall x, In x (flat_map oremap_pairs rs) -> pair_set x.
Proof using Type.
  revert ks h rs h'. induction old as [|a t IH]; intros [|k ks] h rs h' O E; try discriminate.
  - cbn in E. unfold lret in E. injection E as <- _. intros x [].
  - cbn [make_remaps] in E. unfold lbind at 1 in E. destruct (make_remap _ _ _ _ _ _ _ a k h) as [?| |[r h1]] eqn:E1; try discriminate.
    unfold lbind in E. destruct (make_remaps _ _ _ _ _ _ _ t ks h1) as [?| |[rs' h2]] eqn:E2; try discriminate. unfold lret in E. injection E as <- _.
    cbn [flat_map] in *. intros x I. apply in_app_or in I as [I|I].
    + eapply make_remap_set; [|exact E1 | exact I]. intros; apply O, in_or_app; auto.
    + eapply IH; [|exact E2 | exact I]. intros; apply O, in_or_app; auto.
Qed.

Lemma setup_fobj_flags res o h o' h' : prs_set o -> setup_fobj false esize plsize rqsize ptsize nprocs xsize dim3 res o h = LOk (o', h') ->
  o_setup o' = true /\ o_memflag o' = o_memflag o /\ o_smem o' = negb (o_memflag o =? 0) || o_smem o /\ prs_set o' /\ exists sh, res = SOk sh.
Proof using Type.
  intros PS E. unfold setup_fobj in E. destruct (dim3 && o_setup o); [discriminate|]. destruct res as [e| |sh]; try discriminate.
  unfold lbind at 1 in E. destruct (make_remaps _ _ _ _ _ _ _ (o_remaps o) (s_remaps sh) h) as [?| |[rs h1]] eqn:M; try discriminate.
  unfold lbind at 1 in E. match type of E with match ?m with _ => _ end = _ => destruct m as [?| |[fs h2]]; try discriminate end.
  destruct (s_sizes sh) as [[a b] c]. 
  unfold lbind at 1 in E. match type of E with match ?m with _ => _ end = _ => destruct m as [?| |[sb h3]]; try discriminate end.
  unfold lbind at 1 in E. match type of E with match ?m with _ => _ end = _ => destruct m as [?| |[rb h4]]; try discriminate end.
  unfold lret in E. injection E as <- _. cbn. spl; auto; [|eauto]. unfold prs_set. cbn [o_remaps]. eapply make_remaps_set; eauto.
Qed.

(** what holds after every history *)
Definition flags_ok (cs : list call) (o : fobj) (h : heap) : Prop :=
  o_memflag o = memflag_after cs /\ (o_setup o = true <-> was_setup cs) /\ (o_smem o = true <-> has_buffers cs) /\ prs_set o /\
  (o_setup o = false -> exists lib rest, inv dim3 false o lib /\ split_heap h lib rest).

Lemma ownl_lib ps lib : ownl ps lib -> Forall (fun b => b_own b = OLib) lib.
Proof using Type. intros (_ & _ & X). exact X. Qed.
Lemma inv_lib ob o lib : inv dim3 ob o lib -> Forall (fun b => b_own b = OLib) lib.
Proof using Type. intros (_ & O & _). eapply ownl_lib; eauto. Qed.

Lemma unset_pairs o lib : inv dim3 false o lib -> o_setup o = false -> prs_set o /\ o_smem o = false.
Proof using Type.
  intros (_ & _ & U & _) E. destruct (U E) as (_ & R & _ & S & _). split; [|exact S]. unfold prs_set. rewrite R. intros x I. apply in_flat_map in I as (r & I & J). apply repeat_spec in I. subst. destruct J.
Qed.

(** tune() that returns *)
Lemma tune_run f clk root flag niter tmax tflag o n h o' n' h' lib rest :
  (forall s sh, f s = SOk sh -> shape_len dim3 sh = true) -> tcond dim3 n ->
  (o_setup o = false -> inv dim3 false o lib /\ split_heap h lib rest) ->
  run' (CTune f clk root flag niter tmax tflag) o n h = LOk ((o', n'), h') ->
  o_setup o = false /\ tcond dim3 n' /\ o_memflag o' = o_memflag o /\
  done esize dim3 f (o_memflag o) (mkset (n_cbest n') (n_ebest n') (n_pbest n')) (base_ptrs o) rest o' h'.
Proof using esize_pos.
  intros SH TC ID E. cbn [run] in E. destruct (tune _ _ _ _ _ _ _ _ _ _ _ _ _ _ _ o n (mktst h 0 [])) as [?| |[[o1 n1] s1]] eqn:T; try discriminate.
  injection E as -> -> <-.
  assert (o_setup o = false /\ -1 <= flag <= 1 /\ 0 < niter /\ (0 <= tmax)%Q /\ 0 <= tflag <= 1) as (ST & A1 & A2 & A3 & A4).
  { unfold tune in T. destruct (o_setup o); [discriminate|]. split; [reflexivity|].
    destruct ((flag <? -1) || (1 <? flag)) eqn:C1; [discriminate|]. destruct ((niter <=? 0) || qlt tmax 0) eqn:C2; [discriminate|]. destruct ((tflag <? 0) || (1 <? tflag)) eqn:C3; [discriminate|].
    apply orb_false_iff in C1 as [? ?], C2 as [? C2], C3 as [? ?]. rewrite Z.ltb_ge, Z.leb_gt in *. spl; try lia. destruct (qlt_spec tmax 0); [discriminate|]. apply Qnot_lt_le. assumption. }
  destruct (ID ST) as (IV & Hs & _ & _).
  assert (twp (tune false esize plsize rqsize ptsize nprocs xsize dim3 f clk root flag niter tmax tflag o n) (mktst h 0 []) (fun _ => True) True
     (fun x b => tcond dim3 (snd x) /\ done esize dim3 f (o_memflag o) (mkset (n_cbest (snd x)) (n_ebest (snd x)) (n_pbest (snd x))) (base_ptrs o) rest (fst x) (t_heap b))) as W.
  { eapply twp_mono; [apply (tune_ok esize plsize rqsize ptsize nprocs xsize esize_pos dim3 f clk SH (fun _ => True) (fun _ => True) True) with (lib := lib) (rest := rest); auto|].
    intros [ox nx] b (D & TL & _). cbn [fst snd]. split; [exact TL | exact D]. }
  unfold twp in W. rewrite T in W. cbn [fst snd] in W. destruct W as (W1 & W2). spl; auto.
  destruct W2 as (sh & lib' & _ & _ & (_ & _ & M & _) & _). exact M.
Qed.

Lemma reach_inv cs o n h : reach' cs o n h -> flags_ok cs o h /\ tcond dim3 n.
Proof using esize_pos.
  induction 1 as [prec n h0 o h W US TC E | cs c o n h o' n' h' R [IH TC] WF E | cs o n h h' R [IH TC] ST].
  - split; [|exact TC].
    assert (has h0 (h_live h0)) as H0 by (split; [exact W | reflexivity]).
    assert ((prec = 1 /\ esize = 4) \/ (prec = 2 /\ esize = 8)) as PR.
    { unfold new_fobj in E. unfold lbind at 1 in E. destruct (alloc OLib KObj 0 h0) as [?| |[? ?]]; try discriminate. unfold lbind at 1 in E. destruct (alloc OLib KObj 0 h1) as [?| |[? ?]]; try discriminate.
      destruct (Z.eqb_spec prec 1), (Z.eqb_spec prec 2), (Z.eqb_spec esize 4), (Z.eqb_spec esize 8); cbn in E; try discriminate; auto; lia. }
    destruct (new_fobj_ok esize esize_pos dim3 prec h0 _ H0 PR) as (o1 & h1 & lib & E1 & H1 & IV & S1 & M1 & _). rewrite E1 in E. injection E as -> ->.
    destruct (unset_pairs o lib IV S1) as (PS & SM). unfold flags_ok. spl; auto.
    + rewrite S1. split; [discriminate|]. intros X. inversion X.
    + rewrite SM. split; [discriminate|]. intros (a & c & b & X & _). destruct a; discriminate.
    + intros _. exists lib, (h_live h0). split; [exact IV|]. split; [exact H1|]. split; [eapply inv_lib; eauto|]. apply Forall_forall. exact US.
  - destruct IH as (F1 & F2 & F3 & F4 & F5). destruct c as [s mf|res|us ur| | | | |f clk root flag niter tmax tflag]; cbn [run] in E.
    + unfold lret in E. injection E as <- <- <-. split; [|exact TC]. unfold flags_ok. cbn [with_settings o_memflag o_setup o_smem].
      rewrite memflag_snoc, was_setup_snoc, has_buffers_snoc. cbn [is_setup]. spl; auto.
      * split; [intros X; left; apply F2, X | intros [X|[]]; apply F2, X].
      * split; [intros X; left; apply F3, X | intros [X|[[[] _]|(us & ur & X)]]; [apply F3, X | discriminate X]].
    + unfold put, lbind in E. destruct (setup_fobj _ _ _ _ _ _ _ _ _ _ _) as [?| |[o1 h1]] eqn:ES; try discriminate. unfold lret in E. injection E as <- <- <-. split; [|exact TC].
      destruct (setup_fobj_flags _ _ _ _ _ F4 ES) as (A & B & C & D & _). unfold flags_ok. rewrite memflag_snoc, was_setup_snoc, has_buffers_snoc. spl; auto.
      * congruence.
      * split; [intros _; right; exact I | auto].
      * rewrite C, F1. split.
        -- intros X. apply orb_prop in X as [X|X]; [right; left; split; [exact I|]; apply negb_true_iff, Z.eqb_neq in X; exact X | left; apply F3, X].
        -- intros [X|[[_ X]|(us & ur & X)]]; [apply F3 in X; rewrite X; apply orb_true_r | apply Z.eqb_neq in X; rewrite X; reflexivity | discriminate X].
      * rewrite A. discriminate.
    + unfold put, lbind, setup_memory in E. destruct (o_setup o) eqn:ST; [|discriminate]. destruct (negb (o_memflag o =? 0)); [discriminate|]. cbn in E. unfold lret in E. injection E as <- <- <-. split; [|exact TC].
      unfold flags_ok. cbn [o_memflag o_setup o_smem]. rewrite memflag_snoc, was_setup_snoc, has_buffers_snoc. spl; auto.
      * split; [intros X; left; apply F2, X | auto].
      * split; [intros _; right; right; eauto | reflexivity].
      * discriminate.
    + unfold keep, lbind in E. destruct (compute_life esize o h) as [?| |[? h1]] eqn:EC; try discriminate. apply compute_pure in EC. unfold lret in E. injection E as <- <- <-. subst h1. split; [|exact TC].
      unfold flags_ok. rewrite memflag_snoc, was_setup_snoc, has_buffers_snoc. cbn [is_setup]. spl; auto.
      * split; [intros X; left; apply F2, X | intros [X|[]]; apply F2, X].
      * split; [intros X; left; apply F3, X | intros [X|[[[] _]|(us & ur & X)]]; [apply F3, X | discriminate X]].
    + unfold keep, lbind in E. destruct (only1d_life o h) as [?| |[? h1]] eqn:EC; try discriminate. apply only1d_pure in EC. unfold lret in E. injection E as <- <- <-. subst h1. split; [|exact TC].
      unfold flags_ok. rewrite memflag_snoc, was_setup_snoc, has_buffers_snoc. cbn [is_setup]. spl; auto.
      * split; [intros X; left; apply F2, X | intros [X|[]]; apply F2, X].
      * split; [intros X; left; apply F3, X | intros [X|[[[] _]|(us & ur & X)]]; [apply F3, X | discriminate X]].
    + unfold keep, lbind in E. destruct (onlyremaps_life esize o h) as [?| |[? h1]] eqn:EC; try discriminate. apply onlyremaps_pure in EC. unfold lret in E. injection E as <- <- <-. subst h1. split; [|exact TC].
      unfold flags_ok. rewrite memflag_snoc, was_setup_snoc, has_buffers_snoc. cbn [is_setup]. spl; auto.
      * split; [intros X; left; apply F2, X | intros [X|[]]; apply F2, X].
      * split; [intros X; left; apply F3, X | intros [X|[[[] _]|(us & ur & X)]]; [apply F3, X | discriminate X]].
    + unfold keep, lbind in E. destruct (oneremap_life esize o h) as [?| |[? h1]] eqn:EC; try discriminate. apply oneremap_pure in EC. unfold lret in E. injection E as <- <- <-. subst h1. split; [|exact TC].
      unfold flags_ok. rewrite memflag_snoc, was_setup_snoc, has_buffers_snoc. cbn [is_setup]. spl; auto.
      * split; [intros X; left; apply F2, X | intros [X|[]]; apply F2, X].
      * split; [intros X; left; apply F3, X | intros [X|[[[] _]|(us & ur & X)]]; [apply F3, X | discriminate X]].
    + assert (exists lib rest, o_setup o = false -> inv dim3 false o lib /\ split_heap h lib rest) as (lib & rest & ID).
      { destruct (o_setup o) eqn:ST; [exists [], []; discriminate|]. destruct (F5 eq_refl) as (lib & rest & X). exists lib, rest. auto. }
      destruct (tune_run f clk root flag niter tmax tflag o n h o' n' h' lib rest WF TC ID E) as (ST & TC' & MF & sh & lib' & SF & IV & AS & _). split; [|exact TC'].
      destruct AS as (S1 & _ & _ & S2 & _). unfold flags_ok. rewrite memflag_snoc, was_setup_snoc, has_buffers_snoc. cbn [is_setup]. rewrite S1, S2, F1.
      assert (~ has_buffers cs) as NB. { intros X. apply F3 in X. destruct (ID ST) as (IV0 & _). destruct (unset_pairs _ _ IV0 ST). congruence. }
      spl; auto.
      * congruence.
      * split; auto.
      * split.
        -- intros X. right; left. split; [exact I|]. apply negb_true_iff, Z.eqb_neq in X. exact X.
        -- intros [X|[[_ X]|(us & ur & X)]]; [contradiction | apply Z.eqb_neq in X; rewrite X; reflexivity | discriminate X].
      * destruct IV as (_ & _ & _ & S). destruct (S S1) as (_ & X & _). exact X.
      * discriminate.
  - split; [|exact TC]. destruct IH as (F1 & F2 & F3 & F4 & F5). unfold flags_ok. spl; auto. intros X. destruct (F5 X) as (lib & rest & IV & SP). destruct (user_step_split _ _ _ _ SP ST) as (rest' & SP'). eauto.
Qed.

Local Ltac dead := first [discriminate | congruence].
Lemma flags_b cs o h : flags_ok cs o h -> (o_setup o = true /\ was_setup cs \/ o_setup o = false /\ ~ was_setup cs) /\ (o_smem o = true /\ has_buffers cs \/ o_smem o = false /\ ~ has_buffers cs).
Proof using Type.
  intros (_ & A & B & _). split.
  - destruct (o_setup o); [left; split; [reflexivity | apply A; reflexivity] | right; split; [reflexivity|]; intros X; apply A in X; discriminate].
  - destruct (o_smem o); [left; split; [reflexivity | apply B; reflexivity] | right; split; [reflexivity|]; intros X; apply B in X; discriminate].
Qed.

Lemma qlt_false a b : qlt a b = false <-> (b <= a)%Q.
Proof using Type. destruct (qlt_spec a b) as [X|X]; split; intros Y; try discriminate; auto; [apply Qlt_not_le in X; contradiction | apply Qnot_lt_le, X]. Qed.
Lemma qlt_true a b : qlt a b = true <-> ~ (b <= a)%Q.
Proof using Type. rewrite <- qlt_false. destruct (qlt a b); split; intros X; congruence. Qed.

Lemma misuse_halts cs c o n h msg : reach' cs o n h -> misuse cs c msg -> (dim3 = false -> ~ again cs c) -> run' c o n h = LHalt msg.
Proof using esize_pos.
  intros R M A. destruct (reach_inv cs o n h R) as [F _]. pose proof F as (FM & _). destruct (flags_b _ _ _ F) as (FS & FB). clear F R.
  destruct c as [s mf|res|us ur| | | | |f clk root flag niter tmax tflag]; cbn [misuse run] in *.
  - destruct M.
  - destruct M as [W ->]. destruct FS as [[S _]|[_ X]]; [|contradiction]. unfold put, lbind, setup_fobj. rewrite S.
    destruct dim3 eqn:D; [reflexivity|]. exfalso. apply (A eq_refl). split; eauto.
  - unfold put, lbind, setup_memory. destruct M as [[W ->]|(W & MF & ->)]; destruct FS as [[S X]|[S X]]; try contradiction; rewrite S; cbn [negb]; [reflexivity|].
    rewrite FM. apply Z.eqb_neq in MF. rewrite MF. reflexivity.
  - unfold keep, compute_life, lbind. destruct M as [[W ->]|(W & MF & ->)]; destruct FS as [[S X]|[S X]]; try contradiction; rewrite S; cbn [negb]; [reflexivity|]. destruct FB as [[S2 X2]|[S2 X2]]; try contradiction. rewrite S2. reflexivity.
  - unfold keep, only1d_life, lbind. destruct M as [W ->]. destruct FS as [[S X]|[S X]]; try contradiction; rewrite S; reflexivity.
  - unfold keep, onlyremaps_life, lbind. destruct M as [[W ->]|(W & MF & ->)]; destruct FS as [[S X]|[S X]]; try contradiction; rewrite S; cbn [negb]; [reflexivity|]. destruct FB as [[S2 X2]|[S2 X2]]; try contradiction. rewrite S2. reflexivity.
  - unfold keep, oneremap_life, lbind. destruct M as [[W ->]|(W & MF & ->)]; destruct FS as [[S X]|[S X]]; try contradiction; rewrite S; cbn [negb]; [reflexivity|]. destruct FB as [[S2 X2]|[S2 X2]]; try contradiction. rewrite S2. reflexivity.
  - unfold tune. destruct M as [[W ->]|[(W & B & ->)|[(W & B & C & ->)|(W & B & C & D & E & ->)]]]; destruct FS as [[S X]|[S X]]; try contradiction; rewrite S; [reflexivity| | |].
    + replace ((flag <? -1) || (1 <? flag)) with true; [reflexivity|]. symmetry. apply orb_true_iff. rewrite !Z.ltb_lt. lia.
    + replace ((flag <? -1) || (1 <? flag)) with false; [|symmetry; apply orb_false_iff; rewrite !Z.ltb_ge; lia].
      replace ((niter <=? 0) || qlt tmax 0) with true; [reflexivity|]. symmetry. apply orb_true_iff. rewrite Z.leb_le, qlt_true. destruct (Z_le_gt_dec niter 0); [auto|right]. intros Y. apply C. split; [lia | exact Y].
    + replace ((flag <? -1) || (1 <? flag)) with false; [|symmetry; apply orb_false_iff; rewrite !Z.ltb_ge; lia].
      replace ((niter <=? 0) || qlt tmax 0) with false; [|symmetry; apply orb_false_iff; rewrite Z.leb_gt, qlt_false; auto].
      replace ((tflag <? 0) || (1 <? tflag)) with true; [reflexivity|]. symmetry. apply orb_true_iff. rewrite !Z.ltb_lt. lia.
Qed.

Definition nohalt {X} (m : LM X) : Prop := forall h e, m h <> LHalt e.
Lemma nh_bind {X Y} (m : LM X) (k : X -> LM Y) : nohalt m -> (forall x, nohalt (k x)) -> nohalt (lbind m k).
Proof using Type. intros A B h e. unfold lbind. destruct (m h) as [s| |[x h1]] eqn:E; try discriminate; [exfalso; exact (A _ _ E) | apply B]. Qed.
Lemma nh_ret {X} (x : X) : nohalt (lret x). Proof using Type. intros h e. discriminate. Qed.
Lemma nh_alloc o k b : nohalt (alloc o k b). Proof using Type. intros h e. discriminate. Qed.
Lemma nh_deref p : nohalt (deref p). Proof using Type. intros h e. unfold deref. destruct (livep p h); discriminate. Qed.
Lemma nh_free p : nohalt (free p). Proof using Type. intros h e. unfold free. destruct p; try discriminate. destruct (livep (PTo b) h); discriminate. Qed.
Lemma nh_smalloc m b : nohalt (smalloc m b).
Proof using Type. unfold smalloc. apply nh_bind; [apply nh_deref|]. intros _. destruct (b =? 0); [apply nh_ret | apply nh_alloc]. Qed.
Lemma nh_sfree m p : nohalt (sfree false m p).
Proof using Type. unfold sfree. apply nh_bind; [apply nh_ret|]. intros _. apply nh_free. Qed.
Lemma nh_mapM {X Y} (f : X -> LM Y) l : (forall x, nohalt (f x)) -> nohalt (mapM f l).
Proof using Type. intros A. induction l; cbn [mapM]; [apply nh_ret|]. apply nh_bind; [apply A|]. intros y. apply nh_bind; [exact IHl|]. intros ys. apply nh_ret. Qed.
Local Ltac nh := repeat first [apply nh_smalloc | apply nh_sfree | apply nh_bind; [|intros ?] | apply nh_ret | apply nh_deref | apply nh_alloc | apply nh_smalloc | apply nh_sfree | apply nh_free | apply nh_mapM; [intros ?] | match goal with |- nohalt (if ?b then _ else _) => destruct b end].
Lemma nh_robj k : nohalt (make_robj false esize plsize rqsize ptsize nprocs xsize k).
Proof using Type. unfold make_robj, new_robj, setup_robj. cbv zeta. nh. Qed.
Lemma nh_remap old k : nohalt (make_remap false esize plsize rqsize ptsize nprocs xsize old k).
Proof using Type.
  destruct k as [k|]; cbn [make_remap]; [|apply nh_ret]. apply nh_bind; [apply nh_alloc|]. intros b. apply nh_bind; [apply nh_robj|]. intros m. apply nh_bind; [|intros; apply nh_ret].
  destruct (k_extra k); [|apply nh_ret]. apply nh_bind; [apply nh_robj|]. intros; apply nh_ret.
Qed.
Lemma nh_lub {X} : nohalt (@lub X). Proof using Type. intros h e. discriminate. Qed.
Lemma nh_remaps old ks : nohalt (make_remaps false esize plsize rqsize ptsize nprocs xsize old ks).
Proof using Type.
  revert ks. induction old as [|a t IH]; intros [|k ks]; cbn [make_remaps]; try apply nh_lub; [apply nh_ret|]. apply nh_bind; [apply nh_remap|]. intros r. apply nh_bind; [apply IH|]. intros; apply nh_ret.
Qed.
Lemma setup_fobj_halt res o h e : setup_fobj false esize plsize rqsize ptsize nprocs xsize dim3 res o h = LHalt e ->
  (dim3 = true /\ o_setup o = true /\ e = "FFT is already setup"%string) \/ res = SErr e.
Proof using Type.
  unfold setup_fobj. destruct (dim3 && o_setup o) eqn:D.
  - intros E. injection E as <-. apply andb_prop in D as [-> ->]. auto.
  - destruct res as [m| |sh]; [intros E; injection E as <-; auto | discriminate |]. intros E. exfalso. revert E.
    match goal with |- ?m h = _ -> _ => cut (nohalt m); [intros X Y; exact (X _ _ Y)|] end.
    apply nh_bind; [apply nh_remaps|]. intros rs. apply nh_bind.
    { destruct dim3.
      - destruct (s_dims sh) as [|a [|b [|c [|? ?]]]]; try apply nh_lub. unfold setup_ffts3, kiss_alloc. nh.
      - destruct (s_dims sh) as [|a [|b [|? ?]]]; try apply nh_lub. unfold setup_ffts2, kiss_alloc. nh. }
    intros fs. destruct (s_sizes sh) as [[a b] c]. nh.
Qed.

(** an error report is one of those listed *)
Lemma halts_only cs c o n h msg : reach' cs o n h -> wf_call dim3 c -> run' c o n h = LHalt msg ->
  (misuse cs c msg /\ (dim3 = false -> ~ again cs c)) \/ layout_error c msg.
Proof using esize_pos.
  intros R WF E. destruct (reach_inv cs o n h R) as [F TC]. pose proof F as (FM & _ & _ & PS & OWN). destruct (flags_b _ _ _ F) as (FS & FB). clear F R.
  assert (forall c, (forall res, c <> CSetup res) -> dim3 = false -> ~ again cs c) as NA by (intros c0 X _ (_ & res & Y); exact (X _ Y)).
  destruct c as [s mf|res|us ur| | | | |f clk root flag niter tmax tflag]; cbn [misuse run layout_error] in *.
  - discriminate E.
  - unfold put, lbind in E. destruct (setup_fobj _ _ _ _ _ _ _ _ _ _ _) as [x| |[? ?]] eqn:G; try discriminate. injection E as <-. apply setup_fobj_halt in G as [(D & S & ->)|G]; [left|right; exact G].
    destruct FS as [[_ W]|[X _]]; [|congruence]. split; [auto | intros; congruence].
  - left. split; [|apply NA; discriminate]. unfold put, lbind, setup_memory in E. destruct FS as [[S W]|[S W]]; rewrite S in E; cbn [negb] in E; [right | left; injection E as <-; auto].
    split; [exact W|]. rewrite FM in E. destruct (Z.eqb_spec (memflag_after cs) 0); [discriminate|]. injection E as <-. auto.
  - left. split; [|apply NA; discriminate]. unfold keep, compute_life, lbind in E. destruct FS as [[S W]|[S W]]; rewrite S in E; cbn [negb] in E; [right | left; injection E as <-; auto].
    split; [exact W|]. destruct FB as [[S2 B]|[S2 B]]; rewrite S2 in E; cbn [negb] in E; [|injection E as <-; auto]. exfalso.
    destruct (seqM (map (use_remap esize (o_send o) (o_recv o)) (o_remaps o)) h) as [e| |[? h1]] eqn:G; [exact (remaps_nohalt _ _ _ _ _ _ PS G) | discriminate E |].
    destruct (seqM (map use_f1d (o_ffts o)) h1) as [e| |[? ?]] eqn:G1; [exact (f1ds_nohalt _ _ _ G1) | discriminate E | discriminate E].
  - left. split; [|apply NA; discriminate]. unfold keep, only1d_life, lbind in E. destruct FS as [[S W]|[S W]]; rewrite S in E; cbn [negb] in E; [|injection E as <-; auto]. exfalso.
    destruct (seqM (map use_f1d (o_ffts o)) h) as [e| |[? ?]] eqn:G1; [exact (f1ds_nohalt _ _ _ G1) | discriminate E | discriminate E].
  - left. split; [|apply NA; discriminate]. unfold keep, onlyremaps_life, lbind in E. destruct FS as [[S W]|[S W]]; rewrite S in E; cbn [negb] in E; [right | left; injection E as <-; auto].
    split; [exact W|]. destruct FB as [[S2 B]|[S2 B]]; rewrite S2 in E; cbn [negb] in E; [|injection E as <-; auto]. exfalso.
    destruct (seqM (map (use_remap esize (o_send o) (o_recv o)) (o_remaps o)) h) as [e| |[? h1]] eqn:G; [exact (remaps_nohalt _ _ _ _ _ _ PS G) | discriminate E | discriminate E].
  - left. split; [|apply NA; discriminate]. unfold keep, oneremap_life, lbind in E. destruct FS as [[S W]|[S W]]; rewrite S in E; cbn [negb] in E; [right | left; injection E as <-; auto].
    split; [exact W|]. destruct FB as [[S2 B]|[S2 B]]; rewrite S2 in E; cbn [negb] in E; [|injection E as <-; auto]. exfalso.
    destruct (seqM (map (use_remap esize (o_send o) (o_recv o)) (o_remaps o)) h) as [e| |[? h1]] eqn:G; [exact (remaps_nohalt _ _ _ _ _ _ PS G) | discriminate E | discriminate E].
  - destruct (tune _ _ _ _ _ _ _ _ _ _ _ _ _ _ _ o n (mktst h 0 [])) as [x| |[? ?]] eqn:T; try discriminate. injection E as <-.
    destruct FS as [[S W]|[S W]].
    { left. split; [|apply NA; discriminate]. left. unfold tune in T. rewrite S in T. injection T as <-. auto. }
    assert ((~ -1 <= flag <= 1) \/ -1 <= flag <= 1) as [A1|A1] by lia.
    { left. split; [|apply NA; discriminate]. right; left. unfold tune in T. rewrite S in T. replace ((flag <? -1) || (1 <? flag)) with true in T; [injection T as <-; auto|]. symmetry. apply orb_true_iff. rewrite !Z.ltb_lt. lia. }
    destruct ((niter <=? 0) || qlt tmax 0) eqn:C2.
    { left. split; [|apply NA; discriminate]. right; right; left. unfold tune in T. rewrite S in T. replace ((flag <? -1) || (1 <? flag)) with false in T by (symmetry; apply orb_false_iff; rewrite !Z.ltb_ge; lia). rewrite C2 in T. injection T as <-.
      split; [exact W|]. split; [exact A1|]. split; [|reflexivity]. intros [X Y]. apply orb_prop in C2 as [C2|C2]; [apply Z.leb_le in C2; lia | apply qlt_true in C2; contradiction]. }
    pose proof C2 as C2'. apply orb_false_iff in C2' as [A2 A3]. rewrite Z.leb_gt in A2. apply qlt_false in A3.
    assert ((~ 0 <= tflag <= 1) \/ 0 <= tflag <= 1) as [A4|A4] by lia.
    { left. split; [|apply NA; discriminate]. right; right; right. unfold tune in T. rewrite S in T. replace ((flag <? -1) || (1 <? flag)) with false in T by (symmetry; apply orb_false_iff; rewrite !Z.ltb_ge; lia). rewrite C2 in T.
      replace ((tflag <? 0) || (1 <? tflag)) with true in T by (symmetry; apply orb_true_iff; rewrite !Z.ltb_lt; lia). injection T as <-. split; [exact W|]. split; [exact A1|]. auto. }
    right. destruct (OWN S) as (lib & rest & IV & Hs & _ & _).
    assert (twp (tune false esize plsize rqsize ptsize nprocs xsize dim3 f clk root flag niter tmax tflag o n) (mktst h 0 []) (fun e => exists s, f s = SErr e) True (fun _ _ => True)) as TW.
    { eapply twp_mono; [apply (tune_ok esize plsize rqsize ptsize nprocs xsize esize_pos dim3 f clk WF (fun _ => True) (fun e => exists s, f s = SErr e) True) with (lib := lib) (rest := rest); eauto|]. auto. }
    unfold twp in TW. rewrite T in TW. exact TW.
Qed.

(** ** histories that keep to the documentation own exactly their memory *)
Definition owns (cs : list call) (o : fobj) (h : heap) : Prop :=
  exists ob lib rest, inv dim3 ob o lib /\ split_heap h lib rest /\
   (o_setup o = true -> ob = negb (o_memflag o =? 0)) /\
   (o_setup o = true -> o_memflag o <> 0 -> buf esize lib (snd (fst (o_sizes o))) (o_send o) /\ buf esize lib (snd (o_sizes o)) (o_recv o)) /\
   (o_setup o = true -> o_memflag o = 0 -> (o_send o, o_recv o) = match user_buffers cs with Some p => p | None => (PNull, PNull) end) /\
   (o_setup o = true -> Forall fits_call cs -> fits o) /\
   (user_buffers cs <> None -> was_setup cs).

Lemma Forall_snoc {X} (P : X -> Prop) l x : Forall P (l ++ [x]) -> Forall P l /\ P x.
Proof using Type. rewrite Forall_app. intros [A B]. inversion B; auto. Qed.

Lemma once_reach cs o n h : dim3 = true -> reach' cs o n h -> once cs.
Proof using esize_pos.
  intros D R. induction R as [prec n h0 o h W US TC E | cs c o n h o' n' h' R IH WF E | cs o n h h' R IH ST]; auto.
  - intros a c b X. destruct a; discriminate.
  - apply once_snoc. split; [exact IH|]. intros I W. destruct (reach_inv cs o n h R) as [F _]. destruct (flags_b _ _ _ F) as ([[S _]|[_ X]] & _); [|contradiction].
    destruct c; try contradiction I; cbn [run] in E.
    + unfold put, lbind, setup_fobj in E. rewrite S, D in E. discriminate E.
    + unfold tune in E. rewrite S in E. discriminate E.
Qed.

Lemma owns_same cs c o h : (match c with CSet _ _ | CSetup _ | CSetupMemory _ _ | CTune _ _ _ _ _ _ _ => False | _ => True end) -> owns cs o h -> owns (cs ++ [c]) o h.
Proof using Type.
  intros C (ob & lib & rest & A & B & D & E & F & G & K). exists ob, lib, rest. rewrite user_buffers_snoc. spl; auto.
  - destruct c; try contradiction C; exact F.
  - intros X Y. apply Forall_snoc in Y as [Y _]. auto.
  - intros X. apply was_setup_snoc. left. apply K. destruct c; try contradiction C; exact X.
Qed.

Lemma reach_owns cs o n h : reach' cs o n h -> steady cs -> once cs -> owns cs o h.
Proof using esize_pos.
  intros R. induction R as [prec n h0 o h W US TC E | cs c o n h o' n' h' R IH WF E | cs o n h h' R IH ST]; intros SD ON.
  - destruct (reach_inv _ _ _ _ (reach_new false esize plsize rqsize ptsize nprocs xsize dim3 prec n h0 o h W US TC E)) as [F _].
    destruct (flags_b _ _ _ F) as ([[_ X]|[S _]] & _); [inversion X|]. destruct F as (_ & _ & _ & _ & OWN). destruct (OWN S) as (lib & rest & IV & SP).
    exists false, lib, rest. rewrite S. spl; auto; try discriminate. intros X. exfalso. apply X. reflexivity.
  - apply steady_snoc in SD as [SD SC]. apply once_snoc in ON as [ON OC]. specialize (IH SD ON). destruct (reach_inv cs o n h R) as [F TC].
    pose proof (reach_call false esize plsize rqsize ptsize nprocs xsize dim3 cs c o n h o' n' h' R WF E) as R'. destruct (reach_inv _ _ _ _ R') as [F' _].
    pose proof F as (FM & FS & FB & PS & OWN). destruct (flags_b _ _ _ F) as (BS & BB).
    destruct c as [s mf|res|us ur| | | | |f clk root flag niter tmax tflag]; cbn [run] in E.
    + unfold lret in E. injection E as <- <- <-. destruct IH as (ob & lib & rest & A & B & D & EE & FF & G & K). exists ob, lib, rest. rewrite user_buffers_snoc. cbn [with_settings o_setup o_memflag o_sizes o_send o_recv] in *.
      assert (o_setup o = true -> (mf = 0 <-> o_memflag o = 0)) as Q by (intros X; rewrite FM; apply SC, FS, X).
      spl; auto.
      * intros X. rewrite (D X). destruct (Q X). destruct (Z.eqb_spec mf 0), (Z.eqb_spec (o_memflag o) 0); tauto.
      * intros X Y. apply EE; auto. intros Z0. apply Y, Q; auto.
      * intros X Y. apply FF; auto. apply Q; auto.
      * intros X Y. apply Forall_snoc in Y as [Y _]. apply G; auto.
      * intros X. apply was_setup_snoc. left. auto.
    + destruct BS as [[_ W]|[S W]]; [exfalso; exact (OC I W)|]. unfold put, lbind in E. destruct (setup_fobj _ _ _ _ _ _ _ _ _ _ _) as [?| |[o1 h1]] eqn:ES; try discriminate. unfold lret in E. injection E as <- <- <-.
      destruct (setup_fobj_flags _ _ _ _ _ PS ES) as (_ & _ & _ & _ & sh & ->). cbn [wf_call] in WF. destruct (OWN S) as (lib & rest & IV & Hs & LL & LR).
      destruct (setup_fobj_ok esize plsize rqsize ptsize nprocs xsize esize_pos dim3 o lib rest h sh IV S Hs WF) as (o2 & h2 & nb & E2 & H2 & IV2 & AS & BU & BN & _). rewrite E2 in ES. injection ES as -> ->.
      pose proof AS as (A1 & A2 & A3 & A4 & A5 & A6 & A7).
      assert (user_buffers cs = None) as UN. { destruct IH as (ob & l & r & _ & _ & _ & _ & _ & _ & K). destruct (user_buffers cs); [exfalso; apply W, K; discriminate | reflexivity]. }
      exists (negb (o_memflag o =? 0)), (nb ++ lib), rest. rewrite user_buffers_snoc, UN, A5, A3. spl; auto.
      * split; [exact H2|]. split; [eapply inv_lib; eauto | exact LR].
      * intros _ M. destruct (BU M) as [X Y]. split; (eapply buf_incl; [|eassumption]; intros z J; apply in_or_app; auto).
      * intros _ M. destruct (BN M) as [-> ->]. reflexivity.
      * intros _ Y. apply Forall_snoc in Y as [_ Y]. cbn [fits_call] in Y. apply (fits_after _ _ _ _ AS Y).
      * intros X. contradiction.
    + unfold put, lbind, setup_memory in E. destruct BS as [[S W]|[S W]]; rewrite S in E; [|discriminate]. cbn [negb] in E. destruct (Z.eqb_spec (o_memflag o) 0) as [M0|M0]; [|discriminate]. cbn in E. unfold lret in E. injection E as <- <- <-.
      destruct IH as (ob & lib & rest & A & B & D & EE & FF & G & K). exists ob, lib, rest. rewrite user_buffers_snoc. cbn [o_setup o_memflag o_sizes o_send o_recv] in *.
      assert (ob = false) as -> by (rewrite (D S), M0; reflexivity).
      spl; auto.
      * destruct A as (T & O & _ & IS). unfold inv. cbn [o_mem o_setup]. unfold all_ptrs, setup_ptrs, base_ptrs in *. cbn [o_setup o_mem o_err o_primes o_factors o_remaps o_ffts o_send o_recv] in *. rewrite S in O. split; [exact T|]. split; [rewrite ?S; exact O|]. split; [intros X; congruence|]. intros _. exact (IS S).
      * intros _ X. contradiction.
      * intros _ Y. apply Forall_snoc in Y as [Y _]. apply G; auto.
      * intros _. apply was_setup_snoc. left. exact W.
    + unfold keep, lbind in E. destruct (compute_life esize o h) as [?| |[? h1]] eqn:EC; try discriminate. apply compute_pure in EC. unfold lret in E. injection E as <- <- <-. subst h1. apply owns_same; [exact I | exact IH].
    + unfold keep, lbind in E. destruct (only1d_life o h) as [?| |[? h1]] eqn:EC; try discriminate. apply only1d_pure in EC. unfold lret in E. injection E as <- <- <-. subst h1. apply owns_same; [exact I | exact IH].
    + unfold keep, lbind in E. destruct (onlyremaps_life esize o h) as [?| |[? h1]] eqn:EC; try discriminate. apply onlyremaps_pure in EC. unfold lret in E. injection E as <- <- <-. subst h1. apply owns_same; [exact I | exact IH].
    + unfold keep, lbind in E. destruct (oneremap_life esize o h) as [?| |[? h1]] eqn:EC; try discriminate. apply oneremap_pure in EC. unfold lret in E. injection E as <- <- <-. subst h1. apply owns_same; [exact I | exact IH].
    + destruct BS as [[_ W]|[S W]]; [exfalso; exact (OC I W)|]. destruct (OWN S) as (lib & rest & IV & SP).
      destruct (tune_run f clk root flag niter tmax tflag o n h o' n' h' lib rest WF TC (fun _ => conj IV SP) E) as (_ & _ & MF & sh & lib' & SF & IV' & AS & _ & Hs & BU & BN).
      pose proof AS as (A1 & A2 & A3 & A4 & A5 & A6 & A7).
      assert (user_buffers cs = None) as UN. { destruct IH as (ob & l & r & _ & _ & _ & _ & _ & _ & K). destruct (user_buffers cs); [exfalso; apply W, K; discriminate | reflexivity]. }
      exists (negb (o_memflag o =? 0)), lib', rest. rewrite user_buffers_snoc, UN, A5, A3. spl; auto.
      * split; [exact Hs|]. split; [eapply inv_lib; eauto | apply SP].
      * intros _ M. destruct (BN M) as [-> ->]. reflexivity.
      * intros _ Y. apply Forall_snoc in Y as [_ Y]. cbn [fits_call] in Y. apply (fits_after _ _ _ _ AS (Y _ _ SF)).
      * intros X. contradiction.
  - destruct (IH SD ON) as (ob & lib & rest & A & B & D). destruct (user_step_split _ _ _ _ B ST) as (rest' & B'). exists ob, lib, rest'. auto.
Qed.

(** legal calls never go wrong *)
Lemma legal_calls cs c o n h : reach' cs o n h -> steady cs -> once cs -> Forall fits_call cs -> room esize cs o h -> wf_call dim3 c ->
  (match c with CTune _ _ _ _ _ _ _ => False | CSetup SUB => False | CSetup _ => ~ was_setup cs | _ => True end) ->
  (forall msg, ~ misuse cs c msg) -> (forall msg, ~ layout_error c msg) ->
  exists o' h', run' c o n h = LOk ((o', n), h') /\ (match c with CSet _ _ | CSetup _ => True | CSetupMemory _ _ => h' = h | _ => o' = o /\ h' = h end).
Proof using esize_pos.
  intros R SD ON FT RM WF NT MI LE. destruct (reach_inv cs o n h R) as [F TC]. pose proof F as (FM & _ & _ & PS & OWN). destruct (flags_b _ _ _ F) as (FS & FB).
  destruct (reach_owns cs o n h R SD ON) as (ob & lib & rest & IV & (Hs & _) & OB & BL & BU & FI & _).
  assert (o_setup o = true -> o_smem o = true -> buf esize (lib ++ rest) (snd (fst (o_sizes o))) (o_send o) /\ buf esize (lib ++ rest) (snd (o_sizes o)) (o_recv o)) as BUF.
  { intros S SM. destruct (Z.eq_dec (o_memflag o) 0) as [M|M].
    - specialize (BU S M). destruct FB as [[_ B]|[X _]]; [|congruence].
      assert (exists us ur, user_buffers cs = Some (us, ur)) as (us & ur & UB).
      { destruct (user_buffers cs) as [[us ur]|] eqn:E; [eauto|]. exfalso. destruct B as (a & x & b & EC & [(I1 & M1)|(us & ur & EX)]).
        - (* setup with memoryflag set, then switched *)
          assert (forall b a x, steady (a ++ x :: b) -> is_setup x -> memflag_after a <> 0 -> memflag_after (a ++ x :: b) <> 0) as KEEP.
          { clear. intros b. induction b as [|y b IHb] using rev_ind; intros a x SD I M.
            - rewrite memflag_snoc. destruct x; try contradiction I; exact M.
            - replace (a ++ x :: b ++ [y]) with ((a ++ x :: b) ++ [y]) in * by (rewrite <- app_assoc; reflexivity). apply steady_snoc in SD as [SD SY]. specialize (IHb a x SD I M).
              rewrite memflag_snoc. destruct y; auto. intros Z0. apply IHb, SY; auto. unfold was_setup. apply Exists_app. right. constructor. exact I. }
          apply (KEEP b a x); try rewrite <- EC; auto. congruence.
        - assert (forall b a us ur, user_buffers (a ++ CSetupMemory us ur :: b) <> None) as KEEP.
          { clear. intros b. induction b as [|y b IHb] using rev_ind; intros a us ur; [rewrite user_buffers_snoc; discriminate|].
            replace (a ++ CSetupMemory us ur :: b ++ [y]) with ((a ++ CSetupMemory us ur :: b) ++ [y]) by (rewrite <- app_assoc; reflexivity). rewrite user_buffers_snoc. destruct y; try apply IHb. discriminate. }
          subst. exact (KEEP _ _ _ _ E). }
      rewrite UB in BU. injection BU as -> ->. rewrite FM in M. destruct (RM M us ur UB) as [X Y]. destruct Hs as (_ & P).
      assert (incl (h_live h) (lib ++ rest)) as IN by (intros z; apply Permutation_in; exact P). split; eapply buf_incl; eauto.
    - destruct (BL S M) as [X Y]. split; (eapply buf_incl; [|eassumption]; intros z J; apply in_or_app; auto). }
  assert (o_setup o = true -> o_smem o = true -> seqM (map (use_remap esize (o_send o) (o_recv o)) (o_remaps o)) h = LOk (tt, h)) as RO.
  { intros S SM. destruct (BUF S SM). eapply use_remaps_ok; eauto. }
  assert (o_setup o = true -> seqM (map use_f1d (o_ffts o)) h = LOk (tt, h)) as FO by (intros S; eapply use_f1ds_ok; eauto).
  destruct c as [s mf|res|us ur| | | | |f clk root flag niter tmax tflag]; cbn [misuse run layout_error] in *.
  - eexists _, _. split; [reflexivity | exact I].
  - destruct FS as [[S W]|[S W]]; [exfalso; exact (MI _ (conj W eq_refl))|]. destruct res as [m| |sh]; [exfalso; exact (LE _ eq_refl) | contradiction NT|]. destruct (OWN S) as (l & r & IV0 & H0 & _).
    destruct (setup_fobj_ok esize plsize rqsize ptsize nprocs xsize esize_pos dim3 o l r h sh IV0 S H0 WF) as (o2 & h2 & nb & E2 & _). exists o2, h2. unfold put, lbind. rewrite E2. split; [reflexivity | exact I].
  - destruct FS as [[S W]|[S W]]; [|exfalso; apply (MI _ (or_introl (conj W eq_refl)))]. unfold put, lbind, setup_memory. rewrite S. cbn [negb]. rewrite FM.
    destruct (Z.eqb_spec (memflag_after cs) 0) as [M|M]; [|exfalso; apply (MI _ (or_intror (conj W (conj M eq_refl))))]. cbn [negb]. eexists _, _. split; reflexivity.
  - destruct FS as [[S W]|[S W]]; [|exfalso; apply (MI _ (or_introl (conj W eq_refl)))]. destruct FB as [[S2 B]|[S2 B]]; [|exfalso; apply (MI _ (or_intror (conj W (conj B eq_refl))))].
    exists o, h. split; [|auto]. unfold keep, compute_life, lbind. rewrite S, S2. cbn [negb]. rewrite (RO S S2), (FO S). reflexivity.
  - destruct FS as [[S W]|[S W]]; [|exfalso; apply (MI _ (conj W eq_refl))].
    exists o, h. split; [|auto]. unfold keep, only1d_life, lbind. rewrite S. cbn [negb]. rewrite (FO S). reflexivity.
  - destruct FS as [[S W]|[S W]]; [|exfalso; apply (MI _ (or_introl (conj W eq_refl)))]. destruct FB as [[S2 B]|[S2 B]]; [|exfalso; apply (MI _ (or_intror (conj W (conj B eq_refl))))].
    exists o, h. split; [|auto]. unfold keep, onlyremaps_life, lbind. rewrite S, S2. cbn [negb]. rewrite (RO S S2). reflexivity.
  - destruct FS as [[S W]|[S W]]; [|exfalso; apply (MI _ (or_introl (conj W eq_refl)))]. destruct FB as [[S2 B]|[S2 B]]; [|exfalso; apply (MI _ (or_intror (conj W (conj B eq_refl))))].
    exists o, h. split; [|auto]. unfold keep, oneremap_life, lbind. rewrite S, S2. cbn [negb]. rewrite (RO S S2). reflexivity.
  - contradiction NT.
Qed.

(** destruction *)
Lemma del_ok cs o n h : reach' cs o n h -> steady cs -> once cs -> (dim3 = false -> was_setup cs) ->
  exists h', del false dim3 o h = LOk (tt, h') /\ wf h' /\ Permutation (h_live h') (filter (fun b => negb (is_lib b)) (h_live h)).
Proof using esize_pos.
  intros R SD ON W. destruct (reach_inv cs o n h R) as [F TC]. pose proof F as (FM & FS & _ & PS & OWN).
  destruct (reach_owns cs o n h R SD ON) as (ob & lib & rest & IV & (Hs & LL & LR) & OB & _).
  assert (exists h', del false dim3 o h = LOk (tt, h') /\ has h' rest) as (h' & E & H').
  { unfold del. destruct dim3 eqn:D.
    - destruct (o_setup o) eqn:S.
      + rewrite (OB eq_refl) in IV. eapply del_fobj3_ok; eauto.
      + eapply del_fobj3_ok; [right; split; [|exact S] | exact Hs]. destruct IV as (A & B & C & G). destruct (C S) as [-> _]. unfold inv. spl; auto.
    - assert (o_setup o = true) as S by (apply FS, W; reflexivity). rewrite (OB S) in IV. eapply del_fobj2_ok; eauto. }
  exists h'. split; [exact E|]. destruct H' as (W' & P'). split; [exact W'|]. rewrite P'. destruct Hs as (_ & P). rewrite (Permutation_filter_blk _ _ _ P), filter_app.
  rewrite (filter_none _ lib), (filter_all _ rest); [reflexivity | |].
  - eapply Forall_impl; [|exact LR]. intros b X. unfold is_lib. rewrite X. reflexivity.
  - eapply Forall_impl; [|exact LL]. intros b X. unfold is_lib. rewrite X. reflexivity.
Qed.
End ProtoProofs.
