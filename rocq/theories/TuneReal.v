(** TuneReal.v : tune() on the layouts that setup() really computes. *)

From Coq Require Import QArith.
From Verif Require Import Base Spec Count Sched Remap RemapInst RemapThms Layout LayoutProofs LayoutFinal Setup3d Setup3dProofs Setup2d Setup2dProofs.
From Verif Require Import Life LifeProofs LifeFft LifeObj Tune TuneProofs TuneTop Proto TuneFinal MemUse.
Open Scope Z_scope.

(** every setting can be set up with the buffer sizes covering every remap: in 3d if input and output layouts agree *)
Lemma can_setup3 ar n N ins outs r cur : area_laws ar -> (r < n)%nat -> ints3 N -> dims_ok3 N ->
  (forall q, (q < n)%nat -> inside3 N (ins q)) -> Count.zsum n (fun q => vol3 (ins q)) = (let '(x, y, z) := N in x * y * z) ->
  (forall q, (q < n)%nat -> ins q = outs q) ->
  can_setup (setup_shape3 ar n N 0 ins outs r) cur.
Proof.
  intros L Hr HI HD Hin Hs He s _. assert (Hn : (1 <= n)%nat) by lia.
  destruct (setup3d_cases ar n s N 0 ins outs L Hn HI) as [(msg & _ & H)|(_ & _ & _ & [(H & _)|(_ & f & gf & gm & gs & gb & E & _)])].
  - exfalso. apply H. auto.
  - exfalso. apply H. left. reflexivity.
  - unfold setup_shape3. rewrite E. cbn [smap]. eexists. split; [reflexivity|].
    pose proof (setup3d_facts ar n s N 0 ins outs f L Hn HI E) as F.
    apply (shape3_fits n s N 0 ins outs f F); [|exact Hr|].
    + intros q Hq. rewrite <- He by exact Hq. pose proof (Hin q Hq) as H. unfold inside3 in H. destruct N as [[x y] z]. apply H.
    + left. apply (F_same _ _ _ _ _ _ _ F). auto.
Qed.
(** in 3d without the exchange option, whatever the layouts *)
Lemma can_setup3_plain ar n N permute ins outs r st : area_laws ar -> (r < n)%nat -> ints3 N -> dims_ok3 N -> perm_ok3 permute ->
  (forall q, (q < n)%nat -> inside3 N (ins q)) -> Count.zsum n (fun q => vol3 (ins q)) = (let '(x, y, z) := N in x * y * z) ->
  (forall q, (q < n)%nat -> legal3 (outs q)) -> st_exch st = 0 ->
  exists sh, setup_shape3 ar n N permute ins outs r st = SOk sh /\ shape_len true sh = true /\ shape_fits sh = true.
Proof.
  intros L Hr HI HD HP Hin Hs He Hx. assert (Hn : (1 <= n)%nat) by lia.
  destruct (setup3d_cases ar n st N permute ins outs L Hn HI) as [(msg & _ & H)|(_ & _ & _ & [(H & _)|(_ & f & gf & gm & gs & gb & E & _)])].
  - exfalso. apply H. auto.
  - contradiction.
  - unfold setup_shape3. rewrite E. cbn [smap]. eexists. split; [reflexivity|]. split; [apply shape3_len|].
    pose proof (setup3d_facts ar n st N permute ins outs f L Hn HI E) as F.
    apply (shape3_fits n st N permute ins outs f F); [exact He|exact Hr|]. right. rewrite (F_exch _ _ _ _ _ _ _ F), Hx. reflexivity.
Qed.
Lemma can_setup2_one ar n N permute ins outs r st : area_laws ar -> (r < n)%nat -> ints2 N -> dims_ok2 N -> perm_ok2 permute ->
  (forall q, (q < n)%nat -> inside2 N (ins q)) -> Count.zsum n (fun q => vol2 (ins q)) = (let '(x, y) := N in x * y) ->
  (forall q, (q < n)%nat -> legal2 (outs q)) ->
  exists sh, setup_shape2 ar n N permute ins outs r st = SOk sh /\ shape_len false sh = true /\ shape_fits sh = true.
Proof.
  intros L Hr HI HD HP Hin Hs He. assert (Hn : (1 <= n)%nat) by lia.
  destruct (setup2d_cases ar n st N permute ins outs L Hn HI) as [(msg & _ & H)|(_ & _ & _ & [(H & _)|(_ & f & gb & E & _)])].
  - exfalso. apply H. auto.
  - contradiction.
  - unfold setup_shape2. rewrite E. cbn [smap]. eexists. split; [reflexivity|]. split; [apply shape2_len|].
    pose proof (setup2d_facts ar n st N permute ins outs f L Hn HI E) as F.
    apply (shape2_fits n st N permute ins outs f F); [exact He|exact Hr].
Qed.
Lemma can_setup2 ar n N permute ins outs r cur : area_laws ar -> (r < n)%nat -> ints2 N -> dims_ok2 N -> perm_ok2 permute ->
  (forall q, (q < n)%nat -> inside2 N (ins q)) -> Count.zsum n (fun q => vol2 (ins q)) = (let '(x, y) := N in x * y) ->
  (forall q, (q < n)%nat -> legal2 (outs q)) ->
  can_setup (setup_shape2 ar n N permute ins outs r) cur.
Proof.
  intros L Hr HI HD HP Hin Hs He s _. destruct (can_setup2_one ar n N permute ins outs r s L Hr HI HD HP Hin Hs He) as (sh & E & _ & F). eauto.
Qed.
Lemma shape3_wf ar n N permute ins outs r : forall s sh, setup_shape3 ar n N permute ins outs r s = SOk sh -> shape_len true sh = true.
Proof. intros s sh. unfold setup_shape3. destruct (setup3d _ _ _ _ _ _ _); cbn; [discriminate|discriminate|]. intros [= <-]. apply shape3_len. Qed.
Lemma shape2_wf ar n N permute ins outs r : forall s sh, setup_shape2 ar n N permute ins outs r s = SOk sh -> shape_len false sh = true.
Proof. intros s sh. unfold setup_shape2. destruct (setup2d _ _ _ _ _ _ _); cbn; [discriminate|discriminate|]. intros [= <-]. apply shape2_len. Qed.

(** ** memusage when every remap is collective *)
Definition all_coll (sh : shape) : Prop := forall c, In c (all_cnts sh) -> fst c = 1.
Lemma coll_objs3 n st N permute ins outs f m : facts3 n st N permute ins outs f -> st_coll st = 1 -> In m (all_objs f) -> rm_coll m = true.
Proof.
  intros F C. unfold all_objs, fwd_objs, bwd_objs. rewrite !in_app_iff.
  rewrite (F_prefast _ _ _ _ _ _ _ F), (F_fastmid _ _ _ _ _ _ _ F), (F_midslow _ _ _ _ _ _ _ F), (F_postslow _ _ _ _ _ _ _ F),
          (F_preslow _ _ _ _ _ _ _ F), (F_slowmid _ _ _ _ _ _ _ F), (F_midfast _ _ _ _ _ _ _ F), (F_postfast _ _ _ _ _ _ _ F).
  assert (coll_pp st = true) as P by (unfold coll_pp; rewrite C; reflexivity). assert (coll_bp st = true) as B by (unfold coll_bp; rewrite C; reflexivity).
  assert (forall rot perm a b c, In m (objs (pencil_pair st rot perm a b c)) -> rm_coll m = true) as HP.
  { intros. unfold pencil_pair, objs in H. destruct (st_exch st =? 0); cbn [fst snd In] in H; [destruct H as [<- | []]; exact P|]. destruct H as [<- | [<- | []]]; exact B. }
  assert (forall rot perm a b, In m (objs (plain_pair st rot perm a b)) -> rm_coll m = true) as HQ.
  { intros. unfold plain_pair, objs in H. cbn [fst snd In] in H. destruct H as [<- | []]. exact B. }
  destruct (f_pre f), (f_post f), (f_same f); cbn [oobjs In]; intuition eauto.
Qed.
Lemma coll_objs2 n st N permute ins outs f m : facts2 n st N permute ins outs f -> st_coll st = 1 -> In m (all_objs2 f) -> rm2_coll m = true.
Proof.
  intros F C. unfold all_objs2, fwd_objs2, bwd_objs2. rewrite !in_app_iff.
  rewrite (T_prefast _ _ _ _ _ _ _ F), (T_fastslow _ _ _ _ _ _ _ F), (T_postslow _ _ _ _ _ _ _ F),
          (T_preslow _ _ _ _ _ _ _ F), (T_slowfast _ _ _ _ _ _ _ F), (T_postfast _ _ _ _ _ _ _ F).
  assert (coll_pp st = true) as P by (unfold coll_pp; rewrite C; reflexivity). assert (coll_bp st = true) as B by (unfold coll_bp; rewrite C; reflexivity).
  assert (forall rot perm a b c, In m (objs2 (pencil_pair2 st rot perm a b c)) -> rm2_coll m = true) as HP.
  { intros. unfold pencil_pair2, objs2 in H. destruct (st_exch st =? 0); cbn [fst snd In] in H; [destruct H as [<- | []]; exact P|]. destruct H as [<- | [<- | []]]; exact B. }
  assert (forall rot perm a b, In m (objs2 (plain_pair2 st rot perm a b)) -> rm2_coll m = true) as HQ.
  { intros. unfold plain_pair2, objs2 in H. cbn [fst snd In] in H. destruct H as [<- | []]. exact B. }
  destruct (t_pre f), (t_post f), (t_same f); cbn [oobjs2 In]; intuition eauto.
Qed.
Lemma all_coll3 n st N permute ins outs f r : facts3 n st N permute ins outs f -> st_coll st = 1 -> all_coll (shape3 f r).
Proof. intros F C c. rewrite shape3_cnts. intros H. apply in_map_iff in H as (m & <- & H). unfold cnt3. cbn [fst]. rewrite (coll_objs3 _ _ _ _ _ _ _ _ F C H). reflexivity. Qed.
Lemma all_coll2 n st N permute ins outs f r : facts2 n st N permute ins outs f -> st_coll st = 1 -> all_coll (shape2 f r).
Proof. intros F C c. rewrite shape2_cnts. intros H. apply in_map_iff in H as (m & <- & H). unfold cnt2. cbn [fst]. rewrite (coll_objs2 _ _ _ _ _ _ _ _ F C H). reflexivity. Qed.

Section Exact.
Variable esize plsize rqsize nprocs xsize : Z.
Hypothesis esize_pos : 0 < esize.

Lemma exact_usage dim3 cs o n h sh o' n' h' : reach false esize plsize rqsize rqsize nprocs xsize dim3 cs o n h -> ~ was_setup cs -> shape_len dim3 sh = true -> all_coll sh ->
  run false esize plsize rqsize rqsize nprocs xsize dim3 (CSetup (SOk sh)) o n h = LOk ((o', n'), h') ->
  lib_bytes h' = o_usage o'.
Proof using esize_pos.
  intros R NS SL AC E. destruct (setup_usage esize plsize rqsize rqsize nprocs xsize esize_pos dim3 cs o n h sh o' n' h' R NS SL E) as (A & _).
  rewrite A. enough (LifeFft.zsum (left_out plsize rqsize rqsize) (all_cnts sh) = 0) by lia.
  revert AC. unfold all_coll. generalize (all_cnts sh). intros l. induction l as [|c t IH]; intros AC; [reflexivity|].
  rewrite LifeFft.zsum_cons, IH by (intros; apply AC; right; assumption). unfold left_out. rewrite (AC c) by (left; reflexivity). cbn [Z.eqb andb]. lia.
Qed.
Lemma exact_usage3 ar nr st N permute ins outs r f cs o n h o' n' h' : area_laws ar -> (1 <= nr)%nat -> ints3 N ->
  setup3d ar nr st N permute ins outs = SOk f -> st_coll st = 1 ->
  reach false esize plsize rqsize rqsize nprocs xsize true cs o n h -> ~ was_setup cs ->
  run false esize plsize rqsize rqsize nprocs xsize true (CSetup (setup_shape3 ar nr N permute ins outs r st)) o n h = LOk ((o', n'), h') ->
  lib_bytes h' = o_usage o'.
Proof using esize_pos.
  intros L Hn HI HS C R NS E. unfold setup_shape3 in E. rewrite HS in E. cbn [smap] in E.
  apply (exact_usage true cs o n h _ o' n' h' R NS (shape3_len f r)); [|exact E]. eapply all_coll3; [|exact C]. eapply setup3d_facts; eauto.
Qed.
Lemma exact_usage2 ar nr st N permute ins outs r f cs o n h o' n' h' : area_laws ar -> (1 <= nr)%nat -> ints2 N ->
  setup2d ar nr st N permute ins outs = SOk f -> st_coll st = 1 ->
  reach false esize plsize rqsize rqsize nprocs xsize false cs o n h -> ~ was_setup cs ->
  run false esize plsize rqsize rqsize nprocs xsize false (CSetup (setup_shape2 ar nr N permute ins outs r st)) o n h = LOk ((o', n'), h') ->
  lib_bytes h' = o_usage o'.
Proof using esize_pos.
  intros L Hn HI HS C R NS E. unfold setup_shape2 in E. rewrite HS in E. cbn [smap] in E.
  apply (exact_usage false cs o n h _ o' n' h' R NS (shape2_len f r)); [|exact E]. eapply all_coll2; [|exact C]. eapply setup2d_facts; eauto.
Qed.
End Exact.
