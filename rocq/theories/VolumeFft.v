(** VolumeFft.v : communication volume of FFT3d::compute and FFT2d::compute, and how
    evenly the internal layouts divide the grid. *)

From Verif Require Import Base Spec Pack3d Sched Phases Exec Remap RemapInst RemapThms RemapTop Count Kiss Layout LayoutProofs Setup3d Setup3dProofs Setup2d Setup2dProofs
  Fft1d Fft3d Fft2d Fft3dMain Fft3dTop Fft2dMain Fft2dTop Volume.

(** ** specification *)

(** the layouts the data passes through, in the order of the calls *)
Definition route3 (f : fft3) (flag : Z) : list (nat -> box3) :=
  let brick := if f_exch f then [f_brick f] else [] in
  let there := [f_in f; f_fast f] ++ brick ++ [f_mid f] ++ brick ++ [f_slow f; f_out f] in
  if (flag =? FORWARD) || f_same f then there else rev there.
Definition route2 (f : fft2) (flag : Z) : list (nat -> box2) :=
  let brick := if t_exch f then [t_brick f] else [] in
  let there := [t_in f; t_fast f] ++ brick ++ [t_slow f; t_out f] in
  if (flag =? FORWARD) || t_same f then there else rev there.

Fixpoint steps {T} (l : list T) : list (T * T) :=
  match l with a :: (b :: _) as t => (a, b) :: steps t | _ => [] end.
Definition zadd (l : list Z) : Z := fold_right Z.add 0 l.

(** [c] sends [nq] scalars for every point that changes its owner in a step of [route], and nothing else *)
Definition sends_moved3 {A} (n : nat) (nq : Z) (route : list (nat -> box3)) (c : nat -> list (@instr A)) : Prop :=
  exists ks, Forall2 (fun ab k => number (moves3 n (fst ab) (snd ab)) k) (steps route) ks /\ traffic n c = nq * zadd ks.
Definition sends_moved2 {A} (n : nat) (nq : Z) (route : list (nat -> box2)) (c : nat -> list (@instr A)) : Prop :=
  exists ks, Forall2 (fun ab k => number (moves2 n (fst ab) (snd ab)) k) (steps route) ks /\ traffic n c = nq * zadd ks.

(** [x] of [d] indices are a fair share for one of [np] ranks: [d/np] rounded down or up *)
Definition fair (d np x : Z) : Prop := d / np <= x <= (d + np - 1) / np.

(** ** proofs *)
Lemma part_fair ip d np : 1 <= np -> fair d np (part_hi ip d np - part_lo ip d np + 1).
Proof.
  intros Hp. unfold fair, part_hi, part_lo. replace ((ip + 1) * d / np - 1 - ip * d / np + 1) with ((ip + 1) * d / np - ip * d / np) by lia.
  pose proof (Z.div_mod (ip * d) np ltac:(lia)) as E. pose proof (Z.mod_pos_bound (ip * d) np ltac:(lia)) as B.
  assert (E2 : (ip + 1) * d / np = ip * d / np + (ip * d mod np + d) / np).
  { replace ((ip + 1) * d) with (ip * d mod np + d + ip * d / np * np) by lia. rewrite Z.div_add by lia. lia. }
  rewrite E2. split.
  - assert (d / np <= (ip * d mod np + d) / np) by (apply Z.div_le_mono; lia). lia.
  - assert ((ip * d mod np + d) / np <= (d + np - 1) / np) by (apply Z.div_le_mono; lia). lia.
Qed.

Lemma cut_rot3 rot a b : perm_ok3 rot -> vol3 (cut3 (rotb3 rot a) (rotb3 rot b)) = vol3 (cut3 a b).
Proof. intros [-> | [-> | ->]]; unfold rotb3, cut3, vol3, ni, nj, nk; cbn [Z.eqb Pos.eqb ilo ihi jlo jhi klo khi]; ring. Qed.
Lemma moved_rot3 n rot a b : perm_ok3 rot -> moved3 n (fun r => rotb3 rot (a r)) (fun r => rotb3 rot (b r)) = moved3 n a b.
Proof.
  intros H. unfold moved3. apply zsum_ext'. intros r _. apply zsum_ext'. intros q _. destruct (Nat.eqb r q); [reflexivity|]. apply cut_rot3, H.
Qed.
Lemma cut_rot2 rot a b : perm_ok2 rot -> vol2 (cut2 (rotb2 rot a) (rotb2 rot b)) = vol2 (cut2 a b).
Proof. intros [-> | ->]; unfold rotb2, cut2, vol2, ni2, nj2; cbn [Z.eqb Pos.eqb ilo2 ihi2 jlo2 jhi2]; ring. Qed.
Lemma moved_rot2 n rot a b : perm_ok2 rot -> moved2 n (fun r => rotb2 rot (a r)) (fun r => rotb2 rot (b r)) = moved2 n a b.
Proof.
  intros H. unfold moved2. apply zsum_ext'. intros r _. apply zsum_ext'. intros q _. destruct (Nat.eqb r q); [reflexivity|]. apply cut_rot2, H.
Qed.

Lemma moved3_same n a : disjoint_owners3 n a -> moved3 n a a = 0.
Proof.
  intros H. apply (number_fun (moves3 n a a)); [apply moved3_number; assumption|].
  exists []. split; [constructor|]. split; [|reflexivity]. intros p. split; [intros []|]. intros (r & q & Hr & Hq & Hne & H1 & H2). exfalso. apply Hne, (H p); assumption.
Qed.
Lemma moved2_same n a : disjoint_owners2 n a -> moved2 n a a = 0.
Proof.
  intros H. apply (number_fun (moves2 n a a)); [apply moved2_number; assumption|].
  exists []. split; [constructor|]. split; [|reflexivity]. intros p. split; [intros []|]. intros (r & q & Hr & Hq & Hne & H1 & H2). exfalso. apply Hne, (H p); assumption.
Qed.

Definition route_sum3 (n : nat) (l : list (nat -> box3)) : Z := zadd (map (fun ab => moved3 n (fst ab) (snd ab)) (steps l)).
Definition route_sum2 (n : nat) (l : list (nat -> box2)) : Z := zadd (map (fun ab => moved2 n (fst ab) (snd ab)) (steps l)).
Lemma steps_in {T} (l : list T) a b : In (a, b) (steps l) -> In a l /\ In b l.
Proof.
  induction l as [|x [|y l] IH]; intros H; [destruct H|destruct H|]. destruct H as [H|H].
  - injection H as <- <-. split; [left; reflexivity|right; left; reflexivity].
  - apply IH in H as (H1 & H2). split; right; assumption.
Qed.
Lemma route_ok3 {A} n nq l (c : nat -> list (@instr A)) : (forall a, In a l -> disjoint_owners3 n a) -> traffic n c = nq * route_sum3 n l -> sends_moved3 n nq l c.
Proof.
  intros Hd Ht. exists (map (fun ab => moved3 n (fst ab) (snd ab)) (steps l)). split; [|exact Ht].
  assert (H : forall ab, In ab (steps l) -> disjoint_owners3 n (fst ab) /\ disjoint_owners3 n (snd ab)).
  { intros [a b] H. apply steps_in in H as (H1 & H2). split; apply Hd; assumption. }
  clear Ht. induction (steps l) as [|ab s IH]; [constructor|]. cbn [map]. constructor.
  - destruct (H ab (or_introl eq_refl)). apply moved3_number; assumption.
  - apply IH. intros; apply H; right; assumption.
Qed.
Lemma route_ok2 {A} n nq l (c : nat -> list (@instr A)) : (forall a, In a l -> disjoint_owners2 n a) -> traffic n c = nq * route_sum2 n l -> sends_moved2 n nq l c.
Proof.
  intros Hd Ht. exists (map (fun ab => moved2 n (fst ab) (snd ab)) (steps l)). split; [|exact Ht].
  assert (H : forall ab, In ab (steps l) -> disjoint_owners2 n (fst ab) /\ disjoint_owners2 n (snd ab)).
  { intros [a b] H. apply steps_in in H as (H1 & H2). split; apply Hd; assumption. }
  clear Ht. induction (steps l) as [|ab s IH]; [constructor|]. cbn [map]. constructor.
  - destruct (H ab (or_introl eq_refl)). apply moved2_number; assumption.
  - apply IH. intros; apply H; right; assumption.
Qed.

Section Three.
Context {F : Type} (O : sops F) (rnorm : Z -> F).
Variables (ar : areas) (n : nat) (st : settings) (N : Z * Z * Z) (permute : Z) (ins outs : nat -> box3) (f : fft3).
Hypothesis Hr : ready3 ar n st N permute ins outs f.
Let Fa := ready_facts ar n st N permute ins outs f Hr.

Lemma pack_flag : flag_ok (f_pack f).
Proof. rewrite (F_pack _ _ _ _ _ _ _ Fa). apply Hr. Qed.

Lemma call_traffic bi bo m rot perm a b cl : perm_ok3 rot -> perm_ok3 perm -> m = mkrm3 cl perm (fun r => rotb3 rot (a r)) (fun r => rotb3 rot (b r)) ->
  traffic n (one_remap3 (F := F) f m bi bo) = 2 * moved3 n a b.
Proof.
  intros H1 H2 ->. unfold one_remap3. cbn [rm_coll rm_perm rm_in rm_out]. rewrite (F_n _ _ _ _ _ _ _ Fa).
  rewrite traffic3; [|apply pack_flag|exact H2|lia]. rewrite moved_rot3 by exact H1. reflexivity.
Qed.

Lemma plain_traffic bi bo rot perm a b : perm_ok3 rot -> perm_ok3 perm ->
  traffic n (together (remap_call3 (F := F) f (plain_pair st rot perm a b) bi bo)) = 2 * moved3 n a b.
Proof.
  intros H1 H2. unfold remap_call3, plain_pair. cbn [fst snd]. rewrite traffic_cons, traffic_nil, (call_traffic _ _ _ rot perm a b (coll_bp st)); auto; ring.
Qed.

Lemma pencil_traffic bi bo rot perm a b : perm_ok3 rot -> perm_ok3 perm ->
  traffic n (together (remap_call3 (F := F) f (pencil_pair st rot perm a (f_brick f) b) bi bo)) =
  2 * if f_exch f then moved3 n a (f_brick f) + moved3 n (f_brick f) b else moved3 n a b.
Proof.
  intros H1 H2. unfold remap_call3, pencil_pair. rewrite (F_exch _ _ _ _ _ _ _ Fa). destruct (st_exch st =? 0); cbn [fst snd negb].
  - rewrite traffic_cons, traffic_nil, (call_traffic _ _ _ rot perm a b (coll_pp st)); auto; ring.
  - rewrite !traffic_cons, traffic_nil, (call_traffic _ _ _ rot 0 a (f_brick f) (coll_bp st)), (call_traffic _ _ _ rot perm (f_brick f) b (coll_bp st)); auto; [ring|left; reflexivity].
Qed.

Lemma copying_traffic size bi bo : traffic n (together [copying3 (F := F) size bi bo]) = 0.
Proof.
  rewrite traffic_cons, traffic_nil. rewrite traffic_silent; [reflexivity|]. intros r i. unfold copying3. destruct (bsel_eqb bi bo); [intros []|].
  intros [<- | []]. eexists. reflexivity.
Qed.
Lemma silent1 (g : nat -> @rmem F -> option rmem) : silent (fun r => [ILocal (g r)]).
Proof. intros r i [<- | []]. eexists. reflexivity. Qed.
Lemma maybe_traffic (b : bool) (g : nat -> @rmem F -> option rmem) : traffic n (together (if b then [] else [fun r => [ILocal (g r)]])) = 0.
Proof. destruct b; [apply traffic_nil|]. rewrite traffic_cons, traffic_nil, traffic_silent by apply silent1. reflexivity. Qed.

Lemma perm0 : perm_ok3 0. Proof. left; reflexivity. Qed.
Lemma perm1 : perm_ok3 1. Proof. right; left; reflexivity. Qed.
Lemma perm2 : perm_ok3 2. Proof. right; right; reflexivity. Qed.

Lemma disj_fast : disjoint_owners3 n (f_fast f). Proof. apply (F_fast _ _ _ _ _ _ _ Fa). apply Hr. Qed.
Lemma disj_in : disjoint_owners3 n ins. Proof. apply Hr. Qed.
Lemma disj_out : disjoint_owners3 n outs. Proof. apply Hr. Qed.
Lemma disj_slow : disjoint_owners3 n (f_slow f). Proof. apply (F_slow _ _ _ _ _ _ _ Fa). apply Hr. Qed.

Lemma route_disj flag a : In a (route3 f flag) -> disjoint_owners3 n a.
Proof.
  assert (H : In a ([f_in f; f_fast f] ++ (if f_exch f then [f_brick f] else []) ++ [f_mid f] ++ (if f_exch f then [f_brick f] else []) ++ [f_slow f; f_out f]) -> disjoint_owners3 n a).
  { rewrite (F_fin _ _ _ _ _ _ _ Fa), (F_fout _ _ _ _ _ _ _ Fa). pose proof (F_brick _ _ _ _ _ _ _ Fa) as Hb. rewrite !in_app_iff. cbn [In].
    assert (B : In a (if f_exch f then [f_brick f] else []) -> disjoint_owners3 n a) by (destruct (f_exch f); [intros [<- | []]; apply (Hb eq_refl)|intros []]).
    intros [[<- | [<- | []]] | [H | [[<- | []] | [H | [<- | [<- | []]]]]]]; auto using disj_in, disj_fast, disj_slow, disj_out. apply (F_mid _ _ _ _ _ _ _ Fa). }
  unfold route3. destruct ((flag =? FORWARD) || f_same f); [exact H|]. intros Hi. apply in_rev in Hi. apply H, Hi.
Qed.

(** the volume as a number *)
Definition vol_route : Z :=
  moved3 n ins (f_fast f) +
  (if f_exch f then moved3 n (f_fast f) (f_brick f) + moved3 n (f_brick f) (f_mid f) else moved3 n (f_fast f) (f_mid f)) +
  (if f_exch f then moved3 n (f_mid f) (f_brick f) + moved3 n (f_brick f) (f_slow f) else moved3 n (f_mid f) (f_slow f)) +
  moved3 n (f_slow f) outs.
Definition vol_back : Z :=
  moved3 n outs (f_slow f) +
  (if f_exch f then moved3 n (f_slow f) (f_brick f) + moved3 n (f_brick f) (f_mid f) else moved3 n (f_slow f) (f_mid f)) +
  (if f_exch f then moved3 n (f_mid f) (f_brick f) + moved3 n (f_brick f) (f_fast f) else moved3 n (f_mid f) (f_fast f)) +
  moved3 n (f_fast f) ins.

Lemma route_sum flag : route_sum3 n (route3 f flag) = if (flag =? FORWARD) || f_same f then vol_route else vol_back.
Proof.
  unfold route_sum3, route3, vol_route, vol_back. rewrite (F_fin _ _ _ _ _ _ _ Fa), (F_fout _ _ _ _ _ _ _ Fa).
  destruct ((flag =? FORWARD) || f_same f); destruct (f_exch f); cbn [app rev steps map fst snd zadd fold_right]; ring.
Qed.

Lemma first_fwd bi bo : traffic n (together (match f_prefast f with Some p => remap_call3 (F := F) f p bi bo | None => [copying3 (fun r => psize3 (f_in f r)) bi bo] end)) = 2 * moved3 n ins (f_fast f).
Proof.
  rewrite (F_prefast _ _ _ _ _ _ _ Fa). destruct (f_pre f) eqn:Ep; [apply plain_traffic; apply perm0|].
  rewrite copying_traffic, (F_pre_fast _ _ _ _ _ _ _ Fa Ep), moved3_same; [reflexivity|apply disj_in].
Qed.
Lemma last_fwd bi bo : traffic n (together (opt_remap3 (F := F) f (f_postslow f) bi bo)) = 2 * moved3 n (f_slow f) outs.
Proof.
  rewrite (F_postslow _ _ _ _ _ _ _ Fa). destruct (f_post f) eqn:Ep; cbn [opt_remap3].
  - apply plain_traffic; [apply perm2|]. destruct (F_perm _ _ _ _ _ _ _ Fa) as [-> | [-> | ->]]; cbv; auto.
  - rewrite traffic_nil, (F_post_slow _ _ _ _ _ _ _ Fa Ep), moved3_same; [reflexivity|apply disj_out].
Qed.
Lemma first_bwd bi bo : f_same f = false -> traffic n (together (match f_preslow f with Some p => remap_call3 (F := F) f p bi bo | None => [copying3 (fun r => psize3 (f_out f r)) bi bo] end)) = 2 * moved3 n outs (f_slow f).
Proof.
  intros Es. rewrite (F_preslow _ _ _ _ _ _ _ Fa), Es. destruct (f_post f) eqn:Ep.
  - apply plain_traffic; [apply (F_perm _ _ _ _ _ _ _ Fa)|]. destruct (F_perm _ _ _ _ _ _ _ Fa) as [-> | [-> | ->]]; cbv; auto.
  - rewrite copying_traffic, (F_post_slow _ _ _ _ _ _ _ Fa Ep), moved3_same; [reflexivity|apply disj_out].
Qed.
Lemma last_bwd bi bo : f_same f = false -> traffic n (together (opt_remap3 (F := F) f (f_postfast f) bi bo)) = 2 * moved3 n (f_fast f) ins.
Proof.
  intros Es. rewrite (F_postfast _ _ _ _ _ _ _ Fa), Es. destruct (f_pre f) eqn:Ep; cbn [opt_remap3].
  - apply plain_traffic; apply perm0.
  - rewrite traffic_nil, (F_pre_fast _ _ _ _ _ _ _ Fa Ep), moved3_same; [reflexivity|apply disj_in].
Qed.

Lemma compute_traffic P scaled ro flag bi bo : sends_moved3 n 2 (route3 f flag) (compute3 O rnorm f P scaled ro flag bi bo).
Proof.
  apply route_ok3; [apply route_disj|]. rewrite route_sum. unfold compute3, pieces_compute3. rewrite traffic_app.
  assert (Es : forall x : bool, traffic n (together (if x then [scaling3 (F := F) O rnorm f bo] else [])) = 0).
  { intros x. destruct x; [|apply traffic_nil]. rewrite traffic_cons, traffic_nil. unfold scaling3. rewrite traffic_silent by apply silent1. reflexivity. }
  rewrite Es. destruct ((flag =? FORWARD) || f_same f) eqn:Ed.
  - rewrite !traffic_app, first_fwd, last_fwd, (F_fastmid _ _ _ _ _ _ _ Fa), (F_midslow _ _ _ _ _ _ _ Fa), !pencil_traffic by apply perm0 || apply perm1.
    unfold ffts_fast, ffts_mid, ffts_slow. rewrite !maybe_traffic. unfold vol_route. ring.
  - apply orb_false_iff in Ed as (_ & Esame).
    rewrite !traffic_app, first_bwd, last_bwd, (F_slowmid _ _ _ _ _ _ _ Fa), (F_midfast _ _ _ _ _ _ _ Fa), Esame by exact Esame.
    cbn [opt_remap3]. rewrite !pencil_traffic by apply perm1 || apply perm2.
    unfold ffts_fast, ffts_mid, ffts_slow. rewrite !maybe_traffic. unfold vol_back. ring.
Qed.

Lemma only_remaps_traffic flag bi bo : sends_moved3 n 2 (route3 f flag) (only_remaps3 (F := F) f flag bi bo).
Proof.
  apply route_ok3; [apply route_disj|]. rewrite route_sum. unfold only_remaps3, pieces_only_remaps3.
  destruct ((flag =? FORWARD) || f_same f) eqn:Ed.
  - rewrite !traffic_app, first_fwd, last_fwd, (F_fastmid _ _ _ _ _ _ _ Fa), (F_midslow _ _ _ _ _ _ _ Fa), !pencil_traffic by apply perm0 || apply perm1.
    unfold vol_route. ring.
  - apply orb_false_iff in Ed as (_ & Esame).
    rewrite !traffic_app, first_bwd, last_bwd, (F_slowmid _ _ _ _ _ _ _ Fa), (F_midfast _ _ _ _ _ _ _ Fa), Esame by exact Esame.
    cbn [opt_remap3]. rewrite !pencil_traffic by apply perm1 || apply perm2. unfold vol_back. ring.
Qed.

Lemma only_1d_traffic P flag b : traffic n (only_1d_ffts3 O f P flag b) = 0.
Proof.
  unfold only_1d_ffts3. rewrite !traffic_cons, traffic_nil. unfold ffts_fast, ffts_mid, ffts_slow. rewrite !traffic_silent by apply silent1. reflexivity.
Qed.

End Three.

(** the internal layouts are even *)
Lemma balance3 ar n st N permute ins outs f : ready3 ar n st N permute ins outs f -> let '(x, y, z) := N in
  (f_pre f = true -> exists b c, 1 <= b /\ 1 <= c /\ b * c = Z.of_nat n /\
     forall r, (r < n)%nat -> fair y b (nj (f_fast f r)) /\ fair z c (nk (f_fast f r))) /\
  (exists a c, 1 <= a /\ 1 <= c /\ a * c = Z.of_nat n /\
     forall r, (r < n)%nat -> fair x a (ni (f_mid f r)) /\ fair z c (nk (f_mid f r))) /\
  (f_post f = true -> exists a b, 1 <= a /\ 1 <= b /\ a * b = Z.of_nat n /\
     forall r, (r < n)%nat -> fair x a (ni (f_slow f r)) /\ fair y b (nj (f_slow f r))) /\
  (f_exch f = true -> exists a b c, 1 <= a /\ 1 <= b /\ 1 <= c /\ a * b * c = Z.of_nat n /\
     forall r, (r < n)%nat -> fair x a (ni (f_brick f r)) /\ fair y b (nj (f_brick f r)) /\ fair z c (nk (f_brick f r))).
Proof.
  intros (L & Hn & HI & _ & _ & _ & _ & HS).
  destruct (setup3d_cases ar n st N permute ins outs L Hn HI) as [(msg & E & H)|(H1 & H2 & H3 & [(Hp & E)|(Hp & f' & gf & gm & gs & gb & E & Hg & H)])]; rewrite E in HS; try discriminate.
  injection HS as ->. cbv zeta in H.
  destruct H as (E1 & E2 & E3 & E4 & E5 & E6 & E7 & E8 & E9 & E10 & E11 & E12 & E13 & _).
  destruct N as [[x y] z]. pose proof H1 as ((X & SX) & (Y & SY) & (Z' & SZ)). destruct Hg as (Gf & Gm & Gs & Gb).
  split; [|split; [|split]].
  - intros Ep. destruct (good_unit1 _ _ _ _ Gf) as (b & c & -> & Hb & Hc & Hbc). exists b, c. split; [exact Hb|]. split; [exact Hc|]. split; [lia|].
    intros r _. rewrite E8, <- E12, Ep. unfold fast_box3. cbn [ploc]. destruct (ploc (1, b, c) (Z.of_nat r)) as [[i1 i2] i3]. unfold nj, nk. cbn [jlo jhi klo khi].
    split; apply part_fair; assumption.
  - destruct (good_unit2 _ _ _ _ Gm) as (a & c & -> & Ha & Hc & Hac). exists a, c. split; [exact Ha|]. split; [exact Hc|]. split; [lia|].
    intros r _. rewrite E9. unfold mid_box3. destruct (ploc (a, 1, c) (Z.of_nat r)) as [[i1 i2] i3]. unfold ni, nk. cbn [ilo ihi klo khi].
    split; apply part_fair; assumption.
  - destruct (slow_layout n x y z gs X Y Z' Gs) as (_ & _ & Ss).
    pose proof (postflag_spec n x y z permute outs (fun r => slow_box3 (x, y, z) gs (Z.of_nat r)) Hn Ss) as Hpost. cbv beta in Hpost.
    intros Ep. rewrite E13 in Ep. assert (Esi : slow_internal n (x, y, z) permute outs = true) by (apply not_false_iff_true; intros Hs; apply Hpost in Hs; congruence).
    destruct (good_unit3 _ _ _ _ Gs) as (a & b & -> & Ha & Hb & Hab). exists a, b. split; [exact Ha|]. split; [exact Hb|]. split; [lia|].
    intros r _. rewrite E10, Esi. unfold slow_box3. destruct (ploc (a, b, 1) (Z.of_nat r)) as [[i1 i2] i3]. unfold ni, nj. cbn [ilo ihi jlo jhi].
    split; apply part_fair; assumption.
  - intros Ex. rewrite E5 in Ex. destruct (st_exch st =? 0); [discriminate|]. destruct gb as [[a b] c].
    unfold good_grid3 in Gb. exists a, b, c. split; [lia|]. split; [lia|]. split; [lia|]. split; [lia|].
    intros r _. rewrite E11. unfold gbox3. destruct (ploc (a, b, c) (Z.of_nat r)) as [[i1 i2] i3]. unfold ni, nj, nk. cbn [ilo ihi jlo jhi klo khi].
    split; [|split]; apply part_fair; lia.
Qed.

Section Two.
Context {F : Type} (O : sops F) (rnorm : Z -> F).
Variables (esize : Z) (ar : areas) (n : nat) (st : settings) (N : Z * Z) (permute : Z) (ins outs : nat -> box2) (f : fft2).
Hypothesis Hr : ready2 esize ar n st N permute ins outs f.
Let Fa := ready_facts2 esize ar n st N permute ins outs f Hr.

Lemma pack_flag2 : flag_ok (t_pack f) /\ (esize = 8 \/ t_pack f <> 2).
Proof. rewrite (T_pack _ _ _ _ _ _ _ Fa). split; apply Hr. Qed.

Lemma call_traffic2 bi bo m rot perm a b cl : perm_ok2 rot -> perm_ok2 perm -> m = mkrm2 cl perm (fun r => rotb2 rot (a r)) (fun r => rotb2 rot (b r)) ->
  traffic n (one_remap2 (F := F) esize f m bi bo) = 2 * moved2 n a b.
Proof.
  intros H1 H2 ->. unfold one_remap2. cbn [rm2_coll rm2_perm rm2_in rm2_out]. rewrite (T_n _ _ _ _ _ _ _ Fa).
  rewrite traffic2; [|apply pack_flag2|exact H2|lia|apply pack_flag2]. rewrite moved_rot2 by exact H1. reflexivity.
Qed.

Lemma plain_traffic2 bi bo rot perm a b : perm_ok2 rot -> perm_ok2 perm ->
  traffic n (together (remap_call2 (F := F) esize f (plain_pair2 st rot perm a b) bi bo)) = 2 * moved2 n a b.
Proof.
  intros H1 H2. unfold remap_call2, plain_pair2. cbn [fst snd]. rewrite traffic_cons, traffic_nil, (call_traffic2 _ _ _ rot perm a b (coll_bp st)); auto; ring.
Qed.

Lemma pencil_traffic2 bi bo rot perm a b : perm_ok2 rot -> perm_ok2 perm ->
  traffic n (together (remap_call2 (F := F) esize f (pencil_pair2 st rot perm a (t_brick f) b) bi bo)) =
  2 * if t_exch f then moved2 n a (t_brick f) + moved2 n (t_brick f) b else moved2 n a b.
Proof.
  intros H1 H2. unfold remap_call2, pencil_pair2. rewrite (T_exch _ _ _ _ _ _ _ Fa). destruct (st_exch st =? 0); cbn [fst snd negb].
  - rewrite traffic_cons, traffic_nil, (call_traffic2 _ _ _ rot perm a b (coll_pp st)); auto; ring.
  - rewrite !traffic_cons, traffic_nil, (call_traffic2 _ _ _ rot 0 a (t_brick f) (coll_bp st)), (call_traffic2 _ _ _ rot perm (t_brick f) b (coll_bp st)); auto; [ring|left; reflexivity].
Qed.

Lemma copying_traffic2 size bi bo : traffic n (together [copying2 (F := F) size bi bo]) = 0.
Proof.
  rewrite traffic_cons, traffic_nil. rewrite traffic_silent; [reflexivity|]. intros r i. unfold copying2. destruct (bsel_eqb bi bo); [intros []|].
  intros [<- | []]. eexists. reflexivity.
Qed.

Lemma tp0 : perm_ok2 0. Proof. left; reflexivity. Qed.
Lemma tp1 : perm_ok2 1. Proof. right; reflexivity. Qed.
Lemma tpm : perm_ok2 ((permute + 1) mod 2).
Proof. destruct (T_perm _ _ _ _ _ _ _ Fa) as [-> | ->]; cbv; auto. Qed.

Lemma disj_in2 : disjoint_owners2 n ins. Proof. apply Hr. Qed.
Lemma disj_out2 : disjoint_owners2 n outs. Proof. apply Hr. Qed.
Lemma disj_fast2 : disjoint_owners2 n (t_fast f). Proof. apply (T_fast _ _ _ _ _ _ _ Fa). apply Hr. Qed.
Lemma disj_slow2 : disjoint_owners2 n (t_slow f). Proof. apply (T_slow _ _ _ _ _ _ _ Fa). apply Hr. Qed.

Lemma route_disj2 flag a : In a (route2 f flag) -> disjoint_owners2 n a.
Proof.
  assert (H : In a ([t_in f; t_fast f] ++ (if t_exch f then [t_brick f] else []) ++ [t_slow f; t_out f]) -> disjoint_owners2 n a).
  { rewrite (T_fin _ _ _ _ _ _ _ Fa), (T_fout _ _ _ _ _ _ _ Fa). pose proof (T_brick _ _ _ _ _ _ _ Fa) as Hb. rewrite !in_app_iff. cbn [In].
    assert (B : In a (if t_exch f then [t_brick f] else []) -> disjoint_owners2 n a) by (destruct (t_exch f); [intros [<- | []]; apply (Hb eq_refl)|intros []]).
    intros [[<- | [<- | []]] | [H | [<- | [<- | []]]]]; auto using disj_in2, disj_fast2, disj_slow2, disj_out2. }
  unfold route2. destruct ((flag =? FORWARD) || t_same f); [exact H|]. intros Hi. apply in_rev in Hi. apply H, Hi.
Qed.

Definition vol_route2 : Z :=
  moved2 n ins (t_fast f) +
  (if t_exch f then moved2 n (t_fast f) (t_brick f) + moved2 n (t_brick f) (t_slow f) else moved2 n (t_fast f) (t_slow f)) +
  moved2 n (t_slow f) outs.
Definition vol_back2 : Z :=
  moved2 n outs (t_slow f) +
  (if t_exch f then moved2 n (t_slow f) (t_brick f) + moved2 n (t_brick f) (t_fast f) else moved2 n (t_slow f) (t_fast f)) +
  moved2 n (t_fast f) ins.

Lemma route_sum_2 flag : route_sum2 n (route2 f flag) = if (flag =? FORWARD) || t_same f then vol_route2 else vol_back2.
Proof.
  unfold route_sum2, route2, vol_route2, vol_back2. rewrite (T_fin _ _ _ _ _ _ _ Fa), (T_fout _ _ _ _ _ _ _ Fa).
  destruct ((flag =? FORWARD) || t_same f); destruct (t_exch f); cbn [app rev steps map fst snd zadd fold_right]; ring.
Qed.

Lemma first_fwd2 bi bo : traffic n (together (match t_prefast f with Some p => remap_call2 (F := F) esize f p bi bo | None => [copying2 (fun r => psize2 (t_in f r)) bi bo] end)) = 2 * moved2 n ins (t_fast f).
Proof.
  rewrite (T_prefast _ _ _ _ _ _ _ Fa). destruct (t_pre f) eqn:Ep; [apply plain_traffic2; apply tp0|].
  rewrite copying_traffic2, (T_pre_fast _ _ _ _ _ _ _ Fa Ep), moved2_same; [reflexivity|apply disj_in2].
Qed.
Lemma last_fwd2 bi bo : traffic n (together (opt_remap2 (F := F) esize f (t_postslow f) bi bo)) = 2 * moved2 n (t_slow f) outs.
Proof.
  rewrite (T_postslow _ _ _ _ _ _ _ Fa). destruct (t_post f) eqn:Ep; cbn [opt_remap2].
  - apply plain_traffic2; [apply tp1|apply tpm].
  - rewrite traffic_nil, (T_post_slow _ _ _ _ _ _ _ Fa Ep), moved2_same; [reflexivity|apply disj_out2].
Qed.
Lemma first_bwd2 bi bo : t_same f = false -> traffic n (together (match t_preslow f with Some p => remap_call2 (F := F) esize f p bi bo | None => [copying2 (fun r => psize2 (t_out f r)) bi bo] end)) = 2 * moved2 n outs (t_slow f).
Proof.
  intros Es. rewrite (T_preslow _ _ _ _ _ _ _ Fa), Es. destruct (t_post f) eqn:Ep.
  - apply plain_traffic2; [apply (T_perm _ _ _ _ _ _ _ Fa)|apply tpm].
  - rewrite copying_traffic2, (T_post_slow _ _ _ _ _ _ _ Fa Ep), moved2_same; [reflexivity|apply disj_out2].
Qed.
Lemma last_bwd2 bi bo : t_same f = false -> traffic n (together (opt_remap2 (F := F) esize f (t_postfast f) bi bo)) = 2 * moved2 n (t_fast f) ins.
Proof.
  intros Es. rewrite (T_postfast _ _ _ _ _ _ _ Fa), Es. destruct (t_pre f) eqn:Ep; cbn [opt_remap2].
  - apply plain_traffic2; apply tp0.
  - rewrite traffic_nil, (T_pre_fast _ _ _ _ _ _ _ Fa Ep), moved2_same; [reflexivity|apply disj_in2].
Qed.

Lemma compute_traffic2 P scaled ro flag bi bo : sends_moved2 n 2 (route2 f flag) (compute2 O rnorm esize f P scaled ro flag bi bo).
Proof.
  apply route_ok2; [apply route_disj2|]. rewrite route_sum_2. unfold compute2, pieces_compute2. rewrite traffic_app.
  assert (Es : forall x : bool, traffic n (together (if x then [scaling2 (F := F) O rnorm f bo] else [])) = 0).
  { intros x. destruct x; [|apply traffic_nil]. rewrite traffic_cons, traffic_nil. unfold scaling2. rewrite traffic_silent by apply silent1. reflexivity. }
  rewrite Es. destruct ((flag =? FORWARD) || t_same f) eqn:Ed.
  - rewrite !traffic_app, first_fwd2, last_fwd2, (T_fastslow _ _ _ _ _ _ _ Fa), !pencil_traffic2 by apply tp0 || apply tp1.
    unfold ffts_fast2, ffts_slow2. rewrite !maybe_traffic. unfold vol_route2. ring.
  - apply orb_false_iff in Ed as (_ & Esame).
    rewrite !traffic_app, first_bwd2, last_bwd2, (T_slowfast _ _ _ _ _ _ _ Fa), Esame by exact Esame.
    cbn [opt_remap2]. rewrite !pencil_traffic2 by apply tp1.
    unfold ffts_fast2, ffts_slow2. rewrite !maybe_traffic. unfold vol_back2. ring.
Qed.

Lemma only_remaps_traffic2 flag bi bo : sends_moved2 n 2 (route2 f flag) (only_remaps2 (F := F) esize f flag bi bo).
Proof.
  apply route_ok2; [apply route_disj2|]. rewrite route_sum_2. unfold only_remaps2, pieces_only_remaps2.
  destruct ((flag =? FORWARD) || t_same f) eqn:Ed.
  - rewrite !traffic_app, first_fwd2, last_fwd2, (T_fastslow _ _ _ _ _ _ _ Fa), !pencil_traffic2 by apply tp0 || apply tp1. unfold vol_route2. ring.
  - apply orb_false_iff in Ed as (_ & Esame).
    rewrite !traffic_app, first_bwd2, last_bwd2, (T_slowfast _ _ _ _ _ _ _ Fa), Esame by exact Esame.
    cbn [opt_remap2]. rewrite !pencil_traffic2 by apply tp1. unfold vol_back2. ring.
Qed.

Lemma only_1d_traffic2 P flag b : traffic n (only_1d_ffts2 O f P flag b) = 0.
Proof.
  unfold only_1d_ffts2. rewrite !traffic_cons, traffic_nil. unfold ffts_fast2, ffts_slow2. rewrite !traffic_silent by apply silent1. reflexivity.
Qed.

End Two.

Lemma balance2 esize ar n st N permute ins outs f : ready2 esize ar n st N permute ins outs f -> let '(x, y) := N in
  (t_pre f = true -> forall r, (r < n)%nat -> fair y (Z.of_nat n) (nj2 (t_fast f r))) /\
  (t_post f = true -> forall r, (r < n)%nat -> fair x (Z.of_nat n) (ni2 (t_slow f r))) /\
  (t_exch f = true -> exists a b, 1 <= a /\ 1 <= b /\ a * b = Z.of_nat n /\
     forall r, (r < n)%nat -> fair x a (ni2 (t_brick f r)) /\ fair y b (nj2 (t_brick f r))).
Proof.
  intros (L & Hn & HI & _ & _ & _ & _ & _ & HS).
  destruct (setup2d_cases ar n st N permute ins outs L Hn HI) as [(msg & E & H)|(H1 & H2 & H3 & [(Hp & E)|(Hp & f' & gb & E & Hg & H)])]; rewrite E in HS; try discriminate.
  injection HS as ->. cbv zeta in H.
  destruct H as (E1 & E2 & E3 & E4 & E5 & E6 & E7 & E8 & E9 & E10 & E11 & E12 & _).
  destruct N as [x y]. split; [|split].
  - intros Ep r _. rewrite E8, <- E11, Ep. unfold fast_box2, nj2. cbn [jlo2 jhi2]. apply part_fair. lia.
  - pose proof (postflag2_spec n x y permute outs (fun r => slow_box2 (x, y) (Z.of_nat n) (Z.of_nat r)) Hn ltac:(intros; split; reflexivity)) as Hpost.
    intros Ep r _. rewrite E12 in Ep. assert (Esi : slow_internal2 n (x, y) permute outs = true) by (apply not_false_iff_true; intros Hs; apply Hpost in Hs; congruence).
    rewrite E9, Esi. unfold slow_box2, ni2. cbn [ilo2 ihi2]. apply part_fair. lia.
  - intros Ex. rewrite E5 in Ex. destruct (st_exch st =? 0); [discriminate|]. destruct gb as [a b].
    unfold good_grid2 in Hg. exists a, b. split; [lia|]. split; [lia|]. split; [lia|].
    intros r _. rewrite E10. unfold gbox2. destruct (ploc2 (a, b) (Z.of_nat r)) as [i1 i2]. unfold ni2, nj2. cbn [ilo2 ihi2 jlo2 jhi2].
    split; apply part_fair; lia.
Qed.

Lemma volume_fft3 : forall {F} (O : sops F) rnorm ar n st N permute ins outs f, ready3 ar n st N permute ins outs f ->
  (forall P scaled remaponly flag bi bo, sends_moved3 n 2 (route3 f flag) (compute3 O rnorm f P scaled remaponly flag bi bo)) /\
  (forall flag bi bo, sends_moved3 n 2 (route3 f flag) (only_remaps3 (F := F) f flag bi bo)) /\
  (forall P flag b, traffic n (only_1d_ffts3 O f P flag b) = 0).
Proof.
  intros F O rnorm ar n st N permute ins outs f Hr. split; [|split]; intros.
  - exact (compute_traffic O rnorm ar n st N permute ins outs f Hr P scaled remaponly flag bi bo).
  - exact (only_remaps_traffic ar n st N permute ins outs f Hr flag bi bo).
  - apply only_1d_traffic.
Qed.
Lemma volume_fft2 : forall {F} (O : sops F) rnorm esize ar n st N permute ins outs f, ready2 esize ar n st N permute ins outs f ->
  (forall P scaled remaponly flag bi bo, sends_moved2 n 2 (route2 f flag) (compute2 O rnorm esize f P scaled remaponly flag bi bo)) /\
  (forall flag bi bo, sends_moved2 n 2 (route2 f flag) (only_remaps2 (F := F) esize f flag bi bo)) /\
  (forall P flag b, traffic n (only_1d_ffts2 O f P flag b) = 0).
Proof.
  intros F O rnorm esize ar n st N permute ins outs f Hr. split; [|split]; intros.
  - exact (compute_traffic2 O rnorm esize ar n st N permute ins outs f Hr P scaled remaponly flag bi bo).
  - exact (only_remaps_traffic2 esize ar n st N permute ins outs f Hr flag bi bo).
  - apply only_1d_traffic2.
Qed.
