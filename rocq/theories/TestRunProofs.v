(** TestRunProofs.v : whole runs of the test programs: initialise, transform back and
    forth nloop times, validate. *)

From Coq Require Import Reals Lra.
From Verif Require Import Base Spec Pack3d Sched SchedProofs Phases Exec Remap RemapMain RemapInst Remap2d
  Remap3d RemapThms RemapTop Layout LayoutProofs Setup3d Setup3dProofs Setup2d Setup2dProofs LayoutFinal Kiss KissPure KissAlg KissReal Fft1d KissFinal
  Fft3d Frame Fft3dProofs Fft3dMain DftMulti Fft3dTop Fft3dFinal Fft2d Fft2dMain Fft2dTop Fft2dFinal TestProg TestLayProofs TestDataProofs.
Local Open Scope Z_scope.

Lemma iter_S {X} (f : X -> X) k x : Nat.iter (S k) f x = Nat.iter k f (f x).
Proof. induction k as [|k IH]; [reflexivity|]. cbn [Nat.iter] in *. unfold Nat.iter in *. cbn. f_equal. exact IH. Qed.

(** ** a loop whose body acts on each point separately *)
Section Loop.
Context {A pt : Type}.
Variables (n : nat) (own : nat -> pt -> Prop) (cellf : nat -> pt -> Z -> Z) (frame : nat -> @rmem A -> Prop).
Definition hold (r : nat) (g : pt -> Z -> A) (arr : list A) : Prop := forall p q, own r p -> 0 <= q < 2 -> zget arr (cellf r p q) = Some (g p q).
Hypothesis tiled : forall M : nat -> @rmem A, (forall r, (r < n)%nat -> frame r (M r)) ->
  exists G : pt -> A * A, forall r, (r < n)%nat -> hold r (fld G) (getb BWORK (M r)).
Variables (T : nat -> pt -> A * A -> A * A) (cs : list (nat -> list (@instr A))).
Hypothesis step : forall G : pt -> A * A,
  good n (fun r m => hold r (fld G) (getb BWORK m) /\ frame r m) cs (fun r m => hold r (fld (fun p => T r p (G p))) (getb BWORK m) /\ frame r m).
Definition state (g : nat -> pt -> A * A) (r : nat) (m : @rmem A) : Prop := hold r (fld (g r)) (getb BWORK m) /\ frame r m.

Lemma fld_eq (g h : pt -> A * A) p : (forall q, 0 <= q < 2 -> fld g p q = fld h p q) -> g p = h p.
Proof. intros H. pose proof (H 0 ltac:(lia)) as H0. pose proof (H 1 ltac:(lia)) as H1. unfold fld in *. cbn in *. destruct (g p), (h p). cbn in *. congruence. Qed.

Lemma loop_step g : good n (state g) cs (state (fun r p => T r p (g r p))).
Proof.
  split; [exact (proj1 (step (g 0%nat)))|].
  intros M HM. destruct (tiled M) as (G & HG); [intros r Hr; apply (HM r Hr)|].
  destruct (proj2 (step G) M) as (M' & H1 & H2); [intros r Hr; split; [apply HG, Hr|apply (HM r Hr)]|].
  exists M'. split; [|exact H2]. intros r Hr. destruct (H1 r Hr) as (K1 & K2). split; [|exact K2].
  intros p q Hp Hq. rewrite (K1 p q Hp Hq). f_equal.
  assert (E : G p = g r p).
  { apply (fld_eq G (g r)). intros q' Hq'. pose proof (HG r Hr p q' Hp Hq') as E1. rewrite (proj1 (HM r Hr) p q' Hp Hq') in E1. congruence. }
  unfold fld. rewrite E. reflexivity.
Qed.
Lemma loop_times k : forall g, good n (state g) (concat (repeat cs k)) (state (fun r p => Nat.iter k (T r p) (g r p))).
Proof.
  induction k as [|k IH]; intros g; [apply good_nil|]. cbn [repeat concat].
  eapply good_conseq; [intros r m _ H; exact H| |eapply good_app; [apply loop_step|apply IH]].
  intros r m _ (H1 & H2). split; [|exact H2]. intros p q Hp Hq. rewrite (H1 p q Hp Hq). unfold fld.
  rewrite iter_S. reflexivity.
Qed.

Variables (w0 : nat -> list A -> option (list A)) (g0 : nat -> pt -> A * A) (M0 : nat -> @rmem A).
Hypothesis Hstart : forall r, (r < n)%nat -> frame r (M0 r).
Hypothesis Hinit : forall r m, (r < n)%nat -> frame r m -> exists w, w0 r (getb BWORK m) = Some w /\ hold r (fld (g0 r)) w /\ frame r (setb BWORK w m).

Lemma together_times k r : together (concat (repeat cs k)) r = times_code k (together cs) r.
Proof.
  induction k as [|k IH]; [reflexivity|]. cbn [repeat concat times_code]. rewrite <- IH. unfold together. rewrite map_app, concat_app. reflexivity.
Qed.
Lemma run_loop k : exec_all n (fun r => start_with (w0 r) :: times_code k (together cs) r) M0 (state (fun r p => Nat.iter k (T r p) (g0 r p))).
Proof.
  assert (Gd : good n frame ([fun r => [start_with (w0 r)]] ++ concat (repeat cs k)) (state (fun r p => Nat.iter k (T r p) (g0 r p)))).
  { eapply good_app; [|apply loop_times]. apply good_one; [apply local_wf|].
    apply (triple_local n strict frame (fun r => [fun m => w <- w0 r (getb BWORK m); Some (setb BWORK w m)]) (state g0)).
    intros r m Hr Hf. destruct (Hinit r m Hr Hf) as (w & E & H1 & H2). exists (setb BWORK w m). cbn [seqf]. rewrite E. cbn [bind].
    split; [reflexivity|]. split; [|exact H2]. unfold BWORK in *. cbn in *. destruct m. exact H1. }
  destruct (good_exec n _ _ _ M0 Gd Hstart) as (M' & H1 & L & H2). exists M'. split; [exact H1|]. exists L.
  assert (E : start n (fun r => start_with (w0 r) :: times_code k (together cs) r) M0
    = start n (together ([fun r => [start_with (w0 r)]] ++ concat (repeat cs k))) M0).
  { unfold start. f_equal. apply map_ext. intros r. unfold together at 2. rewrite map_app, concat_app. cbn [map concat app].
    rewrite <- together_times. reflexivity. }
  rewrite E. exact H2.
Qed.
End Loop.

(** ** specification of the contents of the work array *)
Section Want.
Context {V : Type} (vz vr : Z -> V).
(** 1 in the low corner of half the extents, 0 elsewhere *)
Definition value3 (k : init) (N : Z * Z * Z) (p : pt3) : Z :=
  let '(nx, ny, nz) := N in let '(x, y, z) := p in
  match k with
  | STEP => if (2 * (x + 1) <=? nx) && (2 * (y + 1) <=? ny) && (2 * (z + 1) <=? nz) then 1 else 0
  | INDEX => x + y + z + 1
  | _ => 0
  end.
Definition value2 (k : init) (N : Z * Z) (p : pt2) : Z :=
  let '(nx, ny) := N in let '(x, y) := p in
  match k with
  | STEP => if (2 * (x + 1) <=? nx) && (2 * (y + 1) <=? ny) then 1 else 0
  | INDEX => x + y + 1
  | _ => 0
  end.
(** real part (q = 0) and imaginary part (q = 1) of point p *)
Definition want3 (k : init) (seed : Z) (N : Z * Z * Z) (b : box3) (p : pt3) (q : Z) : V :=
  match k with
  | RANDOM => vr (lehmer (2 * pos3 0 b p + q + 1) seed)
  | _ => vz (if q =? 0 then value3 k N p else 0)
  end.
Definition want2 (k : init) (seed : Z) (N : Z * Z) (b : box2) (p : pt2) (q : Z) : V :=
  match k with
  | RANDOM => vr (lehmer (2 * pos2 0 b p + q + 1) seed)
  | _ => vz (if q =? 0 then value2 k N p else 0)
  end.

Lemma half x n : 0 <= n -> (x <? Z.quot n 2) = (2 * (x + 1) <=? n).
Proof.
  intros Hn. rewrite Z.quot_div_nonneg by lia. pose proof (Z.div_mod n 2 ltac:(lia)). pose proof (Z.mod_pos_bound n 2 ltac:(lia)).
  destruct (Z.ltb_spec x (n / 2)), (Z.leb_spec (2 * (x + 1)) n); lia.
Qed.
Lemma wanti3_ok k seed N b p q : inb3 p (grid3 N) -> inb3 p b -> 0 <= q < 2 -> wanti3 vz vr k seed N b (cell3 2 0 b p q) = want3 k seed N b p q.
Proof.
  intros Hg Hp Hq. unfold cell3. assert (E : stepval3 N p = value3 STEP N p).
  { destruct N as [[nx ny] nz], p as [[x y] z]. unfold stepval3, value3. cbn in Hg. rewrite !half by lia. reflexivity. }
  assert (q = 0 \/ q = 1) as [-> | ->] by lia; destruct k; cbn [wanti3 want3 Z.eqb]; try reflexivity; try (rewrite pcell_1; reflexivity);
    try rewrite Z.add_0_r, pcell_0, pt_at3_pos by exact Hp.
  - destruct N as [[? ?] ?], p as [[? ?] ?]. reflexivity.
  - rewrite E. reflexivity.
  - destruct N as [[? ?] ?], p as [[? ?] ?]. unfold indexval3, value3. f_equal. lia.
Qed.
Lemma wanti2_ok k seed N b p q : inb2 p (grid2 N) -> inb2 p b -> 0 <= q < 2 -> wanti2 vz vr k seed N b (cell2 2 0 b p q) = want2 k seed N b p q.
Proof.
  intros Hg Hp Hq. unfold cell2. assert (E : stepval2 N p = value2 STEP N p).
  { destruct N as [nx ny], p as [x y]. unfold stepval2, value2. cbn in Hg. rewrite !half by lia. reflexivity. }
  assert (q = 0 \/ q = 1) as [-> | ->] by lia; destruct k; cbn [wanti2 want2 Z.eqb]; try reflexivity; try (rewrite pcell_1; reflexivity);
    try rewrite Z.add_0_r, pcell_0, pt_at2_pos by exact Hp.
  - destruct N as [? ?], p as [? ?]. reflexivity.
  - rewrite E. reflexivity.
  - destruct N as [? ?], p as [? ?]. unfold indexval2, value2. f_equal. lia.
Qed.
End Want.

Lemma cell3_at b m : legal3 b -> 0 <= m < 2 * psize3 b -> inb3 (pt_at3 b (m / 2)) b /\ 0 <= m mod 2 < 2 /\ cell3 2 0 b (pt_at3 b (m / 2)) (m mod 2) = m.
Proof.
  intros Hb Hm. pose proof (Z.div_mod m 2 ltac:(lia)). pose proof (Z.mod_pos_bound m 2 ltac:(lia)).
  destruct (pt_at3_in b (m / 2) Hb) as (A & B); [lia|]. split; [exact A|]. split; [lia|]. unfold cell3. rewrite B. lia.
Qed.
Lemma cell2_at b m : legal2 b -> 0 <= m < 2 * psize2 b -> inb2 (pt_at2 b (m / 2)) b /\ 0 <= m mod 2 < 2 /\ cell2 2 0 b (pt_at2 b (m / 2)) (m mod 2) = m.
Proof.
  intros Hb Hm. pose proof (Z.div_mod m 2 ltac:(lia)). pose proof (Z.mod_pos_bound m 2 ltac:(lia)).
  destruct (pt_at2_in b (m / 2) Hb) as (A & B); [lia|]. split; [exact A|]. split; [lia|]. unfold cell2. rewrite B. lia.
Qed.
Lemma cell3_lt b p q : inb3 p b -> 0 <= q < 2 -> 0 <= cell3 2 0 b p q < 2 * psize3 b.
Proof. intros Hp Hq. pose proof (pos3_psize 0 b p (or_introl eq_refl) Hp). unfold cell3. lia. Qed.
Lemma cell2_lt b p q : inb2 p b -> 0 <= q < 2 -> 0 <= cell2 2 0 b p q < 2 * psize2 b.
Proof. intros Hp Hq. pose proof (pos2_psize 0 b p (or_introl eq_refl) Hp). unfold cell2. lia. Qed.

(** ** what validate reports, in exact arithmetic *)
(** the largest element of a set of numbers, 0 if they are all at most 0 *)
Definition worst (S : R -> Prop) (eps : R) : Prop := (0 <= eps)%R /\ (forall d, S d -> (d <= eps)%R) /\ (eps = 0%R \/ S eps).
Lemma worst_maxof l (S : R -> Prop) : Forall (fun d => (0 <= d)%R) l -> (forall d, S d <-> In d l) -> worst S (maxof Rgtb 0%R l).
Proof. intros H HS. destruct (maxofR l H) as (A & B & C). split; [exact A|]. split; [intros d Hd; apply B, HS, Hd|]. destruct C as [C|C]; [left; exact C|right; apply HS, C]. Qed.
Lemma worst_all n (S : nat -> R -> Prop) e : (forall r, (r < n)%nat -> worst (S r) (e r)) ->
  worst (fun d => exists r, (r < n)%nat /\ S r d) (maxof Rgtb 0%R (map e (seq 0 n))).
Proof.
  intros H. destruct (maxofR (map e (seq 0 n))) as (A & B & C).
  { apply Forall_forall. intros d Hd. apply in_map_iff in Hd. destruct Hd as (r & <- & Hr). apply in_seq in Hr. apply (proj1 (H r ltac:(lia))). }
  split; [exact A|]. split.
  - intros d (r & Hr & Hd). apply Rle_trans with (e r); [apply (H r Hr), Hd|]. apply B. apply in_map, in_seq. lia.
  - destruct C as [C|C]; [left; exact C|]. apply in_map_iff in C. destruct C as (r & E & Hr). apply in_seq in Hr. rewrite <- E.
    destruct (H r ltac:(lia)) as (_ & _ & [Hz|Hs]); [left; exact Hz|right; exists r; split; [lia|exact Hs]].
Qed.
Definition Rdist1 (w v : R) : R := Rabs (w - v).
(** the deviations of the array of a rank from the initial values *)
Definition devs3 (vr : Z -> R) (k : init) (seed : Z) (N : Z * Z * Z) (b : box3) (w : list R) (d : R) : Prop :=
  exists p q v, inb3 p b /\ 0 <= q < 2 /\ zget w (cell3 2 0 b p q) = Some v /\ d = Rabs (v - want3 IZR vr k seed N b p q).
Definition devs2 (vr : Z -> R) (k : init) (seed : Z) (N : Z * Z) (b : box2) (w : list R) (d : R) : Prop :=
  exists p q v, inb2 p b /\ 0 <= q < 2 /\ zget w (cell2 2 0 b p q) = Some v /\ d = Rabs (v - want2 IZR vr k seed N b p q).

Definition readsof {A} (w : list A) (d : A) (i : Z) : A := match zget w i with Some v => v | None => d end.
Lemma reads_of {A} (w : list A) d k : k <= zlen w -> reads w (readsof w d) k.
Proof. intros H i Hi. unfold readsof. destruct (zget_Some w i) as (v & E); [lia|]. rewrite E. reflexivity. Qed.

Lemma validate3_worst vr k seed N b w : legal3 b -> (forall p, inb3 p b -> inb3 p (grid3 N)) -> 2 * psize3 b <= zlen w -> seed_ok k seed ->
  exists e, validate3 IZR vr Rdist1 Rgtb 0%R k seed N b w = Some e /\ worst (devs3 vr k seed N b w) e.
Proof.
  intros Hb Hg Hl Hs. eexists. split; [apply validate3_ok; [exact Hb|apply (reads_of w 0%R); exact Hl|exact Hs]|].
  apply worst_maxof.
  - apply Forall_forall. intros d Hd. apply in_map_iff in Hd. destruct Hd as (i & <- & _). apply Rabs_pos.
  - intros d. rewrite in_map_iff. split.
    + intros (p & q & v & Hp & Hq & E & ->). exists (cell3 2 0 b p q). split.
      * unfold readsof. rewrite E, wanti3_ok by auto. reflexivity.
      * apply In_zrange, cell3_lt; assumption.
    + intros (i & <- & Hi). apply In_zrange in Hi. destruct (cell3_at b i Hb Hi) as (A & B & C).
      exists (pt_at3 b (i / 2)), (i mod 2), (readsof w 0%R i). split; [exact A|]. split; [exact B|]. split.
      * rewrite C. apply reads_of with (k := 2 * psize3 b); assumption.
      * unfold Rdist1. rewrite <- (wanti3_ok IZR vr k seed N b _ _ (Hg _ A) A B), C. reflexivity.
Qed.
Lemma validate2_worst vr k seed N b w : legal2 b -> (forall p, inb2 p b -> inb2 p (grid2 N)) -> 2 * psize2 b <= zlen w -> seed_ok k seed ->
  exists e, validate2 IZR vr Rdist1 Rgtb 0%R k seed N b w = Some e /\ worst (devs2 vr k seed N b w) e.
Proof.
  intros Hb Hg Hl Hs. eexists. split; [apply validate2_ok; [exact Hb|apply (reads_of w 0%R); exact Hl|exact Hs]|].
  apply worst_maxof.
  - apply Forall_forall. intros d Hd. apply in_map_iff in Hd. destruct Hd as (i & <- & _). apply Rabs_pos.
  - intros d. rewrite in_map_iff. split.
    + intros (p & q & v & Hp & Hq & E & ->). exists (cell2 2 0 b p q). split.
      * unfold readsof. rewrite E, wanti2_ok by auto. reflexivity.
      * apply In_zrange, cell2_lt; assumption.
    + intros (i & <- & Hi). apply In_zrange in Hi. destruct (cell2_at b i Hb Hi) as (A & B & C).
      exists (pt_at2 b (i / 2)), (i mod 2), (readsof w 0%R i). split; [exact A|]. split; [exact B|]. split.
      * rewrite C. apply reads_of with (k := 2 * psize2 b); assumption.
      * unfold Rdist1. rewrite <- (wanti2_ok IZR vr k seed N b _ _ (Hg _ A) A B), C. reflexivity.
Qed.
(** epsmax of all ranks *)
Theorem validate3_all vr k sd N n (ins : nat -> box3) (w : nat -> list R) :
  (forall r, (r < n)%nat -> legal3 (ins r) /\ (forall p, inb3 p (ins r) -> inb3 p (grid3 N)) /\ 2 * psize3 (ins r) <= zlen (w r) /\ seed_ok k (sd r)) ->
  exists e, allmax Rgtb 0%R n (fun r => validate3 IZR vr Rdist1 Rgtb 0%R k (sd r) N (ins r) (w r)) = Some e /\
    worst (fun d => exists r, (r < n)%nat /\ devs3 vr k (sd r) N (ins r) (w r) d) e.
Proof.
  intros H. set (e := fun r => match validate3 IZR vr Rdist1 Rgtb 0%R k (sd r) N (ins r) (w r) with Some e => e | None => 0%R end).
  assert (G : forall r, (r < n)%nat -> validate3 IZR vr Rdist1 Rgtb 0%R k (sd r) N (ins r) (w r) = Some (e r) /\ worst (devs3 vr k (sd r) N (ins r) (w r)) (e r)).
  { intros r Hr. destruct (H r Hr) as (A & B & C & D). destruct (validate3_worst vr k (sd r) N (ins r) (w r) A B C D) as (x & E & W). unfold e. rewrite E. auto. }
  eexists. split; [apply (allmax_ok Rgtb 0%R n _ e); intros r Hr; apply G, Hr|]. apply worst_all. intros r Hr. apply G, Hr.
Qed.
Theorem validate2_all vr k sd N n (ins : nat -> box2) (w : nat -> list R) :
  (forall r, (r < n)%nat -> legal2 (ins r) /\ (forall p, inb2 p (ins r) -> inb2 p (grid2 N)) /\ 2 * psize2 (ins r) <= zlen (w r) /\ seed_ok k (sd r)) ->
  exists e, allmax Rgtb 0%R n (fun r => validate2 IZR vr Rdist1 Rgtb 0%R k (sd r) N (ins r) (w r)) = Some e /\
    worst (fun d => exists r, (r < n)%nat /\ devs2 vr k (sd r) N (ins r) (w r) d) e.
Proof.
  intros H. set (e := fun r => match validate2 IZR vr Rdist1 Rgtb 0%R k (sd r) N (ins r) (w r) with Some e => e | None => 0%R end).
  assert (G : forall r, (r < n)%nat -> validate2 IZR vr Rdist1 Rgtb 0%R k (sd r) N (ins r) (w r) = Some (e r) /\ worst (devs2 vr k (sd r) N (ins r) (w r)) (e r)).
  { intros r Hr. destruct (H r Hr) as (A & B & C & D). destruct (validate2_worst vr k (sd r) N (ins r) (w r) A B C D) as (x & E & W). unfold e. rewrite E. auto. }
  eexists. split; [apply (allmax_ok Rgtb 0%R n _ e); intros r Hr; apply G, Hr|]. apply worst_all. intros r Hr. apply G, Hr.
Qed.
