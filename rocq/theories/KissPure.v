(** KissPure.v : what kf_work computes, cell by cell, for any scalar arithmetic.

    [wk] is the value of every output cell as a function of the input values;
    the lemmas show that the array program kf_work terminates without touching
    anything outside its block and leaves exactly these values.  No law of
    arithmetic is used here, so these facts also hold for floating point. *)

From Verif Require Import Base Kiss.

Section Pure.
Context {F : Type} (O : sops F).
Local Notation C := (@cpx F).
Local Notation re := (@fst F F).
Local Notation im := (@snd F F).
Local Notation "a +. b" := (sadd O a b) (at level 50, left associativity).
Local Notation "a -. b" := (ssub O a b) (at level 50, left associativity).
Local Notation "a *. b" := (smul O a b) (at level 40, left associativity).
Local Notation "-. a" := (sopp O a) (at level 35, right associativity).
Local Notation c_mul := (c_mul O).
Local Notation c_add := (c_add O).
Local Notation c_sub := (c_sub O).
Local Notation c_scale := (c_scale O).

Definition czero : C := (s0 O, s0 O).

(** table entry as a total function; only used inside the table *)
Definition twf (st : @cfg F) (i : Z) : C :=
  match zget (k_tw st) i with Some w => w | None => czero end.

(** the p outputs of one butterfly, as a function of its p inputs [g] *)
Definition b2 (w : Z -> C) (fs m k : Z) (g : Z -> C) (q : Z) : C :=
  let t := c_mul (g 1) (w (k * fs)) in
  if q =? 0 then c_add (g 0) t else c_sub (g 0) t.

Definition b4 (inv : bool) (w : Z -> C) (fs m k : Z) (g : Z -> C) (q : Z) : C :=
  let t0 := c_mul (g 1) (w (k * fs)) in
  let t1 := c_mul (g 2) (w (k * (fs * 2))) in
  let t2 := c_mul (g 3) (w (k * (fs * 3))) in
  let t5 := c_sub (g 0) t1 in
  let f0' := c_add (g 0) t1 in
  let t3 := c_add t0 t2 in
  let t4 := c_sub t0 t2 in
  let u := (re t5 -. im t4, im t5 +. re t4) in
  let v := (re t5 +. im t4, im t5 -. re t4) in
  if q =? 0 then c_add f0' t3
  else if q =? 1 then (if inv then u else v)
  else if q =? 2 then c_sub f0' t3
  else (if inv then v else u).

Definition b3 (w : Z -> C) (fs m k : Z) (g : Z -> C) (q : Z) : C :=
  let epi3 := w (fs * m) in
  let t1 := c_mul (g 1) (w (k * fs)) in
  let t2 := c_mul (g 2) (w (k * (fs * 2))) in
  let t3 := c_add t1 t2 in
  let t0 := c_scale (c_sub t1 t2) (im epi3) in
  let fm := (re (g 0) -. shalf O (re t3), im (g 0) -. shalf O (im t3)) in
  if q =? 0 then c_add (g 0) t3
  else if q =? 1 then (re fm -. im t0, im fm +. re t0)
  else (re fm +. im t0, im fm -. re t0).

Definition b5 (w : Z -> C) (fs m u : Z) (g : Z -> C) (q : Z) : C :=
  let ya := w (fs * m) in
  let yb := w ((fs * 2) * m) in
  let t0 := g 0 in
  let t1 := c_mul (g 1) (w (u * fs)) in
  let t2 := c_mul (g 2) (w ((2 * u) * fs)) in
  let t3 := c_mul (g 3) (w ((3 * u) * fs)) in
  let t4 := c_mul (g 4) (w ((4 * u) * fs)) in
  let t7 := c_add t1 t4 in
  let t10 := c_sub t1 t4 in
  let t8 := c_add t2 t3 in
  let t9 := c_sub t2 t3 in
  let t5 := (re t0 +. re t7 *. re ya +. re t8 *. re yb,
             im t0 +. im t7 *. re ya +. im t8 *. re yb) in
  let t6 := (im t10 *. im ya +. im t9 *. im yb,
             -. (re t10 *. im ya) -. re t9 *. im yb) in
  let t11 := (re t0 +. re t7 *. re yb +. re t8 *. re ya,
              im t0 +. im t7 *. re yb +. im t8 *. re ya) in
  let t12 := (-. (im t10 *. im yb) +. im t9 *. im ya,
              re t10 *. im yb -. re t9 *. im ya) in
  if q =? 0 then (re (g 0) +. (re t7 +. re t8), im (g 0) +. (im t7 +. im t8))
  else if q =? 1 then c_sub t5 t6
  else if q =? 2 then c_add t11 t12
  else if q =? 3 then c_sub t11 t12
  else c_add t5 t6.

(** state (twidx, sum) of the generic q loop after [c] steps *)
Fixpoint gacc (w : Z -> C) (n step : Z) (g : Z -> C) (c : nat) : Z * C :=
  match c with
  | Datatypes.O => (0, g 0)
  | S c' =>
    let s := gacc w n step g c' in
    let twidx := fst s + step in
    let twidx := if n <=? twidx then twidx - n else twidx in
    (twidx, c_add (snd s) (c_mul (g (Z.of_nat c' + 1)) (w twidx)))
  end.

Definition bgen (w : Z -> C) (n fs m p k : Z) (g : Z -> C) (q : Z) : C :=
  snd (gacc w n (fs * (k + q * m)) g (Z.to_nat (p - 1))).

Definition bfly (st : @cfg F) (fs m p k : Z) (g : Z -> C) (q : Z) : C :=
  if p =? 2 then b2 (twf st) fs m k g q
  else if p =? 3 then b3 (twf st) fs m k g q
  else if p =? 4 then b4 (k_inverse st) (twf st) fs m k g q
  else if p =? 5 then b5 (twf st) fs m k g q
  else bgen (twf st) (k_nfft st) fs m p k g q.

(** value of output cell j of kf_work on factors [facs], as a function of the
    input values x i = f[i*fstride*in_stride] *)
Fixpoint wk (st : @cfg F) (facs : list (Z * Z)) (fs : Z) (x : Z -> C) (j : Z) : C :=
  match facs with
  | [] => czero
  | (p, m) :: rest =>
    bfly st fs m p (j mod m)
      (fun q => if m =? 1 then x q
                else wk st rest (fs * p) (fun i => x (q + p * i)) (j mod m))
      (j / m)
  end.

(** a block of cells changed, nothing else *)
Definition blockset (out out' : list C) (o len : Z) (v : Z -> C) : Prop :=
  zlen out' = zlen out /\
  (forall j, 0 <= j < len -> zget out' (o + j) = Some (v j)) /\
  (forall a, ~ (o <= a < o + len) -> zget out' a = zget out a).

(** *** the butterfly loop *)

Definition step_ok (p m o : Z) (B : Z -> (Z -> C) -> Z -> C)
  (body : Z -> list C -> option (list C)) : Prop :=
  forall k out (g : Z -> C), 0 <= k < m ->
    (forall q, 0 <= q < p -> zget out (o + k + q * m) = Some (g q)) ->
    exists out', body k out = Some out' /\ zlen out' = zlen out /\
      (forall q, 0 <= q < p -> zget out' (o + k + q * m) = Some (B k g q)) /\
      (forall a, (forall q, 0 <= q < p -> a <> o + k + q * m) -> zget out' a = zget out a).

Lemma cell_neq m k k' q q' o : 0 <= k < m -> 0 <= k' < m -> k <> k' ->
  o + k + q * m <> o + k' + q' * m.
Proof. intros. destruct (Z.eq_dec q q'); [subst; lia|]. nia. Qed.

Lemma bfly_loop p m o B body (out : list C) (G : Z -> Z -> C) :
  1 <= p -> 0 <= m -> step_ok p m o B body ->
  (forall q k, 0 <= q < p -> 0 <= k < m -> zget out (o + k + q * m) = Some (G q k)) ->
  exists out', for_ m body out = Some out' /\
    blockset out out' o (p * m) (fun j => B (j mod m) (fun q => G q (j mod m)) (j / m)).
Proof.
  intros Hp Hm Hstep HG.
  destruct (for_inv (fun t out1 => zlen out1 = zlen out /\
     (forall q k, 0 <= q < p -> 0 <= k < t -> zget out1 (o + k + q * m) = Some (B k (fun q => G q k) q)) /\
     (forall q k, 0 <= q < p -> t <= k < m -> zget out1 (o + k + q * m) = Some (G q k)) /\
     (forall a, ~ (o <= a < o + p * m) -> zget out1 a = zget out a)) m body out) as (out' & E & L & D & _ & U).
  - lia.
  - repeat split; auto. intros; lia. 
  - intros k out1 Hk (L & D & N & U).
    destruct (Hstep k out1 (fun q => G q k)) as (out2 & E2 & L2 & D2 & U2); [lia| |].
    { intros q Hq. apply N; lia. }
    exists out2; split; [exact E2|]. split; [congruence|]. split; [|split].
    + intros q k' Hq Hk'. destruct (Z.eq_dec k' k) as [->|Hne]; [auto|].
      rewrite U2; [apply D; lia|]. intros q' Hq'. apply cell_neq; lia.
    + intros q k' Hq Hk'. rewrite U2; [apply N; lia|]. intros q' Hq'. apply cell_neq; lia.
    + intros a Ha. rewrite U2; [auto|]. intros q Hq ->. apply Ha. nia.
  - exists out'; split; [exact E|]. split; [exact L|]. split; [|exact U].
    intros j Hj. assert (0 < m) by nia.
    pose proof (Z.div_mod j m) as Hdm. pose proof (Z.mod_pos_bound j m) as Hb.
    replace (o + j) with (o + j mod m + (j / m) * m) by lia.
    apply D; [|lia]. split; [apply Z.div_pos; lia|]. apply Z.div_lt_upper_bound; lia.
Qed.

(** reading and writing helpers *)
Ltac rd H := rewrite H; cbn [bind].

Lemma zset_go (out : list C) i v : 0 <= i < zlen out ->
  exists out', zset out i v = Some out' /\ zlen out' = zlen out /\
    forall a, zget out' a = if i =? a then Some v else zget out a.
Proof.
  intros Hi. destruct (zset_Some out i v Hi) as [out' E]. exists out'. split; [exact E|].
  split; [eapply zset_len; eauto|]. apply zget_zset; exact E.
Qed.

Lemma tw_get (st : @cfg F) n i : zlen (k_tw st) = n -> 0 <= i < n -> zget (k_tw st) i = Some (twf st i).
Proof.
  intros L Hi. unfold twf. destruct (zget_Some (k_tw st) i) as [w E]; [lia|]. rewrite E; reflexivity.
Qed.

Ltac put :=
  match goal with
  | |- context[zset ?l ?i ?v] =>
    let l' := fresh "l" in let E := fresh "E" in let L := fresh "L" in let G := fresh "G" in
    destruct (zset_go l i v) as (l' & E & L & G); [lia|]; rewrite E; cbn [bind]
  end.

Ltac eqbs := repeat match goal with
  | |- context[?a =? ?b] => destruct (Z.eqb_spec a b); try lia
  end.

Lemma step_b2 st fs m o n :
  zlen (k_tw st) = n -> 0 < fs -> 0 < m -> fs * (2 * m) = n ->
  step_ok 2 m o (b2 (twf st) fs m)
   (fun k out =>
    f0 <- zget out (o + k);
    f1 <- zget out ((o + k) + m);
    w1 <- zget (k_tw st) (k * fs);
    let t := c_mul f1 w1 in
    out <- zset out ((o + k) + m) (c_sub f0 t);
    zset out (o + k) (c_add f0 t)).
Proof.
  intros L Hfs Hm Hn k out g Hk HG.
  pose proof (HG 0 ltac:(lia)) as G0. pose proof (HG 1 ltac:(lia)) as G1.
  replace (o + k + 0 * m) with (o + k) in G0 by lia.
  replace (o + k + 1 * m) with (o + k + m) in G1 by lia.
  pose proof (zget_inv _ _ _ G0); pose proof (zget_inv _ _ _ G1).
  rd G0. rd G1. rewrite (tw_get st n) by (auto; nia). cbn [bind].
  put. destruct (zset_go l (o + k) (c_add (g 0) (c_mul (g 1) (twf st (k * fs))))) as (l2 & E2 & L2 & Q2); [lia|].
  exists l2. split; [exact E2|]. split; [lia|]. split.
  - intros q Hq. rewrite Q2, G. assert (q = 0 \/ q = 1) as [->| ->] by lia; unfold b2; simpl (_ =? 0); eqbs; reflexivity.
  - intros a Ha. rewrite Q2, G. pose proof (Ha 0 ltac:(lia)). pose proof (Ha 1 ltac:(lia)). eqbs; reflexivity.
Qed.

Lemma step_b3 st fs m o n :
  zlen (k_tw st) = n -> 0 < fs -> 0 < m -> fs * (3 * m) = n ->
  step_ok 3 m o (b3 (twf st) fs m)
  (fun k out =>
    let a := o + k in
    f0 <- zget out a;
    f1 <- zget out (a + m);
    f2 <- zget out (a + (2 * m));
    w1 <- zget (k_tw st) (k * fs);
    w2 <- zget (k_tw st) (k * (fs * 2));
    let t1 := c_mul f1 w1 in
    let t2 := c_mul f2 w2 in
    let t3 := c_add t1 t2 in
    let t0 := c_sub t1 t2 in
    let fm := (re f0 -. shalf O (re t3), im f0 -. shalf O (im t3)) in
    let t0 := c_scale t0 (im (twf st (fs * m))) in
    out <- zset out a (c_add f0 t3);
    out <- zset out (a + (2 * m)) (re fm +. im t0, im fm -. re t0);
    zset out (a + m) (re fm -. im t0, im fm +. re t0)).
Proof.
  intros L Hfs Hm Hn k out g Hk HG. cbv zeta.
  pose proof (HG 0 ltac:(lia)) as G0. pose proof (HG 1 ltac:(lia)) as G1. pose proof (HG 2 ltac:(lia)) as G2.
  replace (o + k + 0 * m) with (o + k) in G0 by lia.
  replace (o + k + 1 * m) with (o + k + m) in G1 by lia.
  pose proof (zget_inv _ _ _ G0); pose proof (zget_inv _ _ _ G1); pose proof (zget_inv _ _ _ G2).
  rd G0. rd G1. rd G2. rewrite !(tw_get st n) by (auto; nia). cbn [bind].
  put. put.
  match goal with |- context[zset ?l ?i ?v] =>
    destruct (zset_go l i v) as (l3 & E3 & L3 & Q3); [lia|] end.
  exists l3. split; [exact E3|]. split; [lia|]. split.
  - intros q Hq. rewrite Q3, G3, G.
    assert (q = 0 \/ q = 1 \/ q = 2) as [->|[->| ->]] by lia; unfold b3; simpl (_ =? 0); simpl (_ =? 1); eqbs; reflexivity.
  - intros a Ha. rewrite Q3, G3, G. pose proof (Ha 0 ltac:(lia)). pose proof (Ha 1 ltac:(lia)). pose proof (Ha 2 ltac:(lia)).
    eqbs; reflexivity.
Qed.

Lemma step_b4 st fs m o n :
  zlen (k_tw st) = n -> 0 < fs -> 0 < m -> fs * (4 * m) = n ->
  step_ok 4 m o (b4 (k_inverse st) (twf st) fs m)
  (fun k out =>
    let a := o + k in
    f0 <- zget out a;
    f1 <- zget out (a + m);
    f2 <- zget out (a + (2 * m));
    f3 <- zget out (a + (3 * m));
    w1 <- zget (k_tw st) (k * fs);
    w2 <- zget (k_tw st) (k * (fs * 2));
    w3 <- zget (k_tw st) (k * (fs * 3));
    let t0 := c_mul f1 w1 in
    let t1 := c_mul f2 w2 in
    let t2 := c_mul f3 w3 in
    let t5 := c_sub f0 t1 in
    let f0' := c_add f0 t1 in
    let t3 := c_add t0 t2 in
    let t4 := c_sub t0 t2 in
    out <- zset out (a + (2 * m)) (c_sub f0' t3);
    out <- zset out a (c_add f0' t3);
    if k_inverse st then
      out <- zset out (a + m) (re t5 -. im t4, im t5 +. re t4);
      zset out (a + (3 * m)) (re t5 +. im t4, im t5 -. re t4)
    else
      out <- zset out (a + m) (re t5 +. im t4, im t5 -. re t4);
      zset out (a + (3 * m)) (re t5 -. im t4, im t5 +. re t4)).
Proof.
  intros L Hfs Hm Hn k out g Hk HG. cbv zeta.
  pose proof (HG 0 ltac:(lia)) as G0. pose proof (HG 1 ltac:(lia)) as G1. pose proof (HG 2 ltac:(lia)) as G2.
  pose proof (HG 3 ltac:(lia)) as G3.
  replace (o + k + 0 * m) with (o + k) in G0 by lia.
  replace (o + k + 1 * m) with (o + k + m) in G1 by lia.
  pose proof (zget_inv _ _ _ G0); pose proof (zget_inv _ _ _ G1); pose proof (zget_inv _ _ _ G2); pose proof (zget_inv _ _ _ G3).
  rd G0. rd G1. rd G2. rd G3. rewrite !(tw_get st n) by (auto; nia). cbn [bind].
  put. put. rename G into QA, G4 into QB. unfold b4. destruct (k_inverse st).
  all: put; match goal with |- context[zset ?l ?i ?v] =>
    destruct (zset_go l i v) as (l4 & E4 & L4 & Q4); [lia|] end;
    exists l4; split; [exact E4|]; split; [lia|]; split.
  1,3: intros q Hq; rewrite Q4, G, QB, QA;
    assert (q = 0 \/ q = 1 \/ q = 2 \/ q = 3) as [->|[->|[->| ->]]] by lia; simpl (_ =? 0); simpl (_ =? 1); simpl (_ =? 2); eqbs; reflexivity.
  all: intros a Ha; rewrite Q4, G, QB, QA; pose proof (Ha 0 ltac:(lia)); pose proof (Ha 1 ltac:(lia)); pose proof (Ha 2 ltac:(lia)); pose proof (Ha 3 ltac:(lia));
    eqbs; reflexivity.
Qed.

Lemma step_b5 st fs m o n :
  zlen (k_tw st) = n -> 0 < fs -> 0 < m -> fs * (5 * m) = n ->
  step_ok 5 m o (b5 (twf st) fs m)
  (fun u out =>
    let ya := twf st (fs * m) in
    let yb := twf st ((fs * 2) * m) in
    let a := o + u in
    f0 <- zget out a;
    f1 <- zget out (a + m);
    f2 <- zget out (a + (2 * m));
    f3 <- zget out (a + (3 * m));
    f4 <- zget out (a + (4 * m));
    w1 <- zget (k_tw st) (u * fs);
    w2 <- zget (k_tw st) ((2 * u) * fs);
    w3 <- zget (k_tw st) ((3 * u) * fs);
    w4 <- zget (k_tw st) ((4 * u) * fs);
    let t0 := f0 in
    let t1 := c_mul f1 w1 in
    let t2 := c_mul f2 w2 in
    let t3 := c_mul f3 w3 in
    let t4 := c_mul f4 w4 in
    let t7 := c_add t1 t4 in
    let t10 := c_sub t1 t4 in
    let t8 := c_add t2 t3 in
    let t9 := c_sub t2 t3 in
    out <- zset out a (re f0 +. (re t7 +. re t8), im f0 +. (im t7 +. im t8));
    let t5 := (re t0 +. re t7 *. re ya +. re t8 *. re yb,
               im t0 +. im t7 *. re ya +. im t8 *. re yb) in
    let t6 := (im t10 *. im ya +. im t9 *. im yb,
               -. (re t10 *. im ya) -. re t9 *. im yb) in
    out <- zset out (a + m) (c_sub t5 t6);
    out <- zset out (a + (4 * m)) (c_add t5 t6);
    let t11 := (re t0 +. re t7 *. re yb +. re t8 *. re ya,
                im t0 +. im t7 *. re yb +. im t8 *. re ya) in
    let t12 := (-. (im t10 *. im yb) +. im t9 *. im ya,
                re t10 *. im yb -. re t9 *. im ya) in
    out <- zset out (a + (2 * m)) (c_add t11 t12);
    zset out (a + (3 * m)) (c_sub t11 t12)).
Proof.
  intros L Hfs Hm Hn k out g Hk HG. cbv zeta.
  pose proof (HG 0 ltac:(lia)) as G0. pose proof (HG 1 ltac:(lia)) as G1. pose proof (HG 2 ltac:(lia)) as G2.
  pose proof (HG 3 ltac:(lia)) as G3. pose proof (HG 4 ltac:(lia)) as G4.
  replace (o + k + 0 * m) with (o + k) in G0 by lia.
  replace (o + k + 1 * m) with (o + k + m) in G1 by lia.
  pose proof (zget_inv _ _ _ G0); pose proof (zget_inv _ _ _ G1); pose proof (zget_inv _ _ _ G2); pose proof (zget_inv _ _ _ G3).
  pose proof (zget_inv _ _ _ G4).
  rd G0. rd G1. rd G2. rd G3. rd G4.
  rewrite (tw_get st n (k * fs)), (tw_get st n (2 * k * fs)), (tw_get st n (3 * k * fs)), (tw_get st n (4 * k * fs)) by (auto; nia).
  cbn [bind].
  put. put. put. put. 
  match goal with |- context[zset ?l ?i ?v] =>
    destruct (zset_go l i v) as (l5 & E5 & L5 & Q5); [lia|] end.
  exists l5. split; [exact E5|]. split; [lia|]. split.
  - intros q Hq. rewrite Q5, G7, G6, G5, G.
    assert (q = 0 \/ q = 1 \/ q = 2 \/ q = 3 \/ q = 4) as [->|[->|[->|[->| ->]]]] by lia; unfold b5;
      simpl (_ =? 0); simpl (_ =? 1); simpl (_ =? 2); simpl (_ =? 3); eqbs; reflexivity.
  - intros a Ha. rewrite Q5, G7, G6, G5, G. pose proof (Ha 0 ltac:(lia)). pose proof (Ha 1 ltac:(lia)). pose proof (Ha 2 ltac:(lia)).
    pose proof (Ha 3 ltac:(lia)). pose proof (Ha 4 ltac:(lia)).
    eqbs; reflexivity.
Qed.

(** the scratch array of the generic butterfly *)
Lemma gather_ok (out : list C) o u m p (g : Z -> C) : 0 <= p ->
  (forall q, 0 <= q < p -> zget out (o + (u + q * m)) = Some (g q)) ->
  exists sc, for_ p (fun q1 sc => v <- zget out (o + (u + q1 * m)); Some (sc ++ [v])) [] = Some sc /\
    zlen sc = p /\ forall q, 0 <= q < p -> zget sc q = Some (g q).
Proof.
  intros Hp HG.
  destruct (for_inv (fun t sc => zlen sc = t /\ forall q, 0 <= q < t -> zget sc q = Some (g q)) p
     (fun q1 sc => v <- zget out (o + (u + q1 * m)); Some (sc ++ [v])) []) as (sc & E & I).
  - lia.
  - split; [reflexivity|intros; lia].
  - intros q sc Hq (L & H). rewrite HG by lia. cbn [bind]. eexists; split; [reflexivity|].
    split; [rewrite zlen_app; unfold zlen at 2; cbn [length]; lia|].
    intros q' Hq'. rewrite zget_app. destruct (Z.ltb_spec q' (zlen sc)); [apply H; lia|].
    replace (q' - zlen sc) with 0 by lia. replace q' with q by lia. reflexivity.
  - exists sc; split; [exact E|exact I].
Qed.

(** the accumulated twiddle index stays inside the table *)
Lemma gacc_range w n step g c : 0 <= step < n -> 0 <= fst (gacc w n step g c) < n.
Proof.
  intros Hs. induction c as [|c IH]; cbn [gacc fst]; [lia|].
  cbv zeta. cbn [fst]. destruct (Z.leb_spec n (fst (gacc w n step g c) + step)); lia.
Qed.

Lemma qloop_ok st n fs k p sc (g : Z -> C) :
  k_nfft st = n -> zlen (k_tw st) = n -> 0 <= fs * k < n -> 1 <= p ->
  (forall q, 0 <= q < p -> zget sc q = Some (g q)) ->
  for_ (p - 1) (fun q' (s : Z * C) =>
        let q := q' + 1 in
        let twidx := fst s + fs * k in
        let twidx := if k_nfft st <=? twidx then twidx - k_nfft st else twidx in
        sq <- zget sc q;
        w <- zget (k_tw st) twidx;
        Some (twidx, c_add (snd s) (c_mul sq w))) (0, g 0)
  = Some (gacc (twf st) n (fs * k) g (Z.to_nat (p - 1))).
Proof.
  intros Hn L Hk Hp HG.
  destruct (for_inv (fun t s => s = gacc (twf st) n (fs * k) g (Z.to_nat t)) (p - 1)
    (fun q' (s : Z * C) =>
        let q := q' + 1 in
        let twidx := fst s + fs * k in
        let twidx := if k_nfft st <=? twidx then twidx - k_nfft st else twidx in
        sq <- zget sc q;
        w <- zget (k_tw st) twidx;
        Some (twidx, c_add (snd s) (c_mul sq w))) (0, g 0)) as (s & E & I).
  - lia.
  - reflexivity.
  - intros q s Hq ->. eexists; split; [|reflexivity].
    replace (Z.to_nat (q + 1)) with (S (Z.to_nat q)) by lia. cbn [gacc]. cbv zeta.
    pose proof (gacc_range (twf st) n (fs * k) g (Z.to_nat q) Hk) as HR.
    rewrite Hn, HG by lia. cbn [bind].
    rewrite (tw_get st n) by (auto; destruct (Z.leb_spec n (fst (gacc (twf st) n (fs * k) g (Z.to_nat q)) + fs * k)); lia).
    cbn [bind]. rewrite Z2Nat.id by lia. reflexivity.
  - rewrite E, I. reflexivity.
Qed.

Lemma step_bgen st fs m p o n :
  k_nfft st = n -> zlen (k_tw st) = n -> 0 < fs -> 0 < m -> 1 <= p -> fs * (p * m) = n ->
  step_ok p m o (bgen (twf st) n fs m p)
  (fun u out =>
    scratch <- for_ p (fun q1 sc =>
      v <- zget out (o + (u + (q1 * m))); Some (sc ++ [v])) [];
    for_ p (fun q1 out =>
      let k := u + q1 * m in
      v0 <- zget scratch 0;
      r <- for_ (p - 1) (fun q' (s : Z * C) =>
        let q := q' + 1 in
        let twidx := fst s + fs * k in
        let twidx := if k_nfft st <=? twidx then twidx - k_nfft st else twidx in
        sq <- zget scratch q;
        w <- zget (k_tw st) twidx;
        Some (twidx, c_add (snd s) (c_mul sq w))) (0, v0);
      zset out (o + k) (snd r)) out).
Proof.
  intros Hn L Hfs Hm Hp HN u out g Hu HG.
  destruct (gather_ok out o u m p g) as (sc & E & Ls & HS); [lia| |].
  { intros q Hq. rewrite <- HG by lia. f_equal; lia. }
  rewrite E. cbn [bind].
  match goal with |- context[for_ p ?b out] => set (body := b) end.
  destruct (for_inv (fun t o1 => zlen o1 = zlen out /\
     (forall q, 0 <= q < t -> zget o1 (o + u + q * m) = Some (bgen (twf st) n fs m p u g q)) /\
     (forall a, (forall q, 0 <= q < t -> a <> o + u + q * m) -> zget o1 a = zget out a)) p body out)
    as (out' & E' & I).
  - lia.
  - split; [reflexivity|]. split; [intros; lia|auto].
  - intros q o1 Hq (L1 & D & U). unfold body. cbv zeta.
    rewrite HS by lia. cbn [bind].
    assert (0 <= u + q * m < p * m) by nia.
    pose proof (qloop_ok st n fs (u + q * m) p sc g Hn L ltac:(nia) Hp HS) as HQ.
    cbv zeta in HQ. rewrite HQ. cbn [bind].
    pose proof (zget_inv _ _ _ (HG q ltac:(lia))) as Hin.
    match goal with |- context[zset ?l ?i ?v] => destruct (zset_go l i v) as (o2 & E2 & L2 & Q2); [lia|] end.
    exists o2. split; [exact E2|]. split; [congruence|]. split.
    + intros q' Hq'. rewrite Q2. destruct (Z.eqb_spec (o + (u + q * m)) (o + u + q' * m)).
      * assert (q' = q) by nia. subst q'. reflexivity.
      * apply D. assert (q' <> q) by (intros ->; lia). lia.
    + intros a Ha. rewrite Q2. destruct (Z.eqb_spec (o + (u + q * m)) a).
      * exfalso. apply (Ha q); lia.
      * apply U. intros q' Hq'. apply Ha; lia.
  - destruct I as (L1 & D & U). exists out'. auto.
Qed.

(** ** kf_work *)

(** the factor list describes a transform of length L *)
Fixpoint chain (facs : list (Z * Z)) (L : Z) : Prop :=
  match facs with
  | [] => False
  | (p, m) :: rest => 1 <= p /\ 1 <= m /\ p * m = L /\ (m = 1 \/ (1 < m /\ chain rest m))
  end.

Lemma chain_pos facs L : chain facs L -> 1 <= L.
Proof. destruct facs as [|[p m] rest]; simpl; [tauto|]. intros (?&?&?&_). nia. Qed.

Definition kf_bfly (st : @cfg F) (fs m p o : Z) (out : list C) : option (list C) :=
    if p =? 2 then kf_bfly2 O st fs m o out
    else if p =? 3 then kf_bfly3 O st fs m o out
    else if p =? 4 then kf_bfly4 O st fs m o out
    else if p =? 5 then kf_bfly5 O st fs m o out
    else kf_bfly_generic O st fs m p o out.

Lemma kf_bfly_ok st n fs m p o out (G : Z -> Z -> C) :
  k_nfft st = n -> zlen (k_tw st) = n -> 0 < fs -> 0 < m -> 1 <= p -> fs * (p * m) = n ->
  (forall q k, 0 <= q < p -> 0 <= k < m -> zget out (o + k + q * m) = Some (G q k)) ->
  exists out', kf_bfly st fs m p o out = Some out' /\
    blockset out out' o (p * m) (fun j => bfly st fs m p (j mod m) (fun q => G q (j mod m)) (j / m)).
Proof.
  intros Hn L Hfs Hm Hp HN HG. unfold kf_bfly, bfly. subst n.
  destruct (Z.eqb_spec p 2) as [->|_].
  { unfold kf_bfly2. destruct (Z.ltb_spec m 1); [lia|].
    eapply bfly_loop; eauto; try lia. eapply step_b2; eauto; lia. }
  destruct (Z.eqb_spec p 3) as [->|_].
  { unfold kf_bfly3. destruct (Z.ltb_spec m 1); [lia|].
    rewrite (tw_get st _ (fs * m) L) by nia. cbn [bind].
    eapply bfly_loop; eauto; try lia. eapply step_b3; eauto; lia. }
  destruct (Z.eqb_spec p 4) as [->|_].
  { unfold kf_bfly4. destruct (Z.ltb_spec m 1); [lia|].
    eapply bfly_loop; eauto; try lia. eapply step_b4; eauto; lia. }
  destruct (Z.eqb_spec p 5) as [->|_].
  { unfold kf_bfly5.
    rewrite (tw_get st _ (fs * m) L) by nia. cbn [bind].
    rewrite (tw_get st _ (fs * 2 * m) L) by nia. cbn [bind].
    eapply bfly_loop; eauto; try lia. eapply step_b5; eauto; lia. }
  unfold kf_bfly_generic. eapply bfly_loop; eauto; try lia. eapply step_bgen; eauto; lia.
Qed.

Lemma kf_work_unfold st p m rest fs ist fin i o out :
  kf_work O st ((p, m) :: rest) fs ist fin i o out =
    (if (p <? 1) || (m <? 1) then None else
    out <- (if m =? 1
            then for_ p (fun q out =>
                   v <- zget fin (i + (q * (fs * ist)));
                   zset out (o + q) v) out
            else for_ p (fun q out =>
                   kf_work O st rest (fs * p) ist fin (i + (q * (fs * ist)))
                     (o + (q * m)) out) out);
    kf_bfly st fs m p o out).
Proof. reflexivity. Qed.

Lemma kf_work_ok st n facs : forall fs ist fin i o out x L,
  k_nfft st = n -> zlen (k_tw st) = n -> 0 < fs -> chain facs L -> fs * L = n ->
  (forall t, 0 <= t < L -> zget fin (i + t * (fs * ist)) = Some (x t)) ->
  0 <= o -> o + L <= zlen out ->
  exists out', kf_work O st facs fs ist fin i o out = Some out' /\
    blockset out out' o L (wk st facs fs x).
Proof.
  induction facs as [|[p m] rest IH]; intros fs ist fin i o out x L Hn Ltw Hfs Hch HL Hx Ho Hlen.
  { contradiction. }
  cbn [chain] in Hch. destruct Hch as (Hp & Hm & HpmL & Hrest).
  rewrite kf_work_unfold.
  destruct (Z.ltb_spec p 1); [lia|]. destruct (Z.ltb_spec m 1); [lia|]. cbn [orb].
  set (G := fun q k => if m =? 1 then x q else wk st rest (fs * p) (fun t => x (q + p * t)) k).
  assert (H1 : exists o1,
    (if m =? 1
     then for_ p (fun q out => v <- zget fin (i + q * (fs * ist)); zset out (o + q) v) out
     else for_ p (fun q out => kf_work O st rest (fs * p) ist fin (i + q * (fs * ist)) (o + q * m) out) out) = Some o1 /\
    zlen o1 = zlen out /\
    (forall q k, 0 <= q < p -> 0 <= k < m -> zget o1 (o + k + q * m) = Some (G q k)) /\
    (forall a, ~ (o <= a < o + p * m) -> zget o1 a = zget out a)).
  { match goal with |- exists o1, ?e = Some o1 /\ _ =>
      assert (HH : exists o1, e = Some o1 /\ zlen o1 = zlen out /\
        (forall q k, 0 <= q < p -> 0 <= k < m -> zget o1 (o + k + q * m) = Some (G q k)) /\
        (forall a, ~ (o <= a < o + p * m) -> zget o1 a = zget out a)) end; [|exact HH].
    set (I := fun t (o1 : list C) => zlen o1 = zlen out /\
       (forall q k, 0 <= q < t -> 0 <= k < m -> zget o1 (o + k + q * m) = Some (G q k)) /\
       (forall a, ~ (o <= a < o + p * m) -> zget o1 a = zget out a)).
    assert (I0 : I 0 out) by (split; [reflexivity|split; [intros; lia|auto]]).
    destruct (Z.eqb_spec m 1) as [->|Hm1].
    - destruct (for_inv I p (fun q out => v <- zget fin (i + q * (fs * ist)); zset out (o + q) v) out) as (o1 & E & HI); [lia|exact I0| |].
      2:{ exists o1; split; [exact E|exact HI]. }
      intros q o1 Hq (L1 & D & U). rewrite Hx by lia. cbn [bind].
      destruct (zset_go o1 (o + q) (x q)) as (o2 & E2 & L2 & Q2); [lia|].
      exists o2. split; [exact E2|]. split; [congruence|]. split.
      + intros q' k Hq' Hk. assert (k = 0) by lia. subst k. rewrite Q2.
        destruct (Z.eqb_spec (o + q) (o + 0 + q' * 1)).
        * assert (q' = q) by lia. subst q'. unfold G. reflexivity.
        * apply D; lia.
      + intros a Ha. rewrite Q2. destruct (Z.eqb_spec (o + q) a); [lia|]. apply U; lia.
    - destruct Hrest as [Hr|[Hm2 Hr]]; [lia|].
      destruct (for_inv I p (fun q out => kf_work O st rest (fs * p) ist fin (i + q * (fs * ist)) (o + q * m) out) out) as (o1 & E & HI); [lia|exact I0| |].
      2:{ exists o1; split; [exact E|exact HI]. }
      intros q o1 Hq (L1 & D & U).
      assert (q * m + m <= p * m) by nia.
      destruct (IH (fs * p) ist fin (i + q * (fs * ist)) (o + q * m) o1 (fun t => x (q + p * t)) m) as (o2 & E2 & L2 & D2 & U2); auto; try nia.
      { intros t Ht. rewrite <- Hx by nia. f_equal. ring. }
      exists o2. split; [exact E2|]. split; [congruence|]. split.
      + intros q' k Hq' Hk. destruct (Z.eq_dec q' q) as [->|Hne].
        * replace (o + k + q * m) with (o + q * m + k) by lia. rewrite D2 by lia. unfold G.
          destruct (Z.eqb_spec m 1); [lia|reflexivity].
        * rewrite U2; [apply D; lia|]. nia.
      + intros a Ha. rewrite U2 by nia. apply U; lia. }
  destruct H1 as (o1 & E1 & L1 & D1 & U1). rewrite E1. cbn [bind].
  destruct (kf_bfly_ok st n fs m p o o1 G) as (o2 & E2 & L2 & D2 & U2); auto; [lia|rewrite HpmL; exact HL|].
  exists o2. split; [exact E2|]. subst L. split; [congruence|]. split.
  - intros j Hj. rewrite D2 by lia. cbn [wk]. reflexivity.
  - intros a Ha. rewrite U2 by lia. apply U1; lia.
Qed.

(** the value depends only on the first L inputs *)
Lemma gacc_ext w n step g g' c : (forall q, 0 <= q <= Z.of_nat c -> g q = g' q) ->
  gacc w n step g c = gacc w n step g' c.
Proof.
  induction c as [|c IH]; intros H; cbn [gacc]; [rewrite H by lia; reflexivity|].
  rewrite IH by (intros; apply H; lia). rewrite H by lia. reflexivity.
Qed.

Lemma bfly_ext st fs m p k g g' q : 1 <= p -> (forall q, 0 <= q < p -> g q = g' q) ->
  bfly st fs m p k g q = bfly st fs m p k g' q.
Proof.
  intros Hp H. unfold bfly.
  destruct (Z.eqb_spec p 2) as [->|]. { unfold b2. rewrite !H by lia. reflexivity. }
  destruct (Z.eqb_spec p 3) as [->|]. { unfold b3. rewrite !H by lia. reflexivity. }
  destruct (Z.eqb_spec p 4) as [->|]. { unfold b4. rewrite !H by lia. reflexivity. }
  destruct (Z.eqb_spec p 5) as [->|]. { unfold b5. rewrite !H by lia. reflexivity. }
  unfold bgen. rewrite (gacc_ext _ _ _ g g'); [reflexivity|]. intros; apply H; lia.
Qed.

Lemma wk_ext st facs : forall fs x x' L j, chain facs L -> 0 <= j < L ->
  (forall t, 0 <= t < L -> x t = x' t) -> wk st facs fs x j = wk st facs fs x' j.
Proof.
  induction facs as [|[p m] rest IH]; intros fs x x' L j Hch Hj Hx; [contradiction|].
  cbn [chain] in Hch. destruct Hch as (Hp & Hm & HpmL & Hrest). cbn [wk].
  apply bfly_ext; [exact Hp|]. intros q Hq.
  destruct (Z.eqb_spec m 1) as [->|].
  - apply Hx; lia.
  - destruct Hrest as [|[Hm2 Hr]]; [lia|].
    apply (IH (fs * p) _ _ m); [exact Hr|apply Z.mod_pos_bound; lia|].
    intros t Ht. apply Hx. nia.
Qed.

(** writing a block *)
Lemma cwrite_ok (out : list C) o blk (v : Z -> C) :
  0 <= o -> o + zlen blk <= zlen out -> (forall j, 0 <= j < zlen blk -> zget blk j = Some (v j)) ->
  exists out', cwrite out o blk = Some out' /\ blockset out out' o (zlen blk) v.
Proof.
  intros Ho Hl Hv. unfold cwrite.
  destruct (for_inv (fun t o1 => zlen o1 = zlen out /\
     (forall j, 0 <= j < t -> zget o1 (o + j) = Some (v j)) /\
     (forall a, ~ (o <= a < o + t) -> zget o1 a = zget out a)) (zlen blk)
     (fun j out => x <- zget blk j; zset out (o + j) x) out) as (o1 & E & HI).
  - apply zlen_nonneg.
  - split; [reflexivity|]. split; [intros; lia|auto].
  - intros j o1 Hj (L1 & D & U). rewrite Hv by lia. cbn [bind].
    destruct (zset_go o1 (o + j) (v j)) as (o2 & E2 & L2 & Q2); [lia|].
    exists o2. split; [exact E2|]. split; [congruence|]. split.
    + intros j' Hj'. rewrite Q2. destruct (Z.eqb_spec (o + j) (o + j')); [|apply D; lia].
      do 2 f_equal. lia.
    + intros a Ha. rewrite Q2. destruct (Z.eqb_spec (o + j) a); [lia|apply U; lia].
  - exists o1. split; [exact E|exact HI].
Qed.

(** ** the whole 1d transform *)

Lemma kiss_outplace_ok st n ist fin i out o x :
  k_nfft st = n -> zlen (k_tw st) = n -> chain (k_factors st) n ->
  (forall t, 0 <= t < n -> zget fin (i + t * ist) = Some (x t)) ->
  0 <= o -> o + n <= zlen out ->
  exists out', kiss_fft_outplace O st ist fin i out o = Some out' /\
    blockset out out' o n (wk st (k_factors st) 1 x).
Proof.
  intros Hn L Hc Hx Ho Hl. unfold kiss_fft_outplace.
  apply (kf_work_ok st n (k_factors st) 1 ist fin i o out x n); auto; try lia.
  intros t Ht. rewrite Z.mul_1_l. auto.
Qed.

Lemma kiss_inplace_ok st n tmp ist arr o x :
  k_nfft st = n -> zlen (k_tw st) = n -> chain (k_factors st) n -> zlen tmp = n ->
  (forall t, 0 <= t < n -> zget arr (o + t * ist) = Some (x t)) ->
  0 <= o -> o + n <= zlen arr ->
  exists arr', kiss_fft_inplace O st tmp ist arr o = Some arr' /\
    blockset arr arr' o n (wk st (k_factors st) 1 x).
Proof.
  intros Hn L Hc Ht Hx Ho Hl. unfold kiss_fft_inplace.
  destruct (kf_work_ok st n (k_factors st) 1 ist arr o 0 tmp x n) as (t & E & Lt & D & U); auto; try lia.
  { intros t Htt. rewrite Z.mul_1_l. auto. }
  rewrite E. cbn [bind].
  destruct (cwrite_ok arr o t (wk st (k_factors st) 1 x)) as (a' & E' & B); [lia|lia| |].
  { intros j Hj. rewrite <- (Z.add_0_l j). rewrite D by lia. reflexivity. }
  exists a'. split; [exact E'|]. rewrite Lt, Ht in B. exact B.
Qed.

End Pure.
