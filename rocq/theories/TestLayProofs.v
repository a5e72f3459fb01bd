(** TestLayProofs.v : the processor grids and layouts of the test programs. *)

From Coq Require Import QArith Qround Lqa.
From Verif Require Import Base Spec Sched Layout LayoutProofs Double DoubleProofs TestProg.
Local Open Scope Z_scope.

(** ** what is needed of the rounding *)
Definition rd_laws (rd : Q -> Q) : Prop :=
  (forall a b, 0 < a -> a <= b -> rd a <= rd b)%Q /\
  (forall a, 0 < a -> rd (2 * a) == 2 * rd a)%Q /\
  (forall z, (0 < z <= 2 ^ 53)%Z -> rd (inject_Z z) == inject_Z z)%Q /\
  (forall q, 0 < q -> (1 - u) * q <= rd q /\ rd q <= (1 + u) * q)%Q /\
  (forall q, q == 0 -> rd q == 0)%Q.

Lemma u_bounds : (0 < u)%Q /\ (u <= 1 # 4)%Q.
Proof. unfold u. split; vm_compute; [reflexivity|discriminate]. Qed.
Lemma id_laws : rd_laws (fun q => q).
Proof.
  pose proof u_bounds as (U1 & U2). unfold rd_laws. split; [|split; [|split; [|split]]]; intros; try lra; try reflexivity; auto. 
  split; nra.
Qed.
Lemma fl_laws : rd_laws fl.
Proof.
  split; [|split; [|split; [|split]]].
  - apply fl_mono.
  - apply fl_double.
  - apply fl_int.
  - apply fl_error.
  - intros q H. unfold Qeq in H. cbn in H. unfold fl. assert (E : Qnum q = 0) by lia. rewrite E. reflexivity.
Qed.

Definition factors3 (P : Z) (g : Z * Z * Z) : Prop := let '(x, y, z) := g in 1 <= x /\ 1 <= y /\ 1 <= z /\ x * y * z = P.
Definition factors2 (P : Z) (g : Z * Z) : Prop := let '(x, y) := g in 1 <= x /\ 1 <= y /\ x * y = P.
Definition pos3d (N : Z * Z * Z) : Prop := let '(x, y, z) := N in 1 <= x /\ 1 <= y /\ 1 <= z.
Definition pos2d (N : Z * Z) : Prop := let '(x, y) := N in 1 <= x /\ 1 <= y.

(** ** searching for the smallest *)
Section Search.
Context {T : Type} (area : T -> Q).
Definition pick (st : Q * T) (g : T) : Q * T := if Qltb (area g) (fst st) then (area g, g) else st.
Lemma pick_spec l : forall s d, let r := fold_left pick l (s, d) in
  (r = (s, d) /\ forall c, In c l -> (s <= area c)%Q) \/
  (In (snd r) l /\ fst r = area (snd r) /\ (fst r < s)%Q /\ forall c, In c l -> (fst r <= area c)%Q).
Proof.
  induction l as [|g l IH]; intros s d; cbn [fold_left].
  - left. split; [reflexivity|]. intros c [].
  - set (s' := pick (s, d) g). unfold pick in s'. cbn [fst] in s'. subst s'. destruct (Qltb (area g) s) eqn:E.
    + apply Qltb_lt in E. right. destruct (IH (area g) g) as [(H1 & H2) | (H1 & H2 & H3 & H4)].
      * rewrite H1. cbn [fst snd]. split; [left; reflexivity|]. split; [reflexivity|]. split; [exact E|].
        intros c [<- | Hc]; [apply Qle_refl|apply H2, Hc].
      * split; [right; exact H1|]. split; [exact H2|]. split; [lra|]. intros c [<- | Hc]; [lra|apply H4, Hc].
    + apply Qltb_ge in E. destruct (IH s d) as [(H1 & H2) | (H1 & H2 & H3 & H4)].
      * left. split; [exact H1|]. intros c [<- | Hc]; [exact E|apply H2, Hc].
      * right. split; [right; exact H1|]. split; [exact H2|]. split; [exact H3|]. intros c [<- | Hc]; [lra|apply H4, Hc].
Qed.
End Search.

Lemma fold_flat {A B S} (f : A -> list B) (h : S -> B -> S) l : forall s,
  fold_left h (flat_map f l) s = fold_left (fun s a => fold_left h (f a) s) l s.
Proof. induction l as [|a l IH]; intros s; cbn; [reflexivity|]. rewrite fold_left_app. apply IH. Qed.
Lemma fold_filter {A B S} (t : A -> bool) (f : A -> B) (h : S -> B -> S) l : forall s,
  fold_left (fun s a => if t a then h s (f a) else s) l s = fold_left h (map f (filter t l)) s.
Proof. induction l as [|a l IH]; intros s; cbn; [reflexivity|]. destruct (t a); cbn; apply IH. Qed.
Lemma fold_ext {A S} (h h' : S -> A -> S) l : (forall s a, In a l -> h s a = h' s a) -> forall s, fold_left h l s = fold_left h' l s.
Proof.
  induction l as [|a l IH]; intros H s; cbn; [reflexivity|]. rewrite (H s a) by (left; reflexivity).
  apply IH. intros s' a' Ha. apply H. right. exact Ha.
Qed.

Lemma In_upto n x : In x (upto n) <-> 1 <= x <= n.
Proof.
  unfold upto. rewrite in_map_iff. split.
  - intros (y & E & H). apply In_zrange in H. lia.
  - intros H. exists (x - 1). split; [lia|]. apply In_zrange. lia.
Qed.

Section Rd.
Variable rd : Q -> Q.
Hypothesis L : rd_laws rd.
Local Notation "x == y" := (Qeq x y) : Q_scope.

Let rmono := proj1 L.
Let rdouble := proj1 (proj2 L).
Let rint := proj1 (proj2 (proj2 L)).
Let rerr := proj1 (proj2 (proj2 (proj2 L))).
Let rzero := proj2 (proj2 (proj2 (proj2 L))).

Lemma rpos q : (0 < q)%Q -> (0 < rd q)%Q.
Proof. intros H. pose proof u_bounds as (U1 & U2). destruct (rerr q H) as (E & _). nra. Qed.
Lemma rcomp a b : (0 < a)%Q -> (a == b)%Q -> (rd a == rd b)%Q.
Proof. intros H E. apply Qle_antisym; apply rmono; lra. Qed.
Lemma rbelow2 q : (0 < q)%Q -> (q < rd (2 * q))%Q.
Proof. intros H. pose proof u_bounds as (U1 & U2). rewrite (rdouble q H). destruct (rerr q H) as (E & _). nra. Qed.

Lemma part_pos n p : 1 <= n -> 1 <= p -> (0 < inject_Z n / inject_Z p)%Q.
Proof. intros. apply Qlt_shift_div_l; [apply inj_pos; lia|]. rewrite Qmult_0_l. apply inj_pos; lia. Qed.
Lemma one_part n : (inject_Z n / inject_Z 1 == inject_Z n)%Q.
Proof. unfold inject_Z. field. Qed.

(** *** 3d *)
Definition cands3 (P : Z) : list (Z * Z * Z) :=
  flat_map (fun ipx => map (fun ipy => (ipx, ipy, P / ipx / ipy)) (filter (fun ipy => (P / ipx) mod ipy =? 0) (upto (P / ipx))))
    (filter (fun ipx => P mod ipx =? 0) (upto P)).
Lemma cands3_spec P g : 1 <= P -> (In g (cands3 P) <-> factors3 P g).
Proof.
  intros HP. unfold cands3. rewrite in_flat_map. destruct g as [[x y] z]. cbn [factors3]. split.
  - intros (a & Ha & Hb). apply filter_In in Ha as (Ha & Da). apply In_upto in Ha. apply Z.eqb_eq in Da.
    apply in_map_iff in Hb as (b & E & Hb). apply filter_In in Hb as (Hb & Db). apply In_upto in Hb. apply Z.eqb_eq in Db.
    injection E as -> -> <-. apply Z.div_exact in Da; [|lia]. apply Z.div_exact in Db; [|lia].
    split; [lia|]. split; [lia|]. set (q := P / x) in *. set (w := q / y) in *. clearbody q w. subst P q. split; [|ring].
    nia.
  - intros (X & Y & Z' & E). assert (1 <= y * z) by nia. exists x. split.
    + apply filter_In. split; [apply In_upto; nia|]. apply Z.eqb_eq. rewrite <- E, <- Z.mul_assoc, Z.mul_comm. apply Z.mod_mul. lia.
    + assert (E1 : P / x = y * z) by (rewrite <- E, <- Z.mul_assoc, Z.mul_comm; apply Z.div_mul; lia).
      apply in_map_iff. exists y. rewrite E1. split.
      * rewrite Z.mul_comm, Z.div_mul by lia. reflexivity.
      * apply filter_In. split; [apply In_upto; nia|]. apply Z.eqb_eq. rewrite Z.mul_comm. apply Z.mod_mul. lia.
Qed.
Lemma search3_pick P N : search3 rd P N = fold_left (pick (surf3 rd N)) (cands3 P) (best3 rd N, (0, 0, 0)).
Proof.
  unfold search3, cands3. rewrite fold_flat.
  etransitivity; [apply (fold_filter (fun ipx => P mod ipx =? 0) (fun x => x)
    (fun s a => fold_left (fun st ipy => if (P / a) mod ipy =? 0 then pick (surf3 rd N) st (a, ipy, P / a / ipy) else st) (upto (P / a)) s))|].
  rewrite map_id. apply fold_ext. intros s a _.
  rewrite (fold_filter (fun ipy => (P / a) mod ipy =? 0) (fun ipy => (a, ipy, P / a / ipy)) (pick (surf3 rd N))). reflexivity.
Qed.
Lemma rsum_le a b c d : (0 < a)%Q -> (0 < b)%Q -> (a <= c)%Q -> (b <= d)%Q -> (rd (a + b) <= rd (c + d))%Q.
Proof. intros. apply rmono; lra. Qed.
Lemma rmul_le a b c d : (0 < a)%Q -> (0 < b)%Q -> (a <= c)%Q -> (b <= d)%Q -> (rd (a * b) <= rd (c * d))%Q.
Proof. intros. apply rmono; [apply mul_pos; assumption|]. apply mul_le; assumption. Qed.
Lemma rmul_pos a b : (0 < a)%Q -> (0 < b)%Q -> (0 < rd (a * b))%Q.
Proof. intros. apply rpos, mul_pos; assumption. Qed.
Lemma radd_pos a b : (0 < a)%Q -> (0 < b)%Q -> (0 < rd (a + b))%Q.
Proof. intros. apply rpos. lra. Qed.

Lemma part_le n p : 1 <= n < 2 ^ 31 -> 1 <= p -> (rd (inject_Z n / inject_Z p) <= inject_Z n)%Q.
Proof.
  intros Hn Hp. assert (E : (rd (inject_Z n) == inject_Z n)%Q) by (apply rint; lia). rewrite <- E at 2.
  apply rmono; [apply part_pos; lia|]. apply Qle_shift_div_r; [apply inj_pos; lia|].
  setoid_replace (inject_Z n)%Q with (inject_Z n * 1)%Q at 1 by ring. rewrite (Qmult_comm _ 1), (Qmult_comm _ (inject_Z p)).
  apply Qmult_le_compat_r; [|apply Qlt_le_weak, inj_pos; lia]. change 1%Q with (inject_Z 1). rewrite <- Zle_Qle. exact Hp.
Qed.

Lemma surf3_below N g : (let '(x, y, z) := N in 1 <= x < 2 ^ 31 /\ 1 <= y < 2 ^ 31 /\ 1 <= z < 2 ^ 31) ->
  (let '(x, y, z) := g in 1 <= x /\ 1 <= y /\ 1 <= z) -> (surf3 rd N g < best3 rd N)%Q.
Proof.
  destruct N as [[nx ny] nz], g as [[px py] pz]. intros (X & Y & Z') (GX & GY & GZ). unfold surf3, best3.
  pose proof (part_le nx px X GX). pose proof (part_le ny py Y GY). pose proof (part_le nz pz Z' GZ).
  pose proof (rpos _ (part_pos nx px ltac:(lia) GX)). pose proof (rpos _ (part_pos ny py ltac:(lia) GY)). pose proof (rpos _ (part_pos nz pz ltac:(lia) GZ)).
  set (a := rd (inject_Z nx / _)) in *. set (b := rd (inject_Z ny / _)) in *. set (c := rd (inject_Z nz / _)) in *. clearbody a b c.
  eapply Qle_lt_trans; [|apply rbelow2; repeat (apply radd_pos || apply rmul_pos); apply inj_pos; lia].
  repeat first [apply rsum_le | apply rmul_le | apply radd_pos | apply rmul_pos | assumption | apply inj_pos; lia].
Qed.

Definition ints3d (N : Z * Z * Z) : Prop := let '(x, y, z) := N in 1 <= x < 2 ^ 31 /\ 1 <= y < 2 ^ 31 /\ 1 <= z < 2 ^ 31.
Definition ints2d (N : Z * Z) : Prop := let '(x, y) := N in 1 <= x < 2 ^ 31 /\ 1 <= y < 2 ^ 31.

Theorem proc3d_spec P N : 1 <= P -> ints3d N ->
  exists g, proc3d rd P N = Some g /\ factors3 P g /\ forall g', factors3 P g' -> (surf3 rd N g <= surf3 rd N g')%Q.
Proof.
  intros HP HN. unfold proc3d. rewrite search3_pick.
  destruct (pick_spec (surf3 rd N) (cands3 P) (best3 rd N) (0, 0, 0)) as [(E & H) | (H1 & H2 & H3 & H4)].
  - exfalso. assert (F : factors3 P (1, 1, P)) by (unfold factors3; lia). apply (cands3_spec P _ HP) in F. specialize (H _ F).
    pose proof (surf3_below N (1, 1, P) HN ltac:(cbn; lia)). lra.
  - set (r := fold_left _ _ _) in *. clearbody r. destruct r as [s g]. cbn [fst snd] in *. apply (cands3_spec P g HP) in H1.
    destruct g as [[x y] z]. exists (x, y, z). pose proof H1 as (X & Y & Z' & E). rewrite E, Z.eqb_refl.
    split; [reflexivity|]. split; [exact H1|]. intros g' Hg. rewrite <- H2. apply H4. apply cands3_spec; assumption.
Qed.

(** *** 2d *)
Definition cands2 (P : Z) : list (Z * Z) := map (fun ipx => (ipx, P / ipx)) (filter (fun ipx => P mod ipx =? 0) (upto P)).
Lemma cands2_spec P g : 1 <= P -> (In g (cands2 P) <-> factors2 P g).
Proof.
  intros HP. unfold cands2. rewrite in_map_iff. destruct g as [x y]. cbn [factors2]. split.
  - intros (a & E & Ha). apply filter_In in Ha as (Ha & Da). apply In_upto in Ha. apply Z.eqb_eq in Da.
    injection E as -> <-. apply Z.div_exact in Da; [|lia]. split; [lia|]. set (q := P / x) in *. clearbody q. split; [nia|lia].
  - intros (X & Y & E). exists x. split.
    + rewrite <- E, Z.mul_comm, Z.div_mul by lia. reflexivity.
    + apply filter_In. split; [apply In_upto; nia|]. apply Z.eqb_eq. rewrite <- E, Z.mul_comm. apply Z.mod_mul. lia.
Qed.
Lemma search2_pick P N : search2 rd P N = fold_left (pick (surf2 rd N)) (cands2 P) (best2 rd N, (0, 0)).
Proof.
  unfold search2, cands2.
  rewrite <- (fold_filter (fun ipx => P mod ipx =? 0) (fun ipx => (ipx, P / ipx)) (pick (surf2 rd N))). reflexivity.
Qed.
Lemma surf2_below N g : ints2d N -> (let '(x, y) := g in 1 <= x /\ 1 <= y) -> (surf2 rd N g < best2 rd N)%Q.
Proof.
  destruct N as [nx ny], g as [px py]. intros (X & Y) (GX & GY). unfold surf2, best2.
  pose proof (part_le nx px X GX). pose proof (part_le ny py Y GY).
  pose proof (rpos _ (part_pos nx px ltac:(lia) GX)). pose proof (rpos _ (part_pos ny py ltac:(lia) GY)).
  set (a := rd (inject_Z nx / _)) in *. set (b := rd (inject_Z ny / _)) in *. clearbody a b.
  eapply Qle_lt_trans; [|apply rbelow2; apply radd_pos; apply inj_pos; lia].
  repeat first [apply rsum_le | assumption].
Qed.
Lemma search2_spec P N : 1 <= P -> ints2d N ->
  exists g, snd (search2 rd P N) = g /\ factors2 P g /\ forall g', factors2 P g' -> (surf2 rd N g <= surf2 rd N g')%Q.
Proof.
  intros HP HN. rewrite search2_pick.
  destruct (pick_spec (surf2 rd N) (cands2 P) (best2 rd N) (0, 0)) as [(E & H) | (H1 & H2 & H3 & H4)].
  - exfalso. assert (F : factors2 P (1, P)) by (unfold factors2; lia). apply (cands2_spec P _ HP) in F. specialize (H _ F).
    pose proof (surf2_below N (1, P) HN ltac:(cbn; lia)). lra.
  - set (r := fold_left _ _ _) in *. clearbody r. destruct r as [s g]. cbn [fst snd] in *. apply (cands2_spec P g HP) in H1.
    exists g. split; [reflexivity|]. split; [exact H1|]. intros g' Hg. rewrite <- H2. apply H4. apply cands2_spec; assumption.
Qed.
Theorem proc2d_spec P N : 1 <= P -> ints2d N ->
  exists g, proc2d rd P N = Some g /\ factors2 P g /\ forall g', factors2 P g' -> (surf2 rd N g <= surf2 rd N g')%Q.
Proof.
  intros HP HN. destruct (search2_spec P N HP HN) as (g & E & F & M). unfold proc2d. rewrite E. exists g. destruct g as [x y].
  pose proof F as (X & Y & E'). rewrite E', Z.eqb_refl. auto.
Qed.
Theorem proc2d_of3_spec P nx ny nz : 1 <= P -> ints3d (nx, ny, nz) ->
  exists px py, proc2d_of3 rd P (nx, ny, nz) = Some (px, py, 1) /\ factors2 P (px, py) /\
    forall g', factors2 P g' -> (surf2 rd (nx, ny) (px, py) <= surf2 rd (nx, ny) g')%Q.
Proof.
  intros HP (X & Y & _). destruct (search2_spec P (nx, ny) HP (conj X Y)) as (g & E & F & M). unfold proc2d_of3. rewrite E.
  destruct g as [x y]. exists x, y. pose proof F as (_ & _ & E'). rewrite Z.mul_1_r, E', Z.eqb_refl. auto.
Qed.

(** ** cutting the axes *)
Lemma floor_div a b : 1 <= b -> Qfloor (inject_Z a / inject_Z b) = a / b.
Proof. intros. rewrite <- Zdiv_Qdiv. reflexivity. Qed.
Theorem dcut_spec ip n np : 0 <= ip -> 1 <= n -> 1 <= np -> ip * n < 2 ^ 53 -> dcut rd ip n np = Some (ip * n / np).
Proof.
  intros Hi Hn Hp Hb. unfold dcut. destruct (Z.eqb_spec np 0); [lia|]. f_equal.
  destruct (Z.eq_dec ip 0) as [-> | Hi0].
  - rewrite Z.mul_0_l, Z.div_0_l by lia.
    assert (E1 : (rd (1 * inject_Z 0) == 0)%Q) by (apply rzero; reflexivity).
    assert (E2 : (rd (rd (1 * inject_Z 0) * inject_Z n) == 0)%Q) by (apply rzero; rewrite E1; ring).
    assert (E3 : (rd (rd (rd (1 * inject_Z 0) * inject_Z n) / inject_Z np) == 0)%Q)
      by (apply rzero; rewrite E2; unfold Qdiv; ring).
    rewrite E3. reflexivity.
  - assert (P1 : (0 < inject_Z ip)%Q) by (apply inj_pos; lia). assert (P2 : (0 < inject_Z n)%Q) by (apply inj_pos; lia).
    assert (P3 : (0 < inject_Z np)%Q) by (apply inj_pos; lia).
    assert (Ei : (rd (1 * inject_Z ip) == inject_Z ip)%Q).
    { rewrite (rcomp (1 * inject_Z ip) (inject_Z ip)); [apply rint; nia|lra|ring]. }
    assert (Em : (rd (rd (1 * inject_Z ip) * inject_Z n) == inject_Z (ip * n))%Q).
    { rewrite (rcomp (rd (1 * inject_Z ip) * inject_Z n) (inject_Z (ip * n))); [apply rint; nia| |].
      - rewrite Ei. apply mul_pos; assumption.
      - rewrite Ei, inject_Z_mult. reflexivity. }
    set (a := ip * n) in *. assert (Ha : 0 < a < 2 ^ 53) by (unfold a in *; nia). clearbody a.
    assert (Pq : (0 < inject_Z a / inject_Z np)%Q) by (apply part_pos; lia).
    assert (Ed : (rd (rd (rd (1 * inject_Z ip) * inject_Z n) / inject_Z np) == rd (inject_Z a / inject_Z np))%Q).
    { apply rcomp; [rewrite Em; exact Pq|rewrite Em; reflexivity]. }
    rewrite Ed. set (q := (inject_Z a / inject_Z np)%Q) in *.
    pose proof (Z.div_mod a np ltac:(lia)) as Dm. pose proof (Z.mod_pos_bound a np ltac:(lia)) as Db.
    set (k := a / np) in *. set (m := a mod np) in *.
    assert (Eq : (q * inject_Z np == inject_Z a)%Q) by (unfold q; field; intro Hz; rewrite Hz in P3; discriminate P3).
    assert (Ek : (inject_Z a == inject_Z np * inject_Z k + inject_Z m)%Q) by (rewrite Dm, inject_Z_plus, inject_Z_mult; reflexivity).
    assert (Hm : (inject_Z m <= inject_Z np - 1)%Q).
    { assert (Hx : (inject_Z (m + 1) <= inject_Z np)%Q) by (rewrite <- Zle_Qle; lia). rewrite inject_Z_plus in Hx.
      change (inject_Z 1) with 1%Q in Hx. lra. }
    assert (Hm0 : (0 <= inject_Z m)%Q) by (change 0%Q with (inject_Z 0); rewrite <- Zle_Qle; lia).
    assert (Lo : (inject_Z k <= rd q)%Q).
    { destruct (Z.eq_dec k 0) as [Hk | Hk].
      - rewrite Hk. apply Qlt_le_weak, rpos, Pq.
      - assert (Hk1 : 0 < k <= 2 ^ 53) by (split; [unfold k in *; assert (0 <= a / np) by (apply Z.div_pos; lia); lia|unfold m in *; nia]).
        rewrite <- (rint k Hk1). apply rmono; [apply inj_pos; lia|].
        apply Qle_shift_div_l; [exact P3|]. rewrite Ek, Qmult_comm. lra. }
    assert (Hi' : (rd q < inject_Z k + 1)%Q).
    { destruct (rerr q Pq) as (_ & E). eapply Qle_lt_trans; [exact E|].
      apply (Qmult_lt_r _ _ (inject_Z np) P3).
      setoid_replace ((1 + u) * q * inject_Z np)%Q with ((1 + u) * (q * inject_Z np))%Q by ring. rewrite Eq.
      assert (Hua : (u * inject_Z a < 1)%Q).
      { unfold u. apply Qlt_le_trans with ((1 # 2 ^ 53) * inject_Z (2 ^ 53))%Q.
        - rewrite (Qmult_comm _ (inject_Z a)), (Qmult_comm _ (inject_Z (2 ^ 53))). apply Qmult_lt_r; [reflexivity|]. rewrite <- Zlt_Qlt. lia.
        - vm_compute. discriminate. }
      setoid_replace ((1 + u) * inject_Z a)%Q with (inject_Z a + u * inject_Z a)%Q by ring.
      rewrite Ek in Hua |- *. lra. }
    pose proof (Qfloor_le (rd q)) as F1. pose proof (Qlt_floor (rd q)) as F2. rewrite inject_Z_plus in F2. change (inject_Z 1) with 1%Q in F2.
    assert (G1 : (inject_Z (Qfloor (rd q)) < inject_Z (k + 1))%Q) by (rewrite inject_Z_plus; change (inject_Z 1) with 1%Q; lra).
    assert (G2 : (inject_Z k < inject_Z (Qfloor (rd q) + 1))%Q) by (rewrite inject_Z_plus; change (inject_Z 1) with 1%Q; lra).
    rewrite <- Zlt_Qlt in G1, G2. lia.
Qed.

(** the products that the programs form are exact in double precision *)
Definition small3 (P : Z) (N : Z * Z * Z) : Prop := let '(x, y, z) := N in P * x < 2 ^ 53 /\ P * y < 2 ^ 53 /\ P * z < 2 ^ 53.
Definition small2 (P : Z) (N : Z * Z) : Prop := let '(x, y) := N in P * x < 2 ^ 53 /\ P * y < 2 ^ 53.

Lemma cmod_pos a b : 0 <= a -> 1 <= b -> cmod a b = Some (a mod b).
Proof. intros. unfold cmod. destruct (Z.eqb_spec b 0); [lia|]. rewrite Z.rem_mod_nonneg by lia. reflexivity. Qed.
Lemma cdiv_pos a b : 0 <= a -> 1 <= b -> cdiv a b = Some (a / b).
Proof. intros. unfold cdiv. destruct (Z.eqb_spec b 0); [lia|]. rewrite Z.quot_div_nonneg by lia. reflexivity. Qed.

Theorem tbox3_spec P N g me : pos3d N -> factors3 P g -> small3 P N -> 0 <= me < P -> tbox3 rd N g me = Some (gbox3 N g me).
Proof.
  destruct N as [[nx ny] nz], g as [[x y] z]. intros (N1 & N2 & N3) (X & Y & Z' & E) (S1 & S2 & S3) Hm. unfold tbox3.
  pose proof (ploc_range x y z me X Y Z' ltac:(lia)) as HL. unfold ploc in HL. destruct HL as (L1 & L2 & L3 & _).
  assert (0 <= me / x) by (apply Z.div_pos; lia). assert (1 <= x * y) by nia.
  rewrite !cmod_pos, !cdiv_pos by lia. cbn [bind]. rewrite cmod_pos by lia. cbn [bind].
  set (a := me mod x) in *. set (b := (me / x) mod y) in *. set (c := me / (x * y)) in *.
  assert (1 <= y * z /\ 1 <= x * z) by nia. assert (x <= P /\ y <= P /\ z <= P) by nia.
  rewrite !dcut_spec by nia. cbn [bind]. unfold gbox3, ploc, part_lo, part_hi. reflexivity.
Qed.
Theorem tbox2_spec P N g me : pos2d N -> factors2 P g -> small2 P N -> 0 <= me < P -> tbox2 rd N g me = Some (gbox2 N g me).
Proof.
  destruct N as [nx ny], g as [x y]. intros (N1 & N2) (X & Y & E) (S1 & S2) Hm. unfold tbox2.
  assert (0 <= me / x) by (apply Z.div_pos; lia). assert (me / x < y) by (apply Z.div_lt_upper_bound; lia).
  pose proof (Z.mod_pos_bound me x ltac:(lia)).
  rewrite !cmod_pos, !cdiv_pos by lia. cbn [bind].
  assert (x <= P /\ y <= P) by nia. set (a := me mod x) in *. set (b := me / x) in *.
  rewrite !dcut_spec by nia. cbn [bind]. unfold gbox2, ploc2, part_lo, part_hi. reflexivity.
Qed.
End Rd.

(** ** simple.cpp *)
Lemma next_divisor_spec fuel : forall n np, 1 <= np <= n -> n - np <= Z.of_nat fuel ->
  exists d, next_divisor fuel n np = Some d /\ np <= d <= n /\ n mod d = 0.
Proof.
  induction fuel as [|f IH]; intros n np H Hf; cbn [next_divisor]; destruct (Z.ltb_spec np n).
  - lia.
  - exists np. split; [reflexivity|]. split; [lia|]. replace np with n by lia. apply Z.mod_same. lia.
  - rewrite cmod_pos by lia. cbn [bind]. destruct (Z.eqb_spec (n mod np) 0) as [E|E].
    + exists np. split; [reflexivity|]. split; [lia|exact E].
    + destruct (IH n (np + 1)) as (d & E1 & E2 & E3); [lia|lia|]. exists d. split; [exact E1|]. split; [lia|exact E3].
  - exists np. split; [reflexivity|]. split; [lia|]. replace np with n by lia. apply Z.mod_same. lia.
Qed.
Theorem simple_grid_spec P s1 s2 : 1 <= P -> 1 <= s1 <= P -> (forall m, 1 <= m -> 1 <= s2 m <= m) ->
  exists g, simple_grid P s1 s2 = Some g /\ factors3 P g.
Proof.
  intros HP H1 H2. unfold simple_grid.
  destruct (next_divisor_spec (Z.to_nat P) P s1 H1 ltac:(lia)) as (a & E1 & A1 & A2). rewrite E1. cbn [bind].
  rewrite cdiv_pos by lia. cbn [bind]. apply Z.div_exact in A2; [|lia]. set (q := P / a) in *. clearbody q.
  assert (Hq : 1 <= q) by nia.
  destruct (next_divisor_spec (Z.to_nat q) q (s2 q) (H2 q Hq) ltac:(specialize (H2 q Hq); lia)) as (b & E2 & B1 & B2). rewrite E2. cbn [bind].
  specialize (H2 q Hq). rewrite cdiv_pos by lia. cbn [bind]. apply Z.div_exact in B2; [|lia]. set (c := q / b) in *. clearbody c.
  exists (a, b, c). split; [reflexivity|]. cbn. split; [lia|]. split; [lia|]. split; nia.
Qed.
Lemma icut_spec ip n np : 0 <= ip -> 0 <= n -> 1 <= np -> icut ip n np = Some (ip * n / np).
Proof. intros. unfold icut. rewrite Z.mul_1_l. apply cdiv_pos; nia. Qed.
Theorem simple_box_spec P N g me : pos3d N -> factors3 P g -> 0 <= me < P -> simple_box N g me = Some (gbox3 N g me).
Proof.
  destruct N as [[nx ny] nz], g as [[x y] z]. intros (N1 & N2 & N3) (X & Y & Z' & E) Hm. unfold simple_box.
  pose proof (ploc_range x y z me X Y Z' ltac:(lia)) as HL. unfold ploc in HL. destruct HL as (L1 & L2 & L3 & _).
  assert (0 <= me / x) by (apply Z.div_pos; lia). assert (1 <= x * y) by nia.
  rewrite !cmod_pos, !cdiv_pos by lia. cbn [bind]. rewrite cmod_pos by lia. cbn [bind].
  rewrite !icut_spec by lia. cbn [bind]. unfold gbox3, ploc, part_lo, part_hi. reflexivity.
Qed.
