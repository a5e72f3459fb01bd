(** KissFinal.v : C22-C24 assembled, with runs of the model over a finite field. *)

From Coq Require Import Znumtheory Reals.
From Verif Require Import Base Kiss KissPure KissAlg KissFactor KissReal Fft1d.
Local Open Scope Z_scope.

(** ** Specification: the discrete Fourier transform, with the standard library's
    finite sums, sine and cosine.  [inv] = false is the forward sign exp(-2 pi i jk/n). *)

Section Spec.
Local Open Scope R_scope.

Definition angle (inv : bool) (n j k : Z) : R :=
  (if inv then 1 else -1) * (2 * PI * IZR (j * k) / IZR n).

Definition DFT (inv : bool) (n : Z) (x : Z -> R * R) (k : Z) : R * R :=
  (sum_f_R0 (fun j => fst (x (Z.of_nat j)) * cos (angle inv n (Z.of_nat j) k)
                    - snd (x (Z.of_nat j)) * sin (angle inv n (Z.of_nat j) k)) (Z.to_nat (n - 1)),
   sum_f_R0 (fun j => fst (x (Z.of_nat j)) * sin (angle inv n (Z.of_nat j) k)
                    + snd (x (Z.of_nat j)) * cos (angle inv n (Z.of_nat j) k)) (Z.to_nat (n - 1))).

Lemma angle_phase inv n j k : angle inv n j k = phase inv (j * k) n.
Proof. unfold angle, phase. destruct inv; unfold Rdiv; ring. Qed.

Lemma nsum_sums (f : Z -> R * R) m :
  nsum Rops (S m) f = (sum_f_R0 (fun j => fst (f (Z.of_nat j))) m, sum_f_R0 (fun j => snd (f (Z.of_nat j))) m).
Proof.
  induction m as [|m IH].
  - cbn [nsum sum_f_R0]. unfold c_add, czero; cbn. f_equal; ring.
  - change (nsum Rops (S (S m)) f) with (c_add Rops (nsum Rops (S m) f) (f (Z.of_nat (S m)))).
    rewrite IH. reflexivity.
Qed.

Lemma DFT_dft inv n x k : (1 <= n)%Z ->
  dft Rops (fun a => cexpR inv a n) n x k = DFT inv n x k.
Proof.
  intros Hn. unfold dft, csum. replace (Z.to_nat n) with (S (Z.to_nat (n - 1))) by lia.
  rewrite nsum_sums. unfold DFT. f_equal; apply sum_eq; intros j _;
    unfold cexpR, c_mul; cbn; rewrite angle_phase; reflexivity.
Qed.
End Spec.

(** ** C22 *)

Definition C22_statement : Prop :=
  forall inv n, 1 <= n < 2 ^ 31 ->
  exists st, kiss_fft_alloc cexpR n inv = Some st /\
  (** out of place, kiss_fft_stride with in_stride [ist] *)
  (forall ist fin i out o x,
     (forall t, 0 <= t < n -> zget fin (i + t * ist) = Some (x t)) ->
     0 <= o -> o + n <= zlen out ->
     exists out', kiss_fft_outplace Rops st ist fin i out o = Some out' /\
       zlen out' = zlen out /\
       (forall k, 0 <= k < n -> zget out' (o + k) = Some (DFT inv n x k)) /\
       (forall a, ~ (o <= a < o + n) -> zget out' a = zget out a)) /\
  (** in place, whatever the temporary contains *)
  (forall tmp arr o x, zlen tmp = n ->
     (forall t, 0 <= t < n -> zget arr (o + t) = Some (x t)) ->
     0 <= o -> o + n <= zlen arr ->
     exists arr', kiss_fft_inplace Rops st tmp 1 arr o = Some arr' /\
       zlen arr' = zlen arr /\
       (forall k, 0 <= k < n -> zget arr' (o + k) = Some (DFT inv n x k)) /\
       (forall a, ~ (o <= a < o + n) -> zget arr' a = zget arr a)).

Lemma C22_proof : C22_statement.
Proof.
  intros inv n Hn. destruct (alloc_ok Rops cexpR n inv Hn) as (st & E & H1 & H2 & H3 & H4 & H5).
  exists st. split; [exact E|]. split.
  - intros ist fin i out o x Hx Ho Hl.
    destruct (kiss_outplace_ok Rops st n ist fin i out o x H1 H4 H3 Hx Ho Hl) as (out' & E' & Hz & Hs & Hu).
    exists out'. split; [exact E'|]. split; [exact Hz|]. split; [|exact Hu].
    intros k Hk. rewrite Hs by exact Hk. f_equal.
    rewrite (wk_real n inv st x k) by (auto; lia). apply DFT_dft. lia.
  - intros tmp arr o x Ht Hx Ho Hl.
    destruct (kiss_inplace_ok Rops st n tmp 1 arr o x H1 H4 H3 Ht) as (out' & E' & Hz & Hs & Hu); auto.
    { intros t Htt. rewrite Z.mul_1_r. auto. }
    exists out'. split; [exact E'|]. split; [exact Hz|]. split; [|exact Hu].
    intros k Hk. rewrite Hs by exact Hk. f_equal.
    rewrite (wk_real n inv st x k) by (auto; lia). apply DFT_dft. lia.
Qed.

(** The same over any commutative ring with a half and any family of roots of
    unity: this one the examples can run. *)
Definition C22_ring_statement : Prop :=
  forall F (O : sops F) (cexp : bool -> Z -> Z -> F * F) inv n,
  slaws O -> rootlaws O inv n (fun a => cexp inv a n) -> 1 <= n < 2 ^ 31 ->
  exists st, kiss_fft_alloc cexp n inv = Some st /\
  forall ist fin i out o x,
     (forall t, 0 <= t < n -> zget fin (i + t * ist) = Some (x t)) ->
     0 <= o -> o + n <= zlen out ->
     exists out', kiss_fft_outplace O st ist fin i out o = Some out' /\
       zlen out' = zlen out /\
       (forall k, 0 <= k < n -> zget out' (o + k) = Some (dft O (fun a => cexp inv a n) n x k)) /\
       (forall a, ~ (o <= a < o + n) -> zget out' a = zget out a).

Lemma C22_ring_proof : C22_ring_statement.
Proof.
  intros F O cexp inv n SL W Hn. destruct (alloc_ok O cexp n inv Hn) as (st & E & H1 & H2 & H3 & H4 & H5).
  exists st. split; [exact E|]. intros ist fin i out o x Hx Ho Hl.
  destruct (kiss_outplace_ok O st n ist fin i out o x H1 H4 H3 Hx Ho Hl) as (out' & E' & Hz & Hs & Hu).
  exists out'. split; [exact E'|]. split; [exact Hz|]. split; [|exact Hu].
  intros k Hk. rewrite Hs by exact Hk. f_equal.
  rewrite (wk_dft O SL inv n (fun a => cexp inv a n) ltac:(lia) W st H1 H2 H5 (k_factors st) 1 x n k) by (auto; lia).
  unfold dft. apply (csum_ext O). intros j _. do 2 f_equal. ring.
Qed.

(** the two 1d transforms are inverse to each other up to the factor n *)
Definition C22_inverse_statement : Prop :=
  forall inv n x l, 1 <= n -> 0 <= l < n ->
  DFT (negb inv) n (DFT inv n x) l = ((IZR n * fst (x l))%R, (IZR n * snd (x l))%R).

Lemma C22_inverse_proof : C22_inverse_statement.
Proof.
  intros inv n x l Hn Hl. rewrite <- DFT_dft by lia.
  rewrite <- (dft_inverse inv n x l) by lia. unfold dft. apply (csum_ext Rops). intros j _.
  f_equal. symmetry. exact (DFT_dft inv n x j Hn).
Qed.

(** *** runs over GF(419), where 420 = 4*3*5*7 divides 419^2-1: g = 12+81i has
    order 420 and g^105 = -i, so g^(420/n) plays exp(-2 pi i/n) for n | 420 *)

Definition P419 : sops Z := mksops Z 0 1
  (fun a b => (a + b) mod 419) (fun a b => (a - b) mod 419) (fun a b => (a * b) mod 419)
  (fun a => (- a) mod 419) (fun a => (a * 210) mod 419).

Fixpoint cpow_pos (g : Z * Z) (n : positive) : Z * Z :=
  match n with
  | xH => g
  | xO m => let h := cpow_pos g m in c_mul P419 h h
  | xI m => let h := cpow_pos g m in c_mul P419 g (c_mul P419 h h)
  end.
Definition cpow (g : Z * Z) (n : Z) : Z * Z :=
  match n mod 420 with Zpos p => cpow_pos g p | _ => (1, 0) end.

Definition cexp419 (inv : bool) (a n : Z) : Z * Z :=
  cpow (12, 81) ((if inv then - a else a) * (420 / n)).

Definition naive (inv : bool) (n : Z) (x : list (Z * Z)) : list (Z * Z) :=
  map (fun k => dft P419 (fun a => cexp419 inv a n) n
        (fun j => match zget x j with Some v => v | None => (0, 0) end) k) (zrange n).

(** some data *)
Definition data419 (n : Z) : list (Z * Z) := map (fun j => ((j * j * 7 + 3) mod 419, (j * 31 + 5) mod 419)) (zrange n).

Definition run419 (inv : bool) (n : Z) : option (list (Z * Z)) :=
  st <- kiss_fft_alloc cexp419 n inv;
  kiss_fft_inplace P419 st (repeat (7, 7) (Z.to_nat n)) 1 ([(1, 2); (3, 4)] ++ data419 n ++ [(5, 6)]) 2.

Fixpoint same_cells (a b : list (Z * Z)) : bool :=
  match a, b with
  | [], [] => true
  | (x, y) :: a', (u, v) :: b' => (x =? u) && (y =? v) && same_cells a' b'
  | _, _ => false
  end.

(** all plans with radices 2, 3, 4, 5 and 7 (generic) compute the DFT and leave the rest alone *)
Lemma C22_runs :
  forallb (fun n => forallb (fun inv =>
    match run419 inv n with
    | Some r => same_cells r ([(1, 2); (3, 4)] ++ naive inv n (data419 n) ++ [(5, 6)])
    | None => false end) [false; true]) [1; 2; 3; 4; 5; 6; 7; 12; 14; 15; 20; 28] = true.
Proof. vm_compute. reflexivity. Qed.

(** ** C23 *)

Definition C23_statement : Prop :=
  (forall n, 1 <= n < 2 ^ 31 -> exists facs, kf_factor n = Some facs /\
     radices facs = n /\ stages n facs /\ zlen facs <= 32) /\
  (forall n facs, 2 <= n < 2 ^ 31 -> kf_factor n = Some facs ->
     Forall (fun pm => fst pm = 4 \/ prime (fst pm)) facs /\ Forall (fun pm => 2 <= fst pm) facs) /\
  kf_factor 1 = Some [(1, 1)].

Lemma C23_proof : C23_statement.
Proof.
  split; [|split; [|exact kf_factor_1]].
  - intros n Hn. destruct (kf_factor_chain n Hn) as (facs & E & _ & Hs & Hl). exists facs.
    split; [exact E|]. split; [apply stages_product; exact Hs|]. split; [exact Hs|lia].
  - intros n facs Hn E. destruct (kf_factor_ok n) as (facs' & E' & _ & HF); [lia|].
    assert (facs' = facs) by congruence. subst facs'. split; [exact HF|].
    eapply Forall_impl; [|exact HF]. intros pm. apply radix_ge2.
Qed.

(** lengths accepted by FFT3d::setup only use the special radices *)
Definition C23_smooth_statement : Prop :=
  forall n facs a b c, 0 <= a -> 0 <= b -> 0 <= c -> n = 2 ^ a * 3 ^ b * 5 ^ c ->
  2 <= n < 2 ^ 31 -> kf_factor n = Some facs -> Forall (fun pm => 2 <= fst pm <= 5) facs.
Lemma C23_smooth_proof : C23_smooth_statement.
Proof.
  intros n facs a b c Ha Hb Hc Hn Hr E. destruct (kf_factor_ok n) as (facs' & E' & HS & HF); [lia|].
  assert (facs' = facs) by congruence. subst facs'. exact (smooth_radices n facs a b c Ha Hb Hc Hn HS HF).
Qed.

Lemma C23_run : kf_factor (2 * 2 * 2 * 9 * 5 * 49 * 11) =
  Some [(4, 48510); (2, 24255); (3, 8085); (3, 2695); (5, 539); (7, 77); (7, 11); (11, 1)] /\
  kf_factor 101 = Some [(101, 1)] /\ kf_factor 1073741824 = Some (map (fun i => (4, 4 ^ (14 - i))) (zrange 15)).
Proof. vm_compute. auto. Qed.

(** ** C24 *)

Definition C24_statement : Prop :=
  forall inv L n, 1 <= L < 2 ^ 31 -> 0 <= n ->
  exists st, kiss_fft_alloc cexpR L inv = Some st /\
  forall data x, n * L <= zlen data ->
    (forall a, 0 <= a < n * L -> zget data a = Some (x a)) ->
    exists data', perform_ffts Rops st L (n * L) data = Some data' /\
      zlen data' = zlen data /\
      (forall l k, 0 <= l < n -> 0 <= k < L ->
         zget data' (l * L + k) = Some (DFT inv L (fun j => x (l * L + j)) k)) /\
      (forall a, ~ (0 <= a < n * L) -> zget data' a = zget data a).

Lemma C24_proof : C24_statement.
Proof.
  intros inv L n HL Hn. destruct (alloc_ok Rops cexpR L inv HL) as (st & E & H1 & H2 & H3 & H4 & H5).
  exists st. split; [exact E|]. intros data x Hl Hx.
  destruct (perform_ok Rops st L n data x) as (d' & E' & Hz & Hs & Hu); auto; try lia.
  exists d'. split; [exact E'|]. split; [exact Hz|]. split; [|exact Hu].
  intros l k Hk Hl'. rewrite Hs by auto. f_equal. unfold lineT.
  rewrite (wk_real L inv st _ k) by (auto; lia). apply DFT_dft. lia.
Qed.

(** the same whatever the arithmetic (also floating point): every line becomes
    what a single transform of that line alone gives *)
Definition C24_any_statement : Prop :=
  forall F (O : sops F) cexp inv L n, 1 <= L < 2 ^ 31 -> 0 <= n ->
  exists st, kiss_fft_alloc cexp L inv = Some st /\
  forall data, n * L <= zlen data ->
    exists data', perform_ffts O st L (n * L) data = Some data' /\
      zlen data' = zlen data /\
      (forall l, 0 <= l < n ->
         exists line line', zlen line = L /\ kiss_fft_inplace O st (fresh_tmp O st) 1 line 0 = Some line' /\
           (forall k, 0 <= k < L -> zget line k = zget data (l * L + k)) /\
           (forall k, 0 <= k < L -> zget data' (l * L + k) = zget line' k)) /\
      (forall a, ~ (0 <= a < n * L) -> zget data' a = zget data a).

Lemma C24_any_proof : C24_any_statement.
Proof.
  intros F O cexp inv L n HL Hn. destruct (alloc_ok O cexp L inv HL) as (st & E & H1 & H2 & H3 & H4 & H5).
  exists st. split; [exact E|]. intros data Hl.
  set (x := fun a => match zget data a with Some v => v | None => czero O end).
  assert (Hx : forall a, 0 <= a < zlen data -> zget data a = Some (x a)).
  { intros a Ha. unfold x. destruct (zget_Some data a Ha) as [v ->]. reflexivity. }
  destruct (perform_ok O st L n data x) as (d' & E' & Hz & Hs & Hu); auto; try lia.
  { intros a Ha. apply Hx. lia. }
  exists d'. split; [exact E'|]. split; [exact Hz|]. split; [|exact Hu].
  intros l Hll. set (line := map (fun k => x (l * L + k)) (zrange L)).
  assert (Hline : forall k, 0 <= k < L -> zget line k = Some (x (l * L + k))).
  { intros k Hk. unfold line. rewrite zget_map. unfold zrange. rewrite zget_zseq.
    destruct (Z.leb_spec 0 k); [|lia]. destruct (Z.ltb_spec k (Z.of_nat (Z.to_nat L))); [|lia]. cbn. do 2 f_equal. }
  assert (Lline : zlen line = L) by (unfold line; rewrite zlen_map, zlen_zrange; lia).
  destruct (kiss_inplace_ok O st L (fresh_tmp O st) 1 line 0 (fun k => x (l * L + k))) as (line' & E2 & _ & Hs2 & _); auto; try lia.
  { unfold fresh_tmp, zlen. rewrite repeat_length. lia. }
  { intros t Ht. rewrite Z.mul_1_r. apply Hline. lia. }
  exists line, line'. split; [exact Lline|]. split; [exact E2|]. split.
  - intros k Hk. rewrite Hline by exact Hk. symmetry. apply Hx. nia.
  - intros k Hk. rewrite Hs by auto. symmetry. rewrite <- (Z.add_0_l k) at 1. rewrite Hs2 by lia. reflexivity.
Qed.

Lemma C24_run :
  (st <- kiss_fft_alloc cexp419 6 false; perform_ffts P419 st 6 12 (data419 12 ++ [(9, 9)]))
  = Some (naive false 6 (firstn 6 (data419 12)) ++ naive false 6 (skipn 6 (data419 12)) ++ [(9, 9)]).
Proof. vm_compute. reflexivity. Qed.
