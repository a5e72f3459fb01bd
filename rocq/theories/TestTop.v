(** TestTop.v : whole runs of the test programs. *)

From Coq Require Import QArith SpecFloat Reals Lra.
From Verif Require Import Base Spec Pack3d Sched SchedProofs Phases Exec Remap RemapMain RemapInst
  Remap3d RemapThms RemapTop Layout LayoutProofs Setup3d Setup3dProofs Setup2d Setup2dProofs LayoutFinal Kiss KissPure KissAlg KissReal Fft1d KissFinal
  Fft3d Frame Fft3dProofs Fft3dMain DftMulti Fft3dTop Fft3dFinal Fft2d Fft2dMain Fft2dTop Fft2dFinal
  Count Double DoubleProofs TestProg TestLayProofs TestDataProofs TestRunProofs TestMainProofs TestFinal.
Local Open Scope Z_scope.

(** ** runs *)
Lemma init_fills3 {F V} (vz vr : Z -> V) (cv : V -> F) n N (ins : nat -> box3) k sd : (forall r, (r < n)%nat -> legal3 (ins r) /\ seed_ok k (sd r)) ->
  fills3 cv n ins (fun r => initialize3 vz vr cv k (sd r) N (ins r)) (fun r => wanti3 vz vr k (sd r) N (ins r)).
Proof. intros H r w Hr Hw. destruct (H r Hr). apply initialize3_ok; assumption. Qed.
Lemma init_fills2 {F V} (vz vr : Z -> V) (cv : V -> F) n N (ins : nat -> box2) k sd : (forall r, (r < n)%nat -> legal2 (ins r) /\ seed_ok k (sd r)) ->
  fills2 cv n ins (fun r => initialize2 vz vr cv k (sd r) N (ins r)) (fun r => wanti2 vz vr k (sd r) N (ins r)).
Proof. intros H r w Hr Hw. destruct (H r Hr). apply initialize2_ok; assumption. Qed.

Definition init3 (vr : Z -> R) (k : init) (sd : nat -> Z) (N : Z * Z * Z) (ins : nat -> box3) (r : nat) : list R -> option (list R) :=
  initialize3 IZR vr (fun v => v) k (sd r) N (ins r).
Definition init2 (vr : Z -> R) (k : init) (sd : nat -> Z) (N : Z * Z) (ins : nat -> box2) (r : nat) : list R -> option (list R) :=
  initialize2 IZR vr (fun v => v) k (sd r) N (ins r).
Definition maxerr3 (vr : Z -> R) (k : init) (sd : nat -> Z) (N : Z * Z * Z) (ins : nat -> box3) (n : nat) (M : nat -> @rmem R) : option R :=
  allmax Rgtb 0%R n (fun r => validate3 IZR vr Rdist1 Rgtb 0%R k (sd r) N (ins r) (getb BWORK (M r))).
Definition maxerr2 (vr : Z -> R) (k : init) (sd : nat -> Z) (N : Z * Z) (ins : nat -> box2) (n : nat) (M : nat -> @rmem R) : option R :=
  allmax Rgtb 0%R n (fun r => validate2 IZR vr Rdist1 Rgtb 0%R k (sd r) N (ins r) (getb BWORK (M r))).

Lemma worst_ext (S T : R -> Prop) e : (forall d, S d <-> T d) -> worst S e -> worst T e.
Proof.
  intros H (A & B & C). split; [exact A|]. split; [intros d Hd; apply B, H, Hd|]. destruct C as [C|C]; [left; exact C|right; apply H, C].
Qed.

Theorem C56_3d_proof ar n st N permute ins outs f (M0 : nat -> @rmem R) vr k sd nloop :
  ready3 ar n st N permute ins outs f -> room3 f BACKWARD BWORK M0 -> (forall r, (r < n)%nat -> legal3 (ins r) /\ seed_ok k (sd r)) ->
  exists P M' e, setup_ffts3 cexpR N = Some P /\
    exec_to n (test3 Rops rnormR f P false nloop (init3 vr k sd N ins)) M0 M' /\
    (forall r p q, (r < n)%nat -> inb3 p (ins r) -> 0 <= q < 2 ->
       zget (getb BWORK (M' r)) (cell3 2 0 (ins r) p q) = Some (gain3 N ins outs nloop r p * want3 IZR vr k (sd r) N (ins r) p q)%R) /\
    (forall r, (r < n)%nat -> framed M0 BWORK (fun r => 2 * f_fftsize f r) r (M' r)) /\
    maxerr3 vr k sd N ins n M' = Some e /\
    worst (fun d => exists r p q, (r < n)%nat /\ inb3 p (ins r) /\ 0 <= q < 2 /\
             d = Rabs ((gain3 N ins outs nloop r p - 1) * want3 IZR vr k (sd r) N (ins r) p q)) e.
Proof.
  intros Hr Ha Hs. pose proof Hr as (_ & _ & _ & _ & Ti & _). destruct (ready_plans Rops cexpR _ _ _ _ _ _ _ _ Hr) as (P & HP).
  destruct (run_exact3 ar n st N permute ins outs f P M0 (init3 vr k sd N ins) _ nloop Hr HP Ha (fun r H => proj1 (Hs r H)) (init_fills3 IZR vr (fun v => v) n N ins k sd Hs)) as (M' & H1 & H2).
  assert (G : forall r p, (r < n)%nat -> inb3 p (ins r) -> inb3 p (grid3 N)) by (intros r p Hrn Hp; apply (proj1 Ti) with r; assumption).
  assert (W : forall r p q, (r < n)%nat -> inb3 p (ins r) -> 0 <= q < 2 ->
     zget (getb BWORK (M' r)) (cell3 2 0 (ins r) p q) = Some (gain3 N ins outs nloop r p * want3 IZR vr k (sd r) N (ins r) p q)%R).
  { intros r p q Hrn Hp Hq. destruct (H1 r Hrn) as (K & _). rewrite (K p q Hp Hq), wanti3_ok by eauto. reflexivity. }
  destruct (validate3_all vr k sd N n ins (fun r => getb BWORK (M' r))) as (e & E & We).
  { intros r Hrn. destruct (Hs r Hrn) as (L & S). split; [exact L|]. split; [intros p; apply G, Hrn|]. split; [|exact S].
    destruct (H1 r Hrn) as (_ & A & _). rewrite A. pose proof (work_room3 ar n st N permute ins outs f M0 Hr Ha r Hrn). lia. }
  exists P, M', e. split; [exact HP|]. split; [exact H2|]. split; [exact W|]. split; [intros r Hrn; apply (H1 r Hrn)|]. split; [exact E|].
  eapply worst_ext; [|exact We]. intros d. split.
  - intros (r & Hrn & p & q & v & Hp & Hq & Ev & ->). exists r, p, q. split; [exact Hrn|]. split; [exact Hp|]. split; [exact Hq|].
    rewrite (W r p q Hrn Hp Hq) in Ev. injection Ev as <-. f_equal. ring.
  - intros (r & p & q & Hrn & Hp & Hq & ->). exists r. split; [exact Hrn|]. eexists p, q, _. split; [exact Hp|]. split; [exact Hq|].
    split; [apply W; assumption|]. f_equal. ring.
Qed.
Theorem C56_2d_proof esize ar n st N permute ins outs f (M0 : nat -> @rmem R) vr k sd nloop :
  ready2 esize ar n st N permute ins outs f -> arrays_ok2 f BWORK M0 -> (forall r, (r < n)%nat -> legal2 (ins r) /\ seed_ok k (sd r)) ->
  exists P M' e, setup_ffts2 cexpR N = Some P /\
    exec_to n (test2 Rops rnormR esize f P false nloop (init2 vr k sd N ins)) M0 M' /\
    (forall r p q, (r < n)%nat -> inb2 p (ins r) -> 0 <= q < 2 ->
       zget (getb BWORK (M' r)) (cell2 2 0 (ins r) p q) = Some (gain2 N ins outs nloop r p * want2 IZR vr k (sd r) N (ins r) p q)%R) /\
    (forall r, (r < n)%nat -> framed M0 BWORK (fun r => 2 * t_fftsize f r) r (M' r)) /\
    maxerr2 vr k sd N ins n M' = Some e /\
    worst (fun d => exists r p q, (r < n)%nat /\ inb2 p (ins r) /\ 0 <= q < 2 /\
             d = Rabs ((gain2 N ins outs nloop r p - 1) * want2 IZR vr k (sd r) N (ins r) p q)) e.
Proof.
  intros Hr Ha Hs. pose proof Hr as (_ & _ & _ & _ & _ & Ti & _). destruct (ready_plans2 Rops cexpR _ _ _ _ _ _ _ _ _ Hr) as (P & HP).
  destruct (run_exact2 esize ar n st N permute ins outs f P M0 (init2 vr k sd N ins) _ nloop Hr HP Ha (fun r H => proj1 (Hs r H)) (init_fills2 IZR vr (fun v => v) n N ins k sd Hs)) as (M' & H1 & H2).
  assert (G : forall r p, (r < n)%nat -> inb2 p (ins r) -> inb2 p (grid2 N)) by (intros r p Hrn Hp; apply (proj1 Ti) with r; assumption).
  assert (W : forall r p q, (r < n)%nat -> inb2 p (ins r) -> 0 <= q < 2 ->
     zget (getb BWORK (M' r)) (cell2 2 0 (ins r) p q) = Some (gain2 N ins outs nloop r p * want2 IZR vr k (sd r) N (ins r) p q)%R).
  { intros r p q Hrn Hp Hq. destruct (H1 r Hrn) as (K & _). rewrite (K p q Hp Hq), wanti2_ok by eauto. reflexivity. }
  destruct (validate2_all vr k sd N n ins (fun r => getb BWORK (M' r))) as (e & E & We).
  { intros r Hrn. destruct (Hs r Hrn) as (L & S). split; [exact L|]. split; [intros p; apply G, Hrn|]. split; [|exact S].
    destruct (H1 r Hrn) as (_ & A & _). rewrite A. pose proof (work_room2 esize ar n st N permute ins outs f M0 Hr Ha r Hrn). lia. }
  exists P, M', e. split; [exact HP|]. split; [exact H2|]. split; [exact W|]. split; [intros r Hrn; apply (H1 r Hrn)|]. split; [exact E|].
  eapply worst_ext; [|exact We]. intros d. split.
  - intros (r & Hrn & p & q & v & Hp & Hq & Ev & ->). exists r, p, q. split; [exact Hrn|]. split; [exact Hp|]. split; [exact Hq|].
    rewrite (W r p q Hrn Hp Hq) in Ev. injection Ev as <-. f_equal. ring.
  - intros (r & p & q & Hrn & Hp & Hq & ->). exists r. split; [exact Hrn|]. eexists p, q, _. split; [exact Hp|]. split; [exact Hq|].
    split; [apply W; assumption|]. f_equal. ring.
Qed.

(** the two consequences: no error if the output parts are large enough, a large one if not *)
Lemma worst_zero3 N ins outs nloop vr k sd n e :
  worst (fun d => exists r p q, (r < n)%nat /\ inb3 p (ins r) /\ 0 <= q < 2 /\ d = Rabs ((gain3 N ins outs nloop r p - 1) * want3 IZR vr k (sd r) N (ins r) p q)) e ->
  (forall r, (r < n)%nat -> psize3 (ins r) <= psize3 (outs r)) -> e = 0%R.
Proof.
  intros (_ & _ & [E | (r & p & q & Hr & Hp & Hq & ->)]) H; [exact E|]. unfold gain3. rewrite (scaled_all ins outs r p (H r Hr) Hp).
  replace ((1 - 1) * _)%R with 0%R by ring. apply Rabs_R0.
Qed.
Lemma worst_zero2 N ins outs nloop vr k sd n e :
  worst (fun d => exists r p q, (r < n)%nat /\ inb2 p (ins r) /\ 0 <= q < 2 /\ d = Rabs ((gain2 N ins outs nloop r p - 1) * want2 IZR vr k (sd r) N (ins r) p q)) e ->
  (forall r, (r < n)%nat -> psize2 (ins r) <= psize2 (outs r)) -> e = 0%R.
Proof.
  intros (_ & _ & [E | (r & p & q & Hr & Hp & Hq & ->)]) H; [exact E|]. unfold gain2.
  destruct (Z.ltb_spec (pos2 0 (ins r) p) (psize2 (outs r))) as [Hlt | Hge].
  - replace ((1 - 1) * _)%R with 0%R by ring. apply Rabs_R0.
  - pose proof (pos2_psize 0 (ins r) p (or_introl eq_refl) Hp). specialize (H r Hr). lia.
Qed.
Lemma big_gain g v k : 1 <= g -> 1 <= v -> (IZR g ^ k - 1 <= Rabs ((IZR g ^ k - 1) * IZR v))%R.
Proof.
  intros Hg Hv. assert (G1 : (1 <= IZR g ^ k)%R) by (apply pow_R1_Rle, IZR_le, Hg). assert (V1 : (1 <= IZR v)%R) by (apply IZR_le, Hv).
  set (x := (IZR g ^ k)%R) in *. set (y := IZR v) in *. clearbody x y. assert (X0 : (0 <= x - 1)%R) by lra.
  rewrite Rabs_right; [rewrite <- (Rmult_1_r (x - 1)) at 1; apply Rmult_le_compat_l; assumption|]. apply Rle_ge, Rmult_le_pos; [exact X0|]. lra.
Qed.
Lemma worst_big3 N ins outs nloop vr sd n e r : pos3d N -> tiling3 n N ins -> (r < n)%nat -> legal3 (ins r) -> 0 <= psize3 (outs r) < psize3 (ins r) ->
  worst (fun d => exists r p q, (r < n)%nat /\ inb3 p (ins r) /\ 0 <= q < 2 /\ d = Rabs ((gain3 N ins outs nloop r p - 1) * want3 IZR vr INDEX (sd r) N (ins r) p q)) e ->
  (IZR (grid_points N) ^ nloop - 1 <= e)%R.
Proof.
  intros HN Ti Hr Hl Hs (_ & H & _). destruct (pt_at3_in (ins r) (psize3 (outs r)) Hl ltac:(lia)) as (A & B). set (p := pt_at3 (ins r) (psize3 (outs r))) in *.
  eapply Rle_trans; [|apply H; exists r, p, 0; split; [exact Hr|]; split; [exact A|]; split; [lia|reflexivity]].
  unfold gain3. rewrite B, Z.ltb_irrefl. cbn [want3 Z.eqb]. pose proof (proj1 Ti p r Hr A) as Hg. apply big_gain.
  - destruct N as [[x y] z]. unfold pos3d in HN. unfold grid_points. cbn [fst snd]. nia.
  - destruct N as [[x y] z]. clearbody p. destruct p as [[a b] c]. cbn in Hg |- *. lia.
Qed.
Lemma worst_big2 N ins outs nloop vr sd n e r : pos2d N -> tiling2 n N ins -> (r < n)%nat -> legal2 (ins r) -> 0 <= psize2 (outs r) < psize2 (ins r) ->
  worst (fun d => exists r p q, (r < n)%nat /\ inb2 p (ins r) /\ 0 <= q < 2 /\ d = Rabs ((gain2 N ins outs nloop r p - 1) * want2 IZR vr INDEX (sd r) N (ins r) p q)) e ->
  (IZR (grid_points2 N) ^ nloop - 1 <= e)%R.
Proof.
  intros HN Ti Hr Hl Hs (_ & H & _). destruct (pt_at2_in (ins r) (psize2 (outs r)) Hl ltac:(lia)) as (A & B). set (p := pt_at2 (ins r) (psize2 (outs r))) in *.
  eapply Rle_trans; [|apply H; exists r, p, 0; split; [exact Hr|]; split; [exact A|]; split; [lia|reflexivity]].
  unfold gain2. rewrite B, Z.ltb_irrefl. cbn [want2 Z.eqb]. pose proof (proj1 Ti p r Hr A) as Hg. apply big_gain.
  - destruct N as [x y]. unfold pos2d in HN. unfold grid_points2. cbn [fst snd]. nia.
  - destruct N as [x y]. clearbody p. destruct p as [a b]. cbn in Hg |- *. lia.
Qed.

(** -r, in any arithmetic *)
Theorem C56_ro3_proof {F V D} (O : sops F) cexp rnorm (vz vr : Z -> V) (cv : V -> F) (dist : F -> V -> D) (gtb : D -> D -> bool) (zero : D)
    ar n st N permute ins outs f (M0 : nat -> @rmem F) k sd nloop :
  ready3 ar n st N permute ins outs f -> room3 f BACKWARD BWORK M0 -> (forall r, (r < n)%nat -> legal3 (ins r) /\ seed_ok k (sd r)) ->
  exists P M', setup_ffts3 cexp N = Some P /\
    exec_to n (test3 O rnorm f P true nloop (fun r => initialize3 vz vr cv k (sd r) N (ins r))) M0 M' /\
    (forall r p q, (r < n)%nat -> inb3 p (ins r) -> 0 <= q < 2 ->
       zget (getb BWORK (M' r)) (cell3 2 0 (ins r) p q) = Some (cv (want3 vz vr k (sd r) N (ins r) p q))) /\
    ((forall v, gtb (dist (cv v) v) zero = false) -> gtb zero zero = false ->
     allmax gtb zero n (fun r => validate3 vz vr dist gtb zero k (sd r) N (ins r) (getb BWORK (M' r))) = Some zero).
Proof.
  intros Hr Ha Hs. pose proof Hr as (_ & _ & _ & _ & Ti & _). destruct (ready_plans O cexp _ _ _ _ _ _ _ _ Hr) as (P & HP).
  destruct (run_ro3 O cexp rnorm cv ar n st N permute ins outs f P M0 _ _ nloop Hr HP Ha (fun r H => proj1 (Hs r H)) (init_fills3 vz vr cv n N ins k sd Hs)) as (M' & H1 & H2).
  assert (G : forall r p, (r < n)%nat -> inb3 p (ins r) -> inb3 p (grid3 N)) by (intros r p Hrn Hp; apply (proj1 Ti) with r; assumption).
  exists P, M'. split; [exact HP|]. split; [exact H2|]. split.
  - intros r p q Hrn Hp Hq. destruct (H1 r Hrn) as (K & _). rewrite K by (apply cell3_lt; assumption). rewrite wanti3_ok by eauto. reflexivity.
  - intros Hd Hz. rewrite (allmax_ok gtb zero n _ (fun _ => zero)).
    + f_equal. unfold maxof. clear -Hz. induction (seq 0 n) as [|x l IH]; cbn; [reflexivity|]. rewrite Hz. exact IH.
    + intros r Hrn. destruct (Hs r Hrn) as (L & S). destruct (H1 r Hrn) as (K & _).
      rewrite (validate3_ok vz vr dist gtb zero k (sd r) N (ins r) (getb BWORK (M' r)) (fun i => cv (wanti3 vz vr k (sd r) N (ins r) i)) L K S). f_equal.
      unfold dev, maxof. clear -Hd. induction (zrange _) as [|x l IH]; cbn; [reflexivity|]. rewrite Hd. exact IH.
Qed.
Theorem C56_ro2_proof {F V D} (O : sops F) cexp rnorm (vz vr : Z -> V) (cv : V -> F) (dist : F -> V -> D) (gtb : D -> D -> bool) (zero : D)
    esize ar n st N permute ins outs f (M0 : nat -> @rmem F) k sd nloop :
  ready2 esize ar n st N permute ins outs f -> arrays_ok2 f BWORK M0 -> (forall r, (r < n)%nat -> legal2 (ins r) /\ seed_ok k (sd r)) ->
  exists P M', setup_ffts2 cexp N = Some P /\
    exec_to n (test2 O rnorm esize f P true nloop (fun r => initialize2 vz vr cv k (sd r) N (ins r))) M0 M' /\
    (forall r p q, (r < n)%nat -> inb2 p (ins r) -> 0 <= q < 2 ->
       zget (getb BWORK (M' r)) (cell2 2 0 (ins r) p q) = Some (cv (want2 vz vr k (sd r) N (ins r) p q))) /\
    ((forall v, gtb (dist (cv v) v) zero = false) -> gtb zero zero = false ->
     allmax gtb zero n (fun r => validate2 vz vr dist gtb zero k (sd r) N (ins r) (getb BWORK (M' r))) = Some zero).
Proof.
  intros Hr Ha Hs. pose proof Hr as (_ & _ & _ & _ & _ & Ti & _). destruct (ready_plans2 O cexp _ _ _ _ _ _ _ _ _ Hr) as (P & HP).
  destruct (run_ro2 O cexp rnorm cv esize ar n st N permute ins outs f P M0 _ _ nloop Hr HP Ha (fun r H => proj1 (Hs r H)) (init_fills2 vz vr cv n N ins k sd Hs)) as (M' & H1 & H2).
  assert (G : forall r p, (r < n)%nat -> inb2 p (ins r) -> inb2 p (grid2 N)) by (intros r p Hrn Hp; apply (proj1 Ti) with r; assumption).
  exists P, M'. split; [exact HP|]. split; [exact H2|]. split.
  - intros r p q Hrn Hp Hq. destruct (H1 r Hrn) as (K & _). rewrite K by (apply cell2_lt; assumption). rewrite wanti2_ok by eauto. reflexivity.
  - intros Hd Hz. rewrite (allmax_ok gtb zero n _ (fun _ => zero)).
    + f_equal. unfold maxof. clear -Hz. induction (seq 0 n) as [|x l IH]; cbn; [reflexivity|]. rewrite Hz. exact IH.
    + intros r Hrn. destruct (Hs r Hrn) as (L & S). destruct (H1 r Hrn) as (K & _).
      rewrite (validate2_ok vz vr dist gtb zero k (sd r) N (ins r) (getb BWORK (M' r)) (fun i => cv (wanti2 vz vr k (sd r) N (ins r) i)) L K S). f_equal.
      unfold dev, maxof. clear -Hd. induction (zrange _) as [|x l IH]; cbn; [reflexivity|]. rewrite Hd. exact IH.
Qed.

(** simple.cpp: one round trip of the numbers 0, 1, 2, .. *)
Theorem C56_simple_proof ar n st N permute ins outs f (M0 : nat -> @rmem R) :
  ready3 ar n st N permute ins outs f -> room3 f BACKWARD BWORK M0 -> (forall r, (r < n)%nat -> legal3 (ins r)) ->
  (forall r, (r < n)%nat -> psize3 (ins r) <= psize3 (outs r)) ->
  exists P M', setup_ffts3 cexpR N = Some P /\
    exec_to n (test3 Rops rnormR f P false 1 (fun r => simple_init IZR (fun v => v) (ins r))) M0 M' /\
    allmax Rgtb 0%R n (fun r => simple_diff IZR Rdist1 Rgtb 0%R (ins r) (getb BWORK (M' r))) = Some 0%R.
Proof.
  intros Hr Ha Hl Hsz. destruct (ready_plans Rops cexpR _ _ _ _ _ _ _ _ Hr) as (P & HP).
  destruct (run_exact3 ar n st N permute ins outs f P M0 (fun r => simple_init IZR (fun v => v) (ins r)) (fun _ => IZR) 1 Hr HP Ha Hl) as (M' & H1 & H2).
  { intros r w Hrn Hw. apply simple_init_ok; auto. }
  exists P, M'. split; [exact HP|]. split; [exact H2|].
  assert (Z0 : Rgtb 0 0 = false) by (unfold Rgtb; destruct (Rlt_dec 0 0); [lra|reflexivity]).
  rewrite (allmax_ok Rgtb 0%R n _ (fun _ => 0%R)).
  - f_equal. unfold maxof. clear -Z0. induction (seq 0 n) as [|x l IH]; cbn; [reflexivity|]. rewrite Z0. exact IH.
  - intros r Hrn. destruct (H1 r Hrn) as (K & _). rewrite (simple_diff_ok IZR Rdist1 Rgtb 0%R (ins r) (getb BWORK (M' r)) IZR (Hl r Hrn)).
    + f_equal. unfold dev, maxof. clear -Z0. induction (zrange _) as [|x l IH]; cbn; [reflexivity|].
      unfold Rdist1 at 2 3. rewrite Rminus_eq_0, Rabs_R0, Z0. exact IH.
    + intros i Hi. destruct (cell3_at (ins r) i (Hl r Hrn) Hi) as (A & B & C). pose proof (K _ _ A B) as E. rewrite C in E. rewrite E.
      unfold gain3. rewrite (scaled_all ins outs r _ (Hsz r Hrn) A). f_equal. ring.
Qed.

(** ** from the command line to the reported error *)
(** memory as allocate_mine() and the library allocate it *)
Definition fresh (s a b : Z) : @rmem R := mkmem (List.repeat 0%R (Z.to_nat (2 * s))) nil (List.repeat 0%R (Z.to_nat a)) (List.repeat 0%R (Z.to_nat b)).
Lemma zlen_fresh a : a <= zlen (List.repeat 0%R (Z.to_nat a)).
Proof. unfold zlen. rewrite repeat_length. lia. Qed.
Definition fresh3 (f : fft3) (r : nat) : @rmem R := fresh (f_fftsize f r) (f_sendsize f r) (f_recvsize f r).
Definition fresh2 (f : fft2) (r : nat) : @rmem R := fresh (t_fftsize f r) (t_sendsize f r) (t_recvsize f r).
Lemma fresh3_ok f : arrays_ok f BWORK (fresh3 f).
Proof. intros r _. split; [|split]; apply zlen_fresh. Qed.
Lemma fresh2_ok f : arrays_ok2 f BWORK (fresh2 f).
Proof. intros r _. split; [|split]; apply zlen_fresh. Qed.

(** one run of test3d in mode 0 or 1 with -v: the error printed *)
Definition reports3 (rd : Q -> Q) (ar : areas) (n : nat) (st : settings) (mode : Z) (N pin pout : Z * Z * Z) (vr : Z -> R) (k : init) (sd : nat -> Z)
    (nloop : nat) (M0 : fft3 -> nat -> @rmem R) (e : R) : Prop :=
  exists gi go ins outs f P M', proc_setup3 rd (Z.of_nat n) mode N pin pout = Some (gi, go) /\
    (forall r, (r < n)%nat -> tbox3 rd N gi (Z.of_nat r) = Some (ins r) /\ tbox3 rd N go (Z.of_nat r) = Some (outs r)) /\
    setup3d ar n st N (permute3 mode) ins outs = SOk f /\ setup_ffts3 cexpR N = Some P /\
    exec_to n (test3 Rops rnormR f P false nloop (init3 vr k sd N ins)) (M0 f) M' /\ maxerr3 vr k sd N ins n M' = Some e.
Definition reports2 (rd : Q -> Q) (esize : Z) (ar : areas) (n : nat) (st : settings) (mode : Z) (N pin pout : Z * Z) (vr : Z -> R) (k : init) (sd : nat -> Z)
    (nloop : nat) (M0 : fft2 -> nat -> @rmem R) (e : R) : Prop :=
  exists gi go ins outs f P M', proc_setup2 rd (Z.of_nat n) N pin pout = Some (gi, go) /\
    (forall r, (r < n)%nat -> tbox2 rd N gi (Z.of_nat r) = Some (ins r) /\ tbox2 rd N go (Z.of_nat r) = Some (outs r)) /\
    setup2d ar n st N (permute2 mode) ins outs = SOk f /\ setup_ffts2 cexpR N = Some P /\
    exec_to n (test2 Rops rnormR esize f P false nloop (init2 vr k sd N ins)) (M0 f) M' /\ maxerr2 vr k sd N ins n M' = Some e.

Theorem C56_test3d_proof rd ar (n : nat) st N g vr k sd nloop (M0 : fft3 -> nat -> @rmem R) :
  rd_laws rd -> area_laws ar -> (1 <= n)%nat -> ints3d N -> small3 (Z.of_nat n) N -> dims_ok3 N -> flag_ok (st_pack st) ->
  given3 (Z.of_nat n) g -> (forall r, (r < n)%nat -> seed_ok k (sd r)) -> (forall f, arrays_ok f BWORK (M0 f)) ->
  reports3 rd ar n st 0 N g g vr k sd nloop M0 0%R.
Proof.
  intros L La Hn HN Hs Hd Hpk Hg Hseed HM. destruct (ints3d_pos N HN) as (Hp & HI).
  destruct (C55_3d_proof rd ar n st 0 N g g L La Hn HN Hs ltac:(lia) Hg Hg) as (gi & go & E & Fi & Fo & _ & _ & _ & _ & _ & B & Ti & To & Ok).
  assert (Eg : go = gi).
  { revert E. unfold proc_setup3. cbn [Z.eqb orb]. destruct Hg as [-> | Hg].
    - cbn [unset3 Z.eqb andb]. destruct (proc3d rd (Z.of_nat n) N) as [a|]; cbn [bind]; [|discriminate]. intros E. injection E. congruence.
    - rewrite (unset3_factors _ _ Hg). cbn [bind]. intros E. injection E. congruence. }
  subst go. destruct (proj2 Ok Hd) as (f & Ef).
  assert (Hr : ready3 ar n st N (permute3 0) (tiles3 N gi) (tiles3 N gi) f).
  { split; [exact La|]. split; [exact Hn|]. split; [exact HI|]. split; [exact Hpk|]. split; [exact Ti|]. split; [exact To|].
    split; [intros r Hr; apply (tiles3_legal (Z.of_nat n)); assumption|exact Ef]. }
  assert (Hsame : f_same f = true) by (apply (F_same _ _ _ _ _ _ _ (ready_facts _ _ _ _ _ _ _ _ Hr)); split; reflexivity).
  destruct (C56_3d_proof ar n st N _ _ _ f (M0 f) vr k sd nloop Hr) as (P & M' & e & EP & EX & _ & _ & EE & W).
  { split; [apply HM|]. unfold fwdpath. rewrite Hsame, orb_true_r. discriminate. }
  { intros r Hrn. split; [apply (tiles3_legal (Z.of_nat n)); assumption|auto]. }
  assert (e = 0%R) by (eapply worst_zero3; [exact W|intros; lia]). subst e.
  exists gi, gi, (tiles3 N gi), (tiles3 N gi), f, P, M'. split; [exact E|]. split; [exact B|]. split; [exact Ef|]. split; [exact EP|]. split; assumption.
Qed.
Theorem C56_test2d_proof rd esize ar (n : nat) st mode N g vr k sd nloop (M0 : fft2 -> nat -> @rmem R) :
  rd_laws rd -> area_laws ar -> (1 <= n)%nat -> ints2d N -> small2 (Z.of_nat n) N -> dims_ok2 N -> flag_ok (st_pack st) -> (esize = 8 \/ st_pack st <> 2) ->
  mode = 0 -> factors2 (Z.of_nat n) g -> (forall r, (r < n)%nat -> seed_ok k (sd r)) -> (forall f, arrays_ok2 f BWORK (M0 f)) ->
  reports2 rd esize ar n st mode N g g vr k sd nloop M0 0%R.
Proof.
  intros L La Hn HN Hs Hd Hpk Hes -> Hg Hseed HM. destruct (ints2d_pos N HN) as (Hp & HI).
  destruct (C55_2d_proof rd ar n st 0 N g g L La Hn HN Hs (or_intror Hg) (or_intror Hg)) as (gi & go & E & Fi & Fo & Ei & _ & Eo & _ & B & Ti & To & Ok & _).
  assert (Hne : g <> (0, 0)) by (intros ->; destruct Hg; lia). specialize (Ei Hne). specialize (Eo Hne). subst gi go.
  destruct (proj2 (Ok (or_introl eq_refl)) Hd) as (f & Ef).
  assert (Hr : ready2 esize ar n st N (permute2 0) (tiles2 N g) (tiles2 N g) f).
  { split; [exact La|]. split; [exact Hn|]. split; [exact HI|]. split; [exact Hpk|]. split; [exact Hes|]. split; [exact Ti|]. split; [exact To|].
    split; [intros r Hr; apply (tiles2_legal (Z.of_nat n)); assumption|exact Ef]. }
  destruct (C56_2d_proof esize ar n st N _ _ _ f (M0 f) vr k sd nloop Hr (HM f)) as (P & M' & e & EP & EX & _ & _ & EE & W).
  { intros r Hrn. split; [apply (tiles2_legal (Z.of_nat n)); assumption|auto]. }
  assert (e = 0%R) by (eapply worst_zero2; [exact W|intros; lia]). subst e.
  exists g, g, (tiles2 N g), (tiles2 N g), f, P, M'. split; [exact E|]. split; [exact B|]. split; [exact Ef|]. split; [exact EP|]. split; assumption.
Qed.

Lemma smooth5 : smooth 5.
Proof. exists 0, 0, 1. lia. Qed.
(** the two programs that report large errors *)
Lemma bad3_proof nloop sd vr : exists e, (125 ^ nloop - 1 <= e)%R /\
  reports3 fl double_areas 8 (mkset 2 0 2) 1 (5, 5, 5) (0, 0, 0) (0, 0, 0) vr INDEX sd nloop fresh3 e.
Proof.
  assert (HN : ints3d (5, 5, 5)) by (unfold ints3d; lia). destruct (ints3d_pos _ HN) as (Hp & HI).
  assert (Hs : small3 (Z.of_nat 8) (5, 5, 5)) by (unfold small3; lia).
  assert (E : proc_setup3 fl (Z.of_nat 8) 1 (5, 5, 5) (0, 0, 0) (0, 0, 0) = Some ((2, 2, 2), (2, 4, 1))) by (vm_compute; reflexivity).
  destruct (C55_3d_proof fl double_areas 8 (mkset 2 0 2) 1 (5, 5, 5) (0, 0, 0) (0, 0, 0) fl_laws double_laws ltac:(lia) HN Hs ltac:(lia) (or_introl eq_refl) (or_introl eq_refl))
    as (gi & go & E' & Fi & Fo & _ & _ & _ & _ & _ & B & Ti & To & Ok).
  rewrite E in E'. injection E' as <- <-.
  destruct (proj2 Ok) as (f & Ef). { repeat split; solve [lia | exact smooth5]. }
  assert (Hr : ready3 double_areas 8 (mkset 2 0 2) (5, 5, 5) (permute3 1) (tiles3 (5, 5, 5) (2, 2, 2)) (tiles3 (5, 5, 5) (2, 4, 1)) f).
  { split; [exact double_laws|]. split; [lia|]. split; [exact HI|]. split; [right; right; reflexivity|]. split; [exact Ti|]. split; [exact To|].
    split; [intros r Hr; apply (tiles3_legal 8); assumption|exact Ef]. }
  assert (HL : forall r, (r < 8)%nat -> legal3 (tiles3 (5, 5, 5) (2, 2, 2) r) /\ seed_ok INDEX (sd r)).
  { intros r Hrn. split; [apply (tiles3_legal 8); assumption|discriminate]. }
  destruct (C56_3d_proof _ _ _ _ _ _ _ f (fresh3 f) vr INDEX sd nloop Hr) as (P & M' & e & EP & EX & _ & _ & EE & W).
  { split; [apply fresh3_ok|]. intros _. eapply midfast_auto; [exact Hr|reflexivity]. }
  { exact HL. }
  exists e. split.
  - change 125%R with (IZR (grid_points (5, 5, 5))). eapply (worst_big3 _ _ _ _ _ _ _ _ 3 Hp Ti); [lia|apply HL; lia| |exact W]. vm_compute. split; [discriminate|reflexivity].
  - eexists _, _, _, _, f, P, M'. split; [exact E|]. split; [exact B|]. split; [exact Ef|]. split; [exact EP|]. split; assumption.
Qed.
Lemma bad2_proof nloop sd vr : exists e, (25 ^ nloop - 1 <= e)%R /\
  reports2 fl 8 double_areas 4 (mkset 2 0 2) 0 (5, 5) (0, 0) (0, 0) vr INDEX sd nloop fresh2 e.
Proof.
  assert (HN : ints2d (5, 5)) by (unfold ints2d; lia). destruct (ints2d_pos _ HN) as (Hp & HI).
  assert (Hs : small2 (Z.of_nat 4) (5, 5)) by (unfold small2; lia).
  assert (E : proc_setup2 fl (Z.of_nat 4) (5, 5) (0, 0) (0, 0) = Some ((2, 2), (4, 1))) by (vm_compute; reflexivity).
  destruct (C55_2d_proof fl double_areas 4 (mkset 2 0 2) 0 (5, 5) (0, 0) (0, 0) fl_laws double_laws ltac:(lia) HN Hs (or_introl eq_refl) (or_introl eq_refl))
    as (gi & go & E' & Fi & Fo & _ & _ & _ & _ & B & Ti & To & Ok & _).
  rewrite E in E'. injection E' as <- <-.
  destruct (proj2 (Ok (or_introl eq_refl))) as (f & Ef). { repeat split; solve [lia | exact smooth5]. }
  assert (Hr : ready2 8 double_areas 4 (mkset 2 0 2) (5, 5) (permute2 0) (tiles2 (5, 5) (2, 2)) (tiles2 (5, 5) (4, 1)) f).
  { split; [exact double_laws|]. split; [lia|]. split; [exact HI|]. split; [right; right; reflexivity|]. split; [left; reflexivity|]. split; [exact Ti|]. split; [exact To|].
    split; [intros r Hr; apply (tiles2_legal 4); assumption|exact Ef]. }
  assert (HL : forall r, (r < 4)%nat -> legal2 (tiles2 (5, 5) (2, 2) r) /\ seed_ok INDEX (sd r)).
  { intros r Hrn. split; [apply (tiles2_legal 4); assumption|discriminate]. }
  destruct (C56_2d_proof _ _ _ _ _ _ _ _ f (fresh2 f) vr INDEX sd nloop Hr (fresh2_ok f) HL) as (P & M' & e & EP & EX & _ & _ & EE & W).
  exists e. split.
  - change 25%R with (IZR (grid_points2 (5, 5))). eapply (worst_big2 _ _ _ _ _ _ _ _ 1 Hp Ti); [lia|apply HL; lia| |exact W]. vm_compute. split; [discriminate|reflexivity].
  - eexists _, _, _, _, f, P, M'. split; [exact E|]. split; [exact B|]. split; [exact Ef|]. split; [exact EP|]. split; assumption.
Qed.

Lemma C56_3d_refuted_proof : exists n st mode N vr k sd nloop e,
  reports3 fl double_areas n st mode N (0, 0, 0) (0, 0, 0) vr k sd nloop fresh3 e /\ (0 < e)%R.
Proof. destruct (bad3_proof 1 (fun _ => 1) IZR) as (e & He & H). do 9 eexists. split; [exact H|]. cbn in He. lra. Qed.
Lemma C56_2d_refuted_proof : exists n st N vr k sd nloop e,
  reports2 fl 8 double_areas n st 0 N (0, 0) (0, 0) vr k sd nloop fresh2 e /\ (0 < e)%R.
Proof. destruct (bad2_proof 1 (fun _ => 1) IZR) as (e & He & H). do 8 eexists. split; [exact H|]. cbn in He. lra. Qed.

Lemma smooth_of a b c n : 0 <= a -> 0 <= b -> 0 <= c -> n = 2 ^ a * 3 ^ b * 5 ^ c -> smooth n.
Proof. intros. exists a, b, c. auto. Qed.
Lemma dims_865 : dims_ok3 (8, 6, 5).
Proof.
  split; [|split]; (split; [lia|]); [apply (smooth_of 3 0 0)|apply (smooth_of 1 1 0)|apply (smooth_of 0 0 1)]; lia.
Qed.
Lemma C55_modes_refuted_proof : exists n st mode N gi go, (mode = 1 \/ mode = 3) /\ proc_setup2 fl (Z.of_nat n) N (0, 0) (0, 0) = Some (gi, go) /\
  dims_ok2 N /\ setup2d double_areas n st N (permute2 mode) (tiles2 N gi) (tiles2 N go) = SUB.
Proof.
  exists 4%nat, (mkset 2 0 2), 1, (5, 5), (2, 2), (4, 1). split; [left; reflexivity|]. split; [vm_compute; reflexivity|].
  split; [split; (split; [lia|exact smooth5])|vm_compute; reflexivity].
Qed.
Lemma C55_example_proof : rd_laws fl /\ area_laws double_areas /\ ints3d (8, 6, 5) /\ small3 12 (8, 6, 5) /\ given3 12 (0, 0, 0) /\
  proc_setup3 fl 12 0 (8, 6, 5) (0, 0, 0) (0, 0, 0) = Some ((3, 2, 2), (3, 2, 2)) /\ proc_setup3 fl 12 1 (8, 6, 5) (0, 0, 0) (0, 0, 0) = Some ((3, 2, 2), (4, 3, 1)) /\
  tbox3 fl (8, 6, 5) (3, 2, 2) 11 = Some (mkbox3 5 7 3 5 2 4) /\ proc_setup2 fl 12 (8, 6) (0, 0) (0, 0) = Some ((4, 3), (12, 1)) /\ dims_ok3 (8, 6, 5).
Proof.
  split; [exact fl_laws|]. split; [exact double_laws|]. split; [unfold ints3d; lia|]. split; [unfold small3; lia|]. split; [left; reflexivity|].
  split; [vm_compute; reflexivity|]. split; [vm_compute; reflexivity|]. split; [vm_compute; reflexivity|]. split; [vm_compute; reflexivity|]. exact dims_865.
Qed.
Lemma C56_example_proof : (1 <= 12)%nat /\ ints3d (8, 6, 5) /\ small3 (Z.of_nat 12) (8, 6, 5) /\ dims_ok3 (8, 6, 5) /\ flag_ok (st_pack (mkset 2 0 2)) /\
  given3 (Z.of_nat 12) (0, 0, 0) /\ (forall r, (r < 12)%nat -> seed_ok RANDOM (82783 + Z.of_nat r)) /\ (forall f, arrays_ok f BWORK (fresh3 f)) /\
  factors2 12 (4, 3) /\ (forall f, arrays_ok2 f BWORK (fresh2 f)).
Proof.
  split; [lia|]. split; [unfold ints3d; lia|]. split; [unfold small3; lia|]. split; [exact dims_865|]. split; [right; right; reflexivity|].
  split; [left; reflexivity|]. split; [intros r Hr _; unfold IM; lia|]. split; [exact fresh3_ok|]. split; [unfold factors2; lia|exact fresh2_ok].
Qed.

(** ** validate() on IEEE doubles: an integer as a double *)
Definition SFz (z : Z) : spec_float := binary_normalize 53 1024 z 0 false.
Lemma C57_nan_proof : exists k N b w, zget w 0 = Some S754_nan /\ inb3 (0, 0, 0) b /\
  validate3 SFz (fun _ => SFz 0) (fun a b => SFabs (SFsub 53 1024 a b)) (fun a b => SFltb b a) (SFz 0) k 1 N b w = Some (SFz 0).
Proof.
  exists ZERO, (2, 1, 1), (mkbox3 0 1 0 0 0 0), [S754_nan; S754_nan; S754_nan; S754_nan]. split; [reflexivity|]. split; [cbn; lia|]. vm_compute. reflexivity.
Qed.
Lemma C57_example_proof : exists (w : nat -> list R) e, allmax Rgtb 0%R 2 (fun r => validate3 IZR IZR Rdist1 Rgtb 0%R INDEX 1 (2, 2, 2) (tiles3 (2, 2, 2) (1, 1, 2) r) (w r)) = Some e /\ e = 4%R.
Proof.
  destruct (validate3_all IZR INDEX (fun _ => 1) (2, 2, 2) 2 (tiles3 (2, 2, 2) (1, 1, 2)) (fun _ => List.repeat 0%R 8)) as (e & E & W1 & W2 & W3).
  { intros r Hr. assert (G : factors3 (Z.of_nat 2) (1, 1, 2)) by (unfold factors3; lia). assert (P : pos3d (2, 2, 2)) by (unfold pos3d; lia).
    split; [apply (tiles3_legal 2); assumption|]. split; [|split].
    - intros p Hp. apply (proj1 (tiles3_tiling 2 _ _ P G) p r Hr Hp).
    - destruct r as [|[|r]]; [vm_compute; discriminate|vm_compute; discriminate|lia].
    - discriminate. }
  exists (fun _ => List.repeat 0%R 8), e. split; [exact E|]. apply Rle_antisym.
  - destruct W3 as [-> | (r & Hr & p & q & v & Hp & Hq & Ev & ->)]; [lra|].
    assert (v = 0%R) as ->. { unfold zget in Ev. destruct (_ <? _); [discriminate|]. apply nth_error_In in Ev. apply repeat_spec in Ev. exact Ev. }
    destruct p as [[x y] z]. assert (B : 0 <= x <= 1 /\ 0 <= y <= 1 /\ 0 <= z <= 1).
    { assert (G : factors3 (Z.of_nat 2) (1, 1, 2)) by (unfold factors3; lia). assert (P : pos3d (2, 2, 2)) by (unfold pos3d; lia).
      pose proof (proj1 (tiles3_tiling 2 _ _ P G) _ r Hr Hp) as H. cbn in H. lia. }
    cbn [want3 value3]. destruct (q =? 0); rewrite Rminus_0_l, Rabs_Ropp, <- abs_IZR; apply IZR_le; lia.
  - apply W2. exists 1%nat. split; [lia|]. exists (1, 1, 1), 0, 0%R. split; [vm_compute; intuition discriminate|]. split; [lia|]. split; [vm_compute; reflexivity|].
    cbn [want3 value3 Z.eqb]. rewrite Rminus_0_l, Rabs_Ropp, <- abs_IZR. reflexivity.
Qed.

Lemma C58_random_proof : forall seed, 1 <= seed <= IM - 1 ->
  random seed = Some ((16807 * seed) mod (2 ^ 31 - 1)) /\ 1 <= (16807 * seed) mod (2 ^ 31 - 1) <= 2 ^ 31 - 2.
Proof.
  intros seed H. split; [apply random_spec; lia|]. pose proof (lehmer_range seed H 1 ltac:(lia)) as L. unfold lehmer, IM in L. rewrite Z.pow_1_r in L. lia.
Qed.
Lemma C58_stream_proof : forall k seed, 1 <= seed <= IM - 1 -> 0 <= k -> random (lehmer k seed) = Some (lehmer (k + 1) seed) /\ 1 <= lehmer k seed <= IM - 1.
Proof. intros k seed H Hk. split; [apply random_lehmer; assumption|apply lehmer_range; assumption]. Qed.
Lemma C58_seed_proof : exists seed, 1 <= seed <= 2 ^ 31 - 1 /\ forall k, (1 <= k)%nat -> Nat.iter k (fun s => bind s random) (Some seed) = Some 0.
Proof.
  exists IM. split; [unfold IM; lia|]. intros k Hk. destruct k as [|k]; [lia|]. clear Hk. destruct random_IM as (A & B). induction k as [|k IH].
  - change (random IM = Some 0). exact A.
  - change (bind (Nat.iter (S k) (fun s => bind s random) (Some IM)) random = Some 0). rewrite IH. exact B.
Qed.
