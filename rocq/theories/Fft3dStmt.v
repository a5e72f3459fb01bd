(** Fft3dStmt.v : the 3d theorems restated with the direction of a call in the
    user's terms: forward goes from the input layout to the permuted output layout,
    any other flag goes back. *)

From Coq Require Import Reals Lra.
From Verif Require Import Base Spec Pack3d Sched SchedProofs Phases Exec Remap RemapMain RemapInst
  Remap3d RemapThms RemapTop Layout LayoutProofs Setup3d Setup3dProofs LayoutFinal Kiss KissPure KissAlg KissReal Fft1d KissFinal
  Fft3d Frame Fft3dProofs Fft3dMain DftMulti Fft3dTop Fft3dFinal.
Local Open Scope Z_scope.

(** specification: where the data of a call is, and where its result goes *)
Definition from_perm (permute flag : Z) : Z := if flag =? FORWARD then 0 else permute.
Definition from_lay (ins outs : nat -> box3) (flag : Z) : nat -> box3 := if flag =? FORWARD then ins else outs.
Definition to_perm (permute flag : Z) : Z := if flag =? FORWARD then permute else 0.
Definition to_lay (ins outs : nat -> box3) (flag : Z) : nat -> box3 := if flag =? FORWARD then outs else ins.

Lemma dirs ar n st N permute ins outs f flag r : ready3 ar n st N permute ins outs f -> (r < n)%nat ->
  src_perm permute f flag = from_perm permute flag /\ src_lay ins outs f flag r = from_lay ins outs flag r /\
  dst_perm permute f flag = to_perm permute flag /\ dst_lay ins outs f flag r = to_lay ins outs flag r.
Proof.
  intros Hr Hrn. unfold from_perm, from_lay, to_perm, to_lay. destruct (Z.eqb_spec flag FORWARD) as [->|Hne].
  - destruct (forward_dirs permute ins outs f) as (E1 & E2 & E3 & E4). rewrite E1, E2, E3, E4. auto.
  - eapply src_out; eauto.
Qed.

Section Any.
Context {F : Type} (O : sops F).
Variables (cexp : bool -> Z -> Z -> F * F) (rnorm : Z -> F).

Lemma src_holds ar n st N permute ins outs f flag g b (M0 : nat -> @rmem F) : ready3 ar n st N permute ins outs f ->
  (forall r, (r < n)%nat -> holds3 2 (from_perm permute flag) (from_lay ins outs flag r) g (getb b (M0 r))) ->
  forall r, (r < n)%nat -> holds3 2 (src_perm permute f flag) (src_lay ins outs f flag r) g (getb b (M0 r)).
Proof. intros Hr H r Hrn. destruct (dirs ar n st N permute ins outs f flag r Hr Hrn) as (E1 & E2 & _ & _). rewrite E1, E2. apply H, Hrn. Qed.

Lemma C28_stmt ar n st N permute ins outs f P bi bo (M0 : nat -> @rmem F) scaled ro flag G :
  ready3 ar n st N permute ins outs f -> setup_ffts3 cexp N = Some P -> isdata bi -> isdata bo ->
  (if fwdpath f flag then f_pre f = true else f_post f = true /\ f_pre f = false) -> room3 f flag bo M0 -> room3 f flag bi M0 ->
  (forall r, (r < n)%nat -> holds3 2 (from_perm permute flag) (from_lay ins outs flag r) (fld G) (getb bi (M0 r))) ->
  exists Mo Mi, exec_to n (compute3 O rnorm f P scaled ro flag bi bo) M0 Mo /\
    exec_to n (compute3 O rnorm f P scaled ro flag bi bi) M0 Mi /\
    (forall r p q, (r < n)%nat -> inb3 p (to_lay ins outs flag r) -> 0 <= q < 2 ->
      exists v, zget (getb bo (Mo r)) (cell3 2 (to_perm permute flag) (to_lay ins outs flag r) p q) = Some v /\
        zget (getb bi (Mi r)) (cell3 2 (to_perm permute flag) (to_lay ins outs flag r) p q) = Some v) /\
    (bi <> bo -> forall r, (r < n)%nat -> getb bi (Mo r) = getb bi (M0 r)).
Proof.
  intros Hr HP Hbi Hbo Hg Hro Hri Hx.
  destruct (C28_proof O cexp rnorm ar n st N permute ins outs f P bi bo M0 scaled ro flag G Hr HP Hbi Hbo Hg Hro Hri (src_holds _ _ _ _ _ _ _ _ _ _ _ _ Hr Hx)) as (Mo & Mi & A & B & C & D).
  exists Mo, Mi. split; [exact A|]. split; [exact B|]. split; [|exact D].
  intros r p q Hrn Hp Hq. destruct (dirs ar n st N permute ins outs f flag r Hr Hrn) as (_ & _ & E3 & E4). specialize (C r p q Hrn). rewrite E3, E4 in C. apply C; assumption.
Qed.

Lemma C29_stmt ar ar' n st st' N permute ins outs f f' P bi bo bi' bo' (M0 M0' : nat -> @rmem F) scaled ro flag G :
  ready3 ar n st N permute ins outs f -> ready3 ar' n st' N permute ins outs f' -> setup_ffts3 cexp N = Some P ->
  isdata bi -> isdata bo -> isdata bi' -> isdata bo' ->
  place3 f flag bi bo -> place3 f' flag bi' bo' -> room3 f flag bo M0 -> room3 f' flag bo' M0' ->
  (forall r, (r < n)%nat -> holds3 2 (from_perm permute flag) (from_lay ins outs flag r) (fld G) (getb bi (M0 r))) ->
  (forall r, (r < n)%nat -> holds3 2 (from_perm permute flag) (from_lay ins outs flag r) (fld G) (getb bi' (M0' r))) ->
  exists M M', exec_to n (compute3 O rnorm f P scaled ro flag bi bo) M0 M /\
    exec_to n (compute3 O rnorm f' P scaled ro flag bi' bo') M0' M' /\
    forall r p q, (r < n)%nat -> inb3 p (to_lay ins outs flag r) -> 0 <= q < 2 ->
      exists v, zget (getb bo (M r)) (cell3 2 (to_perm permute flag) (to_lay ins outs flag r) p q) = Some v /\
        zget (getb bo' (M' r)) (cell3 2 (to_perm permute flag) (to_lay ins outs flag r) p q) = Some v.
Proof.
  intros Hr Hr' HP Hbi Hbo Hbi' Hbo' Hpl Hpl' Hro Hro' H1 H2.
  destruct (call_agree O cexp rnorm ar ar' n st st' N permute ins outs f f' P bi bo bi' bo' M0 M0' scaled ro flag G Hr Hr' HP Hbi Hbo Hbi' Hbo' Hpl Hpl' Hro Hro'
    (src_holds _ _ _ _ _ _ _ _ _ _ _ _ Hr H1) (src_holds _ _ _ _ _ _ _ _ _ _ _ _ Hr H2)) as (M & M' & A & B & C).
  exists M, M'. split; [exact A|]. split; [exact B|].
  intros r p q Hrn Hp Hq. destruct (dirs ar n st N permute ins outs f flag r Hr Hrn) as (_ & _ & E3 & E4). specialize (C r p q Hrn). rewrite E3, E4 in C. apply C; assumption.
Qed.

Lemma C30_compute_stmt ar n st N permute ins outs f P bi bo (M0 : nat -> @rmem F) scaled flag G :
  ready3 ar n st N permute ins outs f -> setup_ffts3 cexp N = Some P -> isdata bi -> isdata bo ->
  place3 f flag bi bo -> room3 f flag bo M0 ->
  (forall r, (r < n)%nat -> holds3 2 (from_perm permute flag) (from_lay ins outs flag r) (fld G) (getb bi (M0 r))) ->
  exec_all n (compute3 O rnorm f P scaled true flag bi bo) M0
    (fun r m => holds3 2 (to_perm permute flag) (to_lay ins outs flag r) (fld G) (getb bo m) /\
                framed M0 bo (fun r => 2 * f_fftsize f r) r m).
Proof.
  intros Hr HP Hbi Hbo Hpl Hro Hx.
  destruct (C30_compute_proof O cexp rnorm ar n st N permute ins outs f P bi bo M0 scaled flag G Hr HP Hbi Hbo Hpl Hro (src_holds _ _ _ _ _ _ _ _ _ _ _ _ Hr Hx)) as (M' & A & B).
  exists M'. split; [|exact B]. intros r Hrn. destruct (dirs ar n st N permute ins outs f flag r Hr Hrn) as (_ & _ & E3 & E4).
  rewrite <- E3, <- E4. apply A, Hrn.
Qed.

(** C37 *)
Lemma C37_stmt ar n st N permute ins outs f P calls (M0 : nat -> @rmem F) :
  ready3 ar n st N permute ins outs f -> setup_ffts3 cexp N = Some P -> Forall (call_ok f M0) calls ->
  (exists M', exec_to n (together (map (call_code O rnorm f P) calls)) M0 M') /\
  forall pre c post M1, calls = pre ++ c :: post -> exec_to n (together (map (call_code O rnorm f P) pre)) M0 M1 ->
    exists M2, exec_to n (call_code O rnorm f P c) M1 M2 /\ exec_to n (together (map (call_code O rnorm f P) (pre ++ [c]))) M0 M2 /\
    forall Mf, call_ok f Mf c ->
      (forall r p q, (r < n)%nat -> inb3 p (from_lay ins outs (ca_flag c) r) -> 0 <= q < 2 ->
         zget (getb (ca_in c) (Mf r)) (cell3 2 (from_perm permute (ca_flag c)) (from_lay ins outs (ca_flag c) r) p q) =
         zget (getb (ca_in c) (M1 r)) (cell3 2 (from_perm permute (ca_flag c)) (from_lay ins outs (ca_flag c) r) p q)) ->
      exists Mf2, exec_to n (call_code O rnorm f P c) Mf Mf2 /\
        forall r p q, (r < n)%nat -> inb3 p (to_lay ins outs (ca_flag c) r) -> 0 <= q < 2 ->
          exists v, zget (getb (ca_out c) (M2 r)) (cell3 2 (to_perm permute (ca_flag c)) (to_lay ins outs (ca_flag c) r) p q) = Some v /\
            zget (getb (ca_out c) (Mf2 r)) (cell3 2 (to_perm permute (ca_flag c)) (to_lay ins outs (ca_flag c) r) p q) = Some v.
Proof.
  intros Hr HP Hok. destruct (C37_proof O cexp rnorm ar n st N permute ins outs f P Hr HP calls M0 Hok) as (A & B). split; [exact A|].
  intros pre c post M1 Hs H1. destruct (B pre c post M1 Hs H1) as (M2 & C1 & C2 & C3). exists M2. split; [exact C1|]. split; [exact C2|].
  intros Mf Hf Hsame. destruct (C3 Mf Hf) as (Mf2 & D1 & D2).
  { intros r p q Hrn. destruct (dirs ar n st N permute ins outs f (ca_flag c) r Hr Hrn) as (E1 & E2 & _ & _). rewrite E1, E2. apply Hsame, Hrn. }
  exists Mf2. split; [exact D1|]. intros r p q Hrn. destruct (dirs ar n st N permute ins outs f (ca_flag c) r Hr Hrn) as (_ & _ & E3 & E4).
  specialize (D2 r p q Hrn). rewrite E3, E4 in D2. exact D2.
Qed.

Lemma C38_stmt ar n st N permute ins outs f P (M0 : nat -> @rmem F) c :
  ready3 ar n st N permute ins outs f -> setup_ffts3 cexp N = Some P -> call_ok f M0 c ->
  exists L M', one_by_one n (pieces_compute3 O rnorm f P (ca_scaled c) (ca_ro c) (ca_flag c) (ca_in c) (ca_out c)) M0 M' /\
    forall eager labels s, run n eager (start n (call_code O rnorm f P c) M0) labels s ->
      (forall a, step n eager a s <> Bad) /\
      (((length labels < L)%nat /\ exists a s', step n eager a s = Ok s') \/
       (length labels = L /\ all_done s /\ s_ch s = empty_chans n /\ mems_of s = map M' (seq 0 n))).
Proof. intros Hr HP Hc. exact (C38_proof O cexp rnorm ar n st N permute ins outs f P Hr HP M0 c Hc). Qed.
End Any.

Lemma C30_remaps_stmt {A} ar n st N permute ins outs f bi bo (M0 : nat -> @rmem A) flag g :
  ready3 ar n st N permute ins outs f -> isdata bi -> isdata bo ->
  bi = bo \/ (if fwdpath f flag then f_pre f = true else f_post f = true) -> room3 f flag bo M0 ->
  (forall r, (r < n)%nat -> holds3 2 (from_perm permute flag) (from_lay ins outs flag r) g (getb bi (M0 r))) ->
  exec_all n (only_remaps3 f flag bi bo) M0
    (fun r m => holds3 2 (to_perm permute flag) (to_lay ins outs flag r) g (getb bo m) /\
                framed M0 bo (fun r => 2 * f_fftsize f r) r m).
Proof.
  intros Hr Hbi Hbo Hpl Hro Hx.
  destruct (C30_remaps_proof ar n st N permute ins outs f bi bo M0 flag g Hr Hbi Hbo Hpl Hro (src_holds _ _ _ _ _ _ _ _ _ _ _ _ Hr Hx)) as (M' & HA & HB).
  exists M'. split; [|exact HB]. intros r Hrn. destruct (dirs ar n st N permute ins outs f flag r Hr Hrn) as (_ & _ & E3 & E4).
  rewrite <- E3, <- E4. apply HA, Hrn.
Qed.
