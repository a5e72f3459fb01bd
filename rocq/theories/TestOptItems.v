(** TestOptItems.v : the command line of the test programs as a list of items, and the value each global has at the end, without
    reference to the assignments of the model: the value of the last option that names it, or the default. *)

From Coq Require Import QArith String.
From Verif Require Import Base TestProg TestOpt TestOptProofs TestOptTop.
Local Open Scope Z_scope.
Local Open Scope list_scope.

(** ** specification *)
Inductive item : Type :=
| Grid (v : list Z) | GridIn (v : list Z) | GridOut (v : list Z) | Loops (v : Z) | Zero | Step | Index | Seed (v : Z)
| Tuned (per : Z) (most : Q) (extra : Z) | Mode (v : Z) | Point | All | Combo | Pencil | Brick | Array | Pointer | Memcpy
| Timed | RemapOnly | Printed | Validated.

(** the words of an item; [d] numbers for a grid; the seed has the rank added *)
Section Words.
Variables (d : nat) (atof : string -> Q) (me : Z).
Definition numbers (ss : list string) (v : list Z) : Prop := List.length ss = d /\ map atoi ss = map Some v.
Definition says (i : item) (w : list string) : Prop :=
  match i with
  | Grid v => exists ss, w = "-g"%string :: ss /\ numbers ss v
  | GridIn v => exists ss, w = "-pin"%string :: ss /\ numbers ss v
  | GridOut v => exists ss, w = "-pout"%string :: ss /\ numbers ss v
  | Loops v => exists s, w = ["-n"; s]%string /\ atoi s = Some v
  | Zero => w = ["-i"; "zero"]%string
  | Step => w = ["-i"; "step"]%string
  | Index => w = ["-i"; "index"]%string
  | Seed v => exists s, w = ["-i"; s]%string /\ ~ In s ["zero"; "step"; "index"]%string /\ atoi s = Some (v - me) /\ - 2 ^ 31 <= v <= 2 ^ 31 - 1
  | Tuned per most extra => exists p m e, w = ["-tune"; p; m; e]%string /\ atoi p = Some per /\ atof m = most /\ atoi e = Some extra
  | Mode v => exists s, w = ["-m"; s]%string /\ atoi s = Some v
  | Point => w = ["-c"; "point"]%string
  | All => w = ["-c"; "all"]%string
  | Combo => w = ["-c"; "combo"]%string
  | Pencil => w = ["-e"; "pencil"]%string
  | Brick => w = ["-e"; "brick"]%string
  | Array => w = ["-p"; "array"]%string
  | Pointer => w = ["-p"; "ptr"]%string
  | Memcpy => w = ["-p"; "memcpy"]%string
  | Timed => w = ["-t"]%string
  | RemapOnly => w = ["-r"]%string
  | Printed => w = ["-o"]%string
  | Validated => w = ["-v"]%string
  end.
(** a whole command line *)
Definition spelled (items : list item) (line : list string) : Prop := exists ws, Forall2 says items ws /\ line = List.concat ws.
End Words.

(** the last value that [f] finds in the items *)
Definition final {A} (f : item -> option A) (default : A) (items : list item) : A :=
  last (flat_map (fun i => match f i with Some v => [v] | None => [] end) items) default.

(** the globals at the end, with the defaults of test3d.cpp:272-285, test2d.cpp:271-284: COMBO = 2, PENCIL = 0, MEMCPY = 2 *)
Definition globals (d : nat) (items : list item) (o : opts) : Prop :=
  o_g o = final (fun i => match i with Grid v => Some v | _ => None end) (List.repeat 8 d) items /\
  o_pin o = final (fun i => match i with GridIn v => Some v | _ => None end) (List.repeat 0 d) items /\
  o_pout o = final (fun i => match i with GridOut v => Some v | _ => None end) (List.repeat 0 d) items /\
  o_nloop o = final (fun i => match i with Loops v => Some v | _ => None end) 1 items /\
  o_init o = final (fun i => match i with Zero => Some ZERO | Step => Some STEP | Index => Some INDEX | Seed _ => Some RANDOM | _ => None end) ZERO items /\
  o_seed o = final (fun i => match i with Seed v => Some (Some v) | _ => None end) None items /\
  o_tune o = final (fun i => match i with Tuned p m e => Some (Some (p, m, e)) | _ => None end) None items /\
  o_mode o = final (fun i => match i with Mode v => Some v | _ => None end) 0 items /\
  o_c o = final (fun i => match i with Point => Some 0 | All => Some 1 | Combo => Some 2 | _ => None end) 2 items /\
  o_e o = final (fun i => match i with Pencil => Some 0 | Brick => Some 1 | _ => None end) 0 items /\
  o_p o = final (fun i => match i with Array => Some 0 | Pointer => Some 1 | Memcpy => Some 2 | _ => None end) 2 items /\
  (o_t o = true <-> In Timed items) /\ (o_r o = true <-> In RemapOnly items) /\
  (o_o o = true <-> In Printed items) /\ (o_v o = true <-> In Validated items).

(** ** the grammar of TestOptProofs in these terms *)
Definition does (i : item) (o : opts) : opts :=
  match i with
  | Grid v => set_g v o | GridIn v => set_pin v o | GridOut v => set_pout v o | Loops v => set_nloop v o
  | Zero => set_init ZERO o | Step => set_init STEP o | Index => set_init INDEX o | Seed v => set_seed v o
  | Tuned p m e => set_tune (p, m, e) o | Mode v => set_mode v o
  | Point => set_c 0 o | All => set_c 1 o | Combo => set_c 2 o | Pencil => set_e 0 o | Brick => set_e 1 o
  | Array => set_p 0 o | Pointer => set_p 1 o | Memcpy => set_p 2 o
  | Timed => set_t o | RemapOnly => set_r o | Printed => set_o o | Validated => set_v o
  end.

Lemma one_says d atof me l o o' : one d atof me l o o' <-> exists i, says d atof me i l /\ o' = does i o.
Proof.
  split.
  - intros H. destruct H.
    + exists (Grid v). split; [exists ss; unfold numbers; auto|reflexivity].
    + exists (GridIn v). split; [exists ss; unfold numbers; auto|reflexivity].
    + exists (GridOut v). split; [exists ss; unfold numbers; auto|reflexivity].
    + exists (Loops v). split; [exists s; auto|reflexivity].
    + exists Zero. split; reflexivity.
    + exists Step. split; reflexivity.
    + exists Index. split; reflexivity.
    + exists (Seed (v + me)). split; [|reflexivity]. exists s. replace (v + me - me) with v by lia. repeat split; auto; try lia.
      intros [E | [E | [E | []]]]; congruence.
    + exists (Tuned vp (atof m) ve). split; [exists p, m, e; auto|reflexivity].
    + exists (Mode v). split; [exists s; auto|reflexivity].
    + exists Point. split; reflexivity.
    + exists All. split; reflexivity.
    + exists Combo. split; reflexivity.
    + exists Pencil. split; reflexivity.
    + exists Brick. split; reflexivity.
    + exists Array. split; reflexivity.
    + exists Pointer. split; reflexivity.
    + exists Memcpy. split; reflexivity.
    + exists Timed. split; reflexivity.
    + exists RemapOnly. split; reflexivity.
    + exists Printed. split; reflexivity.
    + exists Validated. split; reflexivity.
  - intros (i & H & ->). destruct i; cbn [says does] in *.
    + destruct H as (ss & -> & Hl & Hm). constructor; assumption.
    + destruct H as (ss & -> & Hl & Hm). constructor; assumption.
    + destruct H as (ss & -> & Hl & Hm). constructor; assumption.
    + destruct H as (s & -> & E). constructor; assumption.
    + subst; constructor.
    + subst; constructor.
    + subst; constructor.
    + destruct H as (s & -> & Hn & E & R). replace v with (v - me + me) at 1 by lia. cbn [In] in Hn.
      constructor; try assumption; try lia; intros ->; tauto.
    + destruct H as (p & m & e & -> & Ep & Em & Ee). subst most. constructor; assumption.
    + destruct H as (s & -> & E). constructor; assumption.
    + subst; constructor.
    + subst; constructor.
    + subst; constructor.
    + subst; constructor.
    + subst; constructor.
    + subst; constructor.
    + subst; constructor.
    + subst; constructor.
    + subst; constructor.
    + subst; constructor.
    + subst; constructor.
    + subst; constructor.
Qed.

Lemma cmd_spelled d atof me l o o' : cmd d atof me l o o' <-> exists items, spelled d atof me items l /\ o' = fold_left (fun o i => does i o) items o.
Proof.
  split.
  - intros H. induction H as [o | l rest o o1 o2 H1 _ (items & (ws & Hf & ->) & ->)].
    + exists []. split; [exists []; split; constructor|reflexivity].
    + apply one_says in H1. destruct H1 as (i & Hi & ->). exists (i :: items). split; [|reflexivity].
      exists (l :: ws). split; [constructor; assumption|reflexivity].
  - intros (items & (ws & Hf & ->) & ->). revert o. induction Hf as [| i w items ws Hi Hf IH]; intros o; [constructor|].
    cbn [List.concat fold_left]. apply cmd_one with (o1 := does i o); [apply one_says; exists i; auto|apply IH].
Qed.

Lemma last_cons_item {A} (v : A) l x : last (v :: l) x = last l v.
Proof. revert v x. induction l as [| a l IH]; intros v x; [reflexivity|]. change (last (v :: a :: l) x) with (last (a :: l) x). rewrite (IH a x), (IH a v). reflexivity. Qed.

(** a global read by [p] that every item either sets as [f] says or leaves alone *)
Lemma final_fold {A} (p : opts -> A) (f : item -> option A) :
  (forall i o, p (does i o) = match f i with Some v => v | None => p o end) ->
  forall items o, p (fold_left (fun o i => does i o) items o) = final f (p o) items.
Proof.
  intros H items. unfold final. induction items as [| i items IH]; intros o; [reflexivity|].
  cbn [fold_left flat_map]. rewrite IH, H. destruct (f i); cbn [app]; [symmetry; apply last_cons_item|reflexivity].
Qed.
Lemma flag_fold (p : opts -> bool) (k : item) : (forall i o, p (does i o) = true <-> k = i \/ p o = true) ->
  forall items o, p (fold_left (fun o i => does i o) items o) = true <-> In k items \/ p o = true.
Proof.
  intros H items. induction items as [| i items IH]; intros o; cbn [fold_left In]; [tauto|]. rewrite IH, H.
  split; [intros [? | [? | ?]]; auto|intros [[? | ?] | ?]; auto].
Qed.

Lemma globals_fold d items : globals d items (fold_left (fun o i => does i o) items (opts0 d)).
Proof.
  unfold globals.
  do 11 (split; [match goal with |- ?p (fold_left _ _ _) = final ?f _ _ => refine (final_fold p f _ items (opts0 d)); intros i o; destruct i; reflexivity end|]).
  do 3 (split; [match goal with |- ?p (fold_left _ _ _) = true <-> In ?k _ =>
    rewrite (flag_fold p k) by (intros i o; destruct i; (split; [intros H; first [left; reflexivity | right; exact H]|intros [H | H]; first [discriminate H | exact H | reflexivity]])) end; split; [intros [H | H]; [exact H|discriminate H]|intros H; left; exact H]|]).
  rewrite (flag_fold o_v Validated) by (intros i o; destruct i; (split; [intros H; first [left; reflexivity | right; exact H]|intros [H | H]; first [discriminate H | exact H | reflexivity]])). split; [intros [H | H]; [exact H|discriminate H]|intros H; left; exact H].
Qed.
Lemma flag_eq (a b : bool) (Q : Prop) : (a = true <-> Q) -> (b = true <-> Q) -> a = b.
Proof. destruct a, b; intuition congruence. Qed.
Lemma globals_unique d items o o' : globals d items o -> globals d items o' -> o = o'.
Proof.
  destruct o, o'. unfold globals. cbn.
  intros (E1 & E2 & E3 & E4 & E5 & E6 & E7 & E8 & E9 & E10 & E11 & F1 & F2 & F3 & F4) (E1' & E2' & E3' & E4' & E5' & E6' & E7' & E8' & E9' & E10' & E11' & F1' & F2' & F3' & F4').
  rewrite (flag_eq _ _ _ F1 F1'), (flag_eq _ _ _ F2 F2'), (flag_eq _ _ _ F3 F3'), (flag_eq _ _ _ F4 F4').
  rewrite E1, E2, E3, E4, E5, E6, E7, E8, E9, E10, E11, E1', E2', E3', E4', E5', E6', E7', E8', E9', E10', E11'. reflexivity.
Qed.

Theorem options_items d atof P prog line me o : P <= 2 ^ 31 - 1 ->
  options d atof P me (prog :: line) = OOk o <-> exists items, spelled d atof me items line /\ globals d items o /\ accepted d P o.
Proof.
  intros HP. rewrite (options_iff d atof P prog line me o HP), cmd_spelled. split.
  - intros ((items & Hs & ->) & A). exists items. split; [exact Hs|]. split; [apply globals_fold|exact A].
  - intros (items & Hs & G & A). split; [|exact A]. exists items. split; [exact Hs|]. exact (globals_unique d items _ _ G (globals_fold d items)).
Qed.

(** the last -n and the last -i count; the seed is set although it is not used *)
Example C59_globals_example_proof : exists o, options 2 no_atof 6 4 ["test2d"; "-n"; "3"; "-pout"; "3"; "2"; "-i"; "5"; "-e"; "brick"; "-n"; "7"; "-i"; "step"; "-o"]%string = OOk o /\
  spelled 2 no_atof 4 [Loops 3; GridOut [3; 2]; Seed 9; Brick; Loops 7; Step; Printed] ["-n"; "3"; "-pout"; "3"; "2"; "-i"; "5"; "-e"; "brick"; "-n"; "7"; "-i"; "step"; "-o"]%string /\
  globals 2 [Loops 3; GridOut [3; 2]; Seed 9; Brick; Loops 7; Step; Printed] o /\ o_nloop o = 7 /\ o_pin o = [0; 0] /\ o_pout o = [3; 2] /\ o_init o = STEP /\ o_e o = 1.
Proof.
  eexists. split; [vm_compute; reflexivity|]. split.
  - exists [["-n"; "3"]; ["-pout"; "3"; "2"]; ["-i"; "5"]; ["-e"; "brick"]; ["-n"; "7"]; ["-i"; "step"]; ["-o"]]%string. split; [|reflexivity].
    repeat constructor.
    + exists "3"%string. auto.
    + exists ["3"; "2"]%string. repeat split.
    + exists "5"%string. split; [reflexivity|]. split; [intros [E | [E | [E | []]]]; discriminate E|]. split; [reflexivity|lia].
    + exists "7"%string. auto.
  - split; [|repeat split]. unfold globals. cbn. intuition congruence.
Qed.
