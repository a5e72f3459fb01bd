(** Proto.v : histories of calls on one FFT3d or FFT2d object, and the vocabulary in which the properties about
    call order are stated.  The member functions are those of Life.v and Tune.v. *)

From Coq Require Import QArith.
From Verif Require Import Base Setup3d Life LifeProofs LifeFft LifeObj Tune TuneProofs.
Open Scope Z_scope.

(** one call by the application.  [CSet]: assign the public variables collective, exchange, packflag, memoryflag
    (fft3d.h:30-36, fft2d.h:28-34).  [CSetup res]: setup() whose validation and layout give [res].
    [CTune]: tune(), with the outcome of setup() for every setting and this rank's clock. *)
Inductive call :=
  | CSet (s : settings) (mf : Z)
  | CSetup (res : sres shape)
  | CSetupMemory (us ur : ptr)
  | CCompute | COnly1d | COnlyRemaps | COneRemap
  | CTune (setup_fn : settings -> sres shape) (clk : nat -> Q) (root : option (Q * Q)) (flag niter : Z) (tmax : Q) (tflag : Z).

Section Proto.
Variable strict : bool.
Variable esize plsize rqsize ptsize nprocs xsize : Z.
Variable dim3 : bool.

Definition keep {X} (o : fobj) (n : tobj) (m : LM X) : LM (fobj * tobj) := lbind m (fun _ => lret (o, n)).
Definition put (n : tobj) (m : LM fobj) : LM (fobj * tobj) := lbind m (fun o => lret (o, n)).

Definition run (c : call) (o : fobj) (n : tobj) : LM (fobj * tobj) :=
  match c with
  | CSet s mf => lret (with_settings s mf o, n)
  | CSetup res => put n (setup_fobj strict esize plsize rqsize ptsize nprocs xsize dim3 res o)
  | CSetupMemory us ur => put n (setup_memory us ur o)
  | CCompute => keep o n (compute_life esize o)
  | COnly1d => keep o n (only1d_life o)
  | COnlyRemaps => keep o n (onlyremaps_life esize o)
  | COneRemap => keep o n (oneremap_life esize o)
  | CTune setup_fn clk root flag niter tmax tflag => fun h =>
      match tune strict esize plsize rqsize ptsize nprocs xsize dim3 setup_fn clk root flag niter tmax tflag o n (mktst h 0 []) with
      | LHalt e => LHalt e | LUB => LUB | LOk (x, s) => LOk (x, t_heap s)
      end
  end.

Definition del (o : fobj) : LM unit := if dim3 then del_fobj3 strict o else del_fobj2 strict o.

(** a layout has as many dimensions and remap pointers as the class has *)
Definition wf_call (c : call) : Prop :=
  match c with
  | CSetup (SOk sh) => shape_len dim3 sh = true
  | CTune f _ _ _ _ _ _ => forall s sh, f s = SOk sh -> shape_len dim3 sh = true
  | _ => True
  end.

(** between calls the application may do anything with its own memory; OUser is every block the library did not allocate *)
Definition is_lib (b : blk) : bool := match b_own b with OLib => true | OUser => false end.
Definition user_step (h h' : heap) : Prop := wf h' /\ filter is_lib (h_live h') = filter is_lib (h_live h).

(** [reach cs o n h]: after constructing an object and making the calls [cs], all of which returned *)
Inductive reach : list call -> fobj -> tobj -> heap -> Prop :=
  | reach_new prec n h0 o h : wf h0 -> (forall b, In b (h_live h0) -> b_own b = OUser) -> tcond dim3 n ->
      new_fobj esize dim3 prec h0 = LOk (o, h) -> reach [] o n h
  | reach_call cs c o n h o' n' h' : reach cs o n h -> wf_call c -> run c o n h = LOk ((o', n'), h') -> reach (cs ++ [c]) o' n' h'
  | reach_user cs o n h h' : reach cs o n h -> user_step h h' -> reach cs o n h'.
End Proto.

(** ** what a history says *)
Definition is_setup (c : call) : Prop := match c with CSetup _ | CTune _ _ _ _ _ _ _ => True | _ => False end.
Definition was_setup (cs : list call) : Prop := Exists is_setup cs.
(** current value of memoryflag; the constructors set it to 1 *)
Definition memflag_after (cs : list call) : Z := fold_left (fun m c => match c with CSet _ mf => mf | _ => m end) cs 1.
(** buffers were provided: by a setup with memoryflag set, or by setup_memory *)
Definition has_buffers (cs : list call) : Prop :=
  exists a c b, cs = a ++ c :: b /\ (is_setup c /\ memflag_after a <> 0 \/ exists us ur, c = CSetupMemory us ur).
(** memoryflag is not switched between zero and non-zero after setup (doc/api_setup.txt: changing it has no effect) *)
Definition steady (cs : list call) : Prop :=
  forall a s mf b, cs = a ++ CSet s mf :: b -> was_setup a -> (mf = 0 <-> memflag_after a = 0).
(** setup is called at most once (doc/api_setup.txt) *)
Definition once (cs : list call) : Prop := forall a c b, cs = a ++ c :: b -> is_setup c -> ~ was_setup a.
(** the buffers of the last setup_memory call *)
Definition user_buffers (cs : list call) : option (ptr * ptr) :=
  fold_left (fun m c => match c with CSetupMemory us ur => Some (us, ur) | _ => m end) cs None.

(** ** calls the library must report: doc/api_setup.txt, api_compute.txt, api_perform.txt, api_tune.txt *)
Definition misuse (cs : list call) (c : call) (msg : string) : Prop :=
  match c with
  | CSet _ _ => False
  | CSetup _ => was_setup cs /\ msg = "FFT is already setup"%string
  | CSetupMemory _ _ =>
      ~ was_setup cs /\ msg = "Cannot setup FFT memory before setup"%string \/
      was_setup cs /\ memflag_after cs <> 0 /\ msg = "Cannot setup FFT memory with memoryflag set"%string
  | CCompute =>
      ~ was_setup cs /\ msg = "Cannot compute FFT before setup"%string \/
      was_setup cs /\ ~ has_buffers cs /\ msg = "Cannot compute FFT before setup_memory"%string
  | COnly1d => ~ was_setup cs /\ msg = "Cannot compute 1d FFTs before setup"%string
  | COnlyRemaps =>
      ~ was_setup cs /\ msg = "Cannot perform FFT remap before setup"%string \/
      was_setup cs /\ ~ has_buffers cs /\ msg = "Cannot perform FFT remap before setup_memory"%string
  | COneRemap =>
      ~ was_setup cs /\ msg = "Cannot perform an FFT remap before setup"%string \/
      was_setup cs /\ ~ has_buffers cs /\ msg = "Cannot perform an FFT remap before setup_memory"%string
  | CTune _ _ _ flag niter tmax tflag =>
      was_setup cs /\ msg = "FFT is already setup"%string \/
      ~ was_setup cs /\ ~ (-1 <= flag <= 1) /\ msg = "Invalid flag arg for FFT tune"%string \/
      ~ was_setup cs /\ -1 <= flag <= 1 /\ ~ (0 < niter /\ (0 <= tmax)%Q) /\ msg = "Invalid niter/tmax args for FFT tune"%string \/
      ~ was_setup cs /\ -1 <= flag <= 1 /\ 0 < niter /\ (0 <= tmax)%Q /\ ~ (0 <= tflag <= 1) /\ msg = "Invalid tflag arg for FFT tune"%string
  end.
(** errors that come from the validation of the layout inside setup (C15, C19) *)
Definition layout_error (c : call) (msg : string) : Prop :=
  match c with
  | CSetup res => res = SErr msg
  | CTune f _ _ _ _ _ _ => exists s, f s = SErr msg
  | _ => False
  end.
(** a second setup() *)
Definition again (cs : list call) (c : call) : Prop := was_setup cs /\ exists res, c = CSetup res.

(** the send and receive sizes setup reports cover every remap *)
Definition fits_call (c : call) : Prop :=
  match c with
  | CSetup (SOk sh) => shape_fits sh = true
  | CTune f _ _ _ _ _ _ => forall s sh, f s = SOk sh -> shape_fits sh = true
  | _ => True
  end.
(** if the caller provides buffers, the last ones provided are alive and as large as the sizes reported *)
Definition room (esize : Z) (cs : list call) (o : fobj) (h : heap) : Prop :=
  memflag_after cs = 0 -> forall us ur, user_buffers cs = Some (us, ur) ->
  buf esize (h_live h) (snd (fst (o_sizes o))) us /\ buf esize (h_live h) (snd (o_sizes o)) ur.
