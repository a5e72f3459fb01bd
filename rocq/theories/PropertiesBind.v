(** PropertiesBind.v : C62 (Fortran interfaces) and C63 (Python classes). *)

From Coq Require Import QArith String.
From Verif Require Import Base Bind BindSpec BindProofs BindLife.
Local Open Scope string_scope.
Local Open Scope list_scope.
Local Open Scope Z_scope.

(** ** C62 *)
(** every Fortran routine but setup_memory names an existing C function with the same parameters, and for all variables of
    the caller every parameter receives what its C type asks for *)
Theorem C62_delivers : forall d p, In p (fort d) -> f_name p <> "fft3d_setup_memory" -> f_name p <> "fft2d_setup_memory" ->
  exists c, lookup (api_of d) (f_symbol p) = Some c /\ result_ok (c_ret c) (f_ret p) /\ map fst (c_par c) = map d_name (f_args p) /\
    forall vs, types_ok (f_args p) vs -> delivered_all (c_par c) vs (received (f_args p) vs).
Proof. exact fortran_ok. Qed.
Print Assumptions C62_delivers.

(** every C function has a Fortran routine of its name *)
Theorem C62_complete : forall d c, In c (api_of d) -> for_fortran c = false ->
  exists p, In p (fort d) /\ f_name p = c_name c /\ (f_symbol p = c_name c \/ f_symbol p = String.append (c_name c) "_fortran").
Proof. exact fortran_complete. Qed.
Print Assumptions C62_complete.

(** and is bound to the Fortran variant where there is one *)
Theorem C62_variant : forall d p c, In p (fort d) -> In c (api_of d) -> c_name c = String.append (f_name p) "_fortran" -> f_symbol p = c_name c.
Proof. exact fortran_variant. Qed.
Print Assumptions C62_variant.

(** setup_memory: C receives the addresses of the two pointer variables, whatever the pointers are *)
Theorem C62_setup_memory : forall d p vs, In p (fort d) -> f_name p = "fft3d_setup_memory" \/ f_name p = "fft2d_setup_memory" ->
  types_ok (f_args p) vs ->
  exists h s r, vs = [h; s; r] /\ (exists a b c, v_val h = VP a /\ v_val s = VP b /\ v_val r = VP c /\
    received (f_args p) vs = [WP a; WP (v_addr s); WP (v_addr r)]).
Proof. exact fortran_setup_memory. Qed.
Print Assumptions C62_setup_memory.

Theorem C62_setup_memory_refuted : exists p c vs, In p (fort true) /\ f_name p = "fft3d_setup_memory" /\
  lookup (api_of true) (f_symbol p) = Some c /\ types_ok (f_args p) vs /\ ~ delivered_all (c_par c) vs (received (f_args p) vs).
Proof.
  exists (mkf "fft3d_setup_memory" "fft3d_setup_memory" None (fptr ++ ref FPtr ["sendbuf"; "recvbuf"])),
    (mkc "fft3d_setup_memory" TVoid (handle :: data ["sendbuf"; "recvbuf"])), [mkv 8 (VP 1000); mkv 16 (VP 2000); mkv 24 (VP 3000)].
  split; [cbn; tauto|]. split; [reflexivity|]. split; [reflexivity|]. split; [cbn; tauto|].
  cbn. intros (_ & (a & H & E) & _). injection H as <-. discriminate E.
Qed.
Print Assumptions C62_setup_memory_refuted.

Example C62_example : exists p vs, In p (fort false) /\ f_name p = "fft2d_compute" /\ types_ok (f_args p) vs /\
  received (f_args p) vs = [WP 1000; WP 2000; WP 3000; WI (-1)].
Proof.
  exists (mkf "fft2d_compute" "fft2d_compute" None (fptr ++ val FPtr ["in"; "out"] ++ val FInt ["flag"])),
    [mkv 8 (VP 1000); mkv 16 (VP 2000); mkv 24 (VP 3000); mkv 32 (VI (-1))].
  split; [cbn; tauto|]. split; [reflexivity|]. split; [cbn; tauto|]. reflexivity.
Qed.

(** ** C63 *)
(** the constructor makes one C call, create, or none *)
Theorem C63_construct : forall sem d comm prec w,
  (prec = 1 \/ prec = 2 -> exists o, o_cell o = Some (w_next w) /\
     let f := String.append (pre d) "create" in let ws := [WI comm; WI prec; WP (w_next w)] in
     construct sem (k_api (cls d)) (cls d) comm prec w =
     ROk XNone o (mkw (w_calls w ++ [(f, ws)]) (r_mem (sem f ws (fun a => if a =? w_next w then 0 else w_mem w a))) (w_next w + 1))) /\
  (prec <> 1 -> prec <> 2 -> exists o, construct sem (k_api (cls d)) (cls d) comm prec w = RExn SystemExit o w).
Proof. exact construct_calls. Qed.
Print Assumptions C63_construct.

(** a method has the parameters of its C function, in its order *)
Theorem C63_parameters : forall d m, In m (k_methods (cls d)) -> m_name m <> "destroy" ->
  exists c, lookup (k_api (cls d)) (String.append (pre d) (m_name m)) = Some c /\ m_par m = py_names (c_par c).
Proof. exact methods_names. Qed.
Print Assumptions C63_parameters.

(** it makes one C call, to that function, with its arguments, and returns what C returned or stored *)
Theorem C63_method : forall sem d comm prec w0 v o w1, construct sem (k_api (cls d)) (cls d) comm prec w0 = ROk v o w1 ->
  forall w cell m c args ws, o_cell o = Some cell -> cell < w_next w -> In m (map m_name (k_methods (cls d))) ->
  m <> "destroy" -> m <> "setup_memory" -> lookup (k_api (cls d)) (String.append (pre d) m) = Some c ->
  expect (w_mem w cell) (w_next w) (c_par c) args = Some ws ->
  exists mem, with_new w (n_out (c_par c)) mem /\
    let f := String.append (pre d) m in let r := sem f ws mem in
    do_method sem (k_api (cls d)) (cls d) m args o w =
    ROk (gives c (w_next w) r) o (mkw (w_calls w ++ [(f, ws)]) (r_mem r) (w_next w + Z.of_nat (n_out (c_par c)))).
Proof. exact method_delivers. Qed.
Print Assumptions C63_method.

(** every life: create first, destroy once and last, every call between on the handle that create stored and fitting its
    prototype, and no cell of any other object changed *)
Theorem C63_life : forall sem d, writes_results_only (k_api (cls d)) sem -> forall comm prec ops w, prec = 1 \/ prec = 2 ->
  let f := String.append (pre d) "create" in let ws := [WI comm; WI prec; WP (w_next w)] in
  let h := r_mem (sem f ws (fun a => if a =? w_next w then 0 else w_mem w a)) (w_next w) in
  exists w' mid, life sem (k_api (cls d)) (cls d) comm prec ops w = Some w' /\
    w_calls w' = w_calls w ++ (f, ws) :: mid ++ [(String.append (pre d) "destroy", [WP h])] /\
    Forall (between d h) mid /\ (forall a, a < w_next w -> w_mem w' a = w_mem w a).
Proof. exact life_calls. Qed.
Print Assumptions C63_life.

(** with another precision C is never called *)
Theorem C63_bad_precision : forall sem d comm prec ops w, prec <> 1 -> prec <> 2 -> life sem (k_api (cls d)) (cls d) comm prec ops w = Some w.
Proof. exact bad_life. Qed.
Print Assumptions C63_bad_precision.

(** setup_memory raises an exception for all arguments, UnboundLocalError for numpy arrays; C is never called *)
Theorem C63_setup_memory : forall sem d comm prec w0 v o w1, construct sem (k_api (cls d)) (cls d) comm prec w0 = ROk v o w1 ->
  forall w args, do_method sem (k_api (cls d)) (cls d) "setup_memory" args o w =
  RExn (match args with [XArr _; XArr _] => UnboundLocalError | [_; _] => SystemExit | _ => TypeError end) o w.
Proof. exact setup_memory_never. Qed.
Print Assumptions C63_setup_memory.

(** no object of the two Remap classes can be made, and C is never called *)
Theorem C63_remap : forall sem d comm prec w, prec = 1 \/ prec = 2 ->
  exists o, construct sem (k_api (rcls d)) (rcls d) comm prec w = RExn AttributeError o w.
Proof. exact remap_never. Qed.
Print Assumptions C63_remap.
Theorem C63_remap_life : forall sem d comm prec ops w, life sem (k_api (rcls d)) (rcls d) comm prec ops w = Some w.
Proof. exact remap_life. Qed.
Print Assumptions C63_remap_life.

(** integers are not checked: C receives the residue modulo 2^32 *)
Theorem C63_int_wrap : forall sem d comm prec w0 v o w1, construct sem (k_api (cls d)) (cls d) comm prec w0 = ROk v o w1 ->
  forall w key z, exists mem, do_method sem (k_api (cls d)) (cls d) "set" [XStr key; XInt z] o w =
    ROk XNone o (mkw (w_calls w ++ [(String.append (pre d) "set", [WP (w_mem w (w_next w0)); WP key; WI (wrap32 z)])]) mem (w_next w)).
Proof. exact int_wrap. Qed.
Print Assumptions C63_int_wrap.

(** a C library that stores 4096 as the handle, returns 7 and stores 100, 20 and 30 as sizes *)
Definition sem_ex (f : string) (ws : list word) (mem : Z -> Z) : cres :=
  let put a v m := fun x : Z => if x =? a then v else m x in
  match ws with
  | [WI _; WI _; WP a] => mkr 0 0 0 (put a 4096 mem)
  | [_; _; _; _; _; _; _; _; _; _; _; _; WP a; WP b; WP c] => mkr 0 0 0 (put a 100 (put b 20 (put c 30 mem)))
  | _ => mkr 7 0 0 mem
  end.
Definition w_ex : world := mkw [] (fun _ => 0) 1.
Definition ops_ex : list (string * list pval) :=
  [("set", [XStr 50; XInt 1]); ("setup", map XInt [8; 8; 0; 7; 0; 7; 0; 7; 0; 7; 0]); ("setup_memory", [XArr 900; XArr 950]);
   ("compute", [XArr 1000; XArr 2000; XInt 1]); ("compute", [XInt 3; XArr 2000; XInt 1]); ("destroy", []); ("compute", [XArr 1000; XArr 2000; XInt (-1)])].
Example C63_life_example : option_map w_calls (life sem_ex (k_api FFT2dMPI) FFT2dMPI 44 2 ops_ex w_ex) = Some [
  ("fft2d_create", [WI 44; WI 2; WP 1]); ("fft2d_set", [WP 4096; WP 50; WI 1]);
  ("fft2d_setup", WP 4096 :: map WI [8; 8; 0; 7; 0; 7; 0; 7; 0; 7; 0] ++ [WP 2; WP 3; WP 4]);
  ("fft2d_compute", [WP 4096; WP 1000; WP 2000; WI 1]); ("fft2d_destroy", [WP 4096])].
Proof. vm_compute. reflexivity. Qed.
(** the sizes come back *)
Example C63_method_example : match construct sem_ex (k_api FFT2dMPI) FFT2dMPI 44 2 w_ex with
  | ROk _ o w => match do_method sem_ex (k_api FFT2dMPI) FFT2dMPI "setup" (map XInt [8; 8; 0; 7; 0; 7; 0; 7; 0; 7; 0]) o w with
                 | ROk v _ _ => v = XTuple [XInt 100; XInt 20; XInt 30]
                 | _ => False
                 end
  | _ => False
  end.
Proof. vm_compute. reflexivity. Qed.
(** the hypotheses of the method theorem hold *)
Example C63_expect_example : exists c, lookup (k_api FFT3dMPI) "fft3d_tune" = Some c /\
  expect 4096 5 (c_par c) (map XInt [8; 8; 8; 0; 7; 0; 7; 0; 7; 0; 7; 0; 7; 0; 7; 0; 1; 10] ++ [XFloat (5 # 2); XInt 0]) =
  Some (WP 4096 :: map WI [8; 8; 8; 0; 7; 0; 7; 0; 7; 0; 7; 0; 7; 0; 7; 0] ++ [WP 5; WP 6; WP 7; WI 1; WI 10; WD (5 # 2); WI 0]).
Proof. eexists. split; [reflexivity|]. vm_compute. reflexivity. Qed.
(** a library that writes no cell but the results *)
Example C63_writes_example : writes_results_only (k_api FFT3dMPI) (fun f ws mem => mkr 0 0 0
  (match lookup (k_api FFT3dMPI) f with Some p => fun a => if existsb (Z.eqb a) (writable (c_par p) ws) then 9 else mem a | None => mem end)).
Proof.
  intros f p ws mem a HL HN. cbn [r_mem]. rewrite HL. destruct (existsb (Z.eqb a) (writable (c_par p) ws)) eqn:E; [|reflexivity].
  exfalso. apply HN. apply existsb_exists in E. destruct E as (x & HI & E). apply Z.eqb_eq in E. subst x. exact HI.
Qed.
(** 2^32 + 8 becomes 8 *)
Theorem C63_wrap_refuted : exists z, z <> 8 /\ match construct sem_ex (k_api FFT2dMPI) FFT2dMPI 44 1 w_ex with
  | ROk _ o w => match do_method sem_ex (k_api FFT2dMPI) FFT2dMPI "setup" (map XInt [z; 8; 0; 7; 0; 7; 0; 7; 0; 7; 0]) o w with
                 | ROk v _ w => v = XTuple [XInt 100; XInt 20; XInt 30] /\ nth 1 (w_calls w) ("", []) =
                     ("fft2d_setup", WP 4096 :: map WI [8; 8; 0; 7; 0; 7; 0; 7; 0; 7; 0] ++ [WP 2; WP 3; WP 4])
                 | _ => False
                 end
  | _ => False
  end.
Proof. exists (2 ^ 32 + 8). split; [discriminate|]. vm_compute. split; reflexivity. Qed.
Print Assumptions C63_wrap_refuted.
