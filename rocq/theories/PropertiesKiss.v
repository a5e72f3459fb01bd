(** PropertiesKiss.v : properties C22-C24 (the built-in 1d transform), proofs by reference. *)

From Coq Require Import Znumtheory Reals.
From Verif Require Import Base Kiss KissPure KissAlg KissFactor KissReal Fft1d KissFinal.
Local Open Scope Z_scope.

(** C22: with exact real arithmetic the 1d transform of every length writes the DFT
    (KissFinal.DFT: standard-library sums, sin, cos) into exactly n cells, out of
    place with any input stride and in place with any contents of the temporary *)
Theorem C22_kiss_is_dft : forall inv n, 1 <= n < 2 ^ 31 ->
  exists st, kiss_fft_alloc cexpR n inv = Some st /\
  (forall ist fin i out o x,
     (forall t, 0 <= t < n -> zget fin (i + t * ist) = Some (x t)) ->
     0 <= o -> o + n <= zlen out ->
     exists out', kiss_fft_outplace Rops st ist fin i out o = Some out' /\
       zlen out' = zlen out /\
       (forall k, 0 <= k < n -> zget out' (o + k) = Some (DFT inv n x k)) /\
       (forall a, ~ (o <= a < o + n) -> zget out' a = zget out a)) /\
  (forall tmp arr o x, zlen tmp = n ->
     (forall t, 0 <= t < n -> zget arr (o + t) = Some (x t)) ->
     0 <= o -> o + n <= zlen arr ->
     exists arr', kiss_fft_inplace Rops st tmp 1 arr o = Some arr' /\
       zlen arr' = zlen arr /\
       (forall k, 0 <= k < n -> zget arr' (o + k) = Some (DFT inv n x k)) /\
       (forall a, ~ (o <= a < o + n) -> zget arr' a = zget arr a)).
Proof. exact C22_proof. Qed.
Print Assumptions C22_kiss_is_dft.
(** all radices run over GF(419) and compared with the sum; see KissFinal.v *)
Example C22_example :
  forallb (fun n => forallb (fun inv =>
    match run419 inv n with
    | Some r => same_cells r ([(1, 2); (3, 4)] ++ naive inv n (data419 n) ++ [(5, 6)])
    | None => false end) [false; true]) [1; 2; 3; 4; 5; 6; 7; 12; 14; 15; 20; 28] = true.
Proof. exact C22_runs. Qed.

(** the same over any commutative ring with a half and any roots of unity *)
Theorem C22_ring : forall F (O : sops F) (cexp : bool -> Z -> Z -> F * F) inv n,
  slaws O -> rootlaws O inv n (fun a => cexp inv a n) -> 1 <= n < 2 ^ 31 ->
  exists st, kiss_fft_alloc cexp n inv = Some st /\
  forall ist fin i out o x,
     (forall t, 0 <= t < n -> zget fin (i + t * ist) = Some (x t)) ->
     0 <= o -> o + n <= zlen out ->
     exists out', kiss_fft_outplace O st ist fin i out o = Some out' /\
       zlen out' = zlen out /\
       (forall k, 0 <= k < n -> zget out' (o + k) = Some (dft O (fun a => cexp inv a n) n x k)) /\
       (forall a, ~ (o <= a < o + n) -> zget out' a = zget out a).
Proof. exact C22_ring_proof. Qed.
Print Assumptions C22_ring.
Example C22_ring_example : slaws Rops /\ forall inv n, 0 < n -> rootlaws Rops inv n (fun a => cexpR inv a n).
Proof. split; [exact Rlaws|exact cexpR_roots]. Qed.

(** the backward DFT of the forward DFT is n times the data, and conversely *)
Theorem C22_dft_inverse : forall inv n x l, 1 <= n -> 0 <= l < n ->
  DFT (negb inv) n (DFT inv n x) l = ((IZR n * fst (x l))%R, (IZR n * snd (x l))%R).
Proof. exact C22_inverse_proof. Qed.
Print Assumptions C22_dft_inverse.

(** C23: the plan's stages: p1*m1 = n, p2*m2 = m1, ..., last m = 1; radices 4 or prime *)
Theorem C23_factorisation :
  (forall n, 1 <= n < 2 ^ 31 -> exists facs, kf_factor n = Some facs /\
     radices facs = n /\ stages n facs /\ zlen facs <= 32) /\
  (forall n facs, 2 <= n < 2 ^ 31 -> kf_factor n = Some facs ->
     Forall (fun pm => fst pm = 4 \/ prime (fst pm)) facs /\ Forall (fun pm => 2 <= fst pm) facs) /\
  kf_factor 1 = Some [(1, 1)].
Proof. exact C23_proof. Qed.
Print Assumptions C23_factorisation.
Example C23_example : kf_factor (2 * 2 * 2 * 9 * 5 * 49 * 11) =
  Some [(4, 48510); (2, 24255); (3, 8085); (3, 2695); (5, 539); (7, 77); (7, 11); (11, 1)] /\
  kf_factor 101 = Some [(101, 1)] /\ kf_factor 1073741824 = Some (map (fun i => (4, 4 ^ (14 - i))) (zrange 15)).
Proof. exact C23_run. Qed.
Theorem C23_smooth : forall n facs a b c, 0 <= a -> 0 <= b -> 0 <= c -> n = 2 ^ a * 3 ^ b * 5 ^ c ->
  2 <= n < 2 ^ 31 -> kf_factor n = Some facs -> Forall (fun pm => 2 <= fst pm <= 5) facs.
Proof. exact C23_smooth_proof. Qed.
Print Assumptions C23_smooth.
Example C23_smooth_example : 360 = 2 ^ 3 * 3 ^ 2 * 5 ^ 1 /\ kf_factor 360 = Some [(4, 90); (2, 45); (3, 15); (3, 5); (5, 1)].
Proof. vm_compute. auto. Qed.

(** C24: perform_ffts turns each of the n lines of length L into its DFT, and touches nothing else *)
Theorem C24_batch : forall inv L n, 1 <= L < 2 ^ 31 -> 0 <= n ->
  exists st, kiss_fft_alloc cexpR L inv = Some st /\
  forall data x, n * L <= zlen data ->
    (forall a, 0 <= a < n * L -> zget data a = Some (x a)) ->
    exists data', perform_ffts Rops st L (n * L) data = Some data' /\
      zlen data' = zlen data /\
      (forall l k, 0 <= l < n -> 0 <= k < L ->
         zget data' (l * L + k) = Some (DFT inv L (fun j => x (l * L + j)) k)) /\
      (forall a, ~ (0 <= a < n * L) -> zget data' a = zget data a).
Proof. exact C24_proof. Qed.
Print Assumptions C24_batch.
Example C24_example :
  (st <- kiss_fft_alloc cexp419 6 false; perform_ffts P419 st 6 12 (data419 12 ++ [(9, 9)]))
  = Some (naive false 6 (firstn 6 (data419 12)) ++ naive false 6 (skipn 6 (data419 12)) ++ [(9, 9)]).
Proof. exact C24_run. Qed.

(** the same with no law of arithmetic at all (so also with rounding): each line
    becomes what one transform of that line alone produces *)
Theorem C24_batch_any_arithmetic : forall F (O : sops F) cexp inv L n, 1 <= L < 2 ^ 31 -> 0 <= n ->
  exists st, kiss_fft_alloc cexp L inv = Some st /\
  forall data, n * L <= zlen data ->
    exists data', perform_ffts O st L (n * L) data = Some data' /\
      zlen data' = zlen data /\
      (forall l, 0 <= l < n ->
         exists line line', zlen line = L /\ kiss_fft_inplace O st (fresh_tmp O st) 1 line 0 = Some line' /\
           (forall k, 0 <= k < L -> zget line k = zget data (l * L + k)) /\
           (forall k, 0 <= k < L -> zget data' (l * L + k) = zget line' k)) /\
      (forall a, ~ (0 <= a < n * L) -> zget data' a = zget data a).
Proof. exact C24_any_proof. Qed.
Print Assumptions C24_batch_any_arithmetic.
