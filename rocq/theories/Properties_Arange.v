(** What the random Gaussian initialisers draw. *)
From Coq Require Import List ZArith Reals.
From Flocq Require Import IEEE754.BinarySingleNaN.
From Verif Require Import PyBase B64 Rand Inits Arange.
Import ListNotations.
Open Scope R_scope.

(** C117: the means UniGaussGenInit draws for integer bounds are integers between the
    bounds, and the deviations go up in steps of one from |lower| / 4 and stay below
    |higher| / 2. *)
Theorem C117_unigauss : forall W (g : rng W) n lo hi w i w', small lo -> small hi ->
  unigauss_init_new g n [] [] (Z2f lo) (Z2f hi) w = (Ok i, w') ->
  List.length (gi_means i) = Z.to_nat n /\ List.length (gi_stds i) = Z.to_nat n /\
  Forall (fun m => exists z, (lo <= z <= hi)%Z /\ isfin m = true /\ B2R m = IZR z) (gi_means i) /\
  Forall (fun d => isfin d = true /\ exists k : nat, B2R d = Rabs (IZR lo) / 4 + INR k /\ B2R d < Rabs (IZR hi) / 2) (gi_stds i).
Proof. exact @unigauss_grid. Qed.
Print Assumptions C117_unigauss.

(** C117: every vector of integers between the bounds can come out. *)
Theorem C117_unigauss_every : forall n lo hi (f : nat -> Z), small lo -> small hi -> (0 <= n)%Z -> (Z.abs lo < 2 * Z.abs hi)%Z ->
  (forall i, lo <= f i <= hi)%Z ->
  exists (g : rng unit) i, pick_ok g /\ unigauss_init_new g n [] [] (Z2f lo) (Z2f hi) tt = (Ok i, tt) /\
    forall k, (k < Z.to_nat n)%nat -> exists x, nth_error (gi_means i) k = Some x /\ isfin x = true /\ B2R x = IZR (f k).
Proof. exact unigauss_every. Qed.
Print Assumptions C117_unigauss_every.

(** C117: the means and the n by n covariance matrix MultiGaussGenInit draws have integer
    entries between the bounds. *)
Theorem C117_multigauss : forall W (g : rng W) n lo hi w i w', small lo -> small hi ->
  mgauss_init_new g n [] [] (Z2f lo) (Z2f hi) w = (Ok i, w') ->
  List.length (mi_means i) = Z.to_nat n /\ Forall (on_grid lo hi) (mi_means i) /\
  List.length (mi_cov i) = Z.to_nat n /\ Forall (fun r => List.length r = Z.to_nat n /\ Forall (on_grid lo hi) r) (mi_cov i).
Proof. exact @mgauss_grid. Qed.
Print Assumptions C117_multigauss.

(** C117: every choice of such entries can come out. *)
Theorem C117_multigauss_every : forall n lo hi (f : nat -> Z), small lo -> small hi -> (0 <= n)%Z -> (forall i, lo <= f i <= hi)%Z ->
  exists (g : rng unit) i, pick_ok g /\ mgauss_init_new g n [] [] (Z2f lo) (Z2f hi) tt = (Ok i, tt) /\
    (forall k, (k < Z.to_nat n)%nat -> exists x, nth_error (mi_means i) k = Some x /\ isfin x = true /\ B2R x = IZR (f k)) /\
    forall a b, (a < Z.to_nat n)%nat -> (b < Z.to_nat n)%nat -> cov_at i a b (IZR (f (a * Z.to_nat n + b)%nat)).
Proof. exact mgauss_every. Qed.
Print Assumptions C117_multigauss_every.

(** C118, refuted: with two variables or more and lower < upper, MultiGaussGenInit can draw
    a matrix that is not symmetric. *)
Theorem C118_asymmetric_refuted : forall n lo hi, small lo -> small hi -> (2 <= n)%Z -> (lo < hi)%Z ->
  exists (g : rng unit) i, pick_ok g /\ mgauss_init_new g n [] [] (Z2f lo) (Z2f hi) tt = (Ok i, tt) /\
    exists u v, cov_at i 0 1 u /\ cov_at i 1 0 v /\ u <> v.
Proof. exact mgauss_asymmetric. Qed.
Print Assumptions C118_asymmetric_refuted.

(** C118, refuted: with a negative lower bound every variance can come out negative. *)
Theorem C118_negative_refuted : forall n lo hi, small lo -> small hi -> (1 <= n)%Z -> (lo < 0)%Z -> (lo <= hi)%Z ->
  exists (g : rng unit) i, pick_ok g /\ mgauss_init_new g n [] [] (Z2f lo) (Z2f hi) tt = (Ok i, tt) /\
    forall a, (a < Z.to_nat n)%nat -> exists v, cov_at i a a v /\ v < 0.
Proof. exact mgauss_negative. Qed.
Print Assumptions C118_negative_refuted.

(** C118, the part that holds: the matrix is n by n; with a non-negative lower bound no
    variance is negative; with one variable, or equal bounds, it is symmetric. *)
Theorem C118_covariance_partial : forall W (g : rng W) n lo hi w i w', small lo -> small hi ->
  mgauss_init_new g n [] [] (Z2f lo) (Z2f hi) w = (Ok i, w') ->
  (forall a b, (a < Z.to_nat n)%nat -> (b < Z.to_nat n)%nat -> exists v, cov_at i a b v) /\
  ((0 <= lo)%Z -> forall a v, cov_at i a a v -> 0 <= v) /\
  (lo = hi \/ (n <= 1)%Z -> forall a b u v, cov_at i a b u -> cov_at i b a v -> u = v).
Proof. exact @mgauss_some_cov. Qed.
Print Assumptions C118_covariance_partial.

(** The bounds -5 and 5 in three dimensions meet the hypotheses. *)
Example C117_met : exists (g : rng unit) i, pick_ok g /\ small (-5) /\ small 5 /\
  unigauss_init_new g 3 [] [] (Z2f (-5)) (Z2f 5) tt = (Ok i, tt) /\ map B2R (gi_means i) = [-5; 5; 0].
Proof. exact unigauss_met. Qed.

Example C118_met : exists (g : rng unit) i, pick_ok g /\ mgauss_init_new g 2 [] [] (Z2f 0) (Z2f 7) tt = (Ok i, tt) /\
  cov_at i 0 0 7 /\ cov_at i 1 1 2 /\ cov_at i 0 1 3 /\ cov_at i 1 0 0.
Proof. exact mgauss_met. Qed.
