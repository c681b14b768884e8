(** What the random Gaussian initialisers draw: every pair of vectors, and the bounds they refuse. *)
From Coq Require Import List ZArith Reals.
From Flocq Require Import IEEE754.BinarySingleNaN.
From Verif Require Import PyBase B64 Rand Inits Arange ArangeMore.
Import ListNotations.
Open Scope R_scope.

(** C117: every vector of means and every vector of deviations can come out, in every combination. *)
Theorem C117_unigauss_pairs : forall n lo hi (f : nat -> Z) (d : nat -> nat), small lo -> small hi -> (0 <= n)%Z ->
  (forall i, lo <= f i <= hi)%Z -> (forall i, Z.abs lo + 4 * Z.of_nat (d i) < 2 * Z.abs hi)%Z ->
  exists (g : rng bool) i, pick_ok g /\ unigauss_init_new g n [] [] (Z2f lo) (Z2f hi) false = (Ok i, true) /\
    forall k, (k < Z.to_nat n)%nat ->
      (exists x, nth_error (gi_means i) k = Some x /\ isfin x = true /\ B2R x = IZR (f k)) /\
      exists x, nth_error (gi_stds i) k = Some x /\ isfin x = true /\ B2R x = Rabs (IZR lo) / 4 + INR (d k).
Proof. exact unigauss_pairs. Qed.
Print Assumptions C117_unigauss_pairs.

(** C117: with no mean or no deviation to draw the constructors raise ValueError. *)
Theorem C117_unigauss_refused : forall W (g : rng W) n lo hi w, pick_ok g -> small lo -> small hi -> (1 <= n)%Z ->
  (hi < lo)%Z \/ (2 * Z.abs hi <= Z.abs lo)%Z ->
  fst (unigauss_init_new g n [] [] (Z2f lo) (Z2f hi) w) = Raise ValueError.
Proof. exact @unigauss_refused. Qed.
Print Assumptions C117_unigauss_refused.

Theorem C117_multigauss_refused : forall W (g : rng W) n lo hi w, small lo -> small hi -> (1 <= n)%Z -> (hi < lo)%Z ->
  fst (mgauss_init_new g n [] [] (Z2f lo) (Z2f hi) w) = Raise ValueError.
Proof. exact @mgauss_refused. Qed.
Print Assumptions C117_multigauss_refused.

(** Bounds -5 and 5: means -5, 5, -5, ... with deviations 5/4, 9/4, 5/4, ... *)
Example C117_pairs_met : small (-5) /\ small 5 /\ (forall i, -5 <= (if Nat.even i then -5 else 5) <= 5)%Z /\
  (forall i, Z.abs (-5) + 4 * Z.of_nat (if Nat.even i then 0 else 1) < 2 * Z.abs 5)%Z.
Proof. split; [reflexivity|]. split; [reflexivity|]. split; intros i; destruct (Nat.even i); vm_compute; (reflexivity || (split; discriminate)). Qed.

(** Bounds 3 and 1, and 10 and 5. *)
Example C117_refused_met : small 3 /\ small 1 /\ (1 < 3)%Z /\ small 10 /\ small 5 /\ (2 * Z.abs 5 <= Z.abs 10)%Z.
Proof. repeat split; vm_compute; (reflexivity || discriminate). Qed.
