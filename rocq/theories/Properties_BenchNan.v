(** C114: numbers that are not finite in the arguments of the benchmark functions. *)
From Coq Require Import List ZArith Bool Lia.
From Flocq Require Import IEEE754.BinarySingleNaN.
From Verif Require Import PyBase B64 FloatSum Bench BenchFloat BenchNear BenchNan.
Import ListNotations.

(** NaN among the first d numbers: the functions return NaN or raise. *)
Theorem C114_nan_partial : forall (m : libm) (d : nat) (x : list f64) (i : nat),
  forall (library : spreads m) (enough : (d <= length x)%nat) (read : (i < d)%nat) (missing : isnan (getf i x) = true),
  gives_nan (bent_cigar_f m d x) /\ gives_nan (discus_f m d x) /\ ((2 <= d)%nat -> gives_nan (rosenbrock_f m d x)) /\ gives_nan (ackley_f m d x) /\
  gives_nan (weierstrass_f m d x) /\ gives_nan (griewank_f m d x) /\ rastrigin_f m x = B754_nan /\ ((2 <= d)%nat -> gives_nan (elliptic_f m x)) /\
  mod_schwefel_f m x = Raise TypeError /\ (exists e, katsuura_f m d x = Raise e) /\ gives_nan (happycat_f m d x) /\ gives_nan (hgbat_f m d x) /\
  gives_nan (expanded_scaffer_f m d x).
Proof. exact all_nan. Qed.
Print Assumptions C114_nan_partial.

(** NaN or an infinity: the result is not finite, or there is an exception. *)
Theorem C114_infinite_partial : forall (m : libm) (d : nat) (x : list f64) (i : nat),
  forall (library : spreads m) (enough : (d <= length x)%nat) (read : (i < d)%nat) (infinite : isfin (getf i x) = false),
  not_finite (bent_cigar_f m d x) /\ not_finite (discus_f m d x) /\ ((2 <= d)%nat -> not_finite (rosenbrock_f m d x)) /\ not_finite (ackley_f m d x) /\
  not_finite (weierstrass_f m d x) /\ not_finite (griewank_f m d x) /\ isfin (rastrigin_f m x) = false /\ ((2 <= d)%nat -> not_finite (elliptic_f m x)) /\
  ((exists e, mod_schwefel_f m x = Raise e) \/ not_finite (mod_schwefel_f m x)) /\ (exists e, katsuura_f m d x = Raise e) /\ not_finite (happycat_f m d x) /\
  not_finite (hgbat_f m d x) /\ gives_nan (expanded_scaffer_f m d x).
Proof. exact all_bad. Qed.
Print Assumptions C114_infinite_partial.

(** With one variable the Rosenbrock function does not look at it: NaN has the value of the minimum. *)
Theorem C114_one_variable_refuted : exists x, length x = 1%nat /\ isnan (getf 0 x) = true /\ forall m, rosenbrock_f m 1 x = Ok fzero.
Proof. exact (ex_intro _ [B754_nan] (conj eq_refl (conj eq_refl (fun m => rosenbrock_blind m B754_nan)))). Qed.
Print Assumptions C114_one_variable_refuted.

(** A library, and two numbers the second of which is NaN or infinite. *)
Example C114_met : spreads (careful ideal) /\ (2 <= length [fone; B754_nan : f64])%nat /\ isnan (getf 1 [fone; B754_nan]) = true /\ isfin (getf 1 [fone; B754_infinity true]) = false.
Proof. exact (conj (careful_spreads ideal) (conj (le_n 2) (conj eq_refl eq_refl))). Qed.
