(** Theorems about the continuous benchmark functions in binary64 arithmetic, for every C
    library that satisfies [libm_ok]. *)
From Coq Require Import List ZArith.
From Verif Require Import PyBase B64 BenchFloat BenchFloatThms.
Import ListNotations.

(* ------------------------------ C98 ------------------------------ *)
(** In the dimensions the constructor accepts, these functions never fall below zero.
    Missing from the full statement: HappyCat and HGBat (refuted below) and Ackley. *)
Theorem C98_sign_partial : forall m d x, libm_ok m -> In d dims ->
  never_below_zero (bent_cigar_f m d x) /\ never_below_zero (discus_f m d x) /\ never_below_zero (rosenbrock_f m d x) /\
  never_below_zero (griewank_f m d x) /\ never_below_zero (Ok (rastrigin_f m x)) /\ never_below_zero (elliptic_f m x) /\
  never_below_zero (katsuura_f m d x) /\ never_below_zero (expanded_scaffer_f m d x).
Proof. exact signs. Qed.
Print Assumptions C98_sign_partial.

(** They are exactly zero at the textbook minimum.  Missing: Ackley (next theorem). *)
Theorem C98_zero_partial : forall m d, libm_ok m -> In d dims ->
  evaluates_to (bent_cigar_f m d (repeat fzero d)) (Z2f 0) /\ evaluates_to (discus_f m d (repeat fzero d)) (Z2f 0) /\
  evaluates_to (rosenbrock_f m d (repeat fone d)) (Z2f 0) /\ evaluates_to (griewank_f m d (repeat fzero d)) (Z2f 0) /\
  evaluates_to (Ok (rastrigin_f m (repeat fzero d))) (Z2f 0) /\
  (d <> 1%nat -> evaluates_to (elliptic_f m (repeat fzero d)) (Z2f 0)) /\
  evaluates_to (katsuura_f m d (repeat fzero d)) (Z2f 0) /\ evaluates_to (happycat_f m d (repeat (Z2f (-1)) d)) (Z2f 0) /\
  (squares_rounded m -> evaluates_to (hgbat_f m d (repeat (Z2f (-1)) d)) (Z2f 0)) /\
  evaluates_to (expanded_scaffer_f m d (repeat fzero d)) (Z2f 0).
Proof. exact zeros. Qed.
Print Assumptions C98_zero_partial.

(** Ackley's function evaluates to 2^-51 at the origin. *)
Theorem C98_ackley : forall m, libm_ok m -> forall d, In d dims -> evaluates_to (ackley_f m d (repeat fzero d)) (lit 1 (-51)).
Proof. exact ackley_off. Qed.
Print Assumptions C98_ackley.

Theorem C98_happycat_refuted : forall m, libm_ok m -> squares_rounded m ->
  exists v, happycat_f m 10 happy_low = Ok v /\ flt v (Z2f 0) = true.
Proof. exact happycat_low. Qed.
Print Assumptions C98_happycat_refuted.
Theorem C98_hgbat_refuted : forall m, libm_ok m -> squares_rounded m ->
  exists v, hgbat_f m 10 hg_low = Ok v /\ flt v (Z2f 0) = true.
Proof. exact hgbat_low. Qed.
Print Assumptions C98_hgbat_refuted.

Example C98_met : (libm_ok steps /\ squares_rounded steps) /\ In 10%nat dims.
Proof. exact (conj steps_ok (or_intror (or_introl eq_refl))). Qed.
