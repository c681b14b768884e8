(** C103: means and deviations learned in binary64, against the exact ones. *)
From Coq Require Import List ZArith Reals Lra.
From Flocq Require Import Core IEEE754.BinarySingleNaN.
From Verif Require Import PyBase B64 B64More NdArray Rand Models ModelThms FloatSum FloatMean FloatCov Demo DemoFloat.
Import ListNotations.
Open Scope R_scope.

(* ------------------------------ C103 ----------------------------- *)
(** [added l t]: [t] comes from adding the numbers of [l], each once, in some order and with some
    bracketing. *)
Theorem C103_unigauss : forall (s : list f64 -> f64) lower (col : nat -> res (list f64)) pm pm' i (x : list f64) B q
  (any_order : forall l, added l (s l))
  (bound_finite : isfin lower = true)
  (learned : unigauss_learn (b64_ops s) lower col pm = (Ok tt, pm'))
  (variable : nth_error pm' i = Some q)
  (selected : col i = Ok x)
  (some_rows : x <> [])
  (rows : (Z.of_nat (List.length x) <= 2 ^ 40)%Z)
  (magnitudes : forall v, In v x -> isfin v = true /\ Rabs (B2R v) <= B)
  (far_from_overflow : B <= bpow radix2 400),
  let n := INR (List.length x) in
  let slack := 2 * n * bpow radix2 (-53) * B + bpow radix2 (-1075) in
  isfin (fst q) = true /\ isfin (snd q) = true /\
  Rabs (B2R (fst q) - avg (map B2R x)) <= slack /\
  (forall lo hi, (forall v, In v x -> lo <= B2R v <= hi) -> lo - slack <= B2R (fst q) <= hi + slack) /\
  Rabs (B2R (snd q) - Rmax (B2R lower) (sqrt (pop_var (map B2R x)))) <= (6 * n + 7) * bpow radix2 (-53) * B + bpow radix2 (-530).
Proof. exact unigauss_float. Qed.
Print Assumptions C103_unigauss.

Theorem C103_adapt : forall (s : list f64 -> f64) lower alpha (col : nat -> res (list f64)) pm pm' i (x : list f64) b1 b2 rest B q
  (any_order : forall l, added l (s l))
  (bound_finite : isfin lower = true)
  (alpha_finite : isfin alpha = true)
  (alpha_fraction : 0 <= B2R alpha <= 1)
  (learned : adapt_learn (b64_ops s) lower alpha col pm = (Ok tt, pm'))
  (variable : nth_error pm' i = Some q)
  (selected : col i = Ok x)
  (two_rows : x = b1 :: b2 :: rest)
  (rows : (Z.of_nat (List.length x) <= 2 ^ 40)%Z)
  (magnitudes : forall v, In v x -> isfin v = true /\ Rabs (B2R v) <= B)
  (far_from_overflow : B <= bpow radix2 400),
  let n := INR (List.length x) in
  let a := B2R alpha in
  let target := (1 - a) * avg (map B2R x) + a * (B2R b1 + B2R b2 - B2R (last x b1)) in
  isfin (fst q) = true /\ isfin (snd q) = true /\
  Rabs (B2R (fst q) - target) <= (4 * n + 30) * bpow radix2 (-53) * B + bpow radix2 (-1072) /\
  Rabs (B2R (snd q) - Rmax (B2R lower) (sqrt (pop_var (map B2R x)))) <= (6 * n + 7) * bpow radix2 (-53) * B + bpow radix2 (-530).
Proof. exact adapt_float. Qed.
Print Assumptions C103_adapt.

(** Means, the deviations the code puts on the diagonal, and the clamped covariances. *)
Theorem C103_multigauss : forall (s : list f64 -> f64) lower upper nc (col : nat -> res (list f64)) (xs : nat -> list f64) rows B p p'
  (any_order : forall l, added l (s l))
  (lower_finite : isfin lower = true)
  (upper_finite : isfin upper = true)
  (learned : multigauss_learn (b64_ops s) lower upper nc col p = (Ok tt, p'))
  (columns : forall i, (i < nc)%nat -> col i = Ok (xs i) /\ List.length (xs i) = rows /\
     forall v, In v (xs i) -> isfin v = true /\ Rabs (B2R v) <= B)
  (two_rows : (2 <= rows)%nat)
  (not_too_many : (Z.of_nat rows <= 2 ^ 40)%Z)
  (magnitudes : bpow radix2 (-500) <= B <= bpow radix2 400),
  let n := INR rows in
  (forall k m, (k < nc)%nat -> nth_error (mg_means p') k = Some m ->
     isfin m = true /\ Rabs (B2R m - avg (map B2R (xs k))) <= 2 * n * bpow radix2 (-53) * B + bpow radix2 (-1075)) /\
  exists M, mg_cov p' = CovMat M /\ forall i j, (i < nc)%nat -> (j < nc)%nat -> exists v, entry M i j = Some v /\ isfin v = true /\
    (i = j -> Rabs (B2R v - sqrt (pop_var (map B2R (xs i)))) <= (6 * n + 7) * bpow radix2 (-53) * B + bpow radix2 (-530)) /\
    (i <> j -> Rabs (B2R v - Rmin (B2R upper) (Rmax (B2R lower) (sample_cov (map B2R (xs i)) (map B2R (xs j))))) <= (38 * n + 50) * bpow radix2 (-53) * (B * B)).
Proof. exact multigauss_float. Qed.
Print Assumptions C103_multigauss.

(** The slack is needed: three selected values 0.1 give a mean above 0.1. *)
Theorem C103_range_refuted : exists d q, a_nc d = 1%nat /\ a_rows d <> [] /\
  unigauss_learn (b64_ops seq_sum) (Z2f 0) (num_col d) [(Z2f 0, Z2f 0)] = (Ok tt, [q]) /\
  exists x, num_col d 0 = Ok x /\ forall v, In v x -> flt v (fst q) = true.
Proof. exact mean_above. Qed.
Print Assumptions C103_range_refuted.

Example C103_met : exists q, (forall l, added l (seq_sum l)) /\
  unigauss_learn (b64_ops seq_sum) fone (num_col two_values) [(Z2f 0, Z2f 0)] = (Ok tt, [q]) /\
  num_col two_values 0 = Ok [Z2f 1; Z2f 4] /\ (forall v, In v [Z2f 1; Z2f 4] -> isfin v = true /\ Rabs (B2R v) <= 4) /\
  4 <= bpow radix2 400.
Proof. exact float_case. Qed.
Example C103_adapt_met : exists q, adapt_learn (b64_ops seq_sum) fone (lit 1 (-1)) (num_col two_values) [(Z2f 0, Z2f 0)] = (Ok tt, [q]) /\
  isfin (lit 1 (-1)) = true /\ 0 <= B2R (lit 1 (-1)) <= 1.
Proof. exact float_case_adapt. Qed.
Example C103_multigauss_met : exists p', multigauss_learn (b64_ops seq_sum) fone (Z2f 8) 2 (num_col two_columns) (mkMG [Z2f 0; Z2f 0] (CovScalar (Z2f 0))) = (Ok tt, p') /\
  num_col two_columns 0 = Ok [Z2f 1; Z2f 4] /\ num_col two_columns 1 = Ok [Z2f 4; Z2f 1] /\ bpow radix2 (-500) <= 4 <= bpow radix2 400.
Proof. exact float_case_multi. Qed.
