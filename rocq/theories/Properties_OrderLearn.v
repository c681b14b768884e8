(** C106: the order of the selected individuals. *)
From Coq Require Import String List ZArith Bool Reals Permutation.
From Flocq Require Import Core IEEE754.BinarySingleNaN.
From Verif Require Import PyBase B64 B64More NdArray Rand Models ModelThms CatThms FloatSum FloatMean OrderLearn.
Import ListNotations.
Open Scope R_scope.

(* ------------------------------ C106 ----------------------------- *)
(** In exact arithmetic, whatever the model held before. *)
Theorem C106_unigauss : forall lower nc (d d' : list (list R)) pm (same_rows : Permutation d d'),
  unigauss_learn R_ops lower (real_col nc d) pm = unigauss_learn R_ops lower (real_col nc d') pm.
Proof. exact unigauss_perm. Qed.
Print Assumptions C106_unigauss.

Theorem C106_multigauss : forall lower upper nc (d d' : list (list R)) p (same_rows : Permutation d d'),
  multigauss_learn R_ops lower upper nc (real_col nc d) p = multigauss_learn R_ops lower upper nc (real_col nc d') p.
Proof. exact multigauss_perm. Qed.
Print Assumptions C106_multigauss.

(** Integer cells; the learned probabilities are doubles. *)
Theorem C106_unibin : forall dt dt' nc (rs rs' : list row) m
  (same_rows : Permutation rs rs') (integers : Forall (Forall is_CI) rs),
  unibin_learn (mkArr dt nc rs) m = unibin_learn (mkArr dt' nc rs') m.
Proof. exact unibin_perm. Qed.
Print Assumptions C106_unibin.

(** Columns of strings or of integers: the same table, in the same order. *)
Theorem C106_categories : forall dt dt' nc (rs rs' : list row) t
  (same_rows : Permutation rs rs') (kinds : forall j, (j < nc)%nat -> discrete (column j rs)),
  cat_learn (mkArr dt nc rs) t = cat_learn (mkArr dt' nc rs') t.
Proof. exact cat_perm. Qed.
Print Assumptions C106_categories.

(** Doubles: two orders of the rows, and two ways of adding, differ by rounding only. *)
Theorem C106_float : forall (s s' : list f64 -> f64) lower dt dt' nc (rs rs' : list row) pm pm1 pm1' pm2 i (x : list f64) B q q'
  (any_order : forall l, added l (s l))
  (any_order' : forall l, added l (s' l))
  (bound_finite : isfin lower = true)
  (same_rows : Permutation rs rs')
  (learned : unigauss_learn (b64_ops s) lower (num_col (mkArr dt nc rs)) pm = (Ok tt, pm1))
  (learned' : unigauss_learn (b64_ops s') lower (num_col (mkArr dt' nc rs')) pm2 = (Ok tt, pm1'))
  (variable : nth_error pm1 i = Some q)
  (variable' : nth_error pm1' i = Some q')
  (selected : num_col (mkArr dt nc rs) i = Ok x)
  (some_rows : x <> [])
  (rows : (Z.of_nat (List.length x) <= 2 ^ 40)%Z)
  (magnitudes : forall v, In v x -> isfin v = true /\ Rabs (B2R v) <= B)
  (far_from_overflow : B <= bpow radix2 400),
  let n := INR (List.length x) in
  Rabs (B2R (fst q) - B2R (fst q')) <= 4 * n * bpow radix2 (-53) * B + bpow radix2 (-1074) /\
  Rabs (B2R (snd q) - B2R (snd q')) <= (12 * n + 14) * bpow radix2 (-53) * B + bpow radix2 (-529).
Proof. exact unigauss_reordered. Qed.
Print Assumptions C106_float.

(** In doubles the order can show: a mean of 0 against a mean of a third. *)
Theorem C106_float_refuted : exists (rs rs' : list row) q q', Permutation rs rs' /\
  unigauss_learn (b64_ops seq_sum) (Z2f 0) (num_col (mkArr DFloat 1 rs)) [(Z2f 0, Z2f 0)] = (Ok tt, [q]) /\
  unigauss_learn (b64_ops seq_sum) (Z2f 0) (num_col (mkArr DFloat 1 rs')) [(Z2f 0, Z2f 0)] = (Ok tt, [q']) /\
  feq (fst q) (Z2f 0) = true /\ flt (Z2f 0) (fst q') = true.
Proof. exact reordered_mean. Qed.
Print Assumptions C106_float_refuted.

(** The adaptive model of PBIL looks at the first two rows and the last: the order matters to it. *)
Theorem C106_adapt_refuted : exists (d d' : list (list R)) m m' sd sd', Permutation d d' /\
  adapt_learn R_ops 0 (/ 2) (real_col 1 d) [(0, 0)] = (Ok tt, [(m, sd)]) /\
  adapt_learn R_ops 0 (/ 2) (real_col 1 d') [(0, 0)] = (Ok tt, [(m', sd')]) /\ m < m'.
Proof. exact reordered_adapt. Qed.
Print Assumptions C106_adapt_refuted.

Example C106_exact_met : exists (d d' : list (list R)), Permutation d d' /\ d <> d' /\
  exists pm, unigauss_learn R_ops 0 (real_col 2 d) [(0, 0); (0, 0)] = (Ok tt, pm).
Proof. exact reordered_exact. Qed.

Example C106_bits_met : exists (rs rs' : list row) m m', Permutation rs rs' /\ rs <> rs' /\ Forall (Forall is_CI) rs /\
  unibin_learn (mkArr DInt 2 rs) m = (Ok tt, m').
Proof. exact reordered_bits. Qed.

Example C106_categories_met : exists (rs rs' : list row) t, Permutation rs rs' /\ rs <> rs' /\
  (forall j, (j < 2)%nat -> discrete (column j rs)) /\ cat_learn (mkArr DObj 2 rs) [None; None] = (Ok tt, t).
Proof. exact reordered_categories. Qed.

Example C106_float_met : exists (rs rs' : list row) pm pm' x, Permutation rs rs' /\
  unigauss_learn (b64_ops seq_sum) fone (num_col (mkArr DFloat 1 rs)) [(Z2f 0, Z2f 0)] = (Ok tt, pm) /\
  unigauss_learn (b64_ops seq_sum) fone (num_col (mkArr DFloat 1 rs')) [(Z2f 0, Z2f 0)] = (Ok tt, pm') /\
  num_col (mkArr DFloat 1 rs) 0 = Ok x /\ (forall v, In v x -> isfin v = true /\ Rabs (B2R v) <= 4).
Proof. exact reordered_floats. Qed.
