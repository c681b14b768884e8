(** Theorems about the modified Schwefel function, over the real numbers. *)
From Coq Require Import List ZArith Reals.
From Verif Require Import PyBase Bench BenchThms Schwefel SchwefelText.
Import ListNotations.
Open Scope R_scope.

(* ------------------------------ C97 ------------------------------ *)
(** Missing from the full statement: vectors with a value that leaves [-500, 500] after the
    offset (see the theorems below). *)
Theorem C97_inside_partial : forall x, (forall i, (i < length x)%nat -> Rabs (get i x + offset) <= 500) ->
  mod_schwefel x = schwefel_textbook x.
Proof. exact schwefel_inside. Qed.
Print Assumptions C97_inside_partial.

(** Above 500 the term is right exactly for one variable: the penalty is multiplied by the
    number of variables instead of divided by it. *)
Theorem C97_above : forall D z, 0 < D -> 500 < z -> mod_sch_f z D = schwefel_term D z <-> D = 1.
Proof. exact term_above. Qed.
Print Assumptions C97_above.

(** Below -500 the remainder of the negative number is taken as well; the error is: *)
Theorem C97_below : forall D z, 0 < D -> z < -500 ->
  let m := remainder (- z) in
  mod_sch_f z D - schwefel_term D z =
    (if Req_EM_T m 0 then 0 else (500 - 2 * m) * sin (sqrt (500 - m))) - (z + 500) ^ 2 / 10000 * (D - / D).
Proof. exact term_below. Qed.
Print Assumptions C97_below.

Theorem C97_penalty_refuted : exists x, length x = 2%nat /\ mod_schwefel x <> schwefel_textbook x /\
  schwefel_textbook x < mod_schwefel x.
Proof. exact two_above. Qed.
Print Assumptions C97_penalty_refuted.
Theorem C97_remainder_refuted : exists x, length x = 1%nat /\ mod_schwefel x <> schwefel_textbook x.
Proof. exact one_below_vector. Qed.
Print Assumptions C97_remainder_refuted.

Example C97_met : forall i, (i < length [0; 0])%nat -> Rabs (get i [0; 0] + offset) <= 500.
Proof. exact inside_origin. Qed.
