(** Properties of the benchmark functions (EDAspy.benchmarks), over the real numbers. *)
From Coq Require Import List ZArith Bool Lia Reals Lra.
From Verif Require Import PyBase Bench BenchThms BenchCec Schwefel.
Import ListNotations.
Open Scope R_scope.

(* ------------------------------ C58 ------------------------------ *)
Theorem C58_one_max : forall l, Forall (fun z => z = 0%Z \/ z = 1%Z) l ->
  one_max l = Z.of_nat (count_occ Z.eq_dec l 1%Z) /\ (0 <= one_max l <= Z.of_nat (length l))%Z /\
  (one_max l = Z.of_nat (length l) <-> Forall (fun z => z = 1%Z) l).
Proof. exact one_max_count. Qed.
Print Assumptions C58_one_max.
Example C58_case : Forall (fun z => z = 0%Z \/ z = 1%Z) [1; 0; 1]%Z /\ one_max [1; 0; 1]%Z = 2%Z.
Proof. split; [repeat (constructor; [tauto|]); constructor|reflexivity]. Qed.

(* ------------------------------ C59 ------------------------------ *)
Theorem C59_zeros : forall d, (2 <= d)%nat ->
  minimum d (rosenbrock d) (all_equal d 1) /\ minimum d (discus d) (all_equal d 0) /\ minimum d elliptic (all_equal d 0) /\
  minimum d (fun x => Ok (rastrigin x)) (all_equal d 0) /\ minimum d (ackley d) (all_equal d 0) /\
  minimum d (happycat d) (all_equal d (-1)) /\ minimum d (hgbat d) (all_equal d (-1)) /\
  minimum d (katsuura d) (half_integers d) /\ minimum d (expanded_scaffer d) (all_equal d 0).
Proof. exact all_minima. Qed.
Print Assumptions C59_zeros.
Theorem C59_schaffer : forall x y, 0 <= scaffer_f6 x y /\ (scaffer_f6 x y = 0 <-> x = 0 /\ y = 0).
Proof. exact scaffer_min. Qed.
Print Assumptions C59_schaffer.
(** one variable: missing from the full statement for [elliptic], which cannot be evaluated, and
    for [rosenbrock], which is zero everywhere *)
Theorem C59_one_variable_partial :
  minimum 1 (discus 1) (all_equal 1 0) /\ minimum 1 (fun x => Ok (rastrigin x)) (all_equal 1 0) /\ minimum 1 (ackley 1) (all_equal 1 0) /\
  minimum 1 (happycat 1) (all_equal 1 (-1)) /\ minimum 1 (hgbat 1) (all_equal 1 (-1)) /\
  minimum 1 (katsuura 1) (half_integers 1) /\ minimum 1 (expanded_scaffer 1) (all_equal 1 0) /\
  (forall x, rosenbrock 1 x = Ok 0).
Proof. exact one_variable_minima. Qed.
Print Assumptions C59_one_variable_partial.
Theorem C59_elliptic_refuted : exists x, length x = 1%nat /\ elliptic x = Raise ZeroDivisionError.
Proof. exact (ex_intro _ [0] (conj eq_refl (elliptic_one [0] eq_refl))). Qed.
Print Assumptions C59_elliptic_refuted.
Example C59_case : length [1; 2] = 2%nat /\ half_integers 2 [0; 0].
Proof. split; [reflexivity|]. intros i Hi. exists 0%Z. destruct i as [|[|i]]; unfold get; cbn [nth]; try lra; lia. Qed.

(* ------------------------------ C60 ------------------------------ *)
(** The definition is met at the origin and nowhere else; the value is (1 + 10^6) times the sum of
    all squares. *)
Theorem C60_exactly : forall d x, (1 <= d)%nat -> length x = d ->
  exists v, bent_cigar d x = Ok v /\ (v = bent_cigar_textbook d x <-> all_equal d 0 x).
Proof. exact bent_exactly. Qed.
Print Assumptions C60_exactly.
(** Missing from the full statement: the formula; what is left of it is the minimum. *)
Theorem C60_partial : forall d, (1 <= d)%nat -> minimum d (bent_cigar d) (all_equal d 0).
Proof. exact bent_min. Qed.
Print Assumptions C60_partial.
Theorem C60_refuted : exists d x v, length x = d /\ bent_cigar d x = Ok v /\ v <> bent_cigar_textbook d x.
Proof. exact bent_wrong. Qed.
Print Assumptions C60_refuted.
Example C60_case : (1 <= 2)%nat /\ length [3; 4] = 2%nat.
Proof. split; [lia|reflexivity]. Qed.

(* ------------------------------ C61 ------------------------------ *)
(** The definition is met exactly where the product of cosines is one. *)
Theorem C61_exactly : forall d x, length x = d ->
  exists v, griewank d x = Ok v /\
    (v = griewank_textbook d x <-> rprod (map (fun i => cos (get (i - 1) x / sqrt (INR i))) (range 1 (d + 1))) = 1).
Proof. exact griewank_exactly. Qed.
Print Assumptions C61_exactly.
(** Missing from the full statement: the formula; what is left of it is the minimum. *)
Theorem C61_partial : forall d, minimum d (griewank d) (all_equal d 0).
Proof. exact griewank_min. Qed.
Print Assumptions C61_partial.
Theorem C61_refuted : exists d x, (1 <= d)%nat /\ length x = d /\ griewank d x <> Ok (griewank_textbook d x).
Proof. exact griewank_wrong. Qed.
Print Assumptions C61_refuted.
Example C61_case : length [PI; 0] = 2%nat.
Proof. reflexivity. Qed.

(* ------------------------------ C62 ------------------------------ *)
Theorem C62_exactly : forall d, weierstrass d (repeat 0 d) = Ok 0 <-> d = 0%nat \/ d = 1%nat.
Proof. exact weierstrass_at_zero. Qed.
Print Assumptions C62_exactly.
Theorem C62_formula : forall d x v, length x = d -> weierstrass d x = Ok v -> v = weierstrass_textbook d x <-> (d <= 1)%nat.
Proof. exact weierstrass_off. Qed.
Print Assumptions C62_formula.
(** Missing from the full statement: the constant is zero only up to one variable. *)
Theorem C62_partial : forall d x, length x = d ->
  exists v, weierstrass d x = Ok v /\ INR d * (INR d - 1) * (2 - (1 / 2) ^ 19) <= v.
Proof. exact weierstrass_min. Qed.
Print Assumptions C62_partial.
Theorem C62_refuted : weierstrass 2 [0; 0] <> Ok 0.
Proof. exact weierstrass_wrong. Qed.
Print Assumptions C62_refuted.
Example C62_case : length [0; 1 / 2; 7] = 3%nat.
Proof. reflexivity. Qed.

(* ------------------------------ C63 ------------------------------ *)
(** Missing from the full statement: functions 5, 13, 14 and 16 (see [C63_off]), functions 10 and 11
    which stop just above their bias ([C63_schwefel]), and one variable. *)
Theorem C63_partial : forall D dim d k x, shipped D -> new_cec dim = Ok d -> (2 <= d)%nat ->
  In k [1; 2; 3; 4; 6; 7; 8; 9; 12]%nat -> length x = d ->
  exists v, cec14 D d k x = Ok v /\ 100 * INR k <= v /\ (x = shift_of D d k -> v = 100 * INR k).
Proof. exact cec_bias. Qed.
Print Assumptions C63_partial.
Theorem C63_schwefel : forall D dim d, shipped D -> new_cec dim = Ok d -> (2 <= d)%nat -> forall k, k = 10%nat \/ k = 11%nat ->
  (forall x, length x = d -> exists v, cec14 D d k x = Ok v /\ 100 * INR k < v) /\
  exists v, cec14 D d k (shift_of D d k) = Ok v /\ v <= 100 * INR k + INR d * (2 / 10 ^ 5).
Proof. exact cec_schwefel. Qed.
Print Assumptions C63_schwefel.
Theorem C63_above : forall D dim d x, shipped D -> new_cec dim = Ok d -> (2 <= d)%nat -> length x = d ->
  (exists v, cec14 D d 5 x = Ok v /\ 800 <= v) /\ (exists v, cec14 D d 13 x = Ok v /\ 1300 <= v) /\
  (exists v, cec14 D d 14 x = Ok v /\ 1400 <= v) /\ (exists v, cec14 D d 16 x = Ok v /\ 1600 <= v).
Proof. exact cec_above. Qed.
Print Assumptions C63_above.
Theorem C63_off : forall D dim d, shipped D -> new_cec dim = Ok d -> (2 <= d)%nat ->
  cec14 D d 5 (shift_of D d 5) = Ok 800 /\
  cec14 D d 13 (shift_of D d 13) = Ok (1300 + (Rpower (INR d) (1 / 4) + 1 / 2)) /\
  cec14 D d 14 (shift_of D d 14) = Ok (1400 + 1 / 2) /\
  cec14 D d 16 (shift_of D d 16) = Ok (1600 + INR d * scaffer_f6 1 1) /\ 0 < scaffer_f6 1 1.
Proof. exact cec_off. Qed.
Print Assumptions C63_off.
Theorem C63_refuted : forall D, shipped D -> cec14 D 10 5 (shift_of D 10 5) = Ok 800.
Proof. exact cec5_wrong. Qed.
Print Assumptions C63_refuted.
(** with one variable a value below the bias exists *)
Theorem C63_below_refuted : forall D, shipped D -> exists x v, length x = 1%nat /\ cec14 D 1 10 x = Ok v /\ v < 1000.
Proof. exact cec10_below. Qed.
Print Assumptions C63_below_refuted.
Example C63_case : shipped zero_data /\ new_cec 10 = Ok 10%nat /\ length (repeat 3 10) = 10%nat.
Proof. exact (conj zero_shipped (conj eq_refl eq_refl)). Qed.

(* ------------------------------ C64 ------------------------------ *)
(** Missing from the full statement: one variable, where only functions 8 and 10 can be evaluated
    (there is no rotation file). *)
Theorem C64_partial : forall D dim d k x, shipped D -> new_cec dim = Ok d -> In k implemented -> length x = d ->
  (d <> 1%nat \/ k = 8%nat \/ k = 10%nat -> exists v, cec14 D d k x = Ok v) /\
  (d = 1%nat -> k <> 8%nat -> k <> 10%nat -> cec14 D d k x = Raise FileNotFoundError).
Proof. exact cec_defined. Qed.
Print Assumptions C64_partial.
Theorem C64_refuted : forall D, shipped D -> new_cec 1 = Ok 1%nat /\ cec14 D 1 1 [0] = Raise FileNotFoundError.
Proof. exact cec1_missing. Qed.
Print Assumptions C64_refuted.
Example C64_case : shipped zero_data /\ new_cec 100 = Ok 100%nat /\ In 16%nat implemented.
Proof. refine (conj zero_shipped (conj eq_refl _)). cbn. tauto. Qed.
