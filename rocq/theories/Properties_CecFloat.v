(** C115: the CEC 2014 functions in double arithmetic. *)
From Coq Require Import List ZArith Bool Lia.
From Flocq Require Import IEEE754.BinarySingleNaN.
From Verif Require Import PyBase B64 FloatLow Bench BenchFloat BenchFloatThms BenchNear BenchNan CecFloat CecFloatThms.
Import ListNotations.

(** At the shift vector the computed value is exactly 100 k, whatever the rotation matrix contains and in
    whatever order the matrix product is summed. *)
Theorem C115_shift_partial : forall (m : libm) (dot : list f64 -> list f64 -> f64) (D : data_f) (d k : nat),
  forall (library : libm_ok m) (signs : signless m) (product : dot_ok dot) (files : shipped_f D) (size : In d dims)
         (number : In k [1; 2; 3; 4; 6; 7; 8; 9; 12]%nat) (rotation : d <> 1%nat \/ k = 8%nat),
  evaluates_to (cec14_f m dot D d k (shift_of_f D d k)) (Z2f (100 * Z.of_nat k)).
Proof. exact at_shift. Qed.
Print Assumptions C115_shift_partial.

(** Function 5 is 300 above. *)
Theorem C115_shift_refuted : exists k, (1 <= k <= 16)%nat /\ forall (m : libm) (dot : list f64 -> list f64 -> f64) (D : data_f) (d : nat),
  forall (library : libm_ok m) (signs : signless m) (product : dot_ok dot) (files : shipped_f D) (size : In d dims) (rotation : d <> 1%nat),
  evaluates_to (cec14_f m dot D d k (shift_of_f D d k)) (Z2f 800) /\ feq (Z2f 800) (Z2f (100 * Z.of_nat k)) = false.
Proof. exact fifth_off. Qed.
Print Assumptions C115_shift_refuted.

(** No argument, finite or not, gives less. *)
Theorem C115_below : forall (m : libm) (dot : list f64 -> list f64 -> f64) (D : data_f) (d k : nat) (x : list f64) (v : f64),
  forall (library : libm_ok m) (size : In d dims) (number : In k [1; 2; 3; 4; 7; 8; 9; 12; 16]%nat) (returned : cec14_f m dot D d k x = Ok v),
  flt v (Z2f (100 * Z.of_nat k)) = false.
Proof. exact from_below. Qed.
Print Assumptions C115_below.
Theorem C115_ackley : forall (m : libm) (d : nat) (x : list f64) (v : f64),
  forall (library : libm_ok m) (exponentials : exp_bounded m) (size : In d dims),
  (ackley_f m d x = Ok v -> flt v (lit 1 (-51)) = false) /\ evaluates_to (ackley_f m d (repeat fzero d)) (lit 1 (-51)) /\
  forall (dot : list f64 -> list f64 -> f64) (D : data_f),
  (cec14_f m dot D d 5 x = Ok v -> flt v (Z2f 800) = false) /\ (cec14_f m dot D d 6 x = Ok v -> flt v (Z2f 600) = false).
Proof. exact ackley_all. Qed.
Print Assumptions C115_ackley.

(** A number of the argument that is not finite: no finite value comes back. *)
Theorem C115_infinite : forall (m : libm) (dot : list f64 -> list f64 -> f64) (D : data_f) (d k : nat) (x : list f64) (i : nat),
  forall (library : spreads m) (product : dot_ok dot) (files : shipped_f D) (size : In d dims) (number : (1 <= k <= 16)%nat)
         (fits : length x = d) (read : (i < d)%nat) (infinite : isfin (getf i x) = false),
  useless (cec14_f m dot D d k x).
Proof. exact cec_useless. Qed.
Print Assumptions C115_infinite.

(** A library, a product and files. *)
Example C115_met : libm_ok steps /\ signless steps /\ exp_bounded steps /\ dot_ok dot_left /\ shipped_f ones_data /\ In 10%nat dims /\ spreads (careful ideal).
Proof. exact (conj (proj1 steps_ok) (conj steps_signless (conj steps_exp (conj dot_left_ok (conj ones_shipped (conj (or_intror (or_introl eq_refl)) (careful_spreads ideal))))))). Qed.
