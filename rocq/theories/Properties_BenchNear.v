(** C113: how far the benchmark functions are from their formulas in binary64. *)
From Coq Require Import List ZArith Bool Lia Reals Lra.
From Flocq Require Import Core IEEE754.BinarySingleNaN.
From Verif Require Import PyBase B64 FloatSum Bench BenchFloat BenchFloatThms BenchNear BenchWave.
Import ListNotations.
Open Scope R_scope.

(** Up to a small multiple of the dimension, the relative error of the sums of squares is that of the library. *)
Theorem C113_squares : forall (eps : R) (m : libm) (d : nat) (x : list f64),
  forall (least : u <= eps) (most : eps <= / 2 ^ 20) (library : accurate eps m) (dimension : (1 <= d <= 100)%nat) (numbers : inside d wide x),
  computes (bent_cigar_f m d x) (bent_cigar d (map B2R x)) ((4 * INR d + 5) * eps) speck /\
  computes (discus_f m d x) (discus d (map B2R x)) ((4 * INR d + 3) * eps) speck /\
  computes (griewank_f m d x) (griewank d (map B2R x)) ((4 * INR d + 7) * eps) speck /\
  (length x = d -> (2 <= d)%nat -> computes (elliptic_f m x) (elliptic (map B2R x)) ((4 * INR d + 68) * eps) speck).
Proof. exact near_squares. Qed.
Print Assumptions C113_squares.

(** The error of the others, on the box [-100, 100]. *)
Theorem C113_box : forall (eps : R) (m : libm) (d : nat) (x : list f64),
  forall (least : u <= eps) (most : eps <= / 2 ^ 20) (library : accurate eps m) (dimension : (1 <= d <= 100)%nat) (numbers : inside d 100 x),
  computes (rosenbrock_f m d x) (rosenbrock d (map B2R x)) 0 (INR d * (93000000000 + 21000000000 * INR d) * eps) /\
  computes (ackley_f m d x) (ackley d (map B2R x)) 0 ((15000 + 1700 * INR d) * eps) /\
  (length x = d -> computes (Ok (rastrigin_f m x)) (Ok (rastrigin (map B2R x))) 0 (INR d * (72000 + 21000 * INR d) * eps)) /\
  computes (expanded_scaffer_f m d x) (expanded_scaffer d (map B2R x)) 0 (INR d * (1520 + 5 * INR d) * eps) /\
  computes (katsuura_f m d x) (katsuura d (map B2R x)) (28000 * eps) (28000 * (10 / INR d ^ 2) * eps).
Proof. exact near_box. Qed.
Print Assumptions C113_box.

(** Those that take a root of a difference lose half or three quarters of the digits. *)
Theorem C113_roots : forall (eps : R) (m : libm) (d : nat) (x : list f64),
  forall (least : u <= eps) (most : eps <= / 2 ^ 20) (library : accurate eps m) (dimension : (1 <= d <= 100)%nat) (numbers : inside d 100 x),
  computes (happycat_f m d x) (happycat d (map B2R x)) 0 (sqrt (sqrt (INR d * (41000 + 21000 * INR d) * eps)) + (42000 + 11000 * INR d) * eps) /\
  computes (hgbat_f m d x) (hgbat d (map B2R x)) 0 (sqrt (INR d * INR d * (810000000 + 410000000 * INR d) * eps) + (110000 + 42000 * INR d) * eps).
Proof. exact near_roots. Qed.
Print Assumptions C113_roots.

(** The Weierstrass function turns rounding errors of its argument into large angles; the modified Schwefel function is continuous on the box. *)
Theorem C113_waves : forall (eps : R) (m : libm) (d : nat) (x : list f64),
  forall (least : u <= eps) (most : eps <= / 2 ^ 20) (library : accurate eps m) (dimension : (1 <= d <= 100)%nat) (numbers : inside d 100 x),
  computes (weierstrass_f m d x) (weierstrass d (map B2R x)) 0 (INR d * (22000000 + 101000 * INR d) * eps) /\
  (length x = d -> computes (mod_schwefel_f m x) (Ok (mod_schwefel (map B2R x))) 0 (INR d * (43000 + 1900 * INR d) * eps)).
Proof. exact near_waves. Qed.
Print Assumptions C113_waves.

(** A library that rounds the exact results, and ten numbers in the box. *)
Example C113_met : u <= / 2 ^ 20 /\ accurate u ideal /\ length ten = 10%nat /\ inside 10 100 ten /\ inside 10 wide ten.
Proof.
  split; [apply Rle_trans with (bpow radix2 (-20)); [unfold u; apply bpow_le; lia|cbn; lra]|]. split; [exact ideal_accurate|]. split; [reflexivity|].
  assert (H : inside 10 100 ten).
  { split; [cbn; lia|]. intros i Hi. do 10 (destruct i as [|i]; [split; [vm_compute; reflexivity|cbn; unfold F2R; cbn; apply Rabs_le; lra]|]). lia. }
  split; [exact H|]. split; [apply H|]. intros i Hi. split; [apply H, Hi|apply hundred_wide, H, Hi].
Qed.
