(** C116: how far the CEC 2014 functions are from their formulas in binary64. *)
From Coq Require Import List ZArith Bool Lia Reals Lra.
From Flocq Require Import Core IEEE754.BinarySingleNaN.
From Verif Require Import PyBase B64 FloatSum Bench BenchFloat BenchFloatThms BenchNear CecFloat CecFloatThms CecNear.
Import ListNotations.
Open Scope R_scope.

(** The value computed is near the value of the formula at a point near the rotated and shifted argument: the sums of squares. *)
Theorem C116_squares : forall (eps : R) (m : libm) (dot : list f64 -> list f64 -> f64) (D : data_f) (d : nat) (x : list f64),
  forall (least : u <= eps) (most : eps <= / 2 ^ 20) (library : accurate eps m) (product : dot_near dot) (files : shipped_f D) (moderate : tame D)
    (dimension : In d [10; 20; 30; 50; 100]%nat) (size : length x = d) (numbers : forall a, In a x -> isfin a = true /\ Rabs (B2R a) <= 100),
  reaches (drift d 1) (cec14_f m dot D d 1 x) (rotated (reals D) d 1 1 (map B2R x)) (fun z => bias 100 (elliptic z)) ((8 * INR d + 137) * eps) ((800 * INR d + 13600) * eps + 2 * speck) /\
  reaches (drift d 1) (cec14_f m dot D d 2 x) (rotated (reals D) d 2 1 (map B2R x)) (fun z => bias 200 (bent_cigar d z)) ((8 * INR d + 11) * eps) ((1600 * INR d + 2000) * eps + 2 * speck) /\
  reaches (drift d 1) (cec14_f m dot D d 3 x) (rotated (reals D) d 3 1 (map B2R x)) (fun z => bias 300 (discus d z)) ((8 * INR d + 7) * eps) ((2400 * INR d + 1800) * eps + 2 * speck) /\
  reaches (drift d (600 / 100)) (cec14_f m dot D d 7 x) (rotated (reals D) d 7 (600 / 100) (map B2R x)) (fun z => bias 700 (griewank d z)) ((8 * INR d + 15) * eps) ((5600 * INR d + 9800) * eps + 2 * speck).
Proof. exact cec_squares. Qed.
Print Assumptions C116_squares.

(** Those whose error is bounded on the box [-100, 100]: the exact argument is required to be in [-98, 98]. *)
Theorem C116_box : forall (eps : R) (m : libm) (dot : list f64 -> list f64 -> f64) (D : data_f) (d : nat) (x : list f64),
  forall (least : u <= eps) (most : eps <= / 2 ^ 20) (library : accurate eps m) (product : dot_near dot) (files : shipped_f D) (moderate : tame D)
    (dimension : In d [10; 20; 30; 50; 100]%nat) (size : length x = d) (numbers : forall a, In a x -> isfin a = true /\ Rabs (B2R a) <= 100),
  (calm (rotated (reals D) d 4 (2048 / 1000 / 100) (map B2R x)) ->
   reaches (2 * drift d (2048 / 1000 / 100)) (cec14_f m dot D d 4 x) (rmap plus1 (rotated (reals D) d 4 (2048 / 1000 / 100) (map B2R x))) (fun z => bias 400 (rosenbrock d z)) u (2 * (INR d * (93000000000 + 21000000000 * INR d) * eps))) /\
  (calm (rotated (reals D) d 5 1 (map B2R x)) ->
   reaches (drift d 1) (cec14_f m dot D d 5 x) (rotated (reals D) d 5 1 (map B2R x)) (fun z => bias 800 (ackley d z)) u (2 * ((15000 + 1700 * INR d) * eps))) /\
  (calm (rotated (reals D) d 6 (5 / 10 / 100) (map B2R x)) ->
   reaches (drift d (5 / 10 / 100)) (cec14_f m dot D d 6 x) (rotated (reals D) d 6 (5 / 10 / 100) (map B2R x)) (fun z => bias 600 (ackley d z)) u (2 * ((15000 + 1700 * INR d) * eps))) /\
  reaches (drift d (512 / 100 / 100)) (cec14_f m dot D d 8 x) (shifted (reals D) d 8 (512 / 100 / 100) (map B2R x)) (fun z => bias 800 (Ok (rastrigin z))) u (2 * (INR d * (72000 + 21000 * INR d) * eps)) /\
  (calm (rotated (reals D) d 9 (512 / 100 / 100) (map B2R x)) ->
   reaches (drift d (512 / 100 / 100)) (cec14_f m dot D d 9 x) (rotated (reals D) d 9 (512 / 100 / 100) (map B2R x)) (fun z => bias 900 (Ok (rastrigin z))) u (2 * (INR d * (72000 + 21000 * INR d) * eps))) /\
  (calm (rotated (reals D) d 16 1 (map B2R x)) ->
   reaches (2 * drift d 1) (cec14_f m dot D d 16 x) (rmap plus1 (rotated (reals D) d 16 1 (map B2R x))) (fun z => bias 1600 (expanded_scaffer d z)) u (2 * (INR d * (1520 + 5 * INR d) * eps))).
Proof. exact cec_box. Qed.
Print Assumptions C116_box.

(** Schwefel, Katsuura and those that take a root of a difference. *)
Theorem C116_rest : forall (eps : R) (m : libm) (dot : list f64 -> list f64 -> f64) (D : data_f) (d : nat) (x : list f64),
  forall (least : u <= eps) (most : eps <= / 2 ^ 20) (library : accurate eps m) (product : dot_near dot) (files : shipped_f D) (moderate : tame D)
    (dimension : In d [10; 20; 30; 50; 100]%nat) (size : length x = d) (numbers : forall a, In a x -> isfin a = true /\ Rabs (B2R a) <= 100),
  (calm (shifted (reals D) d 10 10 (map B2R x)) ->
   reaches (drift d 10) (cec14_f m dot D d 10 x) (shifted (reals D) d 10 10 (map B2R x)) (fun z => bias 1000 (Ok (mod_schwefel z))) u (2 * (INR d * (43000 + 1900 * INR d) * eps))) /\
  (calm (rotated (reals D) d 11 10 (map B2R x)) ->
   reaches (drift d 10) (cec14_f m dot D d 11 x) (rotated (reals D) d 11 10 (map B2R x)) (fun z => bias 1100 (Ok (mod_schwefel z))) u (2 * (INR d * (43000 + 1900 * INR d) * eps))) /\
  (calm (rotated (reals D) d 12 (5 / 100) (map B2R x)) ->
   reaches (drift d (5 / 100)) (cec14_f m dot D d 12 x) (rotated (reals D) d 12 (5 / 100) (map B2R x)) (fun z => bias 1200 (katsuura d z)) (56001 * eps) (68000000 * eps)) /\
  (calm (rotated (reals D) d 13 (5 / 100) (map B2R x)) ->
   reaches (drift d (5 / 100)) (cec14_f m dot D d 13 x) (rotated (reals D) d 13 (5 / 100) (map B2R x)) (fun z => bias 1300 (happycat d z)) u
     (2 * (sqrt (sqrt (INR d * (41000 + 21000 * INR d) * eps)) + (42000 + 11000 * INR d) * eps))) /\
  (calm (rotated (reals D) d 14 (5 / 100) (map B2R x)) ->
   reaches (drift d (5 / 100)) (cec14_f m dot D d 14 x) (rotated (reals D) d 14 (5 / 100) (map B2R x)) (fun z => bias 1400 (hgbat d z)) u
     (2 * (sqrt (INR d * INR d * (810000000 + 410000000 * INR d) * eps) + (110000 + 42000 * INR d) * eps))).
Proof. exact cec_rest. Qed.
Print Assumptions C116_rest.

(** A library that rounds the exact results, products added from the left, files of ones, and the point at the shift. *)
Example C116_met : u <= / 2 ^ 20 /\ accurate u ideal /\ dot_near dot_left /\ shipped_f ones_data /\ tame ones_data /\
  (forall a, In a (repeat fone 10) -> isfin a = true /\ Rabs (B2R a) <= 100) /\
  (forall k C, calm (rotated (reals ones_data) 10 k C (map B2R (repeat fone 10))) /\ calm (shifted (reals ones_data) 10 k C (map B2R (repeat fone 10)))).
Proof.
  split; [apply Rle_trans with (bpow radix2 (-20)); [unfold u; apply bpow_le; lia|cbn; lra]|]. split; [exact ideal_accurate|]. split; [exact dot_left_near|].
  split; [exact ones_shipped|]. split; [exact ones_tame|]. split.
  - intros a Ha. pose proof fone_R as R1. rewrite (repeat_spec _ _ _ Ha). split; [apply fone_fin|]. rewrite R1, Rabs_R1. lra.
  - intros k C. apply calm_shift. reflexivity.
Qed.
