(** EDAspy/benchmarks: the binary and continuous test functions, in exact arithmetic.

    Simplifications: floats are real numbers (no rounding, overflow or NaN); the arguments are
    lists of numbers. *)
From Coq Require Import List ZArith Bool Lia Reals.
From Flocq Require Import Core.
From Verif Require Import PyBase.
Import ListNotations.
Open Scope R_scope.
Local Open Scope res_scope.

(** ** binary.py: one_max (8-14), Python's sum over integers *)
Definition one_max (array : list Z) : Z := fold_left Z.add array 0%Z.

(** ** Vocabulary of continuous.py *)
Definition get (i : nat) (x : list R) : R := nth i x 0.
(** result = a; for i in l: result += f(i) *)
Definition add_up (a : R) (f : nat -> R) (l : list nat) : R := fold_left (fun r i => r + f i) l a.
(** [range(a, b)]. *)
Definition range (a b : nat) : list nat := seq a (b - a).
(** b**e for b >= 0 and e > 0 *)
Definition ppow (b e : R) : R := if Req_EM_T b 0 then 0 else Rpower b e.
(** z % m for m > 0: the remainder has the sign of m *)
Definition pmod (z m : R) : R := z - m * IZR (Zfloor (z / m)).
(** round(z): to the nearest integer, ties to even *)
Definition pround (z : R) : Z := ZnearestE z.
(** x[i] is evaluated for every i < d *)
Definition reads (d : nat) (x : list R) (r : R) : res R := if Nat.leb d (length x) then Ok r else Raise IndexError.

(** ** The plain functions; [d] is self.d, which is at least 1 *)
(** bent_cigar_function (52-64) *)
Definition bent_cigar (d : nat) (x : list R) : res R :=
  let result := add_up (get 0 x ^ 2) (fun i => get i x ^ 2) (range 1 d) in
  reads d x (result + result * 10 ^ 6).
(** discuss_function (66-77) *)
Definition discus (d : nat) (x : list R) : res R :=
  reads d x (add_up (10 ^ 6 * get 0 x ^ 2) (fun i => get i x ^ 2) (range 1 d)).
(** rosenbrock_function (79-90); nothing is read when d = 1 *)
Definition rosenbrock (d : nat) (x : list R) : res R :=
  let r := add_up 0 (fun i => 100 * (get i x ^ 2 - get (i + 1) x) ^ 2 + (get i x - 1) ^ 2) (range 0 (d - 1)) in
  if Nat.leb d 1 then Ok r else reads d x r.
(** ackley_function (92-102); [sum] starts from 0 *)
Definition ackley (d : nat) (x : list R) : res R :=
  let sum1 := add_up 0 (fun i => get i x ^ 2) (range 0 d) in
  let sum2 := add_up 0 (fun i => cos (get i x * 2 * PI)) (range 0 d) in
  reads d x (- 20 * exp (- (2 / 10) * sqrt (sum1 / INR d)) - exp (sum2 / INR d) + 20 + exp 1).
(** weierstrass_function (104-126) *)
Definition weierstrass (d : nat) (x : list R) : res R :=
  let aux_f1 i := add_up 0 (fun k => (1 / 2) ^ k * cos (2 * PI * 3 ^ k * (get i x + 1 / 2))) (range 0 20) in
  let aux_f2 := add_up 0 (fun k => (1 / 2) ^ k * cos (2 * PI * 3 ^ k * (1 / 2))) (range 0 20) in
  reads d x (add_up 0 (fun i => aux_f1 i - INR d * aux_f2) (range 0 d)).
(** griewank_function (128-142) *)
Definition griewank (d : nat) (x : list R) : res R :=
  let f := add_up 0 (fun i => get i x ^ 2 / 4000) (range 0 d) in
  let aux := fold_left (fun aux i => aux * (cos (get (i - 1) x / sqrt (INR i)) + 1)) (range 1 d) 0 in
  reads d x (f - aux).
(** rastrigins_function (144-155): loops over all of x *)
Definition rastrigin (x : list R) : R :=
  add_up 0 (fun i => get i x ^ 2 - 10 * cos (2 * PI * get i x) + 10) (range 0 (length x)).
(** high_conditioned_elliptic_function (157-161): loops over all of x; 0/0 raises *)
Definition elliptic (x : list R) : res R :=
  if Nat.eqb (length x) 1 then Raise ZeroDivisionError
  else Ok (add_up 0 (fun i => Rpower (10 ^ 6) (INR (i - 1) / INR (length x - 1)) * get (i - 1) x ^ 2) (range 1 (length x + 1))).
(** _mod_sch_f (9-15) *)
Definition mod_sch_f (z dim : R) : R :=
  if Rle_dec (Rabs z) 500 then z * sin (ppow (Rabs z) (1 / 2))
  else if Rlt_dec 500 z then (500 - pmod z 500) * sin (sqrt (Rabs (500 - pmod z 500))) - ((z - 500) ^ 2 / 10000 * dim)
  else (pmod z 500 - 500) * sin (sqrt (Rabs (pmod (Rabs z) 500 - 500))) - ((z + 500) ^ 2 / 10000 * dim).
(** mod_schwefels_function (163-175).
    The offset is the decimal 4.209687462275036e+002. *)
Definition offset : R := 4209687462275036 / 10 ^ 13.
(** [mod_schwefels_function] (163-175). *)
Definition mod_schwefel (x : list R) : R :=
  fold_left (fun result i => result - mod_sch_f (get (i - 1) x + offset) (INR (length x))) (range 1 (length x + 1))
            (4189829 / 10000 * INR (length x)).
(** katsuura_function (177-192) *)
Definition katsuura (d : nat) (x : list R) : res R :=
  let aux2 i := add_up 0 (fun j => Rabs (get (i - 1) x * 2 ^ j - IZR (pround (get (i - 1) x * 2 ^ j))) / 2 ^ j) (range 1 32) in
  let aux := fold_left (fun aux i => aux * ppow (1 + INR i * aux2 i) (10 / Rpower (INR d) (12 / 10))) (range 1 (d + 1)) 1 in
  reads d x (aux * (10 / INR d ^ 2) - 10 / INR d ^ 2).
(** happycat_function (194-205) *)
Definition happycat (d : nat) (x : list R) : res R :=
  let a := add_up 0 (fun i => get (i - 1) x ^ 2) (range 1 (d + 1)) in
  let b := add_up 0 (fun i => get (i - 1) x) (range 1 (d + 1)) in
  reads d x (ppow (Rabs (a - INR d)) (25 / 100) + ((5 / 10 * a + b) / INR d + 5 / 10)).
(** hgbat_function (207-218) *)
Definition hgbat (d : nat) (x : list R) : res R :=
  let a := add_up 0 (fun i => get (i - 1) x ^ 2) (range 1 (d + 1)) in
  let b := add_up 0 (fun i => get (i - 1) x) (range 1 (d + 1)) in
  reads d x (ppow (Rabs (a ^ 2 - b ^ 2)) (5 / 10) + (5 / 10 * a + b) / INR d + 5 / 10).
(** _scaffer_f6_function (18-19) *)
Definition scaffer_f6 (x y : R) : R :=
  5 / 10 + (sin (sqrt (x ^ 2 + y ^ 2)) ^ 2 - 5 / 10) / (1 + 1 / 1000 * (x ^ 2 + y ^ 2)) ^ 2.
(** expanded_scaffer_f6_function (220-230) *)
Definition expanded_scaffer (d : nat) (x : list R) : res R :=
  reads d x (add_up 0 (fun i => scaffer_f6 (get (i - 1) x) (get i x)) (range 1 d) + scaffer_f6 (get (d - 1) x) (get 0 x)).

(** ** The constructor and the data files *)
(** __init__ (24-35) *)
Definition new_cec (dim : Z) : res nat :=
  if existsb (Z.eqb dim) [1; 10; 20; 30; 50; 100]%Z then Ok (Z.to_nat dim) else Raise AssertionError.
(** The numbers in input_data/shift_data_k.txt and input_data/M_k_Dd.txt; None: no such file. *)
Record data := mkData { shift_file : nat -> option (list R); rot_file : nat -> nat -> option (list R) }.
(** _load_shift (37-41) *)
Definition load_shift (D : data) (d number : nat) : res (list R) :=
  match shift_file D number with Some l => Ok (firstn d l) | None => Raise FileNotFoundError end.
(** _load_rot (43-50) *)
Definition load_rot (D : data) (d number : nat) : res (list (list R)) :=
  match rot_file D number d with
  | None => Raise FileNotFoundError
  | Some l => if Nat.eqb (length l) (d * d) then Ok (map (fun i => map (fun j => nth (i * d + j) l 0) (seq 0 d)) (seq 0 d)) else Raise ValueError
  end.
(** np.array(x) - shift, with numpy's broadcasting *)
Definition np_sub (x s : list R) : res (list R) :=
  if Nat.eqb (length x) (length s) then Ok (map (fun p => fst p - snd p) (combine x s))
  else if Nat.eqb (length x) 1 then Ok (map (fun b => get 0 x - b) s)
  else if Nat.eqb (length s) 1 then Ok (map (fun a => a - get 0 s) x)
  else Raise ValueError.
(** np.dot(mat, v) for a d x d matrix *)
Definition np_dot (m : list (list R)) (v : list R) : res (list R) :=
  if Nat.eqb (length m) (length v) then Ok (map (fun r => fold_left Rplus (map (fun p => fst p * snd p) (combine r v)) 0) m) else Raise ValueError.

(** np.dot(mat, c * (np.array(x) - shift)) *)
Definition rotated (D : data) (d number : nat) (c : R) (x : list R) : res (list R) :=
  s <-? load_shift D d number ; v <-? np_sub x s ; m <-? load_rot D d number ; np_dot m (map (Rmult c) v).
(** c * (np.array(x) - shift) *)
Definition shifted (D : data) (d number : nat) (c : R) (x : list R) : res (list R) :=
  s <-? load_shift D d number ; v <-? np_sub x s ; Ok (map (Rmult c) v).
(** [v + 1] (e.g. continuous.py:281). *)
Definition plus1 (v : list R) : list R := map (fun a => a + 1) v.
(** [+ b] at the end of each [cec14_k]. *)
Definition bias (b : R) (r : res R) : res R := rmap (fun v => v + b) r.

(** cec14_1 ... cec14_14, cec14_16 (232-423); there is no cec14_15.
    Where the source has no factor the model multiplies by 1, which changes nothing. *)
Definition cec14 (D : data) (d : nat) (k : nat) (x : list R) : res R :=
  match k with
  | 1 => z <-? rotated D d 1 1 x ; bias 100 (elliptic z)
  | 2 => z <-? rotated D d 2 1 x ; bias 200 (bent_cigar d z)
  | 3 => z <-? rotated D d 3 1 x ; bias 300 (discus d z)
  | 4 => z <-? rotated D d 4 (2048 / 1000 / 100) x ; bias 400 (rosenbrock d (plus1 z))
  | 5 => z <-? rotated D d 5 1 x ; bias 800 (ackley d z)
  | 6 => z <-? rotated D d 6 (5 / 10 / 100) x ; bias 600 (ackley d z)
  | 7 => z <-? rotated D d 7 (600 / 100) x ; bias 700 (griewank d z)
  | 8 => z <-? shifted D d 8 (512 / 100 / 100) x ; bias 800 (Ok (rastrigin z))
  | 9 => z <-? rotated D d 9 (512 / 100 / 100) x ; bias 900 (Ok (rastrigin z))
  | 10 => z <-? shifted D d 10 10 x ; bias 1000 (Ok (mod_schwefel z))
  | 11 => z <-? rotated D d 11 10 x ; bias 1100 (Ok (mod_schwefel z))
  | 12 => z <-? rotated D d 12 (5 / 100) x ; bias 1200 (katsuura d z)
  | 13 => z <-? rotated D d 13 (5 / 100) x ; bias 1300 (happycat d z)
  | 14 => z <-? rotated D d 14 (5 / 100) x ; bias 1400 (hgbat d z)
  | 16 => z <-? rotated D d 16 1 x ; bias 1600 (expanded_scaffer d (plus1 z))
  | _ => Raise AttributeError
  end%nat.
