(** The CEC 2014 functions of EDAspy/benchmarks/continuous.py in binary64 arithmetic.

    What np.dot computes for a row of the matrix and a vector is a parameter: BLAS chooses the
    order of the additions and may fuse them with the multiplications. *)
From Coq Require Import List ZArith Bool.
From Flocq Require Import IEEE754.BinarySingleNaN.
From Verif Require Import PyBase B64 BenchFloat.
Import ListNotations.
Local Open Scope res_scope.

(** The numbers in input_data/shift_data_k.txt and input_data/M_k_Dd.txt; None: no such file. *)
Record data_f := mkDataF { shift_nums : nat -> option (list f64); rot_nums : nat -> nat -> option (list f64) }.

Section Cec.
Variables (m : libm) (dot : list f64 -> list f64 -> f64) (D : data_f).
(** _load_shift (37-41) *)
Definition load_shift_f (d number : nat) : res (list f64) :=
  match shift_nums D number with Some l => Ok (firstn d l) | None => Raise FileNotFoundError end.
(** _load_rot (43-50) *)
Definition load_rot_f (d number : nat) : res (list (list f64)) :=
  match rot_nums D number d with
  | None => Raise FileNotFoundError
  | Some l => if Nat.eqb (length l) (d * d) then Ok (map (fun i => map (fun j => getf (i * d + j) l) (seq 0 d)) (seq 0 d)) else Raise ValueError
  end.
(** np.array(x) - shift, with numpy's broadcasting (continuous.py:240 ...) *)
Definition np_sub_f (x s : list f64) : res (list f64) :=
  if Nat.eqb (length x) (length s) then Ok (map (fun p => fsub (fst p) (snd p)) (combine x s))
  else if Nat.eqb (length x) 1 then Ok (map (fun b => fsub (getf 0 x) b) s)
  else if Nat.eqb (length s) 1 then Ok (map (fun a => fsub a (getf 0 s)) x)
  else Raise ValueError.
(** np.dot(mat, v) for a d x d matrix (continuous.py:242 ...) *)
Definition np_dot_f (rows : list (list f64)) (v : list f64) : res (list f64) :=
  if Nat.eqb (length rows) (length v) then Ok (map (fun r => dot r v) rows) else Raise ValueError.

(** [c * v]; None: no factor (continuous.py:240, 279 ...). *)
Definition times (c : option f64) (v : list f64) : list f64 := match c with None => v | Some c => map (fmul c) v end.
(** [np.array(x) - self._load_shift(k)] times the factor (continuous.py:331, 357). *)
Definition shifted_f (d number : nat) (c : option f64) (x : list f64) : res (list f64) :=
  s <-? load_shift_f d number ; v <-? np_sub_f x s ; Ok (times c v).
(** np.dot(mat, c * (np.array(x) - shift)) (continuous.py:240-242 ...) *)
Definition rotated_f (d number : nat) (c : option f64) (x : list f64) : res (list f64) :=
  s <-? load_shift_f d number ; v <-? np_sub_f x s ; rows <-? load_rot_f d number ; np_dot_f rows (times c v).
(** [v + 1] (continuous.py:281, 423). *)
Definition plus1_f (v : list f64) : list f64 := map (fun a => fadd a fone) v.
(** [+ b] at the end of each [cec14_k]. *)
Definition bias_f (b : Z) (r : res f64) : res f64 := rmap (fun v => fadd v (Z2f b)) r.
(** 2.048, 0.5/100, ...: literals are correctly rounded quotients of exact integers *)
Definition quot (a b : Z) : f64 := fdiv (Z2f a) (Z2f b).

(** cec14_1 ... cec14_14, cec14_16 (232-423); there is no cec14_15. *)
Definition cec14_f (d k : nat) (x : list f64) : res f64 :=
  match k with
  | 1 => z <-? rotated_f d 1 None x ; bias_f 100 (elliptic_f m z)
  | 2 => z <-? rotated_f d 2 None x ; bias_f 200 (bent_cigar_f m d z)
  | 3 => z <-? rotated_f d 3 None x ; bias_f 300 (discus_f m d z)
  | 4 => z <-? rotated_f d 4 (Some (fdiv (quot 2048 1000) (Z2f 100))) x ; bias_f 400 (rosenbrock_f m d (plus1_f z))
  | 5 => z <-? rotated_f d 5 None x ; bias_f 800 (ackley_f m d z)
  | 6 => z <-? rotated_f d 6 (Some (fdiv half (Z2f 100))) x ; bias_f 600 (ackley_f m d z)
  | 7 => z <-? rotated_f d 7 (Some (quot 600 100)) x ; bias_f 700 (griewank_f m d z)
  | 8 => z <-? shifted_f d 8 (Some (fdiv (quot 512 100) (Z2f 100))) x ; bias_f 800 (Ok (rastrigin_f m z))
  | 9 => z <-? rotated_f d 9 (Some (fdiv (quot 512 100) (Z2f 100))) x ; bias_f 900 (Ok (rastrigin_f m z))
  | 10 => z <-? shifted_f d 10 (Some (Z2f 10)) x ; bias_f 1000 (mod_schwefel_f m z)
  | 11 => z <-? rotated_f d 11 (Some (Z2f 10)) x ; bias_f 1100 (mod_schwefel_f m z)
  | 12 => z <-? rotated_f d 12 (Some (quot 5 100)) x ; bias_f 1200 (katsuura_f m d z)
  | 13 => z <-? rotated_f d 13 (Some (quot 5 100)) x ; bias_f 1300 (happycat_f m d z)
  | 14 => z <-? rotated_f d 14 (Some (quot 5 100)) x ; bias_f 1400 (hgbat_f m d z)
  | 16 => z <-? rotated_f d 16 None x ; bias_f 1600 (expanded_scaffer_f m d (plus1_f z))
  | _ => Raise AttributeError
  end%nat.
End Cec.
