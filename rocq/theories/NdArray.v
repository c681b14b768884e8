(** The fragment of numpy that EDAspy's optimiser loop relies on.

    A two-dimensional array is a dtype, a number of columns and a list of rows.
    Arrays are values here: the optimiser never mutates an array that something else
    still refers to (eda.py:105-106 builds fresh arrays by fancy indexing before the
    only in-place operation, eda.py:188).  *)
From Coq Require Import List ZArith Bool String Lia.
From Flocq Require Import IEEE754.BinarySingleNaN.
From Verif Require Import PyBase B64.
Import ListNotations.

(** A cell: numpy int64, numpy float64, or a Python string in an object array.
    Simplification: int64 cells are unbounded integers. *)
Inductive cell := CI (z : Z) | CF (x : f64) | CS (s : string).

(** int64, float64, object: the dtypes of [self.generation] (eda.py:56). *)
Inductive dtype := DInt | DFloat | DObj.

(** One individual: [self.generation[i]] (eda.py:198). *)
Definition row := list cell.

(** [self.generation], [self.elite_temp] (eda.py:56, 60): dtype, number of columns, rows. *)
Record arr := mkArr { a_dt : dtype; a_nc : nat; a_rows : list row }.

(** [len(a)]. *)
Definition a_len (a : arr) : nat := List.length (a_rows a).

(** dtype promotion of [np.concatenate] / [np.append]. *)
Definition promote (d1 d2 : dtype) : dtype :=
  match d1, d2 with
  | DObj, _ | _, DObj => DObj
  | DFloat, _ | _, DFloat => DFloat
  | DInt, DInt => DInt
  end.

(** A cell copied into an array of another dtype (eda.py:98, keda.py:102). *)
Definition cast_cell (d : dtype) (c : cell) : cell :=
  match d, c with
  | DFloat, CI z => CF (Z2f z)
  | _, _ => c
  end.

(** Equality of dtypes. *)
Definition dtype_eqb (d1 d2 : dtype) : bool :=
  match d1, d2 with DInt, DInt | DFloat, DFloat | DObj, DObj => true | _, _ => false end.

(** The rows of [a] in an array of dtype [d]. *)
Definition rows_as (d : dtype) (a : arr) : list row :=
  if dtype_eqb (a_dt a) d then a_rows a else map (map (cast_cell d)) (a_rows a).

(** [np.concatenate([a, b])] on two matrices. *)
Definition np_concatenate (a b : arr) : res arr :=
  if Nat.eqb (a_nc a) (a_nc b) then
    let d := promote (a_dt a) (a_dt b) in
    Ok (mkArr d (a_nc a) (rows_as d a ++ rows_as d b))
  else Raise ValueError.

(** [a[idx, :]] : a copy of the chosen rows. *)
Definition take_rows (idx : list nat) (a : arr) : res arr :=
  rmap (mkArr (a_dt a) (a_nc a)) (gather idx (a_rows a)).

(* ------------------------------------------------------------------ *)
(** ** Python numbers *)

(** A Python int or float argument such as [alpha]. *)
Inductive pynum := PyI (z : Z) | PyF (x : f64).

(** The number as a float operand (e.g. eda.py:42, 44). *)
Definition num_to_f (p : pynum) : f64 := match p with PyI z => Z2f z | PyF x => x end.

(** [p == z] for an int literal [z]. *)
Definition py_eq_int (p : pynum) (z : Z) : bool :=
  match p with PyI y => Z.eqb y z | PyF x => feq x (Z2f z) end.

(** [int(x)] *)
Definition py_int (x : f64) : res Z :=
  match x with
  | B754_nan => Raise ValueError
  | B754_infinity _ => Raise OverflowError
  | _ => Ok (Btrunc x)
  end.

(** [int(n * p)] for an int [n]. *)
Definition int_times (n : Z) (p : pynum) : res Z :=
  match p with
  | PyI z => Ok (n * z)%Z
  | PyF x => if isfin (Z2f n) then py_int (fmul (Z2f n) x) else Raise OverflowError
  end.

(* ------------------------------------------------------------------ *)
(** ** Cost values and [np.apply_along_axis] *)

(** What a cost function returns: an int or a float.
    Simplification: booleans and complex numbers are not modelled. *)
Inductive num := NI (z : Z) | NF (x : f64).

(** Bounds of int64. *)
Definition int64_min : Z := (- 2 ^ 63)%Z.
(** Bounds of int64. *)
Definition int64_max : Z := (2 ^ 63 - 1)%Z.

(** Storing a float into an int64 array truncates; NaN, infinities and values out of
    range become INT64_MIN (x86-64 behaviour, with a RuntimeWarning). *)
Definition float_to_int64 (x : f64) : Z :=
  match py_int x with
  | Ok z => if (int64_min <=? z)%Z && (z <=? int64_max)%Z then z else int64_min
  | Raise _ => int64_min
  end.

(** [np.apply_along_axis] allocates its output with the dtype of the first result, and
    stores the others into it.  Costs are kept as doubles afterwards.
    Simplification: an int64 cost is represented by the nearest double, which is exact
    up to 2^53 in absolute value. *)
Definition store_as (first v : num) : f64 :=
  match first, v with
  | NI _, NI z => Z2f z
  | NI _, NF x => Z2f (float_to_int64 x)
  | NF _, NI z => Z2f z
  | NF _, NF x => x
  end.

(** All results of one [np.apply_along_axis] (eda.py:122, utils.py:44). *)
Definition store_all (vs : list num) : list f64 :=
  match vs with [] => [] | v0 :: _ => map (store_as v0) vs end.

(** [np.array_split(l, k)]: the first [n mod k] chunks have one element more. *)
Fixpoint split_sizes {A} (sizes : list nat) (l : list A) : list (list A) :=
  match sizes with
  | [] => []
  | s :: sizes' => firstn s l :: split_sizes sizes' (skipn s l)
  end.

(** [np.array_split(l, k)] (utils.py:22). *)
Definition array_split {A} (k : nat) (l : list A) : list (list A) :=
  let n := List.length l in
  split_sizes (repeat (S (n / k)) (n mod k) ++ repeat (n / k) (k - n mod k)) l.

(* ------------------------------------------------------------------ *)
(** ** Builtin [min] and the in-place noise addition *)

(** Python's builtin [min] over a float array: keeps the first, replaces it whenever a
    later element compares smaller. *)
Definition py_min (l : list f64) : res f64 :=
  match l with
  | [] => Raise ValueError
  | x :: l' => Ok (fold_left (fun m y => if flt y m then y else m) l' x)
  end.

(** The three shapes [white_noise] can take (eda.py:176-181). *)
Inductive noise :=
| NoiseZero                                         (* 0 *)
| NoiseStr                                          (* "" *)
| NoiseMat (nr nc : nat) (draw : nat -> nat -> f64). (* normal(..., size=(nr, nc)) *)

(** [x += d] on one cell, float noise (eda.py:188). *)
Definition add_cell (d : f64) (c : cell) : res cell :=
  match c with
  | CI z => Ok (CF (fadd (Z2f z) d))
  | CF x => Ok (CF (fadd x d))
  | CS _ => Raise TypeError
  end.

(** [x += 0] on one cell (eda.py:177, 188). *)
Definition add_zero_cell (c : cell) : res cell :=
  match c with
  | CI z => Ok (CI z)
  | CF x => Ok (CF (fadd x (Z2f 0)))
  | CS _ => Raise TypeError
  end.

(** [x += ""] on one cell (eda.py:179, 188). *)
Definition add_str_cell (c : cell) : res cell :=
  match c with
  | CS s => Ok (CS (s ++ ""))
  | _ => Raise TypeError
  end.

(** Broadcasting of a dimension: index [i] of a result axis into an operand axis of
    extent [n]. *)
Definition bidx (n i : nat) : nat := if Nat.eqb n 1 then 0 else i.

(** Adding a row of the noise matrix to a row (eda.py:181, 188). *)
Fixpoint add_mat_cells (nc i j : nat) (draw : nat -> nat -> f64) (r : row) : res row :=
  match r with
  | [] => Ok []
  | c :: r' =>
      rbind (add_cell (draw i (bidx nc j)) c) (fun c' =>
      rbind (add_mat_cells nc i (S j) draw r') (fun r'' => Ok (c' :: r'')))
  end.

(** Adding the noise matrix row by row (eda.py:181, 188). *)
Fixpoint add_mat_rows (nr nc i : nat) (draw : nat -> nat -> f64) (rs : list row) : res (list row) :=
  match rs with
  | [] => Ok []
  | r :: rs' =>
      rbind (add_mat_cells nc (bidx nr i) 0 draw r) (fun r' =>
      rbind (add_mat_rows nr nc (S i) draw rs') (fun rs'' => Ok (r' :: rs'')))
  end.

(** An operand axis of extent [n] fits an array axis of extent [m]. *)
Definition broadcasts (n m : nat) : bool := Nat.eqb n m || Nat.eqb n 1.

(** [a += noise] *)
Definition iadd (a : arr) (n : noise) : res arr :=
  match n with
  | NoiseZero =>
      rmap (mkArr (a_dt a) (a_nc a)) (rmapM (rmapM add_zero_cell) (a_rows a))
  | NoiseStr =>
      match a_dt a with
      | DObj => rmap (mkArr DObj (a_nc a)) (rmapM (rmapM add_str_cell) (a_rows a))
      | _ => Raise UFuncTypeError
      end
  | NoiseMat nr nc draw =>
      match a_dt a with
      | DInt => Raise UFuncTypeError
      | d =>
          if broadcasts nr (a_len a) && broadcasts nc (a_nc a) then
            rmap (mkArr d (a_nc a)) (add_mat_rows nr nc 0 draw (a_rows a))
          else Raise ValueError
      end
  end.
