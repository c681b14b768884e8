(** Probabilistic models of EDAspy/optimization/custom/probabilistic_models: UniBin, UniGauss,
    AdaptUniGauss, MultiGauss, UniCategorical.

    The Gaussian models are written over an arbitrary arithmetic [ops], instantiated with
    IEEE doubles (the order in which numpy adds up an array left open) and with the reals.  *)
From Coq Require Import String List ZArith Bool Lia Reals.
From Verif Require Import PyBase B64 NdArray Rand.
Import ListNotations.
Open Scope nat_scope.

(* ------------------------------------------------------------------ *)
(** ** Arithmetic *)

(** The arithmetic in which the formulas below are evaluated. *)
Record ops (T : Type) := mkOps {
  o_add : T -> T -> T;
  o_sub : T -> T -> T;
  o_mul : T -> T -> T;
  o_div : T -> T -> T;
  o_sqrt : T -> T;
  o_ltb : T -> T -> bool;
  o_ofZ : Z -> T;
  o_sum : list T -> T            (* np.add.reduce *)
}.
Arguments mkOps {T}. Arguments o_add {T}. Arguments o_sub {T}. Arguments o_mul {T}. Arguments o_div {T}.
Arguments o_sqrt {T}. Arguments o_ltb {T}. Arguments o_ofZ {T}. Arguments o_sum {T}.

(** IEEE doubles; [s] is whatever summation numpy performs (pairwise, blocked, ...). *)
Definition b64_ops (s : list f64 -> f64) : ops f64 := mkOps fadd fsub fmul fdiv fsqrt flt Z2f s.

(** [a < b] on reals. *)
Definition Rltb (a b : R) : bool := if Rlt_dec a b then true else false.
(** A sum of reals. *)
Definition Rsum (l : list R) : R := fold_right Rplus 0%R l.
(** Exact arithmetic. *)
Definition R_ops : ops R := mkOps Rplus Rminus Rmult Rdiv sqrt Rltb IZR Rsum.

(** Left-to-right summation, as one possible [o_sum]. *)
Definition seq_sum (l : list f64) : f64 := fold_left fadd l (Z2f 0).

Section Stats.
Context {T : Type} (o : ops T).

(** [len(x)] as a number (inside [np.mean], [np.std]). *)
Definition len_T (l : list T) : T := o_ofZ o (Z.of_nat (List.length l)).

(** [np.mean(x)] *)
Definition mean (x : list T) : T := o_div o (o_sum o x) (len_T x).

(** [x - np.mean(x)] *)
Definition centred (x : list T) : list T := map (fun v => o_sub o v (mean x)) x.

(** [np.dot(x, y)] / sum of products *)
Definition dot (x y : list T) : T := o_sum o (map (fun p => o_mul o (fst p) (snd p)) (combine x y)).

(** [np.std(x)]: sqrt(mean(abs(x - mean(x))**2)) (numpy/core/_methods.py, _var and _std) *)
Definition std (x : list T) : T := o_sqrt o (o_div o (dot (centred x) (centred x)) (len_T x)).

(** Element of [np.cov(X)]: dot product of the centred rows times 1 / max(n - 1, 0)
    (numpy/lib/function_base.py, cov; ddof = 1). *)
Definition cov_entry (x y : list T) : T :=
  o_mul o (dot (centred x) (centred y))
          (o_div o (o_ofZ o 1) (o_ofZ o (Z.max (Z.of_nat (List.length x) - 1) 0))).

(** [a[a < lo] = lo; a[a > hi] = hi] on one element. *)
Definition raise_to (lo v : T) : T := if o_ltb o v lo then lo else v.
(** [a[a > hi] = hi] on one element (multivariate_gaussian.py:56). *)
Definition lower_to (hi v : T) : T := if o_ltb o hi v then hi else v.

End Stats.

(* ------------------------------------------------------------------ *)
(** ** Columns of a data set *)

(** A cell as a float. *)
Definition cell_num (c : cell) : res f64 :=
  match c with CI z => Ok (Z2f z) | CF x => Ok x | CS _ => Raise TypeError end.

(** [dataset[:, i]] as numbers: IndexError for a column that does not exist, TypeError when
    arithmetic meets a string. *)
Definition num_col (d : arr) (i : nat) : res (list f64) :=
  if Nat.ltb i (a_nc d) then rmapM (fun r => cell_num (nth i r (CF fnan))) (a_rows d) else Raise IndexError.

(** The same for a data set of reals. *)
Definition real_col (nc : nat) (d : list (list R)) (i : nat) : res (list R) :=
  if Nat.ltb i nc then Ok (map (fun r => nth i r 0%R) d) else Raise IndexError.

(* ------------------------------------------------------------------ *)
(** ** UniGauss and AdaptUniGauss *)

Section Gauss.
Context {T : Type} (o : ops T).

(** A model is the list of (mean, standard deviation), one per variable.  Learning goes
    variable by variable; an exception leaves the earlier ones updated. *)
Fixpoint learn_from (upd : nat -> res (T * T)) (i : nat) (pm : list (T * T)) : res unit * list (T * T) :=
  match pm with
  | [] => (Ok tt, [])
  | p :: pm' =>
      match upd i with
      | Raise e => (Raise e, p :: pm')
      | Ok q => let (r, pm'') := learn_from upd (S i) pm' in (r, q :: pm'')
      end
  end.

(** [UniGauss.learn] (univariate_gaussian.py:37-48); [col i] is [dataset[:, i]]. *)
Definition unigauss_upd (lower : T) (col : nat -> res (list T)) (i : nat) : res (T * T) :=
  rmap (fun x => (mean o x, raise_to o lower (std o x))) (col i).
(** The loop over the variables (univariate_gaussian.py:43-48). *)
Definition unigauss_learn (lower : T) (col : nat -> res (list T)) (pm : list (T * T)) : res unit * list (T * T) :=
  learn_from (unigauss_upd lower col) 0 pm.

(** [AdaptUniGauss.learn] (adaptive_univariate_gaussian.py:44-58). *)
Definition adapt_upd (lower alpha : T) (col : nat -> res (list T)) (i : nat) : res (T * T) :=
  rbind (col i) (fun x =>
    match x with
    | b1 :: b2 :: _ =>
        let m := o_add o (o_mul o (o_sub o (o_ofZ o 1) alpha) (mean o x))
                         (o_mul o alpha (o_sub o (o_add o b1 b2) (last x b1))) in
        Ok (m, raise_to o lower (std o x))
    | _ => Raise IndexError                              (* dataset[0, i] or dataset[1, i] *)
    end).
(** The loop over the variables (adaptive_univariate_gaussian.py:51-58). *)
Definition adapt_learn (lower alpha : T) (col : nat -> res (list T)) (pm : list (T * T)) : res unit * list (T * T) :=
  learn_from (adapt_upd lower alpha col) 0 pm.

(** ** MultiGauss *)

(** [pm_cov]: a matrix, or the 0-dimensional array [np.cov] returns for one variable. *)
Inductive covm := CovScalar (x : T) | CovMat (m : list (list T)).

(** [pm_means] and [pm_cov] (multivariate_gaussian.py:27-28). *)
Record mgauss := mkMG { mg_means : list T; mg_cov : covm }.

(** The loop over the variables (multivariate_gaussian.py:51-52). *)
Fixpoint means_from (col : nat -> res (list T)) (i : nat) (ms : list T) : res unit * list T :=
  match ms with
  | [] => (Ok tt, [])
  | m :: ms' =>
      match col i with
      | Raise e => (Raise e, m :: ms')
      | Ok x => let (r, ms'') := means_from col (S i) ms' in (r, mean o x :: ms'')
      end
  end.

(** An entry outside the diagonal (multivariate_gaussian.py:54-56). *)
Definition clamped_cov (lower upper : T) (x y : list T) : T :=
  lower_to o upper (raise_to o lower (cov_entry o x y)).

(** The matrix built by lines 54-57 from the columns. *)
Definition cov_matrix (lower upper : T) (cols : list (list T)) : list (list T) :=
  tabulate (List.length cols) (fun i => tabulate (List.length cols) (fun j =>
    if Nat.eqb i j then std o (nth i cols [])
    else clamped_cov lower upper (nth i cols []) (nth j cols []))).

(** [MultiGauss.learn] (multivariate_gaussian.py:44-57); [nc] is the number of columns of the
    data set. *)
Definition multigauss_learn (lower upper : T) (nc : nat) (col : nat -> res (list T)) (p : mgauss) : res unit * mgauss :=
  match means_from col 0 (mg_means p) with
  | (Raise e, ms) => (Raise e, mkMG ms (mg_cov p))
  | (Ok _, ms) =>
      match rmapM col (seq 0 nc) with
      | Raise e => (Raise e, mkMG ms (mg_cov p))
      | Ok [x] => (Raise ValueError, mkMG ms (CovScalar (clamped_cov lower upper x x)))  (* fill_diagonal needs 2-d *)
      | Ok cols => (Ok tt, mkMG ms (CovMat (cov_matrix lower upper cols)))
      end
  end.

End Gauss.

Arguments CovScalar {T}. Arguments CovMat {T}. Arguments mkMG {T}. Arguments mg_means {T}. Arguments mg_cov {T}.

(** [UniGauss.sample], [AdaptUniGauss.sample] (univariate_gaussian.py:24-35,
    adaptive_univariate_gaussian.py:31-42). *)
Definition gauss_sample {W} (g : rng W) (pm : list (f64 * f64)) (size : Z) (w : W) : res arr * W :=
  np_normal g (map fst pm) (map snd pm) size (List.length pm) w.

(** A model before learning: [np.zeros((2, n))]. *)
Definition gauss_new (n : nat) : list (f64 * f64) := repeat (Z2f 0, Z2f 0) n.

(** [MultiGauss.sample] (multivariate_gaussian.py:32-42): a 0-dimensional covariance is refused. *)
Definition multigauss_sample {W} (g : rng W) (p : mgauss (T := f64)) (size : Z) (w : W) : res arr * W :=
  match mg_cov p with
  | CovScalar _ => (Raise ValueError, w)
  | CovMat m => np_mvn g (mg_means p) m size w
  end.

(* ------------------------------------------------------------------ *)
(** ** UniBin *)

(** [UniBin.__init__] (univariate_binary.py:17-27). *)
Record unibin := mkUB { ub_n : nat; ub_lo : f64; ub_hi : f64; ub_pm : list f64 }.
(** The constructor (univariate_binary.py:17-27). *)
Definition unibin_new (n : nat) (upper lower : f64) : res unibin :=
  if flt lower upper then Ok (mkUB n lower upper (repeat (Z2f 0) n)) else Raise AssertionError.

(** [UniBin.sample] (univariate_binary.py:29-42): [random((size, n)) < pm], as ints. *)
Definition unibin_sample {W} (g : rng W) (m : unibin) (size : Z) (w : W) : res arr * W :=
  if (size <? 0)%Z then (Raise ValueError, w)
  else
    let (u, w') := g_unif g (Z.to_nat size) (ub_n m) w in
    match bres (ub_n m) (List.length (ub_pm m)) with
    | None => (Raise ValueError, w')
    | Some k =>
        (Ok (mkArr DInt k (tabulate (Z.to_nat size) (fun i => tabulate k (fun j =>
           CI (if flt (u i (bidx (ub_n m) j)) (nth (bidx (List.length (ub_pm m)) j) (ub_pm m) fnan) then 1 else 0)%Z)))), w')
    end.

(** [a + b] on two cells (univariate_binary.py:51). *)
Definition cell_add (a b : cell) : res cell :=
  match a, b with
  | CI x, CI y => Ok (CI (x + y))
  | CI x, CF y => Ok (CF (fadd (Z2f x) y))
  | CF x, CI y => Ok (CF (fadd x (Z2f y)))
  | CF x, CF y => Ok (CF (fadd x y))
  | _, _ => Raise TypeError
  end.

(** [a + b] on two rows (univariate_binary.py:51). *)
Fixpoint row_add (a b : row) : res row :=
  match a, b with
  | x :: a', y :: b' => rbind (cell_add x y) (fun z => rbind (row_add a' b') (fun r => Ok (z :: r)))
  | _, _ => Ok []
  end.

(** The builtin [sum(dataset)] (univariate_binary.py:51). *)
Fixpoint sum_rows (acc : row) (rs : list row) : res row :=
  match rs with
  | [] => Ok acc
  | r :: rs' => rbind (row_add acc r) (fun acc' => sum_rows acc' rs')
  end.

(** [UniBin.learn] (univariate_binary.py:44-53).  The builtin [sum] starts from the integer 0;
    for a data set without rows it stays 0 and the division fails. *)
Definition unibin_probs (lo hi : f64) (d : arr) : res (list f64) :=
  match a_rows d with
  | [] => Raise ZeroDivisionError
  | rs =>
      rbind (sum_rows (repeat (CI 0%Z) (a_nc d)) rs) (fun total =>
      rbind (rmapM cell_num total) (fun sums =>
      Ok (map (fun s =>
            let p := fdiv s (Z2f (Z.of_nat (List.length rs))) in
            let p := if flt p lo then lo else p in
            if flt hi p then hi else p) sums)))
  end.
(** [UniBin.learn] (univariate_binary.py:44-53). *)
Definition unibin_learn (d : arr) (m : unibin) : res unit * unibin :=
  match unibin_probs (ub_lo m) (ub_hi m) d with
  | Ok pm => (Ok tt, mkUB (ub_n m) (ub_lo m) (ub_hi m) pm)
  | Raise e => (Raise e, m)
  end.

(* ------------------------------------------------------------------ *)
(** ** UniCategorical *)

(** The cell is a string. *)
Definition is_str (c : cell) : bool := match c with CS _ => true | _ => false end.

(** Python's [==] on cells. *)
Definition cell_eqb (a b : cell) : bool :=
  match a, b with
  | CI x, CI y => Z.eqb x y
  | CI x, CF y => feq (Z2f x) y
  | CF x, CI y => feq x (Z2f y)
  | CF x, CF y => feq x y
  | CS x, CS y => String.eqb x y
  | _, _ => false
  end.

(** Python's [<] on cells, by which [np.unique] sorts (univariate_categorical.py:12). *)
Definition cell_ltb (a b : cell) : bool :=
  match a, b with
  | CI x, CI y => Z.ltb x y
  | CI x, CF y => flt (Z2f x) y
  | CF x, CI y => flt x (Z2f y)
  | CF x, CF y => flt x y
  | CS x, CS y => String.ltb x y
  | _, _ => false
  end.

(** Counting table of [np.unique(column, return_counts=True)]: sorted distinct values with
    their multiplicities. *)
Fixpoint bump (x : cell) (l : list (cell * nat)) : list (cell * nat) :=
  match l with
  | [] => []
  | (y, k) :: l' => if cell_eqb x y then (y, S k) :: l' else (y, k) :: bump x l'
  end.
(** A value seen for the first time (univariate_categorical.py:12). *)
Fixpoint insert_new (x : cell) (l : list (cell * nat)) : list (cell * nat) :=
  match l with
  | [] => [(x, 1)]
  | (y, k) :: l' => if cell_ltb x y then (x, 1) :: l else (y, k) :: insert_new x l'
  end.
(** One value counted (univariate_categorical.py:12). *)
Definition count_in (l : list (cell * nat)) (x : cell) : list (cell * nat) :=
  if existsb (fun yk => cell_eqb x (fst yk)) l then bump x l else insert_new x l.

(** Sorting a column that mixes strings and numbers raises TypeError.
    Simplification: NaN categories, which [np.unique] counts together, are counted one by one. *)
Definition np_unique (col : list cell) : res (list (cell * nat)) :=
  if existsb is_str col && existsb (fun c => negb (is_str c)) col then Raise TypeError
  else Ok (fold_left count_in col []).

(** [obtain_probabilities] (univariate_categorical.py:10-19). *)
Definition obtain_probabilities (col : list cell) : res (list (cell * f64)) :=
  rmap (map (fun yk => (fst yk, fdiv (Z2f (Z.of_nat (snd yk))) (Z2f (Z.of_nat (List.length col))))))
       (np_unique col).

(** [dataset[:, i]] *)
Definition cell_col (d : arr) (i : nat) : res (list cell) :=
  if Nat.ltb i (a_nc d) then Ok (map (fun r => nth i r (CF fnan)) (a_rows d)) else Raise IndexError.

(** [prob_table]: per variable, in order of [variables]; None until learned.
    Simplification: variable names are distinct (they are the stringified positions in every
    stock algorithm), so the table is indexed by position. *)
Definition cat_table := list (option (list (cell * f64))).
(** [self.prob_table = {}] (univariate_categorical.py:31). *)
Definition cat_new (n : nat) : cat_table := repeat None n.

(** [UniCategorical.learn] (univariate_categorical.py:33-42). *)
Fixpoint cat_learn_from (d : arr) (i : nat) (t : cat_table) : res unit * cat_table :=
  match t with
  | [] => (Ok tt, [])
  | e :: t' =>
      match rbind (cell_col d i) obtain_probabilities with
      | Raise ex => (Raise ex, e :: t')
      | Ok p => let (r, t'') := cat_learn_from d (S i) t' in (r, Some p :: t'')
      end
  end.
(** [UniCategorical.learn] (univariate_categorical.py:33-42). *)
Definition cat_learn (d : arr) (t : cat_table) : res unit * cat_table := cat_learn_from d 0 t.

(** [np.array(values)]: numbers become floats when one is a float; next to a string everything
    becomes a string ([str_of] is numpy's conversion). *)
Definition homogenise (str_of : cell -> string) (l : list cell) : list cell :=
  if existsb is_str l then map (fun c => match c with CS s => CS s | _ => CS (str_of c) end) l
  else if existsb (fun c => match c with CF _ => true | _ => false end) l then map (cast_cell DFloat) l
  else l.

(** [pd.DataFrame(columns).to_numpy()] (univariate_categorical.py:59, categorical_geninit.py:48):
    object if a column holds strings, else float if one holds floats, else int; a frame without
    columns has no rows either and is float. *)
Definition frame_dtype (cols : list (list cell)) : dtype :=
  if existsb (existsb is_str) cols then DObj
  else if existsb (existsb (fun c => match c with CF _ => true | _ => false end)) cols then DFloat
  else DInt.
(** The array itself. *)
Definition frame (size : nat) (cols : list (list cell)) : arr :=
  match cols with
  | [] => mkArr DFloat 0 []
  | _ =>
      let d := frame_dtype cols in
      mkArr d (List.length cols)
            (tabulate size (fun i => map (fun col => cast_cell d (nth i col (CF fnan))) cols))
  end.

(** Drawing one column after another. *)
Fixpoint draw_columns {W A} (draw : A -> W -> res (list cell) * W) (l : list A) (w : W) : res (list (list cell)) * W :=
  match l with
  | [] => (Ok [], w)
  | x :: l' =>
      match draw x w with
      | (Raise e, w') => (Raise e, w')
      | (Ok col, w') =>
          match draw_columns draw l' w' with
          | (Raise e, w'') => (Raise e, w'')
          | (Ok cols, w'') => (Ok (col :: cols), w'')
          end
      end
  end.

(** [UniCategorical.sample] (univariate_categorical.py:44-59): KeyError for a variable never
    learned (the key is the variable name; the model reports it as the empty string). *)
Definition cat_draw {W} (g : rng W) (str_of : cell -> string) (size : Z) (e : option (list (cell * f64))) (w : W)
  : res (list cell) * W :=
  match e with
  | None => (Raise (KeyError ""), w)
  | Some p => np_choice g (homogenise str_of (map fst p)) size (map snd p) w
  end.
(** [UniCategorical.sample] (univariate_categorical.py:44-59). *)
Definition cat_sample {W} (g : rng W) (str_of : cell -> string) (t : cat_table) (size : Z) (w : W) : res arr * W :=
  match draw_columns (cat_draw g str_of size) t w with
  | (Ok cols, w') => (Ok (frame (Z.to_nat size) cols), w')
  | (Raise e, w') => (Raise e, w')
  end.
