(** Initialisers of EDAspy/optimization/custom/initialization_models. *)
From Coq Require Import String List ZArith Bool Lia.
From Verif Require Import PyBase B64 NdArray Rand Models.
Import ListNotations.
Open Scope nat_scope.

(* ------------------------------------------------------------------ *)
(** ** UniformGenInit *)

(** [type(x) is list] guards the length check (uniform_geninit.py:30-34): arrays are not
    checked, because [type(x) is np.array] is never true. *)
Definition bound_len_ok (n : Z) (b : bound) : bool :=
  match b with BList true l => Z.eqb (Z.of_nat (List.length l)) n | _ => true end.

(** Attributes of [UniformGenInit] (uniform_geninit.py:28-37). *)
Record uniform_init := mkUI { ui_n : Z; ui_lo : bound; ui_hi : bound }.
(** [UniformGenInit.__init__] (uniform_geninit.py:15-39). *)
Definition uniform_new (n : Z) (lo hi : bound) : res uniform_init :=
  if bound_len_ok n lo && bound_len_ok n hi then Ok (mkUI n lo hi) else Raise AssertionError.

(** [UniformGenInit.sample] (uniform_geninit.py:41-50) *)
Definition uniform_sample {W} (g : rng W) (u : uniform_init) (size : Z) (w : W) : res arr * W :=
  if (ui_n u <? 0)%Z then (Raise ValueError, w)
  else np_uniform g (ui_lo u) (ui_hi u) size (Z.to_nat (ui_n u)) w.

(* ------------------------------------------------------------------ *)
(** ** UniBinGenInit *)

(** (uni_bin_geninit.py:15-42): the bounds of the inner model are dismissed, the vector's length
    is not checked. *)
Record unibin_init := mkBI { bi_n : Z; bi_pm : unibin }.
(** [UniBinGenInit.__init__] (uni_bin_geninit.py:15-31). *)
Definition unibin_init_new (n : Z) (means : list f64) : unibin_init :=
  let v := match means with [] => repeat (lit 1 (-1)) (Z.to_nat n) | _ => means end in
  mkBI n (mkUB (Z.to_nat n) (Z2f 0) (Z2f 1) v).
(** [UniBinGenInit.sample] (uni_bin_geninit.py:33-42). *)
Definition unibin_init_sample {W} (g : rng W) (b : unibin_init) (size : Z) (w : W) : res arr * W :=
  unibin_sample g (bi_pm b) size w.

(* ------------------------------------------------------------------ *)
(** ** UniGaussGenInit *)

(** [np.arange(lo, hi)] for floats: ceil(hi - lo) points lo + i, none when that is negative
    (the step is 1).  Simplification: numpy multiplies i by (lo + 1) - lo, which is 1 up to 2^53. *)
Definition ceil_len (x : f64) : nat :=
  match py_int x with
  | Ok t => Z.to_nat (if flt (Z2f t) x then t + 1 else t)
  | Raise _ => 0
  end.
(** [np.arange(lo, hi)] (uni_gauss_geninit.py:37-39, multi_gauss_geninit.py:36-37). *)
Definition arange_f (lo hi : f64) : list f64 := tabulate (ceil_len (fsub hi lo)) (fun i => fadd lo (Z2f (Z.of_nat i))).

(** [x/2] (uni_gauss_geninit.py:39). *)
Definition fhalf (x : f64) : f64 := fdiv x (Z2f 2).
(** [x/4] (uni_gauss_geninit.py:39). *)
Definition fquarter (x : f64) : f64 := fdiv x (Z2f 4).

(** (uni_gauss_geninit.py:15-58).  Vectors given together must have the same length; without
    them means and deviations are drawn from ranges derived from the bounds.  The model keeps
    a mean and a deviation vector and samples [n_variables] columns.
    Simplification: integer bounds are represented by doubles. *)
Record unigauss_init := mkGI { gi_n : Z; gi_means : list f64; gi_stds : list f64 }.
(** [UniGaussGenInit.__init__] (uni_gauss_geninit.py:15-47). *)
Definition unigauss_init_new {W} (g : rng W) (n : Z) (means stds : list f64) (lower higher : f64) (w : W)
  : res unigauss_init * W :=
  if negb (Nat.eqb (List.length means) (List.length stds)) then (Raise AssertionError, w)
  else match means with
       | [] =>
           if (n <? 0)%Z then (Raise ValueError, w) else
           match np_choice_any g (arange_f lower (fadd higher fone)) (Z.to_nat n) w with
           | (Raise e, w1) => (Raise e, w1)
           | (Ok ms, w1) =>
               match np_choice_any g (arange_f (fabs (fquarter lower)) (fabs (fhalf higher))) (Z.to_nat n) w1 with
               | (Raise e, w2) => (Raise e, w2)
               | (Ok ss, w2) => (Ok (mkGI n ms ss), w2)
               end
           end
       | _ => (Ok (mkGI n means stds), w)
       end.
(** [UniGaussGenInit.sample] (uni_gauss_geninit.py:49-58). *)
Definition unigauss_init_sample {W} (g : rng W) (i : unigauss_init) (size : Z) (w : W) : res arr * W :=
  np_normal g (gi_means i) (gi_stds i) size (Z.to_nat (gi_n i)) w.

(* ------------------------------------------------------------------ *)
(** ** MultiGaussGenInit *)

(** (multi_gauss_geninit.py:15-57) *)
Record mgauss_init := mkMI { mi_n : Z; mi_means : list f64; mi_cov : list (list f64) }.
(** The rows of an n by n matrix of choices (multi_gauss_geninit.py:37). *)
Fixpoint chunk {A} (n : nat) (k : nat) (l : list A) : list (list A) :=
  match k with O => [] | S k' => firstn n l :: chunk n k' (skipn n l) end.
(** [MultiGaussGenInit.__init__] (multi_gauss_geninit.py:15-46). *)
Definition mgauss_init_new {W} (g : rng W) (n : Z) (means : list f64) (cov : list (list f64)) (lower upper : f64) (w : W)
  : res mgauss_init * W :=
  if negb (Nat.eqb (List.length means) (List.length cov)) then (Raise AssertionError, w)
  else match means with
       | [] =>
           if (n <? 0)%Z then (Raise ValueError, w) else
           let values := arange_f lower (fadd upper fone) in
           match np_choice_any g values (Z.to_nat n) w with
           | (Raise e, w1) => (Raise e, w1)
           | (Ok ms, w1) =>
               match np_choice_any g values (Z.to_nat n * Z.to_nat n) w1 with
               | (Raise e, w2) => (Raise e, w2)
               | (Ok cs, w2) => (Ok (mkMI n ms (chunk (Z.to_nat n) (Z.to_nat n) cs)), w2)
               end
           end
       | _ => (Ok (mkMI n means cov), w)
       end.
(** [MultiGaussGenInit.sample] (multi_gauss_geninit.py:48-57). *)
Definition mgauss_init_sample {W} (g : rng W) (i : mgauss_init) (size : Z) (w : W) : res arr * W :=
  np_mvn g (mi_means i) (mi_cov i) size w.

(* ------------------------------------------------------------------ *)
(** ** CategoricalSampling *)

(** 1e-1 *)
Definition freq_tol : f64 := fdiv (Z2f 1) (Z2f 10).

(** Attributes of [CategoricalSampling] (categorical_geninit.py:24-32). *)
Record cat_init := mkCI { ci_n : Z; ci_values : list (list cell); ci_freq : list (list f64) }.

(** (categorical_geninit.py:17-34); [s] is numpy's summation. *)
Fixpoint cat_check (s : list f64 -> f64) (n : nat) (values : list (list cell)) (freq : list (list f64)) : res unit :=
  match n with
  | O => Ok tt
  | S n' =>
      match values, freq with
      | v :: values', f :: freq' =>
          if negb (Nat.eqb (List.length v) (List.length f)) then Raise AssertionError
          else if fle (fabs (fsub (s f) fone)) freq_tol then cat_check s n' values' freq'
          else Raise AssertionError
      | _, _ => Raise IndexError
      end
  end.
(** [CategoricalSampling.__init__] (categorical_geninit.py:17-34). *)
Definition cat_init_new (s : list f64 -> f64) (n : Z) (values : list (list cell)) (freq : list (list f64)) : res cat_init :=
  rmap (fun _ => mkCI n values freq) (cat_check s (Z.to_nat n) values freq).

(** [CategoricalSampling.sample] (categorical_geninit.py:36-48) *)
Definition cat_init_sample {W} (g : rng W) (str_of : cell -> string) (i : cat_init) (size : Z) (w : W) : res arr * W :=
  match draw_columns (fun vf => np_choice g (homogenise str_of (fst vf)) size (snd vf))
                     (firstn (Z.to_nat (ci_n i)) (combine (ci_values i) (ci_freq i))) w with
  | (Ok cols, w') => (Ok (frame (Z.to_nat size) cols), w')
  | (Raise e, w') => (Raise e, w')
  end.

(* ------------------------------------------------------------------ *)
(** ** LatinHypercubeSampling *)

(** What [sample] asks of scipy.stats.qmc (latin_hypercube_sampling_geninit.py:41-57): the
    sampler's optimization argument, then [random(n)] and [scale]. *)
Inductive qmc_opt := NoOptimization | Lloyd.
(** [LatinHypercubeSampling.sample] (latin_hypercube_sampling_geninit.py:41-57). *)
Definition lhs_sample {W} (qmc : qmc_opt -> Z -> Z -> W -> res (nat -> nat -> f64) * W)
           (scale : (nat -> nat -> f64) -> bound -> bound -> res arr)
           (u : uniform_init) (size : Z) (post_process : bool) (w : W) : res arr * W :=
  let opt := if post_process then NoOptimization else Lloyd in
  match qmc opt (ui_n u) size w with
  | (Ok sample, w') => (scale sample (ui_lo u) (ui_hi u), w')
  | (Raise e, w') => (Raise e, w')
  end.
