(** LatinHypercubeSampling with scipy's sampler spelled out (scipy/stats/_qmc.py, 1.10 and later).
    The random draws, the shuffles and Lloyd's algorithm are oracles. *)
From Coq Require Import List ZArith Bool Permutation Lia.
From Verif Require Import PyBase B64 NdArray Rand Inits.
Import ListNotations.
Open Scope nat_scope.

(** [LatinHypercubeSampling.__init__] (latin_hypercube_sampling_geninit.py:28-37): [type(x) is
    np.array] is never true, so the lengths of lists are checked and those of arrays are not. *)
Definition lhs_new (n : Z) (lo hi : bound) : res uniform_init :=
  if negb (bound_len_ok n lo) then Raise AssertionError
  else if negb (bound_len_ok n hi) then Raise AssertionError
  else Ok (mkUI n lo hi).

(** What scipy takes from elsewhere: uniform draws in [0, 1), for every column a shuffle of
    1..r, and Lloyd's algorithm on a table of the given shape. *)
Record qmc_source (W : Type) := mkQmc {
  q_unif : nat -> nat -> W -> (nat -> nat -> f64) * W;
  q_shuffle : nat -> nat -> W -> (nat -> nat -> nat) * W;
  q_lloyd : nat -> nat -> (nat -> nat -> f64) -> res (nat -> nat -> f64)
}.
Arguments mkQmc {W}.
Arguments q_unif {W}.
Arguments q_shuffle {W}.
Arguments q_lloyd {W}.

(** [qmc.LatinHypercube(d, optimization).random(n)]: sample [i], column [j] is (p - u) / n with
    [p] the shuffled rank; then the optimization. *)
Definition latin_hypercube {W} (q : qmc_source W) (opt : qmc_opt) (d n : Z) (w : W) : res (nat -> nat -> f64) * W :=
  if ((d <? 0) || (n <? 0))%Z then (Raise ValueError, w)
  else
    let (u, w1) := q_unif q (Z.to_nat n) (Z.to_nat d) w in
    let (p, w2) := q_shuffle q (Z.to_nat n) (Z.to_nat d) w1 in
    let sample := fun i j => fdiv (fsub (Z2f (Z.of_nat (p i j))) (u i j)) (Z2f n) in
    (match opt with NoOptimization => Ok sample | Lloyd => q_lloyd q (Z.to_nat n) (Z.to_nat d) sample end, w2).

(** Some entry of the table satisfies the test. *)
Definition some_entry (nr nc : nat) (f : f64 -> bool) (s : nat -> nat -> f64) : bool :=
  existsb (fun i => existsb (fun j => f (s i j)) (seq 0 nc)) (seq 0 nr).

(** [qmc.scale(sample, lower, upper)]: the bounds must broadcast to the columns and be in order
    (comparing None raises TypeError), the sample must not be empty ([max] of nothing) and lie in
    the unit cube.  Simplification: a NaN in the sample, which would hide the others from [max]
    and [min], is not looked for. *)
Definition qmc_scale (nr nc : nat) (s : nat -> nat -> f64) (lo hi : bound) : res arr :=
  match lo, hi with
  | BNone, _ | _, BNone => Raise TypeError
  | _, _ =>
      if negb (broadcasts (bound_len lo) nc && broadcasts (bound_len hi) nc) then Raise ValueError
      else if negb (forallb (fun j => flt (bound_at lo j) (bound_at hi j)) (seq 0 nc)) then Raise ValueError
      else if Nat.eqb nr 0 || Nat.eqb nc 0 then Raise ValueError
      else if some_entry nr nc (fun x => flt fone x) s || some_entry nr nc (fun x => flt x (Z2f 0)) s then Raise ValueError
      else Ok (float_arr nr nc (fun i j => fadd (fmul (s i j) (fsub (bound_at hi j) (bound_at lo j))) (bound_at lo j)))
  end.

(** [LatinHypercubeSampling.sample] (latin_hypercube_sampling_geninit.py:41-57) *)
Definition lhs_draw {W} (q : qmc_source W) (u : uniform_init) (size : Z) (post_process : bool) (w : W) : res arr * W :=
  lhs_sample (latin_hypercube q) (qmc_scale (Z.to_nat size) (Z.to_nat (ui_n u))) u size post_process w.

(** The uniform draws lie in [0, 1). *)
Definition q_unif_ok {W} (q : qmc_source W) : Prop :=
  forall r c w i j, let u := fst (q_unif q r c w) i j in fle (Z2f 0) u = true /\ flt u fone = true.

(** Every column of ranks is a rearrangement of 1..r. *)
Definition q_shuffle_ok {W} (q : qmc_source W) : Prop :=
  forall r c w j, j < c -> Permutation (map (fun i => fst (q_shuffle q r c w) i j) (seq 0 r)) (seq 1 r).

(** Lloyd's algorithm refuses tables of fewer than two columns. *)
Definition q_lloyd_plane {W} (q : qmc_source W) : Prop :=
  forall r c s, c < 2 -> q_lloyd q r c s = Raise ValueError.
