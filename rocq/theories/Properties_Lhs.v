(** Properties of Latin hypercube sampling, for all arguments, draws and shuffles. *)
From Coq Require Import List ZArith Bool Permutation Lia.
From Verif Require Import PyBase B64 NdArray Rand Inits CatThms InitThms InitGauss DemoModels Lhs LhsThms DemoLhs.
Import ListNotations.
Open Scope nat_scope.

(* ------------------------------ C89 ------------------------------ *)
(** Called with post_process=True, which turns the post-processing off, the initialiser returns a
    Latin hypercube: in every column the samples occupy the [size] equal slots of the variable's
    range, one each. *)
Theorem C89_latin : forall W (q : qmc_source W) n lo hi u size,
  q_unif_ok q -> q_shuffle_ok q -> lhs_new (Z.of_nat n) lo hi = Ok u -> range_ok n lo hi -> 0 < n -> (0 < size <= 2 ^ 53)%Z ->
  forall w, exists a w', lhs_draw q u size true w = (Ok a, w') /\ float_matrix (Z.to_nat size) n a /\
  forall j l h, j < n -> bound_of lo j l -> bound_of hi j h ->
  exists slots, Permutation slots (seq 0 (Z.to_nat size)) /\
    forall i k, nth_error slots i = Some k -> exists x, nth_error (nth i (a_rows a) []) j = Some (CF x) /\
      fle (edge l h size k) x = true /\ fle x (edge l h size (S k)) = true /\ fle l x = true /\
      (fle x h = true \/ S k = Z.to_nat size).
Proof. exact @lhs_latin. Qed.
Print Assumptions C89_latin.

Example C89_met : q_unif_ok (demo_qmc half) /\ q_shuffle_ok (demo_qmc half) /\ range_ok 2 demo_lo demo_hi /\
  match lhs_new 2 demo_lo demo_hi with
  | Ok u => match fst (lhs_draw (demo_qmc half) u 4 true tt) with
            | Ok a => match a_rows a with [CF x :: _; _; _; [CF y; CF z]] => feq x (Z2f 4) && feq y (Z2f (-2)) && feq z (lit 5 (-3)) | _ => false end
            | Raise _ => false end
  | Raise _ => false
  end = true.
Proof.
  split; [apply demo_qmc_unif; vm_compute; reflexivity|]. split; [apply demo_qmc_shuffle|]. split; [exact demo_range|exact demo_draw_values].
Qed.

(* ------------------------------ C90 ------------------------------ *)
(** With either flag and whatever Lloyd's algorithm does, a sample that is returned is at least
    the lower bound and at most (1 * (upper - lower)) + lower computed in doubles.  Missing: that
    this is at most the upper bound, which fails. *)
Theorem C90_bounds_partial : forall W (q : qmc_source W) n lo hi u size post w a w',
  lhs_new (Z.of_nat n) lo hi = Ok u -> range_ok n lo hi -> lhs_draw q u size post w = (Ok a, w') ->
  float_matrix (Z.to_nat size) n a /\ 0 < n /\ (0 < size)%Z /\
  forall i j l h x, i < Z.to_nat size -> bound_of lo j l -> bound_of hi j h -> j < n ->
    nth_error (nth i (a_rows a) []) j = Some (CF x) -> isnan x = false ->
    fle l x = true /\ fle x (stretch l h fone) = true.
Proof. exact @lhs_bounds. Qed.
Print Assumptions C90_bounds_partial.

(** Bounds that are equal or out of order for some variable are refused when sampling. *)
Theorem C90_order : forall W (q : qmc_source W) n lo hi u size post w j l h,
  lhs_new (Z.of_nat n) lo hi = Ok u -> full_bound n lo -> full_bound n hi ->
  j < n -> bound_of lo j l -> bound_of hi j h -> flt l h = false -> is_ok (fst (lhs_draw q u size post w)) = false.
Proof. exact @lhs_disorder. Qed.
Print Assumptions C90_order.

(** LatinHypercubeSampling(2, -0.1, 0.2) can return 0.20000000000000004. *)
Theorem C90_bounds_refuted : exists W (q : qmc_source W) lo hi u a w w',
  q_unif_ok q /\ q_shuffle_ok q /\ range_ok 2 lo hi /\ lhs_new 2 lo hi = Ok u /\ lhs_draw q u 3 true w = (Ok a, w') /\
  exists x h, nth_error (nth 0 (a_rows a) []) 0 = Some (CF x) /\ bound_of hi 0 h /\ flt h x = true.
Proof. exact lhs_above. Qed.
Print Assumptions C90_bounds_refuted.

Example C90_met : is_ok (lhs_new 2 demo_lo demo_hi) = true /\ range_ok 2 demo_lo demo_hi /\
  is_ok (fst (lhs_draw (demo_qmc half) (mkUI 2 demo_lo demo_hi) 3 false tt)) = true /\
  is_ok (lhs_new 2 demo_lo (BNum (PyI 0))) = true /\ flt (Z2f 0) (Z2f 0) = false /\ bound_of demo_lo 1 (Z2f 0).
Proof.
  split; [reflexivity|]. split; [exact demo_range|]. split; [vm_compute; reflexivity|]. split; [reflexivity|]. split; [vm_compute; reflexivity|reflexivity].
Qed.

(* ------------------------------ C91 ------------------------------ *)
(** The default call, for two variables or more and when Lloyd's algorithm returns a table in the
    unit cube. *)
Theorem C91_default_partial : forall W (q : qmc_source W) n lo hi u size w,
  lloyd_unit q -> lhs_new (Z.of_nat n) lo hi = Ok u -> range_ok n lo hi -> 2 <= n -> (0 < size <= 2 ^ 53)%Z ->
  exists a w', lhs_draw q u size false w = (Ok a, w') /\ float_matrix (Z.to_nat size) n a.
Proof. exact @lhs_default_ok. Qed.
Print Assumptions C91_default_partial.

(** For one variable the default call always raises ValueError, because Lloyd's algorithm refuses
    tables of fewer than two columns. *)
Theorem C91_default_refuted : forall W (q : qmc_source W) n lo hi u size w,
  q_lloyd_plane q -> (0 <= size)%Z -> (0 <= n < 2)%Z -> lhs_new n lo hi = Ok u -> fst (lhs_draw q u size false w) = Raise ValueError.
Proof. exact @lhs_default_one. Qed.
Print Assumptions C91_default_refuted.

Example C91_met : lloyd_unit (demo_qmc half) /\ q_lloyd_plane (demo_qmc half) /\ range_ok 2 demo_lo demo_hi /\
  is_ok (lhs_new 2 demo_lo demo_hi) = true /\ is_ok (lhs_new 1 (BNum (PyI (-100))) (BNum (PyI 100))) = true.
Proof.
  split; [apply demo_qmc_unit|]. split; [apply demo_qmc_plane|]. split; [exact demo_range|]. split; reflexivity.
Qed.
