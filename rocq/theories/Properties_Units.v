(** C112: learning from individuals expressed in other units of measurement. *)
From Coq Require Import List Lia Reals Lra.
From Verif Require Import PyBase Models ModelThms EmnaPsd Units.
Import ListNotations.
Open Scope R_scope.

(* ------------------------------ C112 ----------------------------- *)
(** In exact arithmetic.  Variable i of every individual is written [a i * v + b i] instead of [v]; the lower bound
    of the deviations is in the same unit (a bound of 0 is the same in all units). *)
Theorem C112_unigauss : forall (a b : nat -> R) nc (d : list (list R))
  (width : Forall (fun r => List.length r = nc) d) (some_rows : d <> [])
  lower lower' before before' learned
  (bound : forall i, (i < List.length before)%nat -> lower' = Rabs (a i) * lower)
  (as_many : List.length before' = List.length before)
  (learns : unigauss_learn R_ops lower (real_col nc d) before = (Ok tt, learned)),
  exists learned', unigauss_learn R_ops lower' (real_col nc (map (units a b) d)) before' = (Ok tt, learned') /\
    List.length learned' = List.length learned /\
    forall i m s, nth_error learned i = Some (m, s) -> nth_error learned' i = Some (a i * m + b i, Rabs (a i) * s).
Proof. exact unigauss_units. Qed.
Print Assumptions C112_unigauss.

Theorem C112_adapt : forall (a b : nat -> R) nc (d : list (list R))
  (width : Forall (fun r => List.length r = nc) d) (some_rows : d <> [])
  lower lower' alpha before before' learned
  (bound : forall i, (i < List.length before)%nat -> lower' = Rabs (a i) * lower)
  (as_many : List.length before' = List.length before)
  (learns : adapt_learn R_ops lower alpha (real_col nc d) before = (Ok tt, learned)),
  exists learned', adapt_learn R_ops lower' alpha (real_col nc (map (units a b) d)) before' = (Ok tt, learned') /\
    List.length learned' = List.length learned /\
    forall i m s, nth_error learned i = Some (m, s) -> nth_error learned' i = Some (a i * m + b i, Rabs (a i) * s).
Proof. exact adapt_units. Qed.
Print Assumptions C112_adapt.

Example C112_met : exists learned, unigauss_learn R_ops 1 (real_col 2 square4) [(0, 0); (0, 0)] = (Ok tt, learned) /\
  Forall (fun r => List.length r = 2%nat) square4 /\ square4 <> [] /\ 3 = Rabs (-3) * 1.
Proof.
  eexists. split; [reflexivity|]. split; [repeat (apply Forall_cons; [reflexivity|]); apply Forall_nil|]. split; [discriminate|].
  rewrite Rabs_left by lra. lra.
Qed.

Example C112_adapt_met : exists learned, adapt_learn R_ops 0 (1/2) (real_col 2 square4) [(0, 0); (0, 0)] = (Ok tt, learned) /\
  forall a : nat -> R, forall i, (i < 2)%nat -> 0 = Rabs (a i) * 0.
Proof. eexists. split; [reflexivity|]. intros a i _. lra. Qed.

(** EMNA: the means and what lies outside the diagonal of the matrix follow the units, lower_factor and
    upper_factor being in the unit of a covariance.  Missing from the property: the diagonal, which is
    multiplied by [Rabs (a i)] instead of [a i * a i]. *)
Theorem C112_multigauss_partial : forall (a b : nat -> R) nc (d : list (list R))
  (width : Forall (fun r => List.length r = nc) d) (some_rows : d <> [])
  lower upper lower' upper' before before' learned
  (bounds : forall i j, (i < nc)%nat -> (j < nc)%nat -> i <> j ->
     0 <= a i * a j /\ lower' = a i * a j * lower /\ upper' = a i * a j * upper)
  (as_many : List.length (mg_means before') = List.length (mg_means before))
  (two_rows : (2 <= List.length d)%nat)
  (learns : multigauss_learn R_ops lower upper nc (real_col nc d) before = (Ok tt, learned)),
  exists learned' C C', multigauss_learn R_ops lower' upper' nc (real_col nc (map (units a b) d)) before' = (Ok tt, learned') /\
    mg_cov learned = CovMat C /\ mg_cov learned' = CovMat C' /\
    List.length (mg_means learned') = List.length (mg_means learned) /\
    (forall i m, nth_error (mg_means learned) i = Some m -> nth_error (mg_means learned') i = Some (a i * m + b i)) /\
    (forall i j v, i <> j -> entry C i j = Some v -> entry C' i j = Some (a i * a j * v)) /\
    (forall i v, entry C i i = Some v -> entry C' i i = Some (Rabs (a i) * v)).
Proof. exact multigauss_units. Qed.
Print Assumptions C112_multigauss_partial.

(** In a unit c times as small the diagonal entry of every variable that is not constant is wrong. *)
Theorem C112_multigauss_refuted : forall c b lower upper lower' upper' nc (d : list (list R)) before before' learned learned' C C' i
  (width : Forall (fun r => List.length r = nc) d) (two_rows : (2 <= List.length d)%nat)
  (lower_bound : lower' = c * c * lower) (upper_bound : upper' = c * c * upper)
  (as_many : List.length (mg_means before') = List.length (mg_means before))
  (learns : multigauss_learn R_ops lower upper nc (real_col nc d) before = (Ok tt, learned)) (matrix : mg_cov learned = CovMat C)
  (learns' : multigauss_learn R_ops lower' upper' nc (real_col nc (map (units (fun _ => c) b) d)) before' = (Ok tt, learned')) (matrix' : mg_cov learned' = CovMat C')
  (some_unit : c <> 0) (other_unit : Rabs c <> 1) (variable : (i < nc)%nat) (varies : pop_var (map (fun r => nth i r 0) d) <> 0),
  exists v, entry C i i = Some v /\ entry C' i i <> Some (c * c * v).
Proof. exact multigauss_units_diagonal. Qed.
Print Assumptions C112_multigauss_refuted.

Example C112_multigauss_met : exists learned C learned' C',
  multigauss_learn R_ops 1 2 2 (real_col 2 square4) (mkMG [0; 0] (CovScalar 0)) = (Ok tt, learned) /\ mg_cov learned = CovMat C /\
  multigauss_learn R_ops 9 18 2 (real_col 2 (map (units (fun _ => 3) (fun _ => 7)) square4)) (mkMG [0; 0] (CovScalar 0)) = (Ok tt, learned') /\
  mg_cov learned' = CovMat C' /\ Rabs 3 <> 1 /\ 9 = 3 * 3 * 1 /\ 18 = 3 * 3 * 2 /\ 0 <= 3 * 3 /\ pop_var (map (fun r => nth 0 r 0) square4) <> 0.
Proof.
  eexists. eexists. eexists. eexists. split; [reflexivity|]. split; [reflexivity|]. split; [reflexivity|]. split; [reflexivity|].
  split; [rewrite Rabs_right by lra; lra|]. split; [lra|]. split; [lra|]. split; [lra|].
  unfold pop_var, avg, Rsum. cbn [square4 map nth fold_right List.length INR]. lra.
Qed.
