(** C36: when the matrix learned by EMNA is positive semidefinite. *)
From Coq Require Import List Lia Reals Lra.
From Verif Require Import PyBase Models ModelThms ModelMore EmnaPsd.
Import ListNotations.
Open Scope R_scope.

(* ------------------------------ C36 ------------------------------ *)
(** In exact arithmetic, [dev d i] being the standard deviation of column i and [kept lower upper d i j]
    the covariance of columns i and j clamped to [lower, upper].  The matrix is indefinite as soon as two
    variables have a clamped covariance whose square exceeds the product of their deviations;
    positive semidefinite when each deviation is at least the sum of the absolute clamped covariances
    with the other variables; for two variables the first condition decides.  Missing from the property: both
    conclusions, without these conditions. *)
Theorem C36_semidefinite_partial : forall lower upper nc (d : list (list R)) p p',
  multigauss_learn R_ops lower upper nc (real_col nc d) p = (Ok tt, p') -> (2 <= List.length d)%nat ->
  exists m, mg_cov p' = CovMat m /\
    (forall i j, (i < nc)%nat -> (j < nc)%nat -> i <> j -> dev d i * dev d j < kept lower upper d i j * kept lower upper d i j ->
       exists v, quad nc m v < 0) /\
    ((forall i, (i < nc)%nat -> Rsum (map (fun j => if Nat.eqb i j then 0 else Rabs (kept lower upper d i j)) (seq 0 nc)) <= dev d i) ->
       forall v, 0 <= quad nc m v) /\
    (nc = 2%nat -> (forall v, 0 <= quad nc m v) <-> kept lower upper d 0 1 * kept lower upper d 0 1 <= dev d 0 * dev d 1).
Proof. exact emna_semidefinite. Qed.
Print Assumptions C36_semidefinite_partial.

Example C36_semidefinite_met : (exists p', multigauss_learn R_ops 1 2 2 (real_col 2 square4) (mkMG [0; 0] (CovScalar 0)) = (Ok tt, p')) /\
  (2 <= List.length square4)%nat /\
  forall i, (i < 2)%nat -> Rsum (map (fun j => if Nat.eqb i j then 0 else Rabs (kept 1 2 square4 i j)) (seq 0 2)) <= dev square4 i.
Proof. split; [eexists; reflexivity|]. split; [cbn; lia|exact square4_dominant]. Qed.

(** As a run converges the matrix becomes indefinite, with a positive lower_factor and without any
    constant variable. *)
Theorem C36_converged_refuted : forall lower upper nc (d : list (list R)) p p' i j,
  multigauss_learn R_ops lower upper nc (real_col nc d) p = (Ok tt, p') -> (2 <= List.length d)%nat ->
  0 < lower -> lower <= upper -> (i < nc)%nat -> (j < nc)%nat -> i <> j -> dev d i * dev d j < lower * lower ->
  exists m, mg_cov p' = CovMat m /\ exists v, quad nc m v < 0.
Proof. exact emna_converged. Qed.
Print Assumptions C36_converged_refuted.

Example C36_converged_met : (exists p', multigauss_learn R_ops 3 4 2 (real_col 2 square4) (mkMG [0; 0] (CovScalar 0)) = (Ok tt, p')) /\
  (2 <= List.length square4)%nat /\ 0 < 3 /\ 3 <= 4 /\ dev square4 0 * dev square4 1 < 3 * 3.
Proof. split; [eexists; reflexivity|]. split; [cbn; lia|]. split; [lra|]. split; [lra|]. rewrite !square4_dev by lia. lra. Qed.
