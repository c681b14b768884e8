(** The means and covariances of a Gaussian Bayesian network in binary64. *)
From Coq Require Import String List ZArith Reals.
From Flocq Require Import IEEE754.BinarySingleNaN.
From Verif Require Import PyBase B64 Demo Models Gbn GbnSpec GbnFloat FloatSum GbnFloatDemo.
Import ListNotations.
Open Scope R_scope.

(** C119: get_mu returns for each variable a number that depends on the network only; if it is
    finite then so are those of the parents, and it is the intercept plus the parents times their
    coefficients up to one relative error of 2^-53 per operation, and underflow. *)
Theorem C119_means : forall (s : list f64 -> f64) (N : network f64), dag N ->
  exists M : string -> f64,
    (forall vars, incl vars (n_order N) -> get_mu (b64_ops s) N vars = Ok (map M (match vars with [] => n_order N | _ => vars end))) /\
    forall v, In v (n_order N) -> isfin (M v) = true ->
      let ps := d_parents (n_cpd N v) in let cs := tl (d_beta (n_cpd N v)) in let b := B2R (hd fzero (d_beta (n_cpd N v))) in
      (forall p, In p ps -> isfin (M p) = true) /\
      Rabs (B2R (M v) - (b + over (fun p c => B2R c * B2R (M p)) ps cs)) <=
        ((1 + u) ^ S (length ps) - 1) * (Rabs b + over (fun p c => Rabs (B2R c * B2R (M p))) ps cs) + (1 + u) ^ length ps * over (fun _ _ => eta) ps cs.
Proof. exact mu_residual. Qed.
Print Assumptions C119_means.

(** C119: the same for get_sigma: the variances against their own recursion (which leaves out the
    covariances of the parents, C39), the covariances against theirs. *)
Theorem C119_covariances : forall (s : list f64 -> f64) tol (N : network f64), dag N -> flt (Z2f 0) tol = true ->
  exists S : string -> string -> f64,
    (forall p q, In p (n_order N) -> In q (n_order N) -> S p q = S q p) /\
    ((forall p q, In p (n_order N) -> In q (n_order N) -> isfin (S p q) = true) ->
       forall vars, incl vars (n_order N) -> let V := match vars with [] => n_order N | _ => vars end in
       get_sigma (b64_ops s) tol N vars = Ok (map (fun p => map (S p) V) V)) /\
    (forall v, In v (n_order N) -> isfin (S v v) = true ->
      let ps := d_parents (n_cpd N v) in let cs := tl (d_beta (n_cpd N v)) in let b := B2R (d_var (n_cpd N v)) in
      (forall p, In p ps -> isfin (S p p) = true) /\
      Rabs (B2R (S v v) - (b + over (fun p c => B2R (S p p) * (B2R c * B2R c)) ps cs)) <=
        ((1 + u) ^ (length ps + 2) - 1) * (Rabs b + over (fun p c => Rabs (B2R (S p p) * (B2R c * B2R c))) ps cs) +
        (1 + u) ^ length ps * over (fun p _ => eta * (1 + (1 + u) * Rabs (B2R (S p p)))) ps cs) /\
    (forall k w v, nth_error (n_order N) k = Some v -> In w (firstn k (n_order N)) -> isfin (S w v) = true ->
      let ps := d_parents (n_cpd N v) in let cs := tl (d_beta (n_cpd N v)) in
      (forall p, In p ps -> isfin (S w p) = true) /\
      Rabs (B2R (S w v) - over (fun p c => B2R c * B2R (S w p)) ps cs) <=
        ((1 + u) ^ (length ps + 1) - 1) * over (fun p c => Rabs (B2R c * B2R (S w p))) ps cs + (1 + u) ^ length ps * over (fun _ _ => eta) ps cs).
Proof. exact sigma_residual. Qed.
Print Assumptions C119_covariances.

(** A chain a -> b -> c with finite means and covariances. *)
Example C119_met : dag chain64 /\ d_parents (n_cpd chain64 "c") = ["b"%string] /\
  (exists m, get_mu (b64_ops seq_sum) chain64 [] = Ok m /\ map isfin m = [true; true; true]) /\
  exists m, get_sigma (b64_ops seq_sum) (dec 1 8) chain64 [] = Ok m /\ map (map isfin) m = [[true; true; true]; [true; true; true]; [true; true; true]].
Proof. exact chain64_met. Qed.
