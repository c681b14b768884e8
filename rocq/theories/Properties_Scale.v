(** Theorems about the unit in which costs are measured. *)
From Coq Require Import String List ZArith Bool Reals.
From Flocq Require Import Core IEEE754.BinarySingleNaN.
From Verif Require Import PyBase B64 NdArray Eda EdaInv Spec Demo OrderRel DemoOrder Scale DemoScale.
Import ListNotations.
Open Scope nat_scope.

(* ------------------------------ C95 ------------------------------ *)
(** Multiplying every cost by the same power of two, away from overflow and underflow,
    leaves the search as it is, for any usual tolerance, and multiplies the reported costs
    by that power. *)
Theorem C95_unit : forall (S W : Type) (c : cfg) (h h' : hooks S W) e ftol out s,
  (-100 <= e <= 100)%Z -> usual_tol ftol -> sorts_by_comparison (h_argsort h) -> same_but_cost h h' -> s_tr s = [] ->
  returns_in roomy h -> (forall r w, h_cost h' r w = after (scaled e) (h_cost h r w)) ->
  same_search (minimize c h ftol out s) (minimize c h' ftol out s) /\
  (forall r r', fst (minimize c h ftol out s) = Ok r -> fst (minimize c h' ftol out s) = Ok r' ->
     r_best_cost r' = scaled e (r_best_cost r) /\ r_history r' = map (scaled e) (r_history r)).
Proof. exact (fun S W => @scaled_run S W). Qed.
Print Assumptions C95_unit.

(** [scaled] is exact. *)
Theorem C95_exact : forall e x, (-100 <= e <= 100)%Z -> isfin x = true -> roomy x ->
  isfin (scaled e x) = true /\ B2R (scaled e x) = (B2R x * bpow radix2 e)%R.
Proof. exact (fun e x He Fx Hx => scaled_fin e He x Fx (roomy_near x Hx Fx)). Qed.
Print Assumptions C95_exact.

(** The restriction to powers of two is needed: tripling the costs can change the
    individual that is returned and the number of iterations, at the default tolerance. *)
Theorem C95_other_factors : exists (c : cfg) f s r tr r' tr',
  (forall x, roomy (f x)) /\
  completes c (with_cost f) ftol_default false s r tr /\
  completes c (with_cost (fun x => fmul (Z2f 3) (f x))) ftol_default false s r' tr' /\
  r_best_ind r <> r_best_ind r' /\ List.length (r_history r) <> List.length (r_history r').
Proof. exact tripling_matters. Qed.
Print Assumptions C95_other_factors.

Example C95_met : usual_tol ftol_default /\ sorts_by_comparison (h_argsort (with_cost edgy)) /\
  same_but_cost (with_cost edgy) (with_cost eighth) /\ s_tr order_start = [] /\ returns_in roomy (with_cost edgy) /\
  (forall r w, h_cost (with_cost eighth) r w = after (scaled (-3)) (h_cost (with_cost edgy) r w)) /\
  (exists r tr, completes order_cfg (with_cost edgy) ftol_default false order_start r tr /\
     best_is (r_best_ind r) (inl (Z2f 1)) && Nat.eqb (List.length (r_history r)) 4 = true) /\
  (exists r tr, completes order_cfg (with_cost eighth) ftol_default false order_start r tr /\
     best_is (r_best_ind r) (inl (Z2f 1)) && Nat.eqb (List.length (r_history r)) 4 = true).
Proof.
  exact (conj usual_default (conj argsort_ref_by_comparison (conj (order_same_hooks edgy eighth) (conj eq_refl
           (conj edgy_roomy (conj eighth_after (conj edgy_run eighth_run))))))).
Qed.
