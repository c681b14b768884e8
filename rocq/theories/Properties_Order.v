(** Theorems about how a run depends on the code it calls: the values of the cost function
    and the exceptions of the cost function, initialiser and model. *)
From Coq Require Import String List ZArith Bool.
From Verif Require Import PyBase B64 NdArray Eda EdaInv Spec Demo OrderRel DemoOrder Watch.
Import ListNotations.
Open Scope nat_scope.

(* ------------------------------ C85 ------------------------------ *)
(** With a zero tolerance, two cost functions that order every pair of solutions alike lead
    to the same search: the same calls, generations, training data, model, random state,
    best individual and number of iterations, or the same exception. *)
Theorem C85_order : forall (S W : Type) (c : cfg) (h h' : hooks S W) f f' ftol out s,
  feq ftol (Z2f 0) = true -> sorts_by_comparison (h_argsort h) -> same_but_cost h h' -> s_tr s = [] ->
  (forall r w, h_cost h r w = (Ok (NF (f r)), w)) -> (forall r w, h_cost h' r w = (Ok (NF (f' r)), w)) ->
  ranks_alike f f' ->
  same_search (minimize c h ftol out s) (minimize c h' ftol out s) /\
  (forall r r', fst (minimize c h ftol out s) = Ok r -> fst (minimize c h' ftol out s) = Ok r' ->
     exists x xs, r_best_cost r = f x /\ r_best_cost r' = f' x /\
                  r_history r = map f xs /\ r_history r' = map f' xs).
Proof. exact (fun S W => @ranks_alike_run S W). Qed.
Print Assumptions C85_order.

(** The same for a cost function with state, randomness or exceptions, transformed by a
    function that preserves the order of the costs it returns: the reported costs are the
    transformed ones. *)
Theorem C85_transformed : forall (S W : Type) (c : cfg) (h h' : hooks S W) D phi ftol out s,
  feq ftol (Z2f 0) = true -> sorts_by_comparison (h_argsort h) -> same_but_cost h h' -> s_tr s = [] ->
  order_preserving D phi -> returns_in D h -> (forall r w, h_cost h' r w = after phi (h_cost h r w)) ->
  same_search (minimize c h ftol out s) (minimize c h' ftol out s) /\
  (forall r r', fst (minimize c h ftol out s) = Ok r -> fst (minimize c h' ftol out s) = Ok r' ->
     r_best_cost r' = phi (r_best_cost r) /\ r_history r' = map phi (r_history r)).
Proof. exact (fun S W => @transformed_run S W). Qed.
Print Assumptions C85_transformed.

(** The hypothesis about the sort can be met. *)
Theorem C85_sort : argsort_ok argsort_ref /\ sorts_by_comparison argsort_ref.
Proof. exact (conj argsort_ref_ok argsort_ref_by_comparison). Qed.
Print Assumptions C85_sort.

(** With the default tolerance the values matter: subtracting 2 from a cost changes the
    individual that is returned and the number of iterations. *)
Theorem C85_tolerance_matters : exists (c : cfg) f f' s r tr r' tr',
  ranks_alike f f' /\
  completes c (with_cost f) ftol_default false s r tr /\
  completes c (with_cost f') ftol_default false s r' tr' /\
  r_best_ind r <> r_best_ind r' /\ List.length (r_history r) <> List.length (r_history r').
Proof. exact tolerance_matters. Qed.
Print Assumptions C85_tolerance_matters.

Example C85_met : feq (Z2f 0) (Z2f 0) = true /\ same_but_cost (with_cost plain) (with_cost shifted) /\
  s_tr order_start = [] /\ ranks_alike plain shifted /\
  (exists r tr, completes order_cfg (with_cost plain) (Z2f 0) false order_start r tr /\
     best_is (r_best_ind r) (inr 1%nat) && Nat.eqb (List.length (r_history r)) 3 = true) /\
  order_preserving occurring triple /\ returns_in occurring (with_cost plain).
Proof.
  exact (conj eq_refl (conj (order_same_hooks plain shifted) (conj eq_refl (conj plain_shifted
           (conj plain_zero (conj triple_preserving plain_occurring)))))).
Qed.

(* ------------------------------ C86 ------------------------------ *)
(** [watched h] are the hooks [h] with a notebook in the world: a list of the exceptions
    that the cost function, the initialiser, learn and sample raise.  The notebook
    influences nothing ... *)
Theorem C86_watching : forall (S W : Type) c (h : hooks S W) ftol out s,
  fst (minimize c (watched h) ftol out (start_watched s)) = fst (minimize c h ftol out s) /\
  seen fst (snd (minimize c (watched h) ftol out (start_watched s))) = snd (minimize c h ftol out s).
Proof. exact (fun S W => @watched_same S W). Qed.
Print Assumptions C86_watching.

(** ... and at the end it is empty or contains one exception, which is the one minimize
    raises: no exception is swallowed, replaced or followed by another call that fails. *)
Theorem C86_exceptions : forall (S W : Type) c (h : hooks S W) ftol out s, c_parallelize c = false ->
  snd (s_w (snd (minimize c (watched h) ftol out (start_watched s)))) = [] \/
  exists e, snd (s_w (snd (minimize c (watched h) ftol out (start_watched s)))) = [e] /\
            fst (minimize c h ftol out s) = Raise e.
Proof. exact (fun S W => @watched_run S W). Qed.
Print Assumptions C86_exceptions.

(** The same for any world that remembers failures and gives no guarantee about calls made
    after one: none is made. *)
Theorem C86_stops : forall (S W : Type) c (h : hooks S W) failed, remembers failed h -> c_parallelize c = false ->
  forall ftol out s, failed (s_w s) = [] ->
  match minimize c h ftol out s with
  | (Ok _, t) => failed (s_w t) = []
  | (Raise e, t) => failed (s_w t) = [] \/ failed (s_w t) = [e]
  end.
Proof. exact (fun S W => @passes_minimize S W). Qed.
Print Assumptions C86_stops.

Example C86_met : c_parallelize (conf 4 10 9 false None None) = false /\
  run_raises (conf 4 10 9 false None None) demo_hooks ftol_default false demo_start = Some (UserExn 0) /\
  snd (s_w (snd (minimize (conf 4 10 9 false None None) (watched demo_hooks) ftol_default false (start_watched demo_start)))) = [UserExn 0] /\
  remembers snd (watched demo_hooks).
Proof.
  exact (conj (proj1 watched_failing) (conj (proj1 (proj2 watched_failing)) (conj (proj2 (proj2 watched_failing)) (watched_remembers demo_hooks)))).
Qed.
