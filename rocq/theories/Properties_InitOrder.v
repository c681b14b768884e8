(** The order in which the individuals of init_data are listed. *)
From Coq Require Import String List ZArith Bool Lia Permutation.
From Verif Require Import PyBase B64 NdArray Eda EdaInv Spec InitOrder InitOrderDemo Demo.
Import ListNotations.
Open Scope nat_scope.

(* ------------------------------ C133 ------------------------------ *)
(** The order matters: the same individuals, of different costs, listed in another order give a first
    training set that is not even a reordering.  (The individual listed first enters the first
    selection twice.) *)
Theorem C133_refuted : exists (S W : Type) (h : hooks S W) (f : row -> f64) (c : cfg) ftol out (s : st S W) d d' r r' tr tr',
  (forall r w, h_cost h r w = (Ok (NF (f r)), w)) /\ argsort_ok (h_argsort h) /\ c_init_data c = Some d /\
  a_dt d' = a_dt d /\ a_nc d' = a_nc d /\ Permutation (a_rows d) (a_rows d') /\
  (forall r, In r (a_rows d) -> isnan (f r) = false) /\
  (forall r r', In r (a_rows d) -> In r' (a_rows d) -> feq (f r) (f r') = true -> r = r') /\ c_parallelize c = false /\
  completes c h ftol out s r tr /\ completes (with_data d' c) h ftol out s r' tr' /\
  exists t e ts t' e' ts', selections tr = (t, e) :: ts /\ selections tr' = (t', e') :: ts' /\ ~ Permutation t t'.
Proof. exact order_matters. Qed.
Print Assumptions C133_refuted.

(** What holds: the individuals after the first one may be listed in any order, if their costs are
    numbers and different rows have different costs.  Both runs return the same result, but that the position reported
    for a best initial individual is its position in the list given, or raise the same exception; the
    generations after the first one, selections, training sets, progress lines, model and world are
    the same. *)
Theorem C133_partial : forall (S W : Type) (h : hooks S W) (f : row -> f64),
  (forall r w, h_cost h r w = (Ok (NF (f r)), w)) -> argsort_ok (h_argsort h) ->
  forall (c : cfg) ftol out (s s' : st S W) (d d' : arr) (r0 : row) (rs rs' : list row),
  c_init_data c = Some d -> a_dt d' = a_dt d -> a_nc d' = a_nc d -> a_rows d = r0 :: rs -> a_rows d' = r0 :: rs' -> Permutation rs rs' ->
  (forall r, In r (a_rows d) -> isnan (f r) = false) ->
  (forall r r', In r (a_rows d) -> In r' (a_rows d) -> feq (f r) (f r') = true -> r = r') ->
  (c_parallelize c = false \/ cpu_count (h_pool h) <= List.length (a_rows d)) ->
  s_pm s = s_pm s' -> s_w s = s_w s' -> s_tr s = [] -> s_tr s' = [] ->
  let x := minimize c h ftol out s in
  let x' := minimize (with_data d' c) h ftol out s' in
  match fst x, fst x' with
  | Ok r, Ok r' =>
      r_history r = r_history r' /\ r_best_cost r = r_best_cost r' /\ r_nfev r = r_nfev r' /\ r_settings r = r_settings r' /\
      (r_best_ind r = r_best_ind r' \/
       exists i i' x, r_best_ind r = BIdx i /\ r_best_ind r' = BIdx i' /\ nth_error (a_rows d) i = Some x /\ nth_error (a_rows d') i' = Some x)
  | Raise e, Raise e' => e = e'
  | _, _ => False
  end /\
  s_pm (snd x) = s_pm (snd x') /\ s_w (snd x) = s_w (snd x') /\
  (exists G, gens (s_tr (snd x)) = (d, map f (a_rows d)) :: G /\ gens (s_tr (snd x')) = (d', map f (a_rows d')) :: G) /\
  selections (s_tr (snd x)) = selections (s_tr (snd x')) /\ learns (s_tr (snd x)) = learns (s_tr (snd x')) /\
  progress (s_tr (snd x)) = progress (s_tr (snd x')).
Proof. exact (fun S W => @reordered_run S W). Qed.
Print Assumptions C133_partial.

Example C133_met : exists r0 rs rs',
  c_init_data (order_cfg best_first) = Some best_first /\ a_rows best_first = r0 :: rs /\ a_rows best_first' = r0 :: rs' /\
  Permutation rs rs' /\ rs <> rs' /\
  (forall r, In r (a_rows best_first) -> isnan (cell_cost r) = false) /\
  (forall r r', In r (a_rows best_first) -> In r' (a_rows best_first) -> feq (cell_cost r) (cell_cost r') = true -> r = r') /\
  exists r tr, completes (order_cfg best_first) order_hooks ftol_default true order_start r tr.
Proof. exact order_met. Qed.
