(** C10, C11, C12 and C17 for runs whose arrays need not share one dtype, e.g. an int
    init_data followed by float generations. *)
From Coq Require Import String List ZArith Bool Lia Reals Sorting.Permutation Sorting.Sorted.
From Flocq Require Import IEEE754.BinarySingleNaN.
From Verif Require Import PyBase B64 NdArray Eda EdaInv Spec SelectAny Demo MixedDemo.
Import ListNotations.
Open Scope nat_scope.

(** At every selection event, given the events before it. *)
Theorem C10_selection_any : forall (S W : Type) (c : cfg) (h : hooks S W),
  argsort_ok (h_argsort h) -> (0 <= c_trunc_len c)%Z -> (0 <= c_elite_len c)%Z ->
  forall ftol out s r tr, completes c h ftol out s r tr ->
  each_event (fun before e => match e with
    | EvSelect train elite =>
        (exists gv train0 elite0, latest before = Some gv /\
           cheapest (Z.to_nat (c_trunc_len c)) (pairs gv ++ elite_before before) train0 /\ copied train0 train /\
           cheapest (Z.to_nat (c_elite_len c)) (pairs gv ++ elite_before before) elite0 /\ copied elite0 elite) /\
        (* C11 *)
        (exists elite0,
           cheapest (Z.to_nat (c_elite_len c)) (evaluated before ++ firstn 1 (evaluated before)) elite0 /\
           copied elite0 elite /\ Forall (fun p => In p (evaluated before)) elite0) /\
        (exists train0, copied train0 train /\ Forall (fun p => In p (evaluated before)) train0) /\
        (* C12 *)
        (1 <= Z.to_nat (c_trunc_len c) -> 1 <= Z.to_nat (c_elite_len c) ->
         exists x train' y elite', train = x :: train' /\ elite = y :: elite' /\
           forall z, In z (evaluated before) -> cheaper x z /\ cheaper y z)
    | _ => True
    end) tr.
Proof. exact (fun S W => @selection_any S W). Qed.
Print Assumptions C10_selection_any.

Theorem C17_noise_free_any : forall (S W : Type) (c : cfg) (h : hooks S W),
  argsort_ok (h_argsort h) -> (0 <= c_trunc_len c)%Z -> (0 <= c_elite_len c)%Z ->
  forall ftol out s r tr, completes c h ftol out s r tr -> all_float_returns tr ->
  each_event (fun before e => match e with
    | EvSelect train elite =>
        Forall (fun p => exists x, Forall2 cell_copy x (fst p) /\ In (x, NF (snd p)) (calls tr)) elite
    | _ => True
    end) tr /\
  match r_best_ind r with
  | BRow x => exists v, In (x, NF v) (calls tr) /\ feq v (r_best_cost r) = true
  | BIdx _ => True
  end.
Proof. exact (fun S W => @noise_free_any S W). Qed.
Print Assumptions C17_noise_free_any.

(** A copy is the same number, as long as integers stay within 2^53. *)
Theorem C17_copy_exact : forall z c, (Z.abs z <= 2 ^ 53)%Z -> cell_copy (CI z) c ->
  c = CI z \/ exists x, c = CF x /\ is_finite x = true /\ B2R x = IZR z.
Proof. exact copy_exact. Qed.
Print Assumptions C17_copy_exact.

(** An int init_data and float generations: the elite holds floats that were never passed to
    the cost function as such. *)
Example C10_any_met : argsort_ok (h_argsort mixed_hooks) /\ (0 <= c_trunc_len mixed_cfg)%Z /\ (0 <= c_elite_len mixed_cfg)%Z /\
  exists r tr, completes mixed_cfg mixed_hooks ftol_default true mixed_start r tr /\ all_float_returns tr /\
    map (fun gv => a_dt (fst gv)) (gens tr) = [DInt; DFloat; DFloat; DFloat; DFloat] /\ List.length (selections tr) = 4.
Proof. exact mixed_runs. Qed.

(** Beyond 2^53 the copy may be another number: the elite then holds an individual nobody
    evaluated. *)
Theorem C17_big_int_refuted : exists c (s : st unit (list arr)) r tr train x v,
  argsort_ok (h_argsort mixed_hooks) /\ (0 <= c_trunc_len c)%Z /\ (0 <= c_elite_len c)%Z /\
  completes c mixed_hooks ftol_default true s r tr /\
  In (EvSelect train [([CF x], v)]) tr /\ is_finite x = true /\
  Forall (fun rv => match fst rv with
    | [CI z] => B2R x <> IZR z
    | [CF y] => B2R x <> B2R y
    | _ => False
    end) (calls tr).
Proof. exact big_int_run. Qed.
Print Assumptions C17_big_int_refuted.
