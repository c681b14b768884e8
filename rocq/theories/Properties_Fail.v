(** C10, C11, C12, C17 and C93 for every run, whether it returns or raises: [r] is the result
    or the exception, [tr] what happened up to then. *)
From Coq Require Import String List ZArith Bool Lia.
From Verif Require Import PyBase B64 NdArray Eda EdaInv Spec LoopTrain LoopDrawn SelectAny LoopFail FailThms Demo MixedDemo FailDemo.
Import ListNotations.
Open Scope nat_scope.

(* ------------------------------ C10, C11, C12 ------------------------------ *)
Theorem C10_selection_every : forall (S W : Type) (c : cfg) (h : hooks S W),
  argsort_ok (h_argsort h) -> (0 <= c_trunc_len c)%Z -> (0 <= c_elite_len c)%Z ->
  forall ftol out s r tr, executes c h ftol out s r tr ->
  each_event (fun before e => match e with
    | EvSelect train elite =>
        (exists gv train0 elite0, latest before = Some gv /\
           cheapest (Z.to_nat (c_trunc_len c)) (pairs gv ++ elite_before before) train0 /\ copied train0 train /\
           cheapest (Z.to_nat (c_elite_len c)) (pairs gv ++ elite_before before) elite0 /\ copied elite0 elite) /\
        (* C11 *)
        (exists elite0,
           cheapest (Z.to_nat (c_elite_len c)) (evaluated before ++ firstn 1 (evaluated before)) elite0 /\
           copied elite0 elite /\ Forall (fun p => In p (evaluated before)) elite0) /\
        (exists train0, copied train0 train /\ Forall (fun p => In p (evaluated before)) train0) /\
        (* C12 *)
        (1 <= Z.to_nat (c_trunc_len c) -> 1 <= Z.to_nat (c_elite_len c) ->
         exists x train' y elite', train = x :: train' /\ elite = y :: elite' /\
           forall z, In z (evaluated before) -> cheaper x z /\ cheaper y z)
    | _ => True
    end) tr.
Proof. exact (fun S W => @selection_every S W). Qed.
Print Assumptions C10_selection_every.

(** No training, or one noise for the whole run. *)
Theorem C10_training_every : forall (S W : Type) (c : cfg) (h : hooks S W) ftol out s r tr,
  (forall g e p, h_data h g e p = (Ok g, p)) ->
  executes c h ftol out s r tr ->
  learns tr = [] \/
  exists wn, noise_cfg c wn /\
    each_event (fun before e => match e with
      | EvLearn d => exists before' train elite,
          before = before' ++ [EvSelect train elite] /\
          moved (noise_delta wn) (map fst train) (a_rows d)
      | _ => True
      end) tr.
Proof. exact (fun S W => @training_every S W). Qed.
Print Assumptions C10_training_every.

(* ------------------------------ C17 ------------------------------ *)
Theorem C17_noise_free_every : forall (S W : Type) (c : cfg) (h : hooks S W),
  argsort_ok (h_argsort h) -> (0 <= c_trunc_len c)%Z -> (0 <= c_elite_len c)%Z ->
  forall ftol out s r tr, executes c h ftol out s r tr -> all_float_returns tr ->
  each_event (fun before e => match e with
    | EvSelect train elite =>
        Forall (fun p => exists x, Forall2 cell_copy x (fst p) /\ In (x, NF (snd p)) (calls before)) elite
    | _ => True
    end) tr.
Proof. exact (fun S W => @noise_free_every S W). Qed.
Print Assumptions C17_noise_free_every.

(* ------------------------------ C93 ------------------------------ *)
Theorem C93_chain_every : forall (S W : Type) (c : cfg) (h : hooks S W) ftol out s r tr,
  executes c h ftol out s r tr -> forall k g vals, nth_error (gens tr) k = Some (g, vals) ->
  match k with
  | 0 => match c_init_data c with Some d => g = d | None => exists w w', h_init h w = (Ok g, w') end
  | Datatypes.S _ => List.length (firstn k (learns tr)) = k /\
      exists p w w', trained h (s_pm s) (firstn k (learns tr)) p /\ h_sample h p w = (Ok g, w')
  end.
Proof. exact (fun S W => @chain_every S W). Qed.
Print Assumptions C93_chain_every.

Theorem C93_order_every : forall (S W : Type) (c : cfg) (h : hooks S W) ftol out s r tr,
  executes c h ftol out s r tr -> each_event (drawn_ok c h (s_pm s)) tr.
Proof. exact (fun S W => @drawn_every S W). Qed.
Print Assumptions C93_order_every.

(** Each evaluated generation comes right after one call per row, in order. *)
Theorem C93_called_every : forall (S W : Type) (c : cfg) (h : hooks S W) ftol out s r tr,
  executes c h ftol out s r tr ->
  each_event (fun before e => match e with
    | EvGen g rets vals => exists before', before = before' ++ calls_of (a_rows g) rets /\
        List.length rets = List.length (a_rows g) /\ Stored rets vals
    | _ => True
    end) tr.
Proof. exact (fun S W => @called_every S W). Qed.
Print Assumptions C93_called_every.

(** A run that raises in its third iteration. *)
Example C10_every_met : argsort_ok (h_argsort mixed_hooks) /\ (0 <= c_trunc_len mixed_cfg)%Z /\ (0 <= c_elite_len mixed_cfg)%Z /\
  (forall g e p, h_data mixed_hooks g e p = (Ok g, p)) /\
  exists e tr, executes mixed_cfg mixed_hooks ftol_default true cut_start (Raise e) tr /\ all_float_returns tr /\
    List.length (gens tr) = 3 /\ List.length (selections tr) = 3 /\ List.length (learns tr) = 3.
Proof. exact cut_runs. Qed.
