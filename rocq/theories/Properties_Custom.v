(** Which of the models and first generations EDACustom accepts can be run together, for every
    argument, cost function, random stream, sort, library and earlier use. *)
From Coq Require Import String List ZArith Bool Lia.
From Verif Require Import PyBase B64 B64More NdArray Eda EdaInv Spec LoopObs LoopInv Rand RandThms Models Inits ModelThms InitThms CatThms Sign Stock StockInv StockGauss StockAll StockMore StockExt StockCustom CustomAll Demo DemoModels DemoStock.
Import ListNotations.
Open Scope nat_scope.

(* ------------------------------ C26 ------------------------------ *)
Theorem C26_combinations_partial : forall (X W : Type) (E : env X W) k z w o0 o w' t cost a ftol out w1,
  custom_new E k z w = (Ok o0, w') -> k_pm k = 1%Z -> (k_init k = 1 \/ k_init k = 4)%Z -> used E o0 o ->
  sum_ok (e_sum E) -> argsort_ok (e_argsort E) ->
  int_times (k_size_gen k) (k_alpha k) = Ok t -> (1 <= t <= k_size_gen k)%Z ->
  cost_total (float_row (Z.to_nat (k_nvars k))) cost ->
  exists res s, run_in E a o cost ftol out w1 = (Ok res, s).
Proof. exact (fun X W => @custom_gauss_completes X W). Qed.
Print Assumptions C26_combinations_partial.

Example C26_met : sum_ok (e_sum env0) /\ argsort_ok (e_argsort env0) /\ cost_total (float_row 2) cost7 /\
  int_times 4 (PyF half) = Ok 2%Z /\ is_ok (fst (custom_new env0 (demo_cargs 1 1) (fun _ => fnan) tt)) = true.
Proof. split; [exact seq_sum_ok|]. split; [exact argsort_ref_ok|]. split; [apply cost7_total|]. split; vm_compute; reflexivity. Qed.

(** The binary initialiser never gets past the noise, with any model. *)
Theorem C26_combinations_refuted : forall (X W : Type) (E : env X W) k z w o0 o w' cost a ftol out w1 r s,
  custom_new E k z w = (Ok o0, w') -> k_init k = 2%Z -> used E o0 o ->
  run_in E a o cost ftol out w1 = (Ok r, s) -> (k_max_iter k <= 1)%Z.
Proof. exact (fun X W => @custom_binary_fails X W). Qed.
Print Assumptions C26_combinations_refuted.

Example C26_refuted_met : exists o s, fst (custom_new env0 (demo_cargs 1 2) (fun _ => fnan) tt) = Ok o /\
  run env0 o cost0 ftol_default false tt = (Raise UFuncTypeError, s).
Proof. apply raised_ok. vm_compute. reflexivity. Qed.

(** Neither does a full covariance matrix of a single variable, with any first generation. *)
Theorem C26_one_variable_refuted : forall (X W : Type) (E : env X W) k z w o0 o w' cost a ftol out w1 r s,
  custom_new E k z w = (Ok o0, w') -> k_pm k = 3%Z -> k_nvars k = 1%Z -> used E o0 o ->
  run_in E a o cost ftol out w1 = (Ok r, s) -> (k_max_iter k <= 1)%Z.
Proof. exact (fun X W => @custom_one_variable X W). Qed.
Print Assumptions C26_one_variable_refuted.

Example C26_one_variable_met : exists o s,
  fst (custom_new env0 (mkCArgs 4 3 2 1 (PyF half) (PyF half) false 3 1 (PyI (-100)) (PyI 100)) (fun _ => fnan) tt) = Ok o /\
  run env0 o cost0 ftol_default false tt = (Raise ValueError, s).
Proof. apply raised_ok. vm_compute. reflexivity. Qed.

(** Every other pair: each generation consists of vectors of floats or of bits, each training set
    of vectors of floats, and what comes out of a call that does not return was raised by numpy's
    multivariate normal (first generation 3 or model 3) or by the network library (model 4). *)
Theorem C26_others_partial : forall (X W : Type) (E : env X W) k z w o0 o w' t cost a ftol out w1 r s,
  custom_new E k z w = (Ok o0, w') -> (k_init k = 1 \/ k_init k = 3 \/ k_init k = 4)%Z -> used E o0 o ->
  (k_pm k = 1%Z -> sum_ok (e_sum E)) -> argsort_ok (e_argsort E) ->
  int_times (k_size_gen k) (k_alpha k) = Ok t -> (1 <= t <= k_size_gen k)%Z -> (k_pm k = 3 -> 2 <= k_nvars k)%Z ->
  let n := Z.to_nat (k_nvars k) in
  (k_pm k = 4%Z -> library_samples E KGBN (float_data n (Z.to_nat t) (Z.to_nat t)) (sampled_floats n (k_size_gen k)) (k_size_gen k)) ->
  cost_total (numeric_row n) cost ->
  run_in E a o cost ftol out w1 = (r, s) ->
  Forall (numeric_rows n) (map fst (gens (s_tr s))) /\
  Forall (float_data n (Z.to_nat t) (Z.to_nat t)) (learns (s_tr s)) /\
  match r with
  | Ok res => best_ok (numeric_row n) (r_best_ind res)
  | Raise e => custom_raises E (k_pm k) (k_init k) n (Z.to_nat t) (k_size_gen k) e
  end.
Proof. exact (fun X W => @custom_run X W). Qed.
Print Assumptions C26_others_partial.

(** The binary model with a uniform first generation runs; its later generations are bits. *)
Example C26_others_met : cost_total (numeric_row 2) cost7 /\ exists o r s,
  fst (custom_new env0 (demo_cargs 2 4) (fun _ => fnan) tt) = Ok o /\ run env0 o cost7 ftol_default false tt = (Ok r, s) /\
  map (fun gv => a_dt (fst gv)) (gens (s_tr s)) = [DFloat; DInt; DInt].
Proof.
  split; [apply cost7_total|].
  destruct (ran_ok env0 (fst (custom_new env0 (demo_cargs 2 4) (fun _ => fnan) tt)) cost7 ftol_default tt
    (fun _ tr => match map (fun gv => a_dt (fst gv)) (gens tr) with [DFloat; DInt; DInt] => true | _ => false end)) as (o & r & s & H1 & H2 & H3).
  - vm_compute. reflexivity.
  - exists o, r, s. split; [exact H1|]. split; [exact H2|].
    destruct (map _ (gens (s_tr s))) as [|[] [|[] [|[] [|]]]]; try discriminate. reflexivity.
Qed.
