(** Theorems about runs of the algorithms whose models a library learns and samples. *)
From Coq Require Import String List ZArith Bool.
From Verif Require Import PyBase B64 NdArray Eda Spec LoopInv Rand Inits Models ModelThms CatThms Stock StockInv StockGauss StockCat StockAll StockExt Demo DemoModels DemoStock DemoExt.
Import ListNotations.
Open Scope nat_scope.

(* ------------------------------ C87 ------------------------------ *)
(** EGNA, UnivariateKEDA, MultivariateKEDA, SPEDA with correct arguments, a total cost function
    and a library that samples float matrices: every model is learned from a float matrix with
    n_variables columns and between t and l*t rows, and the call returns a vector of floats
    unless the library raised. *)
Theorem C87_float : forall (X W : Type) (E : env X W) A g k hi o0 o cost a ftol out w t r s,
  construct E A g = Ok o0 -> library_class A = Some k -> most_rows A (Z.to_nat t) = Some hi -> used E o0 o ->
  argsort_ok (e_argsort E) -> unif_ok (e_rng E) -> float_args E A g t cost ->
  let n := Z.to_nat (g_nvars g) in
  library_samples E k (float_data n (Z.to_nat t) hi) (sampled_floats n (g_size_gen g)) (g_size_gen g) ->
  run_in E a o cost ftol out w = (r, s) ->
  Forall (rows_in DFloat n (float_row n)) (map fst (gens (s_tr s))) /\
  Forall (float_data n (Z.to_nat t) hi) (learns (s_tr s)) /\
  match r with
  | Ok res => best_ok (float_row n) (r_best_ind res)
  | Raise e => library_raises E k (float_data n (Z.to_nat t) hi) (g_size_gen g) e
  end.
Proof. exact (fun X W => @library_run X W). Qed.
Print Assumptions C87_float.

Theorem C87_completes : forall (X W : Type) (E : env X W) A g k hi o0 o cost a ftol out w t,
  construct E A g = Ok o0 -> library_class A = Some k -> most_rows A (Z.to_nat t) = Some hi -> used E o0 o ->
  argsort_ok (e_argsort E) -> unif_ok (e_rng E) -> float_args E A g t cost ->
  let n := Z.to_nat (g_nvars g) in
  library_samples E k (float_data n (Z.to_nat t) hi) (sampled_floats n (g_size_gen g)) (g_size_gen g) ->
  (forall e, ~ library_raises E k (float_data n (Z.to_nat t) hi) (g_size_gen g) e) ->
  exists res s, run_in E a o cost ftol out w = (Ok res, s).
Proof. exact (fun X W => @library_completes X W). Qed.
Print Assumptions C87_completes.

(** SPEDA with l = 2: data sets of two to four rows; a library that refuses more than one row ends the
    run with its exception. *)
Example C87_met : is_ok (construct (mem_env 4 demo_rng) (speda_l 2) (demo_args 4 2 None)) = true /\
  most_rows (speda_l 2) 2 = Some 4 /\ float_args (mem_env 4 demo_rng) (speda_l 2) (demo_args 4 2 None) 2 cost7 /\
  library_samples (mem_env 4 demo_rng) KSPBN (float_data 2 2 4) (sampled_floats 2 4) 4 /\
  (forall e, ~ library_raises (mem_env 4 demo_rng) KSPBN (float_data 2 2 4) 4 e) /\
  (exists o r s, construct (mem_env 4 demo_rng) (speda_l 2) (demo_args 4 2 None) = Ok o /\
     run (mem_env 4 demo_rng) o cost7 ftol_default false tt = (Ok r, s) /\ Nat.leb 1 (List.length (learns (s_tr s))) = true) /\
  exists o s, construct (mem_env 1 demo_rng) (speda_l 2) (demo_args 4 2 None) = Ok o /\
     run (mem_env 1 demo_rng) o cost7 ftol_default false tt = (Raise (UserExn 1), s).
Proof.
  split; [vm_compute; reflexivity|]. split; [reflexivity|]. split; [apply float_args_met; reflexivity|].
  split; [apply mem_floats; auto|]. split; [apply mem_never|].
  split; [apply (ran_ok (mem_env 4 demo_rng) _ cost7 ftol_default tt (fun _ tr => Nat.leb 1 (List.length (learns tr)))); vm_compute; reflexivity|].
  apply raised_ok. vm_compute. reflexivity.
Qed.

(** EBNA (and BOA, whose learner differs): the same for string categories, when the library
    samples each variable among the values its data set has for it.  Values that disappear from
    the training data of a generation are absent from the next. *)
Theorem C87_categories : forall (X W : Type) (E : env X W) g values freq o0 o cost a ftol out w t r s,
  construct E (EBNA values freq) g = Ok o0 -> used E o0 o -> argsort_ok (e_argsort E) -> unif_ok (e_rng E) -> cat_args E g values freq t cost ->
  let n := Z.to_nat (g_nvars g) in
  let D := string_data n values (Z.to_nat t) in
  library_samples E KBN D (sampled_cats n (g_size_gen g)) (g_size_gen g) ->
  run_in E a o cost ftol out w = (r, s) ->
  Forall (cat_pop n values) (map fst (gens (s_tr s))) /\
  Forall D (learns (s_tr s)) /\
  (forall k d g', nth_error (learns (s_tr s)) k = Some d -> nth_error (map fst (gens (s_tr s))) (Datatypes.S k) = Some g' ->
     forall j, j < n -> incl (column j (a_rows g')) (column j (a_rows d))) /\
  match r with
  | Ok res => best_ok (cat_row n values) (r_best_ind res)
  | Raise e => library_raises E KBN D (g_size_gen g) e
  end.
Proof. exact (fun X W => @ebna_run X W). Qed.
Print Assumptions C87_categories.

Example C87_categories_met : cat_args (mem_env 4 demo_rng) (demo_args 3 1 None) demo_values demo_freq 2 cost7 /\
  library_samples (mem_env 4 demo_rng) KBN (string_data 1 demo_values 2) (sampled_cats 1 4) 4 /\
  exists o r s, construct (mem_env 4 demo_rng) (EBNA demo_values demo_freq) (demo_args 3 1 None) = Ok o /\
    run (mem_env 4 demo_rng) o cost7 ftol_default false tt = (Ok r, s) /\ Nat.leb 1 (List.length (learns (s_tr s))) = true.
Proof.
  split; [exact cat_args_met|]. split; [apply mem_cats; auto|].
  apply (ran_ok (mem_env 4 demo_rng) _ cost7 ftol_default tt (fun _ tr => Nat.leb 1 (List.length (learns tr)))). vm_compute. reflexivity.
Qed.

(* ------------------------------ C88 ------------------------------ *)
(** EMNA with at least two variables: the call returns unless numpy's multivariate_normal
    raised on the mean vector and the matrix learned from a selection. *)
Theorem C88_emna : forall (X W : Type) (E : env X W) g lo hi lf uf wn z o0 o cost a ftol out w t r s,
  construct E (EMNA lo hi lf uf wn z) g = Ok o0 -> used E o0 o ->
  argsort_ok (e_argsort E) -> unif_ok (e_rng E) -> float_args E (EMNA lo hi lf uf wn z) g t cost -> (2 <= g_nvars g)%Z ->
  run_in E a o cost ftol out w = (r, s) ->
  let n := Z.to_nat (g_nvars g) in
  Forall (rows_in DFloat n (float_row n)) (map fst (gens (s_tr s))) /\
  Forall (float_data n (Z.to_nat t) (Z.to_nat t)) (learns (s_tr s)) /\
  match r with
  | Ok res => best_ok (float_row n) (r_best_ind res)
  | Raise e => normal_raises E lf uf (float_data n (Z.to_nat t) (Z.to_nat t)) (g_size_gen g) e
  end.
Proof. exact (fun X W => @emna_run X W). Qed.
Print Assumptions C88_emna.

(** The shapes are always those multivariate_normal wants: an n vector and an n by n matrix. *)
Theorem C88_shapes : forall (X W : Type) (E : env X W) lf uf n lo hi size e, (0 <= size)%Z ->
  normal_raises E lf uf (float_data n lo hi) size e ->
  exists mean cov w w', List.length mean = n /\ List.length cov = n /\ Forall (fun r => List.length r = n) cov /\
    g_mvn (e_rng E) mean cov (Z.to_nat size) w = (Raise e, w').
Proof. exact (fun X W => @normal_raises_oracle X W). Qed.
Print Assumptions C88_shapes.

Example C88_met : float_args (mem_env 4 demo_rng) emna0 (demo_args 3 2 None) 2 cost7 /\
  (exists o r s, construct (mem_env 4 demo_rng) emna0 (demo_args 3 2 None) = Ok o /\
    run (mem_env 4 demo_rng) o cost7 ftol_default false tt = (Ok r, s) /\ Nat.leb 1 (List.length (learns (s_tr s))) = true) /\
  exists o s, construct (mem_env 4 no_svd) emna0 (demo_args 3 2 None) = Ok o /\
    run (mem_env 4 no_svd) o cost7 ftol_default false tt = (Raise (UserExn 2), s).
Proof.
  split; [apply float_args_met; reflexivity|].
  split; [apply (ran_ok (mem_env 4 demo_rng) _ cost7 ftol_default tt (fun _ tr => Nat.leb 1 (List.length (learns tr)))); vm_compute; reflexivity|].
  apply raised_ok. vm_compute. reflexivity.
Qed.
