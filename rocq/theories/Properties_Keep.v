(** C111: variables that the cost function ignores. *)
From Coq Require Import String List ZArith Bool.
From Verif Require Import PyBase B64 NdArray Eda EdaInv Spec Rand Models Inits Stock LoopMap LoopKeep VarOrder VarKeep KeepRun KeepLearn Demo DemoModels DemoStock DemoVar DemoKeep.
Import ListNotations.
Open Scope nat_scope.

(* ------------------------------ C111 ----------------------------- *)
(** A cost function that looks only at the variables [sigma]: whenever the run on all [n]
    variables returns, the run on the variables [sigma] alone, with the same draws for them,
    returns the same best cost, evaluation count and history, and its individuals are those of the
    first run without the ignored variables. *)
Theorem C111_umdac : forall (X W : Type) (E : env X W) (g' : rng W) sigma (a : args) (cost cost' : row -> W -> res NdArray.num * W)
  (variables : Forall (fun j => j < Z.to_nat (g_nvars a)) sigma) (some : sigma <> [])
  (draws : draws_of (Z.to_nat (g_nvars a)) sigma (e_rng E) g')
  (numbers : forall d, g_init_data a = Some d -> number_matrix d)
  (ignores : forall r w, List.length r = Z.to_nat (g_nvars a) -> cost' (only_row (Z.to_nat (g_nvars a)) sigma r) w = cost r w)
  lo hi vector lf wn ftol out w,
  let n := Z.to_nat (g_nvars a) in
  kept_outcome (only_row n sigma) (List.length sigma) (umdac_new a lo hi vector lf wn)
    (umdac_new (only_args sigma a) (only_bound n sigma lo) (only_bound n sigma hi) (option_map (map (only n sigma fnan)) vector) lf wn)
    (fun o => run E o cost ftol out w) (fun o => run (with_rng E g') o cost' ftol out w).
Proof. exact (fun X W => @umdac_kept X W). Qed.
Print Assumptions C111_umdac.

Theorem C111_pbil : forall (X W : Type) (E : env X W) (g' : rng W) sigma (a : args) (cost cost' : row -> W -> res NdArray.num * W)
  (variables : Forall (fun j => j < Z.to_nat (g_nvars a)) sigma) (some : sigma <> [])
  (draws : draws_of (Z.to_nat (g_nvars a)) sigma (e_rng E) g')
  (numbers : forall d, g_init_data a = Some d -> number_matrix d)
  (ignores : forall r w, List.length r = Z.to_nat (g_nvars a) -> cost' (only_row (Z.to_nat (g_nvars a)) sigma r) w = cost r w)
  lo hi vector lf wn ftol out w,
  let n := Z.to_nat (g_nvars a) in
  kept_outcome (only_row n sigma) (List.length sigma) (pbil_new a lo hi vector lf wn)
    (pbil_new (only_args sigma a) (only_bound n sigma lo) (only_bound n sigma hi) (option_map (map (only n sigma fnan)) vector) lf wn)
    (fun o => run E o cost ftol out w) (fun o => run (with_rng E g') o cost' ftol out w).
Proof. exact (fun X W => @pbil_kept X W). Qed.
Print Assumptions C111_pbil.

Theorem C111_umdad : forall (X W : Type) (E : env X W) (g' : rng W) sigma (a : args) (cost cost' : row -> W -> res NdArray.num * W)
  (variables : Forall (fun j => j < Z.to_nat (g_nvars a)) sigma) (some : sigma <> [])
  (draws : draws_of (Z.to_nat (g_nvars a)) sigma (e_rng E) g')
  (numbers : forall d, g_init_data a = Some d -> number_matrix d)
  (ignores : forall r w, List.length r = Z.to_nat (g_nvars a) -> cost' (only_row (Z.to_nat (g_nvars a)) sigma r) w = cost r w)
  vector lower upper ftol out w
  (one_each : forall p, vector = Some p -> List.length p = Z.to_nat (g_nvars a)),
  let n := Z.to_nat (g_nvars a) in
  kept_outcome (only_row n sigma) (List.length sigma) (umdad_new a vector lower upper)
    (umdad_new (only_args sigma a) (option_map (only n sigma fnan) vector) lower upper)
    (fun o => run E o cost ftol out w) (fun o => run (with_rng E g') o cost' ftol out w).
Proof. exact (fun X W => @umdad_kept X W). Qed.
Print Assumptions C111_umdad.

(** What the two remaining models learn about the variables [sigma] is what they learn from those
    variables alone: the entries of the means and of the covariance matrix, the tables. *)
Theorem C111_multigauss : forall n sigma (variables : Forall (fun j => j < n) sigma) s lower upper d means cov means1 M
  (distinct : NoDup sigma) (several : 2 <= List.length sigma) (width : a_nc d = n) (numbers : number_matrix d) (one_each : List.length means = n)
  (learned : multigauss_learn (b64_ops s) lower upper n (num_col d) (mkMG means cov) = (Ok tt, mkMG means1 (CovMat M)))
  means' cov' (one_each' : List.length means' = List.length sigma),
  multigauss_learn (b64_ops s) lower upper (List.length sigma) (num_col (keep_arr (only_row n sigma) (List.length sigma) d)) (mkMG means' cov') =
    (Ok tt, mkMG (map (fun j => nth j means1 fnan) sigma) (CovMat (map (fun i => nth i (map (fun r => map (fun j => nth j r fnan) sigma) M) []) sigma))).
Proof. exact multigauss_kept. Qed.
Print Assumptions C111_multigauss.

Theorem C111_categories : forall n sigma (variables : Forall (fun j => j < n) sigma) d t t1
  (width : a_nc d = n) (matrix : Forall (fun r => List.length r = n) (a_rows d)) (one_each : List.length t = n)
  (learned : cat_learn d t = (Ok tt, t1)) t' (one_each' : List.length t' = List.length sigma),
  cat_learn (keep_arr (only_row n sigma) (List.length sigma) d) t' = (Ok tt, map (fun j => nth j t1 None) sigma).
Proof. exact cat_kept. Qed.
Print Assumptions C111_categories.

Example C111_met : Forall (fun j => j < Z.to_nat (g_nvars (demo_args 3 3 None))) two_of /\ two_of <> [] /\
  draws_of 3 two_of three_rng two_rng /\
  (forall d, g_init_data (demo_args 3 3 None) = Some d -> number_matrix d) /\
  (forall r w, List.length r = 3 -> second_cell (only_row 3 two_of r) w = cost0 r w) /\
  (exists o r s, umdac_new (demo_args 3 3 None) lo3 hi3 None half None = Ok o /\
     run (demo_env three_rng) o cost0 ftol_default false tt = (Ok r, s) /\ three_cells r = true) /\
  (exists o r s, pbil_new (demo_args 3 3 None) lo3 hi3 None half None = Ok o /\
     run (demo_env three_rng) o cost0 ftol_default false tt = (Ok r, s) /\ three_cells r = true) /\
  (exists o r s, umdad_new (demo_args 3 3 None) (Some [half; Z2f 1; quarter]) quarter half = Ok o /\
     run (demo_env three_rng) o cost0 ftol_default false tt = (Ok r, s) /\ three_cells r = true).
Proof.
  split; [exact two_of_three|]. split; [discriminate|]. split; [exact demo_draws_of|]. split; [exact three_no_data|]. split; [exact demo_cost_of|].
  split; [|split]; apply (ran_exists _ _ _ _ _ (fun r _ => three_cells r)); vm_compute; reflexivity.
Qed.
Example C111_learning_met : Forall (fun j => j < 3) two_of /\ NoDup two_of /\ number_matrix three_numbers /\
  (exists means1 M, multigauss_learn (b64_ops (e_sum (demo_env three_rng))) fzero (Z2f 10) 3 (num_col three_numbers) (mkMG [fnan; fnan; fnan] (CovScalar fnan))
     = (Ok tt, mkMG means1 (CovMat M))) /\
  (exists t, cat_learn demo_cats (cat_new 2) = (Ok tt, t) /\ Forall (fun r => List.length r = 2) (a_rows demo_cats)).
Proof.
  split; [exact two_of_three|]. split; [repeat constructor; cbn; intuition discriminate|]. split; [exact three_number_matrix|].
  split; [eexists _, _; reflexivity|]. eexists. split; [reflexivity|]. repeat constructor.
Qed.
