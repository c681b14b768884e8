(** C107: the order in which the variables are listed. *)
From Coq Require Import String List ZArith Bool Permutation.
From Verif Require Import PyBase B64 NdArray Eda EdaInv Spec Rand Models Inits Stock LoopMap VarOrder VarRun VarLearn Demo DemoModels DemoStock DemoVar.
Import ListNotations.
Open Scope nat_scope.

(* ------------------------------ C107 ----------------------------- *)
(** The variables, their bounds, their starting vectors, the given first generation, the draws
    and the cost function's argument all in the order [sigma]: both constructors refuse alike, or
    the run is the same with every individual in the order [sigma]. *)
Theorem C107_umdac : forall (X W : Type) (E : env X W) (g' : rng W) sigma (a : args) (cost cost' : row -> W -> res NdArray.num * W)
  (order : Permutation sigma (seq 0 (Z.to_nat (g_nvars a))))
  (draws : draws_follow sigma (e_rng E) g')
  (numbers : forall d, g_init_data a = Some d -> number_matrix d)
  (same_cost : forall r w, List.length r = Z.to_nat (g_nvars a) -> cost' (reorder_row sigma r) w = cost r w)
  lo hi vector lf wn ftol out w,
  mapped_outcome (reorder_row sigma) (umdac_new a lo hi vector lf wn)
    (umdac_new (reorder_args sigma a) (reorder_bound sigma lo) (reorder_bound sigma hi) (option_map (map (reorder sigma fnan)) vector) lf wn)
    (fun o => run E o cost ftol out w) (fun o => run (with_rng E g') o cost' ftol out w).
Proof. exact (fun X W => @umdac_reorder X W). Qed.
Print Assumptions C107_umdac.

Theorem C107_pbil : forall (X W : Type) (E : env X W) (g' : rng W) sigma (a : args) (cost cost' : row -> W -> res NdArray.num * W)
  (order : Permutation sigma (seq 0 (Z.to_nat (g_nvars a))))
  (draws : draws_follow sigma (e_rng E) g')
  (numbers : forall d, g_init_data a = Some d -> number_matrix d)
  (same_cost : forall r w, List.length r = Z.to_nat (g_nvars a) -> cost' (reorder_row sigma r) w = cost r w)
  lo hi vector lf wn ftol out w,
  mapped_outcome (reorder_row sigma) (pbil_new a lo hi vector lf wn)
    (pbil_new (reorder_args sigma a) (reorder_bound sigma lo) (reorder_bound sigma hi) (option_map (map (reorder sigma fnan)) vector) lf wn)
    (fun o => run E o cost ftol out w) (fun o => run (with_rng E g') o cost' ftol out w).
Proof. exact (fun X W => @pbil_reorder X W). Qed.
Print Assumptions C107_pbil.

Theorem C107_umdad : forall (X W : Type) (E : env X W) (g' : rng W) sigma (a : args) (cost cost' : row -> W -> res NdArray.num * W)
  (order : Permutation sigma (seq 0 (Z.to_nat (g_nvars a))))
  (draws : draws_follow sigma (e_rng E) g')
  (numbers : forall d, g_init_data a = Some d -> number_matrix d)
  (same_cost : forall r w, List.length r = Z.to_nat (g_nvars a) -> cost' (reorder_row sigma r) w = cost r w)
  vector lower upper ftol out w
  (one_each : forall p, vector = Some p -> List.length p = Z.to_nat (g_nvars a)),
  mapped_outcome (reorder_row sigma) (umdad_new a vector lower upper)
    (umdad_new (reorder_args sigma a) (option_map (reorder sigma fnan) vector) lower upper)
    (fun o => run E o cost ftol out w) (fun o => run (with_rng E g') o cost' ftol out w).
Proof. exact (fun X W => @umdad_reorder X W). Qed.
Print Assumptions C107_umdad.

(** The two models whose draws depend on the order: what they learn, in doubles, whatever the
    order of summation. *)
Theorem C107_multigauss : forall n sigma (order : Permutation sigma (seq 0 n)) s lower upper d means cov
  (width : a_nc d = n) (numbers : number_matrix d) (one_each : List.length means = n),
  exists r means1 cov1,
    multigauss_learn (b64_ops s) lower upper (a_nc d) (num_col d) (mkMG means cov) = (r, mkMG means1 cov1) /\
    multigauss_learn (b64_ops s) lower upper (a_nc d) (num_col (map_arr (reorder_row sigma) d))
      (mkMG (reorder sigma fnan means) (reorder_cov fnan sigma cov))
    = (r, mkMG (reorder sigma fnan means1) (reorder_cov fnan sigma cov1)).
Proof. exact multigauss_reorder. Qed.
Print Assumptions C107_multigauss.

Theorem C107_categories : forall n sigma (order : Permutation sigma (seq 0 n)) d t t1
  (width : a_nc d = n) (matrix : Forall (fun r => List.length r = n) (a_rows d)) (one_each : List.length t = n)
  (learned : cat_learn d t = (Ok tt, t1)),
  cat_learn (map_arr (reorder_row sigma) d) (reorder sigma None t) = (Ok tt, reorder sigma None t1).
Proof. exact cat_reorder. Qed.
Print Assumptions C107_categories.

Example C107_met : Permutation swap (seq 0 (Z.to_nat (g_nvars (demo_args 3 2 None)))) /\ draws_follow swap one_way other_way /\
  (forall d, g_init_data (demo_args 3 2 None) = Some d -> number_matrix d) /\
  (forall r w, List.length r = 2 -> second_cell (reorder_row swap r) w = cost0 r w) /\
  (exists o r s, umdac_new (demo_args 3 2 None) lo2 hi2 None half None = Ok o /\
     run (demo_env one_way) o cost0 ftol_default false tt = (Ok r, s) /\ apart r = true) /\
  (exists o r s, pbil_new (demo_args 3 2 None) lo2 hi2 None half None = Ok o /\
     run (demo_env one_way) o cost0 ftol_default false tt = (Ok r, s) /\ apart r = true) /\
  (exists o r s, umdad_new (demo_args 3 2 None) (Some [half; Z2f 1]) quarter half = Ok o /\
     run (demo_env one_way) o cost0 ftol_default false tt = (Ok r, s) /\ apart r = true).
Proof.
  split; [exact swap_perm|]. split; [exact demo_follow|]. split; [exact demo_no_data|]. split; [exact demo_costs|].
  split; [|split]; apply (ran_exists _ _ _ _ _ (fun r _ => apart r)); vm_compute; reflexivity.
Qed.
Example C107_learning_met : number_matrix demo_numbers /\ a_nc demo_numbers = 2 /\ a_len demo_numbers = 3 /\
  (exists t, cat_learn demo_cats (cat_new 2) = (Ok tt, t) /\ Forall (fun r => List.length r = 2) (a_rows demo_cats)).
Proof.
  split; [exact demo_number_matrix|]. split; [reflexivity|]. split; [reflexivity|].
  eexists. split; [reflexivity|]. repeat constructor.
Qed.
