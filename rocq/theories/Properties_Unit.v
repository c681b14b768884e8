(** C134: the unit in which the variables are measured. *)
From Coq Require Import String List ZArith Bool.
From Verif Require Import PyBase B64 NdArray Eda EdaInv Spec Rand Models Inits Stock LoopMap LoopKeep VarOrder Scale Guard UnitFloat UnitStat UnitRun UnitThms UnitLow Demo DemoModels DemoStock DemoVar DemoUnit.
Import ListNotations.
Open Scope nat_scope.

(* ------------------------------ C134 ----------------------------- *)
(** Measure every variable in a unit [2^e] times smaller, that is multiply by [2^e] the limits or
    the vector, the initial individuals, the smallest deviation and the noise, and let the cost function
    read the new unit. Then the run returns the old one's best cost, number of evaluations and
    history, and every individual is the old one times [2^e], exactly: no rounding differs. *)
Theorem C134_umdac : forall (X W : Type) (E : env X W) e (a : args) (cost cost' : row -> W -> res NdArray.num * W)
  (unit_of : (-50 <= e <= 50)%Z) (variables : (0 <= g_nvars a)%Z)
  (draws : ordinary_draws (e_rng E)) (sums : fixed_order (e_sum E))
  (data : forall d, g_init_data a = Some d -> ordinary_matrix d)
  (same_cost : forall r w, List.length r = Z.to_nat (g_nvars a) -> forallb moderate_cell r = true -> cost' (scaled_row e r) w = cost r w)
  lo hi vector lf wn ftol out w
  (noise : ordinary_noise wn) (vector_ok : moderate_vector vector = true) (lo_ok : moderate_bound lo = true) (hi_ok : moderate_bound hi = true)
  (lf_ok : moderate lf = true),
  unit_outcome e (Z.to_nat (g_nvars a)) (umdac_new a lo hi vector lf wn)
    (umdac_new (unit_args e a) (scaled_bound e lo) (scaled_bound e hi) (scaled_vector e vector) (scaled e lf) (scaled_noise e wn))
    (fun o => run E o cost ftol out w) (fun o => run E o cost' ftol out w).
Proof. exact (fun X W => @umdac_unit X W). Qed.
Print Assumptions C134_umdac.

Theorem C134_pbil : forall (X W : Type) (E : env X W) e (a : args) (cost cost' : row -> W -> res NdArray.num * W)
  (unit_of : (-50 <= e <= 50)%Z) (variables : (0 <= g_nvars a)%Z)
  (draws : ordinary_draws (e_rng E)) (sums : fixed_order (e_sum E))
  (data : forall d, g_init_data a = Some d -> ordinary_matrix d)
  (same_cost : forall r w, List.length r = Z.to_nat (g_nvars a) -> forallb moderate_cell r = true -> cost' (scaled_row e r) w = cost r w)
  lo hi vector lf wn ftol out w
  (noise : ordinary_noise wn) (vector_ok : moderate_vector vector = true) (lo_ok : moderate_bound lo = true) (hi_ok : moderate_bound hi = true)
  (lf_ok : moderate lf = true) (alpha_ok : moderate (num_to_f (g_alpha a)) = true),
  unit_outcome e (Z.to_nat (g_nvars a)) (pbil_new a lo hi vector lf wn)
    (pbil_new (unit_args e a) (scaled_bound e lo) (scaled_bound e hi) (scaled_vector e vector) (scaled e lf) (scaled_noise e wn))
    (fun o => run E o cost ftol out w) (fun o => run E o cost' ftol out w).
Proof. exact (fun X W => @pbil_unit X W). Qed.
Print Assumptions C134_pbil.

(** The smallest deviation is an absolute number: leave it alone when the unit changes, as anyone
    does who relies on its default, and the run finds another cost. *)
Theorem C134_default_deviation_refuted : exists (X W : Type) (E : env X W) e (a : args) (cost cost' : row -> W -> res NdArray.num * W) lo hi o o' r s r' s' w,
  (-50 <= e <= 50)%Z /\ (0 <= g_nvars a)%Z /\ ordinary_draws (e_rng E) /\ fixed_order (e_sum E) /\ g_init_data a = None /\
  (forall r w, List.length r = Z.to_nat (g_nvars a) -> forallb moderate_cell r = true -> cost' (scaled_row e r) w = cost r w) /\
  moderate_bound lo = true /\ moderate_bound hi = true /\
  umdac_new a lo hi None half None = Ok o /\ umdac_new (unit_args e a) (scaled_bound e lo) (scaled_bound e hi) None half None = Ok o' /\
  run E o cost ftol_default false w = (Ok r, s) /\ ordinary (s_tr s) /\ run E o' cost' ftol_default false w = (Ok r', s') /\
  r_best_cost r' <> r_best_cost r.
Proof. exact low_refuted. Qed.
Print Assumptions C134_default_deviation_refuted.

(** So is the noise: everything else in the new unit, but the default noise left alone. *)
Theorem C134_default_noise_refuted : exists (X W : Type) (E : env X W) e (a : args) (cost cost' : row -> W -> res NdArray.num * W) lo hi o o' r s r' s' w,
  (-50 <= e <= 50)%Z /\ (0 <= g_nvars a)%Z /\ ordinary_draws (e_rng E) /\ fixed_order (e_sum E) /\ g_init_data a = None /\
  (forall r w, List.length r = Z.to_nat (g_nvars a) -> forallb moderate_cell r = true -> cost' (scaled_row e r) w = cost r w) /\
  moderate_bound lo = true /\ moderate_bound hi = true /\
  umdac_new a lo hi None half (Some (PyF half)) = Ok o /\
  umdac_new (unit_args e a) (scaled_bound e lo) (scaled_bound e hi) None (scaled e half) (Some (PyF half)) = Ok o' /\
  run E o cost ftol_default false w = (Ok r, s) /\ ordinary (s_tr s) /\ run E o' cost' ftol_default false w = (Ok r', s') /\
  r_best_cost r' <> r_best_cost r.
Proof. exact noise_refuted. Qed.
Print Assumptions C134_default_noise_refuted.

Example C134_met : ordinary_draws (e_rng (demo_env row_rng)) /\ fixed_order (e_sum (demo_env row_rng)) /\
  (forall d, g_init_data two_args = Some d -> ordinary_matrix d) /\
  (forall r w, List.length r = 2 -> forallb moderate_cell r = true -> cost_eighths (scaled_row 3 r) w = cost_sum r w) /\
  moderate_bound lo2 = true /\ moderate_bound hi2 = true /\ moderate half = true /\ moderate (num_to_f (g_alpha two_args)) = true /\ ordinary_noise (Some (PyF half)) /\
  (exists o r s, umdac_new two_args lo2 hi2 None half (Some (PyF half)) = Ok o /\
     run (demo_env row_rng) o cost_sum ftol_default false tt = (Ok r, s) /\ two_cells r (s_tr s) = true /\ ordinary (s_tr s)) /\
  (exists o r s, pbil_new two_args lo2 hi2 None half (Some (PyF half)) = Ok o /\
     run (demo_env row_rng) o cost_sum ftol_default false tt = (Ok r, s) /\ two_cells r (s_tr s) = true /\ ordinary (s_tr s)).
Proof.
  split; [exact row_rng_ordinary|]. split; [exact seq_fixed|]. split; [exact two_no_data|]. split; [exact demo_same_cost|].
  do 4 (split; [vm_compute; reflexivity|]). split; [split; vm_compute; reflexivity|]. split; apply two_cells_run; vm_compute; reflexivity.
Qed.
