(** C93 and C104 for every call of the cost function, also those of a generation whose evaluation was cut short. *)
From Coq Require Import String List ZArith Reals Lra.
From Flocq Require Import Core IEEE754.BinarySingleNaN.
From Verif Require Import PyBase B64 B64More NdArray Eda EdaInv Spec LoopObs LoopDrawn LoopFail Rand Models ModelThms Sign Stock StockInv StockGauss StockAll
  InitThms FloatSum FloatRun FloatStart FloatRunEvery CallsEvery Demo DemoModels DemoStock DemoRun DemoCalls.
Import ListNotations.
Open Scope R_scope.

(* ------------------------------ C93 ------------------------------ *)
(** What the cost function is asked is a row of the initial generation, or of a sample of the
    model trained on the data sets recorded so far, in order and on nothing else. *)
Theorem C93_asked_every : forall (S W : Type) (c : cfg) (h : hooks S W) ftol out s r tr
  (ran : executes c h ftol out s r tr),
  forall before x v after, tr = before ++ EvCall x v :: after ->
  exists g, In x (a_rows g) /\
    ((learns before = [] /\ match c_init_data c with Some d => g = d | None => exists w w', h_init h w = (Ok g, w') end) \/
     (learns before <> [] /\ exists p w w', trained h (s_pm s) (learns before) p /\ h_sample h p w = (Ok g, w'))).
Proof. exact (fun S W c h ftol out s r tr ran before x v after => @asked_every S W c h ftol out s r tr ran before (EvCall x v) after). Qed.
Print Assumptions C93_asked_every.

(* ------------------------------ C104 ----------------------------- *)
Theorem C104_umdac_calls : forall (X W : Type) (E : env X W) g lo hi lf wn o0 o cost a ftol out w r s t e B0 Zb
  (built : construct E (UMDAc lo hi None lf wn) g = Ok o0)
  (state : used E o0 o)
  (ran : run_in E a o cost ftol out w = (r, s))
  (any_order : forall l, added l (e_sum E l))
  (sums : sum_ok (e_sum E))
  (sorts : argsort_ok (e_argsort E))
  (uniform : unif_ok (e_rng E))
  (draws : gauss_within Zb (e_rng E))
  (draws_one : 1 <= Zb)
  (not_tiny : bpow radix2 (-500) <= B0)
  (selected : int_times (g_size_gen g) (g_alpha g) = Ok t)
  (selected_some : (1 <= t <= 2 ^ 40)%Z)
  (elites : int_times (g_size_gen g) (g_elite_factor g) = Ok e)
  (elites_nonneg : (0 <= e)%Z)
  (lower_finite : isfin lf = true)
  (lower_small : Rabs (B2R lf) <= B0)
  (noise : noise_small wn Zb B0)
  (variables : (1 <= g_nvars g)%Z)
  (no_data : g_init_data g = None)
  (bounds : bounds_ok (Z.to_nat (g_nvars g)) lo hi)
  (bounds_small : forall j x, (j < Z.to_nat (g_nvars g))%nat -> bound_of lo j x \/ bound_of hi j x -> Rabs (B2R x) <= B0),
  forall before x v after, s_tr s = before ++ EvCall x v :: after ->
  let B := B0 * (3 * (1 + Zb)) ^ List.length (learns before) in
  B <= bpow radix2 400 -> Forall (fun c => exists y, c = CF y /\ isfin y = true /\ Rabs (B2R y) <= B) x.
Proof. exact (fun X W => @umdac_calls X W). Qed.
Print Assumptions C104_umdac_calls.

Theorem C104_pbil_calls : forall (X W : Type) (E : env X W) g lo hi lf wn o0 o cost a ftol out w r s e B0 Zb
  (built : construct E (PBIL lo hi None lf wn) g = Ok o0)
  (state : used E o0 o)
  (ran : run_in E a o cost ftol out w = (r, s))
  (any_order : forall l, added l (e_sum E l))
  (sums : sum_ok (e_sum E))
  (sorts : argsort_ok (e_argsort E))
  (uniform : unif_ok (e_rng E))
  (draws : gauss_within Zb (e_rng E))
  (draws_one : 1 <= Zb)
  (not_tiny : bpow radix2 (-500) <= B0)
  (size : (1 <= g_size_gen g <= 2 ^ 40)%Z)
  (elites : int_times (g_size_gen g) (g_elite_factor g) = Ok e)
  (elites_nonneg : (0 <= e)%Z)
  (rate_finite : isfin (num_to_f (g_alpha g)) = true)
  (rate : 0 <= B2R (num_to_f (g_alpha g)) <= 1)
  (lower_finite : isfin lf = true)
  (lower_small : Rabs (B2R lf) <= B0)
  (noise : noise_small wn Zb B0)
  (variables : (1 <= g_nvars g)%Z)
  (no_data : g_init_data g = None)
  (bounds : bounds_ok (Z.to_nat (g_nvars g)) lo hi)
  (bounds_small : forall j x, (j < Z.to_nat (g_nvars g))%nat -> bound_of lo j x \/ bound_of hi j x -> Rabs (B2R x) <= B0),
  forall before x v after, s_tr s = before ++ EvCall x v :: after ->
  let B := B0 * (3 * (3 + Zb)) ^ List.length (learns before) in
  B <= bpow radix2 400 -> Forall (fun c => exists y, c = CF y /\ isfin y = true /\ Rabs (B2R y) <= B) x.
Proof. exact (fun X W => @pbil_calls X W). Qed.
Print Assumptions C104_pbil_calls.

(** Runs from bounds, without data, cut short in the middle of the third generation: two of its
    solutions were asked for; the other hypotheses: C104_bounds_met. *)
Example C104_calls_met : unif_ok (e_rng count_env) /\ gauss_within 2 (e_rng count_env) /\
  (exists o e s, construct count_env (UMDAc (num 0) (num 1) None half (Some (PyF quarter))) (demo_args 6 1 None) = Ok o /\
     run count_env o cut_cost ftol_default false 0%nat = (Raise e, s) /\
     List.length (gens (s_tr s)) = 2%nat /\ List.length (calls (s_tr s)) = 10%nat /\ List.length (learns (s_tr s)) = 2%nat) /\
  (exists o e s, construct count_env (PBIL (num 0) (num 1) None half (Some (PyF quarter))) (demo_args 6 1 None) = Ok o /\
     run count_env o cut_cost ftol_default false 0%nat = (Raise e, s) /\
     List.length (gens (s_tr s)) = 2%nat /\ List.length (calls (s_tr s)) = 10%nat /\ List.length (learns (s_tr s)) = 2%nat).
Proof. exact cut_case. Qed.
