(** C104: solutions of UMDAc and PBIL stay finite; C68: the noise of a run. *)
From Coq Require Import String List ZArith Reals Lra.
From Flocq Require Import Core IEEE754.BinarySingleNaN.
From Verif Require Import PyBase B64 B64More NdArray Eda EdaInv Spec LoopTrain LoopNoise Rand Models ModelThms Sign Stock StockInv StockGauss StockAll
  InitThms FloatSum FloatRun FloatStart Demo DemoModels DemoStock DemoRun.
Import ListNotations.
Open Scope R_scope.

(* ------------------------------ C104 ----------------------------- *)
(** [cells_in B g]: every cell of [g] is a finite float of magnitude at most [B]. *)
Theorem C104_umdac : forall (X W : Type) (E : env X W) g lo hi vector lf wn o0 o cost a ftol out w r s t e B0 Zb
  (built : construct E (UMDAc lo hi vector lf wn) g = Ok o0)
  (state : used E o0 o)
  (ran : run_in E a o cost ftol out w = (Ok r, s))
  (any_order : forall l, added l (e_sum E l))
  (sums : sum_ok (e_sum E))
  (sorts : argsort_ok (e_argsort E))
  (draws : gauss_within Zb (e_rng E))
  (draws_one : 1 <= Zb)
  (not_tiny : bpow radix2 (-500) <= B0)
  (selected : int_times (g_size_gen g) (g_alpha g) = Ok t)
  (selected_some : (1 <= t <= 2 ^ 40)%Z)
  (elites : int_times (g_size_gen g) (g_elite_factor g) = Ok e)
  (elites_nonneg : (0 <= e)%Z)
  (lower_finite : isfin lf = true)
  (lower_small : Rabs (B2R lf) <= B0)
  (noise : noise_small wn Zb B0)
  (initial : data_ok (Z.to_nat (g_nvars g)) 0 (g_init_data g))
  (first : forall gen vals, nth_error (gens (s_tr s)) 0 = Some (gen, vals) -> cells_in B0 gen),
  forall k gen vals, nth_error (gens (s_tr s)) k = Some (gen, vals) ->
  B0 * (3 * (1 + Zb)) ^ k <= bpow radix2 400 -> cells_in (B0 * (3 * (1 + Zb)) ^ k) gen.
Proof. exact (fun X W => @umdac_finite X W). Qed.
Print Assumptions C104_umdac.

Theorem C104_pbil : forall (X W : Type) (E : env X W) g lo hi vector lf wn o0 o cost a ftol out w r s e B0 Zb
  (built : construct E (PBIL lo hi vector lf wn) g = Ok o0)
  (state : used E o0 o)
  (ran : run_in E a o cost ftol out w = (Ok r, s))
  (any_order : forall l, added l (e_sum E l))
  (sums : sum_ok (e_sum E))
  (sorts : argsort_ok (e_argsort E))
  (draws : gauss_within Zb (e_rng E))
  (draws_one : 1 <= Zb)
  (not_tiny : bpow radix2 (-500) <= B0)
  (size : (1 <= g_size_gen g <= 2 ^ 40)%Z)
  (elites : int_times (g_size_gen g) (g_elite_factor g) = Ok e)
  (elites_nonneg : (0 <= e)%Z)
  (rate_finite : isfin (num_to_f (g_alpha g)) = true)
  (rate : 0 <= B2R (num_to_f (g_alpha g)) <= 1)
  (lower_finite : isfin lf = true)
  (lower_small : Rabs (B2R lf) <= B0)
  (noise : noise_small wn Zb B0)
  (initial : data_ok (Z.to_nat (g_nvars g)) 0 (g_init_data g))
  (first : forall gen vals, nth_error (gens (s_tr s)) 0 = Some (gen, vals) -> cells_in B0 gen),
  forall k gen vals, nth_error (gens (s_tr s)) k = Some (gen, vals) ->
  B0 * (3 * (3 + Zb)) ^ k <= bpow radix2 400 -> cells_in (B0 * (3 * (3 + Zb)) ^ k) gen.
Proof. exact (fun X W => @pbil_finite X W). Qed.
Print Assumptions C104_pbil.

(** The same from the bounds an optimiser is constructed with, when neither a vector of means nor initial
    data are given. *)
Theorem C104_umdac_bounds : forall (X W : Type) (E : env X W) g lo hi lf wn o0 o cost a ftol out w r s t e B0 Zb
  (built : construct E (UMDAc lo hi None lf wn) g = Ok o0)
  (state : used E o0 o)
  (ran : run_in E a o cost ftol out w = (Ok r, s))
  (any_order : forall l, added l (e_sum E l))
  (sums : sum_ok (e_sum E))
  (sorts : argsort_ok (e_argsort E))
  (uniform : unif_ok (e_rng E))
  (draws : gauss_within Zb (e_rng E))
  (draws_one : 1 <= Zb)
  (not_tiny : bpow radix2 (-500) <= B0)
  (selected : int_times (g_size_gen g) (g_alpha g) = Ok t)
  (selected_some : (1 <= t <= 2 ^ 40)%Z)
  (elites : int_times (g_size_gen g) (g_elite_factor g) = Ok e)
  (elites_nonneg : (0 <= e)%Z)
  (lower_finite : isfin lf = true)
  (lower_small : Rabs (B2R lf) <= B0)
  (noise : noise_small wn Zb B0)
  (variables : (1 <= g_nvars g)%Z)
  (no_data : g_init_data g = None)
  (bounds : bounds_ok (Z.to_nat (g_nvars g)) lo hi)
  (bounds_small : forall j x, (j < Z.to_nat (g_nvars g))%nat -> bound_of lo j x \/ bound_of hi j x -> Rabs (B2R x) <= B0),
  forall k gen vals, nth_error (gens (s_tr s)) k = Some (gen, vals) ->
  B0 * (3 * (1 + Zb)) ^ k <= bpow radix2 400 -> cells_in (B0 * (3 * (1 + Zb)) ^ k) gen.
Proof. exact (fun X W => @umdac_finite_bounds X W). Qed.
Print Assumptions C104_umdac_bounds.

Theorem C104_pbil_bounds : forall (X W : Type) (E : env X W) g lo hi lf wn o0 o cost a ftol out w r s e B0 Zb
  (built : construct E (PBIL lo hi None lf wn) g = Ok o0)
  (state : used E o0 o)
  (ran : run_in E a o cost ftol out w = (Ok r, s))
  (any_order : forall l, added l (e_sum E l))
  (sums : sum_ok (e_sum E))
  (sorts : argsort_ok (e_argsort E))
  (uniform : unif_ok (e_rng E))
  (draws : gauss_within Zb (e_rng E))
  (draws_one : 1 <= Zb)
  (not_tiny : bpow radix2 (-500) <= B0)
  (size : (1 <= g_size_gen g <= 2 ^ 40)%Z)
  (elites : int_times (g_size_gen g) (g_elite_factor g) = Ok e)
  (elites_nonneg : (0 <= e)%Z)
  (rate_finite : isfin (num_to_f (g_alpha g)) = true)
  (rate : 0 <= B2R (num_to_f (g_alpha g)) <= 1)
  (lower_finite : isfin lf = true)
  (lower_small : Rabs (B2R lf) <= B0)
  (noise : noise_small wn Zb B0)
  (variables : (1 <= g_nvars g)%Z)
  (no_data : g_init_data g = None)
  (bounds : bounds_ok (Z.to_nat (g_nvars g)) lo hi)
  (bounds_small : forall j x, (j < Z.to_nat (g_nvars g))%nat -> bound_of lo j x \/ bound_of hi j x -> Rabs (B2R x) <= B0),
  forall k gen vals, nth_error (gens (s_tr s)) k = Some (gen, vals) ->
  B0 * (3 * (3 + Zb)) ^ k <= bpow radix2 400 -> cells_in (B0 * (3 * (3 + Zb)) ^ k) gen.
Proof. exact (fun X W => @pbil_finite_bounds X W). Qed.
Print Assumptions C104_pbil_bounds.

(** The other hypotheses: C104_met. *)
Example C104_bounds_met : unif_ok (e_rng env0) /\ bounds_ok 1 (num 0) (num 1) /\
  (forall j x, (j < 1)%nat -> bound_of (num 0) j x \/ bound_of (num 1) j x -> Rabs (B2R x) <= 1) /\
  (exists o r s, construct env0 (UMDAc (num 0) (num 1) None half (Some (PyF quarter))) (demo_args 3 1 None) = Ok o /\
     run env0 o cost7 ftol_default false tt = (Ok r, s) /\ Nat.eqb (List.length (gens (s_tr s))) 3 = true) /\
  (exists o r s, construct env0 (PBIL (num 0) (num 1) None half (Some (PyF quarter))) (demo_args 3 1 None) = Ok o /\
     run env0 o cost7 ftol_default false tt = (Ok r, s) /\ Nat.eqb (List.length (gens (s_tr s))) 3 = true).
Proof. exact bounds_case. Qed.

(** Out of that range solutions are lost, though all those of the first generation are finite. *)
Theorem C104_range_refuted : exists (E : env nat unit) g lo hi lf o cost r s g0 v0 g1 v1 rest,
  construct E (UMDAc lo hi None lf None) g = Ok o /\
  run E o cost ftol_default false tt = (Ok r, s) /\ gens (s_tr s) = (g0, v0) :: (g1, v1) :: rest /\
  Forall (Forall (fun c => exists v, c = CF v /\ isfin v = true)) (a_rows g0) /\
  Exists (Exists (fun c => exists v, c = CF v /\ isfin v = false)) (a_rows g1).
Proof. exact finite_lost. Qed.
Print Assumptions C104_range_refuted.

Example C104_met : (forall l, added l (e_sum env0 l)) /\ sum_ok (e_sum env0) /\ argsort_ok (e_argsort env0) /\ gauss_within 2 (e_rng env0) /\
  bpow radix2 (-500) <= 1 /\ int_times 4 (PyF half) = Ok 2%Z /\ isfin half = true /\ Rabs (B2R half) <= 1 /\
  noise_small (Some (PyF quarter)) 2 1 /\ data_ok 1 0 (Some four_points) /\
  (exists o r s, construct env0 (UMDAc (num 0) (num 1) None half (Some (PyF quarter))) (demo_args 3 1 (Some four_points)) = Ok o /\
     run env0 o cost7 ftol_default false tt = (Ok r, s) /\ three_gens (s_tr s) = true) /\
  (exists o r s, construct env0 (PBIL (num 0) (num 1) None half (Some (PyF quarter))) (demo_args 3 1 (Some four_points)) = Ok o /\
     run env0 o cost7 ftol_default false tt = (Ok r, s) /\ three_gens (s_tr s) = true) /\
  (forall g, unitb g = true -> cells_in 1 g) /\ 1 * (3 * (3 + 2)) ^ 90 <= bpow radix2 400.
Proof. exact finite_case. Qed.

(* ------------------------------ C68 ------------------------------ *)
(** One matrix, drawn with the configured scale, serves every training of the run. *)
Theorem C68_drawn : forall (S W : Type) (c : cfg) (h : hooks S W) ftol out s r tr
  (plain : forall g e p, h_data h g e p = (Ok g, p))
  (ran : completes c h ftol out s r tr),
  exists wn, noise_cfg c wn /\
    match wn with NoiseMat _ _ d => exists w w', h_normal h (num_to_f (c_w_noise c)) w = (d, w') | _ => True end /\
    each_event (fun before e => match e with
      | EvLearn d => exists before' train elite,
          before = before' ++ [EvSelect train elite] /\
          moved (noise_delta wn) (map fst train) (a_rows d)
      | _ => True
      end) tr.
Proof. exact (fun S W => @training_noise S W). Qed.
Print Assumptions C68_drawn.

Example C68_met : (forall g e p, h_data demo_hooks g e p = (Ok g, p)) /\
  exists r tr, completes demo_noise_cfg demo_hooks ftol_default true demo_start r tr /\ Nat.eqb (List.length (learns tr)) 4 = true.
Proof. split; [reflexivity|]. apply (run_check_completes demo_noise_cfg demo_hooks _ _ demo_start (fun _ tr => Nat.eqb (List.length (learns tr)) 4)); vm_compute; reflexivity. Qed.
