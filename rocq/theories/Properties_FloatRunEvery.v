(** C104: solutions of UMDAc and PBIL stay finite; C68: the noise of a run.  Every run, also the ones that raise. *)
From Coq Require Import String List ZArith Reals Lra.
From Flocq Require Import Core IEEE754.BinarySingleNaN.
From Verif Require Import PyBase B64 B64More NdArray Eda EdaInv Spec LoopFail LoopTrain LoopNoise Rand Models ModelThms Sign Stock StockInv StockGauss StockAll
  InitThms FloatSum FloatRun FloatStart FloatRunEvery Demo DemoModels DemoStock DemoRun.
Import ListNotations.
Open Scope R_scope.

(* ------------------------------ C104 ----------------------------- *)
Theorem C104_umdac_every : forall (X W : Type) (E : env X W) g lo hi vector lf wn o0 o cost a ftol out w r s t e B0 Zb
  (built : construct E (UMDAc lo hi vector lf wn) g = Ok o0)
  (state : used E o0 o)
  (ran : run_in E a o cost ftol out w = (r, s))
  (any_order : forall l, added l (e_sum E l))
  (sums : sum_ok (e_sum E))
  (sorts : argsort_ok (e_argsort E))
  (draws : gauss_within Zb (e_rng E))
  (draws_one : 1 <= Zb)
  (not_tiny : bpow radix2 (-500) <= B0)
  (selected : int_times (g_size_gen g) (g_alpha g) = Ok t)
  (selected_some : (1 <= t <= 2 ^ 40)%Z)
  (elites : int_times (g_size_gen g) (g_elite_factor g) = Ok e)
  (elites_nonneg : (0 <= e)%Z)
  (lower_finite : isfin lf = true)
  (lower_small : Rabs (B2R lf) <= B0)
  (noise : noise_small wn Zb B0)
  (initial : data_ok (Z.to_nat (g_nvars g)) 0 (g_init_data g))
  (first : forall gen vals, nth_error (gens (s_tr s)) 0 = Some (gen, vals) -> cells_in B0 gen),
  forall k gen vals, nth_error (gens (s_tr s)) k = Some (gen, vals) ->
  B0 * (3 * (1 + Zb)) ^ k <= bpow radix2 400 -> cells_in (B0 * (3 * (1 + Zb)) ^ k) gen.
Proof. exact (fun X W => @umdac_finite_every X W). Qed.
Print Assumptions C104_umdac_every.

Theorem C104_pbil_every : forall (X W : Type) (E : env X W) g lo hi vector lf wn o0 o cost a ftol out w r s e B0 Zb
  (built : construct E (PBIL lo hi vector lf wn) g = Ok o0)
  (state : used E o0 o)
  (ran : run_in E a o cost ftol out w = (r, s))
  (any_order : forall l, added l (e_sum E l))
  (sums : sum_ok (e_sum E))
  (sorts : argsort_ok (e_argsort E))
  (draws : gauss_within Zb (e_rng E))
  (draws_one : 1 <= Zb)
  (not_tiny : bpow radix2 (-500) <= B0)
  (size : (1 <= g_size_gen g <= 2 ^ 40)%Z)
  (elites : int_times (g_size_gen g) (g_elite_factor g) = Ok e)
  (elites_nonneg : (0 <= e)%Z)
  (rate_finite : isfin (num_to_f (g_alpha g)) = true)
  (rate : 0 <= B2R (num_to_f (g_alpha g)) <= 1)
  (lower_finite : isfin lf = true)
  (lower_small : Rabs (B2R lf) <= B0)
  (noise : noise_small wn Zb B0)
  (initial : data_ok (Z.to_nat (g_nvars g)) 0 (g_init_data g))
  (first : forall gen vals, nth_error (gens (s_tr s)) 0 = Some (gen, vals) -> cells_in B0 gen),
  forall k gen vals, nth_error (gens (s_tr s)) k = Some (gen, vals) ->
  B0 * (3 * (3 + Zb)) ^ k <= bpow radix2 400 -> cells_in (B0 * (3 * (3 + Zb)) ^ k) gen.
Proof. exact (fun X W => @pbil_finite_every X W). Qed.
Print Assumptions C104_pbil_every.

Theorem C104_umdac_bounds_every : forall (X W : Type) (E : env X W) g lo hi lf wn o0 o cost a ftol out w r s t e B0 Zb
  (built : construct E (UMDAc lo hi None lf wn) g = Ok o0)
  (state : used E o0 o)
  (ran : run_in E a o cost ftol out w = (r, s))
  (any_order : forall l, added l (e_sum E l))
  (sums : sum_ok (e_sum E))
  (sorts : argsort_ok (e_argsort E))
  (uniform : unif_ok (e_rng E))
  (draws : gauss_within Zb (e_rng E))
  (draws_one : 1 <= Zb)
  (not_tiny : bpow radix2 (-500) <= B0)
  (selected : int_times (g_size_gen g) (g_alpha g) = Ok t)
  (selected_some : (1 <= t <= 2 ^ 40)%Z)
  (elites : int_times (g_size_gen g) (g_elite_factor g) = Ok e)
  (elites_nonneg : (0 <= e)%Z)
  (lower_finite : isfin lf = true)
  (lower_small : Rabs (B2R lf) <= B0)
  (noise : noise_small wn Zb B0)
  (variables : (1 <= g_nvars g)%Z)
  (no_data : g_init_data g = None)
  (bounds : bounds_ok (Z.to_nat (g_nvars g)) lo hi)
  (bounds_small : forall j x, (j < Z.to_nat (g_nvars g))%nat -> bound_of lo j x \/ bound_of hi j x -> Rabs (B2R x) <= B0),
  forall k gen vals, nth_error (gens (s_tr s)) k = Some (gen, vals) ->
  B0 * (3 * (1 + Zb)) ^ k <= bpow radix2 400 -> cells_in (B0 * (3 * (1 + Zb)) ^ k) gen.
Proof. exact (fun X W => @umdac_finite_bounds_every X W). Qed.
Print Assumptions C104_umdac_bounds_every.

Theorem C104_pbil_bounds_every : forall (X W : Type) (E : env X W) g lo hi lf wn o0 o cost a ftol out w r s e B0 Zb
  (built : construct E (PBIL lo hi None lf wn) g = Ok o0)
  (state : used E o0 o)
  (ran : run_in E a o cost ftol out w = (r, s))
  (any_order : forall l, added l (e_sum E l))
  (sums : sum_ok (e_sum E))
  (sorts : argsort_ok (e_argsort E))
  (uniform : unif_ok (e_rng E))
  (draws : gauss_within Zb (e_rng E))
  (draws_one : 1 <= Zb)
  (not_tiny : bpow radix2 (-500) <= B0)
  (size : (1 <= g_size_gen g <= 2 ^ 40)%Z)
  (elites : int_times (g_size_gen g) (g_elite_factor g) = Ok e)
  (elites_nonneg : (0 <= e)%Z)
  (rate_finite : isfin (num_to_f (g_alpha g)) = true)
  (rate : 0 <= B2R (num_to_f (g_alpha g)) <= 1)
  (lower_finite : isfin lf = true)
  (lower_small : Rabs (B2R lf) <= B0)
  (noise : noise_small wn Zb B0)
  (variables : (1 <= g_nvars g)%Z)
  (no_data : g_init_data g = None)
  (bounds : bounds_ok (Z.to_nat (g_nvars g)) lo hi)
  (bounds_small : forall j x, (j < Z.to_nat (g_nvars g))%nat -> bound_of lo j x \/ bound_of hi j x -> Rabs (B2R x) <= B0),
  forall k gen vals, nth_error (gens (s_tr s)) k = Some (gen, vals) ->
  B0 * (3 * (3 + Zb)) ^ k <= bpow radix2 400 -> cells_in (B0 * (3 * (3 + Zb)) ^ k) gen.
Proof. exact (fun X W => @pbil_finite_bounds_every X W). Qed.
Print Assumptions C104_pbil_bounds_every.

(** Runs that raise in the fifth generation; the other hypotheses: C104_met, C104_bounds_met. *)
Example C104_every_met :
  let capped := fun (r : row) (w : unit) => match r with CF v :: _ => if np_le v (Z2f 6) then (Ok (NI 7), w) else (Raise ValueError, w) | _ => (Raise ValueError, w) end in
  (exists o, construct env0 (UMDAc (num 0) (num 1) None half (Some (PyF quarter))) (demo_args 6 1 (Some four_points)) = Ok o /\
     fst (run env0 o capped ftol_default false tt) = Raise ValueError /\ three_gens (s_tr (snd (run env0 o capped ftol_default false tt))) = true) /\
  (exists o, construct env0 (PBIL (num 0) (num 1) None half (Some (PyF quarter))) (demo_args 6 1 (Some four_points)) = Ok o /\
     fst (run env0 o capped ftol_default false tt) = Raise ValueError /\ three_gens (s_tr (snd (run env0 o capped ftol_default false tt))) = true).
Proof. split; (eexists; split; [reflexivity|split; vm_compute; reflexivity]). Qed.

(* ------------------------------ C68 ------------------------------ *)
(** A run that trains the model at all does so with one matrix, drawn with the configured scale. *)
Theorem C68_drawn_every : forall (S W : Type) (c : cfg) (h : hooks S W) ftol out s r tr
  (plain : forall g e p, h_data h g e p = (Ok g, p))
  (ran : executes c h ftol out s r tr),
  learns tr = [] \/
  exists wn, noise_cfg c wn /\
    match wn with NoiseMat _ _ d => exists w w', h_normal h (num_to_f (c_w_noise c)) w = (d, w') | _ => True end /\
    each_event (fun before e => match e with
      | EvLearn d => exists before' train elite,
          before = before' ++ [EvSelect train elite] /\
          moved (noise_delta wn) (map fst train) (a_rows d)
      | _ => True
      end) tr.
Proof. exact (fun S W => @training_drawn_every S W). Qed.
Print Assumptions C68_drawn_every.
