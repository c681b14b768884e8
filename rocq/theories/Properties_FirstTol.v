(** What a run guarantees for any tolerance [ftol] and costs of any sign. *)
From Coq Require Import String List ZArith Bool Lia Reals Lra.
From Flocq Require Import Core IEEE754.BinarySingleNaN.
From Verif Require Import PyBase B64 NdArray Eda EdaInv Spec LoopObs Rand RandThms Models ModelThms FloatSum Chance Inits InitThms Stock StockInv StockAll
  StockCat StockMore MaxLik Mean Found FoundBest FoundDemo UniformChance BoxChance LostCat LostCatDemo FirstChance FirstTol FirstTolDemo Demo DemoModels DemoStock DemoExt.
Import ListNotations.
Open Scope R_scope.

(* ------------------------------ C132 ------------------------------ *)
(** The cost a run returns lies within one factor 1 + ftol per later generation above each
    non-negative cost it saw, and within one factor of each non-positive one, also when costs of
    both signs occur; [inflated ftol k v] multiplies [v] by 1 + ftol [k] times, in floats. *)
Theorem C132_drift : forall (S W : Type) (c : cfg) (h : hooks S W) ftol out (s : st S W) r tr,
  completes c h ftol out s r tr -> tol_ok ftol ->
  forall k gen vals v, nth_error (gens tr) k = Some (gen, vals) -> In v vals -> isnan v = false ->
    (fle (Z2f 0) v = true -> fle (r_best_cost r) (inflated ftol (List.length (gens tr) - 1 - k) v) = true) /\
    (fle v (Z2f 0) = true -> fle (r_best_cost r) (Z2f 0) = true /\ fle (fmul (r_best_cost r) (fadd fone ftol)) v = true).
Proof. exact drift_any. Qed.
Print Assumptions C132_drift.

(** Hence runs started from bounds rarely return a cost above all those in a box by more than
    the tolerance explains ([above_tol])... *)
Theorem C132_box : forall X (E : env X (list Z)) A g lo hi (o0 o : optimiser X) M bx sides (F : row -> f64) (top : f64) a ftol out t,
  tape_rng (e_rng E) -> construct E A g = Ok o0 -> used E o0 o -> start_bounds A = Some (lo, hi) -> g_init_data g = None ->
  full_bound (Z.to_nat (g_nvars g)) lo -> full_bound (Z.to_nat (g_nvars g)) hi ->
  List.length bx = Z.to_nat (g_nvars g) -> List.length sides = Z.to_nat (g_nvars g) ->
  (forall j l h a b s, bound_of lo j l -> bound_of hi j h -> nth_error bx j = Some (a, b) -> nth_error sides j = Some s -> side_fits M l h a b s) ->
  tol_ok ftol -> (forall r, in_box bx r = true -> fle (F r) top = true) ->
  likelihood (Z.to_nat (g_size_gen g) * Z.to_nat (g_nvars g)) (fun v =>
    match fst (run_in E a o (fun r w => (Ok (NF (F r)), w)) ftol out (v ++ t)) with
    | Ok r => above_tol ftol (Z.to_nat (g_max_iter g - 1)) top (r_best_cost r)
    | Raise _ => false
    end) <= (1 - Rprod sides) ^ Z.to_nat (g_size_gen g).
Proof. exact best_rare_tol. Qed.
Print Assumptions C132_box.

(** ...runs of UMDAd one above that of a given bit string... *)
Theorem C132_bits : forall X (E : env X (list Z)) g vector lo hi (o0 o : optimiser X) qs bs (F : row -> f64) a ftol out t,
  tape_rng (e_rng E) -> construct E (UMDAd vector lo hi) g = Ok o0 -> used E o0 o ->
  (forall v, vector = Some v -> List.length v = Z.to_nat (g_nvars g)) -> g_init_data g = None ->
  Forall2 (fun p q => chance (fun x => flt x p = true) q) (match vector with None => repeat (lit 1 (-1)) (Z.to_nat (g_nvars g)) | Some v => v end) qs ->
  List.length bs = Z.to_nat (g_nvars g) -> tol_ok ftol -> isnan (F (bits bs)) = false ->
  likelihood (Z.to_nat (g_size_gen g) * Z.to_nat (g_nvars g)) (fun v =>
    match fst (run_in E a o (fun r w => (Ok (NF (F r)), w)) ftol out (v ++ t)) with
    | Ok r => above_tol ftol (Z.to_nat (g_max_iter g - 1)) (F (bits bs)) (r_best_cost r)
    | Raise _ => false
    end) <= (1 - Rprod (map (fun bq : bool * R => if fst bq then snd bq else 1 - snd bq) (combine bs qs))) ^ Z.to_nat (g_size_gen g).
Proof. exact bits_rare_tol. Qed.
Print Assumptions C132_bits.

(** ...and runs of UMDAcat and EBNA one above that of a given choice of categories. *)
Theorem C132_categories : forall X (E : env X (list Z)) A g values freq (o0 : optimiser X) d x ps,
  cyclic_rng (e_rng E) -> construct E A g = Ok o0 -> declared_values A = Some (values, freq) -> (1 <= g_nvars g)%Z -> cats_ok values freq -> g_init_data g = None ->
  d <= / 4 -> List.length x = Z.to_nat (g_nvars g) -> LostCat.declared values freq d x ps ->
  exists qs, Forall2 (fun p q => 0 <= q <= 1 /\ Rabs (q - B2R p) <= 2 * d + bpow radix2 (-25)) ps qs /\
  forall o (F : row -> f64) a ftol out t, used E o0 o -> tol_ok ftol -> isnan (F x) = false ->
    likelihood (Z.to_nat (g_size_gen g) * Z.to_nat (g_nvars g)) (fun v =>
      match fst (run_in E a o (fun r w => (Ok (NF (F r)), w)) ftol out (v ++ t)) with
      | Ok r => above_tol ftol (Z.to_nat (g_max_iter g - 1)) (F x) (r_best_cost r)
      | Raise _ => false
      end) <= (1 - Rprod qs) ^ Z.to_nat (g_size_gen g).
Proof. exact cats_rare_tol. Qed.
Print Assumptions C132_categories.

(** With all generations of UMDAd: the cost returned is that of any bit string, or better, up to
    the tolerance, with at least this probability. *)
Theorem C132_found : forall X (E : env X (list Z)) g vector lo hi o0 o t ql qh bs (F : row -> f64) a ftol out,
  tape_rng (e_rng E) -> argsort_ok (e_argsort E) -> construct E (UMDAd vector lo hi) g = Ok o0 -> used E o0 o ->
  (forall v, vector = Some v -> List.length v = Z.to_nat (g_nvars g)) ->
  (forall d, g_init_data g = Some d -> bit_arr (Z.to_nat (g_nvars g)) d) -> (forall d, g_init_data g = Some d -> a_rows d <> []) ->
  (g_parallelize g = false \/ ((cpu_count (e_pool E) <= Z.to_nat (g_size_gen g))%nat /\
                               forall d, g_init_data g = Some d -> (cpu_count (e_pool E) <= a_len d)%nat)) ->
  prob lo -> prob hi -> (1 <= g_size_gen g)%Z -> int_times (g_size_gen g) (g_alpha g) = Ok t -> (1 <= t <= 2 ^ 53)%Z ->
  chance (fun x => flt x lo = true) ql -> chance (fun x => flt x hi = true) qh -> List.length bs = Z.to_nat (g_nvars g) ->
  tol_ok ftol -> (forall r, bit_row (Z.to_nat (g_nvars g)) r -> isnan (F r) = false) ->
  (g_dead_iter g <= 0)%Z \/ (g_max_iter g <= g_dead_iter g)%Z ->
  1 - (1 - Rprod (map (fun b : bool => if b then ql else 1 - qh) bs)) ^ (Z.to_nat (g_size_gen g) * Z.to_nat (g_max_iter g - 1))
  <= likelihood (all_draws g) (fun v => match fst (run_in E a o (fun r w => (Ok (NF (F r)), w)) ftol out v) with
                                        | Ok r => negb (above_tol ftol (Z.to_nat (g_max_iter g - 1)) (F (bits bs)) (r_best_cost r))
                                        | Raise _ => false
                                        end).
Proof. exact umdad_optimum_tol. Qed.
Print Assumptions C132_found.

(** The hypotheses hold with the default tolerance 1e-8 and a cost of both signs: a tape of zeros
    makes every bit 1, and the cost of 00 is not reached; one of 2^52 makes every bit 0. *)
Example C132_met : tape_rng (e_rng tape_env) /\ tol_ok ftol_default /\ feq ftol_default (Z2f 0) = false /\
  fle (Z2f 0) (signed_bit (bits [false; false])) = false /\ fle (Z2f 0) (signed_bit (bits [true; true])) = true /\
  (forall r, bit_row 2 r -> isnan (signed_bit r) = false) /\
  exists o r s r' s', construct tape_env (UMDAd None quarter three_quarters) tape_args = Ok o /\ used tape_env o o /\
    run tape_env o (fun r w => (Ok (NF (signed_bit r)), w)) ftol_default false (repeat 0%Z (all_draws tape_args)) = (Ok r, s) /\
    above_tol ftol_default 2 (signed_bit (bits [false; false])) (r_best_cost r) = true /\
    run tape_env o (fun r w => (Ok (NF (signed_bit r)), w)) ftol_default false (repeat (2 ^ 52)%Z (all_draws tape_args)) = (Ok r', s') /\
    above_tol ftol_default 2 (signed_bit (bits [false; false])) (r_best_cost r') = false.
Proof. exact first_tol_met. Qed.
