(** How likely UMDAd finds the best solution. *)
From Coq Require Import String List ZArith Bool Lia Reals Lra.
From Flocq Require Import Core IEEE754.BinarySingleNaN.
From Verif Require Import PyBase B64 NdArray Eda EdaInv Spec LoopObs LoopInv TopK Rand RandThms Models ModelThms Chance Inits Stock StockInv StockAll
  MaxLik Mean Found FoundBest FoundDemo Answers Demo DemoModels DemoStock.
Import ListNotations.
Open Scope R_scope.

(* ------------------------------ C124 ------------------------------ *)
(** Whatever the costs and whatever was run before: a run rarely makes all its generations without
    evaluating a given bit string. *)
Theorem C124_rare : forall X (E : env X (list Z)) g vector lo hi o0 o t ql qh bs (f : row -> res NdArray.num) a ftol out,
  tape_rng (e_rng E) -> construct E (UMDAd vector lo hi) g = Ok o0 -> used E o0 o ->
  (forall v, vector = Some v -> List.length v = Z.to_nat (g_nvars g)) ->
  (forall d, g_init_data g = Some d -> bit_arr (Z.to_nat (g_nvars g)) d) ->
  prob lo -> prob hi -> int_times (g_size_gen g) (g_alpha g) = Ok t -> (0 <= t <= 2 ^ 53)%Z ->
  chance (fun x => flt x lo = true) ql -> chance (fun x => flt x hi = true) qh -> List.length bs = Z.to_nat (g_nvars g) ->
  likelihood (all_draws g) (fun v => let tr := s_tr (snd (run_in E a o (fun r w => (f r, w)) ftol out v)) in
     Nat.eqb (List.length (gens tr)) (S (Z.to_nat (g_max_iter g - 1))) && negb (evaluates bs tr))
  <= (1 - Rprod (map (fun b : bool => if b then ql else 1 - qh) bs)) ^ (Z.to_nat (g_size_gen g) * Z.to_nat (g_max_iter g - 1)).
Proof. exact (fun X E g vector lo hi o0 o t ql qh bs f a ftol out Ht Hm Hu Hv Hi Pl Ph Hs Hr Cl Ch Hb =>
  umdad_misses E Ht g vector lo hi o0 o Hm Hu Hv Hi Pl Ph t Hs ql qh Cl Ch bs Hb f a ftol out Hr). Qed.
Print Assumptions C124_rare.

(** Hence, if nothing fails and [dead_iter] does not stop it, it evaluates the bit string with at
    least this probability. *)
Theorem C124_found : forall X (E : env X (list Z)) g vector lo hi o0 o t ql qh bs (f : row -> res NdArray.num) a ftol out,
  tape_rng (e_rng E) -> argsort_ok (e_argsort E) -> construct E (UMDAd vector lo hi) g = Ok o0 -> used E o0 o ->
  (forall v, vector = Some v -> List.length v = Z.to_nat (g_nvars g)) ->
  (forall d, g_init_data g = Some d -> bit_arr (Z.to_nat (g_nvars g)) d) -> (forall d, g_init_data g = Some d -> a_rows d <> []) ->
  (g_parallelize g = false \/ ((cpu_count (e_pool E) <= Z.to_nat (g_size_gen g))%nat /\
                               forall d, g_init_data g = Some d -> (cpu_count (e_pool E) <= a_len d)%nat)) ->
  prob lo -> prob hi -> (1 <= g_size_gen g)%Z -> int_times (g_size_gen g) (g_alpha g) = Ok t -> (1 <= t <= 2 ^ 53)%Z ->
  chance (fun x => flt x lo = true) ql -> chance (fun x => flt x hi = true) qh -> List.length bs = Z.to_nat (g_nvars g) ->
  (forall r, bit_row (Z.to_nat (g_nvars g)) r -> exists v, f r = Ok v /\ not_nan v) ->
  (g_dead_iter g <= 0)%Z \/ (g_max_iter g <= g_dead_iter g)%Z ->
  1 - (1 - Rprod (map (fun b : bool => if b then ql else 1 - qh) bs)) ^ (Z.to_nat (g_size_gen g) * Z.to_nat (g_max_iter g - 1))
  <= likelihood (all_draws g) (fun v => evaluates bs (s_tr (snd (run_in E a o (fun r w => (f r, w)) ftol out v)))).
Proof. exact (fun X E g vector lo hi o0 o t ql qh bs f a ftol out Ht Hso Hm Hu Hv Hi Hj Hc Pl Ph Hz Hs Hr Cl Ch Hb Hf Hd =>
  umdad_finds E Ht g vector lo hi o0 o Hm Hu Hv Hi Pl Ph t Hs ql qh Cl Ch bs Hb f Hso Hf Hz Hj Hc Hr Hd a ftol out). Qed.
Print Assumptions C124_found.

(** And if no other bit string is cheaper, it returns the least cost there is with that probability. *)
Theorem C124_best : forall X (E : env X (list Z)) g vector lo hi o0 o t ql qh bs (F : row -> f64) a ftol out,
  tape_rng (e_rng E) -> argsort_ok (e_argsort E) -> construct E (UMDAd vector lo hi) g = Ok o0 -> used E o0 o ->
  (forall v, vector = Some v -> List.length v = Z.to_nat (g_nvars g)) ->
  (forall d, g_init_data g = Some d -> bit_arr (Z.to_nat (g_nvars g)) d) -> (forall d, g_init_data g = Some d -> a_rows d <> []) ->
  (g_parallelize g = false \/ ((cpu_count (e_pool E) <= Z.to_nat (g_size_gen g))%nat /\
                               forall d, g_init_data g = Some d -> (cpu_count (e_pool E) <= a_len d)%nat)) ->
  prob lo -> prob hi -> (1 <= g_size_gen g)%Z -> int_times (g_size_gen g) (g_alpha g) = Ok t -> (1 <= t <= 2 ^ 53)%Z ->
  chance (fun x => flt x lo = true) ql -> chance (fun x => flt x hi = true) qh -> List.length bs = Z.to_nat (g_nvars g) ->
  (forall r, bit_row (Z.to_nat (g_nvars g)) r -> isnan (F r) = false) ->
  (forall r, bit_row (Z.to_nat (g_nvars g)) r -> fle (F (bits bs)) (F r) = true) ->
  (g_dead_iter g <= 0)%Z \/ (g_max_iter g <= g_dead_iter g)%Z -> feq ftol (Z2f 0) = true ->
  1 - (1 - Rprod (map (fun b : bool => if b then ql else 1 - qh) bs)) ^ (Z.to_nat (g_size_gen g) * Z.to_nat (g_max_iter g - 1))
  <= likelihood (all_draws g) (fun v => match fst (run_in E a o (fun r w => (Ok (NF (F r)), w)) ftol out v) with
                                        | Ok r => feq (r_best_cost r) (F (bits bs))
                                        | Raise _ => false
                                        end).
Proof. exact (fun X E g vector lo hi o0 o t ql qh bs F a ftol out Ht Hso Hm Hu Hv Hi Hj Hc Pl Ph Hz Hs Hr Cl Ch Hb Hn Hmin Hd Hft =>
  umdad_optimum E Ht g vector lo hi o0 o Hm Hu Hv Hi Pl Ph t Hs ql qh Cl Ch bs Hb F Hso Hn Hz Hj Hc Hr Hd Hmin a ftol out Hft). Qed.
Print Assumptions C124_best.

(** With bounds strictly between 0 and 1 that probability tends to 1: for every [eps] there is a
    number of generations, the same for all cost functions, from which on it is at least [1 - eps]. *)
Theorem C124_limit : forall lo hi bs (size : nat) eps,
  prob lo -> prob hi -> flt lo hi = true -> 0 < B2R lo -> B2R hi < 1 -> (1 <= size)%nat -> 0 < eps ->
  exists M, forall X (E : env X (list Z)) g vector o0 o t (F : row -> f64) a ftol out,
  tape_rng (e_rng E) -> argsort_ok (e_argsort E) ->
  construct E (UMDAd vector lo hi) g = Ok o0 -> used E o0 o ->
  (forall v, vector = Some v -> List.length v = Z.to_nat (g_nvars g)) ->
  (forall d, g_init_data g = Some d -> bit_arr (Z.to_nat (g_nvars g)) d /\ a_rows d <> []) ->
  g_parallelize g = false \/ ((cpu_count (e_pool E) <= size)%nat /\ forall d, g_init_data g = Some d -> (cpu_count (e_pool E) <= a_len d)%nat) ->
  int_times (g_size_gen g) (g_alpha g) = Ok t -> (1 <= t <= 2 ^ 53)%Z ->
  List.length bs = Z.to_nat (g_nvars g) -> Z.to_nat (g_size_gen g) = size ->
  (forall r, bit_row (Z.to_nat (g_nvars g)) r -> isnan (F r) = false /\ fle (F (bits bs)) (F r) = true) ->
  feq ftol (Z2f 0) = true ->
  (M <= Z.to_nat (g_max_iter g - 1))%nat -> (g_dead_iter g <= 0)%Z \/ (g_max_iter g <= g_dead_iter g)%Z ->
  1 - eps <= likelihood (all_draws g) (fun v => match fst (run_in E a o (fun r w => (Ok (NF (F r)), w)) ftol out v) with
                                               | Ok r => feq (r_best_cost r) (F (bits bs))
                                               | Raise _ => false
                                               end).
Proof. exact umdad_converges. Qed.
Print Assumptions C124_limit.

(** [evaluates] says what it should, and the hypotheses hold in a concrete case in which a tape of
    zeros makes the run evaluate 11 and not 01. *)
Example C124_meaning : forall bs tr, evaluates bs tr = true <-> exists g vals, In (g, vals) (gens tr) /\ In (bits bs) (a_rows g).
Proof. exact evaluates_spec. Qed.
Example C124_case :
  tape_rng (e_rng tape_env) /\ argsort_ok (e_argsort tape_env) /\ prob quarter /\ prob three_quarters /\ flt quarter three_quarters = true /\
  0 < B2R quarter /\ B2R three_quarters < 1 /\
  int_times (g_size_gen tape_args) (g_alpha tape_args) = Ok 2%Z /\ (g_max_iter tape_args <= g_dead_iter tape_args)%Z /\
  (forall r, bit_row 2 r -> isnan (first_bit r) = false /\ fle (first_bit (bits [false; true])) (first_bit r) = true) /\
  exists o r s, construct tape_env (UMDAd None quarter three_quarters) tape_args = Ok o /\ used tape_env o o /\
    run tape_env o (fun r w => (Ok (NF (first_bit r)), w)) (Z2f 0) false (repeat 0%Z (all_draws tape_args)) = (Ok r, s) /\
    (Nat.eqb (List.length (gens (s_tr s))) 3 && evaluates [true; true] (s_tr s) && negb (evaluates [false; true] (s_tr s)))%bool = true.
Proof. exact found_met. Qed.

(* ------------------------------ C16 ------------------------------ *)
(** Every cost a run works with is one the cost function returned for that very individual, whether
    the run completes or fails. *)
Theorem C16_answered : forall S W (c : cfg) (h : hooks S W) ftol out s,
  s_tr s = [] ->
  Forall (fun rv => exists w w', h_cost h (fst rv) w = (Ok (snd rv), w')) (calls (s_tr (snd (minimize c h ftol out s)))).
Proof. exact (fun S W c h ftol out s => run_answers c h ftol out s). Qed.
Print Assumptions C16_answered.
