(** How likely UMDAd loses the best solution for good. *)
From Coq Require Import String List ZArith Bool Lia Reals Lra.
From Flocq Require Import Core IEEE754.BinarySingleNaN.
From Verif Require Import PyBase B64 NdArray Eda EdaInv Spec LoopObs LoopInv Rand RandThms Models ModelThms Chance Inits Stock StockInv StockAll
  MaxLik Mean Found FoundBest FoundDemo Lost LostBits LostDemo Demo DemoModels DemoStock.
Import ListNotations.
Open Scope R_scope.

(* ------------------------------ C126 ------------------------------ *)
(** With a lower bound of 0 every 1 of a bit string has to turn up in the first generation, and with
    an upper bound of 1 every 0; so the chance of ever evaluating the string has a bound that more
    generations do not improve. *)
Theorem C126_lost : forall X (E : env X (list Z)) g vector lo hi o0 o t qs bs (f : row -> res NdArray.num) a ftol out,
  tape_rng (e_rng E) -> construct E (UMDAd vector lo hi) g = Ok o0 -> used E o0 o ->
  (forall v, vector = Some v -> List.length v = Z.to_nat (g_nvars g)) -> g_init_data g = None ->
  prob lo -> prob hi -> int_times (g_size_gen g) (g_alpha g) = Ok t -> (0 <= t <= 2 ^ 53)%Z -> (0 <= g_size_gen g)%Z ->
  Forall2 (fun p q => chance (fun x => flt x p = true) q) (match vector with None => repeat (lit 1 (-1)) (Z.to_nat (g_nvars g)) | Some v => v end) qs ->
  List.length bs = Z.to_nat (g_nvars g) ->
  likelihood (all_draws g) (fun v => evaluates bs (s_tr (snd (run_in E a o (fun r w => (f r, w)) ftol out v))))
  <= Rprod (map (fun bq : bool * R => if (if fst bq then feq lo (Z2f 0) else feq hi fone)
                                      then 1 - (if fst bq then 1 - snd bq else snd bq) ^ Z.to_nat (g_size_gen g) else 1) (combine bs qs)).
Proof. exact (fun X E g vector lo hi o0 o t qs bs f a ftol out Ht Hm Hu Hv Hi Pl Ph Hs Hr Hz Hq Hb =>
  umdad_loses E Ht g vector lo hi o0 o Hm Hu Hv Hi Pl Ph t Hs Hr Hz f qs Hq bs Hb a ftol out). Qed.
Print Assumptions C126_lost.

(** With the default vector the first generation has each value with probability 1/2. *)
Theorem C126_default : forall X (E : env X (list Z)) g lo hi o0 o t bs (f : row -> res NdArray.num) a ftol out,
  tape_rng (e_rng E) -> construct E (UMDAd None lo hi) g = Ok o0 -> used E o0 o -> g_init_data g = None ->
  prob lo -> prob hi -> int_times (g_size_gen g) (g_alpha g) = Ok t -> (0 <= t <= 2 ^ 53)%Z -> (0 <= g_size_gen g)%Z ->
  List.length bs = Z.to_nat (g_nvars g) ->
  likelihood (all_draws g) (fun v => evaluates bs (s_tr (snd (run_in E a o (fun r w => (f r, w)) ftol out v))))
  <= (1 - (1 / 2) ^ Z.to_nat (g_size_gen g)) ^ List.length (filter (fun b : bool => if b then feq lo (Z2f 0) else feq hi fone) bs).
Proof. exact umdad_loses_half. Qed.
Print Assumptions C126_default.

(** Hence a run does not return the cost of that string more often, if no other has this cost:
    whatever [max_iter], the best solution stays out of reach with a positive probability. *)
Theorem C126_best : forall X (E : env X (list Z)) g lo hi o0 o t bs (F : row -> f64) a ftol out,
  tape_rng (e_rng E) -> construct E (UMDAd None lo hi) g = Ok o0 -> used E o0 o -> g_init_data g = None ->
  prob lo -> prob hi -> int_times (g_size_gen g) (g_alpha g) = Ok t -> (0 <= t <= 2 ^ 53)%Z -> (0 <= g_size_gen g)%Z ->
  List.length bs = Z.to_nat (g_nvars g) ->
  (forall r, bit_row (Z.to_nat (g_nvars g)) r -> feq (F r) (F (bits bs)) = true -> r = bits bs) ->
  likelihood (all_draws g) (fun v => match fst (run_in E a o (fun r w => (Ok (NF (F r)), w)) ftol out v) with
                                     | Ok r => feq (r_best_cost r) (F (bits bs))
                                     | Raise _ => false
                                     end)
  <= (1 - (1 / 2) ^ Z.to_nat (g_size_gen g)) ^ List.length (filter (fun b : bool => if b then feq lo (Z2f 0) else feq hi fone) bs).
Proof. exact umdad_fails_half. Qed.
Print Assumptions C126_best.

(** The hypotheses hold in a concrete case: bounds 0 and 1, four individuals of two bits, a cost
    that only 01 reaches.  A tape of zeros makes the first generation consist of ones, and 01 is
    never evaluated. *)
Example C126_case :
  tape_rng (e_rng tape_env) /\ prob (Z2f 0) /\ prob fone /\ int_times (g_size_gen tape_args) (g_alpha tape_args) = Ok 2%Z /\
  List.length (filter (fun b : bool => if b then feq (Z2f 0) (Z2f 0) else feq fone fone) [false; true]) = 2%nat /\
  (forall r, bit_row 2 r -> feq (one_best r) (one_best (bits [false; true])) = true -> r = bits [false; true]) /\
  exists o r s, construct tape_env (UMDAd None (Z2f 0) fone) tape_args = Ok o /\ used tape_env o o /\
    run tape_env o (fun r w => (Ok (NF (one_best r)), w)) (Z2f 0) false (repeat 0%Z (all_draws tape_args)) = (Ok r, s) /\
    (evaluates [true; true] (s_tr s) && negb (evaluates [false; true] (s_tr s)))%bool = true.
Proof. exact lost_met. Qed.
