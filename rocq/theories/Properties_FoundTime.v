(** How long UMDAd takes to evaluate a given bit string. *)
From Coq Require Import String List ZArith Bool Lia Reals Lra.
From Flocq Require Import Core IEEE754.BinarySingleNaN.
From Verif Require Import PyBase B64 NdArray Eda EdaInv Spec LoopObs LoopInv Rand RandThms Models ModelThms Chance Inits Stock StockInv StockAll
  MaxLik Mean Found GenCount FoundBest FoundTime FoundDemo Demo DemoModels DemoStock.
Import ListNotations.
Open Scope R_scope.

(* ------------------------------ C125 ------------------------------ *)
(** The chance that more than [k] generations are evaluated without the bit string falls
    geometrically in [k], whatever the costs, the bounds and the end of the run. *)
Theorem C125_tail : forall X (E : env X (list Z)) g vector lo hi o0 o t ql qh bs (f : row -> res NdArray.num) a ftol out k,
  tape_rng (e_rng E) -> construct E (UMDAd vector lo hi) g = Ok o0 -> used E o0 o ->
  (forall v, vector = Some v -> List.length v = Z.to_nat (g_nvars g)) ->
  (forall d, g_init_data g = Some d -> bit_arr (Z.to_nat (g_nvars g)) d) ->
  prob lo -> prob hi -> int_times (g_size_gen g) (g_alpha g) = Ok t -> (0 <= t <= 2 ^ 53)%Z ->
  chance (fun x => flt x lo = true) ql -> chance (fun x => flt x hi = true) qh -> List.length bs = Z.to_nat (g_nvars g) ->
  likelihood (all_draws g) (fun v => Nat.ltb k (waits bs (s_tr (snd (run_in E a o (fun r w => (f r, w)) ftol out v)))))
  <= (1 - Rprod (map (fun b : bool => if b then ql else 1 - qh) bs)) ^ (Z.to_nat (g_size_gen g) * k).
Proof. exact (fun X E g vector lo hi o0 o t ql qh bs f a ftol out k Ht Hm Hu Hv Hi Pl Ph Hs Hr Cl Ch Hb =>
  umdad_tail E Ht g vector lo hi o0 o Hm Hu Hv Hi Pl Ph t Hs Hr ql qh Cl Ch bs Hb f a ftol out k). Qed.
Print Assumptions C125_tail.

(** Hence the mean number of generations evaluated before it has a bound without [max_iter]. *)
Theorem C125_generations : forall X (E : env X (list Z)) g vector lo hi o0 o t ql qh bs (f : row -> res NdArray.num) a ftol out,
  tape_rng (e_rng E) -> construct E (UMDAd vector lo hi) g = Ok o0 -> used E o0 o ->
  (forall v, vector = Some v -> List.length v = Z.to_nat (g_nvars g)) ->
  (forall d, g_init_data g = Some d -> bit_arr (Z.to_nat (g_nvars g)) d) ->
  prob lo -> prob hi -> int_times (g_size_gen g) (g_alpha g) = Ok t -> (0 <= t <= 2 ^ 53)%Z ->
  chance (fun x => flt x lo = true) ql -> chance (fun x => flt x hi = true) qh -> List.length bs = Z.to_nat (g_nvars g) ->
  0 < B2R lo -> B2R hi < 1 -> (1 <= g_size_gen g)%Z ->
  mean draws (all_draws g) (fun v => INR (waits bs (s_tr (snd (run_in E a o (fun r w => (f r, w)) ftol out v)))))
  <= / (1 - (1 - Rprod (map (fun b : bool => if b then ql else 1 - qh) bs)) ^ Z.to_nat (g_size_gen g)).
Proof. exact (fun X E g vector lo hi o0 o t ql qh bs f a ftol out Ht Hm Hu Hv Hi Pl Ph Hs Hr Cl Ch Hb Hl Hh Hz =>
  umdad_waits E Ht g vector lo hi o0 o Hm Hu Hv Hi Pl Ph t Hs Hr ql qh Cl Ch bs Hb f Hl Hh Hz a ftol out). Qed.
Print Assumptions C125_generations.

(** And so has the mean number of individuals in them. *)
Theorem C125_individuals : forall X (E : env X (list Z)) g vector lo hi o0 o t ql qh bs (f : row -> res NdArray.num) a ftol out,
  tape_rng (e_rng E) -> construct E (UMDAd vector lo hi) g = Ok o0 -> used E o0 o ->
  (forall v, vector = Some v -> List.length v = Z.to_nat (g_nvars g)) ->
  (forall d, g_init_data g = Some d -> bit_arr (Z.to_nat (g_nvars g)) d) ->
  prob lo -> prob hi -> int_times (g_size_gen g) (g_alpha g) = Ok t -> (0 <= t <= 2 ^ 53)%Z ->
  chance (fun x => flt x lo = true) ql -> chance (fun x => flt x hi = true) qh -> List.length bs = Z.to_nat (g_nvars g) ->
  0 < B2R lo -> B2R hi < 1 -> (1 <= g_size_gen g)%Z ->
  mean draws (all_draws g) (fun v => INR (Z.to_nat (g_size_gen g) * waits bs (s_tr (snd (run_in E a o (fun r w => (f r, w)) ftol out v)))))
  <= INR (Z.to_nat (g_size_gen g)) + / Rprod (map (fun b : bool => if b then ql else 1 - qh) bs).
Proof. exact (fun X E g vector lo hi o0 o t ql qh bs f a ftol out Ht Hm Hu Hv Hi Pl Ph Hs Hr Cl Ch Hb Hl Hh Hz =>
  umdad_pays E Ht g vector lo hi o0 o Hm Hu Hv Hi Pl Ph t Hs Hr ql qh Cl Ch bs Hb f Hl Hh Hz a ftol out). Qed.
Print Assumptions C125_individuals.

(** [waits] counts the generations before the first that holds the bit string, or all when none does. *)
Example C125_meaning : forall bs tr, let k := waits bs tr in
  (forall i gv, (i < k)%nat -> nth_error (gens tr) i = Some gv -> ~ In (bits bs) (a_rows (fst gv))) /\
  ((k < List.length (gens tr))%nat -> exists gv, nth_error (gens tr) k = Some gv /\ In (bits bs) (a_rows (fst gv))) /\
  (k <= List.length (gens tr))%nat.
Proof. exact waits_spec. Qed.
(** The hypotheses hold in a concrete case, in which a tape of zeros makes the run evaluate 11 in
    its first generation and never 01 in its three generations. *)
Example C125_case :
  tape_rng (e_rng tape_env) /\ prob quarter /\ prob three_quarters /\ 0 < B2R quarter /\ B2R three_quarters < 1 /\
  int_times (g_size_gen tape_args) (g_alpha tape_args) = Ok 2%Z /\
  exists o r s, construct tape_env (UMDAd None quarter three_quarters) tape_args = Ok o /\ used tape_env o o /\
    run tape_env o (fun r w => (Ok (NF (first_bit r)), w)) (Z2f 0) false (repeat 0%Z (all_draws tape_args)) = (Ok r, s) /\
    (Nat.eqb (waits [true; true] (s_tr s)) 0 && Nat.eqb (waits [false; true] (s_tr s)) 3)%bool = true.
Proof. exact waits_met. Qed.

(* ------------------------------ C06 ------------------------------ *)
(** The budget holds for runs that fail as well. *)
Theorem C06_every : forall S W (c : cfg) (h : hooks S W) ftol out s,
  s_tr s = [] -> (List.length (gens (s_tr (snd (minimize c h ftol out s)))) <= 1 + Z.to_nat (c_max_iter c - 1))%nat.
Proof. exact (fun S W c h ftol out s => budget_kept c h ftol out s). Qed.
Print Assumptions C06_every.
