(** How likely UMDAcat loses the best solution for good. *)
From Coq Require Import String List ZArith Bool Lia Reals Lra.
From Flocq Require Import Core IEEE754.BinarySingleNaN.
From Verif Require Import PyBase B64 NdArray Eda EdaInv Spec LoopObs LoopInv TopK Rand RandThms Models ModelThms CatThms FloatSum Chance Inits InitThms Stock StockInv StockAll
  StockCat Trunc MaxLik Mean Found FoundBest FoundDemo Lost LostBits LostCat LostCatDemo Demo DemoModels DemoStock.
Import ListNotations.
Open Scope R_scope.

(* ------------------------------ C127 ------------------------------ *)
(** Whatever way a run ends, every value of a variable that it evaluates is one that the variable
    has in the first generation. *)
Theorem C127_first : forall X W (E : env X W) g values freq o0 o cost a ftol out w r s,
  construct E (UMDAcat values freq) g = Ok o0 -> used E o0 o -> argsort_ok (e_argsort E) -> unif_ok (e_rng E) ->
  (1 <= g_nvars g)%Z -> cats_ok values freq -> (0 <= g_size_gen g <= 2 ^ 53)%Z -> factor (g_alpha g) ->
  (forall d, g_init_data g = Some d -> cat_pop (Z.to_nat (g_nvars g)) values d) ->
  run_in E a o cost ftol out w = (r, s) ->
  forall gv rest gv' j x, gens (s_tr s) = gv :: rest -> In gv' rest -> (j < Z.to_nat (g_nvars g))%nat ->
  In x (column j (a_rows (fst gv'))) -> In x (column j (a_rows (fst gv))).
Proof. exact umdacat_first. Qed.
Print Assumptions C127_first.

(** So the chance of ever evaluating a solution has a bound that only the declared frequencies of
    its values and the size of the first generation enter. *)
Theorem C127_lost : forall X (E : env X (list Z)) g values freq o0 d x ps,
  cyclic_rng (e_rng E) -> construct E (UMDAcat values freq) g = Ok o0 -> argsort_ok (e_argsort E) ->
  (1 <= g_nvars g)%Z -> cats_ok values freq -> (0 <= g_size_gen g <= 2 ^ 53)%Z -> factor (g_alpha g) -> g_init_data g = None ->
  d <= / 4 -> List.length x = Z.to_nat (g_nvars g) -> declared values freq d x ps ->
  exists qs, Forall2 (fun p q => 0 <= q <= 1 /\ Rabs (q - B2R p) <= 2 * d + bpow radix2 (-25)) ps qs /\
  forall o (cost : row -> list Z -> res NdArray.num * list Z) a ftol out N, used E o0 o -> (Z.to_nat (g_size_gen g) * Z.to_nat (g_nvars g) <= N)%nat ->
  likelihood N (fun v => evaluates_row x (s_tr (snd (run_in E a o cost ftol out v))))
  <= Rprod (map (fun q => 1 - (1 - q) ^ Z.to_nat (g_size_gen g)) qs).
Proof. exact (fun X E g values freq o0 d x ps Hcy Hm Ha Hn Hc Hs Hf Hi Hd Hx Hp => umdacat_loses E Hcy g values freq o0 Hm Ha Hn Hc Hs Hf Hi d x ps Hd Hx Hp). Qed.
Print Assumptions C127_lost.

(** Hence a run does not return the cost of that solution more often, if no other has this cost. *)
Theorem C127_best : forall X (E : env X (list Z)) g values freq o0 d x ps (F : row -> f64),
  cyclic_rng (e_rng E) -> construct E (UMDAcat values freq) g = Ok o0 -> argsort_ok (e_argsort E) ->
  (1 <= g_nvars g)%Z -> cats_ok values freq -> (0 <= g_size_gen g <= 2 ^ 53)%Z -> factor (g_alpha g) -> g_init_data g = None ->
  d <= / 4 -> List.length x = Z.to_nat (g_nvars g) -> declared values freq d x ps ->
  (forall r, cat_row (Z.to_nat (g_nvars g)) values r -> feq (F r) (F x) = true -> r = x) ->
  exists qs, Forall2 (fun p q => 0 <= q <= 1 /\ Rabs (q - B2R p) <= 2 * d + bpow radix2 (-25)) ps qs /\
  forall o a ftol out N, used E o0 o -> (Z.to_nat (g_size_gen g) * Z.to_nat (g_nvars g) <= N)%nat ->
  likelihood N (fun v => match fst (run_in E a o (fun r w => (Ok (NF (F r)), w)) ftol out v) with
                         | Ok r => feq (r_best_cost r) (F x)
                         | Raise _ => false
                         end)
  <= Rprod (map (fun q => 1 - (1 - q) ^ Z.to_nat (g_size_gen g)) qs).
Proof. exact (fun X E g values freq o0 d x ps F Hcy Hm Ha Hn Hc Hs Hf Hi Hd Hx Hp => umdacat_fails E Hcy g values freq o0 Hm Ha Hn Hc Hs Hf Hi d x ps Hd Hx Hp F). Qed.
Print Assumptions C127_best.

(** The hypotheses hold in a concrete case: two variables with two strings each, declared with
    frequency 1/2, and a cost that only "b", "y" reaches.  A tape of zeros makes the first generation
    consist of "a", "x"; the run makes three generations and never evaluates "b", "y". *)
Example C127_case :
  cyclic_rng (e_rng cyclic_env) /\ argsort_ok (e_argsort cyclic_env) /\ cats_ok strings2 halves2 /\ factor (g_alpha tape_args) /\
  declared strings2 halves2 0 target_by [DemoModels.half; DemoModels.half] /\
  (forall r, cat_row 2 strings2 r -> feq (only_by r) (only_by target_by) = true -> r = target_by) /\
  exists o r s, construct cyclic_env (UMDAcat strings2 halves2) tape_args = Ok o /\ used cyclic_env o o /\
    run cyclic_env o (fun r w => (Ok (NF (only_by r)), w)) (Z2f 0) false (repeat 0%Z 24) = (Ok r, s) /\
    (evaluates_row [CS "a"; CS "x"] (s_tr s) && negb (evaluates_row target_by (s_tr s)) && Nat.eqb (List.length (gens (s_tr s))) 3)%bool = true.
Proof. exact lost_cat_met. Qed.
