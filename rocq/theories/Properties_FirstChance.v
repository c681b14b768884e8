(** What the first generation alone guarantees of runs of UMDAd, UMDAcat and EBNA. *)
From Coq Require Import String List ZArith Bool Lia Reals Lra.
From Flocq Require Import Core IEEE754.BinarySingleNaN.
From Verif Require Import PyBase B64 NdArray Eda EdaInv Spec LoopObs Rand RandThms Models ModelThms FloatSum Chance Inits InitThms Stock StockInv StockAll
  StockCat StockMore MaxLik Mean Found FoundBest FoundDemo LostCat LostCatDemo FirstChance FirstDemo Demo DemoModels DemoStock DemoExt.
Import ListNotations.
Open Scope R_scope.

(* ------------------------------ C131 ------------------------------ *)
(** UMDAd: the individuals of the first generation are independent and have each bit with the
    chance its probability in [vector] gives, so a bit string is rarely missing... *)
Theorem C131_bits : forall X (E : env X (list Z)) g vector lo hi (o0 o : optimiser X) qs bs cost a ftol out t,
  tape_rng (e_rng E) -> construct E (UMDAd vector lo hi) g = Ok o0 -> used E o0 o ->
  (forall v, vector = Some v -> List.length v = Z.to_nat (g_nvars g)) -> g_init_data g = None ->
  Forall2 (fun p q => chance (fun x => flt x p = true) q) (match vector with None => repeat (lit 1 (-1)) (Z.to_nat (g_nvars g)) | Some v => v end) qs ->
  List.length bs = Z.to_nat (g_nvars g) ->
  likelihood (Z.to_nat (g_size_gen g) * Z.to_nat (g_nvars g)) (fun v =>
    match gens (s_tr (snd (run_in E a o cost ftol out (v ++ t)))) with
    | [] => false
    | (g0, _) :: _ => negb (existsb (row_is (bits bs)) (a_rows g0))
    end) <= (1 - Rprod (map (fun bq : bool * R => if fst bq then snd bq else 1 - snd bq) (combine bs qs))) ^ Z.to_nat (g_size_gen g).
Proof. exact (fun X E g vector lo hi o0 o qs bs cost a ftol out t Ht Hm Hu Hv Hi Hq Hb =>
  bits_first_rare E Ht g vector lo hi o0 o Hm Hu Hv Hi qs Hq bs Hb cost a ftol out t). Qed.
Print Assumptions C131_bits.

(** ...and a run that ends normally rarely returns a cost above that of the bit string, whatever
    numbers [t] are drawn after the first generation. *)
Theorem C131_bits_best : forall X (E : env X (list Z)) g vector lo hi (o0 o : optimiser X) qs bs (F : row -> f64) a ftol out t,
  tape_rng (e_rng E) -> construct E (UMDAd vector lo hi) g = Ok o0 -> used E o0 o ->
  (forall v, vector = Some v -> List.length v = Z.to_nat (g_nvars g)) -> g_init_data g = None ->
  Forall2 (fun p q => chance (fun x => flt x p = true) q) (match vector with None => repeat (lit 1 (-1)) (Z.to_nat (g_nvars g)) | Some v => v end) qs ->
  List.length bs = Z.to_nat (g_nvars g) -> feq ftol (Z2f 0) = true ->
  likelihood (Z.to_nat (g_size_gen g) * Z.to_nat (g_nvars g)) (fun v =>
    match fst (run_in E a o (fun r w => (Ok (NF (F r)), w)) ftol out (v ++ t)) with
    | Ok r => flt (F (bits bs)) (r_best_cost r)
    | Raise _ => false
    end) <= (1 - Rprod (map (fun bq : bool * R => if fst bq then snd bq else 1 - snd bq) (combine bs qs))) ^ Z.to_nat (g_size_gen g).
Proof. exact (fun X E g vector lo hi o0 o qs bs F a ftol out t Ht Hm Hu Hv Hi Hq Hb =>
  bits_best_rare E Ht g vector lo hi o0 o Hm Hu Hv Hi qs Hq bs Hb F a ftol out t). Qed.
Print Assumptions C131_bits_best.

(** With the default vector every bit string has probability 2^-n. *)
Theorem C131_default : forall X (E : env X (list Z)) g lo hi (o0 o : optimiser X) bs,
  tape_rng (e_rng E) -> construct E (UMDAd None lo hi) g = Ok o0 -> used E o0 o -> g_init_data g = None ->
  List.length bs = Z.to_nat (g_nvars g) ->
  (forall (cost : row -> list Z -> res NdArray.num * list Z) a ftol out t,
     likelihood (Z.to_nat (g_size_gen g) * Z.to_nat (g_nvars g)) (fun v => first_without (bits bs) (s_tr (snd (run_in E a o cost ftol out (v ++ t)))))
     <= (1 - (1 / 2) ^ Z.to_nat (g_nvars g)) ^ Z.to_nat (g_size_gen g)) /\
  (forall (F : row -> f64) a ftol out t, feq ftol (Z2f 0) = true ->
     likelihood (Z.to_nat (g_size_gen g) * Z.to_nat (g_nvars g)) (fun v =>
       match fst (run_in E a o (fun r w => (Ok (NF (F r)), w)) ftol out (v ++ t)) with
       | Ok r => flt (F (bits bs)) (r_best_cost r)
       | Raise _ => false
       end) <= (1 - (1 / 2) ^ Z.to_nat (g_nvars g)) ^ Z.to_nat (g_size_gen g)).
Proof. exact bits_half. Qed.
Print Assumptions C131_default.

(** UMDAcat and EBNA: the same with the declared frequencies of the values of the solution. *)
Theorem C131_categories : forall X (E : env X (list Z)) A g values freq (o0 : optimiser X) d x ps,
  cyclic_rng (e_rng E) -> construct E A g = Ok o0 -> declared_values A = Some (values, freq) -> (1 <= g_nvars g)%Z -> cats_ok values freq -> g_init_data g = None ->
  d <= / 4 -> List.length x = Z.to_nat (g_nvars g) -> LostCat.declared values freq d x ps ->
  exists qs, Forall2 (fun p q => 0 <= q <= 1 /\ Rabs (q - B2R p) <= 2 * d + bpow radix2 (-25)) ps qs /\
  (forall o (cost : row -> list Z -> res NdArray.num * list Z) a ftol out t, used E o0 o ->
    likelihood (Z.to_nat (g_size_gen g) * Z.to_nat (g_nvars g)) (fun v => first_without x (s_tr (snd (run_in E a o cost ftol out (v ++ t)))))
    <= (1 - Rprod qs) ^ Z.to_nat (g_size_gen g)) /\
  (forall o (F : row -> f64) a ftol out t, used E o0 o -> feq ftol (Z2f 0) = true ->
    likelihood (Z.to_nat (g_size_gen g) * Z.to_nat (g_nvars g)) (fun v =>
      match fst (run_in E a o (fun r w => (Ok (NF (F r)), w)) ftol out (v ++ t)) with
      | Ok r => flt (F x) (r_best_cost r)
      | Raise _ => false
      end) <= (1 - Rprod qs) ^ Z.to_nat (g_size_gen g)).
Proof. exact (fun X E => cat_first_rare E). Qed.
Print Assumptions C131_categories.

(** The hypotheses hold in concrete cases, in which both outcomes occur. *)
Example C131_met : tape_rng (e_rng tape_env) /\
  exists o r s r' s', construct tape_env (UMDAd None quarter three_quarters) tape_args = Ok o /\ used tape_env o o /\
    run tape_env o (fun r w => (Ok (NF (first_bit r)), w)) (Z2f 0) false (repeat 0%Z (all_draws tape_args)) = (Ok r, s) /\
    (first_without (bits [false; false]) (s_tr s) && flt (first_bit (bits [false; false])) (r_best_cost r))%bool = true /\
    run tape_env o (fun r w => (Ok (NF (first_bit r)), w)) (Z2f 0) false (repeat (2 ^ 52)%Z (all_draws tape_args)) = (Ok r', s') /\
    (first_without (bits [false; false]) (s_tr s') || flt (first_bit (bits [false; false])) (r_best_cost r'))%bool = false.
Proof. exact first_bits_met. Qed.
Example C131_met_categories :
  cyclic_rng (e_rng cyclic_env) /\ cats_ok strings2 halves2 /\ LostCat.declared strings2 halves2 0 target_by [DemoModels.half; DemoModels.half] /\
  declared_values (UMDAcat strings2 halves2) = Some (strings2, halves2) /\ declared_values (EBNA strings2 halves2) = Some (strings2, halves2) /\
  (exists e, construct cyclic_env (EBNA strings2 halves2) tape_args = Ok e) /\
  exists o r s r' s', construct cyclic_env (UMDAcat strings2 halves2) tape_args = Ok o /\ used cyclic_env o o /\
    run cyclic_env o (fun r w => (Ok (NF (only_by r)), w)) (Z2f 0) false (repeat 0%Z 24) = (Ok r, s) /\
    (first_without target_by (s_tr s) && flt (only_by target_by) (r_best_cost r))%bool = true /\
    run cyclic_env o (fun r w => (Ok (NF (only_by r)), w)) (Z2f 0) false (repeat (2 ^ 52)%Z 24) = (Ok r', s') /\
    (first_without target_by (s_tr s') || flt (only_by target_by) (r_best_cost r'))%bool = false.
Proof. exact first_cat_met. Qed.

(* ------------------------------ C124 ------------------------------ *)
(** Counting the first generation too: all generations of a UMDAd run together. *)
Theorem C124_all : forall X (E : env X (list Z)) g vector lo hi (o0 o : optimiser X) t ql qh qs bs (f : row -> res NdArray.num) a ftol out,
  tape_rng (e_rng E) -> construct E (UMDAd vector lo hi) g = Ok o0 -> used E o0 o ->
  (forall v, vector = Some v -> List.length v = Z.to_nat (g_nvars g)) -> g_init_data g = None ->
  prob lo -> prob hi -> int_times (g_size_gen g) (g_alpha g) = Ok t -> (0 <= t <= 2 ^ 53)%Z ->
  Forall2 (fun p q => chance (fun x => flt x p = true) q) (match vector with None => repeat (lit 1 (-1)) (Z.to_nat (g_nvars g)) | Some v => v end) qs ->
  chance (fun x => flt x lo = true) ql -> chance (fun x => flt x hi = true) qh -> List.length bs = Z.to_nat (g_nvars g) ->
  likelihood (all_draws g) (fun v => let tr := s_tr (snd (run_in E a o (fun r w => (f r, w)) ftol out v)) in
     Nat.eqb (List.length (gens tr)) (S (Z.to_nat (g_max_iter g - 1))) && negb (evaluates bs tr))
  <= (1 - Rprod (map (fun bq : bool * R => if fst bq then snd bq else 1 - snd bq) (combine bs qs))) ^ Z.to_nat (g_size_gen g)
     * (1 - Rprod (map (fun b : bool => if b then ql else 1 - qh) bs)) ^ (Z.to_nat (g_size_gen g) * Z.to_nat (g_max_iter g - 1)).
Proof. exact umdad_misses_all. Qed.
Print Assumptions C124_all.
