(** Uniform initialisation: how values are distributed, and what that alone guarantees of a run. *)
From Coq Require Import String List ZArith Bool Lia Reals Lra.
From Flocq Require Import Core IEEE754.BinarySingleNaN.
From Verif Require Import PyBase B64 NdArray Eda EdaInv Spec Rand RandThms Models ModelThms FloatSum Chance Inits InitThms Stock StockInv StockAll
  MaxLik Mean Found FoundDemo UniformChance BoxChance UniformRun BoxDemo DemoModels.
Import ListNotations.
Open Scope R_scope.

(* ------------------------------ C129 ------------------------------ *)
(** Cell (i,j) of a uniform sample is a function of draw (i,j) alone, the same for all individuals,
    and of the 2^53 equally likely draws the share giving a value up to [t] is the share of the
    interval up to [t], but for rounding. *)
Theorem C129_sample : forall W (g : rng W) n lo hi ui size w a w',
  uniform_new n lo hi = Ok ui -> uniform_sample g ui size w = (Ok a, w') ->
  full_bound (Z.to_nat n) lo -> full_bound (Z.to_nat n) hi ->
  exists f : nat -> f64 -> f64,
    (forall i j, (i < Z.to_nat size)%nat -> (j < Z.to_nat n)%nat ->
       nth_error (nth i (a_rows a) []) j = Some (CF (f j (fst (g_unif g (Z.to_nat size) (Z.to_nat n) w) i j)))) /\
    forall j l h M t, (j < Z.to_nat n)%nat -> bound_of lo j l -> bound_of hi j h -> isfin l = true -> isfin h = true -> flt l h = true ->
      Rabs (B2R l) <= M -> Rabs (B2R h) <= M -> B2R l <= t <= B2R h ->
      exists q, chance (fun x => B2R (f j x) <= t) q /\
        Rabs (q - (t - B2R l) / (B2R h - B2R l)) <= (10 * M * bpow radix2 (-53) + bpow radix2 (-1075)) / (B2R h - B2R l).
Proof. exact (fun W g n lo hi ui size w a w' => uniform_sample_chance g n lo hi ui size w a w'). Qed.
Print Assumptions C129_sample.

(** So is the first generation of every run started from bounds, whatever was run before. *)
Theorem C129_first : forall X W (E : env X W) A g lo hi (o0 o : optimiser X) cost a ftol out w r s g0 v0,
  construct E A g = Ok o0 -> used E o0 o -> start_bounds A = Some (lo, hi) -> g_init_data g = None ->
  full_bound (Z.to_nat (g_nvars g)) lo -> full_bound (Z.to_nat (g_nvars g)) hi ->
  run_in E a o cost ftol out w = (r, s) -> nth_error (gens (s_tr s)) 0 = Some (g0, v0) ->
  exists f : nat -> f64 -> f64,
    (forall i j, (i < Z.to_nat (g_size_gen g))%nat -> (j < Z.to_nat (g_nvars g))%nat ->
       nth_error (nth i (a_rows g0) []) j = Some (CF (f j (fst (g_unif (e_rng E) (Z.to_nat (g_size_gen g)) (Z.to_nat (g_nvars g)) w) i j)))) /\
    forall j l h M t, (j < Z.to_nat (g_nvars g))%nat -> bound_of lo j l -> bound_of hi j h -> isfin l = true -> isfin h = true -> flt l h = true ->
      Rabs (B2R l) <= M -> Rabs (B2R h) <= M -> B2R l <= t <= B2R h ->
      exists q, chance (fun x => B2R (f j x) <= t) q /\
        Rabs (q - (t - B2R l) / (B2R h - B2R l)) <= (10 * M * bpow radix2 (-53) + bpow radix2 (-1075)) / (B2R h - B2R l).
Proof. exact (fun X W E A g lo hi o0 o cost a ftol out w r s g0 v0 => first_uniform E A g lo hi o0 o cost a ftol out w r s g0 v0). Qed.
Print Assumptions C129_first.

(** Bounds 0 and (1, 4), three individuals, and the value 1 between 0 and 4. *)
Example C129_met : exists ui a w', uniform_new 2 (BNum (PyI 0)) (BList true [Z2f 1; Z2f 4]) = Ok ui /\
  uniform_sample (e_rng tape_env) ui 3 (repeat 0%Z 6) = (Ok a, w') /\ full_bound 2 (BNum (PyI 0)) /\ full_bound 2 (BList true [Z2f 1; Z2f 4]) /\
  flt (Z2f 0) (Z2f 4) = true /\ Rabs (B2R (Z2f 0)) <= 4 /\ Rabs (B2R (Z2f 4)) <= 4 /\ B2R (Z2f 0) <= 1 <= B2R (Z2f 4).
Proof. exact uniform_case. Qed.

(* ------------------------------ C130 ------------------------------ *)
(** A first generation rarely has no individual in a given box: each of the individuals hits it
    with at least the product of the relative widths [sides] (up to rounding). *)
Theorem C130_first : forall X (E : env X (list Z)) A g lo hi (o0 o : optimiser X) M bx sides cost a ftol out t,
  tape_rng (e_rng E) -> construct E A g = Ok o0 -> used E o0 o -> start_bounds A = Some (lo, hi) -> g_init_data g = None ->
  full_bound (Z.to_nat (g_nvars g)) lo -> full_bound (Z.to_nat (g_nvars g)) hi ->
  List.length bx = Z.to_nat (g_nvars g) -> List.length sides = Z.to_nat (g_nvars g) ->
  (forall j l h a b s, bound_of lo j l -> bound_of hi j h -> nth_error bx j = Some (a, b) -> nth_error sides j = Some s -> side_fits M l h a b s) ->
  likelihood (Z.to_nat (g_size_gen g) * Z.to_nat (g_nvars g)) (fun v =>
    match gens (s_tr (snd (run_in E a o cost ftol out (v ++ t)))) with
    | [] => false
    | (g0, _) :: _ => negb (existsb (in_box bx) (a_rows g0))
    end) <= (1 - Rprod sides) ^ Z.to_nat (g_size_gen g).
Proof. exact (fun X E A g lo hi o0 o M bx sides cost a ftol out t Ht Hm Hu Hs Hd Fl Fh L1 L2 Hf =>
  first_rare E Ht A g lo hi o0 o Hm Hu Hs Hd Fl Fh M bx sides L1 L2 Hf cost a ftol out t). Qed.
Print Assumptions C130_first.

(** Hence a run that ends normally rarely returns a cost above every cost in the box, whatever
    the model does afterwards (the draws [t] after the first generation are arbitrary). *)
Theorem C130_best : forall X (E : env X (list Z)) A g lo hi (o0 o : optimiser X) M bx sides (F : row -> f64) (top : f64) a ftol out t,
  tape_rng (e_rng E) -> construct E A g = Ok o0 -> used E o0 o -> start_bounds A = Some (lo, hi) -> g_init_data g = None ->
  full_bound (Z.to_nat (g_nvars g)) lo -> full_bound (Z.to_nat (g_nvars g)) hi ->
  List.length bx = Z.to_nat (g_nvars g) -> List.length sides = Z.to_nat (g_nvars g) ->
  (forall j l h a b s, bound_of lo j l -> bound_of hi j h -> nth_error bx j = Some (a, b) -> nth_error sides j = Some s -> side_fits M l h a b s) ->
  feq ftol (Z2f 0) = true -> (forall r, in_box bx r = true -> fle (F r) top = true) ->
  likelihood (Z.to_nat (g_size_gen g) * Z.to_nat (g_nvars g)) (fun v =>
    match fst (run_in E a o (fun r w => (Ok (NF (F r)), w)) ftol out (v ++ t)) with
    | Ok r => flt top (r_best_cost r)
    | Raise _ => false
    end) <= (1 - Rprod sides) ^ Z.to_nat (g_size_gen g).
Proof. exact (fun X E A g lo hi o0 o M bx sides F top a ftol out t Ht Hm Hu Hs Hd Fl Fh L1 L2 Hf Hft HF =>
  best_rare E Ht A g lo hi o0 o Hm Hu Hs Hd Fl Fh M bx sides L1 L2 Hf F top a ftol out t Hft HF). Qed.
Print Assumptions C130_best.

(** UMDAc on the unit square and the box (1/4, 1/2) twice, with relative widths of at least 1/8. *)
Example C130_met : tape_rng (e_rng tape_env) /\
  (forall j l h a b s, bound_of (BNum (PyI 0)) j l -> bound_of (BNum (PyI 1)) j h -> nth_error box_bx j = Some (a, b) -> nth_error [/ 8; / 8] j = Some s ->
     side_fits 1 l h a b s) /\
  (forall r, in_box box_bx r = true -> fle (first_cell r) DemoModels.half = true) /\
  exists o r s r' s', construct tape_env (UMDAc (BNum (PyI 0)) (BNum (PyI 1)) None DemoModels.half None) tape_args = Ok o /\
    run tape_env o (fun r w => (Ok (NF (first_cell r)), w)) (Z2f 0) false (repeat (3 * 2 ^ 50)%Z 8) = (Ok r, s) /\ first_outside box_bx (s_tr s) = false /\
    run tape_env o (fun r w => (Ok (NF (first_cell r)), w)) (Z2f 0) false (repeat (7 * 2 ^ 50)%Z 8) = (Ok r', s') /\ first_outside box_bx (s_tr s') = true.
Proof. exact box_case. Qed.
