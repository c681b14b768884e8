(** What the selection leaves behind, in every run, also the ones that raise. *)
From Coq Require Import String List ZArith Bool Lia Reals.
From Verif Require Import PyBase B64 B64More NdArray Eda EdaInv LoopFail Spec LoopThms Select Rand Models Inits Trunc Kahan CatThms InitThms Stock StockInv StockAll StockCat Extinct ExtinctEvery Demo DemoModels DemoStock DemoExtinct LostCatDemo.
Import ListNotations.
Open Scope nat_scope.

(* ------------------------------ C110 ------------------------------ *)
(** The elite and the selection are initial segments of the same order. *)
Theorem C110_prefix_every : forall (S W : Type) (c : cfg) (h : hooks S W) ftol out s r tr,
  (0 <= c_trunc_len c)%Z -> (0 <= c_elite_len c)%Z ->
  executes c h ftol out s r tr ->
  each_event (fun _ e => match e with
    | EvSelect train elite =>
        ((c_elite_len c <= c_trunc_len c)%Z -> elite = firstn (Z.to_nat (c_elite_len c)) train) /\
        ((c_trunc_len c <= c_elite_len c)%Z -> train = firstn (Z.to_nat (c_trunc_len c)) elite)
    | _ => True
    end) tr.
Proof. exact (fun S W => @prefix_every S W). Qed.
Print Assumptions C110_prefix_every.

(** UMDAcat with an elite no larger than the selection: what dies out stays away. *)
Theorem C110_dies_out_every : forall (X W : Type) (E : env X W) g values freq o0 o cost a ftol out w r s,
  construct E (UMDAcat values freq) g = Ok o0 -> used E o0 o ->
  argsort_ok (e_argsort E) -> unif_ok (e_rng E) -> (1 <= g_nvars g)%Z -> cats_ok values freq ->
  (0 <= g_size_gen g <= 2 ^ 53)%Z -> factor (g_alpha g) -> factor (g_elite_factor g) -> (factor_R (g_elite_factor g) <= factor_R (g_alpha g))%R ->
  (forall d, g_init_data g = Some d -> cat_pop (Z.to_nat (g_nvars g)) values d) ->
  run_in E a o cost ftol out w = (r, s) ->
  forall k d j v, nth_error (learns (s_tr s)) k = Some d -> j < Z.to_nat (g_nvars g) -> ~ In v (column j (a_rows d)) ->
  (forall m gv, k < m -> nth_error (gens (s_tr s)) m = Some gv -> ~ In v (column j (a_rows (fst gv)))) /\
  (forall m d', k < m -> nth_error (learns (s_tr s)) m = Some d' -> ~ In v (column j (a_rows d'))).
Proof. exact (fun X W => @umdacat_dies_out_every X W). Qed.
Print Assumptions C110_dies_out_every.

(** A converged run stays where it is. *)
Theorem C110_converged_every : forall (X W : Type) (E : env X W) g values freq o0 o cost a ftol out w r s,
  construct E (UMDAcat values freq) g = Ok o0 -> used E o0 o ->
  argsort_ok (e_argsort E) -> unif_ok (e_rng E) -> (1 <= g_nvars g)%Z -> cats_ok values freq ->
  (0 <= g_size_gen g <= 2 ^ 53)%Z -> factor (g_alpha g) -> factor (g_elite_factor g) -> (factor_R (g_elite_factor g) <= factor_R (g_alpha g))%R ->
  (forall d, g_init_data g = Some d -> cat_pop (Z.to_nat (g_nvars g)) values d) ->
  run_in E a o cost ftol out w = (r, s) ->
  forall k d x, nth_error (learns (s_tr s)) k = Some d -> Forall (eq x) (a_rows d) ->
  (forall m gv, k < m -> nth_error (gens (s_tr s)) m = Some gv -> Forall (eq x) (a_rows (fst gv))) /\
  (forall m d', k < m -> nth_error (learns (s_tr s)) m = Some d' -> Forall (eq x) (a_rows d')).
Proof. exact (fun X W => @umdacat_converged_every X W). Qed.
Print Assumptions C110_converged_every.

(** A run that converges at once and raises when the tape of draws is used up, in the third generation. *)
Example C110_every_met :
  let failing := fun (r : row) (w : list Z) => match w with [] => (Raise ValueError, w) | _ => (fst (cost_a r tt), w) end in
  let g := mkArgs 4 4 2 2 (PyF half) (PyF half) false false (Some four_strings) in
  cats_ok strings2 halves2 /\ cat_pop 2 strings2 four_strings /\
  exists o, construct cyclic_env (UMDAcat strings2 halves2) g = Ok o /\
  let tr := s_tr (snd (run cyclic_env o failing ftol_default false (repeat 0%Z 16))) in
  fst (run cyclic_env o failing ftol_default false (repeat 0%Z 16)) = Raise ValueError /\
  forallb (fun d => same_ax (a_rows d) && Nat.eqb (a_len d) 2) (learns tr) = true /\ List.length (learns tr) = 2 /\ List.length (gens tr) = 2.
Proof.
  intros failing g. split; [exact strings2_ok|]. split; [exact four_strings_ok|]. eexists. split; [reflexivity|]. split; [|split; [|split]]; vm_compute; reflexivity.
Qed.
