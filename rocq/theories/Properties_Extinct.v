(** What the selection leaves behind: the elite among the selected, values that die out for
    good, and converged runs. *)
From Coq Require Import String List ZArith Bool Lia Reals.
From Verif Require Import PyBase B64 B64More NdArray Eda EdaInv Spec LoopThms Select Rand Models Inits Trunc Kahan CatThms InitThms Stock StockInv StockAll StockCat Extinct Demo DemoModels DemoStock DemoExtinct.
Import ListNotations.
Open Scope nat_scope.

(* ------------------------------ C110 ------------------------------ *)
(** The elite and the selection are initial segments of the same order: the smaller of the two
    is the beginning of the larger, with the same costs. *)
Theorem C110_prefix : forall (S W : Type) (c : cfg) (h : hooks S W) ftol out s r tr,
  (0 <= c_trunc_len c)%Z -> (0 <= c_elite_len c)%Z ->
  completes c h ftol out s r tr ->
  each_event (fun _ e => match e with
    | EvSelect train elite =>
        ((c_elite_len c <= c_trunc_len c)%Z -> elite = firstn (Z.to_nat (c_elite_len c)) train) /\
        ((c_trunc_len c <= c_elite_len c)%Z -> train = firstn (Z.to_nat (c_trunc_len c)) elite)
    | _ => True
    end) tr.
Proof. exact (fun S W => @prefix_lemma S W). Qed.
Print Assumptions C110_prefix.

Example C110_prefix_met : (0 <= c_trunc_len demo_cfg)%Z /\ (0 <= c_elite_len demo_cfg)%Z /\
  exists r tr, completes demo_cfg demo_hooks ftol_default true demo_start r tr /\ Nat.eqb (List.length (selections tr)) 4 = true.
Proof.
  split; [vm_compute; discriminate|]. split; [vm_compute; discriminate|].
  apply (run_check_completes demo_cfg demo_hooks _ _ demo_start (fun _ tr => Nat.eqb (List.length (selections tr)) 4)); vm_compute; reflexivity.
Qed.

(** UMDAcat with an elite no larger than the selection: a value no selected individual has for a
    variable is in no later generation and no later training data. *)
Theorem C110_dies_out : forall (X W : Type) (E : env X W) g values freq o0 o cost a ftol out w r s,
  construct E (UMDAcat values freq) g = Ok o0 -> used E o0 o ->
  argsort_ok (e_argsort E) -> unif_ok (e_rng E) -> (1 <= g_nvars g)%Z -> cats_ok values freq ->
  (0 <= g_size_gen g <= 2 ^ 53)%Z -> factor (g_alpha g) -> factor (g_elite_factor g) -> (factor_R (g_elite_factor g) <= factor_R (g_alpha g))%R ->
  (forall d, g_init_data g = Some d -> cat_pop (Z.to_nat (g_nvars g)) values d) ->
  run_in E a o cost ftol out w = (Ok r, s) ->
  forall k d j v, nth_error (learns (s_tr s)) k = Some d -> j < Z.to_nat (g_nvars g) -> ~ In v (column j (a_rows d)) ->
  (forall m gv, k < m -> nth_error (gens (s_tr s)) m = Some gv -> ~ In v (column j (a_rows (fst gv)))) /\
  (forall m d', k < m -> nth_error (learns (s_tr s)) m = Some d' -> ~ In v (column j (a_rows d'))).
Proof. exact (fun X W => @umdacat_dies_out X W). Qed.
Print Assumptions C110_dies_out.

(** Once all selected individuals are the same one, so is everything generated and selected
    afterwards. *)
Theorem C110_converged : forall (X W : Type) (E : env X W) g values freq o0 o cost a ftol out w r s,
  construct E (UMDAcat values freq) g = Ok o0 -> used E o0 o ->
  argsort_ok (e_argsort E) -> unif_ok (e_rng E) -> (1 <= g_nvars g)%Z -> cats_ok values freq ->
  (0 <= g_size_gen g <= 2 ^ 53)%Z -> factor (g_alpha g) -> factor (g_elite_factor g) -> (factor_R (g_elite_factor g) <= factor_R (g_alpha g))%R ->
  (forall d, g_init_data g = Some d -> cat_pop (Z.to_nat (g_nvars g)) values d) ->
  run_in E a o cost ftol out w = (Ok r, s) ->
  forall k d x, nth_error (learns (s_tr s)) k = Some d -> Forall (eq x) (a_rows d) ->
  (forall m gv, k < m -> nth_error (gens (s_tr s)) m = Some gv -> Forall (eq x) (a_rows (fst gv))) /\
  (forall m d', k < m -> nth_error (learns (s_tr s)) m = Some d' -> Forall (eq x) (a_rows d')).
Proof. exact (fun X W => @umdacat_converged X W). Qed.
Print Assumptions C110_converged.

(** Both selected individuals are ("a", "x"), and two more generations follow. *)
Example C110_met : cats_ok strings2 halves2 /\ factor (PyF half) /\ (factor_R (PyF half) <= factor_R (PyF half))%R /\
  cat_pop 2 strings2 four_strings /\
  exists o r s, construct env0 (UMDAcat strings2 halves2) (mkArgs 4 3 2 2 (PyF half) (PyF half) false false (Some four_strings)) = Ok o /\
    run env0 o cost_a ftol_default false tt = (Ok r, s) /\
    (Nat.eqb (List.length (gens (s_tr s))) 3 && match learns (s_tr s) with d :: _ => same_ax (a_rows d) && Nat.eqb (a_len d) 2 | [] => false end) = true.
Proof. exact (conj strings2_ok (conj factor_half (conj (Rle_refl _) (conj four_strings_ok converged_case)))). Qed.
