(** C105: a larger budget continues a run. *)
From Coq Require Import String List ZArith Bool Lia.
From Verif Require Import PyBase B64 NdArray Eda Rand Models Inits Stock StockInv StockAll Budget Demo DemoModels DemoStock.
Import ListNotations.
Open Scope Z_scope.

(* ------------------------------ C105 ----------------------------- *)
(** The same call of minimize on two optimisers whose constructors differ in max_iter and dead_iter only.
    When the run with the smaller budget raises, so does the other, in the same state.  When it completes,
    everything it did up to the final message is what the other run starts with: calls of the cost function,
    selections, training data, messages, history; and when it stopped early and dead_iter is the same, the
    other run returns the same result.  (A dead_iter below one never stops a run.) *)
Theorem C105_continues : forall X W (E : env X W) A g (o : optimiser X) m d a cost ftol out w
  (built : construct E A g = Ok o)
  (more_iterations : g_max_iter g <= m)
  (stops_later : d < 1 \/ 1 <= g_dead_iter g <= d)
  (accepted : d <= m),
  exists o', construct E A (mkArgs (g_size_gen g) m d (g_nvars g) (g_alpha g) (g_elite_factor g) (g_disp g) (g_parallelize g) (g_init_data g)) = Ok o' /\
  match run_in E a o cost ftol out w with
  | (Raise e, s1) => run_in E a o' cost ftol out w = (Raise e, s1)
  | (Ok r, s1) =>
      exists tr fin, s_tr s1 = tr ++ fin /\ (forall e, In e fin -> exists p, e = EvPrint p) /\
        (exists t, s_tr (snd (run_in E a o' cost ftol out w)) = tr ++ t) /\
        (forall r', fst (run_in E a o' cost ftol out w) = Ok r' -> exists tl, r_history r' = r_history r ++ tl) /\
        (d = g_dead_iter g -> Z.of_nat (List.length (r_history r)) < g_max_iter g ->
           exists r', run_in E a o' cost ftol out w = (Ok r', s1) /\
             r_best_ind r' = r_best_ind r /\ r_best_cost r' = r_best_cost r /\ r_nfev r' = r_nfev r /\ r_history r' = r_history r)
  end.
Proof. exact (fun X W => @run_prefix X W). Qed.
Print Assumptions C105_continues.

(** Three iterations, then five. *)
Example C105_met : (exists o r s, construct env0 umdac0 (demo_args 3 1 None) = Ok o /\ run env0 o cost7 ftol_default false tt = (Ok r, s) /\
    Nat.eqb (List.length (r_history r)) 3 = true) /\
  (exists o r s, construct env0 umdac0 (demo_args 5 1 None) = Ok o /\ run env0 o cost7 ftol_default false tt = (Ok r, s) /\
    Nat.eqb (List.length (r_history r)) 5 = true) /\
  g_dead_iter (demo_args 3 1 None) = g_dead_iter (demo_args 5 1 None) /\ 1 <= g_dead_iter (demo_args 3 1 None) <= 5.
Proof.
  split; [|split; [|split; [reflexivity|cbn; lia]]].
  - apply (ran_ok env0 _ cost7 ftol_default tt (fun r _ => Nat.eqb (List.length (r_history r)) 3)). vm_compute. reflexivity.
  - apply (ran_ok env0 _ cost7 ftol_default tt (fun r _ => Nat.eqb (List.length (r_history r)) 5)). vm_compute. reflexivity.
Qed.

(** The same for EDACustom, whose constructor draws from the generator. *)
Theorem C105_custom : forall X W (E : env X W) k z w0 (o : optimiser X) w1 m d a cost ftol out w
  (built : custom_new E k z w0 = (Ok o, w1))
  (more_iterations : k_max_iter k <= m)
  (stops_later : d < 1 \/ 1 <= k_dead_iter k <= d)
  (accepted : d <= m),
  exists o', custom_new E (mkCArgs (k_size_gen k) m d (k_nvars k) (k_alpha k) (k_elite_factor k) (k_disp k) (k_pm k) (k_init k) (k_lo k) (k_hi k)) z w0 = (Ok o', w1) /\
  match run_in E a o cost ftol out w with
  | (Raise e, s1) => run_in E a o' cost ftol out w = (Raise e, s1)
  | (Ok r, s1) =>
      exists tr fin, s_tr s1 = tr ++ fin /\ (forall e, In e fin -> exists p, e = EvPrint p) /\
        (exists t, s_tr (snd (run_in E a o' cost ftol out w)) = tr ++ t) /\
        (forall r', fst (run_in E a o' cost ftol out w) = Ok r' -> exists tl, r_history r' = r_history r ++ tl) /\
        (d = k_dead_iter k -> Z.of_nat (List.length (r_history r)) < k_max_iter k ->
           exists r', run_in E a o' cost ftol out w = (Ok r', s1) /\
             r_best_ind r' = r_best_ind r /\ r_best_cost r' = r_best_cost r /\ r_nfev r' = r_nfev r /\ r_history r' = r_history r)
  end.
Proof. exact (fun X W => @custom_prefix X W). Qed.
Print Assumptions C105_custom.

Example C105_custom_met : exists o w1, custom_new env0 (mkCArgs 4 3 1 2 (PyF half) (PyF half) false 1 4 (PyI 0) (PyI 1)) (fun _ => Z2f 0) tt = (Ok o, w1).
Proof. eexists. eexists. reflexivity. Qed.
