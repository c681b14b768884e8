(** C105: what a larger budget buys. *)
From Coq Require Import String List ZArith Bool Lia.
From Verif Require Import PyBase B64 NdArray Eda Rand Models Inits Stock StockInv StockAll Budget BudgetCost Demo DemoModels DemoStock.
Import ListNotations.
Open Scope Z_scope.

(* ------------------------------ C105 ----------------------------- *)
(** Without tolerance, if both runs return, the one with the larger budget returns a cost that is no
    larger. *)
Theorem C105_no_worse : forall X W (E : env X W) A g (o o' : optimiser X) m d a cost ftol out w r s r' s'
  (built : construct E A g = Ok o)
  (more_iterations : g_max_iter g <= m)
  (stops_later : d < 1 \/ 1 <= g_dead_iter g <= d)
  (accepted : d <= m)
  (built' : construct E A (mkArgs (g_size_gen g) m d (g_nvars g) (g_alpha g) (g_elite_factor g) (g_disp g) (g_parallelize g) (g_init_data g)) = Ok o')
  (returned : run_in E a o cost ftol out w = (Ok r, s))
  (returned' : run_in E a o' cost ftol out w = (Ok r', s'))
  (no_tolerance : feq ftol (Z2f 0) = true),
  fle (r_best_cost r') (r_best_cost r) = true.
Proof. exact no_worse. Qed.
Print Assumptions C105_no_worse.

(** One iteration, then two. *)
Example C105_no_worse_met : feq (Z2f 0) (Z2f 0) = true /\
  (exists o r s, construct env0 umdac0 (demo_args 1 1 None) = Ok o /\ run env0 o cost0 (Z2f 0) false tt = (Ok r, s) /\ Nat.eqb (List.length (r_history r)) 1 = true) /\
  (exists o r s, construct env0 umdac0 (demo_args 5 1 None) = Ok o /\ run env0 o cost0 (Z2f 0) false tt = (Ok r, s) /\ Nat.eqb (List.length (r_history r)) 2 = true).
Proof.
  split; [reflexivity|]. split.
  - apply (ran_ok env0 _ cost0 (Z2f 0) tt (fun r _ => Nat.eqb (List.length (r_history r)) 1)). vm_compute. reflexivity.
  - apply (ran_ok env0 _ cost0 (Z2f 0) tt (fun r _ => Nat.eqb (List.length (r_history r)) 2)). vm_compute. reflexivity.
Qed.

(** With the default tolerance it can be larger: one more generation, whose best cost is slightly
    above the best so far, replaces it. *)
Theorem C105_no_worse_refuted : exists c (h : hooks unit (list arr)) m s r s1 r' s2, (s_tr s = []) /\ (c_max_iter c <= m) /\
  minimize c h ftol_default false s = (Ok r, s1) /\ minimize (budget c m (c_dead_iter c)) h ftol_default false s = (Ok r', s2) /\
  flt (r_best_cost r) (r_best_cost r') = true.
Proof. exact worse. Qed.
Print Assumptions C105_no_worse_refuted.
