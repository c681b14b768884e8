(** C108: the names of the categories. *)
From Coq Require Import String List ZArith Bool.
From Verif Require Import PyBase B64 NdArray Eda EdaInv Spec Rand Models Inits Stock LoopMap VarLearn RenameCat RenameRun Demo DemoModels DemoStock DemoRename.
Import ListNotations.
Open Scope nat_scope.

(* ------------------------------ C108 ----------------------------- *)
(** New names in the same order for every variable, in the declared categories, in the given
    first generation and in the argument of the cost function: the same refusal, or the same run
    under the new names. *)
Theorem C108_same_order : forall (X W : Type) (E : env X W) (f : nat -> string -> string) (a : args)
  (values : list (list cell)) (freq : list (list f64)) (cost cost' : row -> W -> res NdArray.num * W)
  (increasing : forall j s t, names_of values (g_init_data a) j s -> names_of values (g_init_data a) j t ->
     String.ltb s t = true -> String.ltb (f j s) (f j t) = true)
  (string_values : Forall (Forall (fun c => is_str c = true)) values)
  (string_data : forall d, g_init_data a = Some d -> string_matrix d)
  (same_cost : forall r w, List.length r = Z.to_nat (g_nvars a) -> Forall (fun c => is_str c = true) r -> cost' (rename_row f r) w = cost r w)
  ftol out w,
  mapped_outcome (rename_row f) (umdacat_new E a values freq) (umdacat_new E (rename_args f a) (rename_values f values) freq)
    (fun o => run E o cost ftol out w) (fun o => run E o cost' ftol out w).
Proof. exact (fun X W => @umdacat_rename X W). Qed.
Print Assumptions C108_same_order.

(** New names in another order: the same draws give another run. *)
Theorem C108_other_order_refuted :
  exists (E : env nat unit) (f : nat -> string -> string) (a : args) (values : list (list cell)) (freq : list (list f64)) cost cost',
    (forall j s t, f j s = f j t -> s = t) /\
    Forall (Forall (fun c => is_str c = true)) values /\ g_init_data a = None /\
    (forall r w, cost' (rename_row f r) w = cost r w) /\
    exists o o' r r' s s', umdacat_new E a values freq = Ok o /\
      umdacat_new E (rename_args f a) (rename_values f values) freq = Ok o' /\
      run E o cost ftol_default false tt = (Ok r, s) /\ run E o' cost' ftol_default false tt = (Ok r', s') /\
      flt (last (r_history r) fnan) (last (r_history r') fnan) = true.
Proof.
  exists env_rows, exchange, (args3 1), [ab], [eighths], cost_a, cost_b.
  split; [exact exchange_inj|]. split; [repeat constructor|]. split; [reflexivity|]. split; [exact exchange_costs|]. exact exchange_changes.
Qed.
Print Assumptions C108_other_order_refuted.

Example C108_met : (forall j s t, names_of [ab; ab] None j s -> names_of [ab; ab] None j t ->
     String.ltb s t = true -> String.ltb (new_names j s) (new_names j t) = true) /\
  Forall (Forall (fun c => is_str c = true)) [ab; ab] /\ (forall d, g_init_data (args3 2) = Some d -> string_matrix d) /\
  (forall r w, List.length r = 2 -> Forall (fun c => is_str c = true) r -> cost_green (rename_row new_names r) w = cost_a r w) /\
  (exists o r s, umdacat_new env_rows (args3 2) [ab; ab] [eighths; eighths] = Ok o /\
     run env_rows o cost_a ftol_default false tt = (Ok r, s) /\ Nat.eqb (List.length (r_history r)) 2 = true) /\
  rename_row new_names [CS "a"; CS "b"] = [CS "green"; CS "c"].
Proof.
  split; [exact new_names_up|]. split; [repeat constructor|]. split; [discriminate|]. split; [exact green_costs|]. split; [|reflexivity].
  apply (ran_ok _ _ _ _ _ (fun r _ => Nat.eqb (List.length (r_history r)) 2)). vm_compute. reflexivity.
Qed.
