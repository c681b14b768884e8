(** Categories under other names, for the examples of Properties_Rename.v. *)
From Coq Require Import String List ZArith Bool Lia.
From Verif Require Import PyBase B64 B64More NdArray Eda EdaInv Spec Rand RandThms Models Inits Stock LoopMap VarLearn RenameCat RenameRun Demo DemoModels DemoStock.
Import ListNotations.
Open Scope nat_scope.

(** Individual [i] is drawn with [nth i us]. *)
Definition row_rng (us : list f64) : rng unit := {|
  g_unif := fun _ _ w => (fun i _ => nth i us fnan, w);
  g_gauss := fun _ _ w => (fun _ _ => Z2f 0, w);
  g_pick := fun _ _ w => (fun _ => 0, w);
  g_mvn := fun _ _ _ w => (Raise ValueError, w)
|}.
Definition env_rows : env nat unit := demo_env (row_rng [lit 1 (-4); lit 3 (-4); lit 5 (-4)]).
Definition args3 (n : Z) : args := mkArgs 3 2 1 n (PyI 1) (PyI 1) false false None.
Definition ab : list cell := [CS "a"; CS "b"].
Definition eighths : list f64 := [lit 1 (-3); lit 7 (-3)].
(** "a" costs 1, any other first category 2. *)
Definition cost_a (r : row) (w : unit) : res NdArray.num * unit :=
  (Ok (NI (match r with CS s :: _ => if String.eqb s "a" then 1 else 2 | _ => 2 end)), w).

(** Two variables; "a" and "b" become "green" and "red" in the first, "b" and "c" in the second. *)
Definition new_names (j : nat) (s : string) : string :=
  match j with
  | O => if String.eqb s "a" then "green" else "red"
  | _ => if String.eqb s "a" then "b" else "c"
  end%string.
Definition cost_green (r : row) (w : unit) : res NdArray.num * unit :=
  (Ok (NI (match r with CS s :: _ => if String.eqb s "green" then 1 else 2 | _ => 2 end)), w).
Lemma names_ab j s : names_of [ab; ab] None j s -> s = "a"%string \/ s = "b"%string.
Proof.
  intros [H|(d & r & H & _)]; [|discriminate H].
  destruct j as [|[|j]]; cbn in H; [| |destruct j; contradiction]; destruct H as [H|[H|[]]]; inversion H; auto.
Qed.
Lemma new_names_up j s t : names_of [ab; ab] None j s -> names_of [ab; ab] None j t -> String.ltb s t = true -> String.ltb (new_names j s) (new_names j t) = true.
Proof.
  intros Hs Ht. apply names_ab in Hs, Ht. destruct Hs as [->| ->], Ht as [->| ->], j as [|j]; cbn; intros H; try discriminate H; reflexivity.
Qed.
Lemma green_costs (r : row) w : List.length r = 2 -> Forall (fun c => is_str c = true) r -> cost_green (rename_row new_names r) w = cost_a r w.
Proof.
  intros _ H. destruct H as [|c r Hc H]; [reflexivity|]. destruct c as [z|x|s]; try discriminate Hc. unfold cost_green, cost_a. cbn.
  destruct (String.eqb_spec s "a") as [->|]; reflexivity.
Qed.

(** "a" and "b" exchanged. *)
Definition exchange (j : nat) (s : string) : string :=
  (if String.eqb s "a" then "b" else if String.eqb s "b" then "a" else s)%string.
Lemma exchange_inj j s t : exchange j s = exchange j t -> s = t.
Proof.
  unfold exchange. destruct (String.eqb_spec s "a"), (String.eqb_spec t "a"), (String.eqb_spec s "b"), (String.eqb_spec t "b"); congruence.
Qed.
Definition cost_b (r : row) (w : unit) : res NdArray.num * unit :=
  (Ok (NI (match r with CS s :: _ => if String.eqb s "b" then 1 else 2 | _ => 2 end)), w).
Lemma exchange_costs (r : row) w : cost_b (rename_row exchange r) w = cost_a r w.
Proof.
  destruct r as [|[z|x|s] r]; try reflexivity. unfold cost_b, cost_a, exchange. cbn. 
  destruct (String.eqb_spec s "a") as [->|]; [reflexivity|]. destruct (String.eqb_spec s "b") as [->|N]; [reflexivity|]. apply String.eqb_neq in N. rewrite N. reflexivity.
Qed.
Definition last_cost (r : result) : f64 := last (r_history r) fnan.
Lemma exchange_changes : exists o o' r r' s s',
  umdacat_new env_rows (args3 1) [ab] [eighths] = Ok o /\
  umdacat_new env_rows (rename_args exchange (args3 1)) (rename_values exchange [ab]) [eighths] = Ok o' /\
  run env_rows o cost_a ftol_default false tt = (Ok r, s) /\ run env_rows o' cost_b ftol_default false tt = (Ok r', s') /\
  flt (last_cost r) (last_cost r') = true.
Proof.
  assert (H : ran env_rows (umdacat_new env_rows (args3 1) [ab] [eighths]) cost_a ftol_default tt (fun r _ =>
    ran env_rows (umdacat_new env_rows (rename_args exchange (args3 1)) (rename_values exchange [ab]) [eighths]) cost_b ftol_default tt
        (fun r' _ => flt (last_cost r) (last_cost r'))) = true) by (vm_compute; reflexivity).
  apply ran_ok in H as (o & r & s & H1 & H2 & H). apply ran_ok in H as (o' & r' & s' & H3 & H4 & H). exists o, o', r, r', s, s'. auto 6.
Qed.
