(** Two variables in both orders, for the examples of Properties_VarOrder.v. *)
From Coq Require Import String List ZArith Bool Lia Permutation.
From Verif Require Import PyBase B64 B64More NdArray Eda EdaInv Spec Rand RandThms Models Inits Stock LoopMap VarOrder VarRun VarLearn Demo DemoModels DemoStock.
Import ListNotations.
Open Scope nat_scope.

(** Every variable has its own draws. *)
Definition col_rng (u z : list f64) : rng unit := {|
  g_unif := fun _ _ w => (fun _ j => nth j u fnan, w);
  g_gauss := fun _ _ w => (fun _ j => nth j z fnan, w);
  g_pick := fun _ _ w => (fun _ => 0, w);
  g_mvn := fun _ _ _ w => (Raise ValueError, w)
|}.
Definition swap : list nat := [1; 0].
Lemma swap_perm : Permutation swap (seq 0 2).
Proof. apply perm_swap. Qed.
Definition one_way : rng unit := col_rng [quarter; half] [Z2f (-1); Z2f 2].
Definition other_way : rng unit := col_rng [half; quarter] [Z2f 2; Z2f (-1)].
Lemma demo_follow : draws_follow swap one_way other_way.
Proof.
  intros r w. cbn. split; (split; [reflexivity|]); intros i k Hk; destruct k as [|[|k]]; try reflexivity; lia.
Qed.
Lemma other_env : with_rng (demo_env one_way) other_way = demo_env other_way.
Proof. reflexivity. Qed.
Definition second_cell (r : row) (w : unit) : res NdArray.num * unit := (Ok (first_cell (tl r)), w).
Lemma demo_costs (r : row) w : List.length r = 2 -> second_cell (reorder_row swap r) w = cost0 r w.
Proof. intros H. destruct r as [|x [|y [|z r]]]; try discriminate H. reflexivity. Qed.
Lemma demo_no_data d : g_init_data (demo_args 3 2 None) = Some d -> number_matrix d.
Proof. discriminate. Qed.

(** The two cells of the best individual. *)
Definition best_cells (r : result) : option (f64 * f64) :=
  match r_best_ind r with
  | BRow [CF x; CF y] => Some (x, y)
  | BRow [CI x; CI y] => Some (Z2f x, Z2f y)
  | _ => None
  end.
Definition apart (r : result) : bool := match best_cells r with Some (x, y) => flt x y || flt y x | None => false end.

Definition lo2 : bound := BList true [Z2f 0; Z2f 10].
Definition hi2 : bound := BList true [Z2f 1; Z2f 20].
Lemma ran_exists {X W} (E : env X W) ro cost ftol w P : ran E ro cost ftol w P = true ->
  exists o r s, ro = Ok o /\ run E o cost ftol false w = (Ok r, s) /\ P r (s_tr s) = true.
Proof. apply ran_ok. Qed.

Definition demo_numbers : arr := mkArr DFloat 2 [[CF (Z2f 1); CF (Z2f 5)]; [CF (Z2f 2); CF (Z2f 3)]; [CF (Z2f 6); CF (Z2f 4)]].
Lemma demo_number_matrix : number_matrix demo_numbers.
Proof. unfold number_matrix. repeat (apply Forall_cons || apply Forall_nil || split); reflexivity. Qed.
