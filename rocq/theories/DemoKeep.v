(** Two of three variables, for the examples of Properties_Keep.v. *)
From Coq Require Import String List ZArith Bool Lia.
From Verif Require Import PyBase B64 B64More NdArray Eda EdaInv Spec Rand RandThms Models Inits Stock LoopMap LoopKeep VarOrder VarKeep KeepRun Demo DemoModels DemoStock DemoVar.
Import ListNotations.
Open Scope nat_scope.

(** The third and the first of three variables. *)
Definition two_of : list nat := [2; 0].
Lemma two_of_three : Forall (fun j => j < 3) two_of.
Proof. repeat constructor. Qed.
Definition three_rng : rng unit := col_rng [quarter; half; quarter] [Z2f (-1); Z2f 2; Z2f 3].
Definition two_rng : rng unit := col_rng [quarter; quarter] [Z2f 3; Z2f (-1)].
Lemma demo_draws_of : draws_of 3 two_of three_rng two_rng.
Proof.
  intros r w. cbn. split; (split; [reflexivity|]); intros i k Hk; destruct k as [|[|k]]; try reflexivity; lia.
Qed.
(** The cost of three variables is the first one's value, that of the two kept ones their second's. *)
Lemma demo_cost_of (r : row) w : List.length r = 3 -> second_cell (only_row 3 two_of r) w = cost0 r w.
Proof. intros H. destruct r as [|x [|y [|z [|t r]]]]; try discriminate H. reflexivity. Qed.
Lemma three_no_data d : g_init_data (demo_args 3 3 None) = Some d -> number_matrix d.
Proof. discriminate. Qed.
Definition lo3 : bound := BList true [Z2f 0; Z2f 10; Z2f 5].
Definition hi3 : bound := BList true [Z2f 1; Z2f 20; Z2f 7].
(** The best individual is a row of three cells. *)
Definition three_cells (r : result) : bool := match r_best_ind r with BRow [_; _; _] => true | _ => false end.
Definition three_numbers : arr :=
  mkArr DFloat 3 [[CF (Z2f 1); CF (Z2f 5); CF (Z2f 7)]; [CF (Z2f 2); CF (Z2f 3); CF (Z2f 0)]; [CF (Z2f 6); CF (Z2f 4); CF (Z2f 1)]].
Lemma three_number_matrix : number_matrix three_numbers.
Proof. unfold number_matrix. repeat (apply Forall_cons || apply Forall_nil || split); reflexivity. Qed.
