(** Concrete runs with scaled costs. *)
From Coq Require Import String List ZArith Bool Lia Reals Lra.
From Flocq Require Import Core IEEE754.BinarySingleNaN.
From Verif Require Import PyBase B64 B64More NdArray Eda EdaInv Spec Demo OrderRel DemoOrder InitGauss DemoModels Scale.
Import ListNotations.
Open Scope Z_scope.

Lemma roomy_Z z : Z.abs z <= 2 ^ 53 -> z <> 0 -> roomy (Z2f z).
Proof.
  intros H N. destruct (Z2f_exact z H) as [E F]. right. right. rewrite E, <- abs_IZR. split.
  - apply Rle_trans with (bpow radix2 0); [apply bpow_le; lia|]. cbn [bpow]. apply IZR_le. lia.
  - apply Rle_trans with (IZR (2 ^ 53)); [apply IZR_le; exact H|].
    change (IZR (2 ^ 53)) with (bpow radix2 53). apply bpow_le. lia.
Qed.
(** Cost 13, the largest double below [13 * (1 + 1e-8)] (which is above 13), and 20. *)
Definition edge : f64 := lit 0x1a0000045cb105 (-49).
Definition edgy (r : row) : f64 := three (Z2f 13) edge (Z2f 20) r.
Lemma edge_roomy : roomy edge.
Proof.
  destruct (lit_R 0x1a0000045cb105 (-49) (IZR 0x1a0000045cb105 * bpow radix2 (-49))) as [E _]; [lia|lia|reflexivity|].
  right. right. unfold edge. rewrite E, Rabs_mult, <- abs_IZR, (Rabs_pos_eq (bpow radix2 (-49))) by apply bpow_ge_0. split.
  - apply Rle_trans with (1 * bpow radix2 (-49))%R; [rewrite Rmult_1_l; apply bpow_le; lia|].
    apply Rmult_le_compat_r; [apply bpow_ge_0|apply IZR_le; lia].
  - apply Rle_trans with (IZR (2 ^ 53) * bpow radix2 (-49))%R; [apply Rmult_le_compat_r; [apply bpow_ge_0|apply IZR_le; lia]|].
    change (IZR (2 ^ 53)) with (bpow radix2 53). rewrite <- bpow_plus. apply bpow_le. lia.
Qed.
Lemma edgy_roomy : returns_in roomy (with_cost edgy).
Proof.
  intros r w. cbn [with_cost scripted h_cost fst]. unfold edgy. destruct (three_cases (Z2f 13) edge (Z2f 20) r) as [E|[E|E]]; rewrite E.
  - apply roomy_Z; lia.
  - exact edge_roomy.
  - apply roomy_Z; lia.
Qed.
Lemma usual_default : usual_tol ftol_default.
Proof.
  assert (F : isfin ftol_default = true) by (vm_compute; reflexivity). split; [exact F|].
  assert (L : fle (Z2f 0) ftol_default = true) by (vm_compute; reflexivity).
  assert (U : fle ftol_default (Z2f 1) = true) by (vm_compute; reflexivity).
  destruct (Z2f_exact 0) as [E0 F0]; [lia|]. destruct (Z2f_exact 1) as [E1 F1]; [lia|].
  apply fle_fin in L; [|exact F0|exact F]. apply fle_fin in U; [|exact F|exact F1]. rewrite E0 in L. rewrite E1 in U. lra.
Qed.
Definition eighth (r : row) : f64 := scaled (-3) (edgy r).
Definition tripled (r : row) : f64 := triple (edgy r).
Lemma edgy_run : exists r tr, completes order_cfg (with_cost edgy) ftol_default false order_start r tr /\
  best_is (r_best_ind r) (inl (Z2f 1)) && Nat.eqb (List.length (r_history r)) 4 = true.
Proof.
  apply (run_check_completes order_cfg (with_cost edgy) ftol_default false order_start
           (fun r _ => best_is (r_best_ind r) (inl (Z2f 1)) && Nat.eqb (List.length (r_history r)) 4)); vm_compute; reflexivity.
Qed.
Lemma eighth_run : exists r tr, completes order_cfg (with_cost eighth) ftol_default false order_start r tr /\
  best_is (r_best_ind r) (inl (Z2f 1)) && Nat.eqb (List.length (r_history r)) 4 = true.
Proof.
  apply (run_check_completes order_cfg (with_cost eighth) ftol_default false order_start
           (fun r _ => best_is (r_best_ind r) (inl (Z2f 1)) && Nat.eqb (List.length (r_history r)) 4)); vm_compute; reflexivity.
Qed.
Lemma tripled_run : exists r tr, completes order_cfg (with_cost tripled) ftol_default false order_start r tr /\
  best_is (r_best_ind r) (inr 1%nat) && Nat.eqb (List.length (r_history r)) 3 = true.
Proof.
  apply (run_check_completes order_cfg (with_cost tripled) ftol_default false order_start
           (fun r _ => best_is (r_best_ind r) (inr 1%nat) && Nat.eqb (List.length (r_history r)) 3)); vm_compute; reflexivity.
Qed.
Lemma eighth_after : forall r w, h_cost (with_cost eighth) r w = after (scaled (-3)) (h_cost (with_cost edgy) r w).
Proof. reflexivity. Qed.

Lemma tripling_matters : exists (c : cfg) f s r tr r' tr',
  (forall x, roomy (f x)) /\
  completes c (with_cost f) ftol_default false s r tr /\
  completes c (with_cost (fun x => fmul (Z2f 3) (f x))) ftol_default false s r' tr' /\
  r_best_ind r <> r_best_ind r' /\ List.length (r_history r) <> List.length (r_history r').
Proof.
  destruct edgy_run as (r & tr & H & E). destruct tripled_run as (r' & tr' & H' & E').
  apply andb_prop in E as [E1 E2]. apply andb_prop in E' as [E1' E2'].
  exists order_cfg, edgy, order_start, r, tr, r', tr'. split; [|split; [exact H|split; [exact H'|split]]].
  - intros x. exact (edgy_roomy x []).
  - intros E. rewrite E in E1. destruct (r_best_ind r') as [i|[|[z|x|s] row]]; [discriminate E1|discriminate E1'..].
  - apply Nat.eqb_eq in E2, E2'. rewrite E2, E2'. discriminate.
Qed.
