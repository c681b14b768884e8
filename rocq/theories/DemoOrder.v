(** Concrete cost functions that rank solutions alike. *)
From Coq Require Import String List ZArith Bool.
From Verif Require Import PyBase B64 NdArray Eda EdaInv Spec Demo OrderRel.
Import ListNotations.
Open Scope Z_scope.

(** Three classes of solutions, by their first variable. *)
Definition three (a b d : f64) (r : row) : f64 :=
  match r with
  | CF x :: _ => if feq x (Z2f 0) then a else if feq x (Z2f 1) then b else d
  | _ => d
  end.
(** Costs 1, 1 + 2^-30 and 3; and the same minus 2. *)
Definition just_above (z : Z) : f64 := fadd (Z2f z) (lit 1 (-30)).
Definition plain (r : row) : f64 := three (Z2f 1) (just_above 1) (Z2f 3) r.
Definition shifted (r : row) : f64 := three (Z2f (-1)) (just_above (-1)) (Z2f 1) r.
Definition with_cost (f : row -> f64) : hooks unit (list arr) := scripted (fun r => NF (f r)) 1.
Definition order_start : st unit (list arr) :=
  start tt [col (ints [2; 0; 2; 2]); col (ints [2; 1; 2; 2]); col (ints [2; 2; 2; 2]); col (ints [2; 2; 2; 2])].
Definition order_cfg : cfg := conf 4 10 2 false None None.

Lemma three_cases a b d r : three a b d r = a \/ three a b d r = b \/ three a b d r = d.
Proof. unfold three. destruct r as [|[z|x|s] r]; auto. destruct (feq x (Z2f 0)); auto. destruct (feq x (Z2f 1)); auto. Qed.
Lemma three_pair a b d a' b' d' r :
  (three a b d r, three a' b' d' r) = (a, a') \/ (three a b d r, three a' b' d' r) = (b, b') \/
  (three a b d r, three a' b' d' r) = (d, d').
Proof. unfold three. destruct r as [|[z|x|s] r]; auto. destruct (feq x (Z2f 0)); auto. destruct (feq x (Z2f 1)); auto. Qed.
Lemma plain_shifted : ranks_alike plain shifted.
Proof.
  split.
  - intros r1 r2. unfold plain, shifted.
    destruct (three_pair (Z2f 1) (just_above 1) (Z2f 3) (Z2f (-1)) (just_above (-1)) (Z2f 1) r1) as [E|[E|E]]; apply pair_equal_spec in E as [-> ->];
    destruct (three_pair (Z2f 1) (just_above 1) (Z2f 3) (Z2f (-1)) (just_above (-1)) (Z2f 1) r2) as [E|[E|E]]; apply pair_equal_spec in E as [-> ->];
    vm_compute; reflexivity.
  - intros r. unfold plain, shifted.
    destruct (three_pair (Z2f 1) (just_above 1) (Z2f 3) (Z2f (-1)) (just_above (-1)) (Z2f 1) r) as [E|[E|E]]; apply pair_equal_spec in E as [-> ->];
    vm_compute; reflexivity.
Qed.
Lemma order_same_hooks f f' : same_but_cost (with_cost f) (with_cost f').
Proof. split; [reflexivity|]. repeat (split; [reflexivity|]). reflexivity. Qed.

(** The best solution a run reports, as an index or the first variable of the row. *)
Definition best_is (b : bind) (x : f64 + nat) : bool :=
  match b, x with
  | BIdx i, inr j => Nat.eqb i j
  | BRow (CF y :: _), inl z => feq y z
  | _, _ => false
  end.
Lemma plain_default : exists r tr, completes order_cfg (with_cost plain) ftol_default false order_start r tr /\
  best_is (r_best_ind r) (inl (Z2f 1)) && Nat.eqb (List.length (r_history r)) 4 = true.
Proof.
  apply (run_check_completes order_cfg (with_cost plain) ftol_default false order_start
           (fun r _ => best_is (r_best_ind r) (inl (Z2f 1)) && Nat.eqb (List.length (r_history r)) 4)); vm_compute; reflexivity.
Qed.
Lemma shifted_default : exists r tr, completes order_cfg (with_cost shifted) ftol_default false order_start r tr /\
  best_is (r_best_ind r) (inr 1%nat) && Nat.eqb (List.length (r_history r)) 3 = true.
Proof.
  apply (run_check_completes order_cfg (with_cost shifted) ftol_default false order_start
           (fun r _ => best_is (r_best_ind r) (inr 1%nat) && Nat.eqb (List.length (r_history r)) 3)); vm_compute; reflexivity.
Qed.
Lemma plain_zero : exists r tr, completes order_cfg (with_cost plain) (Z2f 0) false order_start r tr /\
  best_is (r_best_ind r) (inr 1%nat) && Nat.eqb (List.length (r_history r)) 3 = true.
Proof.
  apply (run_check_completes order_cfg (with_cost plain) (Z2f 0) false order_start
           (fun r _ => best_is (r_best_ind r) (inr 1%nat) && Nat.eqb (List.length (r_history r)) 3)); vm_compute; reflexivity.
Qed.
(** A transformation: multiplication by three, on the costs that occur. *)
Definition occurring (x : f64) : Prop := x = Z2f 1 \/ x = just_above 1 \/ x = Z2f 3.
Definition triple (x : f64) : f64 := fmul (Z2f 3) x.
Lemma triple_preserving : order_preserving occurring triple.
Proof. intros x y [E|[E|E]] [F|[F|F]]; subst x y; vm_compute; split; reflexivity. Qed.
Lemma plain_occurring : returns_in occurring (with_cost plain).
Proof. intros r w. cbn [with_cost scripted h_cost fst]. apply three_cases. Qed.

Lemma tolerance_matters : exists (c : cfg) f f' s r tr r' tr',
  ranks_alike f f' /\
  completes c (with_cost f) ftol_default false s r tr /\
  completes c (with_cost f') ftol_default false s r' tr' /\
  r_best_ind r <> r_best_ind r' /\ List.length (r_history r) <> List.length (r_history r').
Proof.
  destruct plain_default as (r & tr & H & E). destruct shifted_default as (r' & tr' & H' & E').
  apply andb_prop in E as [E1 E2]. apply andb_prop in E' as [E1' E2'].
  exists order_cfg, plain, shifted, order_start, r, tr, r', tr'. split; [exact plain_shifted|]. split; [exact H|]. split; [exact H'|].
  split.
  - intros E. rewrite E in E1. destruct (r_best_ind r') as [i|[|[z|x|s] row]]; [discriminate E1|discriminate E1'..].
  - apply Nat.eqb_eq in E2, E2'. rewrite E2, E2'. discriminate.
Qed.
