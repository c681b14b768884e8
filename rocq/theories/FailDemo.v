(** A run that raises in its third iteration. *)
From Coq Require Import String List ZArith Bool Lia.
From Verif Require Import PyBase B64 NdArray Eda EdaInv Spec LoopFail LoopPar Demo MixedDemo.
Import ListNotations.
Open Scope nat_scope.

(** The random stream ends with the third generation. *)
Definition cut_start : st unit (list arr) :=
  start tt [icol [5; 3; 4; 6]%Z; col (ints [2; 6; 7; 4]%Z); col (ints [9; 2; 8; 3]%Z)].

Lemma cut_runs : argsort_ok (h_argsort mixed_hooks) /\ (0 <= c_trunc_len mixed_cfg)%Z /\ (0 <= c_elite_len mixed_cfg)%Z /\
  (forall g e p, h_data mixed_hooks g e p = (Ok g, p)) /\
  exists e tr, executes mixed_cfg mixed_hooks ftol_default true cut_start (Raise e) tr /\ all_float_returns tr /\
    List.length (gens tr) = 3 /\ List.length (selections tr) = 3 /\ List.length (learns tr) = 3.
Proof.
  split; [exact argsort_ref_ok|]. split; [vm_compute; discriminate|]. split; [vm_compute; discriminate|]. split; [reflexivity|].
  set (out := minimize mixed_cfg mixed_hooks ftol_default true cut_start).
  assert (Hc : match out with
    | (Raise _, s') => all_floatsb (s_tr s') && Nat.eqb (List.length (gens (s_tr s'))) 3 && Nat.eqb (List.length (selections (s_tr s'))) 3 &&
        Nat.eqb (List.length (learns (s_tr s'))) 3
    | _ => false end = true) by (vm_compute; reflexivity).
  destruct out as [[r|e] s'] eqn:E; [discriminate|].
  apply andb_true_iff in Hc as [Hc H4]. apply andb_true_iff in Hc as [Hc H3]. apply andb_true_iff in Hc as [H1 H2].
  exists e, (s_tr s'). split; [split; [reflexivity|]; exists s'; split; [exact E|reflexivity]|].
  split; [apply all_floatsb_ok, H1|]. repeat split; apply Nat.eqb_eq; assumption.
Qed.
