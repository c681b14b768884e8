(** Cases for C131. *)
From Coq Require Import String List ZArith Bool Lia Reals Lra.
From Flocq Require Import Core IEEE754.BinarySingleNaN.
From Verif Require Import PyBase B64 B64More NdArray Eda EdaInv Spec LoopObs TopK Rand RandThms Models ModelThms FloatSum Kahan Chance Inits InitThms Stock StockInv StockAll
  StockCat StockMore Trunc MaxLik Mean Found FoundBest FoundDemo LostBits LostCat LostCatDemo FirstChance Demo DemoModels DemoStock DemoExt.
Import ListNotations.
Open Scope R_scope.

(** Four individuals of two bits; a tape of zeros gives 11 and one of 2^52 gives 00. *)
Lemma first_bits_met : tape_rng (e_rng tape_env) /\
  exists o r s r' s', construct tape_env (UMDAd None quarter three_quarters) tape_args = Ok o /\ used tape_env o o /\
    run tape_env o (fun r w => (Ok (NF (first_bit r)), w)) (Z2f 0) false (repeat 0%Z (all_draws tape_args)) = (Ok r, s) /\
    (first_without (bits [false; false]) (s_tr s) && flt (first_bit (bits [false; false])) (r_best_cost r))%bool = true /\
    run tape_env o (fun r w => (Ok (NF (first_bit r)), w)) (Z2f 0) false (repeat (2 ^ 52)%Z (all_draws tape_args)) = (Ok r', s') /\
    (first_without (bits [false; false]) (s_tr s') || flt (first_bit (bits [false; false])) (r_best_cost r'))%bool = false.
Proof.
  split; [intros r c w; reflexivity|].
  destruct (ran_ok tape_env (construct tape_env (UMDAd None quarter three_quarters) tape_args) (fun r w => (Ok (NF (first_bit r)), w)) (Z2f 0) (repeat 0%Z (all_draws tape_args))
      (fun r tr => first_without (bits [false; false]) tr && flt (first_bit (bits [false; false])) (r_best_cost r))%bool) as (o & r & s & A & B & C); [vm_compute; reflexivity|].
  destruct (ran_ok tape_env (construct tape_env (UMDAd None quarter three_quarters) tape_args) (fun r w => (Ok (NF (first_bit r)), w)) (Z2f 0) (repeat (2 ^ 52)%Z (all_draws tape_args))
      (fun r tr => negb (first_without (bits [false; false]) tr || flt (first_bit (bits [false; false])) (r_best_cost r)))%bool) as (o' & r' & s' & A' & B' & C'); [vm_compute; reflexivity|].
  assert (o' = o) by congruence. subst o'. apply negb_true_iff in C'. exists o, r, s, r', s'. split; [exact A|]. split; [constructor|]. split; [exact B|]. split; [exact C|]. split; [exact B'|exact C'].
Qed.

(** Two variables with two strings each: a tape of zeros gives "a", "x", one of 2^52 gives "b", "y". *)
Lemma first_cat_met :
  cyclic_rng (e_rng cyclic_env) /\ cats_ok strings2 halves2 /\ LostCat.declared strings2 halves2 0 target_by [DemoModels.half; DemoModels.half] /\
  declared_values (UMDAcat strings2 halves2) = Some (strings2, halves2) /\ declared_values (EBNA strings2 halves2) = Some (strings2, halves2) /\
  (exists e, construct cyclic_env (EBNA strings2 halves2) tape_args = Ok e) /\
  exists o r s r' s', construct cyclic_env (UMDAcat strings2 halves2) tape_args = Ok o /\ used cyclic_env o o /\
    run cyclic_env o (fun r w => (Ok (NF (only_by r)), w)) (Z2f 0) false (repeat 0%Z 24) = (Ok r, s) /\
    (first_without target_by (s_tr s) && flt (only_by target_by) (r_best_cost r))%bool = true /\
    run cyclic_env o (fun r w => (Ok (NF (only_by r)), w)) (Z2f 0) false (repeat (2 ^ 52)%Z 24) = (Ok r', s') /\
    (first_without target_by (s_tr s') || flt (only_by target_by) (r_best_cost r'))%bool = false.
Proof.
  split; [intros r c w; reflexivity|]. split; [exact strings2_ok|]. split; [exact declared_by|]. split; [reflexivity|]. split; [reflexivity|]. split.
  { destruct (construct cyclic_env (EBNA strings2 halves2) tape_args) as [e|e] eqn:Ee; [exists e; reflexivity|exfalso].
    assert (K : match construct cyclic_env (EBNA strings2 halves2) tape_args with Ok _ => true | Raise _ => false end = true) by (vm_compute; reflexivity). rewrite Ee in K. discriminate K. }
  destruct (ran_ok cyclic_env (construct cyclic_env (UMDAcat strings2 halves2) tape_args) (fun r w => (Ok (NF (only_by r)), w)) (Z2f 0) (repeat 0%Z 24)
      (fun r tr => first_without target_by tr && flt (only_by target_by) (r_best_cost r))%bool) as (o & r & s & A & B & C); [vm_compute; reflexivity|].
  destruct (ran_ok cyclic_env (construct cyclic_env (UMDAcat strings2 halves2) tape_args) (fun r w => (Ok (NF (only_by r)), w)) (Z2f 0) (repeat (2 ^ 52)%Z 24)
      (fun r tr => negb (first_without target_by tr || flt (only_by target_by) (r_best_cost r)))%bool) as (o' & r' & s' & A' & B' & C'); [vm_compute; reflexivity|].
  assert (o' = o) by congruence. subst o'. apply negb_true_iff in C'. exists o, r, s, r', s'. split; [exact A|]. split; [constructor|]. split; [exact B|]. split; [exact C|]. split; [exact B'|exact C'].
Qed.
