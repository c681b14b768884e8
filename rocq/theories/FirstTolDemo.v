(** A case for C132. *)
From Coq Require Import String List ZArith Bool Lia Reals Lra.
From Flocq Require Import Core IEEE754.BinarySingleNaN.
From Verif Require Import PyBase B64 B64More NdArray Eda EdaInv Spec LoopObs TopK Rand RandThms Models ModelThms FloatSum Kahan Chance Inits InitThms Stock StockInv StockAll
  StockCat StockMore Trunc MaxLik Mean Found FoundBest FoundDemo LostBits LostCat LostCatDemo FirstChance FirstTol Demo DemoModels DemoStock DemoExt.
Import ListNotations.
Open Scope R_scope.

(** A cost of both signs: the first bit minus one half. *)
Definition signed_bit (r : row) : f64 := fsub (first_bit r) DemoModels.half.

Lemma first_tol_met : tape_rng (e_rng tape_env) /\ tol_ok ftol_default /\ feq ftol_default (Z2f 0) = false /\
  fle (Z2f 0) (signed_bit (bits [false; false])) = false /\ fle (Z2f 0) (signed_bit (bits [true; true])) = true /\
  (forall r, bit_row 2 r -> isnan (signed_bit r) = false) /\
  exists o r s r' s', construct tape_env (UMDAd None quarter three_quarters) tape_args = Ok o /\ used tape_env o o /\
    run tape_env o (fun r w => (Ok (NF (signed_bit r)), w)) ftol_default false (repeat 0%Z (all_draws tape_args)) = (Ok r, s) /\
    above_tol ftol_default 2 (signed_bit (bits [false; false])) (r_best_cost r) = true /\
    run tape_env o (fun r w => (Ok (NF (signed_bit r)), w)) ftol_default false (repeat (2 ^ 52)%Z (all_draws tape_args)) = (Ok r', s') /\
    above_tol ftol_default 2 (signed_bit (bits [false; false])) (r_best_cost r') = false.
Proof.
  split; [intros r c w; reflexivity|]. split; [split; vm_compute; reflexivity|]. split; [vm_compute; reflexivity|]. split; [vm_compute; reflexivity|]. split; [vm_compute; reflexivity|].
  split. { intros r [Hl Hb]. destruct r as [|c r]; [discriminate Hl|]. inversion Hb as [|? ? [->| ->] _]; subst; vm_compute; reflexivity. }
  destruct (ran_ok tape_env (construct tape_env (UMDAd None quarter three_quarters) tape_args) (fun r w => (Ok (NF (signed_bit r)), w)) ftol_default (repeat 0%Z (all_draws tape_args))
      (fun r tr => above_tol ftol_default 2 (signed_bit (bits [false; false])) (r_best_cost r))%bool) as (o & r & s & A & B & C); [vm_compute; reflexivity|].
  destruct (ran_ok tape_env (construct tape_env (UMDAd None quarter three_quarters) tape_args) (fun r w => (Ok (NF (signed_bit r)), w)) ftol_default (repeat (2 ^ 52)%Z (all_draws tape_args))
      (fun r tr => negb (above_tol ftol_default 2 (signed_bit (bits [false; false])) (r_best_cost r)))%bool) as (o' & r' & s' & A' & B' & C'); [vm_compute; reflexivity|].
  assert (o' = o) by congruence. subst o'. apply negb_true_iff in C'. exists o, r, s, r', s'. split; [exact A|]. split; [constructor|]. split; [exact B|]. split; [exact C|]. split; [exact B'|exact C'].
Qed.
