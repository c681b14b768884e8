(** Cases for C126. *)
From Coq Require Import String List ZArith Bool Lia Reals Lra.
From Flocq Require Import Core IEEE754.BinarySingleNaN.
From Verif Require Import PyBase B64 B64More NdArray Eda EdaInv Spec LoopObs TopK Rand RandThms Models ModelThms Chance Inits Stock StockInv StockAll
  MaxLik Mean Found FoundBest FoundDemo Lost LostBits Demo DemoModels DemoStock DemoExt.
Import ListNotations.
Open Scope R_scope.

(** The number of bits that differ from 01. *)
Definition one_best (r : row) : f64 := match r with [CI x; CI y] => Z2f (x + (1 - y)) | _ => fone end.

Lemma lost_met :
  tape_rng (e_rng tape_env) /\ prob (Z2f 0) /\ prob fone /\ int_times (g_size_gen tape_args) (g_alpha tape_args) = Ok 2%Z /\
  List.length (filter (fun b : bool => if b then feq (Z2f 0) (Z2f 0) else feq fone fone) [false; true]) = 2%nat /\
  (forall r, bit_row 2 r -> feq (one_best r) (one_best (bits [false; true])) = true -> r = bits [false; true]) /\
  exists o r s, construct tape_env (UMDAd None (Z2f 0) fone) tape_args = Ok o /\ used tape_env o o /\
    run tape_env o (fun r w => (Ok (NF (one_best r)), w)) (Z2f 0) false (repeat 0%Z (all_draws tape_args)) = (Ok r, s) /\
    (evaluates [true; true] (s_tr s) && negb (evaluates [false; true] (s_tr s)))%bool = true.
Proof.
  split; [intros r c w; reflexivity|]. split; [split; reflexivity|]. split; [split; reflexivity|]. split; [reflexivity|]. split; [reflexivity|]. split.
  - intros r [Hl Hb] Hf. destruct r as [|x [|y [|]]]; try discriminate Hl. inversion Hb as [|? ? Hx Hb']; subst. inversion Hb' as [|? ? Hy _]; subst.
    destruct Hx as [->| ->], Hy as [->| ->]; try reflexivity; (exfalso; vm_compute in Hf; discriminate Hf).
  - destruct (ran_ok tape_env (construct tape_env (UMDAd None (Z2f 0) fone) tape_args) (fun r w => (Ok (NF (one_best r)), w)) (Z2f 0) (repeat 0%Z (all_draws tape_args))
      (fun _ tr => evaluates [true; true] tr && negb (evaluates [false; true] tr))%bool) as (o & r & s & A & B & C);
      [vm_compute; reflexivity|]. exists o, r, s. split; [exact A|]. split; [constructor|]. split; [exact B|exact C].
Qed.
