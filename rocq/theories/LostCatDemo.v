(** Cases for C127. *)
From Coq Require Import String List ZArith Bool Lia Reals Lra.
From Flocq Require Import Core IEEE754.BinarySingleNaN.
From Verif Require Import PyBase B64 B64More NdArray Eda EdaInv Spec LoopObs TopK Rand RandThms Models ModelThms FloatSum Kahan Chance Inits InitThms Stock StockInv StockAll
  StockCat Trunc MaxLik Mean Found FoundBest FoundDemo Lost LostBits LostCat Demo DemoModels DemoStock DemoExt.
Import ListNotations.
Open Scope R_scope.

(** A tape of integers, each read modulo 2^53. *)
Definition cyclic_reader : rng (list Z) :=
  mkRng (fun r c w => (fun i j => unit53 (nth (i * c + j) w 0 mod 2 ^ 53)%Z, skipn (r * c) w)) (fun _ _ w => (fun _ _ => Z2f 0, w)) (fun _ _ w => (fun _ => 0%nat, w))
        (fun _ _ _ w => (Ok (fun _ _ => Z2f 0), w)).
Definition cyclic_env : env nat (list Z) :=
  mkEnv cyclic_reader seq_sum (fun _ => "0"%string) argsort_ref (mkPool 0 (fun i => i) (fun _ => 0%nat)) (fun _ _ => 0%nat)
        (fun _ d _ w => (Ok tt, (a_len d, w))) (fun _ _ _ w => (Raise ValueError, w)).
Definition target_by : row := [CS "b"; CS "y"].
(** 0 for the target, 1 for all other solutions. *)
Definition only_by (r : row) : f64 := if row_is target_by r then Z2f 0 else fone.

Lemma declared_by : declared strings2 halves2 0 target_by [DemoModels.half; DemoModels.half].
Proof.
  split; [reflexivity|]. intros j c p Hc Hp.
  assert (S1 : Rabs (real_sum [DemoModels.half; DemoModels.half] - 1) <= 0).
  { unfold DemoModels.half, real_sum. cbn [fold_right]. destruct (lit_R 1 (-1) (/ 2)) as [-> _]; [cbn; lia|lia|cbn; lra|]. replace (/ 2 + (/ 2 + 0) - 1) with 0 by lra. rewrite Rabs_R0. lra. }
  destruct j as [|[|j]]; [| |destruct j; discriminate Hc]; cbn [nth_error target_by] in Hc, Hp;
    [exists [CS "a"; CS "b"], [DemoModels.half; DemoModels.half], 1%nat|exists [CS "x"; CS "y"], [DemoModels.half; DemoModels.half], 1%nat];
    (split; [reflexivity|]; split; [reflexivity|]; split; [exact Hc|]; split; [exact Hp|]; split; [|split; [discriminate|exact S1]];
     constructor; [intros [H|[]]; discriminate H|]; constructor; [intros []|constructor]).
Qed.

Lemma lost_cat_met :
  cyclic_rng (e_rng cyclic_env) /\ argsort_ok (e_argsort cyclic_env) /\ cats_ok strings2 halves2 /\ factor (g_alpha tape_args) /\
  declared strings2 halves2 0 target_by [DemoModels.half; DemoModels.half] /\
  (forall r, cat_row 2 strings2 r -> feq (only_by r) (only_by target_by) = true -> r = target_by) /\
  exists o r s, construct cyclic_env (UMDAcat strings2 halves2) tape_args = Ok o /\ used cyclic_env o o /\
    run cyclic_env o (fun r w => (Ok (NF (only_by r)), w)) (Z2f 0) false (repeat 0%Z 24) = (Ok r, s) /\
    (evaluates_row [CS "a"; CS "x"] (s_tr s) && negb (evaluates_row target_by (s_tr s)) && Nat.eqb (List.length (gens (s_tr s))) 3)%bool = true.
Proof.
  split; [intros r c w; reflexivity|]. split; [apply argsort_ref_ok|]. split; [exact strings2_ok|]. split; [exact factor_half|]. split; [exact declared_by|]. split.
  - intros r _ Hf. apply row_is_eq. unfold only_by in Hf. change (row_is target_by target_by) with true in Hf. cbv iota in Hf.
    destruct (row_is target_by r); [reflexivity|]. vm_compute in Hf. discriminate Hf.
  - destruct (ran_ok cyclic_env (construct cyclic_env (UMDAcat strings2 halves2) tape_args) (fun r w => (Ok (NF (only_by r)), w)) (Z2f 0) (repeat 0%Z 24)
      (fun _ tr => evaluates_row [CS "a"; CS "x"] tr && negb (evaluates_row target_by tr) && Nat.eqb (List.length (gens tr)) 3)%bool) as (o & r & s & A & B & C);
      [vm_compute; reflexivity|]. exists o, r, s. split; [exact A|]. split; [constructor|]. split; [exact B|exact C].
Qed.
