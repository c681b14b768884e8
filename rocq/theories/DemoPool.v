(** An environment with four cores, for the examples of Properties_PoolNeed.v. *)
From Coq Require Import String List ZArith.
From Verif Require Import PyBase B64 NdArray Eda Spec Rand Models Inits Stock StockAll Demo DemoModels DemoStock.
Import ListNotations.
Open Scope nat_scope.

Definition env4 : env nat unit :=
  mkEnv demo_rng seq_sum (fun _ => "0"%string) argsort_ref (mkPool 3 (fun i => i) (fun _ => 0)) (fun _ _ => 0)
        (fun _ d _ w => (Ok tt, (a_len d, w))) demo_xsample.
(** As [demo_args], evaluated in parallel. *)
Definition pool_args (size : Z) : args := mkArgs size 5 1 1 (PyF half) (PyF half) false true None.
