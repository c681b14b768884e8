(** Runs of PBIL with noise on small initial data, for the examples of Properties_NoiseNeed.v. *)
From Coq Require Import List ZArith.
From Verif Require Import PyBase B64 NdArray Eda Rand Models Inits Stock StockAll Demo DemoModels DemoStock DemoRun.
Import ListNotations.
Open Scope Z_scope.

Definition two_rows : arr := mkArr DFloat 1 [[CF half]; [CF (Z2f 1)]].
Definition three_rows : arr := mkArr DFloat 1 [[CF half]; [CF (Z2f 1)]; [CF (Z2f 0)]].
Definition pbil_noise : algorithm := PBIL (num 0) (num 1) None half (Some (PyF quarter)).
(** UMDAc with noise and alpha 2, without initial data. *)
Definition umda_noise : algorithm := UMDAc (num 0) (num 1) None half (Some (PyF quarter)).
Definition double_args : args := mkArgs 4 3 1 1 (PyI 2) (PyF half) false false None.
