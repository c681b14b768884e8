(** C33: a Gaussian model that has not learned. *)
From Coq Require Import String List ZArith Bool.
From Verif Require Import PyBase B64 NdArray Eda Rand Models ModelNew UnitStat UnitThms Demo DemoUnit.
Import ListNotations.
Open Scope nat_scope.

(* ------------------------------ C33 ------------------------------ *)
(** Before learning, UniGauss and AdaptUniGauss describe variables that are all zero: every sample
    is a matrix of zeros, and the generator is advanced as after learning. *)
Theorem C33_new : forall W (g : rng W) n size w (size_ok : (0 <= size)%Z)
  (finite : forall i j, isfin (fst (g_gauss g (Z.to_nat size) n w) i j) = true),
  gauss_sample g (gauss_new n) size w = (Ok (float_arr (Z.to_nat size) n (fun _ _ => Z2f 0)), snd (g_gauss g (Z.to_nat size) n w)).
Proof. exact @new_sample. Qed.
Print Assumptions C33_new.

Example C33_new_met : forall i j, isfin (fst (g_gauss row_rng (Z.to_nat 4) 2 tt) i j) = true.
Proof. intros i j. cbn [row_rng g_gauss fst]. destruct (Nat.even i); vm_compute; reflexivity. Qed.
