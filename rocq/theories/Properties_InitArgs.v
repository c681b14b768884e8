(** Which arguments the constructors of the initialisers refuse, for all arguments. *)
From Coq Require Import String List ZArith Bool Lia.
From Verif Require Import PyBase B64 NdArray Rand Models Inits InitThms DemoModels Lhs InitArgs.
Import ListNotations.
Open Scope nat_scope.

(* ------------------------------ C92 ------------------------------ *)
(** Lists of bounds: the wrong length is refused, anything else is accepted. *)
Theorem C92_lists_partial : forall n lo hi,
  (wrong_list n lo \/ wrong_list n hi -> uniform_new n lo hi = Raise AssertionError /\ lhs_new n lo hi = Raise AssertionError) /\
  (~ wrong_list n lo -> ~ wrong_list n hi -> uniform_new n lo hi = Ok (mkUI n lo hi) /\ lhs_new n lo hi = Ok (mkUI n lo hi)).
Proof. exact bounds_checked. Qed.
Print Assumptions C92_lists_partial.

(** Means and deviations, or means and covariance rows, of different numbers. *)
Theorem C92_gauss_partial : forall W (g : rng W) n means stds lower higher w,
  List.length means <> List.length stds -> unigauss_init_new g n means stds lower higher w = (Raise AssertionError, w).
Proof. exact @unigauss_checked. Qed.
Print Assumptions C92_gauss_partial.

Theorem C92_multigauss_partial : forall W (g : rng W) n means cov lower upper w,
  List.length means <> List.length cov -> mgauss_init_new g n means cov lower upper w = (Raise AssertionError, w).
Proof. exact @mgauss_checked. Qed.
Print Assumptions C92_multigauss_partial.

(** Categories: accepted exactly when every variable has values and frequencies, equally many,
    with frequencies whose sum is within a tenth of 1. *)
Theorem C92_categories : forall s n values freq,
  is_ok (cat_init_new s n values freq) = true <->
  Z.to_nat n <= List.length values /\ Z.to_nat n <= List.length freq /\
  forall j v f, j < Z.to_nat n -> nth_error values j = Some v -> nth_error freq j = Some f -> column_fits s v f.
Proof. exact cat_new_iff. Qed.
Print Assumptions C92_categories.

Example C92_met : wrong_list 2 (BList true [Z2f 1]) /\ ~ wrong_list 2 (BList true [Z2f 1; Z2f 2]) /\ ~ wrong_list 2 (BNum (PyI 1)) /\
  is_ok (cat_init_new seq_sum 1 demo_values demo_freq) = true.
Proof.
  split; [exists [Z2f 1]; split; [reflexivity|discriminate]|]. split.
  - intros (l & E & H). apply H. assert (X : l = [Z2f 1; Z2f 2]) by congruence. subst l. reflexivity.
  - split; [intros (l & E & _); discriminate|vm_compute; reflexivity].
Qed.

(** An array of another length than n_variables (and than 1) is accepted by the constructor;
    every sample then raises. *)
Theorem C92_array_refuted : forall W (g : rng W) n lo l size w u,
  List.length l <> Z.to_nat n -> List.length l <> 1 -> (0 <= n)%Z -> (exists p, lo = BNum p) ->
  uniform_new n lo (BList false l) = Ok u -> is_ok (fst (uniform_sample g u size w)) = false.
Proof. exact @arrays_unchecked. Qed.
Print Assumptions C92_array_refuted.

(** Vectors of equal but wrong length are accepted by UniGaussGenInit; every sample then raises
    ValueError. *)
Theorem C92_vector_refuted : forall W (g : rng W) n means stds lower higher w size w0,
  List.length means = List.length stds -> List.length means <> Z.to_nat n -> 2 <= List.length means ->
  exists i, unigauss_init_new g n means stds lower higher w = (Ok i, w) /\ fst (unigauss_init_sample g i size w0) = Raise ValueError.
Proof. exact @unigauss_unchecked. Qed.
Print Assumptions C92_vector_refuted.

Example C92_refuted_met : is_ok (uniform_new 3 (BNum (PyI 0)) (BList false [Z2f 1; Z2f 2])) = true /\
  List.length [Z2f 1; Z2f 2] <> Z.to_nat 3 /\ 2 <= List.length [Z2f 1; Z2f 2].
Proof. split; [reflexivity|]. split; [discriminate|cbn [List.length]; lia]. Qed.
