(** Matrices, layouts and kernels outside the usual arguments. *)
From Coq Require Import String List ZArith Bool Lia.
From Verif Require Import PyBase B64 NdArray Eda Gbn Nets Tools ToolsMore Demo DemoNets.
Import ListNotations.
Open Scope string_scope.
Open Scope nat_scope.

(* ------------------------------ C55 ------------------------------ *)
(** A negative number of variables is refused whatever the arcs. *)
Theorem C55_negative : forall arcs n, (n < 0)%Z -> arcs2adj_mat arcs n = Raise ValueError.
Proof. exact no_matrix. Qed.
Print Assumptions C55_negative.
Example C55_negative_met : exists n, (n < 0)%Z.
Proof. exists (-1)%Z. reflexivity. Qed.

(* ------------------------------ C56 ------------------------------ *)
(** Names may be repeated: every name has one position, different names different ones. *)
Theorem C56_repeated : forall variables, variables <> [] -> (Z.of_nat (length variables) < 2 ^ 53)%Z ->
  exists d, set_positions variables = Ok d /\ (forall v, In v variables -> exists p, dget v d = Some p) /\
    (forall v, ~ In v variables -> dget v d = None) /\
    (forall v u p, In v variables -> In u variables -> dget v d = Some p -> dget u d = Some p -> v = u).
Proof. exact positions_any. Qed.
Print Assumptions C56_repeated.
Example C56_repeated_met : ["a"; "b"; "a"] <> [] /\ (Z.of_nat (length ["a"; "b"; "a"]) < 2 ^ 53)%Z.
Proof. split; [discriminate|reflexivity]. Qed.

(* ------------------------------ C37 ------------------------------ *)
(** Sampling UniKDE after any sequence of calls of learn, of which some may have raised: from the
    kernel of the last data set that was learnt, and AttributeError if there is none. *)
Theorem C37_kernel : forall {W Net K} (L : @library W Net K) size w,
  (forall ds, (forall d, In d ds -> forall x, l_kde L d <> Ok x) ->
     kde_sample L (fold_left (fun k d => snd (kde_learn L d k)) ds None) size w = (Raise AttributeError, w)) /\
  (forall ds d x ds', l_kde L d = Ok x -> (forall d', In d' ds' -> forall y, l_kde L d' <> Ok y) ->
     kde_sample L (fold_left (fun k d => snd (kde_learn L d k)) (ds ++ d :: ds') None) size w = l_resample L x size w).
Proof. exact @kernel_history. Qed.
Print Assumptions C37_kernel.
Example C37_kernel_met : l_kde (demo_lib false) demo_rows = Ok demo_rows /\
  forall x, l_kde (demo_lib false) (mkArr DFloat 2 []) <> Ok x.
Proof. split; [reflexivity|discriminate]. Qed.
