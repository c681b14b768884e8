(** Properties of the plotting helpers (EDAspy.optimization.tools). *)
From Coq Require Import String List ZArith Bool Lia.
From Verif Require Import PyBase B64 Gbn Tools ToolsThms.
Import ListNotations.
Open Scope nat_scope.
Local Open Scope string_scope.

(* ------------------------------ C55 ------------------------------ *)
(** Missing from the full statement: an index outside 0..n-1 raises IndexError only below -n or
    from n on ([C55_any_arcs], [C55_refuted]). *)
Theorem C55_partial : forall n arcs,
  (forall a, In a arcs -> exists i j, i < n /\ j < n /\ a = (At (Z.of_nat i), At (Z.of_nat j))) ->
  exists m, arcs2adj_mat arcs (Z.of_nat n) = Ok m /\ length m = n /\ (forall i, i < n -> length (nth i m []) = n) /\
    forall i j, i < n -> j < n ->
      (In (At (Z.of_nat i), At (Z.of_nat j)) arcs -> nth j (nth i m []) (Z2f 0) = Z2f 1) /\
      (~ In (At (Z.of_nat i), At (Z.of_nat j)) arcs -> nth j (nth i m []) (Z2f 0) = Z2f 0).
Proof. exact adjacency_plain. Qed.
Print Assumptions C55_partial.
Example C55_case : forall a, In a [(At 0, At 2); (At 2, At 1)] -> exists i j, i < 3 /\ j < 3 /\ a = (At (Z.of_nat i), At (Z.of_nat j)).
Proof. intros a [<-|[<-|[]]]; [exists 0, 2|exists 2, 1]; repeat split; lia. Qed.
Theorem C55_any_arcs : forall n arcs,
  match arcs2adj_mat arcs (Z.of_nat n) with
  | Ok m => Forall (arc_in_range n) arcs /\ length m = n /\ (forall i, i < n -> length (nth i m []) = n) /\
      forall i j, i < n -> j < n -> (joined n arcs i j -> nth j (nth i m []) (Z2f 0) = Z2f 1) /\ (~ joined n arcs i j -> nth j (nth i m []) (Z2f 0) = Z2f 0)
  | Raise e => e = IndexError /\ ~ Forall (arc_in_range n) arcs
  end.
Proof. exact adjacency. Qed.
Print Assumptions C55_any_arcs.
Theorem C55_refuted : exists n i j m, ~ (0 <= i < Z.of_nat n)%Z /\ arcs2adj_mat [(At i, At j)] (Z.of_nat n) = Ok m.
Proof. exact negative_index. Qed.
Print Assumptions C55_refuted.
(** the arcs a learnt network returns are pairs of names, and those are refused *)
Theorem C55_names_refuted : exists arcs, arcs = [(Other "a", Other "b")] /\ arcs2adj_mat arcs 2 = Raise IndexError.
Proof. eexists. split; [reflexivity|vm_compute; reflexivity]. Qed.
Print Assumptions C55_names_refuted.

(* ------------------------------ C56 ------------------------------ *)
Theorem C56_positions : forall variables, variables <> [] -> NoDup variables -> (Z.of_nat (length variables) < 2 ^ 53)%Z ->
  exists d, set_positions variables = Ok d /\ (forall v, In v variables -> exists p, dget v d = Some p) /\
    (forall v, ~ In v variables -> dget v d = None) /\
    (forall v u p, In v variables -> In u variables -> dget v d = Some p -> dget u d = Some p -> v = u).
Proof. exact positions_distinct. Qed.
Print Assumptions C56_positions.
Theorem C56_empty : set_positions [] = Raise ZeroDivisionError.
Proof. exact no_variables. Qed.
Print Assumptions C56_empty.
Example C56_case : ["a"; "b"; "c"] <> [] /\ NoDup ["a"; "b"; "c"] /\ (Z.of_nat (length ["a"; "b"; "c"]) < 2 ^ 53)%Z.
Proof. refine (conj _ (conj _ _)); [discriminate|repeat constructor; cbn; intuition discriminate|reflexivity]. Qed.

(* ------------------------------ C75 ------------------------------ *)
Theorem C75_plot : forall arcs vs pos, vs <> [] -> NoDup vs -> (Z.of_nat (length vs) < 2 ^ 53)%Z -> pos = None \/ pos = Some [] ->
  match plot_bn arcs vs pos with
  | Ok (drawn, edges) =>
      (forall a, In a arcs -> In (fst a) vs /\ In (snd a) vs) /\ NoDup (map fst drawn) /\ NoDup (map snd drawn) /\
      (forall v, In v (map fst drawn) <-> In v vs) /\ NoDup edges /\ (forall a, In a edges <-> In a arcs)
  | Raise e => e = PlainException /\ exists a, In a arcs /\ ~ (In (fst a) vs /\ In (snd a) vs)
  end.
Proof. exact plot_default. Qed.
Print Assumptions C75_plot.
Example C75_case : plot_bn [("a", "b"); ("a", "b")] ["a"; "b"; "c"] None = Ok ([("a", (0, 0)); ("b", (0, -1)); ("c", (0, -2))], [("a", "b")])%Z.
Proof. vm_compute. reflexivity. Qed.
(** With positions given by the caller. *)
Theorem C75_given : forall arcs vs d, d <> [] ->
  match plot_bn arcs vs (Some d) with
  | Ok (drawn, edges) =>
      NoDup (map fst drawn) /\ (forall v, In v (map fst drawn) <-> In v vs \/ exists a, In a arcs /\ (v = fst a \/ v = snd a)) /\
      (forall v p, In (v, p) drawn -> dget v d = Some p) /\ NoDup edges /\ (forall a, In a edges <-> In a arcs)
  | Raise e => e = PlainException /\ exists v, (In v vs \/ exists a, In a arcs /\ (v = fst a \/ v = snd a)) /\ dget v d = None
  end.
Proof. exact plot_given. Qed.
Print Assumptions C75_given.
Example C75_given_case : plot_bn [("a", "b"); ("a", "b")] ["a"] (Some [("b", (5, 5)); ("a", (5, 7))])%Z = Ok ([("a", (5, 7)); ("b", (5, 5))], [("a", "b")])%Z.
Proof. vm_compute. reflexivity. Qed.
