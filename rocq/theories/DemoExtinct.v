(** A run of UMDAcat that converges at once, for the example of Properties_Extinct.v. *)
From Coq Require Import String List ZArith Bool Lia.
From Verif Require Import PyBase B64 NdArray Eda Spec Rand Models Inits Stock StockAll StockCat Demo DemoModels DemoStock.
Import ListNotations.
Open Scope nat_scope.

(** "a" is better than "b". *)
Definition four_strings : arr := mkArr DObj 2 [[CS "b"; CS "y"]; [CS "a"; CS "x"]; [CS "a"; CS "x"]; [CS "b"; CS "x"]].
Definition cost_a (r : row) (w : unit) : res NdArray.num * unit :=
  (Ok (NI (match r with CS t :: _ => if String.eqb t "a" then 0 else 1 | _ => 2 end)%Z), w).
Definition same_ax (rs : list row) : bool :=
  forallb (fun r : row => match r with [CS t; CS u] => String.eqb t "a" && String.eqb u "x" | _ => false end) rs.

Lemma four_strings_ok : cat_pop 2 strings2 four_strings.
Proof.
  split; [discriminate|]. split; [reflexivity|].
  assert (R : forall x y, In x [CS "a"; CS "b"] -> In y [CS "x"; CS "y"] -> cat_row 2 strings2 [x; y]).
  { intros x y Hx Hy. split; [reflexivity|]. intros [|[|j]] v Hj Hv; [| |lia]; cbn in Hv |- *;
      (match type of Hv with Some ?l = _ => assert (Ev : v = l) by congruence end); subst v; assumption. }
  cbn [four_strings a_rows]. repeat (apply Forall_cons; [apply R; cbn; auto|]). apply Forall_nil.
Qed.

Lemma converged_case : exists o r s,
  construct env0 (UMDAcat strings2 halves2) (mkArgs 4 3 2 2 (PyF half) (PyF half) false false (Some four_strings)) = Ok o /\
  run env0 o cost_a ftol_default false tt = (Ok r, s) /\
  (Nat.eqb (List.length (gens (s_tr s))) 3 && match learns (s_tr s) with d :: _ => same_ax (a_rows d) && Nat.eqb (a_len d) 2 | [] => false end) = true.
Proof.
  apply (ran_ok env0 _ cost_a ftol_default tt (fun _ tr => Nat.eqb (List.length (gens tr)) 3 && match learns tr with d :: _ => same_ax (a_rows d) && Nat.eqb (a_len d) 2 | [] => false end)).
  vm_compute. reflexivity.
Qed.
