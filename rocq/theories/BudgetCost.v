(** What a larger budget buys. *)
From Coq Require Import String List ZArith Bool Lia.
From Verif Require Import PyBase B64 B64More NdArray Eda Spec LoopThms LoopMore Rand Models Inits Stock StockInv StockAll Budget Demo.
Import ListNotations.
Open Scope Z_scope.

Lemma min_longer m m' l t : is_min m l -> is_min m' (l ++ t) -> fle m' m = true.
Proof.
  intros (H1 & H2 & _) (_ & H4 & H5). specialize (H5 m (in_or_app l t m (or_introl H1))).
  apply flt_false_fle; assumption.
Qed.
Lemma no_worse X W (E : env X W) A g (o o' : optimiser X) m d a cost ftol out w r s r' s' :
  construct E A g = Ok o -> g_max_iter g <= m -> d < 1 \/ 1 <= g_dead_iter g <= d -> d <= m ->
  construct E A (mkArgs (g_size_gen g) m d (g_nvars g) (g_alpha g) (g_elite_factor g) (g_disp g) (g_parallelize g) (g_init_data g)) = Ok o' ->
  run_in E a o cost ftol out w = (Ok r, s) -> run_in E a o' cost ftol out w = (Ok r', s') -> feq ftol (Z2f 0) = true ->
  fle (r_best_cost r') (r_best_cost r) = true.
Proof.
  intros H1 H2 H3 H4 H5 H6 H7 H8. destruct (run_prefix E A g o m d a cost ftol out w H1 H2 H3 H4) as (o2 & C & P).
  pose proof (eq_trans (eq_sym C) H5) as Q. injection Q as ->. rewrite H6 in P. destruct P as (tr & fin & _ & _ & _ & P & _). rewrite H7 in P. destruct (P r' eq_refl) as [tl Ht].
  assert (M : is_min (r_best_cost r) (r_history r)).
  { eapply min_best_lemma; [|exact H8]. split; [|exists s; split; [exact H6|reflexivity]]. reflexivity. }
  assert (M' : is_min (r_best_cost r') (r_history r')).
  { eapply min_best_lemma; [|exact H8]. split; [|exists s'; split; [exact H7|reflexivity]]. reflexivity. }
  rewrite Ht in M'. exact (min_longer _ _ _ _ M M').
Qed.

(** With the default tolerance one more iteration can make the answer worse. *)
Definition worse_start : st unit (list arr) := start tt [col [Z2f 1; Z2f 2; Z2f 2; Z2f 2]; col [dec 1000000005 9; Z2f 2; Z2f 2; Z2f 2]].
Definition worse_check : bool :=
  match minimize (conf 4 1 1 false None None) demo_hooks ftol_default false worse_start,
        minimize (budget (conf 4 1 1 false None None) 2 1) demo_hooks ftol_default false worse_start with
  | (Ok r, _), (Ok r', _) => flt (r_best_cost r) (r_best_cost r')
  | _, _ => false
  end.
Lemma worse : exists c (h : hooks unit (list arr)) m s r s1 r' s2, (s_tr s = []) /\ (c_max_iter c <= m) /\ minimize c h ftol_default false s = (Ok r, s1) /\ minimize (budget c m (c_dead_iter c)) h ftol_default false s = (Ok r', s2) /\ flt (r_best_cost r) (r_best_cost r') = true.
Proof.
  assert (H : worse_check = true) by (vm_compute; reflexivity). unfold worse_check in H.
  destruct (minimize (conf 4 1 1 false None None) _ _ _ _) as [[r|] s1] eqn:E1; [|discriminate].
  destruct (minimize (budget _ 2 1) _ _ _ _) as [[r'|] s2] eqn:E2; [|discriminate].
  exists (conf 4 1 1 false None None), demo_hooks, 2, worse_start, r, s1, r', s2.
  split; [reflexivity|]. split; [cbn; lia|]. split; [exact E1|]. split; [exact E2|exact H].
Qed.
