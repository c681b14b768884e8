(** The smallest deviation and the noise do not follow the unit. *)
From Coq Require Import String List ZArith Bool Lia.
From Verif Require Import PyBase B64 B64More NdArray Eda EdaInv Spec Rand Models Inits Stock LoopMap LoopKeep VarOrder Scale Guard UnitFloat UnitStat UnitRun UnitThms Demo DemoModels DemoStock DemoVar DemoUnit.
Import ListNotations.
Open Scope nat_scope.

Definition one_low : bound := BNum (PyF quarter).
Definition one_high : bound := BNum (PyF half).
(** A program to be run and tested, together with another. *)
Definition ran_both {X W} (E : env X W) (ro ro' : res (optimiser X)) cost cost' ftol w (P : result -> list ev -> result -> bool) : bool :=
  match ro, ro' with
  | Ok o, Ok o' => match run E o cost ftol false w, run E o' cost' ftol false w with (Ok r, s), (Ok r', _) => P r (s_tr s) r' | _, _ => false end
  | _, _ => false
  end.
Lemma ran_both_ok {X W} (E : env X W) ro ro' cost cost' ftol w P : ran_both E ro ro' cost cost' ftol w P = true ->
  exists o o' r s r' s', ro = Ok o /\ ro' = Ok o' /\ run E o cost ftol false w = (Ok r, s) /\ run E o' cost' ftol false w = (Ok r', s') /\ P r (s_tr s) r' = true.
Proof.
  unfold ran_both. destruct ro as [o|]; [|discriminate]. destruct ro' as [o'|]; [|discriminate]. destruct (run E o cost ftol false w) as [[r|] s] eqn:H; [|discriminate].
  destruct (run E o' cost' ftol false w) as [[r'|] s'] eqn:H'; [|discriminate]. intros HP. exists o, o', r, s, r', s'. auto.
Qed.
Definition cost_of (r : result) : f64 := r_best_cost r.
Definition other_cost (r : result) (tr : list ev) (r' : result) : bool := negb (feq (cost_of r') (cost_of r)) && feq (cost_of r) (cost_of r) && forallb ordinary_ev tr.

Lemma low_runs : exists o o' r s r' s', umdac_new two_args one_low one_high None half None = Ok o /\
  umdac_new (unit_args 3 two_args) (scaled_bound 3 one_low) (scaled_bound 3 one_high) None half None = Ok o' /\
  run (demo_env row_rng) o cost_sum ftol_default false tt = (Ok r, s) /\ run (demo_env row_rng) o' cost_eighths ftol_default false tt = (Ok r', s') /\
  other_cost r (s_tr s) r' = true.
Proof. apply ran_both_ok. vm_compute. reflexivity. Qed.
Lemma low_refuted : exists (X W : Type) (E : env X W) e (a : args) (cost cost' : row -> W -> res NdArray.num * W) lo hi o o' r s r' s' w,
  (-50 <= e <= 50)%Z /\ (0 <= g_nvars a)%Z /\ ordinary_draws (e_rng E) /\ fixed_order (e_sum E) /\ g_init_data a = None /\
  (forall r w, List.length r = Z.to_nat (g_nvars a) -> forallb moderate_cell r = true -> cost' (scaled_row e r) w = cost r w) /\
  moderate_bound lo = true /\ moderate_bound hi = true /\
  umdac_new a lo hi None half None = Ok o /\ umdac_new (unit_args e a) (scaled_bound e lo) (scaled_bound e hi) None half None = Ok o' /\
  run E o cost ftol_default false w = (Ok r, s) /\ ordinary (s_tr s) /\ run E o' cost' ftol_default false w = (Ok r', s') /\
  r_best_cost r' <> r_best_cost r.
Proof.
  destruct low_runs as (o & o' & r & s & r' & s' & H1 & H2 & H3 & H4 & H5).
  unfold other_cost in H5. apply andb_true_iff in H5. destruct H5 as [H5 H6]. apply andb_true_iff in H5. destruct H5 as [H5 H7].
  exists nat, unit, (demo_env row_rng), 3%Z, two_args, cost_sum, cost_eighths, one_low, one_high, o, o', r, s, r', s', tt.
  split; [lia|]. split; [cbn; lia|]. split; [exact row_rng_ordinary|]. split; [exact seq_fixed|]. split; [reflexivity|]. split; [exact demo_same_cost|].
  do 2 (split; [vm_compute; reflexivity|]). split; [exact H1|]. split; [exact H2|]. split; [exact H3|]. split; [exact (ordinary_checked _ H6)|]. split; [exact H4|].
  intros Q. unfold cost_of in *. rewrite Q in H5. rewrite H7 in H5. discriminate H5.
Qed.

Lemma noise_runs : exists o o' r s r' s', umdac_new two_args one_low one_high None half (Some (PyF half)) = Ok o /\
  umdac_new (unit_args 3 two_args) (scaled_bound 3 one_low) (scaled_bound 3 one_high) None (scaled 3 half) (Some (PyF half)) = Ok o' /\
  run (demo_env row_rng) o cost_sum ftol_default false tt = (Ok r, s) /\ run (demo_env row_rng) o' cost_eighths ftol_default false tt = (Ok r', s') /\
  other_cost r (s_tr s) r' = true.
Proof. apply ran_both_ok. vm_compute. reflexivity. Qed.
Lemma noise_refuted : exists (X W : Type) (E : env X W) e (a : args) (cost cost' : row -> W -> res NdArray.num * W) lo hi o o' r s r' s' w,
  (-50 <= e <= 50)%Z /\ (0 <= g_nvars a)%Z /\ ordinary_draws (e_rng E) /\ fixed_order (e_sum E) /\ g_init_data a = None /\
  (forall r w, List.length r = Z.to_nat (g_nvars a) -> forallb moderate_cell r = true -> cost' (scaled_row e r) w = cost r w) /\
  moderate_bound lo = true /\ moderate_bound hi = true /\
  umdac_new a lo hi None half (Some (PyF half)) = Ok o /\
  umdac_new (unit_args e a) (scaled_bound e lo) (scaled_bound e hi) None (scaled e half) (Some (PyF half)) = Ok o' /\
  run E o cost ftol_default false w = (Ok r, s) /\ ordinary (s_tr s) /\ run E o' cost' ftol_default false w = (Ok r', s') /\
  r_best_cost r' <> r_best_cost r.
Proof.
  destruct noise_runs as (o & o' & r & s & r' & s' & H1 & H2 & H3 & H4 & H5).
  unfold other_cost in H5. apply andb_true_iff in H5. destruct H5 as [H5 H6]. apply andb_true_iff in H5. destruct H5 as [H5 H7].
  exists nat, unit, (demo_env row_rng), 3%Z, two_args, cost_sum, cost_eighths, one_low, one_high, o, o', r, s, r', s', tt.
  split; [lia|]. split; [cbn; lia|]. split; [exact row_rng_ordinary|]. split; [exact seq_fixed|]. split; [reflexivity|]. split; [exact demo_same_cost|].
  do 2 (split; [vm_compute; reflexivity|]). split; [exact H1|]. split; [exact H2|]. split; [exact H3|]. split; [exact (ordinary_checked _ H6)|]. split; [exact H4|].
  intros Q. unfold cost_of in *. rewrite Q in H5. rewrite H7 in H5. discriminate H5.
Qed.
