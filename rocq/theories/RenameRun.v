(** UMDAcat with its categories renamed. *)
From Coq Require Import String List ZArith Bool Lia.
From Verif Require Import PyBase B64 B64More NdArray Eda EdaInv Rand Models Inits Stock Spec LoopObs LoopRel OrderRel LoopMap VarOrder VarRun VarLearn OrderLearn RenameCat.
Import ListNotations.
Open Scope nat_scope.

Section Run.
Context {X W : Type}.
Variables (E : env X W) (f : nat -> string -> string) (a : args) (values : list (list cell)) (freq : list (list f64)).
Variables (cost cost' : row -> W -> res num * W).
Let n := Z.to_nat (g_nvars a).
Let V := names_of values (g_init_data a).
Hypothesis up : forall j s t, V j s -> V j t -> String.ltb s t = true -> String.ltb (f j s) (f j t) = true.
Hypothesis Hv : Forall (Forall (fun c => is_str c = true)) values.
Hypothesis Hd : forall d, g_init_data a = Some d -> string_matrix d.
Hypothesis Hc : forall r w, List.length r = n -> Forall (fun c => is_str c = true) r -> cost' (rename_row f r) w = cost r w.
Local Notation a' := (rename_args f a).
Local Notation Rr := (Rn' n V f).
Local Notation wid := (wid' n).
Local Notation Ra := (arr_rel Rr wid).

Lemma rr_strings j r r' : rr V f j r r' -> Forall (fun c => is_str c = true) r.
Proof. revert j r'. induction r as [|c r IH]; intros j [|c' r'] H; try contradiction; constructor; [destruct H as [(s & _ & -> & _) _]; reflexivity|exact (IH _ _ (proj2 H))]. Qed.
Lemma row_ren r j : Forall (fun c => is_str c = true) r -> (forall i s, nth_error r i = Some (CS s) -> V (j + i) s) -> rr V f j r (map_from (fun j => rename_cell (f j)) j r).
Proof.
  intros H. revert j. induction H as [|c r Hs H IH]; intros j HV; [exact I|]. cbn [map_from]. split.
  - destruct c as [z|x|s]; try discriminate Hs. exists s. split; [|split; reflexivity]. rewrite <- (Nat.add_0_r j). apply (HV 0). reflexivity.
  - apply IH. intros i s Hi. replace (S j + i) with (j + S i) by lia. apply (HV (S i) s Hi).
Qed.
Lemma data_ren d : g_init_data a = Some d -> a_nc d = n -> Ra d (map_arr (rename_row f) d).
Proof.
  intros Ed En. split; [reflexivity|]. split; [split; [reflexivity|exact En]|]. cbn [map_arr a_rows].
  assert (K : Forall (fun r => Rr r (rename_row f r)) (a_rows d)).
  { pose proof (Hd d Ed) as Hm. unfold string_matrix in Hm. rewrite Forall_forall in Hm |- *. intros r Hr. destruct (Hm r Hr) as [L Hs].
    split; [lia|]. apply row_ren; [exact Hs|]. intros i s Hi. right. exists d, r. auto. }
  induction K as [|r l Hr K IH]; cbn [map]; constructor; assumption.
Qed.
Lemma values_ren : allr (vr V f) 0 (combine values freq) (combine (rename_values f values) freq).
Proof.
  assert (K : forall l j (q : list (list f64)), Forall (Forall (fun c => is_str c = true)) l -> (forall i s, In (CS s) (nth i l []) -> V (j + i) s) ->
     allr (vr V f) j (combine l q) (combine (map_from (fun j => map (rename_cell (f j))) j l) q)).
  { induction l as [|x l IH]; intros j q Hl HV; [exact I|]. inversion Hl as [|? ? Hx Hl']; subst. destruct q as [|p q]; [exact I|]. cbn [combine map_from]. split.
    - split; [|reflexivity]. cbn [fst]. assert (G : Forall (fun c => exists s, V j s /\ c = CS s) x).
      { rewrite Forall_forall in Hx |- *. intros c Hin. specialize (Hx c Hin). destruct c as [z|y|s]; try discriminate Hx. exists s. split; [|reflexivity].
        rewrite <- (Nat.add_0_r j). apply (HV 0). exact Hin. }
      clear - G. induction G as [|c x (s & Hs & ->) G IH]; cbn [map]; constructor; [|exact IH]. exists s. auto.
    - apply IH; [exact Hl'|]. intros i s Hi. replace (S j + i) with (j + S i) by lia. apply (HV (S i) s Hi). }
  apply K; [exact Hv|]. intros i s Hi. left. exact Hi.
Qed.
Lemma allr_firstn {A} (R : nat -> A -> A -> Prop) k j l l' : allr R j l l' -> allr R j (firstn k l) (firstn k l').
Proof. revert j l l'. induction k as [|k IH]; intros j [|x l] [|x' l'] H; try contradiction; try exact I. split; [apply H|apply IH, H]. Qed.
Lemma cat_check_ren s k j vs (fs : list (list f64)) : cat_check s k (map_from (fun j => map (rename_cell (f j))) j vs) fs = cat_check s k vs fs.
Proof.
  revert j vs fs. induction k as [|k IH]; intros j [|v vs] [|q fs]; try reflexivity. cbn [cat_check map_from]. rewrite map_length.
  destruct (negb _); [reflexivity|]. destruct (fle _ _); [apply IH|reflexivity].
Qed.
Lemma cat_check_len s k (vs : list (list cell)) (fs : list (list f64)) : cat_check s k vs fs = Ok tt -> List.length (firstn k (combine vs fs)) = k.
Proof.
  revert vs fs. induction k as [|k IH]; intros vs fs H; [reflexivity|]. destruct vs as [|v vs], fs as [|q fs]; try discriminate H. cbn [cat_check] in H.
  destruct (negb _); [discriminate H|]. destruct (fle _ _); [|discriminate H]. cbn. f_equal. apply IH, H.
Qed.

(* ---------------- the two optimisers ---------------- *)
Definition cat_pms (p p' : pmstate X) : Prop :=
  match ps_pm p, ps_pm p' with Some (MUniCat t), Some (MUniCat t') => List.length t = n /\ tr_from V f 0 t t' | _, _ => False end.
Record cat_rel (o o' : optimiser X) : Prop := mkCR {
  cr_cfg : same_but_data Rr wid (op_cfg o) (op_cfg o');
  cr_alpha : c_alpha (op_cfg o) = c_alpha (op_cfg o') /\ c_elite_factor (op_cfg o) = c_elite_factor (op_cfg o');
  cr_noise : c_w_noise (op_cfg o) = PyI (-1);
  cr_pm : cat_pms (op_st o) (op_st o');
  cr_init : exists vs vs' fs, op_init o = Some (ICat (mkCI (g_nvars a) vs fs)) /\ op_init o' = Some (ICat (mkCI (g_nvars a) vs' fs)) /\
    allr (vr V f) 0 (combine vs fs) (combine vs' fs) /\ List.length (firstn n (combine vs fs)) = n;
  cr_upd : op_upd o = FromSelection /\ op_upd o' = FromSelection;
  cr_exp : op_exp o = Plain /\ op_exp o' = Plain
}.
Lemma cat_hooks o o' : cat_rel o o' -> hooks_map Rr wid cat_pms Rs (op_cfg o) (hooks_of E o cost) (hooks_of E o' cost').
Proof.
  intros Ho. destruct (cr_cfg _ _ Ho) as (C1 & C2 & C3 & C4 & C5 & C6 & C7 & C8 & C9 & C10). destruct (cr_alpha _ _ Ho) as [A1 A2].
  destruct (cr_upd _ _ Ho) as [U1 U2]. destruct (cr_exp _ _ Ho) as [X1 X2].
  constructor; cbn [hooks_of h_argsort h_pool h_settings h_cost h_init h_data h_learn h_sample h_normal].
  - reflexivity.
  - reflexivity.
  - unfold export. rewrite X1, X2. unfold export_settings. rewrite C1, C2, C3, C4, C5, C6, A1, A2. reflexivity.
  - intros r r' w Hr. rewrite (Rn_fun n V f r r' Hr). symmetry. apply Hc; [apply Hr|]. destruct Hr as [_ Hr]. exact (rr_strings 0 r r' Hr).
  - intros w. destruct (cr_init _ _ Ho) as (vs & vs' & fs & I1 & I2 & Hal & L). rewrite I1, I2, <- C1. cbn [initr_sample]. unfold cat_init_sample. cbn [ci_n ci_values ci_freq].
    apply (init_ren n V f (e_rng E) (e_str E)); [exact L|apply allr_firstn, Hal].
  - intros b b' e e' p p' Hb _ Hp. rewrite U1, U2. cbn. split; assumption.
  - intros d d' p p' w Hdd Hp. unfold cat_pms in Hp. destruct (ps_pm p) as [[| | | |t|]|], (ps_pm p') as [[| | | |t'|]|]; try contradiction. destruct Hp as [L Ht].
    cbn [model_learn]. unfold cat_learn. destruct (learn_from_rel n V f up d d' 0 t t' Hdd Ht) as (L1 & L2 & L3).
    destruct (cat_learn_from d 0 t) as [r u], (cat_learn_from d' 0 t') as [r' u']. cbn [fst snd] in *. cbn. split; [exact L1|]. split; [|reflexivity].
    unfold cat_pms. cbn. split; [lia|exact L2].
  - intros p p' w Hp. unfold cat_pms in Hp. destruct (ps_pm p) as [[| | | |t|]|], (ps_pm p') as [[| | | |t'|]|]; try contradiction. destruct Hp as [L Ht].
    rewrite <- C1. cbn [model_sample]. apply (sample_ren n V f); assumption.
  - intros _ Hw. rewrite (cr_noise _ _ Ho) in Hw. discriminate Hw.
  - intros Hw. rewrite (cr_noise _ _ Ho) in Hw. discriminate Hw.
  - intros _. split; reflexivity.
  - intros b b' x x' Hb Hx. apply (iadd_ren n V f); assumption.
Qed.
Lemma cat_run o o' ftol out w : cat_rel o o' -> mapped_run (rename_row f) (run E o cost ftol out w) (run E o' cost' ftol out w).
Proof.
  intros Ho. unfold run, run_in.
  apply (mapped_minimize Rr wid (rename_row f) cat_pms Rs); [apply Rn_cast|apply Rn_fun|apply Ho|apply cat_hooks, Ho|apply Ho].
Qed.

Lemma new_ren : res_rel cat_rel (umdacat_new E a values freq) (umdacat_new E a' (rename_values f values) freq).
Proof.
  unfold umdacat_new, base, eda_init. cbn [rename_args g_size_gen g_max_iter g_dead_iter g_nvars g_alpha g_elite_factor g_disp g_parallelize g_init_data].
  destruct (int_times (g_size_gen a) (g_alpha a)) as [t|e]; [|reflexivity]. destruct (int_times (g_size_gen a) (g_elite_factor a)) as [l|e]; [|reflexivity].
  cbn [rbind]. destruct (g_dead_iter a <=? g_max_iter a)%Z; [|reflexivity].
  assert (Q : forall c c' : cfg, same_but_data Rr wid c c' -> c_alpha c = c_alpha c' -> c_elite_factor c = c_elite_factor c' -> c_w_noise c = PyI (-1) -> c_nvars c = g_nvars a ->
    let o := mkOpt c (mkPS None (mkArr DFloat (Z.to_nat (g_nvars a)) [])) None FromSelection Plain : optimiser X in
    let o' := mkOpt c' (mkPS None (mkArr DFloat (Z.to_nat (g_nvars a)) [])) None FromSelection Plain : optimiser X in
    res_rel cat_rel
      (rbind (assign_pm (MUniCat (cat_new (names (g_nvars a)))) o) (fun o => rbind (cat_init_new (e_sum E) (g_nvars a) values freq) (fun i => assign_init (ICat i) o)))
      (rbind (assign_pm (MUniCat (cat_new (names (g_nvars a)))) o') (fun o => rbind (cat_init_new (e_sum E) (g_nvars a) (rename_values f values) freq) (fun i => assign_init (ICat i) o)))).
  { intros c c' Hcc Ha He Hw Hn o o'. pose proof Hcc as (_ & _ & _ & C4 & _). unfold assign_pm, set_pm, o, o'. cbn [op_cfg].
    rewrite <- C4. destruct (Z.eqb _ (c_nvars c)); [|reflexivity]. cbn [rbind rmap]. unfold cat_init_new, rename_values. rewrite cat_check_ren.
    destruct (cat_check (e_sum E) (Z.to_nat (g_nvars a)) values freq) as [[]|e] eqn:Ck; [|reflexivity]. cbn [rmap rbind].
    unfold assign_init, set_init. cbn [initr_width ci_n op_cfg with_pm]. rewrite <- C4. destruct (Z.eqb (g_nvars a) (c_nvars c)); [|reflexivity]. cbn.
    constructor; cbn; auto.
    - unfold cat_pms. cbn. split; [apply repeat_length|]. unfold cat_new, names. generalize (Z.to_nat (g_nvars a)). intros k. generalize 0. induction k as [|k IH]; intros j; cbn; auto.
    - exists values, (rename_values f values), freq. split; [reflexivity|]. split; [reflexivity|]. split; [exact values_ren|].
      exact (cat_check_len _ _ _ _ Ck). }
  case_eq (g_init_data a); [intros d Ed|intros Ed]; cbn [option_map].
  - cbn [map_arr a_nc]. destruct (Z.eqb_spec (Z.of_nat (a_nc d)) (g_nvars a)) as [Ez|]; [|reflexivity]. cbn [rmap rbind].
    apply Q; try reflexivity. unfold same_but_data. cbn. do 9 (split; [reflexivity|]). apply data_ren; [exact Ed|]. unfold n. lia.
  - cbn [rmap rbind]. apply Q; try reflexivity. unfold same_but_data. cbn. do 9 (split; [reflexivity|]). exact I.
Qed.
Lemma umdacat_rename ftol out w :
  mapped_outcome (rename_row f) (umdacat_new E a values freq) (umdacat_new E a' (rename_values f values) freq)
    (fun o => run E o cost ftol out w) (fun o => run E o cost' ftol out w).
Proof.
  pose proof new_ren as H. destruct (umdacat_new E a values freq) as [o|e], (umdacat_new E a' (rename_values f values) freq) as [o'|e']; cbn in H |- *; try contradiction; [|exact H].
  apply cat_run, H.
Qed.
End Run.
