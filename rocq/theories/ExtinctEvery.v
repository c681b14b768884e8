(** What dies out stays away also in runs that raise. *)
From Coq Require Import String List ZArith Bool Lia Reals.
From Verif Require Import PyBase B64 B64More NdArray Eda EdaInv Spec LoopObs LoopThms Select LoopTrain LoopMore LoopFail FailThms Rand Models Inits InitThms Trunc Kahan CatThms Stock StockInv StockAll StockCat StockFinal Extinct.
From Verif Require LoopInv LoopDrawn.
Import ListNotations.
Open Scope nat_scope.

Section Loop.
Context {S W : Type}.
Variable c : cfg.
Variable h : hooks S W.
Local Notation st := (st S W).

Lemma prefix_selected (s : st) gen' evals' elite' evel' : (0 <= c_trunc_len c)%Z -> (0 <= c_elite_len c)%Z -> selected c h (s_obj s) gen' evals' elite' evel' ->
  prefix_ok c (s_tr s) (EvSelect (combine (a_rows gen') evals') (combine (a_rows elite') evel')).
Proof.
  intros Ht He Hs. cbn [prefix_ok]. destruct (selected_prefix c h _ _ _ _ _ Ht He Hs) as [P1 P2].
  split; intros Hle; [destruct (P1 Hle) as [-> ->]|destruct (P2 Hle) as [-> ->]]; apply combine_firstn'.
Qed.

Lemma prefix_every ftol out (s : st) r (tr : list ev) : (0 <= c_trunc_len c)%Z -> (0 <= c_elite_len c)%Z ->
  executes c h ftol out s r tr -> each_event (prefix_ok c) tr.
Proof.
  intros Ht He (Htr & s' & H & <-). set (P := prefix_ok c). assert (HP : forall t x v, P t (EvCall x v)) by (intros; exact I).
  assert (Hgen : forall tr0 g rets vals, each_event P tr0 -> each_event P (tr0 ++ calls_of (a_rows g) rets ++ [EvGen g rets vals])).
  { intros tr0 g rets vals H0. rewrite app_assoc. apply each_event_snoc; [|exact I]. apply each_calls; [apply HP|exact H0]. }
  assert (C0 : each_event P (s_tr s)) by (rewrite Htr; apply each_event_nil).
  assert (C2 : forall (s0 : st) gen' evals' elite' evel' d, each_event P (s_tr s0) -> selected c h (s_obj s0) gen' evals' elite' evel' ->
      each_event P (s_tr s0 ++ [EvSelect (combine (a_rows gen') evals') (combine (a_rows elite') evel'); EvLearn d])).
  { intros s0 gen' evals' elite' evel' d C Hs. pose proof (each_event_snoc P _ (EvLearn d) (each_event_snoc P _ _ C (prefix_selected s0 _ _ _ _ Ht He Hs)) I) as Y.
    rewrite <- app_assoc in Y. exact Y. }
  destruct (every_run_rule c h ftol out (fun _ s1 => each_event P (s_tr s1)) (each_event P) (fun _ => each_event P) s s' r) as [X|(wn & _ & X)]; try exact X; try exact H.
  - intros wn s0 s1 HI Hp. eapply printed_after_each; [|exact Hp|exact HI]. intros; exact I.
  - intros b s1 w1 wn Hf _. destruct Hf. subst s1. cbn [s_tr]. apply Hgen, C0.
  - intros b s1 Hf. destruct Hf. subst s1. cbn [s_tr]. apply Hgen, C0.
  - intros s1 [E|g l Hg Hl E|g rets vals Hg Hlen Hst E]; rewrite E; [exact C0|eapply each_on_rows; eassumption|apply Hgen, C0].
  - intros wn s0 b acc s1 _ HI Hf. destruct Hf. subst s1. cbn [s_tr]. rewrite app_assoc. apply Hgen, C2; assumption.
  - intros wn s0 X. exact X.
  - intros wn s0 s1 _ C Hf.
    destruct Hf as [E|gen' evals' elite' evel' Hs E|gen' evals' elite' evel' noisy data p1 Hs _ _ E
                   |gen' evals' elite' evel' noisy data p1 p2 w2 g w3 l Hs _ _ _ _ Hl E
                   |gen' evals' elite' evel' noisy data p1 p2 w2 g w3 rets vals Hs _ _ _ _ _ _ E]; rewrite E.
    + exact C.
    + apply each_event_snoc; [exact C|apply prefix_selected; assumption].
    + apply C2; assumption.
    + rewrite app_assoc. eapply each_on_rows; [exact HP|apply C2; eassumption|exact Hl].
    + rewrite app_assoc. apply Hgen, C2; assumption.
Qed.

Variable n : nat.
Definition dying (tr : list ev) : Prop := closed_run n tr -> forall k d, nth_error (learns tr) k = Some d ->
  (forall m gv, k < m -> nth_error (gens tr) m = Some gv -> kept n d (a_rows (fst gv))) /\
  (forall m d', k <= m -> nth_error (learns tr) m = Some d' -> kept n d (a_rows d')).

Hypothesis plain : forall g e p, h_data h g e p = (Ok g, p).
Hypothesis noise_text : py_eq_int (c_w_noise c) 0 = false.
Hypothesis noise_none : py_eq_int (c_w_noise c) (-1) = true.
Hypothesis lengths : (0 <= c_elite_len c <= c_trunc_len c)%Z.

Lemma only_text wn : noise_cfg c wn -> wn = NoiseStr.
Proof. intros Hwn. destruct wn as [| |nr nc dr]; [|reflexivity|]; cbn [noise_cfg] in Hwn; [congruence|]. destruct Hwn as (Hw1 & Hw2 & _). congruence. Qed.

(** What the next training data and the next elite consist of. *)
Lemma step_kept (o : obj) gen' evals' elite' evel' noisy d : a_dt (o_gen o) <> DFloat -> a_dt (o_elite o) <> DFloat ->
  kept n d (a_rows (o_gen o)) -> kept n d (a_rows (o_elite o)) -> selected c h o gen' evals' elite' evel' -> iadd gen' NoiseStr = Ok noisy ->
  kept n d (a_rows noisy).
Proof.
  intros D1 D2 K1 K2 Hs Hi. destruct (iadd_str _ _ Hi) as [Er _]. rewrite Er. eapply kept_sub; [apply kept_app; [exact K1|exact K2]|].
  destruct Hs. unfold np_concatenate in sel_concat. destruct (Nat.eqb _ _); [|discriminate]. cbv zeta in sel_concat.
  pose proof (promote_other _ _ D1 D2) as Dp. rewrite !rows_as_other in sel_concat by exact Dp.
  apply take_rows_ok in sel_train as (_ & _ & T). apply Extinct.gather_incl in T.
  match type of sel_concat with Ok ?x = _ => assert (Es : sel_gen = x) by congruence end. subst sel_gen. cbn [a_rows] in T. exact T.
Qed.

Lemma step_elite (o : obj) gen' evals' elite' evel' noisy : a_dt (o_gen o) <> DFloat -> a_dt (o_elite o) <> DFloat ->
  selected c h o gen' evals' elite' evel' -> iadd gen' NoiseStr = Ok noisy -> a_dt elite' <> DFloat /\ incl (a_rows elite') (a_rows noisy).
Proof.
  intros D1 D2 Hs Hi. destruct (iadd_str _ _ Hi) as [Er _]. rewrite Er.
  destruct (selected_prefix c h _ _ _ _ _ ltac:(lia) ltac:(lia) Hs) as [P _]. destruct (P ltac:(lia)) as [Pe _]. split.
  - destruct Hs. unfold np_concatenate in sel_concat. destruct (Nat.eqb _ _); [|discriminate]. cbv zeta in sel_concat.
    pose proof (promote_other _ _ D1 D2) as Dp. apply take_rows_ok in sel_elite as (Te & _ & _).
    match type of sel_concat with Ok ?x = _ => assert (Es : sel_gen = x) by congruence end. subst sel_gen. cbn [a_dt] in *. congruence.
  - rewrite Pe. intros x Hx. rewrite <- (firstn_skipn (Z.to_nat (c_elite_len c)) (a_rows gen')). apply in_or_app. left. exact Hx.
Qed.

(** A trace that grows by training data [d0], and perhaps by a generation. *)
Lemma dying_more (s : st) l d0 : narrowing n s -> learns l = [d0] ->
  (gens l = [] \/ exists gv, gens l = [gv]) ->
  (forall d, kept n d (a_rows (o_gen (s_obj s))) -> kept n d (a_rows (o_elite (s_obj s))) -> kept n d (a_rows d0)) ->
  dying (s_tr s ++ l).
Proof.
  intros HI El Eg Kd Hc. pose proof (closed_prefix _ _ _ Hc) as Hc0. destruct (HI Hc0) as (D1 & D2 & L & K). clear HI.
  assert (Kn : forall k d, nth_error (learns (s_tr s) ++ [d0]) k = Some d -> kept n d (a_rows d0)).
  { intros k d Hk. apply nth_snoc in Hk as [Hk|[_ ->]]; [|apply kept_refl]. destruct (K k d Hk) as (K1 & K2 & _). apply Kd; assumption. }
  destruct Hc as [_ Hcl']. rewrite LoopDrawn.gens_app, LoopDrawn.learns_app, El in Hcl' |- *. intros k d Hk. specialize (Kn k d Hk). split.
  - intros m gv Hm Hg.
    assert (Hold : nth_error (gens (s_tr s)) m = Some gv -> kept n d (a_rows (fst gv))).
    { intros Hg0. apply nth_snoc in Hk as [Hk|[-> ->]]; [destruct (K k d Hk) as (_ & _ & K3 & _); exact (K3 m gv Hm Hg0)|].
      exfalso. assert (m < List.length (gens (s_tr s))) by (apply nth_error_Some; congruence). lia. }
    destruct Eg as [Eg|[gv0 Eg]]; rewrite Eg in Hg, Hcl'; [rewrite app_nil_r in Hg; exact (Hold Hg)|].
    apply nth_snoc in Hg as [Hg|[_ ->]]; [exact (Hold Hg)|]. eapply kept_trans; [exact Kn|].
    apply (Hcl' (List.length (learns (s_tr s))) d0 gv0); [rewrite nth_error_app2, Nat.sub_diag by lia; reflexivity|].
    rewrite <- L, nth_error_app2, Nat.sub_diag by lia. reflexivity.
  - intros m d' Hm Hd. apply nth_snoc in Hd as [Hd|[_ ->]]; [|exact Kn]. apply nth_snoc in Hk as [Hk|[-> ->]].
    + destruct (K k d Hk) as (_ & _ & _ & K4). exact (K4 m d' Hm Hd).
    + exfalso. assert (m < List.length (learns (s_tr s))) by (apply nth_error_Some; congruence). lia.
Qed.

Lemma narrowing_dying (s : st) : narrowing n s -> dying (s_tr s).
Proof. intros HI Hc k d Hk. destruct (HI Hc) as (_ & _ & _ & K). destruct (K k d Hk) as (_ & _ & K3 & K4). split; assumption. Qed.

Lemma dying_quiet tr l : gens l = [] -> learns l = [] -> dying tr -> dying (tr ++ l).
Proof. intros Eg El H Hc. rewrite LoopDrawn.gens_app, LoopDrawn.learns_app, Eg, El, !app_nil_r. apply H. eapply closed_prefix, Hc. Qed.

Lemma quiet_rows rs l : Forall (on_rows rs) l -> gens l = [] /\ learns l = [].
Proof. intros H. induction H as [|e l (x & v & -> & _) _ [IH1 IH2]]; [split; reflexivity|split; assumption]. Qed.


Lemma extinct_every ftol out (s : st) r (tr : list ev) : executes c h ftol out s r tr -> dying tr.
Proof.
  intros (Htr & s' & H & <-).
  assert (Hnl : forall t, learns t = [] -> dying t) by (intros t E0 _ k d Hk; rewrite E0 in Hk; destruct k; discriminate Hk).
  destruct (every_run_rule c h ftol out (fun _ s1 => narrowing n s1) dying (fun _ => dying) s s' r) as [X|(wn & _ & X)]; try exact X; try exact H.
  - intros wn s0 s1 HI Hp. eapply narrowing_printed; eassumption.
  - intros b s1 w1 wn Hf _. destruct Hf. subst s1. intros [Hc _]. revert Hc. unfold no_float. cbn [s_tr s_obj o_gen o_elite a_dt]. rewrite Htr. cbn [app].
    rewrite !LoopDrawn.gens_app, !LoopDrawn.learns_app, LoopObs.gens_calls_of, LoopObs.learns_calls_of. cbn. intros Hc. inversion Hc as [|? ? Hg _]; subst.
    refine (conj Hg (conj Hg (conj eq_refl _))). intros k d Hk. destruct k; discriminate Hk.
  - intros b s1 Hf. destruct Hf. subst s1. apply Hnl. cbn [s_tr]. rewrite Htr. cbn [app]. rewrite !LoopDrawn.learns_app, LoopObs.learns_calls_of. reflexivity.
  - intros s1 [E|g l Hg Hl E|g rets vals Hg Hlen Hst E]; apply Hnl; rewrite E, Htr; cbn [app]; [reflexivity|apply (quiet_rows _ _ Hl)|rewrite !LoopDrawn.learns_app, LoopObs.learns_calls_of; reflexivity].
  - intros wn s0 b acc s1 Hwn HI Hf. apply only_text in Hwn. subst wn. destruct Hf. subst s1. intros Hc. cbn [s_tr s_obj o_gen o_elite] in *.
    rewrite plain in if_hdata. assert (E1 : if_data = if_noisy) by congruence. subst if_data. clear if_hdata.
    pose proof (closed_prefix _ _ _ Hc) as Hc0. destruct (HI Hc0) as (D1 & D2 & L & K).
    assert (EL : learns ([EvSelect (combine (a_rows if_gen') if_evals') (combine (a_rows if_elite') if_evel'); EvLearn if_noisy] ++ calls_of (a_rows if_g) if_rets ++ [EvGen if_g if_rets if_vals]) = [if_noisy]).
    { rewrite !LoopDrawn.learns_app, LoopObs.learns_calls_of. reflexivity. }
    assert (EG : gens ([EvSelect (combine (a_rows if_gen') if_evals') (combine (a_rows if_elite') if_evel'); EvLearn if_noisy] ++ calls_of (a_rows if_g) if_rets ++ [EvGen if_g if_rets if_vals]) = [(if_g, if_vals)]).
    { rewrite !LoopDrawn.gens_app, LoopObs.gens_calls_of. reflexivity. }
    assert (Kd : forall d, kept n d (a_rows (o_gen (s_obj s0))) -> kept n d (a_rows (o_elite (s_obj s0))) -> kept n d (a_rows if_noisy)).
    { intros d K1 K2. eapply (step_kept (s_obj s0)); eassumption. }
    destruct (step_elite _ _ _ _ _ _ D1 D2 if_sel if_iadd) as [De Hel].
    pose proof (dying_more s0 _ _ HI EL (or_intror (ex_intro _ _ EG)) Kd Hc) as HD.
    pose proof Hc as [Hnf _]. unfold no_float in Hnf. rewrite LoopDrawn.gens_app, EG in Hnf. apply Forall_app in Hnf as [_ Hnf].
    assert (Lg : List.length (gens (s_tr s0 ++ [EvSelect (combine (a_rows if_gen') if_evals') (combine (a_rows if_elite') if_evel'); EvLearn if_noisy] ++ calls_of (a_rows if_g) if_rets ++ [EvGen if_g if_rets if_vals])) = Datatypes.S (Datatypes.S (List.length (learns (s_tr s0))))).
    { rewrite LoopDrawn.gens_app, EG, app_length, L. cbn. lia. }
    refine (conj _ (conj De (conj _ _))).
    + inversion Hnf; assumption.
    + rewrite Lg, LoopDrawn.learns_app, EL, app_length. cbn. lia.
    + intros k d Hk. destruct (HD k d Hk) as [HD1 HD2]. assert (Hkl : k <= List.length (learns (s_tr s0))).
      { assert (Q : k < List.length (learns (s_tr s0 ++ [EvSelect (combine (a_rows if_gen') if_evals') (combine (a_rows if_elite') if_evel'); EvLearn if_noisy] ++ calls_of (a_rows if_g) if_rets ++ [EvGen if_g if_rets if_vals]))) by (apply nth_error_Some; rewrite Hk; discriminate).
        rewrite LoopDrawn.learns_app, EL, app_length in Q. cbn in Q. lia. }
      refine (conj _ (conj _ (conj HD1 HD2))).
      * apply (HD1 (Datatypes.S (List.length (learns (s_tr s0)))) (if_g, if_vals)); [lia|]. rewrite LoopDrawn.gens_app, EG, <- L, nth_error_app2, Nat.sub_diag by lia. reflexivity.
      * eapply kept_sub; [|exact Hel]. apply (HD2 (List.length (learns (s_tr s0)))); [lia|]. rewrite LoopDrawn.learns_app, EL, nth_error_app2, Nat.sub_diag by lia. reflexivity.
  - intros wn s0. apply narrowing_dying.
  - intros wn s0 s1 Hwn HI Hf. apply only_text in Hwn. subst wn. pose proof (narrowing_dying _ HI) as C.
    assert (C2 : forall l gen' evals' elite' evel' noisy data p1, selected c h (s_obj s0) gen' evals' elite' evel' -> iadd gen' NoiseStr = Ok noisy -> h_data h noisy elite' (s_pm s0) = (Ok data, p1) ->
      learns l = [] -> (gens l = [] \/ exists gv, gens l = [gv]) ->
      dying (s_tr s0 ++ [EvSelect (combine (a_rows gen') evals') (combine (a_rows elite') evel'); EvLearn data] ++ l)).
    { intros l gen' evals' elite' evel' noisy data p1 Hs Hi Hd Ell Egl. rewrite plain in Hd. assert (E1 : data = noisy) by congruence. subst data.
      intros Hc. pose proof (closed_prefix _ _ _ Hc) as Hc0. destruct (HI Hc0) as (D1 & D2 & _).
      apply (dying_more s0 _ noisy); [exact HI|rewrite LoopDrawn.learns_app, Ell; reflexivity|rewrite LoopDrawn.gens_app; exact Egl| |exact Hc].
      intros d K1 K2. eapply (step_kept (s_obj s0)); eassumption. }
    destruct Hf as [E|gen' evals' elite' evel' Hs E|gen' evals' elite' evel' noisy data p1 Hs Hi Hd E
                   |gen' evals' elite' evel' noisy data p1 p2 w2 g w3 l Hs Hi Hd _ _ Hl E
                   |gen' evals' elite' evel' noisy data p1 p2 w2 g w3 rets vals Hs Hi Hd _ _ _ _ E]; rewrite E.
    + exact C.
    + apply dying_quiet; [reflexivity|reflexivity|exact C].
    + rewrite <- (app_nil_r [_; _]). eapply C2; try eassumption; [reflexivity|left; reflexivity].
    + destruct (quiet_rows _ _ Hl) as [Q1 Q2]. eapply C2; try eassumption. left. exact Q1.
    + eapply C2; try eassumption.
      * rewrite LoopDrawn.learns_app, LoopObs.learns_calls_of. reflexivity.
      * right. exists (g, vals). rewrite LoopDrawn.gens_app, LoopObs.gens_calls_of. reflexivity.
Qed.
End Loop.

Section Cat.
Context {X W : Type}.
Variable E : env X W.

Lemma umdacat_closed_every g values freq (o0 o : optimiser X) cost a ftol out w r s :
  construct E (UMDAcat values freq) g = Ok o0 -> used E o0 o ->
  argsort_ok (e_argsort E) -> unif_ok (e_rng E) -> (1 <= g_nvars g)%Z -> cats_ok values freq ->
  (0 <= g_size_gen g <= 2 ^ 53)%Z -> factor (g_alpha g) ->
  (forall d, g_init_data g = Some d -> cat_pop (Z.to_nat (g_nvars g)) values d) ->
  run_in E a o cost ftol out w = (r, s) ->
  closed_run (Z.to_nat (g_nvars g)) (s_tr s) /\
  Forall (cat_pop (Z.to_nat (g_nvars g)) values) (map fst (gens (s_tr s))) /\ Forall (cat_pop (Z.to_nat (g_nvars g)) values) (learns (s_tr s)).
Proof.
  intros Hc U Has Hun Hn Hcats Hsz Hal Hi Hr.
  pose proof (cat_trunc E values freq g o0 Hc ltac:(lia) Hal) as Htr. cbn [construct] in Hc.
  destruct (umdacat_run E false g values freq o0 o cost 0 a ftol out w r s) as (R1 & _ & R3 & R4 & _ & _); try assumption.
  { intros d Hd. split; [split; [apply Hi, Hd|discriminate]|lia]. }
  { lia. }
  { discriminate. }
  split; [|split; assumption]. split.
  - unfold no_float. apply Forall_forall. intros gv Hin. rewrite Forall_forall in R1. apply (R1 (fst gv) (in_map fst _ _ Hin)).
  - intros k d gv Hd Hg. assert (HN : cat_next (Z.to_nat (g_nvars g)) d (fst gv)).
    { apply (R4 k); [exact Hd|]. rewrite nth_error_map, Hg. reflexivity. }
    destruct HN as (_ & _ & HN). exact HN.
Qed.

Lemma umdacat_dies_out_every g values freq (o0 o : optimiser X) cost a ftol out w r s :
  construct E (UMDAcat values freq) g = Ok o0 -> used E o0 o ->
  argsort_ok (e_argsort E) -> unif_ok (e_rng E) -> (1 <= g_nvars g)%Z -> cats_ok values freq ->
  (0 <= g_size_gen g <= 2 ^ 53)%Z -> factor (g_alpha g) -> factor (g_elite_factor g) -> (factor_R (g_elite_factor g) <= factor_R (g_alpha g))%R ->
  (forall d, g_init_data g = Some d -> cat_pop (Z.to_nat (g_nvars g)) values d) ->
  run_in E a o cost ftol out w = (r, s) ->
  forall k d j v, nth_error (learns (s_tr s)) k = Some d -> j < Z.to_nat (g_nvars g) -> ~ In v (column j (a_rows d)) ->
  (forall m gv, k < m -> nth_error (gens (s_tr s)) m = Some gv -> ~ In v (column j (a_rows (fst gv)))) /\
  (forall m d', k < m -> nth_error (learns (s_tr s)) m = Some d' -> ~ In v (column j (a_rows d'))).
Proof.
  intros Hc U Has Hun Hn Hcats Hsz Hal Hel Hle Hi Hr k d j v Hd Hj Hv.
  destruct (umdacat_closed_every g values freq o0 o cost a ftol out w r s) as (C & _ & _); try assumption.
  destruct (used_setup E _ _ U) as (Ecfg & Ein & Eupd & _). cbn [construct] in Hc. apply umdacat_inv in Hc as (Hcfg & _ & _ & _ & Hupd & _).
  apply eda_init_inv in Hcfg. destruct Hcfg as (_ & _ & _ & _ & _ & _ & _ & _ & _ & C10 & C11 & C12 & _).
  pose proof (int_times_le _ _ _ _ _ Hsz Hel Hal Hle C12 C11) as Hlen. rewrite <- Ecfg in Hlen, C10. rewrite <- Eupd in Hupd.
  assert (Cm : executes (op_cfg o) (hooks_of E o cost) ftol out (mkSt a (op_st o) w []) r (s_tr s)).
  { split; [reflexivity|]. exists s. split; [exact Hr|reflexivity]. }
  assert (Hp : forall gn e p, h_data (hooks_of E o cost) gn e p = (Ok gn, p)) by (intros gn e p; cbn [hooks_of h_data]; rewrite Hupd; reflexivity).
  assert (N0 : py_eq_int (c_w_noise (op_cfg o)) 0 = false) by (rewrite C10; reflexivity).
  assert (N1 : py_eq_int (c_w_noise (op_cfg o)) (-1) = true) by (rewrite C10; reflexivity).
  destruct (extinct_every _ _ (Z.to_nat (g_nvars g)) Hp N0 N1 Hlen _ _ _ _ _ Cm C k d Hd) as [K1 K2].
  split.
    + intros m gv Hm Hg Hin. apply Hv. exact (K1 m gv Hm Hg j Hj v Hin).
    + intros m d' Hm Hd' Hin. apply Hv. exact (K2 m d' (Nat.lt_le_incl _ _ Hm) Hd' j Hj v Hin).
Qed.

(** Once the selected individuals are all the same, everything sampled later is that individual. *)
Lemma umdacat_converged_every g values freq (o0 o : optimiser X) cost a ftol out w r s :
  construct E (UMDAcat values freq) g = Ok o0 -> used E o0 o ->
  argsort_ok (e_argsort E) -> unif_ok (e_rng E) -> (1 <= g_nvars g)%Z -> cats_ok values freq ->
  (0 <= g_size_gen g <= 2 ^ 53)%Z -> factor (g_alpha g) -> factor (g_elite_factor g) -> (factor_R (g_elite_factor g) <= factor_R (g_alpha g))%R ->
  (forall d, g_init_data g = Some d -> cat_pop (Z.to_nat (g_nvars g)) values d) ->
  run_in E a o cost ftol out w = (r, s) ->
  forall k d x, nth_error (learns (s_tr s)) k = Some d -> Forall (eq x) (a_rows d) ->
  (forall m gv, k < m -> nth_error (gens (s_tr s)) m = Some gv -> Forall (eq x) (a_rows (fst gv))) /\
  (forall m d', k < m -> nth_error (learns (s_tr s)) m = Some d' -> Forall (eq x) (a_rows d')).
Proof.
  intros Hc U Has Hun Hn Hcats Hsz Hal Hel Hle Hi Hr k d x Hd Hx.
  destruct (umdacat_closed_every g values freq o0 o cost a ftol out w r s) as (C & PG & PL); try assumption.
  assert (D : forall j v, j < Z.to_nat (g_nvars g) -> ~ In v (column j (a_rows d)) ->
     (forall m gv, k < m -> nth_error (gens (s_tr s)) m = Some gv -> ~ In v (column j (a_rows (fst gv)))) /\
     (forall m d', k < m -> nth_error (learns (s_tr s)) m = Some d' -> ~ In v (column j (a_rows d')))).
  { intros j v Hj Hv. eapply umdacat_dies_out_every with (g := g); eassumption. }
  set (n := Z.to_nat (g_nvars g)) in *.
  assert (Hcol : forall j, incl (column j (a_rows d)) [nth j x (CF fnan)]).
  { intros j c Hin. unfold column in Hin. apply in_map_iff in Hin as (r0 & <- & Hr0). rewrite Forall_forall in Hx. rewrite <- (Hx r0 Hr0). left. reflexivity. }
  assert (Only : forall b : arr, cat_pop n values b -> (a_rows d = [] -> a_rows b = []) -> (forall j v, j < n -> ~ In v (column j (a_rows d)) -> ~ In v (column j (a_rows b))) -> Forall (eq x) (a_rows b)).
  { intros b (_ & _ & Hb) Hempty Hsub. apply Forall_forall. intros y Hy.
    assert (Lx : List.length x = n).
    { destruct (a_rows d) as [|r0 rs] eqn:Ed; [rewrite (Hempty eq_refl) in Hy; destruct Hy|].
      inversion Hx as [|? ? E0 _]; subst. rewrite Forall_forall in PL. destruct (PL d (nth_error_In _ _ Hd)) as (_ & _ & Pd). rewrite Ed in Pd. inversion Pd as [|? ? [L _] _]. exact L. }
    rewrite Forall_forall in Hb. destruct (Hb y Hy) as [Ly _]. symmetry. apply (nth_ext y x (CF fnan) (CF fnan)); [congruence|].
    intros j Hj. rewrite Ly in Hj.
    destruct (in_dec cell_dec (nth j y (CF fnan)) (column j (a_rows d))) as [Hin|Hnot].
    - destruct (Hcol j _ Hin) as [E0|[]]. symmetry. exact E0.
    - exfalso. apply (Hsub j _ Hj Hnot). unfold column. apply (in_map (fun r : row => nth j r (CF fnan))), Hy. }
  assert (Hemp : forall b : arr, a_rows d = [] -> (forall j v, j < n -> ~ In v (column j (a_rows d)) -> ~ In v (column j (a_rows b))) -> a_rows b = []).
  { intros b E0 Hsub. destruct (a_rows b) as [|r0 rs] eqn:Eb; [reflexivity|]. exfalso. apply (Hsub 0 (nth 0 r0 (CF fnan))).
    - unfold n. lia.
    - rewrite E0. intros [].
    - left. reflexivity. }
  split.
  - intros m gv Hm Hg. assert (Hs : forall j v, j < n -> ~ In v (column j (a_rows d)) -> ~ In v (column j (a_rows (fst gv)))) by (intros j v Hj Hv; exact (proj1 (D j v Hj Hv) m gv Hm Hg)).
    apply Only; [|intros E0; apply Hemp; assumption|exact Hs]. rewrite Forall_forall in PG. apply PG. eapply in_map, nth_error_In, Hg.
  - intros m d' Hm Hd'. assert (Hs : forall j v, j < n -> ~ In v (column j (a_rows d)) -> ~ In v (column j (a_rows d'))) by (intros j v Hj Hv; exact (proj2 (D j v Hj Hv) m d' Hm Hd')).
    apply Only; [|intros E0; apply Hemp; assumption|exact Hs]. rewrite Forall_forall in PL. apply PL. eapply nth_error_In, Hd'.
Qed.

End Cat.
