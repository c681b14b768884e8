(** EDACustom: construction, settings, and which combinations run. *)
From Coq Require Import String List ZArith Bool Lia.
From Verif Require Import PyBase B64 B64More NdArray Eda EdaInv Spec TopK LoopObs LoopThms LoopMore Select LoopTrain LoopRel LoopInv LoopFinal Rand Models Inits InitThms ModelThms CatThms ModelProps Trunc Sign Stock StockInv StockGauss StockCat StockPrior StockArchive StockFail StockAll StockMore.
Import ListNotations.
Open Scope nat_scope.

Section Custom.
Context {X W : Type}.
Variable E : env X W.

Definition custom_cfg (k : cargs) : res cfg :=
  eda_init (k_size_gen k) (k_max_iter k) (k_dead_iter k) (k_nvars k) (k_alpha k) (k_elite_factor k)
           (k_disp k) false None (Some (PyF (lit 1 (-1)))).

Record custom_built (k : cargs) (z : nat -> f64) (w : W) (o : optimiser X) : Prop := {
  cb_cfg : custom_cfg k = Ok (op_cfg o);
  cb_upd : op_upd o = FromSelection;
  cb_exp : op_exp o = WithBounds (k_lo k) (k_hi k);
  cb_pm : exists m, ps_pm (op_st o) = Some m /\ custom_pm E (k_nvars k) (k_pm k) (k_lo k) (k_hi k) z = Ok m /\ Z.of_nat (model_width m) = k_nvars k;
  cb_init : exists i w1 a w2, op_init o = Some i /\ custom_initr E (k_nvars k) (k_init k) (k_lo k) (k_hi k) w = (Ok i, w1) /\
              initr_width i = k_nvars k /\ initr_sample E i (k_size_gen k) w1 = (Ok a, w2)
}.

Lemma custom_inv k z w (o : optimiser X) w' : custom_new E k z w = (Ok o, w') -> custom_built k z w o.
Proof.
  unfold custom_new, custom_base. fold (custom_cfg k). destruct (custom_cfg k) as [c|] eqn:Hc; cbn [rmap rbind]; [|discriminate].
  destruct (custom_pm _ _ _ _ _ _) as [m|] eqn:Hm; cbn [rbind]; [|discriminate].
  destruct (assign_pm m _) as [o1|] eqn:H1; [|discriminate]. apply assign_pm_ok in H1 as [Hw ->].
  destruct (custom_initr _ _ _ _ _ w) as [[i|] w1] eqn:Hi; [|discriminate].
  destruct (assign_init i _) as [o2|] eqn:H2; [|discriminate]. apply assign_init_ok in H2 as [Hiw ->].
  destruct (initr_sample E i (k_size_gen k) w1) as [[a|] w2] eqn:Hs; cbn [rmap]; [|discriminate]. intros H.
  assert (Eo : o = with_init (with_pm (mkOpt c (mkPS None (mkArr DFloat (Z.to_nat (k_nvars k)) [])) None FromSelection (WithBounds (k_lo k) (k_hi k))) m) i) by congruence.
  subst o. cbn [with_init with_pm op_cfg] in *. unfold custom_cfg in Hc. pose proof (eda_init_nvars _ _ _ _ _ _ _ _ _ _ _ Hc) as Hn.
  split; cbn; auto; [exists m|exists i, w1, a, w2]; repeat split; auto; congruence.
Qed.

(** ** Settings *)

Lemma custom_ids n pm lo hi z m : custom_pm E n pm lo hi z = Ok m -> class_id (model_class m) = pm.
Proof.
  unfold custom_pm. destruct (Z.eqb_spec pm 1) as [->|_]; [intros H; assert (Em : m = MUniGauss (num_to_f lo) (gauss_new (names n))) by congruence; subst m; reflexivity|].
  destruct (Z.eqb_spec pm 2) as [->|_]; [destruct (unibin_new _ _ _) as [b|]; cbn [rmap]; [|discriminate]; intros H; assert (Em : m = MUniBin b) by congruence; subst m; reflexivity|].
  destruct (Z.eqb_spec pm 3) as [->|_]; [intros H; apply (f_equal (fun r => match r with Ok x => class_id (model_class x) | Raise _ => 3%Z end)) in H; symmetry; exact H|].
  destruct (Z.eqb_spec pm 4) as [->|_]; [intros H; apply (f_equal (fun r => match r with Ok x => class_id (model_class x) | Raise _ => 4%Z end)) in H; symmetry; exact H|discriminate].
Qed.
Lemma custom_init_ids n init lo hi w i w' : custom_initr E n init lo hi w = (Ok i, w') -> init_class_id (initr_class i) = init.
Proof.
  unfold custom_initr. destruct (Z.eqb_spec init 1) as [->|_].
  { destruct (unigauss_init_new _ _ _ _ _ _ w) as [[b|] w1]; cbn [rmap]; [|discriminate]. intros H. assert (Ei : i = IUniGauss b) by congruence. subst i. reflexivity. }
  destruct (Z.eqb_spec init 2) as [->|_]; [intros H; assert (Ei : i = IUniBin (unibin_init_new n [])) by congruence; subst i; reflexivity|].
  destruct (Z.eqb_spec init 3) as [->|_].
  { destruct (mgauss_init_new _ _ _ _ _ _ w) as [[b|] w1]; cbn [rmap]; [|discriminate]. intros H. assert (Ei : i = IMulti b) by congruence. subst i. reflexivity. }
  destruct (Z.eqb_spec init 4) as [->|_]; [|discriminate].
  destruct (uniform_new _ _ _) as [u|]; cbn [rmap]; [|discriminate]. intros H. assert (Ei : i = IUniform u) by congruence. subst i. reflexivity.
Qed.

(** What export_settings of an EDACustom returns. *)
Lemma custom_export k z w (o0 o : optimiser X) w' : custom_new E k z w = (Ok o0, w') -> used E o0 o ->
  export o = Ok [("size_gen", SInt (k_size_gen k)); ("max_iter", SInt (k_max_iter k)); ("dead_iter:", SInt (k_dead_iter k));
           ("n_variables", SInt (k_nvars k)); ("pm", SInt (k_pm k)); ("init", SInt (k_init k)); ("alpha", SNum (k_alpha k));
           ("elite_factor", SNum (k_elite_factor k)); ("disp", SBool (k_disp k)); ("bounds", SBounds (k_lo k) (k_hi k))]%string.
Proof.
  intros H U. apply custom_inv in H. destruct H. destruct (used_setup E _ _ U) as (E1 & E2 & _ & E4).
  destruct cb_pm0 as (m & Hm & Hmc & _). destruct cb_init0 as (i & w1 & a & w2 & Hi & Hic & _).
  pose proof (used_alike E _ _ U) as HA. rewrite Hm in HA. cbn [alike_opt] in HA. unfold export. rewrite E4, cb_exp0, E2, Hi, E1.
  destruct (ps_pm (op_st o)) as [m'|]; [|destruct HA]. rewrite <- (alike_class _ _ HA), (custom_ids _ _ _ _ _ _ Hmc), (custom_init_ids _ _ _ _ _ _ _ Hic).
  unfold custom_cfg in cb_cfg0. apply eda_init_inv in cb_cfg0. destruct cb_cfg0 as (C1 & C2 & C3 & C4 & C5 & C6 & C7 & _).
  rewrite C1, C2, C3, C4, C5, C6, C7. reflexivity.
Qed.

Lemma read_settings_fails k z w (o0 o : optimiser X) w' d z' w1 :
  custom_new E k z w = (Ok o0, w') -> used E o0 o -> export o = Ok d ->
  read_settings E d z' w1 = (Raise (KeyError "size-gen"), w1).
Proof.
  intros H U He. rewrite (custom_export _ _ _ _ _ _ H U) in He. apply (f_equal (fun r => match r with Ok x => x | Raise _ => d end)) in He. subst d. reflexivity.
Qed.

(** The dictionary with the two misspelt keys as the other side expects them. *)
Definition respelt (d : dict) : dict :=
  map (fun kv => (if String.eqb (fst kv) "size_gen" then "size-gen" else if String.eqb (fst kv) "dead_iter:" then "dead_iter" else fst kv, snd kv)%string) d.

Lemma read_respelt k z w (o0 o : optimiser X) w' d :
  custom_new E k z w = (Ok o0, w') -> used E o0 o -> export o = Ok d ->
  settings_args (respelt d) = Ok k /\
  forall w1, read_settings E (respelt d) z w1 = custom_new E k z w1.
Proof.
  intros H U He. rewrite (custom_export _ _ _ _ _ _ H U) in He. apply (f_equal (fun r => match r with Ok x => x | Raise _ => d end)) in He. subst d.
  assert (EK : settings_args (respelt [("size_gen", SInt (k_size_gen k)); ("max_iter", SInt (k_max_iter k)); ("dead_iter:", SInt (k_dead_iter k));
           ("n_variables", SInt (k_nvars k)); ("pm", SInt (k_pm k)); ("init", SInt (k_init k)); ("alpha", SNum (k_alpha k));
           ("elite_factor", SNum (k_elite_factor k)); ("disp", SBool (k_disp k)); ("bounds", SBounds (k_lo k) (k_hi k))]%string) = Ok k) by (destruct k; reflexivity).
  split; [exact EK|]. intros w1. unfold read_settings. rewrite EK. reflexivity.
Qed.

(** ** Running *)

(** The noise of an EDACustom is always 0.5. *)
Lemma custom_noise k (c : cfg) : custom_cfg k = Ok c -> py_eq_int (c_w_noise c) 0 = false /\ py_eq_int (c_w_noise c) (-1) = false /\ flt (num_to_f (c_w_noise c)) (Z2f 0) = false.
Proof.
  intros H. unfold custom_cfg in H. apply eda_init_inv in H. destruct H as (_ & _ & _ & _ & _ & _ & _ & _ & _ & H & _). rewrite H.
  assert (E0 : py_eq_int (PyF (lit 1 (-1))) 0 = false) by (vm_compute; reflexivity). rewrite E0. repeat split; vm_compute; reflexivity.
Qed.

(** Binary first generations never get past the noise. *)
Lemma custom_binary_fails k z w (o0 o : optimiser X) w' cost a ftol out w1 r s :
  custom_new E k z w = (Ok o0, w') -> k_init k = 2%Z -> used E o0 o ->
  run_in E a o cost ftol out w1 = (Ok r, s) -> (k_max_iter k <= 1)%Z.
Proof.
  intros H Hk U Hr. apply custom_inv in H. destruct H. destruct (used_setup E _ _ U) as (E1 & E2 & _).
  destruct (custom_noise _ _ cb_cfg0) as (N0 & N1 & _). pose proof cb_cfg0 as Hc. unfold custom_cfg in Hc. apply eda_init_inv in Hc.
  destruct Hc as (_ & C2 & _ & _ & _ & _ & _ & _ & C9 & _). destruct cb_init0 as (i & w2 & a2 & w3 & Hi & Hic & _).
  rewrite <- C2, <- E1. eapply int_noise_fails; [|rewrite E1; exact C9|rewrite E1; exact N0|rewrite E1; exact N1|exact Hr].
  intros w4 g w4'. cbn [hooks_of h_init]. rewrite E2, Hi. unfold custom_initr in Hic. rewrite Hk in Hic. cbn in Hic.
  assert (Ei : i = IUniBin (unibin_init_new (k_nvars k) [])) by congruence. subst i. cbn [initr_sample]. unfold unibin_init_sample. intros Hs.
  apply unibin_sample_spec in Hs. tauto.
Qed.

(** Whether uniform or normal sampling succeeds does not depend on the generator. *)
Lemma uniform_again (g : rng W) u size w a w1 w' : uniform_sample g u size w = (Ok a, w1) -> exists b w2, uniform_sample g u size w' = (Ok b, w2).
Proof.
  unfold uniform_sample. destruct (ui_n u <? 0)%Z; [discriminate|]. unfold np_uniform. destruct (ui_lo u), (ui_hi u); try discriminate;
  repeat match goal with |- (if ?b then _ else _) = _ -> _ => destruct b; [discriminate|] end;
  intros _; destruct (g_unif g _ _ w'); eauto.
Qed.
Lemma normal_again (g : rng W) loc scale size n w a w1 w' : np_normal g loc scale size n w = (Ok a, w1) -> exists b w2, np_normal g loc scale size n w' = (Ok b, w2).
Proof.
  unfold np_normal. repeat match goal with |- (if ?b then _ else _) = _ -> _ => destruct b; [discriminate|] end.
  intros _; destruct (g_gauss g _ _ w'); eauto.
Qed.

(** A univariate Gaussian model with a Gaussian or uniform first generation. *)
Lemma custom_gauss_completes k z w (o0 o : optimiser X) w' t cost a ftol out w1 :
  custom_new E k z w = (Ok o0, w') -> k_pm k = 1%Z -> (k_init k = 1 \/ k_init k = 4)%Z -> used E o0 o ->
  sum_ok (e_sum E) -> argsort_ok (e_argsort E) ->
  int_times (k_size_gen k) (k_alpha k) = Ok t -> (1 <= t <= k_size_gen k)%Z ->
  cost_total (float_row (Z.to_nat (k_nvars k))) cost ->
  exists res s, run_in E a o cost ftol out w1 = (Ok res, s).
Proof.
  intros H Hp Hk U Hs Ho Ht Hts Hcost. apply custom_inv in H. destruct H.
  destruct (custom_noise _ _ cb_cfg0) as (N0 & N1 & N2). pose proof cb_cfg0 as Hc. unfold custom_cfg in Hc. apply eda_init_inv in Hc.
  destruct Hc as (C1 & C2 & _ & C4 & _ & _ & _ & C8 & C9 & _ & C11 & _). destruct cb_init0 as (i & w2 & a2 & w3 & Hi & Hic & Hiw & His). destruct cb_pm0 as (m & Hm & Hmc & Hmw).
  assert (Em : m = MUniGauss (num_to_f (k_lo k)) (gauss_new (names (k_nvars k)))).
  { unfold custom_pm in Hmc. rewrite Hp in Hmc. cbn [Z.eqb Pos.eqb] in Hmc. congruence. } subst m.
  destruct (run_in E a o cost ftol out w1) as [r s] eqn:Er.
  assert (EI : float_initr i (k_nvars k) /\ forall w4, exists b w5, initr_sample E i (k_size_gen k) w4 = (Ok b, w5)).
  { unfold custom_initr in Hic. destruct Hk as [Hk|Hk]; rewrite Hk in Hic; cbn [Z.eqb Pos.eqb] in Hic.
    - destruct (unigauss_init_new _ _ _ _ _ _ w) as [[b|] w4]; cbn [rmap] in Hic; [|discriminate]. assert (Ei : i = IUniGauss b) by congruence. subst i.
      split; [exact Hiw|]. intros w5. eapply normal_again, His.
    - destruct (uniform_new _ _ _) as [u|]; cbn [rmap] in Hic; [|discriminate]. assert (Ei : i = IUniform u) by congruence. subst i.
      split; [exact Hiw|]. intros w5. eapply uniform_again, His. }
  destruct EI as [EI1 EI2]. cbn [model_width] in Hmw.
  destruct (gauss_run E (uni_state (Z.to_nat (k_nvars k))) 1 true o0 o cost (Z.to_nat (k_nvars k)) (Z.to_nat (k_size_gen k)) i a ftol out w1 r s) as (_ & _ & HR & _); try assumption.
  - left. split; [reflexivity|lia].
  - exists (num_to_f (k_lo k)), (gauss_new (names (k_nvars k))). split; [lia|exact Hm].
  - rewrite C4. exact EI1.
  - rewrite C4. reflexivity.
  - rewrite C9. discriminate.
  - rewrite C1. lia.
  - intros _. split; [exact Ho|]. split; [exact Hcost|]. split; [lia|]. split; [left; rewrite C8; reflexivity|].
    assert (Et : c_trunc_len (op_cfg o0) = t) by congruence. rewrite Et, C1. split; [lia|]. split.
    { unfold noise_refused. rewrite N2, Et, C4. destruct (Z.ltb_spec t 0); [lia|]. destruct (Z.ltb_spec (k_nvars k) 0); [lia|]. cbn. apply andb_false_r. }
    split; [exact N1|]. split; [right; lia|]. intros _. exact EI2.
  - destruct (HR eq_refl) as [res ->]. eauto.
Qed.

End Custom.
