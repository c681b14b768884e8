(** All stock algorithms at once: construction, setters, settings, bounds. *)
From Coq Require Import String List ZArith Bool Lia.
From Verif Require Import PyBase B64 B64More NdArray Eda EdaInv Spec TopK LoopObs LoopThms LoopMore Select LoopTrain LoopRel LoopInv LoopFinal Rand Models Inits InitThms ModelThms CatThms ModelProps Trunc Stock StockInv StockGauss StockCat StockPrior StockArchive StockFail.
Import ListNotations.
Open Scope nat_scope.

(** The classes of EDAspy.optimization with the arguments peculiar to each. *)
Inductive algorithm :=
| UMDAc (lo hi : bound) (vector : option (list (list f64))) (lower_factor : f64) (w_noise : option pynum)
| PBIL (lo hi : bound) (vector : option (list (list f64))) (lower_factor : f64) (w_noise : option pynum)
| UMDAd (vector : option (list f64)) (lower upper : f64)
| UMDAcat (values : list (list cell)) (freq : list (list f64))
| EBNA (values : list (list cell)) (freq : list (list f64))
| UnivariateKEDA (lo hi : bound) (w_noise : option pynum)
| EGNA (lo hi : bound) (w_noise : option pynum)
| EMNA (lo hi : bound) (lower_factor upper_factor : f64) (w_noise : option pynum) (z : nat -> f64)
| MultivariateKEDA (lo hi : bound) (l : pynum) (w_noise : option pynum)
| SPEDA (lo hi : bound) (l : pynum) (w_noise : option pynum).

Definition uses_archive (A : algorithm) : bool :=
  match A with MultivariateKEDA _ _ _ _ | SPEDA _ _ _ _ => true | _ => false end.
Definition is_pbil (A : algorithm) : bool := match A with PBIL _ _ _ _ _ => true | _ => false end.

(** The bounds of the algorithms whose first generation is uniform. *)
Definition start_bounds (A : algorithm) : option (bound * bound) :=
  match A with
  | UMDAc lo hi None _ _ | PBIL lo hi None _ _ => Some (lo, hi)
  | UnivariateKEDA lo hi _ | EGNA lo hi _ | EMNA lo hi _ _ _ _ | MultivariateKEDA lo hi _ _ | SPEDA lo hi _ _ => Some (lo, hi)
  | _ => None
  end.

Section All.
Context {X W : Type}.
Variable E : env X W.

Definition construct (A : algorithm) (g : args) : res (optimiser X) :=
  match A with
  | UMDAc lo hi v lf wn => umdac_new g lo hi v lf wn
  | PBIL lo hi v lf wn => pbil_new g lo hi v lf wn
  | UMDAd v lo hi => umdad_new g v lo hi
  | UMDAcat v f => umdacat_new E g v f
  | EBNA v f => bn_new E g v f
  | UnivariateKEDA lo hi wn => unikeda_new E g lo hi wn
  | EGNA lo hi wn => egna_new E g lo hi wn
  | EMNA lo hi lf uf wn z => emna_new g lo hi lf uf wn z
  | MultivariateKEDA lo hi l wn => archive_new E KKDEBN g lo hi l wn
  | SPEDA lo hi l wn => archive_new E KSPBN g lo hi l wn
  end.

(** What each constructor passes to the base class. *)
Definition passed_alpha (A : algorithm) (g : args) : pynum := if is_pbil A then PyI 1 else g_alpha g.
Definition passed_elite (A : algorithm) (g : args) : pynum := if uses_archive A then g_alpha g else g_elite_factor g.
Definition passed_noise (A : algorithm) : option pynum :=
  match A with
  | UMDAc _ _ _ _ wn | PBIL _ _ _ _ wn | UnivariateKEDA _ _ wn | EGNA _ _ wn | EMNA _ _ _ _ wn _
  | MultivariateKEDA _ _ _ wn | SPEDA _ _ _ wn => wn
  | UMDAd _ _ _ => Some (PyI 0)
  | UMDAcat _ _ | EBNA _ _ => Some (PyI (-1))
  end.

Definition base_of (A : algorithm) (g : args) : res cfg :=
  eda_init (g_size_gen g) (g_max_iter g) (g_dead_iter g) (g_nvars g) (passed_alpha A g) (passed_elite A g)
           (g_disp g) (g_parallelize g) (g_init_data g) (passed_noise A).

(** What every successful construction leaves. *)
Record built (A : algorithm) (g : args) (o : optimiser X) : Prop := {
  bt_cfg : base_of A g = Ok (op_cfg o);
  bt_exp : op_exp o = Plain;
  bt_upd : uses_archive A = false -> op_upd o = FromSelection;
  bt_init : forall lo hi, start_bounds A = Some (lo, hi) ->
              exists u, uniform_new (g_nvars g) lo hi = Ok u /\ op_init o = Some (IUniform u);
  bt_pm : exists m, ps_pm (op_st o) = Some m /\ Z.of_nat (model_width m) = g_nvars g
}.

Ltac step H := match type of H with
  | rbind ?x _ = Ok _ => let e := fresh "e" in destruct x eqn:e; cbn [rbind rmap] in H; [|discriminate H]
  | (if ?b then _ else _) = Ok _ => let e := fresh "e" in destruct b eqn:e; [|discriminate H] || discriminate H
  end.

Lemma assign_pm_ok (m : model X) o o' : assign_pm m o = Ok o' -> Z.of_nat (model_width m) = c_nvars (op_cfg o) /\ o' = with_pm o m.
Proof.
  unfold assign_pm, set_pm. destruct (Z.eqb_spec (Z.of_nat (model_width m)) (c_nvars (op_cfg o))); cbn [rmap]; [|discriminate].
  intros H. split; [assumption|congruence].
Qed.
Lemma assign_init_ok i (o o' : optimiser X) : assign_init i o = Ok o' -> initr_width i = c_nvars (op_cfg o) /\ o' = with_init o i.
Proof.
  unfold assign_init, set_init. destruct (Z.eqb_spec (initr_width i) (c_nvars (op_cfg o))); cbn [rmap]; [|discriminate].
  intros H. split; [assumption|congruence].
Qed.

Lemma base_ok g al el wn (o : optimiser X) : base g al el wn = Ok o ->
  exists c, eda_init (g_size_gen g) (g_max_iter g) (g_dead_iter g) (g_nvars g) al el (g_disp g) (g_parallelize g) (g_init_data g) wn = Ok c /\
    o = mkOpt c (mkPS None (mkArr DFloat (Z.to_nat (g_nvars g)) [])) None FromSelection Plain.
Proof. unfold base. destruct (eda_init _ _ _ _ _ _ _ _ _ _) as [c|e]; cbn [rmap]; [|discriminate]. intros H. exists c. split; [reflexivity|congruence]. Qed.

Lemma eda_init_nvars size max dead n al el disp par init wn c : eda_init size max dead n al el disp par init wn = Ok c -> c_nvars c = n.
Proof. intros H. apply eda_init_inv in H. tauto. Qed.

Lemma vector_none n lo hi i : vector_or_bounds n None lo hi = Ok i -> exists u, uniform_new n lo hi = Ok u /\ i = IUniform u.
Proof. cbn [vector_or_bounds]. destruct (uniform_new n lo hi); cbn [rmap]; [|discriminate]. intros H. eexists. split; [reflexivity|congruence]. Qed.

Lemma construct_built A g o : construct A g = Ok o -> built A g o.
Proof.
  intros H. destruct A; cbn [construct] in H;
    unfold umdac_new, pbil_new, umdad_new, umdacat_new, bn_new, unikeda_new, egna_new, emna_new in H.
  1-8: (let b := fresh "b" in match type of H with rbind ?x _ = _ => destruct x as [b|] eqn:Hb; cbn [rbind] in H; [|discriminate H] end;
        apply base_ok in Hb as (c & Hc & ->)).
  - step H. step H. apply assign_init_ok in e0 as [_ ->]. apply assign_pm_ok in H as [Hw ->].
    split; cbn [op_cfg op_exp op_upd op_init op_st with_pm with_init ps_pm]; auto.
    + intros lo' hi'. cbn [start_bounds]. destruct vector; [discriminate|]. intros H. apply vector_none in e as (u & Hu & ->).
      exists u. split; [congruence|reflexivity].
    + eexists. split; [reflexivity|]. rewrite Hw. cbn. eapply eda_init_nvars, Hc.
  - step H. step H. apply assign_init_ok in e0 as [_ ->]. apply assign_pm_ok in H as [Hw ->].
    split; cbn [op_cfg op_exp op_upd op_init op_st with_pm with_init ps_pm]; auto.
    + intros lo' hi'. cbn [start_bounds]. destruct vector; [discriminate|]. intros H. apply vector_none in e as (u & Hu & ->).
      exists u. split; [congruence|reflexivity].
    + eexists. split; [reflexivity|]. rewrite Hw. cbn. eapply eda_init_nvars, Hc.
  - step H. step H. apply assign_pm_ok in e0 as [Hw ->]. apply assign_init_ok in H as [_ ->].
    split; cbn [op_cfg op_exp op_upd op_init op_st with_pm with_init ps_pm]; auto; [discriminate|].
    eexists. split; [reflexivity|]. rewrite Hw. cbn. eapply eda_init_nvars, Hc.
  - step H. apply assign_pm_ok in e as [Hw ->]. step H. apply assign_init_ok in H as [_ ->].
    split; cbn [op_cfg op_exp op_upd op_init op_st with_pm with_init ps_pm]; auto; [discriminate|].
    eexists. split; [reflexivity|]. rewrite Hw. cbn. eapply eda_init_nvars, Hc.
  - step H. apply assign_pm_ok in e as [Hw ->]. step H. apply assign_init_ok in H as [_ ->].
    split; cbn [op_cfg op_exp op_upd op_init op_st with_pm with_init ps_pm]; auto; [discriminate|].
    eexists. split; [reflexivity|]. rewrite Hw. cbn. eapply eda_init_nvars, Hc.
  - step H. step H. apply assign_init_ok in e0 as [_ ->]. apply assign_pm_ok in H as [Hw ->].
    split; cbn [op_cfg op_exp op_upd op_init op_st with_pm with_init ps_pm]; auto.
    + intros lo' hi' H. cbn [start_bounds] in H. eexists. split; [|reflexivity]. congruence.
    + eexists. split; [reflexivity|]. rewrite Hw. cbn. eapply eda_init_nvars, Hc.
  - step H. apply assign_pm_ok in e as [Hw ->]. step H. apply assign_init_ok in H as [_ ->].
    split; cbn [op_cfg op_exp op_upd op_init op_st with_pm with_init ps_pm]; auto.
    + intros lo' hi' H. cbn [start_bounds] in H. eexists. split; [|reflexivity]. congruence.
    + eexists. split; [reflexivity|]. rewrite Hw. cbn. eapply eda_init_nvars, Hc.
  - step H. apply assign_pm_ok in e as [Hw ->]. step H. apply assign_init_ok in H as [_ ->].
    split; cbn [op_cfg op_exp op_upd op_init op_st with_pm with_init ps_pm]; auto.
    + intros lo' hi' H. cbn [start_bounds] in H. eexists. split; [|reflexivity]. congruence.
    + eexists. split; [reflexivity|]. rewrite Hw. cbn. eapply eda_init_nvars, Hc.
  - apply archive_inv in H as (t & c & u & Ht & Hc & Hu & Hn & ->).
    split; cbn [op_cfg op_exp op_upd op_init op_st with_pm with_init ps_pm uses_archive]; auto; [discriminate| |].
    + intros lo' hi' H. cbn [start_bounds] in H. exists u. split; [congruence|reflexivity].
    + eexists. split; [reflexivity|]. cbn. unfold names. lia.
  - apply archive_inv in H as (t & c & u & Ht & Hc & Hu & Hn & ->).
    split; cbn [op_cfg op_exp op_upd op_init op_st with_pm with_init ps_pm uses_archive]; auto; [discriminate| |].
    + intros lo' hi' H. cbn [start_bounds] in H. exists u. split; [congruence|reflexivity].
    + eexists. split; [reflexivity|]. cbn. unfold names. lia.
Qed.

(** ** Validation *)

Definition valid_args (g : args) : Prop :=
  (g_dead_iter g <= g_max_iter g)%Z /\ forall d, g_init_data g = Some d -> Z.of_nat (a_nc d) = g_nvars g.

Lemma eda_init_valid size max dead n al el disp par init wn :
  (0 <= size <= 2 ^ 53)%Z -> factor al -> factor el ->
  ((dead <= max)%Z /\ (forall d, init = Some d -> Z.of_nat (a_nc d) = n) <->
     exists c, eda_init size max dead n al el disp par init wn = Ok c) /\
  (~ ((dead <= max)%Z /\ (forall d, init = Some d -> Z.of_nat (a_nc d) = n)) ->
     eda_init size max dead n al el disp par init wn = Raise AssertionError).
Proof.
  intros Hs Ha He.
  destruct (int_times_bounds size al Hs Ha) as (t & Et & _). destruct (int_times_bounds size el Hs He) as (t' & Et' & _).
  unfold eda_init. rewrite Et, Et'. cbn [rbind].
  destruct (Z.leb_spec dead max) as [H|H].
  - destruct init as [d|].
    + destruct (Z.eqb_spec (Z.of_nat (a_nc d)) n) as [Hd|Hd].
      * split; [split; [intros _; eauto|intros _; split; [exact H|intros d' Hd'; congruence]]|].
        intros Hc. exfalso. apply Hc. split; [exact H|]. intros d' Hd'. congruence.
      * split; [|reflexivity]. split; [intros [_ Hc]; exfalso; apply Hd, Hc; reflexivity|intros [c Hc]; discriminate].
    + split; [split; [intros _; eauto|intros _; split; [exact H|discriminate]]|]. intros Hc. exfalso. apply Hc. split; [exact H|discriminate].
  - split; [|reflexivity]. split; [intros [Hc _]; lia|intros [c Hc]; discriminate].
Qed.

Lemma construct_valid A g o : construct A g = Ok o -> valid_args g.
Proof. intros H. apply construct_built in H. destruct H. apply eda_init_inv in bt_cfg0. unfold valid_args. tauto. Qed.

Lemma construct_invalid A g :
  (0 <= g_size_gen g <= 2 ^ 53)%Z -> factor (g_alpha g) -> factor (g_elite_factor g) -> ~ valid_args g ->
  construct A g = Raise AssertionError.
Proof.
  intros Hs Ha He Hv.
  assert (B : base_of A g = Raise AssertionError).
  { apply eda_init_valid; try assumption.
    - unfold passed_alpha. destruct (is_pbil A); [right; reflexivity|exact Ha].
    - unfold passed_elite. destruct (uses_archive A); assumption. }
  destruct A; cbn [construct];
    unfold umdac_new, pbil_new, umdad_new, umdacat_new, bn_new, unikeda_new, egna_new, emna_new, archive_new, base;
    unfold base_of, passed_alpha, passed_elite, passed_noise, is_pbil, uses_archive in B; rewrite B; reflexivity.
Qed.

(** ** Settings *)

Lemma export_reports A g (o0 o : optimiser X) : construct A g = Ok o0 -> used E o0 o ->
  exists d, export o = Ok d /\
    dict_get "size_gen" d = Some (SInt (g_size_gen g)) /\ dict_get "max_iter" d = Some (SInt (g_max_iter g)) /\
    dict_get "dead_iter" d = Some (SInt (g_dead_iter g)) /\ dict_get "n_variables" d = Some (SInt (g_nvars g)) /\
    dict_get "disp" d = Some (SBool (g_disp g)) /\ dict_get "parallelize" d = Some (SBool (g_parallelize g)) /\
    dict_get "alpha" d = Some (SNum (if is_pbil A then PyI 1 else g_alpha g)) /\
    dict_get "elite_factor" d = Some (SNum (if uses_archive A then g_alpha g else g_elite_factor g)).
Proof.
  intros H U. apply construct_built in H. destruct H. destruct (used_setup E _ _ U) as (E1 & _ & _ & E4).
  unfold base_of in bt_cfg0. apply eda_init_inv in bt_cfg0.
  destruct bt_cfg0 as (C1 & C2 & C3 & C4 & C5 & C6 & C7 & C8 & _).
  unfold export. rewrite E4, bt_exp0, E1. eexists. split; [reflexivity|].
  cbn. rewrite C1, C2, C3, C4, C5, C6, C7, C8. repeat split.
Qed.

(** The settings in the result are those of the optimiser. *)
Lemma result_settings (o : optimiser X) cost a ftol out w r s d :
  export o = Ok d -> run_in E a o cost ftol out w = (Ok r, s) -> r_settings r = d.
Proof.
  intros Hd H. unfold run_in in H.
  destruct (minimize_rule _ _ ftol out (fun _ _ _ => True) _ _ _ (fun _ _ _ _ _ _ => I) (fun _ _ _ _ _ _ _ _ _ _ _ _ _ _ => I) H)
    as (nb & sf & _ & _ & Hr & _). rewrite Hr. cbn [r_settings hooks_of h_settings]. rewrite Hd. reflexivity.
Qed.

(** ** The first generation respects the bounds *)

Definition within (n : nat) (lo hi : bound) (r : row) : Prop :=
  List.length r = n /\ forall j, j < n -> exists x l h, nth_error r j = Some (CF x) /\ bound_of lo j l /\ bound_of hi j h /\ fle l x = true /\ fle x h = true.

Lemma first_within A g lo hi (o0 o : optimiser X) cost a ftol out w r s :
  construct A g = Ok o0 -> used E o0 o -> start_bounds A = Some (lo, hi) -> unif_ok (e_rng E) ->
  (1 <= g_nvars g)%Z -> g_init_data g = None -> bounds_ok (Z.to_nat (g_nvars g)) lo hi ->
  run_in E a o cost ftol out w = (Ok r, s) ->
  exists g0 v0 rest, gens (s_tr s) = (g0, v0) :: rest /\ Forall (within (Z.to_nat (g_nvars g)) lo hi) (a_rows g0).
Proof.
  intros H U Hb Hun Hn Hd (B1 & B2 & B3) Hr. pose proof (construct_built _ _ _ H) as B. destruct B.
  destruct (used_setup E _ _ U) as (E1 & E2 & _). destruct (bt_init0 _ _ Hb) as (u & Hu & Hi).
  unfold base_of in bt_cfg0. apply eda_init_inv in bt_cfg0. destruct bt_cfg0 as (C1 & _ & _ & C4 & _ & _ & _ & _ & C9 & _).
  assert (HC : completes (op_cfg o) (hooks_of E o cost) ftol out (mkSt a (op_st o) w []) r (s_tr s)).
  { split; [reflexivity|]. exists s. split; [exact Hr|reflexivity]. }
  destruct (gens_source (op_cfg o) (hooks_of E o cost) ftol out _ r (s_tr s) (fun g0 => Forall (within (Z.to_nat (g_nvars g)) lo hi) (a_rows g0)) (fun _ => True) HC)
    as (g0 & v0 & rest & G1 & G2 & _); [|auto|eauto].
  rewrite E1, C9, Hd. intros w0 g0 w0' Hs. cbn [hooks_of h_init] in Hs. rewrite E2, Hi, E1, C1 in Hs. cbn [initr_sample] in Hs.
  assert (Hsz : (0 <= g_size_gen g)%Z).
  { destruct (Z.leb_spec 0 (g_size_gen g)) as [Hz|Hz]; [exact Hz|exfalso]. unfold uniform_sample in Hs.
    destruct (ui_n u <? 0)%Z; [discriminate|]. unfold np_uniform in Hs. destruct (Z.ltb_spec (g_size_gen g) 0) as [_|?]; [|lia].
    destruct (ui_lo u), (ui_hi u); try discriminate; repeat (match type of Hs with (if ?b then _ else _) = _ => destruct b; try discriminate end). }
  destruct (uniform_sample_spec (e_rng E) (Z.to_nat (g_nvars g)) lo hi u (g_size_gen g) w0) as (a0 & w1 & Ha & (M1 & M2 & M3 & M4) & HB); try assumption; try lia.
  { rewrite Z2Nat.id by lia. exact Hu. }
  rewrite Ha in Hs. assert (g0 = a0) by congruence. subst g0. apply Forall_forall. intros x Hx.
  split; [rewrite Forall_forall in M4; apply M4, Hx|]. intros j Hj. apply In_nth_error in Hx as [i Hi0].
  assert (Hil : i < Z.to_nat (g_size_gen g)) by (rewrite <- M3; unfold a_len; apply nth_error_Some; congruence).
  specialize (HB i j Hil Hj). replace (nth i (a_rows a0) []) with x in HB by (symmetry; apply nth_error_nth; exact Hi0). exact HB.
Qed.

(** Without bounds, vector and initial data there is nothing to sample from. *)
Lemma no_bounds_fails A g (o0 o : optimiser X) cost a ftol out w :
  construct A g = Ok o0 -> used E o0 o -> start_bounds A = Some (BNone, BNone) -> g_init_data g = None ->
  exists s, run_in E a o cost ftol out w = (Raise TypeError, s).
Proof.
  intros H U Hb Hd. pose proof (construct_built _ _ _ H) as B. destruct B.
  destruct (used_setup E _ _ U) as (E1 & E2 & _). destruct (bt_init0 _ _ Hb) as (u & Hu & Hi). destruct bt_pm0 as (m & _ & Hm).
  unfold base_of in bt_cfg0. apply eda_init_inv in bt_cfg0. destruct bt_cfg0 as (C1 & _ & _ & C4 & _ & _ & _ & _ & C9 & _).
  unfold run_in, minimize, mbind, first_generation, mbind, initialize_generation. rewrite E1, C9, Hd. unfold with_world. cbn [hooks_of h_init s_w].
  rewrite E2, Hi. cbn [initr_sample]. rewrite (uniform_none _ _ _ _ _ Hu) by lia. eauto.
Qed.

End All.
