(** Archive algorithms, EDACustom, and configurations that cannot get past the first generation. *)
From Coq Require Import String List ZArith Bool Lia.
From Verif Require Import PyBase B64 B64More NdArray Eda EdaInv Spec TopK LoopObs LoopThms LoopMore Select LoopTrain LoopRel LoopInv LoopFinal Rand Models Inits InitThms ModelThms CatThms ModelProps Trunc Stock StockInv StockGauss StockCat StockPrior StockArchive StockFail StockAll.
Import ListNotations.
Open Scope nat_scope.

Section More.
Context {X W : Type}.
Variable E : env X W.

(** ** Archives *)

(** An archive algorithm and its [l]. *)
Definition archive_l (A : algorithm) : option pynum :=
  match A with MultivariateKEDA _ _ l _ | SPEDA _ _ l _ => Some l | _ => None end.
Definition archive_class (A : algorithm) : pm_class := match A with SPEDA _ _ _ _ => KSPBN | _ => KKDEBN end.

Lemma archive_construct A g l (o : optimiser X) : construct E A g = Ok o -> archive_l A = Some l ->
  exists lo hi wn, archive_new E (archive_class A) g lo hi l wn = Ok o.
Proof.
  intros H Hl. destruct A; cbn [archive_l construct archive_class] in *; try discriminate; assert (EL : l0 = l) by congruence; subst l0; eauto.
Qed.

Lemma archive_ready A g (l : nat) (o : optimiser X) t :
  construct E A g = Ok o -> archive_l A = Some (PyI (Z.of_nat l)) ->
  (0 <= g_size_gen g <= 2 ^ 53)%Z -> factor (g_alpha g) -> int_times (g_size_gen g) (g_alpha g) = Ok t ->
  (forall d, g_init_data g = Some d -> a_dt d = DFloat /\ Z.to_nat t <= a_len d) ->
  samples_floats E (archive_class A) (g_size_gen g) ->
  archive_setup E (archive_class A) l (Z.to_nat t) o /\ (0 <= t)%Z.
Proof.
  intros H Hl Hs Ha Ht Hd Hx. destruct (archive_construct _ _ _ _ H Hl) as (lo & hi & wn & H1).
  apply archive_inv in H1 as (t' & c & u & Et & Hc & Hu & Hn & ->). assert (t' = t) by congruence. subst t'.
  destruct (int_times_bounds _ _ Hs Ha) as (t' & Et' & Hb & _). assert (t' = t) by congruence. subst t'.
  apply eda_init_inv in Hc as (C1 & _ & _ & C4 & _ & _ & _ & _ & C9 & _ & C11 & C12 & _).
  split; [|lia]. split; cbn [op_upd op_cfg op_st op_init ps_pm ps_archive times_int].
  - rewrite Z2Nat.id by lia. reflexivity.
  - rewrite Z2Nat.id by lia. congruence.
  - eauto.
  - reflexivity.
  - reflexivity.
  - rewrite C1. lia.
  - rewrite C9. destruct (g_init_data g) as [d|]; [apply Hd; reflexivity|eauto].
  - rewrite C1. exact Hx.
Qed.

Lemma archive_exact A g (l : nat) (o : optimiser X) t cost a ftol out w r s :
  construct E A g = Ok o -> archive_l A = Some (PyI (Z.of_nat l)) -> 1 <= l ->
  (0 <= g_size_gen g <= 2 ^ 53)%Z -> factor (g_alpha g) -> int_times (g_size_gen g) (g_alpha g) = Ok t ->
  (forall d, g_init_data g = Some d -> a_dt d = DFloat /\ Z.to_nat t <= a_len d) ->
  samples_floats E (archive_class A) (g_size_gen g) -> argsort_ok (e_argsort E) ->
  run_in E a o cost ftol out w = (Ok r, s) ->
  Forall (fun e => List.length e = Z.to_nat t) (elites (s_tr s)) /\
  List.length (learns (s_tr s)) = List.length (elites (s_tr s)) /\
  forall k d, nth_error (learns (s_tr s)) k = Some d ->
    a_rows d = concat (lastn l (firstn (S k) (elites (s_tr s)))) /\ a_len d = Nat.min l (S k) * Z.to_nat t.
Proof.
  intros H Hl H1 Hs Ha Ht Hd Hx Ho Hr. destruct (archive_ready _ _ _ _ _ H Hl Hs Ha Ht Hd Hx) as [HS _].
  apply (archive_run E _ _ _ _ _ _ _ _ _ _ _ HS H1 Ho) in Hr. destruct Hr as (_ & _ & _ & _ & _ & _ & _ & _ & R1 & R2 & _ & R3).
  split; [exact R1|]. split; [exact R2|]. intros k d Hk. specialize (R3 k d Hk). split; [exact R3|]. unfold a_len. rewrite R3.
  rewrite (concat_length_const (Z.to_nat t)).
  - rewrite lastn_length, firstn_length. assert (k < List.length (elites (s_tr s))) by (rewrite <- R2; apply nth_error_Some; congruence).
    f_equal. lia.
  - apply lastn_Forall. rewrite <- (firstn_skipn (S k)) in R1. apply Forall_app in R1. apply R1.
Qed.

(** Every row the model learns from is an individual that was evaluated: no noise is added. *)
Lemma archive_no_noise A g (l : nat) (o : optimiser X) t cost a ftol out w r s :
  construct E A g = Ok o -> archive_l A = Some (PyI (Z.of_nat l)) -> 1 <= l ->
  (0 <= g_size_gen g <= 2 ^ 53)%Z -> factor (g_alpha g) -> int_times (g_size_gen g) (g_alpha g) = Ok t ->
  (forall d, g_init_data g = Some d -> a_dt d = DFloat /\ Z.to_nat t <= a_len d) ->
  samples_floats E (archive_class A) (g_size_gen g) -> argsort_ok (e_argsort E) ->
  run_in E a o cost ftol out w = (Ok r, s) ->
  Forall (fun d => incl (a_rows d) (map fst (evaluated (s_tr s)))) (learns (s_tr s)).
Proof.
  intros H Hl H1 Hs Ha Ht Hd Hx Ho Hr. destruct (archive_ready _ _ _ _ _ H Hl Hs Ha Ht Hd Hx) as [HS Ht0].
  pose proof (archive_run E _ _ _ _ _ _ _ _ _ _ _ HS H1 Ho Hr) as (_ & _ & _ & _ & _ & _ & _ & _ & R1 & R2 & R4 & R3).
  assert (HC : completes (op_cfg o) (hooks_of E o cost) ftol out (mkSt a (op_st o) w []) r (s_tr s)).
  { split; [reflexivity|]. exists s. split; [exact Hr|reflexivity]. }
  assert (Ct : (0 <= c_trunc_len (op_cfg o))%Z /\ (0 <= c_elite_len (op_cfg o))%Z).
  { destruct HS. pose proof (construct_built _ _ _ _ H) as [B _ _ _ _]. unfold base_of in B. apply eda_init_inv in B.
    destruct B as (_ & _ & _ & _ & _ & _ & _ & _ & _ & _ & T1 & T2 & _).
    assert (passed_alpha A g = g_alpha g) as EA by (unfold passed_alpha; destruct A; try discriminate; reflexivity).
    rewrite EA in T1. assert (c_trunc_len (op_cfg o) = t) by congruence. rewrite as_elite. lia. }
  destruct Ct as [Ct Ce].
  assert (HE : each_event (sel_ok (op_cfg o)) (s_tr s)).
  { eapply (selection_lemma (op_cfg o) (hooks_of E o cost)); [exact Ho|exact Ct|exact Ce|exact HC|exact R4]. }
  assert (HI : Forall (fun e => incl e (map fst (evaluated (s_tr s)))) (elites (s_tr s))).
  { unfold elites. apply Forall_forall. intros e He. apply in_map_iff in He as ([tt ee] & <- & Hin). cbn [snd].
    unfold selections in Hin. apply in_flat_map in Hin as (ev & Hev & Hin). destruct ev; try destruct Hin. 2: contradiction.
    assert (EE : elite = ee) by congruence. subst elite. apply in_split in Hev as (tr1 & tr2 & Htr). pose proof (HE _ _ _ Htr) as HS'. cbn [sel_ok] in HS'.
    destruct HS' as (_ & _ & HF & _). intros x Hx'. apply in_map_iff in Hx' as (p & <- & Hp). apply in_map.
    rewrite Forall_forall in HF. specialize (HF _ Hp). rewrite Htr. unfold evaluated in *. rewrite gens_app, flat_map_app. apply in_or_app. left. exact HF. }
  apply Forall_forall. intros d Hin. apply In_nth_error in Hin as [k Hk]. rewrite (R3 k d Hk). intros x Hx'.
  apply in_concat in Hx' as (e & He & Hxe). apply lastn_incl in He. rewrite Forall_forall in HI.
  apply (HI e); [|exact Hxe]. rewrite <- (firstn_skipn (S k) (elites (s_tr s))). apply in_or_app. left. exact He.
Qed.

Lemma archive_le_run A g z (o0 o : optimiser X) t cost a ftol out w r s :
  construct E A g = Ok o0 -> archive_l A = Some (PyI z) -> (1 <= z)%Z ->
  int_times (g_size_gen g) (g_alpha g) = Ok t -> (1 <= t)%Z -> used E o0 o -> run_in E a o cost ftol out w = (r, s) ->
  Forall (fun d => (Z.of_nat (a_len d) <= z * t)%Z) (learns (s_tr s)).
Proof.
  intros H Hl Hz Ht H1 U Hr. destruct (archive_construct _ _ _ _ H Hl) as (lo & hi & wn & HA).
  apply archive_inv in HA as (t' & c & u & Et & Hc & Hu & Hn & ->). assert (t' = t) by congruence. subst t'.
  eapply archive_bounded; try eassumption; [reflexivity|nia|]. unfold archive_le. cbn. nia.
Qed.

(** A float [l], as documented, is refused at the first update. *)
Lemma archive_float A g x (o0 o : optimiser X) cost a ftol out w r s :
  construct E A g = Ok o0 -> archive_l A = Some (PyF x) -> used E o0 o ->
  run_in E a o cost ftol out w = (Ok r, s) -> (g_max_iter g <= 1)%Z.
Proof.
  intros H Hl U Hr. destruct (archive_construct _ _ _ _ H Hl) as (lo & hi & wn & HA).
  pose proof (construct_built _ _ _ _ H) as [B _ _ _ _]. unfold base_of in B. apply eda_init_inv in B. destruct B as (_ & B2 & _).
  apply archive_inv in HA as (t & c & u & Et & Hc & Hu & Hn & ->). destruct (used_setup E _ _ U) as (E1 & _ & E3 & _).
  rewrite <- B2. cbn [op_cfg] in *. rewrite <- E1. eapply float_l_fails; [|exact Hr]. rewrite E3. reflexivity.
Qed.

(** ** One variable: EMNA *)

Lemma sel_nc (c : cfg) (h : hooks (pmstate X) W) o gen' ev el evel : selected c h o gen' ev el evel -> a_nc gen' = a_nc (o_gen o).
Proof.
  intros [gen Hc _ Ht _ _]. apply take_rows_ok in Ht as (_ & -> & _). unfold np_concatenate in Hc.
  destruct (Nat.eqb _ _); [|discriminate]. apply (f_equal (fun r => match r with Ok x => a_nc x | Raise _ => 0 end)) in Hc. cbn in Hc. congruence.
Qed.
Lemma iadd_nc a wn t : iadd a wn = Ok t -> a_nc t = a_nc a.
Proof.
  destruct wn; cbn [iadd].
  - destruct (rmapM _ _); cbn [rmap]; [|discriminate]. intros H. apply (f_equal (fun r => match r with Ok x => a_nc x | Raise _ => 0 end)) in H. cbn in H. congruence.
  - destruct (a_dt a); try discriminate. destruct (rmapM _ _); cbn [rmap]; [|discriminate]. intros H. apply (f_equal (fun r => match r with Ok x => a_nc x | Raise _ => 0 end)) in H. cbn in H. congruence.
  - destruct (a_dt a); try discriminate; destruct (_ && _); try discriminate; destruct (add_mat_rows _ _ _ _ _); cbn [rmap]; try discriminate;
      intros H; apply (f_equal (fun r => match r with Ok x => a_nc x | Raise _ => 0 end)) in H; cbn in H; congruence.
Qed.

Lemma multi_one_fails (o : optimiser X) cost a ftol out w r s lower upper p :
  op_upd o = FromSelection -> ps_pm (op_st o) = Some (MMulti lower upper p) ->
  (forall d, c_init_data (op_cfg o) = Some d -> a_nc d = 1) ->
  (forall w g w', h_init (hooks_of E o cost) w = (Ok g, w') -> a_nc g = 1) ->
  run_in E a o cost ftol out w = (Ok r, s) -> (c_max_iter (op_cfg o) <= 1)%Z.
Proof.
  intros Hu Hm Hd Hi. apply (one_generation E o cost (fun s => a_nc (o_gen (s_obj s)) = 1 /\ exists lo hi p, ps_pm (s_pm s) = Some (MMulti lo hi p))).
  - intros b s1 w1 s1' F P. rewrite (printed_obj _ _ P). destruct P as (ps & _ & ->). cbn [s_pm]. destruct F. subst s1. cbn [s_obj s_pm o_gen].
    split; [|eauto]. destruct (c_init_data (op_cfg o)) as [d|]; [destruct ff_init as [-> _]; auto|eapply Hi, ff_init].
  - intros wn s0 b acc s1 Hn (I1 & lo & hi & p0 & I2) F. destruct F. apply sel_nc in if_sel. apply iadd_nc in if_iadd.
    cbn [hooks_of h_data] in if_hdata. rewrite Hu in if_hdata. cbn [data_of] in if_hdata.
    assert (if_data = if_noisy) by congruence. assert (if_p1 = s_pm s0) by congruence. subst if_data if_p1.
    cbn [hooks_of h_learn] in if_learn. rewrite I2 in if_learn. cbn [model_learn] in if_learn.
    assert (N : a_nc if_noisy = 1) by congruence. rewrite N in if_learn.
    pose proof (multigauss_one (e_sum E) lo hi if_noisy p0 N) as M.
    destruct (multigauss_learn _ _ _ _ _ _) as [r0 p']. cbn [fst] in M. congruence.
Qed.

Lemma emna_one_fails g lo hi lf uf wn z (o0 o : optimiser X) cost a ftol out w r s :
  emna_new g lo hi lf uf wn z = Ok o0 -> used E o0 o -> g_nvars g = 1%Z ->
  run_in E a o cost ftol out w = (Ok r, s) -> (g_max_iter g <= 1)%Z.
Proof.
  intros H U Hn Hr. pose proof (construct_built E (EMNA lo hi lf uf wn z) g o0 H) as [B _ Bu Bi _].
  destruct (Bi lo hi eq_refl) as (u & Hu & Hi). unfold base_of in B. apply eda_init_inv in B.
  destruct B as (C1 & C2 & _ & C4 & _ & _ & _ & _ & C9 & _ & _ & _ & _ & C14).
  destruct (used_setup E _ _ U) as (E1 & E2 & E3 & _).
  assert (Hm : exists l1 u1 p, ps_pm (op_st o0) = Some (MMulti l1 u1 p)).
  { unfold emna_new in H. destruct (base _ _ _ _) as [b|] eqn:Hb; cbn [rbind] in H; [|discriminate].
    destruct (assign_pm _ b) as [b1|] eqn:Hp; cbn [rbind] in H; [|discriminate]. apply assign_pm_ok in Hp as [_ ->].
    destruct (uniform_new _ _ _); cbn [rbind] in H; [|discriminate]. apply assign_init_ok in H as [_ ->]. cbn. eauto. }
  destruct Hm as (l1 & u1 & p & Hm). pose proof (used_alike E _ _ U) as HA. rewrite Hm in HA. cbn [alike_opt] in HA.
  destruct (ps_pm (op_st o)) as [m|] eqn:Em; [|destruct HA]. destruct m; try destruct HA. 
  rewrite <- C2, <- E1. eapply multi_one_fails; [rewrite E3; apply Bu; reflexivity|exact Em| | |exact Hr].
  - intros d Hd. rewrite E1, C9 in Hd. specialize (C14 d Hd). lia.
  - intros w0 g0 w0'. cbn [hooks_of h_init]. rewrite E2, Hi. cbn [initr_sample]. intros Hs. apply uniform_float in Hs as (_ & Hs & _).
    rewrite Hs. unfold uniform_new in Hu. destruct (_ && _); [|discriminate]. assert (ui_n u = g_nvars g) as -> by (assert (u = mkUI (g_nvars g) lo hi) by congruence; subst u; reflexivity).
    rewrite Hn. reflexivity.
Qed.

(** ** Categories that are not strings *)

Lemma nonstring_fails (o : optimiser X) cost a ftol out w r s (Bad : row -> Prop) :
  argsort_ok (e_argsort E) -> (1 <= c_trunc_len (op_cfg o))%Z ->
  c_w_noise (op_cfg o) = PyI (-1) -> c_init_data (op_cfg o) = None ->
  (forall x, Bad x -> Exists (fun c => ~ is_CS c) x) ->
  (forall w g w', h_init (hooks_of E o cost) w = (Ok g, w') -> Forall Bad (a_rows g)) ->
  run_in E a o cost ftol out w = (Ok r, s) -> (c_max_iter (op_cfg o) <= 1)%Z.
Proof.
  intros Ho Ht Hw Hd Hbad Hi.
  apply (one_generation E o cost (fun s => Forall Bad (a_rows (o_gen (s_obj s))) /\ Forall Bad (a_rows (o_elite (s_obj s))) /\
            a_dt (o_gen (s_obj s)) = a_dt (o_elite (s_obj s)) /\ a_rows (o_gen (s_obj s)) <> [] /\
            List.length (o_evals (s_obj s)) = a_len (o_gen (s_obj s)))).
  - intros b s1 w1 s1' F P. pose proof (first_obs _ _ (mkSt a (op_st o) w []) _ _ _ _ eq_refl F P) as (rets & Hob & _ & _ & _ & _ & _ & _ & Hr & Hv). cbv zeta in *.
    destruct F. rewrite Hd in ff_init. cbn [s_w] in ff_init. apply Hi in ff_init. subst s1. cbn [s_obj] in *. rewrite Hob. cbn [o_gen o_elite o_evals a_rows a_dt].
    split; [exact ff_init|]. rewrite ff_rows_eq in *. split; [inversion ff_init; subst; repeat constructor; assumption|]. split; [reflexivity|]. split; [discriminate|].
    rewrite Hob in Hv. exact Hv.
  - intros wn s0 b acc s1 Hn (I1 & I2 & I3 & I4 & I5) F. destruct F. destruct if_sel as [gen Hc He Htr Hve Hvt].
    apply concat_same_dtype in Hc as [_ Hrows]; [|exact I3]. apply take_rows_ok in Htr as (_ & _ & Hga).
    unfold noise_cfg in Hn. rewrite Hw in Hn. destruct wn as [| |nr nc dr]; cbn [py_eq_int] in Hn; [discriminate| |destruct Hn as (_ & Hn & _); discriminate].
    apply iadd_str in if_iadd as (_ & _ & HS).
    assert (Hne : a_rows if_gen' <> []).
    { intros Hnil. rewrite Hnil in Hga. apply gather_length in Hga. cbn [List.length] in Hga.
      destruct (Ho (o_evals (s_obj s0) ++ o_evel (s_obj s0))) as [HP _]. apply Permutation.Permutation_length in HP. rewrite seq_length, app_length in HP.
      unfold slice_to in Hga. cbn [hooks_of h_argsort] in Hga. rewrite (proj2 (Z.leb_le 0 _)) in Hga by lia. rewrite firstn_length, HP, I5 in Hga.
      unfold a_len in Hga. destruct (a_rows (o_gen (s_obj s0))); [congruence|]. cbn [List.length] in Hga. lia. }
    apply gather_incl in Hga. destruct (a_rows if_gen') as [|x l]; [congruence|]. inversion HS as [|? ? HS1 _]; subst.
    assert (HB : Bad x). { specialize (Hga x (or_introl eq_refl)). rewrite Hrows in Hga. apply in_app_or in Hga. rewrite Forall_forall in I1, I2. destruct Hga; auto. }
    apply Hbad in HB. apply Exists_exists in HB as (c & Hc1 & Hc2). rewrite Forall_forall in HS1. apply Hc2, HS1, Hc1.
Qed.

(** The categorical algorithms and their declared values. *)
Definition declared_values (A : algorithm) : option (list (list cell) * list (list f64)) :=
  match A with UMDAcat v f | EBNA v f => Some (v, f) | _ => None end.

Lemma categorical_init A g values freq (o : optimiser X) : construct E A g = Ok o -> declared_values A = Some (values, freq) ->
  exists i, op_init o = Some (ICat i) /\ cat_init_new (e_sum E) (g_nvars g) values freq = Ok i.
Proof.
  intros H HA. destruct A; cbn [declared_values] in HA; try discriminate; assert (values0 = values) by congruence; assert (freq0 = freq) by congruence; subst values0 freq0;
  cbn [construct] in H; unfold umdacat_new, bn_new in H; (destruct (base _ _ _ _) as [b|] eqn:Hb; cbn [rbind] in H; [|discriminate]);
  (destruct (assign_pm _ b) as [b1|] eqn:Hp; cbn [rbind] in H; [|discriminate]); apply assign_pm_ok in Hp as [_ ->];
  (destruct (cat_init_new _ _ _ _) as [i|]; cbn [rbind] in H; [|discriminate]); apply assign_init_ok in H as [_ ->]; cbn; eauto.
Qed.

Lemma nonstring_categories A g values freq (o0 o : optimiser X) j v t cost a ftol out w r s :
  construct E A g = Ok o0 -> declared_values A = Some (values, freq) -> used E o0 o ->
  argsort_ok (e_argsort E) -> unif_ok (e_rng E) -> cats_ok values freq ->
  int_times (g_size_gen g) (g_alpha g) = Ok t -> (1 <= t)%Z -> g_init_data g = None ->
  j < Z.to_nat (g_nvars g) -> nth_error values j = Some v -> Forall (fun c => ~ is_CS c) v ->
  run_in E a o cost ftol out w = (Ok r, s) -> (g_max_iter g <= 1)%Z.
Proof.
  intros H HA U Ho Hun Hc Ht H1 Hd Hj Hv Hbad Hr. destruct (categorical_init _ _ _ _ _ H HA) as (i & Hi & Hci).
  pose proof (construct_built _ _ _ _ H) as [B _ _ _ _]. unfold base_of in B. apply eda_init_inv in B.
  destruct B as (C1 & C2 & _ & C4 & _ & _ & _ & _ & C9 & C10 & C11 & _).
  destruct (used_setup E _ _ U) as (E1 & E2 & E3 & _).
  assert (EA : passed_alpha A g = g_alpha g /\ passed_noise A = Some (PyI (-1))) by (destruct A; try discriminate; split; reflexivity).
  destruct EA as [EA EN]. rewrite EA in C11. rewrite EN in C10. cbn [py_eq_int] in C10.
  rewrite <- C2, <- E1. refine (nonstring_fails o cost a ftol out w r s (fun x => Exists (fun c => ~ is_CS c) x) Ho _ _ _ (fun x h => h) _ Hr).
  - rewrite E1. assert (c_trunc_len (op_cfg o0) = t) by congruence. lia.
  - rewrite E1. exact C10.
  - rewrite E1, C9. exact Hd.
  - intros w0 g0 w0'. cbn [hooks_of h_init]. rewrite E2, Hi. cbn [initr_sample]. intros Hs.
    destruct (cat_init_spec _ _ _ _ _ _ _ _ _ _ _ Hun Hci Hc Hs) as (_ & _ & Hl & _ & Hcol).
    destruct (declared E _ _ _ _ Hci j Hj) as (v' & f & Hv' & Hf). assert (v' = v) by congruence. subst v'.
    specialize (Hcol j v f Hj Hv Hf). rewrite column_rows in Hcol. rewrite Forall_forall in *. intros x Hx. specialize (Hcol x Hx). specialize (Hl x Hx).
    destruct Hcol as (k & q & Hk & _). apply Exists_exists. exists (nth j x (CF fnan)). split; [apply nth_In; lia|]. apply Hbad. eapply nth_error_In, Hk.
Qed.

End More.
