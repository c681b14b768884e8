(** The statements of Properties_Stock.v that need a few steps from the lemmas before. *)
From Coq Require Import String List ZArith Bool Lia Reals.
From Flocq Require Import Core.
From Verif Require Import PyBase B64 B64More NdArray Eda EdaInv Spec TopK LoopObs LoopThms LoopMore Select LoopTrain LoopRel LoopInv LoopFinal Rand RandThms Models Inits InitThms ModelThms CatThms ModelProps Trunc Sign Stock StockInv StockGauss StockCat StockPrior StockArchive StockFail StockAll StockMore.
Import ListNotations.
Open Scope nat_scope.

(** Algorithms whose model is learned and sampled by an external library. *)
Definition external (A : algorithm) : bool :=
  match A with EBNA _ _ | UnivariateKEDA _ _ _ | EGNA _ _ _ | MultivariateKEDA _ _ _ _ | SPEDA _ _ _ _ => true | _ => false end.

Section Final.
Context {X W : Type}.
Variable E : env X W.

Lemma construct_not_ext A g (o : optimiser X) k n x : construct E A g = Ok o -> external A = false -> ps_pm (op_st o) <> Some (MExt k n x).
Proof.
  intros H HE Hc. destruct A; cbn [external] in HE; try discriminate; cbn [construct] in H;
    unfold umdac_new, pbil_new, umdad_new, umdacat_new, emna_new in H;
    (match type of H with rbind ?x _ = _ => destruct x as [b|]; cbn [rbind] in H; [|discriminate H] end);
    repeat match type of H with
    | rbind (assign_pm ?m ?o) _ = _ => let e := fresh "e" in destruct (assign_pm m o) eqn:e; cbn [rbind] in H; [apply assign_pm_ok in e as [_ ->]|discriminate H]
    | rbind (assign_init ?m ?o) _ = _ => let e := fresh "e" in destruct (assign_init m o) eqn:e; cbn [rbind] in H; [apply assign_init_ok in e as [_ ->]|discriminate H]
    | rbind ?x _ = _ => destruct x; cbn [rbind] in H; [|discriminate H]
    end;
    (apply assign_pm_ok in H as [_ ->] || apply assign_init_ok in H as [_ ->]); cbn in Hc; discriminate.
Qed.

Lemma same_again A g (o0 o1 o2 : optimiser X) a1 a2 cost ftol out w :
  construct E A g = Ok o0 -> uses_archive A = false -> refits E \/ external A = false -> used E o0 o1 -> used E o0 o2 ->
  let (r1, s1) := run_in E a1 o1 cost ftol out w in
  let (r2, s2) := run_in E a2 o2 cost ftol out w in
  r1 = r2 /\ s_w s1 = s_w s2 /\ s_tr s1 = s_tr s2 /\ (is_ok r1 = true -> s_obj s1 = s_obj s2).
Proof.
  intros H HA HE U1 U2. pose proof (construct_built _ _ _ _ H) as [_ _ B _ _]. eapply no_archive_no_memory; try eassumption; [apply B, HA|].
  destruct HE as [HE|HE]; [left; exact HE|right; intros; eapply construct_not_ext; eassumption].
Qed.

Lemma same_again_archive A g (o0 o1 o2 : optimiser X) a1 a2 cost ftol out w :
  construct E A g = Ok o0 -> refits E \/ external A = false -> used E o0 o1 -> used E o0 o2 ->
  ps_archive (op_st o1) = ps_archive (op_st o2) ->
  let (r1, s1) := run_in E a1 o1 cost ftol out w in
  let (r2, s2) := run_in E a2 o2 cost ftol out w in
  r1 = r2 /\ s_w s1 = s_w s2 /\ s_tr s1 = s_tr s2 /\ (is_ok r1 = true -> s_obj s1 = s_obj s2).
Proof.
  intros H HE U1 U2 Ha. eapply same_archive_same_run; try eassumption.
  destruct HE as [HE|HE]; [left; exact HE|right; intros; eapply construct_not_ext; eassumption].
Qed.

(** A vector of [n] zeros and ones. *)
Lemma umdad_binary g vector lo hi (o0 o : optimiser X) cost a ftol out w r s :
  construct E (UMDAd vector lo hi) g = Ok o0 -> used E o0 o ->
  (forall v, vector = Some v -> List.length v = Z.to_nat (g_nvars g)) ->
  (forall d, g_init_data g = Some d -> rows_in DInt (Z.to_nat (g_nvars g)) (bit_row (Z.to_nat (g_nvars g))) d) ->
  run_in E a o cost ftol out w = (r, s) ->
  let n := Z.to_nat (g_nvars g) in
  Forall (fun gv => Forall (bit_row n) (a_rows (fst gv))) (gens (s_tr s)) /\
  Forall (fun rv => bit_row n (fst rv)) (calls (s_tr s)) /\
  (forall res x, r = Ok res -> r_best_ind res = BRow x -> bit_row n x).
Proof.
  intros H U Hv Hd Hr n. cbn [construct] in H.
  destruct (umdad_run E false g vector lo hi o0 o cost 0 a ftol out w r s H U) as (R1 & R2 & _ & R4); [|exact Hr|].
  - split; [exact Hv|]. split; [intros d Hi; split; [apply Hd, Hi|lia]|]. split; [lia|discriminate].
  - split; [|split; [exact R2|intros res x Hres Hx; specialize (R4 res Hres); rewrite Hx in R4; exact R4]].
    apply Forall_forall. intros gv Hin. rewrite Forall_forall in R1. destruct (R1 (fst gv) (in_map fst _ _ Hin)) as (_ & _ & HF). exact HF.
Qed.

Lemma umdad_completes g vector lo hi (o0 o : optimiser X) t cost a ftol out w :
  construct E (UMDAd vector lo hi) g = Ok o0 -> used E o0 o -> argsort_ok (e_argsort E) ->
  (forall v, vector = Some v -> List.length v = Z.to_nat (g_nvars g)) ->
  (forall d, g_init_data g = Some d -> rows_in DInt (Z.to_nat (g_nvars g)) (bit_row (Z.to_nat (g_nvars g))) d /\ 1 <= a_len d) ->
  (1 <= g_size_gen g)%Z -> int_times (g_size_gen g) (g_alpha g) = Ok t -> (1 <= t)%Z ->
  (g_parallelize g = true -> cpu_count (e_pool E) <= Z.to_nat (g_size_gen g) /\ forall d, g_init_data g = Some d -> cpu_count (e_pool E) <= a_len d) ->
  cost_total (bit_row (Z.to_nat (g_nvars g))) cost ->
  exists res s, run_in E a o cost ftol out w = (Ok res, s).
Proof.
  intros H U Ho Hv Hd Hs Ht H1 Hp Hc. pose proof (construct_built _ _ _ _ H) as [B _ _ _ _]. unfold base_of in B. apply eda_init_inv in B.
  destruct B as (_ & _ & _ & _ & _ & _ & _ & C8 & C9 & _ & C11 & _). destruct (used_setup E _ _ U) as (E1 & _).
  cbn [construct] in H. destruct (run_in E a o cost ftol out w) as [r s] eqn:Hr.
  pose (K := match g_init_data g with Some d => Nat.min (Z.to_nat (g_size_gen g)) (a_len d) | None => Z.to_nat (g_size_gen g) end).
  destruct (umdad_run E true g vector lo hi o0 o cost K a ftol out w r s H U) as (_ & _ & HR & _); [|exact Hr|destruct (HR eq_refl) as [res ->]; eauto].
  split; [exact Hv|]. split.
  { intros d Hi. split; [apply Hd, Hi|]. unfold K. rewrite Hi. lia. }
  split; [unfold K; destruct (g_init_data g); lia|]. intros _. split; [exact Ho|]. split; [exact Hc|]. split.
  { unfold K. destruct (g_init_data g) as [d|]; [destruct (Hd d eq_refl); lia|lia]. }
  split.
  { rewrite E1, C8. destruct (g_parallelize g); [right|left; reflexivity]. destruct (Hp eq_refl) as [P1 P2]. unfold K. destruct (g_init_data g) as [d|]; [specialize (P2 d eq_refl); lia|exact P1]. }
  rewrite E1. unfold passed_alpha in C11. cbn [is_pbil] in C11. assert (c_trunc_len (op_cfg o0) = t) by congruence. lia.
Qed.

Lemma cat_trunc values freq g (o0 : optimiser X) : construct E (UMDAcat values freq) g = Ok o0 ->
  (0 <= g_size_gen g <= 2 ^ 53)%Z -> factor (g_alpha g) -> (0 <= c_trunc_len (op_cfg o0) <= 2 ^ 53)%Z.
Proof.
  intros H Hs Ha. apply construct_built in H. destruct H as [B _ _ _ _]. unfold base_of in B. apply eda_init_inv in B.
  destruct B as (_ & _ & _ & _ & _ & _ & _ & _ & _ & _ & C11 & _). unfold passed_alpha in C11. cbn [is_pbil] in C11.
  destruct (int_times_bounds _ _ Hs Ha) as (t & Et & Hb & _). assert (c_trunc_len (op_cfg o0) = t) by congruence. lia.
Qed.

(** Evaluated vectors consist of declared values, and a value missing from the data of one
    iteration is missing from the next generation. *)
Lemma umdacat_inside g values freq (o0 o : optimiser X) cost a ftol out w r s :
  construct E (UMDAcat values freq) g = Ok o0 -> used E o0 o ->
  argsort_ok (e_argsort E) -> unif_ok (e_rng E) -> (1 <= g_nvars g)%Z -> cats_ok values freq ->
  (0 <= g_size_gen g <= 2 ^ 53)%Z -> factor (g_alpha g) -> g_init_data g = None ->
  run_in E a o cost ftol out w = (r, s) ->
  let n := Z.to_nat (g_nvars g) in
  Forall (fun gv => Forall (cat_row n values) (a_rows (fst gv))) (gens (s_tr s)) /\
  Forall (fun rv => cat_row n values (fst rv)) (calls (s_tr s)) /\
  (forall res x, r = Ok res -> r_best_ind res = BRow x -> cat_row n values x) /\
  (forall k d gv j c, nth_error (learns (s_tr s)) k = Some d -> nth_error (gens (s_tr s)) (S k) = Some gv -> j < n ->
     ~ In c (column j (a_rows d)) -> ~ In c (column j (a_rows (fst gv)))).
Proof.
  intros H U Ho Hun Hn Hc Hs Ha Hd Hr n.
  destruct (umdacat_run E false g values freq o0 o cost 0 a ftol out w r s) as (R1 & R2 & _ & R4 & _ & R5); try assumption.
  - eapply cat_trunc; eassumption.
  - rewrite Hd. discriminate.
  - lia.
  - discriminate.
  - split; [|split; [exact R2|split; [intros res x Hres Hx; specialize (R5 res Hres); rewrite Hx in R5; exact R5|]]].
    + apply Forall_forall. intros gv Hin. rewrite Forall_forall in R1. destruct (R1 (fst gv) (in_map fst _ _ Hin)) as (_ & _ & HF). exact HF.
    + intros k d gv j c Hk Hg Hj Hnot Hin. apply Hnot. assert (HN : cat_next n d (fst gv)).
      { apply (R4 k); [exact Hk|]. rewrite nth_error_map, Hg. reflexivity. }
      destruct HN as (_ & _ & HN). apply (HN j Hj c Hin).
Qed.

Lemma umdacat_declared g values freq (o0 o : optimiser X) cost a ftol out w r s :
  construct E (UMDAcat values freq) g = Ok o0 -> used E o0 o ->
  argsort_ok (e_argsort E) -> unif_ok (e_rng E) -> (1 <= g_nvars g)%Z -> cats_ok values freq ->
  (0 <= g_size_gen g <= 2 ^ 53)%Z -> factor (g_alpha g) -> g_init_data g = None ->
  run_in E a o cost ftol out w = (r, s) ->
  let n := Z.to_nat (g_nvars g) in
  Forall (fun gv => Forall (cat_row n values) (a_rows (fst gv))) (gens (s_tr s)) /\
  Forall (fun rv => cat_row n values (fst rv)) (calls (s_tr s)) /\
  (forall res x, r = Ok res -> r_best_ind res = BRow x -> cat_row n values x).
Proof.
  intros H U Ho Hun Hn Hc Hs Ha Hd Hr n. destruct (umdacat_inside g values freq o0 o cost a ftol out w r s) as (A1 & A2 & A3 & _); try assumption. auto.
Qed.

Lemma umdacat_extinct g values freq (o0 o : optimiser X) cost a ftol out w r s :
  construct E (UMDAcat values freq) g = Ok o0 -> used E o0 o ->
  argsort_ok (e_argsort E) -> unif_ok (e_rng E) -> (1 <= g_nvars g)%Z -> cats_ok values freq ->
  (0 <= g_size_gen g <= 2 ^ 53)%Z -> factor (g_alpha g) -> g_init_data g = None ->
  run_in E a o cost ftol out w = (r, s) ->
  forall k d gv j c, nth_error (learns (s_tr s)) k = Some d -> nth_error (gens (s_tr s)) (S k) = Some gv -> j < Z.to_nat (g_nvars g) ->
     ~ In c (column j (a_rows d)) -> ~ In c (column j (a_rows (fst gv))).
Proof. intros. eapply (umdacat_inside g values freq o0 o); eassumption. Qed.

Lemma umdacat_completes g values freq (o0 o : optimiser X) t cost a ftol out w :
  construct E (UMDAcat values freq) g = Ok o0 -> used E o0 o ->
  argsort_ok (e_argsort E) -> unif_ok (e_rng E) -> (1 <= g_nvars g)%Z -> cats_ok values freq ->
  string_cats (Z.to_nat (g_nvars g)) values -> sums_ok values freq ->
  int_times (g_size_gen g) (g_alpha g) = Ok t -> (1 <= t <= 2 ^ 22)%Z -> (1 <= g_size_gen g)%Z -> g_init_data g = None ->
  (g_parallelize g = true -> cpu_count (e_pool E) <= Z.to_nat (g_size_gen g)) ->
  cost_total (cat_row (Z.to_nat (g_nvars g)) values) cost ->
  exists res s, run_in E a o cost ftol out w = (Ok res, s).
Proof.
  intros H U Ho Hun Hn Hc Hst Hsum Ht H1 Hs Hd Hp Hcost. pose proof (construct_built _ _ _ _ H) as [B _ _ _ _]. unfold base_of in B. apply eda_init_inv in B.
  destruct B as (_ & _ & _ & _ & _ & _ & _ & C8 & C9 & _ & C11 & _). unfold passed_alpha in C11. cbn [is_pbil] in C11.
  assert (Et : c_trunc_len (op_cfg o0) = t) by congruence. destruct (run_in E a o cost ftol out w) as [r s] eqn:Hr.
  destruct (umdacat_run E true g values freq o0 o cost (Z.to_nat (g_size_gen g)) a ftol out w r s) as (_ & _ & _ & _ & HR & _); try assumption.
  - rewrite Et. lia.
  - rewrite Hd. discriminate.
  - lia.
  - intros _. split; [exact Hcost|]. split; [lia|]. split; [exact Hst|]. split; [exact Hsum|]. split; [|rewrite Et; exact H1].
    rewrite C8. destruct (g_parallelize g); [right; apply Hp; reflexivity|left; reflexivity].
  - destruct (HR eq_refl) as [res ->]. eauto.
Qed.

(** Assignments. *)
Lemma assign_pm_cases (v : value X) (o : optimiser X) :
  match v with
  | VModel m => Z.of_nat (model_width m) = c_nvars (op_cfg o) ->
      exists o', set_pm v o = (Ok tt, o') /\ ps_pm (op_st o') = Some m /\ op_cfg o' = op_cfg o /\ op_init o' = op_init o /\ op_upd o' = op_upd o /\ op_exp o' = op_exp o
  | _ => set_pm v o = (Raise ValueError, o)
  end.
Proof. destruct v as [m|i|]; try reflexivity. intros H. cbn [set_pm]. rewrite H, Z.eqb_refl. eexists. split; [reflexivity|]. cbn. auto. Qed.
Lemma assign_init_cases (v : value X) (o : optimiser X) :
  match v with
  | VInit i => initr_width i = c_nvars (op_cfg o) ->
      exists o', set_init v o = (Ok tt, o') /\ op_init o' = Some i /\ op_cfg o' = op_cfg o /\ op_st o' = op_st o /\ op_upd o' = op_upd o /\ op_exp o' = op_exp o
  | _ => set_init v o = (Raise ValueError, o)
  end.
Proof. destruct v as [m|i|]; try reflexivity. intros H. cbn [set_init]. rewrite H, Z.eqb_refl. eexists. split; [reflexivity|]. cbn. auto 6. Qed.
Lemma assign_pm_wrong (m : model X) (o : optimiser X) : Z.of_nat (model_width m) <> c_nvars (op_cfg o) ->
  exists o', set_pm (VModel m) o = (Raise PlainException, o') /\ ps_pm (op_st o') = Some m.
Proof. intros H. cbn [set_pm]. destruct (Z.eqb_spec (Z.of_nat (model_width m)) (c_nvars (op_cfg o))); [contradiction|]. eexists. split; [reflexivity|reflexivity]. Qed.
Lemma assign_init_wrong i (o : optimiser X) : initr_width i <> c_nvars (op_cfg o) ->
  exists o', set_init (VInit i) o = (Raise PlainException, o') /\ op_init o' = Some i.
Proof. intros H. cbn [set_init]. destruct (Z.eqb_spec (initr_width i) (c_nvars (op_cfg o))); [contradiction|]. eexists. split; [reflexivity|reflexivity]. Qed.

End Final.

(** The identifiers of the model and initialiser classes (Stock.class_id, init_class_id). *)
Lemma ids_distinct :
  (forall k k', class_id k = class_id k' -> k = k' \/ (k = KBN /\ k' = KUniKDE) \/ (k = KUniKDE /\ k' = KBN)) /\
  (forall k k', init_class_id k = init_class_id k' -> k = k').
Proof.
  split; intros k k'.
  - destruct k, k'; intros H; solve [discriminate H | auto].
  - destruct k, k'; intros H; solve [discriminate H | auto].
Qed.

Lemma ids_shared : exists k k', k <> k' /\ class_id k = class_id k'.
Proof. exists KBN, KUniKDE. split; [discriminate|reflexivity]. Qed.
