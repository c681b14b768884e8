(** Corollaries in the form the property theorems use. *)
From Coq Require Import String List ZArith Bool Lia Sorting.Permutation Sorting.Sorted.
From Verif Require Import PyBase B64 NdArray Eda EdaInv Spec TopK LoopObs LoopThms BestCost Select LoopMore LoopRel LoopAny LoopPar LoopTrain.
Import ListNotations.
Open Scope nat_scope.

Lemma Forall2_weaken {A B} (R R' : A -> B -> Prop) l l' :
  (forall a b, R a b -> R' a b) -> Forall2 R l l' -> Forall2 R' l l'.
Proof. intros HR H. induction H; constructor; auto. Qed.

Section Final.
Context {S W : Type}.
Variable c : cfg.
Variable h : hooks S W.
Variables (ftol : f64) (out : bool).

Lemma progress_lemma (s : st S W) (r : result) (tr : list ev) :
  completes c h ftol true s r tr ->
  exists m, m <= List.length (r_history r) <= Datatypes.S m /\
    progress tr = map (fun k => (Z.of_nat k, run_best ftol (firstn (1 + k) (r_history r)))) (seq 0 m) /\
    (c_disp c = true -> exists pre, prints tr = pre ++ [PrFinal (r_nfev r) (r_best_cost r) (r_best_ind r)]).
Proof.
  intros H. destruct (prints_lemma c h ftol true s r tr H) as (m & Hm & Hp). exists m. split; [exact Hm|].
  split.
  - unfold progress. rewrite Hp, flat_map_app. clear. destruct (c_disp c); cbn [flat_map]; rewrite app_nil_r;
      (induction (seq 0 m) as [|k l IH]; [reflexivity|]; cbn; f_equal; exact IH).
  - intros Hd. rewrite Hd in Hp. eexists. exact Hp.
Qed.

Lemma StronglySorted_map_seq {A} (R : A -> A -> Prop) (f : nat -> A) n :
  (forall a b c, R a b -> R b c -> R a c) ->
  (forall k, Datatypes.S k < n -> R (f k) (f (Datatypes.S k))) -> StronglySorted R (map f (seq 0 n)).
Proof.
  intros Ht Hs.
  assert (H : forall m a, a + m <= n -> StronglySorted R (map f (seq a m))).
  { induction m as [|m IH]; intros a Ha; cbn; [constructor|]. constructor; [apply IH; lia|].
    apply Forall_forall. intros x Hx. apply in_map_iff in Hx as [k [<- Hk]]. apply in_seq in Hk.
    assert (Hj : forall j, a + 1 + j < n -> R (f a) (f (a + 1 + j))).
    { induction j as [|j IHj]; intros Hj; [rewrite Nat.add_0_r, Nat.add_1_r; apply Hs; lia|].
      eapply Ht; [apply IHj; lia|]. replace (a + 1 + Datatypes.S j) with (Datatypes.S (a + 1 + j)) by lia. apply Hs. lia. }
    replace k with (a + 1 + (k - a - 1)) by lia. apply Hj. lia. }
  apply H. lia.
Qed.

Lemma firstn_snoc {A} (l : list A) k v : nth_error l k = Some v -> firstn (Datatypes.S k) l = firstn k l ++ [v].
Proof.
  revert k. induction l as [|x l IH]; intros [|k] H; cbn in *; try discriminate; [congruence|].
  f_equal. apply IH, H.
Qed.

(** Non-positive costs: the displayed best cost never increases. *)
Lemma progress_nonpos (s : st S W) (r : result) (tr : list ev) :
  completes c h ftol true s r tr -> tol_ok ftol ->
  Forall (fun v => fle v (Z2f 0) = true) (r_history r) ->
  StronglySorted (fun a b => fle (snd b) (snd a) = true) (progress tr).
Proof.
  intros H Ht Hn. destruct (progress_lemma s r tr H) as (m & Hm & -> & _).
  apply StronglySorted_map_seq.
  - intros x y z H1 H2. eapply fle_trans; eassumption.
  - intros k Hk. cbn [snd]. change (1 + Datatypes.S k) with (Datatypes.S (1 + k)).
    destruct (nth_error (r_history r) (1 + k)) as [v|] eqn:E.
    + rewrite (firstn_snoc _ _ _ E). apply run_best_nonpos_mono; [exact Ht| |].
      * destruct (r_history r); cbn; [destruct k; discriminate|discriminate].
      * rewrite <- (firstn_snoc _ _ _ E). apply Forall_forall. intros x Hx. rewrite Forall_forall in Hn.
        apply Hn. rewrite <- (firstn_skipn (Datatypes.S (1 + k)) (r_history r)). apply in_or_app. left; exact Hx.
    + apply nth_error_None in E. lia.
Qed.

Lemma silent_lemma (s : st S W) (r : result) (tr : list ev) :
  completes c h ftol false s r tr -> c_disp c = false -> prints tr = [].
Proof. intros H Hd. destruct (prints_lemma c h ftol false s r tr H) as (m & _ & ->). rewrite Hd. reflexivity. Qed.

(** NaN costs never show up in the history or as the best cost; the history ignores them. *)
Lemma nan_ignored (s : st S W) (r : result) (tr : list ev) :
  completes c h ftol out s r tr ->
  Forall (fun v => isnan v = false) (r_history r) /\
  Forall2 (fun m gv => forall v, In v (snd gv) -> isnan v = true \/ fle m v = true) (r_history r) (gens tr) /\
  Forall (fun gv => ~ nan_head gv) (gens tr).
Proof.
  intros H. pose proof (history_lemma c h ftol out s r tr H) as Hh. split; [|split].
  - eapply history_not_nan. exact H.
  - eapply Forall2_weaken; [|exact Hh]. intros m gv (_ & Hm & Hv) v Hin. specialize (Hv v Hin).
    destruct (isnan v) eqn:E; [left; reflexivity|right]. apply flt_false_fle; assumption.
  - destruct H as [Htr [s' [H Htr']]]. pose proof (hoare_minimize c h ftol out s) as Hm. rewrite H in Hm.
    destruct Hm as [_ Hm]; [unfold numeric, num_heads; rewrite Htr; constructor|].
    specialize (Hm eq_refl). unfold numeric, num_heads in Hm. rewrite Htr' in Hm. exact Hm.
Qed.

Lemma nfev_exact (s : st S W) (r : result) (tr : list ev) :
  completes c h ftol out s r tr ->
  match c_init_data c with
  | Some d => Z.of_nat (a_len d) = c_size_gen c
  | None => forall w g w', h_init h w = (Ok g, w') -> Z.of_nat (a_len g) = c_size_gen c
  end ->
  (forall p w g w', h_sample h p w = (Ok g, w') -> Z.of_nat (a_len g) = c_size_gen c) ->
  r_nfev r = Z.of_nat (List.length (calls tr)).
Proof.
  intros H Hi Hs. rewrite (nfev_lemma c h ftol out s r tr (Z.to_nat (c_size_gen c)) H).
  - assert (Hpos : (0 <= c_size_gen c)%Z \/ (c_size_gen c < 0)%Z) by lia. destruct Hpos as [Hpos|Hneg]; [lia|].
    exfalso. destruct (c_init_data c) as [d|] eqn:Ed; [lia|].
    destruct H as [_ [s' [H _]]]. unfold minimize in H. apply mbind_ok in H as (b0 & s1 & H1 & _).
    apply first_generation_inv in H1. destruct H1. rewrite Ed in ff_init.
    apply Hi in ff_init. lia.
  - destruct (c_init_data c) as [d|]; [lia|]. intros w g w' Hw. apply Hi in Hw. lia.
  - exact Hs.
Qed.

Lemma prior_state_again (s s' : st S W) :
  retrains h (s_pm s) (s_pm s') -> s_w s = s_w s' -> s_tr s = [] -> s_tr s' = [] ->
  let (r, t) := minimize c h ftol out s in
  let (r', t') := minimize c h ftol out s' in
  r = r' /\ s_w t = s_w t' /\ s_tr t = s_tr t' /\ (is_ok r = true -> s_obj t = s_obj t').
Proof.
  intros Hm Hw H1 H2. pose proof (prior_state_retrains c h (s_pm s) (s_pm s') ftol out Hm s s') as H.
  assert (Hf : fresh s s' /\ s_pm s = s_pm s /\ s_pm s' = s_pm s') by (repeat split; congruence). specialize (H Hf). unfold rel in H.
  destruct (minimize c h ftol out s) as [[r|e] t], (minimize c h ftol out s') as [[r'|e'] t'];
    cbn in H; try contradiction.
  - destruct H as [-> (H3 & H4 & H5)]. repeat split; auto.
  - destruct H as [-> [H4 H5]]. repeat split; auto. discriminate.
Qed.

Lemma prior_state_explicit (s s' : st S W) :
  trains_on_selection h -> forgetful h (s_pm s) (s_pm s') -> s_w s = s_w s' -> s_tr s = [] -> s_tr s' = [] ->
  let (r, t) := minimize c h ftol out s in
  let (r', t') := minimize c h ftol out s' in
  r = r' /\ s_w t = s_w t' /\ s_tr t = s_tr t' /\ (is_ok r = true -> s_obj t = s_obj t').
Proof. intros Hd Hm. apply prior_state_again, selection_retrains; assumption. Qed.

Lemma display_explicit c' h' out' (s : st S W) :
  same_but_disp c c' -> same_but_settings h h' ->
  let (r, t) := minimize c h ftol out s in
  let (r', t') := minimize c' h' ftol out' s in
  match r, r' with
  | Ok v, Ok v' => same_result v v'
  | Raise e, Raise e' => e = e'
  | _, _ => False
  end /\ s_obj t = s_obj t' /\ s_pm t = s_pm t' /\ s_w t = s_w t' /\ unprinted (s_tr t) = unprinted (s_tr t').
Proof.
  intros Hc Hh. pose proof (sim_minimize c c' h h' Hc Hh ftol out out' s s) as H.
  assert (Hs : sim s s) by (repeat split). specialize (H Hs). unfold rel in H.
  destruct (minimize c h ftol out s) as [[r|e] t], (minimize c' h' ftol out' s) as [[r'|e'] t'];
    cbn in H; try contradiction; tauto.
Qed.

(** Elite members and the reported solution were really evaluated, at the cost they carry. *)
Lemma noise_free_lemma (Hsort : argsort_ok (h_argsort h)) (HT : (0 <= c_trunc_len c)%Z) (HE : (0 <= c_elite_len c)%Z)
      d (s : st S W) (r : result) (tr : list ev) :
  completes c h ftol out s r tr -> one_dtype d tr -> all_float_returns tr ->
  each_event (fun before e => match e with
    | EvSelect train elite => Forall (fun p => In (fst p, NF (snd p)) (calls tr)) elite
    | _ => True
    end) tr /\
  match r_best_ind r with
  | BRow x => exists v, In (x, NF v) (calls tr) /\ feq v (r_best_cost r) = true
  | BIdx _ => True
  end.
Proof.
  intros H Hd Hf.
  pose proof (evaluated_called c h ftol out s r tr H Hf) as Hc.
  assert (Hin : forall p, In p (evaluated tr) -> In (fst p, NF (snd p)) (calls tr)).
  { intros p Hp. rewrite Hc. apply in_map_iff. exists p. split; [reflexivity|exact Hp]. }
  split.
  - pose proof (selection_lemma c h Hsort HT HE ftol out d s r tr H Hd) as Hs.
    intros tr1 e tr2 E. specialize (Hs tr1 e tr2 E). destruct e; try exact I.
    destruct Hs as (_ & _ & He & _). eapply Forall_impl; [|exact He]. intros p Hp. apply Hin.
    rewrite E. unfold evaluated in *. rewrite gens_app, flat_map_app. apply in_or_app. left; exact Hp.
  - pose proof (best_ind_lemma c h ftol out s r tr H) as Hb. destruct (r_best_ind r) as [i|x]; [exact I|].
    destruct Hb as [(v & Hv & He) _]. exists v. split; [|exact He]. apply (Hin (x, v)). exact Hv.
Qed.

(** The cost function is called once per evaluated individual, in order. *)
Lemma calls_order (s : st S W) (r : result) (tr : list ev) :
  completes c h ftol out s r tr -> map fst (calls tr) = map fst (evaluated tr).
Proof.
  intros H. destruct (calls_lemma c h ftol out s r tr H) as [-> Hl]. unfold evaluated.
  induction Hl as [|gv rets gs rs (H1 & H2 & _) _ IH]; [reflexivity|].
  cbn [combine map concat flat_map fst snd]. rewrite !map_app, IH. f_equal. unfold pairs.
  rewrite !map_fst_combine by congruence. reflexivity.
Qed.

End Final.
