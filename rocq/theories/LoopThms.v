(** Invariants of the optimiser loop (lemmas behind the property files). *)
From Coq Require Import String List ZArith Bool Lia Sorting.Permutation Sorting.Sorted Reals Lra.
From Flocq Require Import Core IEEE754.BinarySingleNaN.
From Verif Require Import PyBase B64 NdArray Eda EdaInv Spec TopK LoopObs.
Import ListNotations.
Open Scope nat_scope.

Section Thms.
Context {S W : Type}.
Variable c : cfg.
Variable h : hooks S W.
Variable ftol : f64.
Variable out : bool.

Lemma completes_rule (I : list f64 -> Z -> st S W -> Prop) (s : st S W) (r : result) (tr : list ev) :
  (forall s0 sp, printed_after s0 sp -> forall hist nb, I hist nb s0 -> I hist nb sp) ->
  (forall b s1 w1 s1', s_tr s = [] -> first_facts c h s s1 b ->
      printed_after (mkSt (s_obj s1) (s_pm s1) w1 (s_tr s1)) s1' -> I [b] 0%Z s1') ->
  (forall wn hist nb s0 b acc s1 s1',
      noise_cfg c wn -> I hist nb s0 -> (0 <= nb)%Z -> (nb = 0 \/ nb <> c_dead_iter c)%Z ->
      iter_facts c h ftol wn s0 s1 b acc -> printed_after s1 s1' ->
      I (hist ++ [b]) (if acc then 0 else nb + 1)%Z s1') ->
  completes c h ftol out s r tr ->
  exists nb sf,
    I (r_history r) nb sf /\ s_tr sf = tr /\
    r = mkResult (o_best_ind (s_obj sf)) (o_best_cost (s_obj sf))
                 (Z.of_nat (List.length (r_history r)) * c_size_gen c)%Z (r_history r) (h_settings h) /\
    (List.length (r_history r) = 1 + Z.to_nat (c_max_iter c - 1) \/
     (nb = c_dead_iter c /\ nb <> 0%Z)) /\
    1 <= List.length (r_history r) <= 1 + Z.to_nat (c_max_iter c - 1).
Proof.
  intros Hpr Hfirst Hstep [Htr [s' [H Htr']]].
  destruct (minimize_rule c h ftol out I s s' r) as (nb & sf & HI & Hp & Hr & Hstop & Hlen);
    [intros; eapply Hfirst; eassumption|exact Hstep|exact H|].
  exists nb, s'. split; [eapply Hpr; eassumption|]. split; [exact Htr'|].
  split; [|split; assumption].
  destruct Hp as [ps [_ ->]]. exact Hr.
Qed.

Lemma printed_gens (s s' : st S W) : printed_after s s' -> gens (s_tr s') = gens (s_tr s).
Proof. intros [ps [Hp ->]]. cbn. rewrite gens_app, (gens_prints ps Hp), app_nil_r. reflexivity. Qed.
Lemma printed_gen_returns (s s' : st S W) : printed_after s s' -> gen_returns (s_tr s') = gen_returns (s_tr s).
Proof. intros [ps [Hp ->]]. cbn. rewrite gen_returns_app, (gen_returns_prints ps Hp), app_nil_r. reflexivity. Qed.
Lemma printed_calls (s s' : st S W) : printed_after s s' -> calls (s_tr s') = calls (s_tr s).
Proof. intros [ps [Hp ->]]. cbn. rewrite calls_app, (calls_prints ps Hp), app_nil_r. reflexivity. Qed.
Lemma printed_learns (s s' : st S W) : printed_after s s' -> learns (s_tr s') = learns (s_tr s).
Proof. intros [ps [Hp ->]]. cbn. rewrite learns_app, (learns_prints ps Hp), app_nil_r. reflexivity. Qed.
Lemma printed_selections (s s' : st S W) : printed_after s s' -> selections (s_tr s') = selections (s_tr s).
Proof. intros [ps [Hp ->]]. cbn. rewrite selections_app, (selections_prints ps Hp), app_nil_r. reflexivity. Qed.
Lemma printed_obj (s s' : st S W) : printed_after s s' -> s_obj s' = s_obj s.
Proof. intros [ps [Hp ->]]. reflexivity. Qed.

(* ------------------------------------------------------------------ *)
(** ** History *)

Lemma first_is_min (s s1 s1' : st S W) w1 b :
  first_facts c h s s1 b -> printed_after (mkSt (s_obj s1) (s_pm s1) w1 (s_tr s1)) s1' ->
  is_min b (o_evals (s_obj s1')).
Proof.
  intros H Hp. rewrite (printed_obj _ _ Hp). destruct H. subst s1. cbn.
  eapply py_min_is_min; eassumption.
Qed.

Lemma history_lemma (s : st S W) (r : result) (tr : list ev) :
  completes c h ftol out s r tr ->
  Forall2 (fun m gv => is_min m (snd gv)) (r_history r) (gens tr).
Proof.
  intros H.
  destruct (completes_rule (fun hist nb s => Forall2 (fun m gv => is_min m (snd gv)) hist (gens (s_tr s))) s r tr)
    as (nb & sf & HI & <- & _); try assumption.
  - intros s0 sp Hp hist nb HI. rewrite (printed_gens _ _ Hp). exact HI.
  - intros b s1 w1 s1' Htr Hf Hp.
    destruct (first_obs c h s s1 w1 s1' b Htr Hf Hp) as [rets (H1 & H2 & H3 & _)].
    rewrite H3. constructor; [|constructor]. cbn. eapply first_is_min; eassumption.
  - intros wn hist nb s0 b acc s1 s1' _ HI _ _ Hf Hp.
    destruct (step_obs c h ftol wn s0 s1 s1' b acc Hf Hp) as
      (gen' & evals' & elite' & evel' & noisy & data & rets & Hs).
    cbv zeta in Hs. destruct Hs as (_ & _ & _ & _ & Hg & _ & _ & _ & _ & _ & _ & Hm & _).
    rewrite Hg. apply Forall2_app; [exact HI|]. constructor; [exact Hm|constructor].
Qed.

(** Calls, returned values and evaluated generations agree. *)
Lemma calls_lemma (s : st S W) (r : result) (tr : list ev) :
  completes c h ftol out s r tr ->
  calls tr = concat (map (fun gr => combine (a_rows (fst (fst gr))) (snd gr)) (combine (gens tr) (gen_returns tr))) /\
  Forall2 (fun gv rets => List.length rets = List.length (a_rows (fst gv)) /\
                          List.length (snd gv) = List.length (a_rows (fst gv)) /\
                          Stored rets (snd gv)) (gens tr) (gen_returns tr).
Proof.
  intros H.
  destruct (completes_rule (fun hist nb s =>
      calls (s_tr s) = concat (map (fun gr => combine (a_rows (fst (fst gr))) (snd gr)) (combine (gens (s_tr s)) (gen_returns (s_tr s)))) /\
      Forall2 (fun gv rets => List.length rets = List.length (a_rows (fst gv)) /\
                          List.length (snd gv) = List.length (a_rows (fst gv)) /\
                          Stored rets (snd gv)) (gens (s_tr s)) (gen_returns (s_tr s))) s r tr)
    as (nb & sf & HI & <- & _); try assumption.
  - intros s0 sp Hp hist nb HI.
    rewrite (printed_gens _ _ Hp), (printed_gen_returns _ _ Hp), (printed_calls _ _ Hp). exact HI.
  - intros b s1 w1 s1' Htr Hf Hp.
    destruct (first_obs c h s s1 w1 s1' b Htr Hf Hp) as [rets (H1 & H2 & H3 & H4 & H5 & H6 & H7 & H8 & H9)].
    assert (Hst : Stored rets (o_evals (s_obj s1'))).
    { destruct Hf. destruct Hp as [ps [Hps ->]]. subst s1. cbn in *. rewrite Htr in *.
      rewrite !gen_returns_app, gen_returns_calls_of, (gen_returns_prints ps Hps) in H4. cbn in H4.
      injection H4 as <-. exact ff_stored. }
    rewrite H3, H4, H5. cbn. rewrite app_nil_r. split; [reflexivity|].
    constructor; [|constructor]. repeat split; assumption.
  - intros wn hist nb s0 b acc s1 s1' _ [HI1 HI2] _ _ Hf Hp.
    pose proof Hf as Hf'. destruct Hf'.
    pose proof (step_obs c h ftol wn s0 s1 s1' b acc Hf Hp) as
      (gen' & evals' & elite' & evel' & noisy & data & rets & Hs).
    cbv zeta in Hs. destruct Hs as (_ & _ & _ & _ & Hg & Hr & Hc & _ & _ & Hl1 & Hl2 & _).
    assert (Hrets : rets = if_rets /\ o_evals (s_obj s1') = if_vals).
    { destruct Hp as [ps [Hps ->]]. subst s1. cbn in Hr |- *. split; [|reflexivity].
      rewrite !gen_returns_app in Hr. cbn in Hr. rewrite gen_returns_app in Hr.
      rewrite gen_returns_calls_of, (gen_returns_prints ps Hps) in Hr. cbn in Hr. rewrite app_nil_r in Hr.
      apply app_inv_head in Hr. injection Hr as <-. reflexivity. }
    destruct Hrets as [-> Hvals].
    rewrite Hg, Hr, Hc.
    assert (Hlen : List.length (gens (s_tr s0)) = List.length (gen_returns (s_tr s0)))
      by (eapply Forall2_length; exact HI2).
    split.
    + rewrite HI1. clear - Hlen.
      revert Hlen. generalize (gen_returns (s_tr s0)). induction (gens (s_tr s0)) as [|x l IH]; intros [|y l'] Hlen; cbn in *; try discriminate.
      * rewrite app_nil_r. reflexivity.
      * rewrite <- app_assoc, IH by lia. reflexivity.
    + apply Forall2_app; [exact HI2|]. constructor; [|constructor]. cbn. repeat split; try assumption.
      rewrite Hvals. exact if_stored.
Qed.

(* ------------------------------------------------------------------ *)
(** ** Budget *)

Lemma counts_lemma (s : st S W) (r : result) (tr : list ev) :
  completes c h ftol out s r tr ->
  List.length (r_history r) = List.length (gens tr) /\
  List.length (gens tr) = 1 + List.length (learns tr) /\
  List.length (gens tr) = 1 + List.length (selections tr) /\
  1 <= List.length (gens tr) <= 1 + Z.to_nat (c_max_iter c - 1).
Proof.
  intros H.
  destruct (completes_rule (fun hist nb s =>
     List.length hist = List.length (gens (s_tr s)) /\
     List.length (gens (s_tr s)) = 1 + List.length (learns (s_tr s)) /\
     List.length (gens (s_tr s)) = 1 + List.length (selections (s_tr s))) s r tr)
    as (nb & sf & HI & <- & _ & _ & Hlen); try assumption.
  - intros s0 sp Hp hist nb HI.
    rewrite (printed_gens _ _ Hp), (printed_learns _ _ Hp), (printed_selections _ _ Hp). exact HI.
  - intros b s1 w1 s1' Htr Hf Hp.
    destruct (first_obs c h s s1 w1 s1' b Htr Hf Hp) as [rets (H1 & H2 & H3 & H4 & H5 & H6 & H7 & H8 & H9)].
    rewrite H3, H6, H7. cbn. lia.
  - intros wn hist nb s0 b acc s1 s1' _ HI _ _ Hf Hp.
    destruct (step_obs c h ftol wn s0 s1 s1' b acc Hf Hp) as
      (gen' & evals' & elite' & evel' & noisy & data & rets & Hs).
    cbv zeta in Hs. destruct Hs as (_ & _ & _ & _ & Hg & Hr & Hc & Hl & Hs & _).
    rewrite Hg, Hl, Hs, !app_length. cbn. lia.
  - destruct HI as (H1 & H2 & H3). repeat split; try assumption; lia.
Qed.

(* ------------------------------------------------------------------ *)
(** ** Best cost as a function of the history *)

Local Notation best_step := (Spec.best_step ftol).
Local Notation run_best := (Spec.run_best ftol).

Lemma run_best_snoc hist b : hist <> [] -> run_best (hist ++ [b]) = best_step (run_best hist) b.
Proof. destruct hist as [|x l]; [congruence|]. intros _. cbn. rewrite fold_left_app. reflexivity. Qed.

Lemma improvements_snoc hist b :
  hist <> [] -> improvements ftol (hist ++ [b]) = improvements ftol hist ++ [accept ftol b (run_best hist)].
Proof.
  destruct hist as [|x l]; [congruence|]. intros _. cbn [app improvements run_best].
  revert x. induction l as [|y l IH]; intros x; cbn [app improvements_from fold_left].
  - unfold accept. destruct (flt b _); reflexivity.
  - unfold Spec.best_step at 2. destruct (flt y _); cbn; rewrite IH; reflexivity.
Qed.

Lemma trailing_false_snoc l b : trailing_false (l ++ [b]) = if b then 0 else Datatypes.S (trailing_false l).
Proof. unfold trailing_false. rewrite fold_left_app. reflexivity. Qed.

Lemma best_cost_lemma (s : st S W) (r : result) (tr : list ev) :
  completes c h ftol out s r tr -> r_best_cost r = run_best (r_history r).
Proof.
  intros H.
  destruct (completes_rule (fun hist nb s => hist <> [] /\ o_best_cost (s_obj s) = run_best hist) s r tr)
    as (nb & sf & HI & <- & Hr & _); try assumption.
  - intros s0 sp Hp hist nb HI. rewrite (printed_obj _ _ Hp). exact HI.
  - intros b s1 w1 s1' Htr Hf Hp. split; [discriminate|]. rewrite (printed_obj _ _ Hp). destruct Hf. subst s1. reflexivity.
  - intros wn hist nb s0 b acc s1 s1' _ [Hne HI] _ _ Hf Hp.
    destruct (step_obs c h ftol wn s0 s1 s1' b acc Hf Hp) as
      (gen' & evals' & elite' & evel' & noisy & data & rets & Hs).
    cbv zeta in Hs. destruct Hs as (_ & _ & _ & _ & Hg & Hr & Hc & Hl & Hs & _ & _ & _ & Hacc & Hb & _).
    split; [destruct hist; discriminate|].
    rewrite Hb, run_best_snoc by exact Hne. unfold Spec.best_step. rewrite <- HI. rewrite Hacc. reflexivity.
  - rewrite Hr. cbn. apply HI.
Qed.

Lemma stop_lemma (s : st S W) (r : result) (tr : list ev) :
  completes c h ftol out s r tr ->
  (List.length (r_history r) = 1 + Z.to_nat (c_max_iter c - 1) \/
   ((1 <= c_dead_iter c)%Z /\
    Z.of_nat (trailing_false (improvements ftol (r_history r))) = c_dead_iter c)) /\
  (forall l b l', improvements ftol (r_history r) = l ++ b :: l' -> (1 <= c_dead_iter c)%Z ->
      (Z.of_nat (trailing_false l) < c_dead_iter c)%Z).
Proof.
  intros H.
  destruct (completes_rule (fun hist nb s => hist <> [] /\
      o_best_cost (s_obj s) = run_best hist /\
      nb = Z.of_nat (trailing_false (improvements ftol hist)) /\
      ((1 <= c_dead_iter c)%Z -> (nb <= c_dead_iter c)%Z) /\
      forall l b l', improvements ftol hist = l ++ b :: l' -> (1 <= c_dead_iter c)%Z ->
                     (Z.of_nat (trailing_false l) < c_dead_iter c)%Z) s r tr)
    as (nb & sf & HI & <- & Hr & Hstop & _); try assumption.
  - intros s0 sp Hp hist nb HI. rewrite (printed_obj _ _ Hp). exact HI.
  - intros b s1 w1 s1' Htr Hf Hp. split; [discriminate|]. rewrite (printed_obj _ _ Hp).
    split; [destruct Hf; subst s1; reflexivity|]. split; [reflexivity|]. split; [lia|].
    intros [|x l] y l' Heq; discriminate.
  - intros wn hist nb s0 b acc s1 s1' _ (Hne & HI & Hnb & Hle & Hpre) Hge Hcont Hf Hp.
    destruct (step_obs c h ftol wn s0 s1 s1' b acc Hf Hp) as
      (gen' & evals' & elite' & evel' & noisy & data & rets & Hs).
    cbv zeta in Hs. destruct Hs as (_ & _ & _ & _ & Hg & Hr & Hc & Hl & Hs & _ & _ & _ & Hacc & Hb & _).
    split; [destruct hist; discriminate|]. split.
    { rewrite Hb, run_best_snoc by exact Hne. unfold Spec.best_step. rewrite <- HI. rewrite Hacc. reflexivity. }
    rewrite improvements_snoc by exact Hne. rewrite <- HI, <- Hacc.
    split; [rewrite trailing_false_snoc; destruct acc; lia|].
    split; [intros Hd; specialize (Hle Hd); destruct acc; lia|].
    intros l b' l' Heq Hd. destruct l' as [|y l'] using rev_ind.
    + apply app_inj_tail in Heq as [<- _]. rewrite <- Hnb. specialize (Hle Hd). lia.
    + clear IHl'. rewrite app_comm_cons, app_assoc in Heq. apply app_inj_tail in Heq as [Heq _].
      eapply Hpre; eassumption.
  - destruct HI as (_ & _ & Hnb & Hle & Hpre). split; [|exact Hpre].
    destruct Hstop as [Hs|[Hs1 Hs2]]; [left; exact Hs|right]. lia.
Qed.

(* ------------------------------------------------------------------ *)
(** ** The reported individual *)

Lemma nth_error_combine {A B} (l1 : list A) (l2 : list B) i a b :
  nth_error l1 i = Some a -> nth_error l2 i = Some b -> nth_error (combine l1 l2) i = Some (a, b).
Proof.
  revert l1 l2. induction i as [|i IH]; intros [|x l1] [|y l2] H1 H2; cbn in *; try discriminate.
  - congruence.
  - apply IH; assumption.
Qed.

Lemma best_ind_lemma (s : st S W) (r : result) (tr : list ev) :
  completes c h ftol out s r tr ->
  match r_best_ind r with
  | BRow x => (exists v, In (x, v) (evaluated tr) /\ feq v (r_best_cost r) = true) /\
              In true (improvements ftol (r_history r))
  | BIdx i => (exists x v, nth_error (flat_map pairs (firstn 1 (gens tr))) i = Some (x, v) /\
                           feq v (r_best_cost r) = true) /\
              ~ In true (improvements ftol (r_history r))
  end.
Proof.
  intros H.
  destruct (completes_rule (fun hist nb s => hist <> [] /\
      o_best_cost (s_obj s) = run_best hist /\
      1 <= List.length (gens (s_tr s)) /\
      match o_best_ind (s_obj s) with
      | BRow x => (exists v, In (x, v) (evaluated (s_tr s)) /\ feq v (o_best_cost (s_obj s)) = true) /\
                  In true (improvements ftol hist)
      | BIdx i => (exists x v, nth_error (flat_map pairs (firstn 1 (gens (s_tr s)))) i = Some (x, v) /\
                               feq v (o_best_cost (s_obj s)) = true) /\
                  ~ In true (improvements ftol hist)
      end) s r tr)
    as (nb & sf & HI & <- & Hr & _); try assumption.
  - intros s0 sp Hp hist nb HI. unfold evaluated in *. rewrite (printed_obj _ _ Hp), (printed_gens _ _ Hp). exact HI.
  - intros b s1 w1 s1' Htr Hf Hp.
    destruct (first_obs c h s s1 w1 s1' b Htr Hf Hp) as [rets (H1 & H2 & H3 & H4 & H5 & H6 & H7 & H8 & H9)].
    split; [discriminate|]. rewrite H3. rewrite H1.
    destruct Hf. subst s1. cbn in H1. rewrite H1 in *. cbn in *.
    split; [reflexivity|]. split; [lia|]. split; [|tauto].
    destruct (nth_error (a_rows ff_g) ff_i) as [x|] eqn:Hx.
    + exists x, ff_val. split; [|exact ff_val_eq]. rewrite app_nil_r.
      apply nth_error_combine; assumption.
    + apply nth_error_None in Hx. assert (ff_i < List.length ff_vals) by (apply nth_error_Some; congruence).
      rewrite H9 in *. lia.
  - intros wn hist nb s0 b acc s1 s1' _ (Hne & HI & Hlen & Hind) Hge Hcont Hf Hp.
    destruct (step_obs c h ftol wn s0 s1 s1' b acc Hf Hp) as
      (gen' & evals' & elite' & evel' & noisy & data & rets & Hs).
    cbv zeta in Hs. destruct Hs as (_ & _ & _ & _ & Hg & Hr & Hc & Hl & Hs & _ & _ & _ & Hacc & Hb & Hi).
    split; [destruct hist; discriminate|]. split.
    { rewrite Hb, run_best_snoc by exact Hne. unfold Spec.best_step. rewrite <- HI. rewrite Hacc. reflexivity. }
    split; [rewrite Hg, app_length; lia|].
    rewrite improvements_snoc by exact Hne. rewrite <- HI, <- Hacc.
    destruct Hi as (i & x & v & Hx & Hv & Hvb & Hi). rewrite Hi, Hb.
    assert (Hev : evaluated (s_tr s1') = evaluated (s_tr s0) ++ pairs (o_gen (s_obj s1'), o_evals (s_obj s1'))).
    { unfold evaluated. rewrite Hg, flat_map_app. cbn. rewrite app_nil_r. reflexivity. }
    destruct acc.
    + split; [|apply in_or_app; right; left; reflexivity].
      exists v. split; [|exact Hvb]. rewrite Hev. apply in_or_app. right.
      eapply nth_error_In. apply nth_error_combine; eassumption.
    + destruct (o_best_ind (s_obj s0)) as [j|y].
      * destruct Hind as [Hj Hni]. split.
        -- rewrite Hg. destruct (gens (s_tr s0)); [cbn in Hlen; lia|exact Hj].
        -- intros Hin. apply in_app_or in Hin as [Hin|[Hin|[]]]; [tauto|discriminate].
      * destruct Hind as [[v' [Hin Hv']] Hi']. split; [|apply in_or_app; left; exact Hi'].
        exists v'. split; [|exact Hv']. rewrite Hev. apply in_or_app. left; exact Hin.
  - rewrite Hr. cbn [r_best_ind r_best_cost r_history]. destruct HI as (_ & _ & _ & HI). exact HI.
Qed.

End Thms.
