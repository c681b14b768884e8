(** Observations along a run: how each step extends the trace. *)
From Coq Require Import String List ZArith Bool Lia Sorting.Permutation Sorting.Sorted.
From Verif Require Import PyBase B64 NdArray Eda EdaInv Spec TopK.
Import ListNotations.

Lemma gens_app a b : gens (a ++ b) = gens a ++ gens b. Proof. apply flat_map_app. Qed.
Lemma gen_returns_app a b : gen_returns (a ++ b) = gen_returns a ++ gen_returns b. Proof. apply flat_map_app. Qed.
Lemma calls_app a b : calls (a ++ b) = calls a ++ calls b. Proof. apply flat_map_app. Qed.
Lemma learns_app a b : learns (a ++ b) = learns a ++ learns b. Proof. apply flat_map_app. Qed.
Lemma selections_app a b : selections (a ++ b) = selections a ++ selections b. Proof. apply flat_map_app. Qed.
Lemma prints_app a b : prints (a ++ b) = prints a ++ prints b. Proof. apply flat_map_app. Qed.
Lemma evaluated_app a b : evaluated (a ++ b) = evaluated a ++ evaluated b.
Proof. unfold evaluated. rewrite gens_app. apply flat_map_app. Qed.

Lemma Forall2_length {A B} (R : A -> B -> Prop) l1 l2 : Forall2 R l1 l2 -> List.length l1 = List.length l2.
Proof. induction 1 as [|a b l1 l2 _ _ IH]; cbn; lia. Qed.

Section CallsOf.
  Variable rs : list row.
  Variable vs : list num.
  Lemma gens_calls_of : gens (calls_of rs vs) = [].
  Proof. revert vs; induction rs as [|r l IH]; intros [|v vs]; cbn; auto. Qed.
  Lemma gen_returns_calls_of : gen_returns (calls_of rs vs) = [].
  Proof. revert vs; induction rs as [|r l IH]; intros [|v vs]; cbn; auto. Qed.
  Lemma learns_calls_of : learns (calls_of rs vs) = [].
  Proof. revert vs; induction rs as [|r l IH]; intros [|v vs]; cbn; auto. Qed.
  Lemma selections_calls_of : selections (calls_of rs vs) = [].
  Proof. revert vs; induction rs as [|r l IH]; intros [|v vs]; cbn; auto. Qed.
  Lemma prints_calls_of : prints (calls_of rs vs) = [].
  Proof. revert vs; induction rs as [|r l IH]; intros [|v vs]; cbn; auto. Qed.
  Lemma calls_calls_of : calls (calls_of rs vs) = combine rs vs.
  Proof. revert vs; induction rs as [|r l IH]; intros [|v vs]; cbn; auto. f_equal; auto. Qed.
End CallsOf.

Section Prints.
  Variable ps : list ev.
  Hypothesis Hps : Forall is_print ps.
  Lemma gens_prints : gens ps = [].
  Proof. clear - Hps. induction Hps as [|e l He Hl IH]; cbn; [reflexivity|]. destruct e; try destruct He. exact (IH Hl). Qed.
  Lemma gen_returns_prints : gen_returns ps = [].
  Proof. clear - Hps. induction Hps as [|e l He Hl IH]; cbn; [reflexivity|]. destruct e; try destruct He. exact (IH Hl). Qed.
  Lemma learns_prints : learns ps = [].
  Proof. clear - Hps. induction Hps as [|e l He Hl IH]; cbn; [reflexivity|]. destruct e; try destruct He. exact (IH Hl). Qed.
  Lemma selections_prints : selections ps = [].
  Proof. clear - Hps. induction Hps as [|e l He Hl IH]; cbn; [reflexivity|]. destruct e; try destruct He. exact (IH Hl). Qed.
  Lemma calls_prints : calls ps = [].
  Proof. clear - Hps. induction Hps as [|e l He Hl IH]; cbn; [reflexivity|]. destruct e; try destruct He. exact (IH Hl). Qed.
End Prints.

Lemma py_min_spec (vals : list f64) (b : f64) :
  py_min vals = Ok b ->
  In b vals /\ (isnan b = false -> forall v, In v vals -> flt v b = false).
Proof.
  unfold py_min. destruct vals as [|x l]; [discriminate|]. intros H. injection H as H.
  assert (Hgen : forall l m, let b := fold_left (fun m y => if flt y m then y else m) l m in
             (b = m \/ In b l) /\
             (isnan b = false -> (flt m b = false) /\ forall v, In v l -> flt v b = false) /\
             (isnan m = false -> isnan b = false)).
  { clear. induction l as [|y l IH]; intros m; cbn [fold_left].
    - split; [left; reflexivity|]. split; [|tauto]. intros _. split; [apply flt_irrefl|]. intros v [].
    - cbv zeta. destruct (IH (if flt y m then y else m)) as [H1 [H2 H3]].
      set (b := fold_left _ l _) in *. split; [|split].
      + destruct (flt y m); destruct H1 as [H1|H1].
        * right; left; symmetry; exact H1.
        * right; right; exact H1.
        * left; exact H1.
        * right; right; exact H1.
      + intros Hb. destruct (H2 Hb) as [Ha Hl].
        destruct (flt y m) eqn:E.
        * split.
          -- destruct (flt m b) eqn:Emb; [|reflexivity].
             assert (flt y b = true) by (eapply flt_fle_trans; [exact E|apply flt_fle; exact Emb]). congruence.
          -- intros v [<-|Hv]; [exact Ha|apply Hl, Hv].
        * split; [exact Ha|]. intros v [<-|Hv]; [|apply Hl, Hv].
          destruct (flt y b) eqn:Eyb; [|reflexivity].
          destruct (isnan m) eqn:Hm.
          -- destruct (isnan y) eqn:Hy; [rewrite flt_nan_l in Eyb by exact Hy; discriminate|].
             (* m is NaN: then b = m or b in l with nothing below m; m NaN stays NaN *)
             assert (Hnan : forall l m, isnan m = true -> isnan (fold_left (fun m y => if flt y m then y else m) l m) = true).
             { clear. induction l as [|z l IH]; intros m Hm; cbn; [exact Hm|].
               rewrite flt_nan_r by exact Hm. apply IH, Hm. }
             unfold b in Hb. rewrite (Hnan l m Hm) in Hb. discriminate.
          -- destruct (flt_not_nan _ _ Eyb) as [Hy _].
             assert (flt y m = true).
             { eapply flt_fle_trans; [exact Eyb|]. apply flt_false_fle; [exact Hm|exact Hb|exact Ha]. }
             congruence.
      + intros Hm. apply H3. destruct (flt y m) eqn:E; [|exact Hm]. apply (flt_not_nan _ _ E). }
  destruct (Hgen l x) as [H1 [H2 _]]. rewrite H in H1, H2. split.
  - destruct H1 as [->|H1]; [left; reflexivity|right; exact H1].
  - intros Hb. destruct (H2 Hb) as [H3 H4]. intros v [<-|Hv]; [exact H3|apply H4, Hv].
Qed.

Lemma py_min_nan_head (x : f64) (l : list f64) (b : f64) :
  py_min (x :: l) = Ok b -> isnan x = true -> isnan b = true.
Proof.
  cbn. intros H Hx. injection H as <-. revert x Hx. induction l as [|y l IH]; intros x Hx; cbn; [exact Hx|].
  rewrite flt_nan_r by exact Hx. apply IH, Hx.
Qed.

Lemma py_min_num_head (x : f64) (l : list f64) (b : f64) :
  py_min (x :: l) = Ok b -> isnan x = false -> isnan b = false.
Proof.
  cbn. intros H Hx. injection H as <-. revert x Hx. induction l as [|y l IH]; intros x Hx; cbn; [exact Hx|].
  apply IH. destruct (flt y x) eqn:E; [apply (flt_not_nan _ _ E)|exact Hx].
Qed.

Lemma py_min_is_min (vals : list f64) (b v : f64) :
  py_min vals = Ok b -> feq v b = true -> is_min b vals.
Proof.
  intros H Hv. destruct (feq_not_nan _ _ Hv) as [_ Hb].
  destruct (py_min_spec _ _ H) as [H1 H2]. repeat split; [exact H1|exact Hb|apply H2, Hb].
Qed.

(* ------------------------------------------------------------------ *)
(** ** each_event *)

Lemma each_event_nil P : each_event P [].
Proof. intros [|x tr1] e tr2 H; discriminate. Qed.

Lemma each_event_snoc P tr e : each_event P tr -> P tr e -> each_event P (tr ++ [e]).
Proof.
  intros H He tr1 e' tr2 Heq.
  destruct tr2 as [|y tr2] using rev_ind.
  - apply app_inj_tail in Heq as [<- <-]. exact He.
  - clear IHtr2. rewrite app_comm_cons, app_assoc in Heq. apply app_inj_tail in Heq as [Heq _].
    apply (H tr1 e' tr2 Heq).
Qed.

Lemma each_event_extend (P : list ev -> ev -> Prop) tr es :
  each_event P tr -> (forall t e, In e es -> P t e) -> each_event P (tr ++ es).
Proof.
  revert tr. induction es as [|e es IH]; intros tr H He; [rewrite app_nil_r; exact H|].
  replace (tr ++ e :: es) with ((tr ++ [e]) ++ es) by (rewrite <- app_assoc; reflexivity).
  apply IH.
  - apply each_event_snoc; [exact H|apply He; left; reflexivity].
  - intros t e' Hin. apply He. right; exact Hin.
Qed.

Lemma each_event_prefix P tr1 tr2 : each_event P (tr1 ++ tr2) -> each_event P tr1.
Proof.
  intros H t e t' ->. apply (H t e (t' ++ tr2)). rewrite <- app_assoc. reflexivity.
Qed.

(* ------------------------------------------------------------------ *)
(** ** Observations of one step *)

Section Obs.
Context {S W : Type}.
Variable c : cfg.
Variable h : hooks S W.

Lemma first_obs (s s1 : st S W) (w : W) (s1' : st S W) (b : f64) :
  s_tr s = [] -> first_facts c h s s1 b ->
  printed_after (mkSt (s_obj s1) (s_pm s1) w (s_tr s1)) s1' ->
  exists rets,
    let g := o_gen (s_obj s1') in let vals := o_evals (s_obj s1') in
    s_obj s1' = s_obj s1 /\ s_pm s1' = s_pm s /\
    gens (s_tr s1') = [(g, vals)] /\ gen_returns (s_tr s1') = [rets] /\
    calls (s_tr s1') = combine (a_rows g) rets /\
    learns (s_tr s1') = [] /\ selections (s_tr s1') = [] /\
    List.length rets = List.length (a_rows g) /\
    List.length vals = List.length (a_rows g).
Proof.
  intros Htr H Hp. destruct H. destruct Hp as [ps [Hps ->]]. subst s1.
  rewrite Htr. exists ff_rets. cbn [s_obj s_pm s_tr o_gen o_evals].
  rewrite !gens_app, !gen_returns_app, !calls_app, !learns_app, !selections_app,
    gens_calls_of, gen_returns_calls_of, calls_calls_of, learns_calls_of, selections_calls_of,
    (gens_prints ps Hps), (gen_returns_prints ps Hps), (calls_prints ps Hps),
    (learns_prints ps Hps), (selections_prints ps Hps).
  cbn. rewrite !app_nil_r. repeat split; [exact ff_len|].
  rewrite <- ff_len. apply Stored_length. exact ff_stored.
Qed.

(** Full account of one iteration in terms of the observables. *)
Lemma step_obs (ftol : f64) (wn : noise) (s s1 s1' : st S W) (b : f64) (acc : bool) :
  iter_facts c h ftol wn s s1 b acc -> printed_after s1 s1' ->
  exists gen' evals' elite' evel' noisy data rets,
    let g := o_gen (s_obj s1') in let vals := o_evals (s_obj s1') in
    selected c h (s_obj s) gen' evals' elite' evel' /\
    iadd gen' wn = Ok noisy /\
    o_elite (s_obj s1') = elite' /\ o_evel (s_obj s1') = evel' /\
    gens (s_tr s1') = gens (s_tr s) ++ [(g, vals)] /\
    gen_returns (s_tr s1') = gen_returns (s_tr s) ++ [rets] /\
    calls (s_tr s1') = calls (s_tr s) ++ combine (a_rows g) rets /\
    learns (s_tr s1') = learns (s_tr s) ++ [data] /\
    selections (s_tr s1') = selections (s_tr s) ++
        [(combine (a_rows gen') evals', combine (a_rows elite') evel')] /\
    List.length rets = List.length (a_rows g) /\
    List.length vals = List.length (a_rows g) /\
    is_min b vals /\
    acc = accept ftol b (o_best_cost (s_obj s)) /\
    o_best_cost (s_obj s1') = (if acc then b else o_best_cost (s_obj s)) /\
    (exists i r v, nth_error (a_rows g) i = Some r /\ nth_error vals i = Some v /\ feq v b = true /\
       o_best_ind (s_obj s1') = (if acc then BRow r else o_best_ind (s_obj s))).
Proof.
  intros H Hp. destruct H. destruct Hp as [ps [Hps ->]]. subst s1.
  exists if_gen', if_evals', if_elite', if_evel', if_noisy, if_data, if_rets.
  cbn [s_obj s_pm s_tr o_gen o_evals o_elite o_evel o_best_cost o_best_ind].
  rewrite !gens_app, !gen_returns_app, !calls_app, !learns_app, !selections_app,
    gens_calls_of, gen_returns_calls_of, calls_calls_of, learns_calls_of, selections_calls_of,
    (gens_prints ps Hps), (gen_returns_prints ps Hps), (calls_prints ps Hps),
    (learns_prints ps Hps), (selections_prints ps Hps).
  cbn. rewrite ?app_nil_r.
  repeat split; try assumption.
  - rewrite <- if_len. apply Stored_length. exact if_stored.
  - eapply py_min_is_min; eassumption.
  - eapply py_min_is_min; eassumption.
  - eapply py_min_is_min; eassumption.
  - exists if_i, if_row, if_val. repeat split; assumption.
Qed.

End Obs.
