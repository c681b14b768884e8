(** What the archive algorithms learn from in every run, also the ones that raise. *)
From Coq Require Import String List ZArith Bool Lia Permutation.
From Verif Require Import PyBase B64 B64More NdArray Eda EdaInv Spec TopK LoopObs LoopThms LoopMore Select LoopTrain LoopDrawn LoopRel LoopInv LoopFinal LoopFail FailThms Rand Models Inits InitThms ModelThms CatThms ModelProps Trunc Stock StockInv StockGauss StockCat StockPrior StockArchive StockFail StockAll StockMore.
Import ListNotations.
Open Scope nat_scope.

Section Every.
Context {X W : Type}.
Variable E : env X W.

Definition archive_trace (l t : nat) (tr : list ev) : Prop :=
  Forall (fun e => List.length e = t) (elites tr) /\ List.length (learns tr) <= List.length (elites tr) <= S (List.length (learns tr)) /\
  forall j d, nth_error (learns tr) j = Some d -> a_rows d = concat (lastn l (firstn (S j) (elites tr))).

Lemma state_trace k l t (s : st (pmstate X) W) : archive_state k l t s -> archive_trace l t (s_tr s).
Proof. intros (_ & _ & _ & _ & _ & _ & _ & _ & R1 & R2 & _ & R3). split; [exact R1|]. split; [lia|exact R3]. Qed.

(** Calls, generations and printed lines are no news. *)
Lemma trace_more l t tr x : elites x = [] -> learns x = [] -> archive_trace l t tr -> archive_trace l t (tr ++ x).
Proof. intros E1 E2. unfold archive_trace. rewrite elites_app, learns_app, E1, E2, !app_nil_r. trivial. Qed.

Lemma calls_no_news rs l : Forall (on_rows rs) l -> elites l = [] /\ learns l = [].
Proof.
  intros H. induction l as [|e l IH]; [split; reflexivity|]. inversion H as [|? ? (x & v & -> & _) H']; subst. apply (IH H').
Qed.
Lemma gen_no_news g rets vals : elites (calls_of (a_rows g) rets ++ [EvGen g rets vals]) = [] /\ learns (calls_of (a_rows g) rets ++ [EvGen g rets vals]) = [].
Proof. unfold elites. rewrite selections_app, learns_app, learns_calls_of, selections_calls_of. split; reflexivity. Qed.

Lemma selected_elite k l t (o : optimiser X) cost (s0 : st (pmstate X) W) gen' evals' elite' evel' : archive_setup E k l t o -> argsort_ok (e_argsort E) -> archive_state k l t s0 ->
  selected (op_cfg o) (hooks_of E o cost) (s_obj s0) gen' evals' elite' evel' ->
  List.length (a_rows elite') = t /\ List.length evel' = List.length (a_rows elite') /\ a_dt elite' = DFloat.
Proof.
  intros A Hsort (S1 & S2 & S3 & S4 & S5 & _) Hs. destruct A. destruct Hs as [gen Hc He Ht Hve Hvt].
  apply concat_same_dtype in Hc as [Hgd Hgr]; [|congruence]. apply take_rows_ok in He as (Hed & _ & He).
  split; [|split; [rewrite (gather_length _ _ _ He), (gather_length _ _ _ Hve); reflexivity|congruence]].
  rewrite (gather_length _ _ _ He). rewrite as_elite, slice_to_nonneg, firstn_length by lia. cbn [hooks_of h_argsort].
  destruct (Hsort (o_evals (s_obj s0) ++ o_evel (s_obj s0))) as [P _]. apply Permutation_length in P. rewrite seq_length, app_length in P.
  rewrite P, Nat2Z.id. unfold a_len in *. lia.
Qed.

Lemma data_archive k l t (o : optimiser X) cost (s0 : st (pmstate X) W) gen' evals' elite' evel' g data p1 : archive_setup E k l t o -> 1 <= l -> argsort_ok (e_argsort E) -> archive_state k l t s0 ->
  selected (op_cfg o) (hooks_of E o cost) (s_obj s0) gen' evals' elite' evel' ->
  h_data (hooks_of E o cost) g elite' (s_pm s0) = (Ok data, p1) ->
  a_rows data = concat (lastn l (elites (s_tr s0) ++ [a_rows elite'])).
Proof.
  intros A Hl Hsort Hst Hsel Hd. destruct (selected_elite _ _ _ _ _ _ _ _ _ _ A Hsort Hst Hsel) as (L1 & L2 & D). destruct Hst as (S1 & S2 & S3 & S4 & S5 & _ & S6 & S7 & S8 & _). destruct A.
  cbn [hooks_of h_data] in Hd. rewrite as_upd in Hd. cbn [data_of] in Hd. unfold update_archive in Hd.
  destruct (np_concatenate (ps_archive (s_pm s0)) elite') as [ar|e0] eqn:Hca; [|discriminate].
  apply concat_same_dtype in Hca as [Had Har]; [|congruence].
  cbn [archive_slice] in Hd. rewrite Har, S7, slice_blocks in Hd by assumption.
  assert (Ed : data = mkArr (a_dt ar) (a_nc ar) (concat (lastn l (elites (s_tr s0) ++ [a_rows elite'])))) by congruence. rewrite Ed. reflexivity.
Qed.

Lemma trace_select l t tr train elite evel : archive_trace l t tr -> List.length (learns tr) = List.length (elites tr) -> List.length elite = t -> List.length evel = List.length elite ->
  archive_trace l t (tr ++ [EvSelect train (combine elite evel)]).
Proof.
  intros (R1 & R2 & R3) Hn Hl Hv. unfold archive_trace. rewrite elites_app, learns_app. cbn [learns flat_map app]. unfold elites at 2 4 6. cbn [selections flat_map map snd app]. rewrite !app_nil_r. cbn [map snd].
  rewrite map_fst_combine by congruence. split; [apply Forall_app; split; [exact R1|constructor; [exact Hl|constructor]]|]. split; [rewrite app_length; cbn; lia|].
  intros j d Hj. assert (j < List.length (learns tr)) by (apply nth_error_Some; congruence). rewrite (R3 _ _ Hj). f_equal. f_equal. rewrite firstn_app.
  replace (S j - List.length (elites tr)) with 0 by lia. cbn. rewrite app_nil_r. reflexivity.
Qed.

Lemma trace_learn l t tr train elite evel d : archive_trace l t tr -> List.length (learns tr) = List.length (elites tr) -> List.length elite = t -> List.length evel = List.length elite ->
  a_rows d = concat (lastn l (elites tr ++ [elite])) -> archive_trace l t (tr ++ [EvSelect train (combine elite evel); EvLearn d]).
Proof.
  intros R Hn Hl Hv Hd. destruct (trace_select l t tr train elite evel R Hn Hl Hv) as (Q1 & Q2 & Q3).
  assert (Ee : elites (tr ++ [EvSelect train (combine elite evel)]) = elites tr ++ [elite]).
  { rewrite elites_app. unfold elites at 2. cbn [selections flat_map map snd app]. rewrite map_fst_combine by congruence. reflexivity. }
  assert (El : learns (tr ++ [EvSelect train (combine elite evel)]) = learns tr) by (rewrite learns_app; apply app_nil_r).
  change [EvSelect train (combine elite evel); EvLearn d] with ([EvSelect train (combine elite evel)] ++ [EvLearn d]). rewrite app_assoc.
  unfold archive_trace. rewrite elites_app, learns_app. change (elites [EvLearn d]) with (@nil (list row)). change (learns [EvLearn d]) with [d]. rewrite app_nil_r, Ee, El in *.
  split; [exact Q1|]. split; [rewrite !app_length; cbn; lia|]. intros j d' Hj.
  destruct (Nat.lt_ge_cases j (List.length (learns tr))) as [Hlt|Hge].
  - rewrite nth_error_app1 in Hj by exact Hlt. exact (Q3 _ _ Hj).
  - rewrite nth_error_app2 in Hj by exact Hge. destruct (j - List.length (learns tr)) as [|i] eqn:Ej; [|destruct i; discriminate].
    cbn in Hj. assert (d' = d) by congruence. subst d'. rewrite Hd. f_equal. f_equal. rewrite firstn_all2; [reflexivity|]. rewrite app_length. cbn. lia.
Qed.

Lemma archive_run_every k l t (o : optimiser X) cost a ftol out w r s :
  archive_setup E k l t o -> 1 <= l -> argsort_ok (e_argsort E) ->
  run_in E a o cost ftol out w = (r, s) -> archive_trace l t (s_tr s).
Proof.
  intros A Hl Hsort H.
  assert (N : archive_trace l t []) by (split; [constructor|]; split; [cbn; lia|intros [|j] d; discriminate]).
  destruct (every_run_rule (op_cfg o) (hooks_of E o cost) ftol out (fun _ s1 => archive_state k l t s1) (archive_trace l t) (fun _ => archive_trace l t)
    (mkSt a (op_st o) w []) s r) as [Q|(wn & _ & Q)]; try exact Q; try exact H.
  - intros wn s0 s1 I [ps [Hps ->]]. unfold archive_state, elites in *. cbn [s_obj s_pm s_tr].
    rewrite selections_app, learns_app, gens_app, (gens_prints ps Hps), (learns_prints ps Hps), (selections_prints ps Hps), !app_nil_r. exact I.
  - intros b s1 w1 wn F _. eapply first_state; [exact A|exact F|]. exists []. split; [constructor|]. cbn [s_obj s_pm s_w s_tr]. rewrite app_nil_r. reflexivity.
  - intros b s1 F. destruct F. subst s1. cbn [s_tr]. apply trace_more; [apply gen_no_news|apply gen_no_news|exact N].
  - intros s1 [Q|g l0 Hg Hl0 Q|g rets vals Hg Hlen Hst Q]; rewrite Q; cbn [s_tr].
    + exact N.
    + destruct (calls_no_news _ _ Hl0) as [C1 C2]. apply (trace_more _ _ [] l0 C1 C2 N).
    + apply (trace_more _ _ [] _ (proj1 (gen_no_news g rets vals)) (proj2 (gen_no_news g rets vals)) N).
  - intros wn s0 b acc s1 _ I F. eapply step_state; try eassumption. exists []. split; [constructor|]. rewrite app_nil_r. destruct s1; reflexivity.
  - intros wn s0 I. eapply state_trace, I.
  - intros wn s0 s1 _ I F. pose proof (state_trace _ _ _ _ I) as T. assert (Hn : List.length (learns (s_tr s0)) = List.length (elites (s_tr s0))) by apply I.
    assert (C1 : forall gen' evals' elite' evel', selected (op_cfg o) (hooks_of E o cost) (s_obj s0) gen' evals' elite' evel' ->
      archive_trace l t (s_tr s0 ++ [EvSelect (combine (a_rows gen') evals') (combine (a_rows elite') evel')])).
    { intros gen' evals' elite' evel' Hs. destruct (selected_elite _ _ _ _ _ _ _ _ _ _ A Hsort I Hs) as (L1 & L2 & _). apply trace_select; assumption. }
    assert (C2 : forall gen' evals' elite' evel' noisy data p1, selected (op_cfg o) (hooks_of E o cost) (s_obj s0) gen' evals' elite' evel' -> h_data (hooks_of E o cost) noisy elite' (s_pm s0) = (Ok data, p1) ->
      archive_trace l t (s_tr s0 ++ [EvSelect (combine (a_rows gen') evals') (combine (a_rows elite') evel'); EvLearn data])).
    { intros gen' evals' elite' evel' noisy data p1 Hs Hd. destruct (selected_elite _ _ _ _ _ _ _ _ _ _ A Hsort I Hs) as (L1 & L2 & _).
      pose proof (data_archive _ _ _ _ _ _ _ _ _ _ _ _ _ A Hl Hsort I Hs Hd) as Hr. apply trace_learn; assumption. }
    destruct F as [Q|gen' evals' elite' evel' Hs Q|gen' evals' elite' evel' noisy data p1 Hs _ Hd Q
                   |gen' evals' elite' evel' noisy data p1 p2 w2 g w3 l0 Hs _ Hd _ _ Hl0 Q
                   |gen' evals' elite' evel' noisy data p1 p2 w2 g w3 rets vals Hs _ Hd _ _ _ _ Q]; rewrite Q.
    + exact T.
    + apply C1, Hs.
    + eapply C2; eassumption.
    + rewrite app_assoc. destruct (calls_no_news _ _ Hl0) as [N1 N2]. apply trace_more; [exact N1|exact N2|]. eapply C2; eassumption.
    + rewrite app_assoc. apply trace_more; [apply gen_no_news|apply gen_no_news|]. eapply C2; eassumption.
Qed.

Lemma archive_every A g (l : nat) (o : optimiser X) t cost a ftol out w r s :
  construct E A g = Ok o -> archive_l A = Some (PyI (Z.of_nat l)) -> 1 <= l ->
  (0 <= g_size_gen g <= 2 ^ 53)%Z -> factor (g_alpha g) -> int_times (g_size_gen g) (g_alpha g) = Ok t ->
  (forall d, g_init_data g = Some d -> a_dt d = DFloat /\ Z.to_nat t <= a_len d) ->
  samples_floats E (archive_class A) (g_size_gen g) -> argsort_ok (e_argsort E) ->
  run_in E a o cost ftol out w = (r, s) ->
  Forall (fun e => List.length e = Z.to_nat t) (elites (s_tr s)) /\
  List.length (learns (s_tr s)) <= List.length (elites (s_tr s)) <= S (List.length (learns (s_tr s))) /\
  forall k d, nth_error (learns (s_tr s)) k = Some d ->
    a_rows d = concat (lastn l (firstn (S k) (elites (s_tr s)))) /\ a_len d = Nat.min l (S k) * Z.to_nat t.
Proof.
  intros H Hl H1 Hs Ha Ht Hd Hx Ho Hr. destruct (archive_ready _ _ _ _ _ _ H Hl Hs Ha Ht Hd Hx) as [HS _].
  apply (archive_run_every _ _ _ _ _ _ _ _ _ _ _ HS H1 Ho) in Hr. destruct Hr as (R1 & R2 & R3).
  split; [exact R1|]. split; [exact R2|]. intros k d Hk. specialize (R3 k d Hk). split; [exact R3|]. unfold a_len. rewrite R3.
  rewrite (concat_length_const (Z.to_nat t)).
  - rewrite lastn_length, firstn_length. assert (k < List.length (learns (s_tr s))) by (apply nth_error_Some; congruence).
    f_equal. lia.
  - apply lastn_Forall. rewrite <- (firstn_skipn (S k)) in R1. apply Forall_app in R1. apply R1.
Qed.
End Every.
