(** Selection, training, sampling and evaluation in every run, also the ones that raise. *)
From Coq Require Import String List ZArith Bool Lia.
From Verif Require Import PyBase B64 NdArray Eda EdaInv Spec LoopObs LoopThms Select LoopTrain LoopDrawn LoopMore SelectAny LoopFail.
Import ListNotations.
Open Scope nat_scope.

Lemma on_rows_call rs l e : Forall (on_rows rs) l -> In e l -> exists x v, e = EvCall x v.
Proof. intros H He. rewrite Forall_forall in H. destruct (H e He) as (x & v & -> & _). eauto. Qed.

(** A property of events that calls have for free. *)
Lemma each_on_rows (P : list ev -> ev -> Prop) tr rs l : (forall t x v, P t (EvCall x v)) ->
  each_event P tr -> Forall (on_rows rs) l -> each_event P (tr ++ l).
Proof. intros HP H Hl. apply each_event_extend; [exact H|]. intros t e He. destruct (on_rows_call _ _ _ Hl He) as (x & v & ->). apply HP. Qed.

Lemma each_calls (P : list ev -> ev -> Prop) tr rs vs : (forall t x v, P t (EvCall x v)) ->
  each_event P tr -> each_event P (tr ++ calls_of rs vs).
Proof. intros HP H. apply each_event_extend; [exact H|]. intros t e He. apply calls_of_only in He as (x & v & ->). apply HP. Qed.

Section Every.
Context {S W : Type}.
Variable c : cfg.
Variable h : hooks S W.

Local Notation st := (st S W).

(** ** Where the generations come from *)

Lemma drawn_every ftol out (s : st) r tr : executes c h ftol out s r tr -> each_event (drawn_ok c h (s_pm s)) tr.
Proof.
  intros (Htr & s' & H & <-). set (P := drawn_ok c h (s_pm s)).
  assert (HP : forall t x v, P t (EvCall x v)) by (intros; exact I).
  destruct (every_run_rule c h ftol out (fun _ s1 => drawn_inv c h (s_pm s) s1) (each_event P) (fun _ => each_event P) s s' r)
    as [X|(wn & _ & X)]; try exact X; try exact H.
  - intros wn s0 s1 HI Hp. eapply drawn_printed; eassumption.
  - intros b s1 w1 wn Hf _. eapply drawn_first; eassumption.
  - intros b s1 Hf. destruct (drawn_first c h s s1 (s_w s) b Htr Hf) as (_ & _ & X). exact X.
  - intros s1 [E|g l Hg Hl E|g rets vals Hg Hlen Hst E]; rewrite E, Htr; cbn [app].
    + apply each_event_nil.
    + eapply (each_on_rows P []); [exact HP|apply each_event_nil|exact Hl].
    + apply each_event_snoc; [apply (each_calls P []); [exact HP|apply each_event_nil]|]. cbn [P drawn_ok].
      unfold P, drawn_ok. rewrite gens_calls_of, learns_calls_of. split; [reflexivity|]. left. split; [reflexivity|]. exact Hg.
  - intros wn s0 b acc s1 _ HI Hf. eapply drawn_iter; eassumption.
  - intros wn s0 (_ & _ & X). exact X.
  - intros wn s0 s1 _ HI Hf. assert (C : each_event P (s_tr s0)) by apply HI.
    assert (C2 : forall t el d, each_event P (s_tr s0 ++ [EvSelect t el; EvLearn d])).
    { intros t el d. apply each_event_extend; [exact C|]. intros t0 e [<-|[<-|[]]]; exact I. }
    destruct Hf as [E|gen' evals' elite' evel' _ E|gen' evals' elite' evel' noisy data p1 _ _ _ E
                   |gen' evals' elite' evel' noisy data p1 p2 w2 g w3 l _ _ _ _ _ Hl E
                   |gen' evals' elite' evel' noisy data p1 p2 w2 g w3 rets vals _ _ Hd Hl Hs _ _ E]; rewrite E.
    + exact C.
    + apply each_event_snoc; [exact C|exact I].
    + apply C2.
    + rewrite app_assoc. eapply each_on_rows; [exact HP|apply C2|exact Hl].
    + eapply drawn_event; try eassumption. exact I.
Qed.

Lemma chain_every ftol out (s : st) r tr :
  executes c h ftol out s r tr -> forall k g vals, nth_error (gens tr) k = Some (g, vals) ->
  match k with
  | 0 => match c_init_data c with Some d => g = d | None => exists w w', h_init h w = (Ok g, w') end
  | Datatypes.S _ => List.length (firstn k (learns tr)) = k /\
      exists p w w', trained h (s_pm s) (firstn k (learns tr)) p /\ h_sample h p w = (Ok g, w')
  end.
Proof. intros H. apply chain_of. eapply drawn_every, H. Qed.

(** ** What was evaluated was called *)

(** An evaluated generation comes right after one call per row, in order, and carries the values
    returned. *)
Definition called_ok (tr : list ev) (e : ev) : Prop :=
  match e with
  | EvGen g rets vals => exists tr0, tr = tr0 ++ calls_of (a_rows g) rets /\
      List.length rets = List.length (a_rows g) /\ Stored rets vals
  | _ => True
  end.

Lemma called_gen tr g rets vals : each_event called_ok tr ->
  List.length rets = List.length (a_rows g) -> Stored rets vals ->
  each_event called_ok (tr ++ calls_of (a_rows g) rets ++ [EvGen g rets vals]).
Proof.
  intros H Hl Hs. rewrite app_assoc. apply each_event_snoc; [apply each_calls; [intros; exact I|exact H]|].
  exists tr. split; [reflexivity|]. split; assumption.
Qed.

Lemma called_every ftol out (s : st) r tr : executes c h ftol out s r tr -> each_event called_ok tr.
Proof.
  intros (Htr & s' & H & <-). assert (HP : forall t x v, called_ok t (EvCall x v)) by (intros; exact I).
  assert (C0 : each_event called_ok (s_tr s)) by (rewrite Htr; apply each_event_nil).
  assert (C1 : forall b s1, first_facts c h s s1 b -> each_event called_ok (s_tr s1)).
  { intros b s1 Hf. destruct Hf. subst s1. cbn [s_tr]. apply called_gen; assumption. }
  destruct (every_run_rule c h ftol out (fun _ s1 => each_event called_ok (s_tr s1)) (each_event called_ok) (fun _ => each_event called_ok) s s' r)
    as [X|(wn & _ & X)]; try exact X; try exact H.
  - intros wn s0 s1 HI Hp. eapply printed_after_each; [|exact Hp|exact HI]. intros; exact I.
  - intros b s1 w1 wn Hf _. exact (C1 b s1 Hf).
  - exact C1.
  - intros s1 [E|g l Hg Hl E|g rets vals Hg Hlen Hst E]; rewrite E.
    + exact C0.
    + eapply each_on_rows; eassumption.
    + apply called_gen; assumption.
  - intros wn s0 b acc s1 _ HI Hf. destruct Hf. subst s1. cbn [s_tr]. rewrite app_assoc. apply called_gen; try assumption.
    apply each_event_extend; [exact HI|]. intros t0 e [<-|[<-|[]]]; exact I.
  - intros wn s0 X. exact X.
  - intros wn s0 s1 _ C Hf.
    assert (C2 : forall t el d, each_event called_ok (s_tr s0 ++ [EvSelect t el; EvLearn d])).
    { intros t el d. apply each_event_extend; [exact C|]. intros t0 e [<-|[<-|[]]]; exact I. }
    destruct Hf as [E|gen' evals' elite' evel' _ E|gen' evals' elite' evel' noisy data p1 _ _ _ E
                   |gen' evals' elite' evel' noisy data p1 p2 w2 g w3 l _ _ _ _ _ Hl E
                   |gen' evals' elite' evel' noisy data p1 p2 w2 g w3 rets vals _ _ _ _ _ Hlen Hst E]; rewrite E.
    + exact C.
    + apply each_event_snoc; [exact C|exact I].
    + apply C2.
    + rewrite app_assoc. eapply each_on_rows; [exact HP|apply C2|exact Hl].
    + rewrite app_assoc. apply called_gen; [apply C2|assumption|assumption].
Qed.

Lemma calls_calls_of rs : forall vs, calls (calls_of rs vs) = combine rs vs.
Proof. induction rs as [|r rs IH]; intros [|v vs]; cbn; try reflexivity. f_equal. apply IH. Qed.

Lemma evaluated_every (tr : list ev) : each_event called_ok tr -> all_float_returns tr ->
  forall p, In p (evaluated tr) -> In (fst p, NF (snd p)) (calls tr).
Proof.
  intros H Hf p Hp. unfold evaluated in Hp. apply in_flat_map in Hp as ((g & vals) & Hg & Hp).
  apply In_nth_error in Hg as (k & Hk). apply nth_gen in Hk as (tr1 & rets & tr2 & E & _).
  destruct (H _ _ _ E) as (tr0 & E1 & Hl & Hs).
  assert (Hin : incl (combine (a_rows g) rets) (calls tr)).
  { intros q Hq. rewrite E, E1. unfold calls. rewrite !flat_map_app. apply in_or_app. left. apply in_or_app. right.
    fold (calls (calls_of (a_rows g) rets)). rewrite calls_calls_of. exact Hq. }
  assert (Hr : rets = map NF vals).
  { apply Stored_float; [exact Hs|]. unfold all_float_returns in Hf. rewrite Forall_forall in Hf. apply Forall_forall. intros v Hv.
    apply In_nth_error in Hv as (i & Hi). destruct (nth_error (a_rows g) i) as [x|] eqn:Hx.
    - apply (Hf (x, v)). apply Hin. eapply nth_error_In. apply nth_error_combine; eassumption.
    - apply nth_error_None in Hx. assert (i < List.length rets) by (apply nth_error_Some; congruence). lia. }
  apply Hin. rewrite Hr. unfold pairs in Hp. cbn [fst snd] in Hp. clear -Hp. revert vals Hp.
  induction (a_rows g) as [|x rs IH]; intros [|v vs] Hp; cbn in *; try contradiction.
  destruct Hp as [<-|Hp]; [left; reflexivity|right; apply IH, Hp].
Qed.

(** ** What the model is trained on *)

Lemma training_every ftol out (s : st) r tr :
  (forall g e p, h_data h g e p = (Ok g, p)) ->
  executes c h ftol out s r tr ->
  learns tr = [] \/ exists wn, noise_cfg c wn /\ each_event (trained_ok (noise_delta wn)) tr.
Proof.
  intros Hplain (Htr & s' & H & <-).
  assert (HP : forall d t x v, trained_ok d t (EvCall x v)) by (intros; exact I).
  assert (HP2 : forall d t g rets vals, trained_ok d t (EvGen g rets vals)) by (intros; exact I).
  assert (Hon : forall rs l, Forall (on_rows rs) l -> learns l = []).
  { intros rs l Hl. induction Hl as [|e l (x & v & -> & _) _ IH]; [reflexivity|exact IH]. }
  assert (Hgen : forall d tr0 g rets vals, each_event (trained_ok d) tr0 ->
    each_event (trained_ok d) (tr0 ++ calls_of (a_rows g) rets ++ [EvGen g rets vals])).
  { intros d tr0 g rets vals H0. rewrite app_assoc. apply each_event_snoc; [|exact I]. apply each_calls; [apply HP|exact H0]. }
  apply (every_run_rule c h ftol out (fun wn s1 => each_event (trained_ok (noise_delta wn)) (s_tr s1)) (fun tr => learns tr = [])
            (fun wn => each_event (trained_ok (noise_delta wn))) s s' r); try exact H.
  - intros wn s0 s1 HI Hp. eapply printed_after_each; [|exact Hp|exact HI]. intros; exact I.
  - intros b s1 w1 wn Hf _. destruct Hf. subst s1. cbn [s_tr]. apply Hgen. rewrite Htr. apply each_event_nil.
  - intros b s1 Hf. destruct Hf. subst s1. cbn [s_tr]. rewrite Htr, !learns_app, learns_calls_of. reflexivity.
  - intros s1 [E|g l Hg Hl E|g rets vals Hg Hlen Hst E]; rewrite E, Htr; cbn [app].
    + reflexivity.
    + eapply Hon, Hl.
    + rewrite learns_app, learns_calls_of. reflexivity.
  - intros wn s0 b acc s1 _ HI Hf. destruct Hf. subst s1. cbn [s_tr]. apply each_trained; [exact HI| |exact I|apply calls_gen_no_learn].
    exists (s_tr s0), (combine (a_rows if_gen') if_evals'), (combine (a_rows if_elite') if_evel').
    split; [reflexivity|]. rewrite map_fst_combine by (eapply selected_lengths; exact if_sel).
    rewrite Hplain in if_hdata. assert (Ed : if_data = if_noisy) by congruence. rewrite Ed. apply iadd_moved. exact if_iadd.
  - intros wn s0 X. exact X.
  - intros wn s0 s1 _ C Hf.
    assert (C2 : forall gen' evals' elite' evel' noisy data p1, selected c h (s_obj s0) gen' evals' elite' evel' -> iadd gen' wn = Ok noisy ->
      h_data h noisy elite' (s_pm s0) = (Ok data, p1) ->
      each_event (trained_ok (noise_delta wn)) (s_tr s0 ++ [EvSelect (combine (a_rows gen') evals') (combine (a_rows elite') evel'); EvLearn data])).
    { intros gen' evals' elite' evel' noisy data p1 Hsel Hi Hd.
      pose proof (each_trained (noise_delta wn) (s_tr s0) (EvSelect (combine (a_rows gen') evals') (combine (a_rows elite') evel')) data []) as X.
      apply X; [exact C| |exact I|intros e []].
      exists (s_tr s0), (combine (a_rows gen') evals'), (combine (a_rows elite') evel').
      split; [reflexivity|]. rewrite map_fst_combine by (eapply selected_lengths; exact Hsel).
      rewrite Hplain in Hd. assert (Ed : data = noisy) by congruence. rewrite Ed. apply iadd_moved. exact Hi. }
    destruct Hf as [E|gen' evals' elite' evel' _ E|gen' evals' elite' evel' noisy data p1 Hs Hi Hd E
                   |gen' evals' elite' evel' noisy data p1 p2 w2 g w3 l Hs Hi Hd _ _ Hl E
                   |gen' evals' elite' evel' noisy data p1 p2 w2 g w3 rets vals Hs Hi Hd _ _ Hlen Hst E]; rewrite E.
    + exact C.
    + apply each_event_snoc; [exact C|exact I].
    + eapply C2; eassumption.
    + rewrite app_assoc. eapply each_on_rows; [apply HP|eapply C2; eassumption|exact Hl].
    + rewrite app_assoc. apply Hgen. eapply C2; eassumption.
Qed.

(** ** Selection and elite *)

Hypothesis sort_ok : argsort_ok (h_argsort h).
Hypothesis trunc_ok : (0 <= c_trunc_len c)%Z.
Hypothesis elite_ok : (0 <= c_elite_len c)%Z.

Lemma selection_every ftol out (s : st) r tr : executes c h ftol out s r tr -> each_event (sel_any c) tr.
Proof.
  intros (Htr & s' & H & <-). set (P := sel_any c). assert (HP : forall t x v, P t (EvCall x v)) by (intros; exact I).
  assert (Hgen : forall tr0 g rets vals, each_event P tr0 -> each_event P (tr0 ++ calls_of (a_rows g) rets ++ [EvGen g rets vals])).
  { intros tr0 g rets vals H0. rewrite app_assoc. apply each_event_snoc; [|exact I]. apply each_calls; [apply HP|exact H0]. }
  assert (C0 : each_event P (s_tr s)) by (rewrite Htr; apply each_event_nil).
  destruct (every_run_rule c h ftol out (fun _ s1 => any_inv c s1) (each_event P) (fun _ => each_event P) s s' r)
    as [X|(wn & _ & X)]; try exact X; try exact H.
  - intros wn s0 s1 HI Hp. eapply any_inv_printed; eassumption.
  - intros b s1 w1 wn Hf _. eapply any_first; eassumption.
  - intros b s1 Hf. destruct Hf. subst s1. cbn [s_tr]. apply Hgen, C0.
  - intros s1 [E|g l Hg Hl E|g rets vals Hg Hlen Hst E]; rewrite E.
    + exact C0.
    + eapply each_on_rows; eassumption.
    + apply Hgen, C0.
  - intros wn s0 b acc s1 _ HI Hf. eapply any_iter; eassumption.
  - intros wn s0 HI. apply HI.
  - intros wn s0 s1 _ HI Hf. assert (C : each_event P (s_tr s0)) by apply HI.
    assert (C1 : forall gen' evals' elite' evel', selected c h (s_obj s0) gen' evals' elite' evel' ->
      each_event P (s_tr s0 ++ [EvSelect (combine (a_rows gen') evals') (combine (a_rows elite') evel')])).
    { intros gen' evals' elite' evel' Hs. apply each_event_snoc; [exact C|]. apply (any_step c h); assumption. }
    assert (C2 : forall gen' evals' elite' evel' d, selected c h (s_obj s0) gen' evals' elite' evel' ->
      each_event P (s_tr s0 ++ [EvSelect (combine (a_rows gen') evals') (combine (a_rows elite') evel'); EvLearn d])).
    { intros gen' evals' elite' evel' d Hs. pose proof (each_event_snoc P _ (EvLearn d) (C1 _ _ _ _ Hs) I) as X.
      rewrite <- app_assoc in X. exact X. }
    destruct Hf as [E|gen' evals' elite' evel' Hs E|gen' evals' elite' evel' noisy data p1 Hs _ _ E
                   |gen' evals' elite' evel' noisy data p1 p2 w2 g w3 l Hs _ _ _ _ Hl E
                   |gen' evals' elite' evel' noisy data p1 p2 w2 g w3 rets vals Hs _ _ _ _ _ _ E]; rewrite E.
    + exact C.
    + apply C1, Hs.
    + apply C2, Hs.
    + rewrite app_assoc. eapply each_on_rows; [exact HP|apply C2, Hs|exact Hl].
    + rewrite app_assoc. apply Hgen, C2, Hs.
Qed.

Lemma noise_free_every ftol out (s : st) r tr :
  executes c h ftol out s r tr -> all_float_returns tr ->
  each_event (fun before e => match e with
    | EvSelect train elite =>
        Forall (fun p => exists x, Forall2 cell_copy x (fst p) /\ In (x, NF (snd p)) (calls before)) elite
    | _ => True
    end) tr.
Proof.
  intros H Hf. pose proof (called_every _ _ _ _ _ H) as Hc. pose proof (selection_every _ _ _ _ _ H) as Hs.
  intros tr1 e tr2 Etr. specialize (Hs tr1 e tr2 Etr). destruct e; try exact I.
  destruct Hs as (_ & (el0 & _ & Hce & He) & _).
  assert (Hin1 : forall p, In p (evaluated tr1) -> In (fst p, NF (snd p)) (calls tr1)).
  { apply evaluated_every.
    - rewrite Etr in Hc. eapply each_event_prefix, Hc.
    - unfold all_float_returns in *. rewrite Etr in Hf. unfold calls in *. rewrite flat_map_app in Hf. apply Forall_app in Hf. apply Hf. }
  clear -Hce He Hin1. induction Hce as [|p q l l' [H1 H2] _ IH]; [constructor|].
  inversion He as [|? ? Hp He']; subst. constructor; [|apply IH, He'].
  exists (fst p). split; [exact H1|]. rewrite <- H2. apply Hin1, Hp.
Qed.

End Every.
