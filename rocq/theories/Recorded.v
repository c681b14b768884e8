(** What is recorded for a cost, for cost functions that mix integers and floats. *)
From Coq Require Import String List ZArith Bool Lia.
From Verif Require Import PyBase B64 NdArray Eda EdaInv Spec LoopObs LoopThms Select LoopTrain LoopDrawn LoopMore SelectAny LoopFail FailThms.
Import ListNotations.

(** [y] is recorded for the cost [v]: the same number, or a float cut to an integer where some call
    (of [cs]) has returned an integer. *)
Definition kept_as (cs : list (row * num)) (v : num) (y : f64) : Prop :=
  match v with
  | NI z => y = Z2f z
  | NF x => y = x \/ ((exists r z, In (r, NI z) cs) /\ y = Z2f (float_to_int64 x))
  end.

Lemma f2_impl {A B} (P Q : A -> B -> Prop) l l' : (forall x y, P x y -> Q x y) -> Forall2 P l l' -> Forall2 Q l l'.
Proof. intros H F. induction F; constructor; auto. Qed.
Lemma f2_right {A B} (P : A -> B -> Prop) l l' i y : Forall2 P l l' -> nth_error l' i = Some y -> exists x, nth_error l i = Some x /\ P x y.
Proof.
  intros F. revert i. induction F as [|a b l l' Hab _ IH]; intros [|i] Hi; cbn in Hi; try discriminate; [|apply IH, Hi].
  exists a. split; [reflexivity|]. assert (b = y) by congruence. subst. exact Hab.
Qed.

Lemma kept_as_incl cs cs' v y : incl cs cs' -> kept_as cs v y -> kept_as cs' v y.
Proof. intros H. destruct v; cbn; [tauto|]. intros [->|((r & z & Hz) & ->)]; [left; reflexivity|right]. split; [exists r, z; apply H, Hz|reflexivity]. Qed.

Lemma stored_any rets vals : Stored rets vals -> Forall2 (fun v y => match v with NI z => y = Z2f z | NF x => y = x \/ ((exists z, In (NI z) rets) /\ y = Z2f (float_to_int64 x)) end) rets vals.
Proof.
  intros [chs [-> ->]]. assert (H : forall chs', incl (concat chs') (concat chs) -> Forall2 (fun v y => match v with NI z => y = Z2f z | NF x => y = x \/ ((exists z, In (NI z) (concat chs)) /\ y = Z2f (float_to_int64 x)) end) (concat chs') (concat (map store_all chs'))).
  { induction chs' as [|ch chs' IH]; intros Hi; [constructor|]. cbn [concat map]. apply Forall2_app; [|apply IH; intros y Hy; apply Hi; cbn; apply in_or_app; right; exact Hy].
    destruct ch as [|v0 ch]; [constructor|]. unfold store_all.
    assert (H0 : In v0 (concat chs)) by (apply Hi; left; reflexivity). revert H0. generalize (v0 :: ch). clear. intros l H0. induction l as [|v l IH]; cbn [map]; constructor; [|exact IH].
    destruct v as [z|x], v0 as [z0|x0]; cbn; try reflexivity; [right; split; [exists z0; exact H0|reflexivity]|left; reflexivity]. }
  apply H, incl_refl.
Qed.

Lemma pairs_kept cs (rs : list row) rets vals : List.length rets = List.length rs -> incl (combine rs rets) cs -> Stored rets vals ->
  Forall2 (fun cl p => fst cl = fst p /\ kept_as cs (snd cl) (snd p)) (combine rs rets) (combine rs vals).
Proof.
  intros Hl Hi Hs. apply stored_any in Hs.
  assert (H : Forall2 (kept_as cs) rets vals).
  { eapply f2_impl; [|exact Hs]. intros v y Hv. destruct v; cbn in *; [exact Hv|]. destruct Hv as [->|((z & Hz) & ->)]; [left; reflexivity|right]. split; [|reflexivity].
    apply In_nth_error in Hz as [i Hz]. destruct (nth_error rs i) as [r|] eqn:Er.
    - exists r, z. apply Hi. eapply nth_error_In. apply nth_error_combine; eassumption.
    - apply nth_error_None in Er. assert (i < List.length rets) by (apply nth_error_Some; congruence). lia. }
  clear -H Hl. revert rs Hl. induction H as [|v y rets vals Hv _ IH]; intros [|r rs] Hl; cbn in *; try discriminate; constructor; [split; [reflexivity|exact Hv]|]. apply IH. lia.
Qed.

Lemma evaluated_kept (tr : list ev) : each_event called_ok tr ->
  forall p, In p (evaluated tr) -> exists v, In (fst p, v) (calls tr) /\ kept_as (calls tr) v (snd p).
Proof.
  intros H p Hp. unfold evaluated in Hp. apply in_flat_map in Hp as ((g & vals) & Hg & Hp).
  apply In_nth_error in Hg as (k & Hk). apply nth_gen in Hk as (tr1 & rets & tr2 & E & _).
  destruct (H _ _ _ E) as (tr0 & E1 & Hl & Hs).
  assert (Hin : incl (combine (a_rows g) rets) (calls tr)).
  { intros q Hq. rewrite E, E1. unfold calls. rewrite !flat_map_app. apply in_or_app. left. apply in_or_app. right.
    fold (calls (calls_of (a_rows g) rets)). rewrite calls_calls_of. exact Hq. }
  pose proof (pairs_kept _ _ _ _ Hl Hin Hs) as F. unfold pairs in Hp. cbn [fst snd] in Hp.
  apply In_nth_error in Hp as [i Hi]. destruct (f2_right _ _ _ _ _ F Hi) as ([r' v'] & Hr & Hr1 & Hr2). cbn [fst snd] in *.
  exists v'. split; [|exact Hr2]. rewrite <- Hr1. apply Hin. eapply nth_error_In, Hr.
Qed.

Section Recorded.
Context {S W : Type}.
Variable c : cfg.
Variable h : hooks S W.

Lemma recorded_any ftol out s r tr : completes c h ftol out s r tr ->
  Forall2 (fun cl p => fst cl = fst p /\ kept_as (calls tr) (snd cl) (snd p)) (calls tr) (evaluated tr).
Proof.
  intros H. destruct (calls_lemma _ _ _ _ _ _ _ H) as [Hc Hf].
  assert (G : forall cs, incl (calls tr) cs -> Forall2 (fun cl p => fst cl = fst p /\ kept_as cs (snd cl) (snd p)) (calls tr) (evaluated tr)); [|apply G, incl_refl].
  intros cs Hi. rewrite Hc in *. clear Hc. unfold evaluated.
  induction Hf as [|gv rets gs rs (H1 & H2 & H3) _ IH]; cbn in *; [constructor|]. apply Forall2_app.
  - apply pairs_kept; [exact H1| |exact H3]. intros y Hy. apply Hi, in_or_app. left. exact Hy.
  - apply IH. intros y Hy. apply Hi, in_or_app. right. exact Hy.
Qed.

Hypothesis sort_ok : argsort_ok (h_argsort h).
Hypothesis trunc_ok : (0 <= c_trunc_len c)%Z.
Hypothesis elite_ok : (0 <= c_elite_len c)%Z.

Lemma elite_recorded ftol out s r tr : executes c h ftol out s r tr ->
  each_event (fun before e => match e with
    | EvSelect train elite =>
        Forall (fun p => exists x v, Forall2 cell_copy x (fst p) /\ In (x, v) (calls before) /\ kept_as (calls before) v (snd p)) elite
    | _ => True
    end) tr.
Proof.
  intros H. pose proof (called_every _ _ _ _ _ _ _ H) as Hc. pose proof (selection_every _ _ sort_ok trunc_ok elite_ok _ _ _ _ _ H) as Hs.
  intros tr1 e tr2 Etr. specialize (Hs tr1 e tr2 Etr). destruct e; try exact I.
  destruct Hs as (_ & (el0 & _ & Hce & He) & _).
  assert (Hin1 : forall p, In p (evaluated tr1) -> exists v, In (fst p, v) (calls tr1) /\ kept_as (calls tr1) v (snd p)).
  { apply evaluated_kept. rewrite Etr in Hc. eapply each_event_prefix, Hc. }
  clear -Hce He Hin1. induction Hce as [|p q l l' [H1 H2] _ IH]; [constructor|].
  inversion He as [|? ? Hp He']; subst. constructor; [|apply IH, He'].
  destruct (Hin1 p Hp) as (v & Hv & Hk). exists (fst p), v. split; [exact H1|]. rewrite <- H2. split; [exact Hv|exact Hk].
Qed.

Lemma best_recorded ftol out s r tr : completes c h ftol out s r tr ->
  match r_best_ind r with
  | BRow x => exists v y, In (x, v) (calls tr) /\ kept_as (calls tr) v y /\ feq y (r_best_cost r) = true
  | BIdx _ => True
  end.
Proof.
  intros H. pose proof (best_ind_lemma c h ftol out s r tr H) as Hb. destruct (r_best_ind r) as [i|x]; [exact I|].
  destruct Hb as [(y & Hy & He) _]. pose proof (recorded_any _ _ _ _ _ H) as F. apply In_nth_error in Hy as [i Hi].
  destruct (f2_right _ _ _ _ _ F Hi) as ([x' v] & Hx & Hx1 & Hx2). cbn [fst snd] in *. subst x'. exists v, y. split; [eapply nth_error_In, Hx|]. split; [exact Hx2|exact He].
Qed.
End Recorded.
