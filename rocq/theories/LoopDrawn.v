(** Where the generations come from. *)
From Coq Require Import String List ZArith Bool Lia.
From Verif Require Import PyBase B64 NdArray Eda EdaInv Spec LoopObs LoopThms Select LoopTrain.
Import ListNotations.
Open Scope nat_scope.

Section Drawn.
Context {S W : Type}.
Variable c : cfg.
Variable h : hooks S W.

(** [trained p0 ds p]: training turned the model state [p0] into [p], on the data sets [ds], in
    that order. *)
Inductive trained (p0 : S) : list arr -> S -> Prop :=
| trained_not : trained p0 [] p0
| trained_more ds p gen elite d p1 w p2 w2 :
    trained p0 ds p -> h_data h gen elite p = (Ok d, p1) -> h_learn h d p1 w = (Ok tt, (p2, w2)) ->
    trained p0 (ds ++ [d]) p2.

(** A generation is the initial one, evaluated before any training, or a sample of the model
    trained on the data sets recorded so far; training takes place once per generation. *)
Definition drawn_ok (p0 : S) (tr : list ev) (e : ev) : Prop :=
  match e with
  | EvGen g _ _ =>
      List.length (gens tr) = List.length (learns tr) /\
      ((learns tr = [] /\ match c_init_data c with Some d => g = d | None => exists w w', h_init h w = (Ok g, w') end) \/
       (learns tr <> [] /\ exists p w w', trained p0 (learns tr) p /\ h_sample h p w = (Ok g, w')))
  | _ => True
  end.

Lemma learns_app (a b : list ev) : learns (a ++ b) = learns a ++ learns b.
Proof. unfold learns. apply flat_map_app. Qed.
Lemma gens_app (a b : list ev) : gens (a ++ b) = gens a ++ gens b.
Proof. unfold gens. apply flat_map_app. Qed.

Lemma prints_quiet (ps : list ev) : Forall is_print ps -> learns ps = [] /\ gens ps = [].
Proof.
  induction 1 as [|e ps He _ [IH1 IH2]]; [split; reflexivity|]. destruct e; try destruct He. split; assumption.
Qed.

(** Invariant: where the model stands, and what was recorded. *)
Definition drawn_inv (p0 : S) (s : st S W) : Prop :=
  trained p0 (learns (s_tr s)) (s_pm s) /\ List.length (gens (s_tr s)) = Datatypes.S (List.length (learns (s_tr s))) /\
  each_event (drawn_ok p0) (s_tr s).

Lemma drawn_printed p0 (s s' : st S W) : drawn_inv p0 s -> printed_after s s' -> drawn_inv p0 s'.
Proof.
  intros (A & B & C) H. split; [|split].
  - destruct H as (ps & Hps & ->). cbn [s_tr s_pm]. apply prints_quiet in Hps as [E _]. rewrite learns_app, E, app_nil_r. exact A.
  - destruct H as (ps & Hps & ->). cbn [s_tr]. apply prints_quiet in Hps as [E E']. rewrite learns_app, gens_app, E, E', !app_nil_r. exact B.
  - eapply printed_after_each; [|exact H|exact C]. intros; exact I.
Qed.

Lemma drawn_calls p0 tr rs vs : each_event (drawn_ok p0) tr -> each_event (drawn_ok p0) (tr ++ calls_of rs vs).
Proof.
  intros H. apply each_event_extend; [exact H|]. intros t e He. apply calls_of_only in He as (x & v & ->). exact I.
Qed.

Lemma drawn_first (s s1 : st S W) w1 b : s_tr s = [] -> first_facts c h s s1 b ->
  drawn_inv (s_pm s) (mkSt (s_obj s1) (s_pm s1) w1 (s_tr s1)).
Proof.
  intros Htr Hf. destruct Hf. subst s1. cbn [s_tr s_pm s_obj]. rewrite Htr. cbn [app].
  split; [|split]; cbn [s_tr s_pm].
  - rewrite learns_app, learns_calls_of. cbn. constructor.
  - rewrite gens_app, learns_app, gens_calls_of, learns_calls_of. reflexivity.
  - apply each_event_snoc; [apply (drawn_calls _ []), each_event_nil|]. cbn [drawn_ok].
    rewrite gens_calls_of, learns_calls_of. split; [reflexivity|]. left. split; [reflexivity|].
    destruct (c_init_data c); [apply ff_init|]. eauto.
Qed.

Lemma drawn_event p0 (s : st S W) sel data p1 w p2 w2 g w3 gen elite rs rets vals :
  drawn_inv p0 s -> (match sel with EvSelect _ _ => True | _ => False end) ->
  h_data h gen elite (s_pm s) = (Ok data, p1) -> h_learn h data p1 w = (Ok tt, (p2, w2)) -> h_sample h p2 w2 = (Ok g, w3) ->
  let tr' := s_tr s ++ [sel; EvLearn data] ++ calls_of rs rets ++ [EvGen g rets vals] in
  trained p0 (learns tr') p2 /\ List.length (gens tr') = Datatypes.S (List.length (learns tr')) /\ each_event (drawn_ok p0) tr'.
Proof.
  intros (A & B & C) Hsel Hd Hl Hs tr'. destruct sel as [| |t0 e0| |]; try contradiction.
  assert (T : trained p0 (learns (s_tr s) ++ [data]) p2) by (econstructor; eassumption).
  unfold tr'. split; [|split].
  - rewrite !learns_app, learns_calls_of. cbn. exact T.
  - rewrite !learns_app, !gens_app, learns_calls_of, gens_calls_of. cbn. rewrite !app_length, B. cbn. lia.
  - rewrite !app_assoc. apply each_event_snoc.
    + apply drawn_calls. apply each_event_extend; [exact C|]. intros t e [<-|[<-|[]]]; exact I.
    + cbn [drawn_ok]. rewrite !learns_app, !gens_app, learns_calls_of, gens_calls_of. cbn [learns gens flat_map app].
      rewrite !app_nil_r. rewrite app_length. cbn [List.length]. split; [rewrite B; lia|]. right.
      split; [destruct (learns (s_tr s)); discriminate|]. eauto.
Qed.

Lemma drawn_iter p0 ftol wn (s s1 : st S W) b acc : drawn_inv p0 s -> iter_facts c h ftol wn s s1 b acc -> drawn_inv p0 s1.
Proof. intros HI Hf. destruct Hf. subst s1. unfold drawn_inv. cbn [s_tr s_pm]. eapply drawn_event; try eassumption. exact I. Qed.

Lemma drawn_lemma ftol out (s : st S W) (r : result) (tr : list ev) :
  completes c h ftol out s r tr -> each_event (drawn_ok (s_pm s)) tr.
Proof.
  intros [Htr [s' [H <-]]].
  destruct (minimize_rule c h ftol out (fun _ _ s1 => drawn_inv (s_pm s) s1) s s' r) as (nb & sf & HI & Hp & _); [| |exact H|].
  - intros b s1 w1 s1' Hf Hp. eapply drawn_printed; [|exact Hp]. eapply drawn_first; eassumption.
  - intros wn hist nb s0 b acc s1 s1' _ HI _ _ Hf Hp. eapply drawn_printed; [|exact Hp]. eapply drawn_iter; eassumption.
  - destruct (drawn_printed _ _ _ HI Hp) as (_ & _ & X). exact X.
Qed.

(** The same by position. *)
Lemma nth_gen (tr : list ev) : forall k g vals, nth_error (gens tr) k = Some (g, vals) ->
  exists tr1 rets tr2, tr = tr1 ++ EvGen g rets vals :: tr2 /\ List.length (gens tr1) = k.
Proof.
  induction tr as [|e tr IH]; intros k g vals H; [destruct k; discriminate|].
  destruct e as [x v|g' rets' vals'|t e'|d|m]; unfold gens in H; cbn [flat_map app] in H; fold (gens tr) in H;
    try (destruct (IH _ _ _ H) as (tr1 & rets & tr2 & -> & Hk);
         match goal with |- exists _ _ _, ?e :: _ = _ /\ _ => exists (e :: tr1), rets, tr2 end; split; [reflexivity|exact Hk]).
  destruct k as [|k]; cbn [nth_error] in H.
  - assert (E : g' = g /\ vals' = vals) by (split; congruence). destruct E as [-> ->]. exists [], rets', tr. split; reflexivity.
  - destruct (IH _ _ _ H) as (tr1 & rets & tr2 & -> & Hk). exists (EvGen g' rets' vals' :: tr1), rets, tr2. split; [reflexivity|].
    unfold gens. cbn [flat_map app List.length]. fold (gens tr1). congruence.
Qed.

Lemma chain_of p0 (tr : list ev) : each_event (drawn_ok p0) tr ->
  forall k g vals, nth_error (gens tr) k = Some (g, vals) ->
  match k with
  | 0 => match c_init_data c with Some d => g = d | None => exists w w', h_init h w = (Ok g, w') end
  | Datatypes.S _ => List.length (firstn k (learns tr)) = k /\
      exists p w w', trained p0 (firstn k (learns tr)) p /\ h_sample h p w = (Ok g, w')
  end.
Proof.
  intros H k g vals Hk. apply nth_gen in Hk as (tr1 & rets & tr2 & E & Hk).
  destruct (H _ _ _ E) as [Hl Hd]. rewrite Hk in Hl.
  assert (F : firstn k (learns tr) = learns tr1).
  { rewrite E, learns_app, Hl, firstn_app, Nat.sub_diag, firstn_all, firstn_O, app_nil_r. reflexivity. }
  destruct k as [|k].
  - destruct Hd as [[_ Hi]|[Hne _]]; [exact Hi|]. destruct (learns tr1); [congruence|discriminate].
  - rewrite F. split; [congruence|]. destruct Hd as [[Hn _]|[_ Hd]]; [rewrite Hn in Hl; discriminate|exact Hd].
Qed.

Lemma chain_lemma ftol out (s : st S W) (r : result) (tr : list ev) :
  completes c h ftol out s r tr -> forall k g vals, nth_error (gens tr) k = Some (g, vals) ->
  match k with
  | 0 => match c_init_data c with Some d => g = d | None => exists w w', h_init h w = (Ok g, w') end
  | Datatypes.S _ => List.length (firstn k (learns tr)) = k /\
      exists p w w', trained (s_pm s) (firstn k (learns tr)) p /\ h_sample h p w = (Ok g, w')
  end.
Proof. intros H. apply chain_of. eapply drawn_lemma, H. Qed.

End Drawn.
