(** What the noise of a run is, and where the training data comes from. *)
From Coq Require Import List ZArith Bool Lia.
From Verif Require Import PyBase B64 NdArray Eda EdaInv Spec LoopObs LoopThms Select LoopTrain LoopDrawn.
Import ListNotations.
Open Scope nat_scope.

Section Noise.
Context {S W : Type}.
Variable c : cfg.
Variable h : hooks S W.

(** The matrix of the run is one the generator gave for the configured scale. *)
Definition noise_drawn (wn : noise) : Prop :=
  match wn with
  | NoiseMat _ _ d => exists w w', h_normal h (num_to_f (c_w_noise c)) w = (d, w')
  | _ => True
  end.

Lemma draw_noise_drawn (s s' : st S W) (wn : noise) : draw_noise c h s = (Ok wn, s') -> noise_drawn wn.
Proof.
  unfold draw_noise. intros H. destruct (py_eq_int _ _); [cbv [mret] in H; assert (wn = NoiseZero) by congruence; subst wn; exact I|].
  destruct (py_eq_int _ _); [cbv [mret] in H; assert (wn = NoiseStr) by congruence; subst wn; exact I|].
  destruct (_ || _)%bool; [discriminate|]. cbv [mbind mret] in H.
  destruct (h_normal h (num_to_f (c_w_noise c)) (s_w s)) as [d w'] eqn:E.
  assert (E' : wn = NoiseMat (Z.to_nat (c_trunc_len c)) (Z.to_nat (c_nvars c)) d) by congruence. subst wn.
  exists (s_w s), w'. exact E.
Qed.

Lemma training_noise ftol out (s : st S W) (r : result) (tr : list ev) :
  (forall g e p, h_data h g e p = (Ok g, p)) ->
  completes c h ftol out s r tr ->
  exists wn, noise_cfg c wn /\ noise_drawn wn /\ each_event (trained_ok (noise_delta wn)) tr.
Proof.
  intros Hplain [Htr [s' [H <-]]]. unfold minimize in H.
  apply mbind_ok in H as (b0 & s1 & H1 & H). apply first_generation_inv in H1.
  apply mbind_ok in H as (wn & s2 & H2 & H). pose proof (draw_noise_drawn _ _ _ H2) as Hd. apply draw_noise_inv in H2 as [Hwn [w2 Hs2]].
  apply mbind_ok in H as (u & s3 & H3 & H). apply print_if_inv in H3 as [_ H3].
  apply mbind_ok in H as (hist & s4 & H4 & H).
  apply mbind_ok in H as (u2 & s5 & H5 & H). apply print_if_inv in H5 as [_ H5].
  apply mbind_ok in H as (o & s6 & H6 & H). apply get_obj_ok in H6 as [-> ->].
  apply mret_ok in H as [Hr ->]. exists wn. split; [exact Hwn|]. split; [exact Hd|].
  eapply printed_after_each; [|exact H5|]; [intros; exact I|].
  eapply training_loop; [exact Hplain|exact H4|].
  eapply printed_after_each; [|exact H3|]; [intros; exact I|]. subst s2. cbn.
  destruct H1. subst s1. cbn. rewrite Htr. apply (each_event_extend _ []); [apply each_event_nil|].
  intros t e He. apply calls_gen_no_learn in He. destruct e; try exact I. contradiction.
Qed.

(** Every generation of a completed run has individuals. *)
Lemma gens_inhabited ftol out (s : st S W) (r : result) (tr : list ev) :
  completes c h ftol out s r tr -> Forall (fun gv => pairs gv <> []) (gens tr).
Proof.
  intros H. destruct (completes_rule c h ftol out (fun _ _ s0 => Forall (fun gv => pairs gv <> []) (gens (s_tr s0))) s r tr)
    as (nb & sf & HI & <- & _); try assumption.
  - intros s0 sp Hp _ _ HI. rewrite (printed_gens _ _ Hp). exact HI.
  - intros b s1 w1 s1' Htr Hf Hp. rewrite (printed_gens _ _ Hp). destruct Hf. subst s1. cbn [s_tr]. rewrite Htr.
    cbn [app]. rewrite gens_app, gens_calls_of. cbn. constructor; [|constructor].
    unfold pairs. cbn [fst snd]. rewrite ff_rows_eq, ff_vals_eq. discriminate.
  - intros wn hist nb' s0 b acc s1 s1' _ HI _ _ Hf Hp. rewrite (printed_gens _ _ Hp). destruct Hf. subst s1. cbn [s_tr].
    rewrite !gens_app, gens_calls_of. cbn. apply Forall_app. split; [exact HI|]. constructor; [|constructor].
    apply combine_nonempty; [|exact if_nonempty]. cbn [fst snd]. rewrite (Stored_length _ _ if_stored). symmetry. exact if_len.
Qed.

(** The k-th data set is learned after exactly k + 1 generations. *)
Lemma nth_learn (tr : list ev) : forall k d, nth_error (learns tr) k = Some d ->
  exists tr1 tr2, tr = tr1 ++ EvLearn d :: tr2 /\ List.length (learns tr1) = k.
Proof.
  induction tr as [|e tr IH]; intros k d H; [destruct k; discriminate|].
  destruct e as [x v|g' rets' vals'|t e'|d'|m]; unfold learns in H; cbn [flat_map app] in H; fold (learns tr) in H;
    try (destruct (IH _ _ H) as (tr1 & tr2 & -> & Hk);
         match goal with |- exists _ _, ?e :: _ = _ /\ _ => exists (e :: tr1), tr2 end; split; [reflexivity|exact Hk]).
  destruct k as [|k]; cbn [nth_error] in H.
  - assert (E : d' = d) by congruence. subst d'. exists [], tr. split; reflexivity.
  - destruct (IH _ _ H) as (tr1 & tr2 & -> & Hk). exists (EvLearn d' :: tr1), tr2. split; [reflexivity|].
    unfold learns. cbn [flat_map app List.length]. fold (learns tr1). congruence.
Qed.

Lemma learned_after ftol out (s : st S W) (r : result) (tr tr1 tr2 : list ev) d :
  completes c h ftol out s r tr -> tr = tr1 ++ EvLearn d :: tr2 -> List.length (gens tr1) <= Datatypes.S (List.length (learns tr1)).
Proof.
  intros H E. apply drawn_lemma in H. destruct (Nat.le_gt_cases (List.length (gens tr1)) (Datatypes.S (List.length (learns tr1)))) as [Hle|Hgt]; [exact Hle|exfalso].
  destruct (nth_error (gens tr1) (Datatypes.S (List.length (learns tr1)))) as [[g vals]|] eqn:Hk; [|apply nth_error_None in Hk; lia].
  apply nth_gen in Hk as (a & rets & b & Ea & Hk). subst tr1. rewrite <- app_assoc in E. cbn [app] in E.
  destruct (H _ _ _ E) as [Hl _]. rewrite Hk, learns_app in Hl. rewrite app_length in Hl. lia.
Qed.

End Noise.
