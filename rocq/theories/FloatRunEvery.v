(** Noise, training data and finiteness in every run, also the ones that raise. *)
From Coq Require Import String List ZArith Bool Lia Reals Lra Permutation.
From Flocq Require Import Core IEEE754.BinarySingleNaN.
From Verif Require Import PyBase B64 B64More NdArray Eda EdaInv Spec TopK LoopObs LoopThms Select SelectAny LoopTrain LoopDrawn LoopNoise LoopFail FailThms Rand RandThms
  Models ModelThms Sign CatThms Trunc Inits InitThms Stock StockInv StockGauss StockAll StockPrior StockFinal DrawnStock FloatSum FloatMean FloatRun FloatStart.
Import ListNotations.
Open Scope nat_scope.

Section Loop.
Context {S W : Type}.
Variable c : cfg.
Variable h : hooks S W.

Local Notation st := (st S W).

(** [every_run_rule] with the noise known to come from the generator. *)
Lemma every_run_drawn ftol out (I : noise -> st -> Prop) (Q0 : list ev -> Prop) (Q : noise -> list ev -> Prop) (s s' : st) r :
  (forall wn s s', I wn s -> printed_after s s' -> I wn s') ->
  (forall b s1 w1 wn, first_facts c h s s1 b -> noise_cfg c wn -> I wn (mkSt (s_obj s1) (s_pm s1) w1 (s_tr s1))) ->
  (forall b s1, first_facts c h s s1 b -> Q0 (s_tr s1)) ->
  (forall s1, first_fail c h s s1 -> Q0 (s_tr s1)) ->
  (forall wn s0 b acc s1, noise_cfg c wn -> I wn s0 -> iter_facts c h ftol wn s0 s1 b acc -> I wn s1) ->
  (forall wn s0, I wn s0 -> Q wn (s_tr s0)) ->
  (forall wn s0 s1, noise_cfg c wn -> I wn s0 -> iter_fail c h wn s0 s1 -> Q wn (s_tr s1)) ->
  minimize c h ftol out s = (r, s') ->
  Q0 (s_tr s') \/ exists wn, noise_cfg c wn /\ noise_drawn c h wn /\ Q wn (s_tr s').
Proof.
  intros Hprint Hfirst Hf0 Hff Hstep HQ HQf H. destruct r as [r|e].
  - right. unfold minimize in H.
    apply mbind_ok in H as (b0 & s1 & H1 & H). apply first_generation_inv in H1.
    apply mbind_ok in H as (wn & s2 & H2 & H). pose proof (draw_noise_drawn c h _ _ _ H2) as Hd. apply draw_noise_inv in H2 as [Hwn [w2 Hs2]].
    apply mbind_ok in H as (u & s3 & H3 & H). apply print_if_inv in H3 as [_ H3].
    apply mbind_ok in H as (hist & s4 & H4 & H).
    apply mbind_ok in H as (u2 & s5 & H5 & H). apply print_if_inv in H5 as [_ H5].
    apply mbind_ok in H as (o & s6 & H6 & H). apply get_obj_ok in H6 as [-> ->].
    apply mret_ok in H as [_ ->]. exists wn. split; [exact Hwn|]. split; [exact Hd|]. apply HQ.
    assert (HI : I wn s3) by (eapply Hprint; [eapply Hfirst; eassumption|rewrite Hs2 in H3; exact H3]).
    destruct (loop_rule c h ftol out wn (fun _ _ s => I wn s)) with (3 := Z.le_refl 0) (5 := H4) as [nb [HI' _]].
    + intros hist0 nb0 t b acc t' t'' Ht _ _ Hit Hp. eapply Hprint; [|exact Hp]. eapply Hstep; eassumption.
    + exact HI.
    + left; reflexivity.
    + eapply Hprint; [exact HI'|exact H5].
  - unfold minimize in H.
    apply mbind_raise in H as [H|(b0 & s1 & H1 & H)]; [left; apply Hff; eapply (first_generation_fail c h), H|].
    apply first_generation_inv in H1.
    apply mbind_raise in H as [H|(wn & s2 & H2 & H)]; [left; apply (draw_noise_fail c h) in H as ->; eapply Hf0, H1|].
    pose proof (draw_noise_drawn c h _ _ _ H2) as Hd. apply draw_noise_inv in H2 as [Hwn [w2 Hs2]].
    apply mbind_raise in H as [H|(u & s3 & H3 & H)]; [apply print_if_inv in H as [? _]; discriminate|].
    apply print_if_inv in H3 as [_ H3].
    assert (HI : I wn s3) by (eapply Hprint; [eapply Hfirst; eassumption|rewrite Hs2 in H3; exact H3]).
    apply mbind_raise in H as [H|(hist & s4 & H4 & H)].
    + right. exists wn. split; [exact Hwn|]. split; [exact Hd|].
      destruct (loop_fail_rule c h ftol out wn (I wn)) with (4 := H) as (s0 & HI0 & Hs0); [apply Hprint| |exact HI|eapply HQf; eassumption].
      intros s0 b acc s0' HI0 Hit. eapply Hstep; eassumption.
    + apply mbind_raise in H as [H|(u2 & s5 & H5 & H)]; [apply print_if_inv in H as [? _]; discriminate|]. discriminate.
Qed.

Lemma training_drawn_every ftol out (s : st) r tr :
  (forall g e p, h_data h g e p = (Ok g, p)) ->
  executes c h ftol out s r tr ->
  learns tr = [] \/ exists wn, noise_cfg c wn /\ noise_drawn c h wn /\ each_event (trained_ok (noise_delta wn)) tr.
Proof.
  intros Hplain (Htr & s' & H & <-).
  assert (HP : forall d t x v, trained_ok d t (EvCall x v)) by (intros; exact I).
  assert (HP2 : forall d t g rets vals, trained_ok d t (EvGen g rets vals)) by (intros; exact I).
  assert (Hon : forall rs l, Forall (on_rows rs) l -> learns l = []).
  { intros rs l Hl. induction Hl as [|e l (x & v & -> & _) _ IH]; [reflexivity|exact IH]. }
  assert (Hgen : forall d tr0 g rets vals, each_event (trained_ok d) tr0 ->
    each_event (trained_ok d) (tr0 ++ calls_of (a_rows g) rets ++ [EvGen g rets vals])).
  { intros d tr0 g rets vals H0. rewrite app_assoc. apply each_event_snoc; [|exact I]. apply each_calls; [apply HP|exact H0]. }
  apply (every_run_drawn ftol out (fun wn s1 => each_event (trained_ok (noise_delta wn)) (s_tr s1)) (fun tr => learns tr = [])
            (fun wn => each_event (trained_ok (noise_delta wn))) s s' r); try exact H.
  - intros wn s0 s1 HI Hp. eapply printed_after_each; [|exact Hp|exact HI]. intros; exact I.
  - intros b s1 w1 wn Hf _. destruct Hf. subst s1. cbn [s_tr]. apply Hgen. rewrite Htr. apply each_event_nil.
  - intros b s1 Hf. destruct Hf. subst s1. cbn [s_tr]. rewrite Htr, !learns_app, learns_calls_of. reflexivity.
  - intros s1 [E|g l Hg Hl E|g rets vals Hg Hlen Hst E]; rewrite E, Htr; cbn [app].
    + reflexivity.
    + eapply Hon, Hl.
    + rewrite learns_app, learns_calls_of. reflexivity.
  - intros wn s0 b acc s1 _ HI Hf. destruct Hf. subst s1. cbn [s_tr]. apply each_trained; [exact HI| |exact I|apply calls_gen_no_learn].
    exists (s_tr s0), (combine (a_rows if_gen') if_evals'), (combine (a_rows if_elite') if_evel').
    split; [reflexivity|]. rewrite map_fst_combine by (eapply selected_lengths; exact if_sel).
    rewrite Hplain in if_hdata. assert (Ed : if_data = if_noisy) by congruence. rewrite Ed. apply iadd_moved. exact if_iadd.
  - intros wn s0 X. exact X.
  - intros wn s0 s1 _ C Hf.
    assert (C2 : forall gen' evals' elite' evel' noisy data p1, selected c h (s_obj s0) gen' evals' elite' evel' -> iadd gen' wn = Ok noisy ->
      h_data h noisy elite' (s_pm s0) = (Ok data, p1) ->
      each_event (trained_ok (noise_delta wn)) (s_tr s0 ++ [EvSelect (combine (a_rows gen') evals') (combine (a_rows elite') evel'); EvLearn data])).
    { intros gen' evals' elite' evel' noisy data p1 Hsel Hi Hd.
      pose proof (each_trained (noise_delta wn) (s_tr s0) (EvSelect (combine (a_rows gen') evals') (combine (a_rows elite') evel')) data []) as X.
      apply X; [exact C| |exact I|intros e []].
      exists (s_tr s0), (combine (a_rows gen') evals'), (combine (a_rows elite') evel').
      split; [reflexivity|]. rewrite map_fst_combine by (eapply selected_lengths; exact Hsel).
      rewrite Hplain in Hd. assert (Ed : data = noisy) by congruence. rewrite Ed. apply iadd_moved. exact Hi. }
    destruct Hf as [E|gen' evals' elite' evel' _ E|gen' evals' elite' evel' noisy data p1 Hs Hi Hd E
                   |gen' evals' elite' evel' noisy data p1 p2 w2 g w3 l Hs Hi Hd _ _ Hl E
                   |gen' evals' elite' evel' noisy data p1 p2 w2 g w3 rets vals Hs Hi Hd _ _ Hlen Hst E]; rewrite E.
    + exact C.
    + apply each_event_snoc; [exact C|exact I].
    + eapply C2; eassumption.
    + rewrite app_assoc. eapply each_on_rows; [apply HP|eapply C2; eassumption|exact Hl].
    + rewrite app_assoc. apply Hgen. eapply C2; eassumption.
Qed.

Section Chosen.
Hypothesis Hsort : argsort_ok (h_argsort h).
Hypothesis HT : (1 <= c_trunc_len c)%Z.
Hypothesis HE : (0 <= c_elite_len c)%Z.

Definition chosen_some (_ : list ev) (e : ev) : Prop := match e with EvSelect t _ => t <> [] | _ => True end.

Lemma chosen_step (s : st) gen' evals' elite' evel' : any_inv c s -> selected c h (s_obj s) gen' evals' elite' evel' ->
  combine (a_rows gen') evals' <> [].
Proof.
  intros HI Hsel. destruct (any_step c h Hsort ltac:(lia) HE s gen' evals' elite' evel' HI Hsel) as (((gv & t0 & el0 & Hl & (rest & _ & _ & _ & Hlen) & Hc & _) & _) & _).
  destruct HI as (L1 & _ & Hne & _ & (prev & e0 & Hg & _) & _).
  unfold latest in Hl. rewrite Hg, map_app in Hl. cbn [map] in Hl. rewrite last_last in Hl. assert (Egv : gv = (o_gen (s_obj s), o_evals (s_obj s))) by congruence. subst gv.
  assert (Hpn : pairs (o_gen (s_obj s), o_evals (s_obj s)) <> []) by (apply combine_nonempty; assumption).
  intros E. rewrite E in Hc. inversion Hc; subst t0. cbn [List.length] in Hlen. rewrite app_length in Hlen.
  destruct (pairs (o_gen (s_obj s), o_evals (s_obj s))); [congruence|]. cbn [List.length] in Hlen. lia.
Qed.

Lemma chosen_every ftol out (s : st) r tr : executes c h ftol out s r tr -> each_event chosen_some tr.
Proof.
  intros (Htr & s' & H & <-). set (P := chosen_some). assert (HP : forall t x v, P t (EvCall x v)) by (intros; exact I).
  assert (Hgen : forall tr0 g rets vals, each_event P tr0 -> each_event P (tr0 ++ calls_of (a_rows g) rets ++ [EvGen g rets vals])).
  { intros tr0 g rets vals H0. rewrite app_assoc. apply each_event_snoc; [|exact I]. apply each_calls; [apply HP|exact H0]. }
  assert (C0 : each_event P (s_tr s)) by (rewrite Htr; apply each_event_nil).
  destruct (every_run_rule c h ftol out (fun _ s1 => any_inv c s1 /\ each_event P (s_tr s1)) (each_event P) (fun _ => each_event P) s s' r)
    as [X|(wn & _ & X)]; try exact X; try exact H.
  - intros wn s0 s1 [HI HJ] Hp. split; [eapply any_inv_printed; eassumption|]. eapply printed_after_each; [|exact Hp|exact HJ]. intros; exact I.
  - intros b s1 w1 wn Hf _. split; [eapply any_first; eassumption|]. destruct Hf. subst s1. cbn [s_tr]. apply Hgen, C0.
  - intros b s1 Hf. destruct Hf. subst s1. cbn [s_tr]. apply Hgen, C0.
  - intros s1 [E|g l Hg Hl E|g rets vals Hg Hlen Hst E]; rewrite E.
    + exact C0.
    + eapply each_on_rows; eassumption.
    + apply Hgen, C0.
  - intros wn s0 b acc s1 _ [HI HJ] Hf. split; [eapply (any_iter c h); try eassumption; lia|]. destruct Hf. subst s1. cbn [s_tr].
    match goal with |- each_event P (_ ++ [?x; ?y] ++ _) => change [x; y] with ([x] ++ [y]) end. rewrite app_assoc. rewrite (app_assoc (s_tr s0)). apply Hgen.
    apply each_event_snoc; [|exact I]. apply each_event_snoc; [exact HJ|]. eapply chosen_step; eassumption.
  - intros wn s0 HI. apply HI.
  - intros wn s0 s1 _ HI Hf. destruct HI as [HI C].
    assert (C1 : forall gen' evals' elite' evel', selected c h (s_obj s0) gen' evals' elite' evel' ->
      each_event P (s_tr s0 ++ [EvSelect (combine (a_rows gen') evals') (combine (a_rows elite') evel')])).
    { intros gen' evals' elite' evel' Hs. apply each_event_snoc; [exact C|]. eapply chosen_step; eassumption. }
    assert (C2 : forall gen' evals' elite' evel' d, selected c h (s_obj s0) gen' evals' elite' evel' ->
      each_event P (s_tr s0 ++ [EvSelect (combine (a_rows gen') evals') (combine (a_rows elite') evel'); EvLearn d])).
    { intros gen' evals' elite' evel' d Hs. pose proof (each_event_snoc P _ (EvLearn d) (C1 _ _ _ _ Hs) I) as X.
      rewrite <- app_assoc in X. exact X. }
    destruct Hf as [E|gen' evals' elite' evel' Hs E|gen' evals' elite' evel' noisy data p1 Hs _ _ E
                   |gen' evals' elite' evel' noisy data p1 p2 w2 g w3 l Hs _ _ _ _ Hl E
                   |gen' evals' elite' evel' noisy data p1 p2 w2 g w3 rets vals Hs _ _ _ _ _ _ E]; rewrite E.
    + exact C.
    + apply C1, Hs.
    + apply C2, Hs.
    + rewrite app_assoc. eapply each_on_rows; [exact HP|apply C2, Hs|exact Hl].
    + rewrite app_assoc. apply Hgen, C2, Hs.
Qed.

End Chosen.

Lemma learned_after_every ftol out (s : st) r (tr tr1 tr2 : list ev) d :
  executes c h ftol out s r tr -> tr = tr1 ++ EvLearn d :: tr2 -> List.length (gens tr1) <= Datatypes.S (List.length (learns tr1)).
Proof.
  intros H E. apply drawn_every in H. destruct (Nat.le_gt_cases (List.length (gens tr1)) (Datatypes.S (List.length (learns tr1)))) as [Hle|Hgt]; [exact Hle|exfalso].
  destruct (nth_error (gens tr1) (Datatypes.S (List.length (learns tr1)))) as [[g vals]|] eqn:Hk; [|apply nth_error_None in Hk; lia].
  apply nth_gen in Hk as (a & rets & b & Ea & Hk). subst tr1. rewrite <- app_assoc in E. cbn [app] in E.
  destruct (H _ _ _ E) as [Hl _]. rewrite Hk, learns_app in Hl. rewrite app_length in Hl. lia.
Qed.

(** A copy of a row of floats is that row. *)
Lemma float_copy n (x y : row) : float_row n x -> Forall2 cell_copy x y -> y = x.
Proof.
  intros [_ Hf] H. induction H as [|a b x y Hab _ IH]; [reflexivity|]. inversion Hf as [|? ? Ha Hf']; subst. rewrite (IH Hf'). f_equal.
  destruct Hab as [->|(z & -> & _)]; [reflexivity|]. destruct Ha as [v Hv]. discriminate Hv.
Qed.

Open Scope R_scope.

(** One more generation drawn after the k-th training, whether or not its evaluation was finished. *)
Lemma tame_next (next : arr -> arr -> Prop) n B0 G Zb (g : rng W) ftol out s r tr :
  argsort_ok (h_argsort h) -> (forall gen e p, h_data h gen e p = (Ok gen, p)) ->
  (forall scale w, h_normal h scale w = let (z, w') := g_gauss g (Z.to_nat (c_trunc_len c)) (Z.to_nat (c_nvars c)) w in
                                        (fun i j => fadd (Z2f 0) (fmul scale (z i j)), w')) ->
  gauss_within Zb g -> n = Z.to_nat (c_nvars c) -> (1 <= c_trunc_len c <= 2 ^ 40)%Z -> (0 <= c_elite_len c)%Z ->
  (py_eq_int (c_w_noise c) 0 = false -> isfin (num_to_f (c_w_noise c)) = true /\ Rabs (B2R (num_to_f (c_w_noise c))) * Zb <= B0) ->
  tall <= B0 -> 3 <= G -> executes c h ftol out s r tr ->
  Forall (rows_in DFloat n (float_row n)) (map fst (gens tr)) ->
  (forall B d gen, B0 <= B -> G * B <= far -> next d gen -> a_rows d <> [] -> (Z.of_nat (List.length (a_rows d)) <= 2 ^ 40)%Z ->
     (forall j x, (j < n)%nat -> num_col d j = Ok x -> within ((2 + / 128) * B) x /\ List.length x = List.length (a_rows d)) ->
     Forall (float_row n) (a_rows gen) -> cells_in (G * B) gen) ->
  forall k d gen, (forall i gi vi, (i <= k)%nat -> nth_error (gens tr) i = Some (gi, vi) -> B0 * G ^ i <= far -> cells_in (B0 * G ^ i) gi) ->
  nth_error (learns tr) k = Some d -> next d gen -> Forall (float_row n) (a_rows gen) ->
  B0 * G ^ Datatypes.S k <= far -> cells_in (B0 * G ^ Datatypes.S k) gen.
Proof.
  intros Has Hplain Hnorm Hz Hn Ht He Hno HB0 HG Hc Hshape Hstep. pose proof tall_pos.
  pose proof (selection_every c h Has ltac:(lia) He ftol out s r tr Hc) as Hsel.
  pose proof (chosen_every Has ltac:(lia) He ftol out s r tr Hc) as Hsome.
  pose proof (training_drawn_every ftol out s r tr Hplain Hc) as Htr0.
  assert (HGp : forall i, 1 <= G ^ i) by (intros i; apply pow_R1_Rle; lra).
  assert (HGm : forall i k, (i <= k)%nat -> G ^ i <= G ^ k) by (intros i k Hik; apply Rle_pow; [lra|exact Hik]).
  intros k d gen IH Hd Hnx Hfr Hfar.
  destruct Htr0 as [Hnil|(wn & Hwn & Hdrawn & Htrain)]; [rewrite Hnil in Hd; destruct k; discriminate Hd|].
  destruct (nth_learn tr k d Hd) as (tr1 & tr2 & Etr & Hlk).
  pose proof (learned_after_every ftol out s r tr tr1 tr2 d Hc Etr) as Hgl. rewrite Hlk in Hgl.
  destruct (Htrain _ _ _ Etr) as (tr0 & t & el & Etr1 & Hmv).
  assert (Etr' : tr = tr0 ++ EvSelect t el :: EvLearn d :: tr2) by (rewrite Etr, Etr1, <- app_assoc; reflexivity).
  destruct (Hsel _ _ _ Etr') as ((gv & t1 & el1 & _ & (rest & _ & _ & _ & Hlen1) & Hc1 & _) & _ & (t0 & Hcop & Hev0) & _).
  pose proof (Hsome _ _ _ Etr') as Htne. cbn [chosen_some] in Htne.
  assert (Hg01 : gens tr1 = gens tr0) by (rewrite Etr1, gens_app; cbn; apply app_nil_r).
  assert (Hgt : gens tr = gens tr0 ++ gens (EvSelect t el :: EvLearn d :: tr2)) by (rewrite Etr', gens_app; reflexivity).
  assert (Htl : (1 <= List.length t <= Z.to_nat (c_trunc_len c))%nat).
  { assert (L1 : List.length t1 = List.length t) by (clear -Hc1; induction Hc1; cbn; congruence). rewrite L1 in Hlen1. destruct t; [congruence|]. cbn [List.length] in *. lia. }
  assert (Hev : Forall (fun p => exists q, In q (evaluated tr0) /\ Forall2 cell_copy (fst q) (fst p)) t).
  { clear -Hcop Hev0. induction Hcop as [|p q l l' [H1 _] _ IH]; [constructor|]. inversion Hev0; subst. constructor; [exists p; split; assumption|apply IH; assumption]. }
  set (B := B0 * G ^ k) in *.
  assert (EB : B0 * G ^ Datatypes.S k = G * B) by (unfold B; cbn [pow]; ring). rewrite EB in *.
  assert (HB : B0 <= B). { unfold B. rewrite <- (Rmult_1_r B0) at 1. apply Rmult_le_compat_l; [lra|apply HGp]. }
  assert (HBG : 3 * B <= G * B) by (apply Rmult_le_compat_r; lra).
  (* the rows the data was made of *)
  assert (Hrows : forall p, In p t -> float_row n (fst p) /\ Forall (fun c => exists v, c = CF v /\ tame B v) (fst p)).
  { intros p' Hp. rewrite Forall_forall in Hev. destruct (Hev p' Hp) as (p & Hev' & Hcp). clear Hp. unfold evaluated in Hev'. apply in_flat_map in Hev' as (q & Hq & Hpq).
    apply In_nth_error in Hq as [i Hi]. assert (Hik : (i <= k)%nat).
    { assert (i < List.length (gens tr0))%nat by (apply nth_error_Some; congruence). rewrite Hg01 in Hgl. lia. }
    assert (Hi' : nth_error (gens tr) i = Some q) by (rewrite Hgt; apply nth_error_prefix, Hi). destruct q as [gi vi].
    assert (Hpr : In (fst p) (a_rows gi)).
    { unfold pairs in Hpq. cbn [fst snd] in Hpq. destruct p as [p1 p2]. apply in_combine_l in Hpq. exact Hpq. }
    assert (Hfp : float_row n (fst p)).
    { rewrite Forall_map, Forall_forall in Hshape. destruct (Hshape _ (nth_error_In _ _ Hi')) as (_ & _ & F). cbn [fst] in F.
      rewrite Forall_forall in F. apply F, Hpr. }
    destruct p' as [p1 p2]. cbn [fst] in Hcp |- *. pose proof (float_copy n _ _ Hfp Hcp) as Ep. subst p1. split; [exact Hfp|].
    { assert (Hb : B0 * G ^ i <= B) by (unfold B; apply Rmult_le_compat_l; [lra|apply HGm, Hik]).
      assert (Hbf : B0 * G ^ i <= far) by lra.
      pose proof (cells_in_le _ _ _ (IH i gi vi Hik Hi' Hbf) Hb) as C.
      unfold cells_in in C. rewrite Forall_forall in C. apply C, Hpr. } }
  apply (Hstep B d gen); try assumption.
  - destruct Hmv as [Hl _]. rewrite map_length in Hl. destruct (a_rows d); [cbn in Hl; lia|discriminate].
  - destruct Hmv as [Hl _]. rewrite map_length in Hl. lia.
  - intros j x Hj Hx. destruct (data_tame (noise_delta wn) (map fst t) d n j x B) as [Q1 Q2]; try assumption; try lra.
    + rewrite Forall_map, Forall_forall. intros p Hp. apply Hrows, Hp.
    + rewrite Forall_map, Forall_forall. intros p Hp. apply Hrows, Hp.
    + intros i' j' v Hi' Hj' Hv. rewrite map_length in Hi'. destruct wn as [| |nr nc dr]; try discriminate. cbn [noise_delta] in Hv.
      destruct Hwn as (N0 & _ & _ & _ & -> & ->). destruct Hdrawn as (w & w' & Hw). rewrite Hnorm in Hw.
      destruct (g_gauss g (Z.to_nat (c_trunc_len c)) (Z.to_nat (c_nvars c)) w) as [z w1] eqn:Eg.
      assert (Edr : dr = fun i j => fadd (Z2f 0) (fmul (num_to_f (c_w_noise c)) (z i j))) by congruence.
      assert (Ev : v = dr (bidx (Z.to_nat (c_trunc_len c)) i') (bidx (Z.to_nat (c_nvars c)) j')) by congruence. rewrite Ev, Edr.
      destruct (Hno N0) as [Fs Hs]. eapply tame_le; [apply (noise_tame (num_to_f (c_w_noise c)) _ B0 Zb Fs Hs)|].
      * pose proof (Hz (Z.to_nat (c_trunc_len c)) (Z.to_nat (c_nvars c)) w (bidx (Z.to_nat (c_trunc_len c)) i') (bidx (Z.to_nat (c_nvars c)) j')) as Q.
        rewrite Eg in Q. cbn [fst] in Q. apply Q; unfold bidx; [destruct (Nat.eqb_spec (Z.to_nat (c_trunc_len c)) 1); lia|].
        destruct (Nat.eqb_spec (Z.to_nat (c_nvars c)) 1); lia.
      * exact HB0.
      * lra.
      * apply Rmult_le_compat_l; lra.
    + split; [exact Q1|]. rewrite Q2. destruct Hmv as [Hl _]. symmetry. exact Hl.
Qed.

Lemma tame_every (next : arr -> arr -> Prop) n B0 G Zb (g : rng W) ftol out s r tr :
  argsort_ok (h_argsort h) -> (forall gen e p, h_data h gen e p = (Ok gen, p)) ->
  (forall scale w, h_normal h scale w = let (z, w') := g_gauss g (Z.to_nat (c_trunc_len c)) (Z.to_nat (c_nvars c)) w in
                                        (fun i j => fadd (Z2f 0) (fmul scale (z i j)), w')) ->
  gauss_within Zb g -> n = Z.to_nat (c_nvars c) -> (1 <= c_trunc_len c <= 2 ^ 40)%Z -> (0 <= c_elite_len c)%Z ->
  (py_eq_int (c_w_noise c) 0 = false -> isfin (num_to_f (c_w_noise c)) = true /\ Rabs (B2R (num_to_f (c_w_noise c))) * Zb <= B0) ->
  tall <= B0 -> 3 <= G -> executes c h ftol out s r tr ->
  Forall (rows_in DFloat n (float_row n)) (map fst (gens tr)) ->
  (forall k gen vals, nth_error (gens tr) (Datatypes.S k) = Some (gen, vals) -> exists d, nth_error (learns tr) k = Some d /\ next d gen) ->
  (forall B d gen, B0 <= B -> G * B <= far -> next d gen -> a_rows d <> [] -> (Z.of_nat (List.length (a_rows d)) <= 2 ^ 40)%Z ->
     (forall j x, (j < n)%nat -> num_col d j = Ok x -> within ((2 + / 128) * B) x /\ List.length x = List.length (a_rows d)) ->
     Forall (float_row n) (a_rows gen) -> cells_in (G * B) gen) ->
  (forall gen vals, nth_error (gens tr) 0 = Some (gen, vals) -> cells_in B0 gen) ->
  forall k gen vals, nth_error (gens tr) k = Some (gen, vals) -> B0 * G ^ k <= far -> cells_in (B0 * G ^ k) gen.
Proof.
  intros Has Hplain Hnorm Hz Hn Ht He Hno HB0 HG Hc Hshape Hnext Hstep Hfirst.
  induction k as [k IH] using lt_wf_ind. intros gen vals Hk Hfar. destruct k as [|k].
  { rewrite pow_O, Rmult_1_r. eapply Hfirst, Hk. }
  destruct (Hnext k gen vals Hk) as (d & Hd & Hnx).
  apply (tame_next next n B0 G Zb g ftol out s r tr Has Hplain Hnorm Hz Hn Ht He Hno HB0 HG Hc Hshape Hstep k d gen); try assumption.
  - intros i gi vi Hi. apply IH. lia.
  - rewrite Forall_map, Forall_forall in Hshape. destruct (Hshape _ (nth_error_In _ _ Hk)) as (_ & _ & F). exact F.
Qed.

End Loop.

Open Scope R_scope.

Section Stock.
Context {X W : Type}.
Variable E : env X W.

Lemma umdac_finite_every g lo hi vector lf wn (o0 o : optimiser X) cost a ftol out w r s t e B0 Zb :
  construct E (UMDAc lo hi vector lf wn) g = Ok o0 -> used E o0 o -> run_in E a o cost ftol out w = (r, s) ->
  adds (e_sum E) -> sum_ok (e_sum E) -> argsort_ok (e_argsort E) ->
  gauss_within Zb (e_rng E) -> 1 <= Zb -> bpow radix2 (-500) <= B0 ->
  int_times (g_size_gen g) (g_alpha g) = Ok t -> (1 <= t <= 2 ^ 40)%Z ->
  int_times (g_size_gen g) (g_elite_factor g) = Ok e -> (0 <= e)%Z ->
  isfin lf = true -> Rabs (B2R lf) <= B0 -> noise_small wn Zb B0 ->
  data_ok (Z.to_nat (g_nvars g)) 0 (g_init_data g) ->
  (forall gen vals, nth_error (gens (s_tr s)) 0 = Some (gen, vals) -> cells_in B0 gen) ->
  forall k gen vals, nth_error (gens (s_tr s)) k = Some (gen, vals) ->
  B0 * (3 * (1 + Zb)) ^ k <= bpow radix2 400 -> cells_in (B0 * (3 * (1 + Zb)) ^ k) gen.
Proof.
  intros Hc U Hr Had Hso Has Hz HZ HB0 Ht Ht1 He He0 Fl Hl Hno Hdat Hfirst k gen vals Hk Hfar.
  pose proof (umdac_drawn E _ _ _ _ _ _ _ _ _ _ _ _ _ _ _ Hc U Hr) as Hnext. cbn [construct] in Hc.
  pose proof (umdac_pbil_shape E _ _ _ _ _ _ _ _ _ _ _ _ _ _ _ (or_introl Hc) U Hso Hdat Hr) as (Hshape & _).
  apply umdac_inv in Hc as (Hcfg & _ & _ & _ & Hupd & _). destruct (used_setup E _ _ U) as (E1 & _ & E3 & _).
  pose proof (eda_init_inv _ _ _ _ _ _ _ _ _ _ _ Hcfg) as (_ & _ & _ & C4 & _ & _ & _ & _ & _ & C10 & C11 & C12 & _).
  assert (Et : c_trunc_len (op_cfg o0) = t) by congruence. assert (Ee : c_elite_len (op_cfg o0) = e) by congruence.
  unfold run_in in Hr.
  assert (C : executes (op_cfg o) (hooks_of E o cost) ftol out (mkSt a (op_st o) w []) r (s_tr s)).
  { split; [reflexivity|]. exists s. split; [exact Hr|reflexivity]. }
  rewrite E1 in C. eapply (tame_every (op_cfg o0) (hooks_of E o cost) (umdac_next E lf (Z.to_nat (g_size_gen g)) (Z.to_nat (g_nvars g)))
    (Z.to_nat (g_nvars g)) B0 (3 * (1 + Zb)) Zb (e_rng E)); try eassumption.
  - intros gn el p. cbn [hooks_of h_data]. rewrite E3, Hupd. reflexivity.
  - intros scale w0. cbn [hooks_of h_normal]. rewrite E1. reflexivity.
  - rewrite C4. reflexivity.
  - rewrite Et. exact Ht1.
  - rewrite Ee. exact He0.
  - apply (noise_small_cfg wn); assumption.
  - lra.
  - clear k gen vals Hk Hfar. intros B d gen HB HBf (N1 & N2 & w1 & N3) Hd Hdl Hdata Hfr. pose proof tall_pos. fold tall in HB0.
    apply (by_cells _ _ _ Hfr). intros i j Hi Hj. rewrite N1 in Hi. destruct (N3 i j Hi Hj) as (x & Hx & Hcell). eexists. split; [exact Hcell|].
    destruct (Hdata j x Hj Hx) as [Hw Hxl]. assert (HZB : 0 <= Zb * B) by (apply Rmult_le_pos; lra).
    eapply tame_le; [apply (umdac_cell (e_sum E) Had x lf _ ((2 + / 128) * B) Zb)|].
    + destruct x; [|discriminate]. cbn in Hxl. destruct (a_rows d); [congruence|discriminate].
    + unfold few. rewrite Hxl. exact Hdl.
    + exact Hw.
    + split; [exact Fl|lra].
    + apply Hz; [exact Hi|exact Hj].
    + exact HZ.
    + lra.
    + lra.
    + lra.
Qed.

Lemma pbil_finite_every g lo hi vector lf wn (o0 o : optimiser X) cost a ftol out w r s e B0 Zb :
  construct E (PBIL lo hi vector lf wn) g = Ok o0 -> used E o0 o -> run_in E a o cost ftol out w = (r, s) ->
  adds (e_sum E) -> sum_ok (e_sum E) -> argsort_ok (e_argsort E) ->
  gauss_within Zb (e_rng E) -> 1 <= Zb -> bpow radix2 (-500) <= B0 ->
  (1 <= g_size_gen g <= 2 ^ 40)%Z -> int_times (g_size_gen g) (g_elite_factor g) = Ok e -> (0 <= e)%Z ->
  isfin (num_to_f (g_alpha g)) = true -> 0 <= B2R (num_to_f (g_alpha g)) <= 1 ->
  isfin lf = true -> Rabs (B2R lf) <= B0 -> noise_small wn Zb B0 ->
  data_ok (Z.to_nat (g_nvars g)) 0 (g_init_data g) ->
  (forall gen vals, nth_error (gens (s_tr s)) 0 = Some (gen, vals) -> cells_in B0 gen) ->
  forall k gen vals, nth_error (gens (s_tr s)) k = Some (gen, vals) ->
  B0 * (3 * (3 + Zb)) ^ k <= bpow radix2 400 -> cells_in (B0 * (3 * (3 + Zb)) ^ k) gen.
Proof.
  intros Hc U Hr Had Hso Has Hz HZ HB0 Ht1 He He0 Fa Ha Fl Hl Hno Hdat Hfirst k gen vals Hk Hfar.
  pose proof (pbil_drawn E _ _ _ _ _ _ _ _ _ _ _ _ _ _ _ Hc U Hr) as Hnext. cbn [construct] in Hc.
  pose proof (umdac_pbil_shape E _ _ _ _ _ _ _ _ _ _ _ _ _ _ _ (or_intror Hc) U Hso Hdat Hr) as (Hshape & _).
  apply pbil_inv in Hc as (Hcfg & _ & _ & _ & Hupd & _). destruct (used_setup E _ _ U) as (E1 & _ & E3 & _).
  pose proof (eda_init_inv _ _ _ _ _ _ _ _ _ _ _ Hcfg) as (_ & _ & _ & C4 & _ & _ & _ & _ & _ & C10 & C11 & C12 & _).
  assert (Et : c_trunc_len (op_cfg o0) = g_size_gen g).
  { cbn [int_times] in C11. assert (Q : (g_size_gen g * 1)%Z = c_trunc_len (op_cfg o0)) by congruence. lia. }
  assert (Ee : c_elite_len (op_cfg o0) = e) by congruence.
  unfold run_in in Hr.
  assert (C : executes (op_cfg o) (hooks_of E o cost) ftol out (mkSt a (op_st o) w []) r (s_tr s)).
  { split; [reflexivity|]. exists s. split; [exact Hr|reflexivity]. }
  rewrite E1 in C. eapply (tame_every (op_cfg o0) (hooks_of E o cost) (pbil_next E lf (num_to_f (g_alpha g)) (Z.to_nat (g_size_gen g)) (Z.to_nat (g_nvars g)))
    (Z.to_nat (g_nvars g)) B0 (3 * (3 + Zb)) Zb (e_rng E)); try eassumption.
  - intros gn el p. cbn [hooks_of h_data]. rewrite E3, Hupd. reflexivity.
  - intros scale w0. cbn [hooks_of h_normal]. rewrite E1. reflexivity.
  - rewrite C4. reflexivity.
  - rewrite Et. exact Ht1.
  - rewrite Ee. exact He0.
  - apply (noise_small_cfg wn); assumption.
  - lra.
  - clear k gen vals Hk Hfar. intros B d gen HB HBf (N1 & N2 & w1 & N3) Hd Hdl Hdata Hfr. pose proof tall_pos. fold tall in HB0.
    apply (by_cells _ _ _ Hfr). intros i j Hi Hj. rewrite N1 in Hi. destruct (N3 i j Hi Hj) as (x & b1 & b2 & Hx & Hb1 & Hb2 & Hcell).
    eexists. split; [exact Hcell|].
    destruct (Hdata j x Hj Hx) as [Hw Hxl]. assert (HZB : 0 <= Zb * B) by (apply Rmult_le_pos; lra).
    eapply tame_le; [apply (pbil_cell (e_sum E) Had x b1 b2 lf _ _ ((2 + / 128) * B) Zb)|]; try assumption.
    + unfold few. rewrite Hxl. exact Hdl.
    + split; [exact Fl|lra].
    + apply Hz; [exact Hi|exact Hj].
    + lra.
    + lra.
    + lra.
Qed.

Lemma first_within_every A g lo hi (o0 o : optimiser X) cost a ftol out w r s :
  construct E A g = Ok o0 -> used E o0 o -> start_bounds A = Some (lo, hi) -> unif_ok (e_rng E) ->
  (1 <= g_nvars g)%Z -> g_init_data g = None -> bounds_ok (Z.to_nat (g_nvars g)) lo hi ->
  run_in E a o cost ftol out w = (r, s) ->
  forall g0 v0, nth_error (gens (s_tr s)) 0 = Some (g0, v0) -> Forall (StockAll.within (Z.to_nat (g_nvars g)) lo hi) (a_rows g0).
Proof.
  intros H U Hb Hun Hn Hd (B1 & B2 & B3) Hr. pose proof (construct_built E _ _ _ H) as B. destruct B as [bt_cfg0 _ _ bt_init0 _].
  destruct (used_setup E _ _ U) as (E1 & E2 & _). destruct (bt_init0 _ _ Hb) as (u & Hu & Hi).
  unfold base_of in bt_cfg0. apply eda_init_inv in bt_cfg0. destruct bt_cfg0 as (C1 & _ & _ & C4 & _ & _ & _ & _ & C9 & _).
  intros g0 v0 Hg0.
  assert (HC : executes (op_cfg o) (hooks_of E o cost) ftol out (mkSt a (op_st o) w []) r (s_tr s)).
  { split; [reflexivity|]. exists s. split; [exact Hr|reflexivity]. }
  apply drawn_every in HC. apply nth_gen in Hg0 as (tr1 & rets & tr2 & Etr & Hl0).
  destruct (HC _ _ _ Etr) as [Hll [[_ Hs]|[Hne _]]].
  2:{ exfalso. apply Hne. destruct (learns tr1); [reflexivity|cbn [List.length] in Hll; lia]. }
  rewrite E1, C9, Hd in Hs. destruct Hs as (w0 & w0' & Hs).
  cbn [hooks_of h_init] in Hs. rewrite E2, Hi, E1, C1 in Hs. cbn [initr_sample] in Hs.
  assert (Hsz : (0 <= g_size_gen g)%Z).
  { destruct (Z.leb_spec 0 (g_size_gen g)) as [Hz|Hz]; [exact Hz|exfalso]. unfold uniform_sample in Hs.
    destruct (ui_n u <? 0)%Z; [discriminate|]. unfold np_uniform in Hs. destruct (Z.ltb_spec (g_size_gen g) 0) as [_|?]; [|lia].
    destruct (ui_lo u), (ui_hi u); try discriminate; repeat (match type of Hs with (if ?b then _ else _) = _ => destruct b; try discriminate end). }
  destruct (uniform_sample_spec (e_rng E) (Z.to_nat (g_nvars g)) lo hi u (g_size_gen g) w0) as (a0 & w1 & Ha & (M1 & M2 & M3 & M4) & HB); try assumption; try lia.
  { rewrite Z2Nat.id by lia. exact Hu. }
  rewrite Ha in Hs. assert (g0 = a0) by congruence. subst g0. apply Forall_forall. intros x Hx.
  split; [rewrite Forall_forall in M4; apply M4, Hx|]. intros j Hj. apply In_nth_error in Hx as [i Hi0].
  assert (Hil : (i < Z.to_nat (g_size_gen g))%nat) by (rewrite <- M3; unfold a_len; apply nth_error_Some; congruence).
  specialize (HB i j Hil Hj). replace (nth i (a_rows a0) []) with x in HB by (symmetry; apply nth_error_nth; exact Hi0). exact HB.
Qed.

Lemma first_cells_every A g lo hi (o0 o : optimiser X) cost a ftol out w r s B :
  construct E A g = Ok o0 -> used E o0 o -> start_bounds A = Some (lo, hi) -> unif_ok (e_rng E) ->
  (1 <= g_nvars g)%Z -> g_init_data g = None -> bounds_ok (Z.to_nat (g_nvars g)) lo hi -> bounds_in (Z.to_nat (g_nvars g)) B lo hi ->
  run_in E a o cost ftol out w = (r, s) ->
  forall gen vals, nth_error (gens (s_tr s)) 0 = Some (gen, vals) -> cells_in B gen.
Proof.
  intros Hc U Hs Hu Hn Hi Hb HB Hr gen vals Hg.
  eapply within_cells; [exact Hb|exact HB|]. eapply first_within_every; eassumption.
Qed.

Lemma umdac_finite_bounds_every g lo hi lf wn (o0 o : optimiser X) cost a ftol out w r s t e B0 Zb :
  construct E (UMDAc lo hi None lf wn) g = Ok o0 -> used E o0 o -> run_in E a o cost ftol out w = (r, s) ->
  (forall l, added l (e_sum E l)) -> sum_ok (e_sum E) -> argsort_ok (e_argsort E) ->
  unif_ok (e_rng E) -> gauss_within Zb (e_rng E) -> 1 <= Zb -> bpow radix2 (-500) <= B0 ->
  int_times (g_size_gen g) (g_alpha g) = Ok t -> (1 <= t <= 2 ^ 40)%Z ->
  int_times (g_size_gen g) (g_elite_factor g) = Ok e -> (0 <= e)%Z ->
  isfin lf = true -> Rabs (B2R lf) <= B0 -> noise_small wn Zb B0 ->
  (1 <= g_nvars g)%Z -> g_init_data g = None -> bounds_ok (Z.to_nat (g_nvars g)) lo hi -> bounds_in (Z.to_nat (g_nvars g)) B0 lo hi ->
  forall k gen vals, nth_error (gens (s_tr s)) k = Some (gen, vals) ->
  B0 * (3 * (1 + Zb)) ^ k <= bpow radix2 400 -> cells_in (B0 * (3 * (1 + Zb)) ^ k) gen.
Proof.
  intros Hc U Hr Had Hso Has Hu Hz HZ HB0 Ht Ht1 He He0 Fl Hl Hno Hn Hi Hb HB.
  apply (umdac_finite_every g lo hi None lf wn o0 o cost a ftol out w r s t e B0 Zb); try assumption.
  - intros d Hd. congruence.
  - eapply first_cells_every; try eassumption. reflexivity.
Qed.

Lemma pbil_finite_bounds_every g lo hi lf wn (o0 o : optimiser X) cost a ftol out w r s e B0 Zb :
  construct E (PBIL lo hi None lf wn) g = Ok o0 -> used E o0 o -> run_in E a o cost ftol out w = (r, s) ->
  (forall l, added l (e_sum E l)) -> sum_ok (e_sum E) -> argsort_ok (e_argsort E) ->
  unif_ok (e_rng E) -> gauss_within Zb (e_rng E) -> 1 <= Zb -> bpow radix2 (-500) <= B0 ->
  (1 <= g_size_gen g <= 2 ^ 40)%Z ->
  int_times (g_size_gen g) (g_elite_factor g) = Ok e -> (0 <= e)%Z ->
  isfin (num_to_f (g_alpha g)) = true -> 0 <= B2R (num_to_f (g_alpha g)) <= 1 ->
  isfin lf = true -> Rabs (B2R lf) <= B0 -> noise_small wn Zb B0 ->
  (1 <= g_nvars g)%Z -> g_init_data g = None -> bounds_ok (Z.to_nat (g_nvars g)) lo hi -> bounds_in (Z.to_nat (g_nvars g)) B0 lo hi ->
  forall k gen vals, nth_error (gens (s_tr s)) k = Some (gen, vals) ->
  B0 * (3 * (3 + Zb)) ^ k <= bpow radix2 400 -> cells_in (B0 * (3 * (3 + Zb)) ^ k) gen.
Proof.
  intros Hc U Hr Had Hso Has Hu Hz HZ HB0 Hg1 He He0 Fa Ha Fl Hl Hno Hn Hi Hb HB.
  apply (pbil_finite_every g lo hi None lf wn o0 o cost a ftol out w r s e B0 Zb); try assumption.
  - intros d Hd. congruence.
  - eapply first_cells_every; try eassumption. reflexivity.
Qed.

End Stock.
