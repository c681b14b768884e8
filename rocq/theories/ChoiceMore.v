(** Which uniform draws give which value: declared categories and bits. *)
From Coq Require Import String List ZArith Bool Lia Reals Lra.
From Flocq Require Import Core IEEE754.BinarySingleNaN.
From Verif Require Import PyBase B64 B64More NdArray Rand RandThms Models Inits ModelThms Kahan CatThms ModelMore InitThms ChoiceInt.
Import ListNotations.
Open Scope R_scope.

Theorem sampled_as_declared s n values freq it :
  cat_init_new s n values freq = Ok it ->
  (forall j v f, nth_error values j = Some v -> nth_error freq j = Some f -> category v f) ->
  forall j v f k x q d, (j < Z.to_nat n)%nat -> nth_error values j = Some v -> nth_error freq j = Some f ->
  nth_error v k = Some x -> nth_error f k = Some q -> NoDup v -> (Z.of_nat (List.length f) <= 2 ^ 22)%Z ->
  Rabs (real_sum f - 1) <= d -> d <= / 4 ->
  exists lo hi : R,
    0 <= lo <= hi /\ hi <= 1 /\ Rabs (hi - lo - B2R q) <= 2 * d + bpow radix2 (-26) /\
    forall W (g : rng W) str_of size w a w', unif_ok g -> cat_init_sample g str_of it size w = (Ok a, w') ->
    forall i, (i < Z.to_nat size)%nat ->
      (nth j (nth i (a_rows a) []) (CF fnan) = x <->
       lo <= B2R (fst (g_unif g (Z.to_nat size) 1 (world_at g size w j)) i 0%nat) < hi).
Proof.
  unfold cat_init_new. intros H1 Hcat j v f k x q d Hj Hv Hfq Hx Hq Hnd Hlen Hsum Hd.
  assert (Hc : cat_check s (Z.to_nat n) values freq = Ok tt) by (destruct (cat_check s (Z.to_nat n) values freq) as [[]|]; [reflexivity|discriminate]).
  rewrite Hc in H1. cbn [rmap] in H1. assert (Ei : it = mkCI n values freq) by congruence. subst it. clear H1.
  pose proof (cat_check_facts s _ _ _ Hc) as Hf. destruct (Hcat j v f Hv Hfq) as (K1 & K2 & K3).
  assert (Hpos : exists y, In y f /\ 0 < B2R y).
  { assert (0 < real_sum f) by (apply Rabs_le_inv in Hsum; lra). clear - H K2. induction K2 as [|y l Hy Hl IH]; cbn in H; [lra|].
    fold (real_sum l) in H. destruct (Rlt_le_dec 0 (B2R y)); [exists y; split; [left; reflexivity|assumption]|].
    destruct IH as (z & Hz & Hz0); [lra|]. exists z. split; [right; exact Hz|exact Hz0]. }
  assert (Hk : (k < List.length f)%nat) by (apply nth_error_Some; congruence).
  exists (lower_end f k), (upper_end f k).
  destruct (ends_ok f Hlen K2 Hpos k Hk) as [He1 He2].
  split; [exact He1|]. split; [exact He2|]. split.
  - pose proof (interval_width f d Hlen K2 Hpos Hsum Hd k Hk) as Hw. rewrite (nth_error_nth _ _ fnan Hq) in Hw.
    assert (E26 : bpow radix2 (-26) = 8 * bpow radix2 (-29)) by (change (-26)%Z with (3 + -29)%Z; rewrite bpow_plus; reflexivity).
    pose proof (bpow_gt_0 radix2 (-29)). lra.
  - intros W g str_of size w a w' Hg Hs i Hi. unfold cat_init_sample in Hs. cbn [ci_n ci_values ci_freq] in Hs.
    destruct (draw_columns _ _ w) as [[cols|e] w1] eqn:E; [|discriminate].
    assert (Ea : a = frame (Z.to_nat size) cols) by congruence. subst a.
    assert (Hstep : forall e w col w', (fun vf => np_choice g (homogenise str_of (fst vf)) size (snd vf)) e w = (Ok col, w') -> w' = snd (g_unif g (Z.to_nat size) 1 w)).
    { intros [v1 f1] w3 col w4 Ed. cbn in Ed. apply np_choice_world in Ed. apply Ed. }
    pose proof (columns_worlds g size _ _ Hstep w cols w1 E) as Hcw.
    assert (Evf : forall j' vf, (j' < Z.to_nat n)%nat -> nth_error (combine values freq) j' = Some vf -> nth_error (firstn (Z.to_nat n) (combine values freq)) j' = Some vf).
    { intros j' vf Hj' <-. clear - Hj'. revert j' Hj'. generalize (combine values freq) as l. induction (Z.to_nat n) as [|m IH]; intros l j Hj; [lia|].
      destruct l as [|y l], j as [|j]; cbn; try reflexivity. apply IH. lia. }
    destruct (Hf j Hj) as (v' & f' & Hv' & Hf' & Hvf & Hlvf & _).
    assert (v' = v) by congruence. assert (f' = f) by congruence. subst v' f'.
    destruct (Hcw j (v, f) (Evf _ _ Hj Hvf)) as (c & Hcc & Hdraw). cbn [fst snd] in Hdraw.
    rewrite (homogenise_discrete str_of v K1) in Hdraw.
    destruct (np_choice g v size f (world_at g size w j)) as [r w2] eqn:Ech. cbn [fst] in Hdraw. subst r.
    destruct (np_choice_world _ _ _ _ _ _ _ Ech) as (_ & _ & _ & _ & Hout). specialize (Hout i Hi).
    destruct (Hg (Z.to_nat size) 1%nat (world_at g size w j) i 0%nat) as [U0 U1].
    set (u := fst (g_unif g (Z.to_nat size) 1 (world_at g size w j)) i 0%nat) in *.
    destruct (choice_pos f K3 K2 Hpos u U0 U1) as [Hqk _].
    assert (Hcell : nth j (nth i (a_rows (frame (Z.to_nat size) cols)) []) (CF fnan) = nth i c (CF fnan)).
    { rewrite frame_wide by (intros ->; destruct j; discriminate Hcc). cbn [a_rows]. rewrite nth_tabulate by exact Hi.
      rewrite (nth_indep _ (CF fnan) (cast_cell (frame_dtype cols) (nth i [] (CF fnan)))) by (rewrite map_length; apply nth_error_Some; congruence).
      rewrite (map_nth (fun col0 => cast_cell (frame_dtype cols) (nth i col0 (CF fnan))) cols []).
      rewrite (nth_error_nth _ _ [] Hcc). apply cast_id, frame_no_floats.
      apply Forall_forall. intros col0 Hc0. apply In_nth_error in Hc0 as [j' Hj'].
      assert (Hl2 : List.length cols = List.length (firstn (Z.to_nat n) (combine values freq))) by (apply draw_columns_ok in E; clear - E; induction E; cbn; congruence).
      assert (Hj'n : (j' < Z.to_nat n)%nat).
      { assert (j' < List.length cols)%nat by (apply nth_error_Some; congruence). rewrite firstn_length in Hl2. lia. }
      destruct (Hf j' Hj'n) as (v1 & f1 & Hv1 & Hf1 & Hvf1 & _). destruct (Hcat j' v1 f1 Hv1 Hf1) as (M1 & M2 & M3).
      destruct (Hcw j' (v1, f1) (Evf _ _ Hj'n Hvf1)) as (c' & Hc' & Hdraw'). assert (c' = col0) by congruence. subst c'. cbn [fst snd] in Hdraw'.
      destruct (np_choice g (homogenise str_of v1) size f1 (world_at g size w j')) as [r' w2'] eqn:Ech'. cbn [fst] in Hdraw'. subst r'.
      apply (choice_column g str_of _ size _ _ _ _ Hg M2 M3 M1 Ech'). }
    rewrite Hcell.
    destruct (nth_error v (searchsorted_right (cdf f) u)) as [y|] eqn:Ey;
      [|exfalso; apply nth_error_None in Ey; lia].
    rewrite (nth_error_nth _ _ (CF fnan) Hout).
    rewrite <- (selected_iff f Hlen K2 Hpos u k U0 U1 Hk).
    split.
    + intros Exy. subst y. rewrite NoDup_nth_error in Hnd. apply Hnd; [lia|]. congruence.
    + intros Ek. rewrite Ek in Ey. congruence.
Qed.

(** A bit is one exactly for draws under its probability, and the probability is the share of
    ones brought into the bounds. *)
Theorem bits_as_learned n upper lower m d :
  unibin_made n upper lower m -> a_nc d = n -> Forall (bit_row n) (a_rows d) -> a_rows d <> [] ->
  (Z.of_nat (List.length (a_rows d)) <= 2 ^ 53)%Z -> isfin lower = true -> isfin upper = true ->
  exists m', unibin_learn d m = (Ok tt, m') /\
  forall j, (j < n)%nat -> exists p : R,
    Rabs (p - Rmin (B2R upper) (Rmax (B2R lower) (INR (ones_in j (a_rows d)) / INR (List.length (a_rows d))))) <= bpow radix2 (-53) /\
    forall W (g : rng W) size w a w', unif_ok g -> unibin_sample g m' size w = (Ok a, w') ->
    forall i, (i < Z.to_nat size)%nat ->
      let u := fst (g_unif g (Z.to_nat size) n w) i j in
      nth_error (nth i (a_rows a) []) j = Some (if Rlt_dec (B2R u) p then CI 1 else CI 0).
Proof.
  intros Hm Hn Hr Hne Hlen Fl Fu. destruct (unibin_bits_made n upper lower m d Hm Hn Hr Hne) as (m' & Hl & Hlp & Hp).
  exists m'. split; [exact Hl|]. intros j Hj. destruct (Hp j Hj) as (p & Hpj & Hc).
  destruct (unibin_made_learn _ _ _ _ _ _ _ Hm Hl) as (Hb & Hn' & Hlo & Hhi).
  set (k := ones_in j (a_rows d)) in *. set (nr := List.length (a_rows d)) in *.
  assert (Hnr : (0 < nr)%nat) by (unfold nr; destruct (a_rows d); [congruence|cbn; lia]).
  destruct (freq_near k nr Hnr (ones_in_le _ _) Hlen) as (Hpq & Hnear & _). cbv zeta in Hpq, Hnear.
  set (q := fdiv (Z2f (Z.of_nat k)) (Z2f (Z.of_nat nr))) in *. destruct (prob_R q Hpq) as [Fq Rq].
  destruct Hc as (C1 & C2 & C3). apply (flt_fin lower upper Fl Fu) in Hb as HbR.
  assert (HpR : isfin p = true /\ B2R p = Rmin (B2R upper) (Rmax (B2R lower) (B2R q))).
  { destruct (flt q lower) eqn:E1.
    - rewrite (C1 eq_refl). apply (flt_fin q lower Fq Fl) in E1. split; [exact Fl|].
      rewrite Rmax_left by lra. rewrite Rmin_right by lra. reflexivity.
    - destruct (flt upper q) eqn:E2.
      + rewrite (C2 eq_refl). apply (flt_fin upper q Fu Fq) in E2. split; [exact Fu|].
        rewrite Rmax_right by lra. rewrite Rmin_left by lra. reflexivity.
      + assert (A1 : fle lower q = true) by (apply flt_false_fle; try exact E1; apply isfin_not_nan; assumption).
        assert (A2 : fle q upper = true) by (apply flt_false_fle; try exact E2; apply isfin_not_nan; assumption).
        rewrite (C3 A1 A2). split; [exact Fq|]. apply (fle_fin lower q Fl Fq) in A1. apply (fle_fin q upper Fq Fu) in A2.
        rewrite Rmax_right by lra. rewrite Rmin_right by lra. reflexivity. }
  destruct HpR as [Fp Rp]. exists (B2R p). split.
  - rewrite Rp. clear - Hnear. pose proof (bpow_gt_0 radix2 (-53)). apply Rabs_le_inv in Hnear. apply Rabs_le.
    unfold Rmin, Rmax. repeat destruct Rle_dec; lra.
  - intros W g size w a w' Hg Hs i Hi u. apply unibin_sample_spec in Hs as (_ & E1 & E2 & E3 & E4 & E5).
    rewrite Hn', Hlp in E3. unfold bres in E3. rewrite Nat.eqb_refl in E3. injection E3 as E3.
    rewrite E5 by lia. rewrite Hn', Hlp.
    assert (Hbi : bidx n j = j) by (unfold bidx; destruct (Nat.eqb_spec n 1); [subst; lia|reflexivity]).
    rewrite Hbi, (nth_error_nth _ _ fnan Hpj). fold u.
    destruct (Hg (Z.to_nat size) n w i j) as [U0 U1]. fold u in U0, U1. destruct (unit_R u U0 U1) as [Fu' _].
    destruct (flt u p) eqn:Eu.
    + apply (flt_fin u p Fu' Fp) in Eu. destruct (Rlt_dec (B2R u) (B2R p)); [reflexivity|contradiction].
    + destruct (Rlt_dec (B2R u) (B2R p)) as [H|]; [|reflexivity]. apply (flt_fin u p Fu' Fp) in H. congruence.
Qed.
