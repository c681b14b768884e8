(** Consequences of the acceptance rule "v < best * (1 + ftol)" in binary64. *)
From Coq Require Import String List ZArith Bool Lia Reals Lra.
From Flocq Require Import Core IEEE754.BinarySingleNaN.
From Verif Require Import PyBase B64 NdArray Eda EdaInv Spec TopK LoopObs LoopThms.
Import ListNotations.
Open Scope R_scope.

Lemma Z2f0_R : B2R (Z2f 0) = 0 /\ isfin (Z2f 0) = true.
Proof. apply Z2f_exact. cbn. lia. Qed.

Lemma ext_Z2f0 : ext (Z2f 0) = 0.
Proof. destruct Z2f0_R as [H1 H2]. rewrite (ext_finite _ H2). exact H1. Qed.

Lemma fle0_ext (x : f64) : fle (Z2f 0) x = true -> isnan x = false /\ 0 <= ext x.
Proof.
  intros H. destruct (fle_not_nan _ _ H) as [H0 Hx]. split; [exact Hx|].
  apply (fle_ext _ _ H0 Hx) in H. rewrite ext_Z2f0 in H. exact H.
Qed.

Lemma fle_0_ext (x : f64) : fle x (Z2f 0) = true -> isnan x = false /\ ext x <= 0.
Proof.
  intros H. destruct (fle_not_nan _ _ H) as [Hx H0]. split; [exact Hx|].
  apply (fle_ext _ _ Hx H0) in H. rewrite ext_Z2f0 in H. exact H.
Qed.

Lemma format_1 : generic_format radix2 (SpecFloat.fexp 53 1024) 1.
Proof. rewrite <- fone_R. apply generic_format_B2R. Qed.

(** [1 + ftol] is finite and at least 1. *)
Lemma one_plus_tol (ftol : f64) :
  tol_ok ftol -> isfin (fadd fone ftol) = true /\ 1 <= B2R (fadd fone ftol) /\
                 B2R (fadd fone ftol) = rnd (1 + B2R ftol).
Proof.
  intros [Hf H0]. apply fle0_ext in H0 as [_ H0]. rewrite (ext_finite _ Hf) in H0.
  pose proof (Bplus_correct 53 1024 _ _ mode_NE fone ftol fone_fin Hf) as H.
  change (Bplus mode_NE fone ftol) with (fadd fone ftol) in H. rewrite fone_R in H.
  change (round radix2 (SpecFloat.fexp 53 1024) (round_mode mode_NE) (1 + B2R ftol)) with (rnd (1 + B2R ftol)) in H.
  assert (Hge : 1 <= rnd (1 + B2R ftol)).
  { rewrite <- (round_generic radix2 (SpecFloat.fexp 53 1024) (round_mode mode_NE) 1 format_1) at 1.
    apply rnd_le. lra. }
  assert (Hlt : rnd (1 + B2R ftol) < big).
  { destruct (Rle_lt_dec (B2R ftol) (bpow radix2 1022)) as [Hs|Hb].
    - apply Rle_lt_trans with (bpow radix2 1023); [|apply bpow_lt; lia].
      rewrite <- (round_generic radix2 (SpecFloat.fexp 53 1024) (round_mode mode_NE) (bpow radix2 1023)).
      + apply rnd_le. change (bpow radix2 1023) with (bpow radix2 (1 + 1022)). rewrite bpow_plus.
        change (bpow radix2 1) with 2.
        assert (1 <= bpow radix2 1022) by (change 1 with (bpow radix2 0); apply bpow_le; lia). lra.
      + apply generic_format_bpow. cbv. discriminate.
    - pose proof (bpow_gt_0 radix2 1022) as Hb0.
      apply Rle_lt_trans with (B2R ftol); [|apply B2R_lt_big].
      apply round_N_le_midp; [apply fexp_correct; reflexivity|apply generic_format_B2R|].
      rewrite succ_eq_pos by lra.
      assert (Hulp : 4 <= ulp radix2 (SpecFloat.fexp 53 1024) (B2R ftol)).
      { rewrite ulp_neq_0 by lra. unfold cexp.
        assert (Hmag : (1023 <= mag radix2 (B2R ftol))%Z).
        { apply mag_ge_bpow. rewrite Rabs_pos_eq by lra. cbn [Z.sub]. apply Rlt_le. exact Hb. }
        apply Rle_trans with (bpow radix2 2); [cbn; lra|]. apply bpow_le.
        unfold SpecFloat.fexp, SpecFloat.emin. lia. }
      lra. }
  rewrite Rlt_bool_true in H by (rewrite Rabs_pos_eq by lra; exact Hlt).
  destruct H as [HR [HF _]]. rewrite HR. repeat split; [exact HF|exact Hge].
Qed.

Lemma tol_pos (ftol : f64) : tol_ok ftol -> 0 < B2R (fadd fone ftol).
Proof. intros H. destruct (one_plus_tol ftol H) as [_ [H1 _]]. lra. Qed.

(** With a zero tolerance the factor is exactly one. *)
Lemma one_plus_zero (ftol : f64) : feq ftol (Z2f 0) = true -> tol_ok ftol /\ B2R (fadd fone ftol) = 1.
Proof.
  intros H. destruct (feq_not_nan _ _ H) as [Hn H0].
  apply (feq_ext _ _ Hn H0) in H. rewrite ext_Z2f0 in H.
  assert (Hf : isfin ftol = true).
  { pose proof big_pos. destruct ftol as [s|[]| |s m e Hb]; cbn in *; try discriminate; try reflexivity; lra. }
  assert (Ht : tol_ok ftol).
  { split; [exact Hf|]. apply fle_ext; [exact H0|exact Hn|]. rewrite ext_Z2f0. lra. }
  split; [exact Ht|]. destruct (one_plus_tol ftol Ht) as [_ [_ ->]].
  rewrite (ext_finite _ Hf) in H. rewrite H, Rplus_0_r.
  apply round_generic; [apply valid_rnd_round_mode|exact format_1].
Qed.

Lemma fmul_by_one (a c : f64) :
  isnan a = false -> isfin c = true -> B2R c = 1 -> ext (fmul a c) = ext a.
Proof.
  intros Ha Fc Hc. destruct (isfin a) eqn:Fa.
  - destruct (fmul_fin_pos a c Fa Fc ltac:(lra)) as [_ ->].
    rewrite Hc, Rmult_1_r, rnd_B2R, (ext_finite a Fa). pose proof (B2R_lt_big a). apply clip_id. lra.
  - destruct a as [s|s| |s m e Hbd]; cbn in Fa, Ha; try discriminate.
    rewrite fmul_inf_pos by (try assumption; lra). reflexivity.
Qed.

Section Best.
Variable ftol : f64.
Let c1 := fadd fone ftol.

(** ftol = 0: the best cost is a minimum of the history. *)
Lemma run_best_min (hist : list f64) :
  feq ftol (Z2f 0) = true -> hist <> [] -> Forall (fun v => isnan v = false) hist ->
  is_min (run_best ftol hist) hist.
Proof.
  intros H0 Hne Hn. destruct (one_plus_zero ftol H0) as [Ht H1].
  destruct (one_plus_tol ftol Ht) as [Hfin _].
  destruct hist as [|b l]; [congruence|]. cbn [run_best]. inversion Hn as [|? ? Hb Hl]; subst.
  clear Hne Hn. revert b Hb. induction Hl as [|v l Hv Hl IH]; intros b Hb; cbn [fold_left].
  - split; [left; reflexivity|]. split; [exact Hb|]. intros v [<-|[]]. apply flt_irrefl.
  - assert (Hacc : accept ftol v b = flt v b).
    { unfold accept. assert (Hm : isnan (fmul b (fadd fone ftol)) = false)
        by (apply fmul_pos_not_nan; [exact Hb|exact Hfin|lra]).
      pose proof (flt_ext v _ Hv Hm) as E1. pose proof (flt_ext v b Hv Hb) as E2.
      rewrite (fmul_by_one b _ Hb Hfin H1) in E1.
      destruct (flt v (fmul b (fadd fone ftol))); destruct (flt v b); try reflexivity.
      - symmetry. apply E2, E1. reflexivity.
      - apply E1, E2. reflexivity. }
    replace (best_step ftol b v) with (if flt v b then v else b) by (unfold best_step; rewrite <- Hacc; reflexivity). destruct (flt v b) eqn:E.
    + destruct (IH v Hv) as [Hin [Hnn Hmin]]. split; [right; exact Hin|]. split; [exact Hnn|].
      intros u [<-|Hu]; [|apply Hmin, Hu].
      destruct (flt b (fold_left (best_step ftol) l v)) eqn:E2; [|reflexivity].
      assert (Hvb : flt v (fold_left (best_step ftol) l v) = true)
        by (eapply flt_fle_trans; [exact E|apply flt_fle; exact E2]).
      rewrite Hmin in Hvb by (left; reflexivity). discriminate.
    + destruct (IH b Hb) as [Hin [Hnn Hmin]]. split; [|split; [exact Hnn|]].
      * destruct Hin as [Hin|Hin]; [left; exact Hin|right; right; exact Hin].
      * intros u [<-|[<-|Hu]]; [apply Hmin; left; reflexivity| |apply Hmin; right; exact Hu].
        destruct (flt v (fold_left (best_step ftol) l b)) eqn:E2; [|reflexivity].
        assert (Hle : fle (fold_left (best_step ftol) l b) b = true)
          by (apply flt_false_fle; [exact Hb|exact Hnn|apply Hmin; left; reflexivity]).
        assert (flt v b = true) by (eapply flt_fle_trans; [exact E2|exact Hle]). congruence.
Qed.

Lemma best_step_cases (b v : f64) : best_step ftol b v = v /\ accept ftol v b = true \/
                                    best_step ftol b v = b /\ accept ftol v b = false.
Proof. unfold best_step, accept. destruct (flt v (fmul b (fadd fone ftol))); [left|right]; split; reflexivity. Qed.

(** Non-positive costs: the tolerance never accepts a higher cost, and the final threshold
    bounds everything seen. *)
Lemma run_best_nonpos (hist : list f64) :
  tol_ok ftol -> hist <> [] -> Forall (fun v => fle v (Z2f 0) = true) hist ->
  fle (run_best ftol hist) (Z2f 0) = true /\
  forall v, In v hist -> fle (fmul (run_best ftol hist) c1) v = true.
Proof.
  intros Ht Hne Hall. destruct (one_plus_tol ftol Ht) as [Hfin [Hge _]]. fold c1 in Hfin, Hge.
  assert (Hdec : forall x, fle x (Z2f 0) = true -> fle (fmul x c1) x = true).
  { intros x Hx. apply fle_0_ext in Hx as [Hn Hx]. apply fmul_ge1_nonpos; assumption. }
  induction hist as [|v l IH] using rev_ind; [congruence|].
  apply Forall_app in Hall as [Hall Hv]. inversion Hv as [|? ? Hv0 _]; subst.
  destruct l as [|b l].
  - cbn. split; [exact Hv0|]. intros u [<-|[]]. apply Hdec, Hv0.
  - rewrite run_best_snoc by discriminate.
    destruct (IH ltac:(discriminate) Hall) as [Hb Hm].
    destruct (best_step_cases (run_best ftol (b :: l)) v) as [[-> Hacc]|[-> Hacc]].
    + split; [exact Hv0|]. intros u Hu. apply in_app_or in Hu as [Hu|[<-|[]]]; [|apply Hdec, Hv0].
      unfold accept in Hacc. fold c1 in Hacc.
      eapply fle_trans; [apply Hdec, Hv0|]. eapply fle_trans; [apply flt_fle, Hacc|apply Hm, Hu].
    + split; [exact Hb|]. intros u Hu. apply in_app_or in Hu as [Hu|[<-|[]]]; [apply Hm, Hu|].
      unfold accept in Hacc. fold c1 in Hacc.
      apply flt_false_fle; [apply (fle_not_nan _ _ Hv0)| |exact Hacc].
      apply fmul_pos_not_nan; [apply (fle_not_nan _ _ Hb)|exact Hfin|lra].
Qed.

Lemma run_best_nonpos_mono (hist : list f64) (v : f64) :
  tol_ok ftol -> hist <> [] -> Forall (fun v => fle v (Z2f 0) = true) (hist ++ [v]) ->
  fle (run_best ftol (hist ++ [v])) (run_best ftol hist) = true.
Proof.
  intros Ht Hne Hall. apply Forall_app in Hall as [Hall Hv].
  destruct (run_best_nonpos hist Ht Hne Hall) as [Hb _].
  destruct (one_plus_tol ftol Ht) as [Hfin [Hge _]].
  rewrite run_best_snoc by exact Hne.
  destruct (best_step_cases (run_best ftol hist) v) as [[-> Hacc]|[-> Hacc]].
  - unfold accept in Hacc. eapply fle_trans; [apply flt_fle, Hacc|].
    apply fle_0_ext in Hb as [Hn Hx]. apply fmul_ge1_nonpos; assumption.
  - apply fle_refl, (fle_not_nan _ _ Hb).
Qed.

(** Non-negative costs: each later generation can inflate the best by one factor at most. *)
Lemma run_best_nonneg (hist : list f64) :
  tol_ok ftol -> hist <> [] -> Forall (fun v => fle (Z2f 0) v = true) hist ->
  fle (Z2f 0) (run_best ftol hist) = true /\
  forall k v, nth_error hist k = Some v ->
    fle (run_best ftol hist) (inflated ftol (List.length hist - 1 - k) v) = true.
Proof.
  intros Ht Hne Hall. destruct (one_plus_tol ftol Ht) as [Hfin [Hge _]]. fold c1 in Hfin, Hge.
  assert (Hinc : forall x, fle (Z2f 0) x = true -> fle x (fmul x c1) = true).
  { intros x Hx. apply fle0_ext in Hx as [Hn Hx]. apply fmul_ge1_nonneg; assumption. }
  induction hist as [|v l IH] using rev_ind; [congruence|].
  apply Forall_app in Hall as [Hall Hv]. inversion Hv as [|? ? Hv0 _]; subst.
  destruct l as [|b l].
  - cbn. split; [exact Hv0|]. intros [|k] u Hu; cbn in Hu; [|destruct k; discriminate].
    injection Hu as <-. apply fle_refl, (fle_not_nan _ _ Hv0).
  - rewrite run_best_snoc by discriminate.
    destruct (IH ltac:(discriminate) Hall) as [Hb Hm].
    set (best := run_best ftol (b :: l)) in *.
    assert (Hnew : fle (Z2f 0) (best_step ftol best v) = true /\
                   fle (best_step ftol best v) v = true /\
                   fle (best_step ftol best v) (fmul best c1) = true).
    { destruct (best_step_cases best v) as [[-> Hacc]|[-> Hacc]]; unfold accept in Hacc; fold c1 in Hacc.
      - split; [exact Hv0|]. split; [apply fle_refl, (fle_not_nan _ _ Hv0)|]. apply flt_fle, Hacc.
      - split; [exact Hb|]. split; [|apply Hinc, Hb].
        eapply fle_trans; [apply Hinc, Hb|]. apply flt_false_fle; [apply (fle_not_nan _ _ Hv0)| |exact Hacc].
        apply fmul_pos_not_nan; [apply (fle_not_nan _ _ Hb)|exact Hfin|lra]. }
    destruct Hnew as [Hn0 [Hnv Hnb]]. split; [exact Hn0|].
    intros k u Hu. rewrite app_length. cbn [List.length].
    destruct (Nat.lt_ge_cases k (List.length (b :: l))) as [Hk|Hk].
    + rewrite nth_error_app1 in Hu by exact Hk. specialize (Hm k u Hu).
      replace (Datatypes.S (List.length l) + 1 - 1 - k)%nat
        with (Datatypes.S (List.length (b :: l) - 1 - k)) by (cbn [List.length] in *; lia).
      set (n := (List.length (b :: l) - 1 - k)%nat) in *.
      change (inflated ftol (Datatypes.S n) u) with (fmul (inflated ftol n u) c1).
      eapply fle_trans; [exact Hnb|].
      apply fmul_pos_mono; [exact Hfin|lra|exact Hm].
    + rewrite nth_error_app2 in Hu by exact Hk.
      destruct (k - List.length (b :: l))%nat as [|d] eqn:Ed; [|destruct d; discriminate].
      cbn in Hu. injection Hu as <-.
      replace (Datatypes.S (List.length l) + 1 - 1 - k)%nat with 0%nat by (cbn [List.length] in *; lia).
      exact Hnv.
Qed.

Lemma trailing_false_app_all_false (l1 l2 : list bool) :
  (forall b, In b l2 -> b = false) -> (List.length l2 <= trailing_false (l1 ++ l2))%nat.
Proof.
  induction l2 as [|b l2 IH] using rev_ind; intros H; [cbn; lia|].
  rewrite app_assoc, trailing_false_snoc, app_length. cbn.
  rewrite (H b) by (apply in_or_app; right; left; reflexivity).
  assert (Hle := IH (fun x Hx => H x (in_or_app _ _ _ (or_introl Hx)))). lia.
Qed.

(** Entries that do not go below the lowest before them are not improvements. *)
Lemma improvements_stagnate (l1 l2 : list f64) (m : f64) :
  tol_ok ftol -> l1 <> [] ->
  (feq ftol (Z2f 0) = true \/ Forall (fun v => fle v (Z2f 0) = true) (l1 ++ l2)) ->
  Forall (fun v => isnan v = false) (l1 ++ l2) ->
  In m l1 -> Forall (fun v => fle m v = true) l2 ->
  exists l, improvements ftol (l1 ++ l2) = improvements ftol l1 ++ l /\
            List.length l = List.length l2 /\ (forall b, In b l -> b = false).
Proof.
  intros Ht Hne Hcase Hnan Hm Hl2.
  destruct (one_plus_tol ftol Ht) as [Hfin [Hge _]].
  induction l2 as [|v l2 IH] using rev_ind.
  - exists []. rewrite !app_nil_r. repeat split. intros b [].
  - rewrite app_assoc in *. apply Forall_app in Hl2 as [Hl2 Hv].
    inversion Hv as [|? ? Hmv _]; subst. apply Forall_app in Hnan as [Hnan Hvn].
    inversion Hvn as [|? ? Hvn0 _]; subst.
    destruct IH as (l & Hl & Hlen & Hf); try assumption.
    { destruct Hcase as [Hc|Hc]; [left; exact Hc|right]. apply Forall_app in Hc as [Hc _]. exact Hc. }
    assert (Hne2 : l1 ++ l2 <> []) by (destruct l1; [congruence|discriminate]).
    exists (l ++ [false]). split; [|split].
    + rewrite improvements_snoc by exact Hne2. rewrite Hl, <- app_assoc. f_equal. f_equal. f_equal.
      unfold accept. apply fle_flt_false.
      destruct Hcase as [Hz|Hc].
      * destruct (run_best_min (l1 ++ l2) Hz Hne2 Hnan) as [Hin [Hbn Hmin]].
        destruct (one_plus_zero ftol Hz) as [_ H1].
        assert (Hle : fle (run_best ftol (l1 ++ l2)) m = true).
        { apply flt_false_fle; [|exact Hbn|apply Hmin, in_or_app; left; exact Hm].
          apply (fle_not_nan _ _ Hmv). }
        apply fle_ext; [apply fmul_pos_not_nan; [exact Hbn|exact Hfin|lra]|exact Hvn0|].
        rewrite (fmul_by_one _ _ Hbn Hfin H1).
        apply fle_ext; [exact Hbn|exact Hvn0|]. eapply fle_trans; eassumption.
      * apply Forall_app in Hc as [Hc _].
        destruct (run_best_nonpos (l1 ++ l2) Ht Hne2 Hc) as [_ Hb].
        eapply fle_trans; [apply Hb, in_or_app; left; exact Hm|exact Hmv].
    + rewrite !app_length. cbn. lia.
    + intros b Hb. apply in_app_or in Hb as [Hb|[Hb|[]]]; [apply Hf, Hb|symmetry; exact Hb].
Qed.

(** A history in which every entry is an improvement by tolerance alone. *)
Lemma improvements_plateau (v : f64) (k : nat) :
  flt v (fmul v c1) = true -> improvements ftol (repeat v (S k)) = repeat true k.
Proof.
  intros Hv. cbn [repeat improvements]. induction k as [|k IH]; [reflexivity|].
  cbn [repeat improvements_from]. fold c1. rewrite Hv. f_equal. exact IH.
Qed.

Lemma trailing_false_repeat_true (k : nat) : trailing_false (repeat true k) = 0%nat.
Proof. unfold trailing_false. induction k as [|k IH]; cbn; [reflexivity|exact IH]. Qed.

End Best.
