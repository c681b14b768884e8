(** UniGaussGenInit built from bounds alone. *)
From Coq Require Import String List ZArith Bool Lia Reals Lra.
From Flocq Require Import Core IEEE754.BinarySingleNaN.
From Verif Require Import PyBase B64 B64More NdArray Rand Models Inits InitThms Interval Trunc.
Import ListNotations.
Open Scope R_scope.

(** Of moderate size: far from overflow. *)
Definition moderate (x : f64) : Prop := isfin x = true /\ Rabs (B2R x) <= bpow radix2 1000.

Lemma rnd_bpow_le x e : (-1000 <= e)%Z -> Rabs x <= bpow radix2 e -> Rabs (rnd x) <= bpow radix2 e.
Proof.
  intros He H. apply abs_round_le_generic; [apply (fexp_correct 53 1024 eq_refl)|apply valid_rnd_N| |exact H].
  apply generic_format_bpow. unfold SpecFloat.fexp, SpecFloat.emin. lia.
Qed.

Lemma bpow_1002_big e : (e <= 1002)%Z -> bpow radix2 e < big.
Proof. intros H. unfold big. apply bpow_lt. lia. Qed.

Lemma bpow_double e : bpow radix2 (e + 1) = 2 * bpow radix2 e.
Proof. rewrite bpow_plus. change (bpow radix2 1) with 2. ring. Qed.

Lemma moderate_add_one x : moderate x -> isfin (fadd x fone) = true /\ Rabs (B2R (fadd x fone)) <= bpow radix2 1001.
Proof.
  intros [Fx Hx].
  assert (B : Rabs (B2R x + B2R fone) <= bpow radix2 1001).
  { eapply Rle_trans; [apply Rabs_triang|]. rewrite fone_R, Rabs_R1. change 1001%Z with (1000 + 1)%Z. rewrite bpow_double.
    assert (1 <= bpow radix2 1000) by (change 1 with (bpow radix2 0); apply bpow_le; lia). lra. }
  apply rnd_bpow_le in B; [|lia].
  destruct (fadd_fin x fone Fx fone_fin) as [F R]; [eapply Rle_lt_trans; [exact B|apply bpow_1002_big; lia]|].
  split; [exact F|]. rewrite R. exact B.
Qed.

Lemma moderate_div x z : moderate x -> (1 <= z <= 2 ^ 53)%Z -> isfin (fdiv x (Z2f z)) = true /\ B2R (fdiv x (Z2f z)) = rnd (B2R x / IZR z) /\ Rabs (B2R (fdiv x (Z2f z))) <= bpow radix2 1000.
Proof.
  intros [Fx Hx] Hz. destruct (Z2f_exact z ltac:(lia)) as [Rz Fz].
  assert (Z1 : 1 <= IZR z) by (apply IZR_le; lia).
  assert (B : Rabs (B2R x / IZR z) <= bpow radix2 1000).
  { unfold Rdiv. rewrite Rabs_mult. rewrite (Rabs_pos_eq (/ IZR z)) by (left; apply Rinv_0_lt_compat; lra).
    eapply Rle_trans; [|exact Hx]. rewrite <- (Rmult_1_r (Rabs (B2R x))) at 2. apply Rmult_le_compat_l; [apply Rabs_pos|].
    rewrite <- Rinv_1. apply Rinv_le_contravar; lra. }
  apply rnd_bpow_le in B; [|lia].
  destruct (fdiv_fin x (Z2f z) Fx) as [F R].
  - rewrite Rz. lra.
  - rewrite Rz. eapply Rle_lt_trans; [exact B|apply bpow_1002_big; lia].
  - rewrite Rz in R. split; [exact F|]. split; [exact R|]. rewrite R. exact B.
Qed.

Lemma fabs_R x : isfin x = true -> isfin (fabs x) = true /\ B2R (fabs x) = Rabs (B2R x).
Proof. intros F. split; [unfold fabs, isfin; rewrite is_finite_Babs; exact F|apply B2R_Babs]. Qed.

Lemma sub_fin a b : isfin a = true -> isfin b = true -> Rabs (B2R a) <= bpow radix2 1001 -> Rabs (B2R b) <= bpow radix2 1001 -> isfin (fsub a b) = true.
Proof.
  intros Fa Fb Ha Hb.
  assert (B : Rabs (B2R a - B2R b) <= bpow radix2 1002).
  { replace (B2R a - B2R b) with (B2R a + - B2R b) by ring. eapply Rle_trans; [apply Rabs_triang|]. rewrite Rabs_Ropp.
    change 1002%Z with (1001 + 1)%Z. rewrite bpow_double. lra. }
  apply rnd_bpow_le in B; [|lia]. apply fsub_fin; [exact Fa|exact Fb|]. eapply Rle_lt_trans; [exact B|apply bpow_1002_big; lia].
Qed.

Lemma choice_any_total {W A} (g : rng W) (a : list A) n w : pick_ok g -> a <> [] \/ n = 0%nat ->
  exists out w', np_choice_any g a n w = (Ok out, w') /\ List.length out = n /\ incl out a.
Proof.
  intros Hg H. unfold np_choice_any.
  assert (Hc : Nat.eqb (List.length a) 0 && negb (Nat.eqb n 0) = false).
  { destruct H as [H| ->]; [destruct a; [congruence|reflexivity]|apply andb_false_r]. }
  rewrite Hc. destruct (g_pick g (List.length a) n w) as [k w'] eqn:E.
  destruct (gather_in_range (tabulate n k) a) as [out Ho].
  - apply Forall_tabulate. intros i Hi. destruct H as [H| ->]; [|lia].
    pose proof (Hg (List.length a) n w i) as Hk. rewrite E in Hk. apply Hk. destruct a; [congruence|cbn; lia].
  - exists out, w'. rewrite Ho. split; [reflexivity|]. apply gather_ok_Forall2 in Ho. split.
    + rewrite <- (tabulate_length n k). clear - Ho. induction Ho; cbn; congruence.
    + intros x Hx. clear - Ho Hx. induction Ho as [|i y l l' Hy Ho IH]; [destruct Hx|]. destruct Hx as [<-|Hx]; [eapply nth_error_In, Hy|apply IH, Hx].
Qed.

Lemma choice_any_empty {W A} (g : rng W) n w : (0 < n)%nat -> np_choice_any g (@nil A) n w = (Raise ValueError, w).
Proof. intros H. unfold np_choice_any. cbn. destruct n; [lia|reflexivity]. Qed.

(** Construction from bounds succeeds exactly when both ranges are non-empty; then the
    initialiser samples [n] columns for every size. *)
Lemma unigauss_init_bounds {W} (g : rng W) n lower higher w :
  pick_ok g -> (0 < n)%Z -> moderate lower -> moderate higher ->
  if flt lower (fadd higher fone) && flt (fabs (fquarter lower)) (fabs (fhalf higher)) then
    exists i w', unigauss_init_new g n [] [] lower higher w = (Ok i, w') /\
      forall size w1, (0 <= size)%Z -> exists a w2, unigauss_init_sample g i size w1 = (Ok a, w2) /\ float_matrix (Z.to_nat size) (Z.to_nat n) a
  else fst (unigauss_init_new g n [] [] lower higher w) = Raise ValueError.
Proof.
  intros Hg Hn Hl Hh.
  destruct (moderate_add_one higher Hh) as [Fh1 Bh1].
  destruct (moderate_div lower 4 Hl ltac:(lia)) as (Fq & _ & Bq). destruct (moderate_div higher 2 Hh ltac:(lia)) as (Fp & _ & Bp).
  destruct (fabs_R _ Fq) as [Faq Raq]. destruct (fabs_R _ Fp) as [Fap Rap]. fold (fquarter lower) in *. fold (fhalf higher) in *.
  assert (L1 : bpow radix2 1000 <= bpow radix2 1001) by (apply bpow_le; lia).
  assert (S1 : isfin (fsub (fadd higher fone) lower) = true) by (apply sub_fin; [exact Fh1|apply Hl|exact Bh1|eapply Rle_trans; [apply Hl|exact L1]]).
  assert (S2 : isfin (fsub (fabs (fhalf higher)) (fabs (fquarter lower))) = true).
  { apply sub_fin; [exact Fap|exact Faq|rewrite Rap, Rabs_Rabsolu; lra|rewrite Raq, Rabs_Rabsolu; lra]. }
  pose proof (arange_empty lower (fadd higher fone) (proj1 Hl) Fh1 S1) as E1.
  pose proof (arange_empty (fabs (fquarter lower)) (fabs (fhalf higher)) Faq Fap S2) as E2.
  assert (Hneg : forall a b, isfin a = true -> isfin b = true -> flt a b = negb (fle b a)).
  { intros a b Fa Fb. destruct (flt a b) eqn:E; symmetry.
    - apply negb_true_iff. apply not_true_is_false. intros E'. apply (flt_fin _ _ Fa Fb) in E. apply (fle_fin _ _ Fb Fa) in E'. lra.
    - apply negb_false_iff. apply flt_false_fle; [apply isfin_not_nan, Fb|apply isfin_not_nan, Fa|exact E] || (apply flt_false_fle; [apply isfin_not_nan, Fa|apply isfin_not_nan, Fb|exact E]). }
  unfold unigauss_init_new. cbn [List.length Nat.eqb negb]. destruct (Z.ltb_spec n 0); [lia|].
  rewrite (Hneg _ _ (proj1 Hl) Fh1), (Hneg _ _ Faq Fap).
  destruct (fle (fadd higher fone) lower) eqn:C1; cbn [negb andb].
  { rewrite (proj2 E1 eq_refl), choice_any_empty by lia. reflexivity. }
  destruct (choice_any_total g (arange_f lower (fadd higher fone)) (Z.to_nat n) w Hg) as (ms & w1 & Hms & Lms & _).
  { left. intros E. apply E1 in E. congruence. }
  rewrite Hms. destruct (fle (fabs (fhalf higher)) (fabs (fquarter lower))) eqn:C2; cbn [negb].
  { rewrite (proj2 E2 eq_refl), choice_any_empty by lia. reflexivity. }
  destruct (choice_any_total g (arange_f (fabs (fquarter lower)) (fabs (fhalf higher))) (Z.to_nat n) w1 Hg) as (ss & w2 & Hss & Lss & Iss).
  { left. intros E. apply E2 in E. congruence. }
  rewrite Hss. eexists _, w2. split; [reflexivity|]. intros size w3 Hs. unfold unigauss_init_sample. cbn [gi_means gi_stds gi_n].
  destruct (np_normal_total g ms ss size (Z.to_nat n) w3) as (a & w4 & Ha); [|exact Hs|exact Lms|exact Lss|].
  - apply not_true_is_false. intros E. apply existsb_exists in E as (x & Hx & E). apply Iss in Hx.
    unfold arange_f in Hx. apply tabulate_In in Hx as (k & _ & ->). rewrite fadd_nonneg_sign in E; [discriminate|apply fabs_sign|apply isfin_not_nan, Faq].
  - exists a, w4. split; [exact Ha|]. eapply np_normal_ok, Ha.
Qed.

(** With the upper end fixed at 100, as EDACustom does, every lower bound of magnitude 200 or
    more is refused. *)
Lemma unigauss_init_refused {W} (g : rng W) n lower w :
  pick_ok g -> (0 < n)%Z -> moderate lower -> 200 <= Rabs (B2R lower) ->
  fst (unigauss_init_new g n [] [] lower (Z2f 100) w) = Raise ValueError.
Proof.
  intros Hg Hn Hl H200.
  assert (Hh : moderate (Z2f 100)).
  { destruct (Z2f_exact 100) as [R F]; [cbn; lia|]. split; [exact F|]. rewrite R. rewrite Rabs_pos_eq by lra.
    apply Rle_trans with (bpow radix2 7); [cbn; lra|apply bpow_le; lia]. }
  pose proof (unigauss_init_bounds g n lower (Z2f 100) w Hg Hn Hl Hh) as H.
  assert (C : flt (fabs (fquarter lower)) (fabs (fhalf (Z2f 100))) = false).
  { destruct (moderate_div lower 4 Hl ltac:(lia)) as (Fq & Rq & _). destruct (moderate_div (Z2f 100) 2 Hh ltac:(lia)) as (Fp & Rp & _).
    fold (fquarter lower) in *. fold (fhalf (Z2f 100)) in *.
    destruct (fabs_R _ Fq) as [Faq Raq]. destruct (fabs_R _ Fp) as [Fap Rap].
    apply not_true_is_false. intros E. apply (flt_fin _ _ Faq Fap) in E. rewrite Raq, Rap, Rq, Rp in E.
    destruct (Z2f_exact 100) as [R1 _]; [cbn; lia|]. rewrite R1 in E. replace (100 / 2) with (IZR 50) in E by lra.
    rewrite (rnd_Z 50) in E by (cbn; lia). rewrite (Rabs_pos_eq 50) in E by lra.
    assert (50 <= Rabs (rnd (B2R lower / 4))); [|lra].
    destruct (Rle_lt_dec 0 (B2R lower)) as [P|P].
    - rewrite (Rabs_pos_eq (B2R lower)) in H200 by exact P. assert (50 <= rnd (B2R lower / 4)) by (apply (Z_le_rnd _ 50); [cbn; lia|lra]).
      rewrite Rabs_pos_eq; lra.
    - rewrite (Rabs_left (B2R lower)) in H200 by exact P. assert (rnd (B2R lower / 4) <= -50) by (apply (rnd_le_Z _ (-50)); [cbn; lia|lra]).
      rewrite Rabs_left; lra. }
  rewrite C, andb_false_r in H. exact H.
Qed.
