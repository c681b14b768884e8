(** Further facts on binary64 arithmetic: sums, quotients and differences of finite values. *)
From Coq Require Import Reals Lra ZArith Bool Lia.
From Flocq Require Import Core IEEE754.BinarySingleNaN.
From Verif Require Import B64.
Open Scope R_scope.

Lemma rnd_Z (z : Z) : (Z.abs z <= 2 ^ 53)%Z -> rnd (IZR z) = IZR z.
Proof. intros H. destruct (Z2f_exact z H) as [<- _]. apply rnd_B2R. Qed.

Lemma big_gt_2_53 : IZR (2 ^ 53) < big.
Proof. unfold big. change (IZR (2 ^ 53)) with (bpow radix2 53). apply bpow_lt. lia. Qed.

Lemma fadd_fin (a b : f64) :
  isfin a = true -> isfin b = true -> Rabs (rnd (B2R a + B2R b)) < big ->
  isfin (fadd a b) = true /\ B2R (fadd a b) = rnd (B2R a + B2R b).
Proof.
  intros Fa Fb H. pose proof (Bplus_correct 53 1024 _ _ mode_NE a b Fa Fb) as Hc.
  change (Bplus mode_NE a b) with (fadd a b) in Hc. unfold rnd, big in H.
  rewrite Rlt_bool_true in Hc by exact H. destruct Hc as (H1 & H2 & _). split; assumption.
Qed.

Lemma fsub_fin (a b : f64) :
  isfin a = true -> isfin b = true -> Rabs (rnd (B2R a - B2R b)) < big ->
  isfin (fsub a b) = true /\ B2R (fsub a b) = rnd (B2R a - B2R b).
Proof.
  intros Fa Fb H. pose proof (Bminus_correct 53 1024 _ _ mode_NE a b Fa Fb) as Hc.
  change (Bminus mode_NE a b) with (fsub a b) in Hc. unfold rnd, big in H.
  rewrite Rlt_bool_true in Hc by exact H. destruct Hc as (H1 & H2 & _). split; assumption.
Qed.

Lemma fmul_fin (a b : f64) :
  isfin a = true -> isfin b = true -> Rabs (rnd (B2R a * B2R b)) < big ->
  isfin (fmul a b) = true /\ B2R (fmul a b) = rnd (B2R a * B2R b).
Proof.
  intros Fa Fb H. pose proof (Bmult_correct 53 1024 _ _ mode_NE a b) as Hc.
  change (Bmult mode_NE a b) with (fmul a b) in Hc. unfold rnd, big in H.
  rewrite Rlt_bool_true in Hc by exact H. destruct Hc as (H1 & H2 & _). split; [|exact H1].
  change (isfin (fmul a b)) with (is_finite (fmul a b)). rewrite H2. unfold isfin in *. rewrite Fa, Fb. reflexivity.
Qed.

Lemma fdiv_fin (a b : f64) :
  isfin a = true -> B2R b <> 0 -> Rabs (rnd (B2R a / B2R b)) < big ->
  isfin (fdiv a b) = true /\ B2R (fdiv a b) = rnd (B2R a / B2R b).
Proof.
  intros Fa Fb H. pose proof (Bdiv_correct 53 1024 _ _ mode_NE a b Fb) as Hc.
  change (Bdiv mode_NE a b) with (fdiv a b) in Hc. unfold rnd, big in H.
  rewrite Rlt_bool_true in Hc by exact H. destruct Hc as (H1 & H2 & _). split; [|exact H1].
  change (isfin (fdiv a b)) with (is_finite (fdiv a b)). rewrite H2. exact Fa.
Qed.

(** A bound that is itself a double carries over to the rounded value. *)
Lemma rnd_le_B2R (x : R) (b : f64) : x <= B2R b -> rnd x <= B2R b.
Proof. intros H. rewrite <- (rnd_B2R b). apply rnd_le, H. Qed.
Lemma B2R_le_rnd (x : R) (b : f64) : B2R b <= x -> B2R b <= rnd x.
Proof. intros H. rewrite <- (rnd_B2R b). apply rnd_le, H. Qed.
Lemma rnd_le_Z (x : R) (z : Z) : (Z.abs z <= 2 ^ 53)%Z -> x <= IZR z -> rnd x <= IZR z.
Proof. intros Hz H. rewrite <- (rnd_Z z Hz). apply rnd_le, H. Qed.
Lemma Z_le_rnd (x : R) (z : Z) : (Z.abs z <= 2 ^ 53)%Z -> IZR z <= x -> IZR z <= rnd x.
Proof. intros Hz H. rewrite <- (rnd_Z z Hz). apply rnd_le, H. Qed.

Lemma isfin_not_nan (a : f64) : isfin a = true -> isnan a = false.
Proof. destruct a; cbn; intros; try discriminate; reflexivity. Qed.

Lemma flt_fin (a b : f64) : isfin a = true -> isfin b = true -> (flt a b = true <-> B2R a < B2R b).
Proof.
  intros Fa Fb. rewrite (flt_ext a b (isfin_not_nan a Fa) (isfin_not_nan b Fb)), !ext_finite by assumption. tauto.
Qed.
Lemma fle_fin (a b : f64) : isfin a = true -> isfin b = true -> (fle a b = true <-> B2R a <= B2R b).
Proof.
  intros Fa Fb. rewrite (fle_ext a b (isfin_not_nan a Fa) (isfin_not_nan b Fb)), !ext_finite by assumption. tauto.
Qed.
Lemma feq_fin (a b : f64) : isfin a = true -> isfin b = true -> (feq a b = true <-> B2R a = B2R b).
Proof.
  intros Fa Fb. rewrite (feq_ext a b (isfin_not_nan a Fa) (isfin_not_nan b Fb)), !ext_finite by assumption. tauto.
Qed.

Lemma Z2f_0_R : B2R (Z2f 0) = 0. Proof. apply Z2f_exact. cbn. lia. Qed.
Lemma Z2f_0_fin : isfin (Z2f 0) = true. Proof. apply Z2f_exact. cbn. lia. Qed.

(** Values between two finite doubles are finite. *)
Lemma fle_between_fin (a b c : f64) :
  isfin a = true -> isfin c = true -> fle a b = true -> fle b c = true -> isfin b = true.
Proof.
  intros Fa Fc H1 H2. destruct (fle_not_nan _ _ H1) as [Na Nb], (fle_not_nan _ _ H2) as [_ Nc].
  apply (fle_ext a b Na Nb) in H1. apply (fle_ext b c Nb Nc) in H2. rewrite (ext_finite a Fa) in H1. rewrite (ext_finite c Fc) in H2.
  pose proof (B2R_lt_big a). pose proof (B2R_lt_big c).
  destruct b as [s|s| |s m e Hb]; [reflexivity| |discriminate|reflexivity]. destruct s; cbn [ext] in *; lra.
Qed.

(** A double in [0, 1) is finite and its value lies there. *)
Lemma unit_R (u : f64) : fle (Z2f 0) u = true -> flt u fone = true -> isfin u = true /\ 0 <= B2R u < 1.
Proof.
  intros H0 H1.
  assert (F : isfin u = true) by (eapply fle_between_fin; [exact Z2f_0_fin|exact fone_fin|exact H0|apply flt_fle, H1]).
  split; [exact F|]. apply (fle_fin _ _ Z2f_0_fin F) in H0. rewrite Z2f_0_R in H0.
  apply (flt_fin _ _ F fone_fin) in H1. rewrite fone_R in H1. lra.
Qed.

Lemma fle_unit_R (u : f64) : fle (Z2f 0) u = true -> fle u fone = true -> isfin u = true /\ 0 <= B2R u <= 1.
Proof.
  intros H0 H1.
  assert (F : isfin u = true) by (eapply fle_between_fin; [exact Z2f_0_fin|exact fone_fin|exact H0|exact H1]).
  split; [exact F|]. apply (fle_fin _ _ Z2f_0_fin F) in H0. rewrite Z2f_0_R in H0.
  apply (fle_fin _ _ F fone_fin) in H1. rewrite fone_R in H1. lra.
Qed.

Lemma rnd_abs_lt_big (x y : R) (a b : f64) : B2R a <= x -> x <= B2R b -> Rabs (rnd x) < big.
Proof.
  intros H1 H2. apply B2R_le_rnd in H1. apply rnd_le_B2R in H2.
  pose proof (B2R_lt_big a). pose proof (B2R_lt_big b). apply Rabs_def1; lra.
Qed.

Lemma flt_trans (a b c : f64) : flt a b = true -> flt b c = true -> flt a c = true.
Proof. intros H1 H2. eapply flt_fle_trans; [exact H1|apply flt_fle, H2]. Qed.

Lemma flt_asym (a b : f64) : flt a b = true -> flt b a = false.
Proof. intros H. apply fle_flt_false, flt_fle, H. Qed.

Lemma fmul_comm (a b : f64) : fmul a b = fmul b a.
Proof.
  apply B2SF_inj. unfold fmul, Bmult.
  destruct a as [sa|sa| |sa ma ea Ha], b as [sb|sb| |sb mb eb Hb]; cbn [B2SF]; try reflexivity;
    try (rewrite xorb_comm; reflexivity).
  rewrite !B2SF_SF2B. rewrite (xorb_comm sa sb), (Pos.mul_comm ma mb), (Z.add_comm ea eb). reflexivity.
Qed.
