(** IEEE 754 binary64 as used by Python floats and numpy float64.

    Operations are Flocq's (round to nearest, ties to even).  NaN payloads are not
    distinguished, which neither Python nor numpy comparisons observe.  *)
From Coq Require Import List ZArith Bool Reals Lia Lra.
From Flocq Require Import Core IEEE754.BinarySingleNaN.
Import ListNotations.
Open Scope R_scope.

(** Python float and numpy float64; every number of eda.py that is not an int. *)
Definition f64 := binary_float 53 1024.

#[global] Instance prec53_gt_0 : Prec_gt_0 53 := eq_refl.
#[global] Instance prec53_lt_emax : Prec_lt_emax 53 1024 := eq_refl.

(** [a + b] (e.g. eda.py:188, 201). *)
Definition fadd (a b : f64) : f64 := Bplus mode_NE a b.
(** [a - b] (e.g. adaptive_univariate_gaussian.py:53-54). *)
Definition fsub (a b : f64) : f64 := Bminus mode_NE a b.
(** [a * b] (e.g. eda.py:42, 44, 201). *)
Definition fmul (a b : f64) : f64 := Bmult mode_NE a b.
(** [a / b] (e.g. univariate_binary.py:51). *)
Definition fdiv (a b : f64) : f64 := Bdiv mode_NE a b.
(** [np.sqrt(a)] (inside [np.std], e.g. univariate_gaussian.py:45; tools.py:36). *)
Definition fsqrt (a : f64) : f64 := Bsqrt mode_NE a.
(** [-a]. *)
Definition fopp (a : f64) : f64 := Bopp a.
(** [a < b] (e.g. eda.py:201). *)
Definition flt (a b : f64) : bool := Bltb a b.
(** [a <= b] (e.g. categorical_geninit.py:28). *)
Definition fle (a b : f64) : bool := Bleb a b.
(** [a == b] (e.g. eda.py:174, 197). *)
Definition feq (a b : f64) : bool := Beqb a b.
(** [np.nan]. *)
Definition fnan : f64 := B754_nan.
(** [np.inf] or [-np.inf]. *)
Definition finf (s : bool) : f64 := B754_infinity s.
(** [0.0]. *)
Definition fzero : f64 := B754_zero false.
(** [np.isnan(a)]. *)
Definition isnan (a : f64) : bool := is_nan a.
(** [np.isfinite(a)]. *)
Definition isfin (a : f64) : bool := is_finite a.

(** [float(z)]: nearest double to an integer. *)
Definition Z2f (z : Z) : f64 := binary_normalize 53 1024 _ _ mode_NE z 0 false.
(** [1.0] (e.g. eda.py:201). *)
Definition fone : f64 := Z2f 1.

(** A literal [m * 2^e]. *)
Definition lit (m e : Z) : f64 := binary_normalize 53 1024 _ _ mode_NE m e false.

(** Python's [int(x)] on a float is modelled in NdArray ([py_int]). *)

(** numpy's sort order: ascending, NaN after everything else. *)
Definition np_le (a b : f64) : bool := isnan b || fle a b.

(* ------------------------------------------------------------------ *)
(** ** An order embedding of the non-NaN doubles into the reals *)

(** A real above every finite double.  Not code: used in proofs. *)
Definition big : R := bpow radix2 1024.

(** Infinities as that real.  Not code: used in proofs. *)
Definition ext (a : f64) : R :=
  match a with
  | B754_infinity false => big
  | B754_infinity true => - big
  | _ => B2R a
  end.

Lemma big_pos : 0 < big.
Proof. apply bpow_gt_0. Qed.

Lemma B2R_lt_big (a : f64) : - big < B2R a < big.
Proof.
  pose proof (abs_B2R_lt_emax 53 1024 a) as H. fold big in H.
  apply Rabs_lt_inv in H. exact H.
Qed.

Lemma ext_finite (a : f64) : isfin a = true -> ext a = B2R a.
Proof. destruct a as [s|[]| |s m e Hb]; cbn; try discriminate; reflexivity. Qed.

Lemma ext_range (a : f64) : - big <= ext a <= big.
Proof.
  pose proof big_pos as Hb. pose proof (B2R_lt_big a) as H.
  destruct a as [s|[]| |s m e Hbd]; cbn in *; lra.
Qed.

Lemma Bcompare_ext (a b : f64) :
  isnan a = false -> isnan b = false -> Bcompare a b = Some (Rcompare (ext a) (ext b)).
Proof.
  intros Ha Hb.
  destruct (isfin a) eqn:Fa; destruct (isfin b) eqn:Fb.
  - rewrite (ext_finite a Fa), (ext_finite b Fb). apply Bcompare_correct; assumption.
  - pose proof (B2R_lt_big a) as Hr.
    destruct b as [s|[]| |s m e Hbd]; cbn in Fb, Hb; try discriminate;
      rewrite (ext_finite a Fa); cbn [ext].
    + rewrite Rcompare_Gt by lra. destruct a as [s|s| |[] m e Hbd]; cbn in *; try discriminate; reflexivity.
    + rewrite Rcompare_Lt by lra. destruct a as [s|s| |[] m e Hbd]; cbn in *; try discriminate; reflexivity.
  - pose proof (B2R_lt_big b) as Hr.
    destruct a as [s|[]| |s m e Hbd]; cbn in Fa, Ha; try discriminate;
      rewrite (ext_finite b Fb); cbn [ext].
    + rewrite Rcompare_Lt by lra. destruct b as [s|s| |[] m e Hbd]; cbn in *; try discriminate; reflexivity.
    + rewrite Rcompare_Gt by lra. destruct b as [s|s| |[] m e Hbd]; cbn in *; try discriminate; reflexivity.
  - pose proof big_pos as Hbig.
    destruct a as [s|[]| |s m e Hbd]; cbn in Fa, Ha; try discriminate;
    destruct b as [s|[]| |s m e Hbd]; cbn in Fb, Hb; try discriminate; cbn [ext].
    + rewrite Rcompare_Eq by lra. reflexivity.
    + rewrite Rcompare_Lt by lra. reflexivity.
    + rewrite Rcompare_Gt by lra. reflexivity.
    + rewrite Rcompare_Eq by lra. reflexivity.
Qed.

Lemma flt_ext (a b : f64) :
  isnan a = false -> isnan b = false -> (flt a b = true <-> ext a < ext b).
Proof.
  intros Ha Hb. pose proof (Bcompare_ext a b Ha Hb) as H.
  unfold flt, Bltb, SpecFloat.SFltb. unfold Bcompare in H. rewrite H.
  destruct (Rcompare_spec (ext a) (ext b)); split; intros; try discriminate; try lra; reflexivity.
Qed.

Lemma fle_ext (a b : f64) :
  isnan a = false -> isnan b = false -> (fle a b = true <-> ext a <= ext b).
Proof.
  intros Ha Hb. pose proof (Bcompare_ext a b Ha Hb) as H.
  unfold fle, Bleb, SpecFloat.SFleb. unfold Bcompare in H. rewrite H.
  destruct (Rcompare_spec (ext a) (ext b)); split; intros; try discriminate; try lra; reflexivity.
Qed.

Lemma feq_ext (a b : f64) :
  isnan a = false -> isnan b = false -> (feq a b = true <-> ext a = ext b).
Proof.
  intros Ha Hb. pose proof (Bcompare_ext a b Ha Hb) as H.
  unfold feq, Beqb, SpecFloat.SFeqb. unfold Bcompare in H. rewrite H.
  destruct (Rcompare_spec (ext a) (ext b)); split; intros; try discriminate; try lra; reflexivity.
Qed.

Lemma flt_nan_l (a b : f64) : isnan a = true -> flt a b = false.
Proof. destruct a; cbn; try discriminate. reflexivity. Qed.
Lemma flt_nan_r (a b : f64) : isnan b = true -> flt a b = false.
Proof. destruct b; cbn; try discriminate. destruct a as [| | |[]]; reflexivity. Qed.
Lemma fle_nan_l (a b : f64) : isnan a = true -> fle a b = false.
Proof. destruct a; cbn; try discriminate. reflexivity. Qed.
Lemma fle_nan_r (a b : f64) : isnan b = true -> fle a b = false.
Proof. destruct b; cbn; try discriminate. destruct a as [| | |[]]; reflexivity. Qed.
Lemma feq_nan_l (a b : f64) : isnan a = true -> feq a b = false.
Proof. destruct a; cbn; try discriminate. reflexivity. Qed.
Lemma feq_nan_r (a b : f64) : isnan b = true -> feq a b = false.
Proof. destruct b; cbn; try discriminate. destruct a as [| | |[]]; reflexivity. Qed.

Lemma flt_not_nan (a b : f64) : flt a b = true -> isnan a = false /\ isnan b = false.
Proof.
  intros H. destruct (isnan a) eqn:Ha; [rewrite flt_nan_l in H by exact Ha; discriminate|].
  destruct (isnan b) eqn:Hb; [rewrite flt_nan_r in H by exact Hb; discriminate|]. split; reflexivity.
Qed.
Lemma fle_not_nan (a b : f64) : fle a b = true -> isnan a = false /\ isnan b = false.
Proof.
  intros H. destruct (isnan a) eqn:Ha; [rewrite fle_nan_l in H by exact Ha; discriminate|].
  destruct (isnan b) eqn:Hb; [rewrite fle_nan_r in H by exact Hb; discriminate|]. split; reflexivity.
Qed.
Lemma feq_not_nan (a b : f64) : feq a b = true -> isnan a = false /\ isnan b = false.
Proof.
  intros H. destruct (isnan a) eqn:Ha; [rewrite feq_nan_l in H by exact Ha; discriminate|].
  destruct (isnan b) eqn:Hb; [rewrite feq_nan_r in H by exact Hb; discriminate|]. split; reflexivity.
Qed.

Lemma flt_false_fle (a b : f64) :
  isnan a = false -> isnan b = false -> flt a b = false -> fle b a = true.
Proof.
  intros Ha Hb H. apply fle_ext; [assumption..|].
  destruct (Rlt_le_dec (ext a) (ext b)) as [Hlt|Hle]; [|exact Hle].
  apply (flt_ext a b Ha Hb) in Hlt. congruence.
Qed.

Lemma fle_flt_false (a b : f64) : fle b a = true -> flt a b = false.
Proof.
  intros H. destruct (fle_not_nan _ _ H) as [Hb Ha]. apply (fle_ext b a Hb Ha) in H.
  destruct (flt a b) eqn:E; [|reflexivity]. apply (flt_ext a b Ha Hb) in E. lra.
Qed.

Lemma flt_fle (a b : f64) : flt a b = true -> fle a b = true.
Proof.
  intros H. destruct (flt_not_nan _ _ H) as [Ha Hb].
  apply (flt_ext a b Ha Hb) in H. apply fle_ext; [assumption..|lra].
Qed.

Lemma fle_refl (a : f64) : isnan a = false -> fle a a = true.
Proof. intros Ha. apply fle_ext; [assumption..|lra]. Qed.

Lemma fle_trans (a b c : f64) : fle a b = true -> fle b c = true -> fle a c = true.
Proof.
  intros H1 H2. destruct (fle_not_nan _ _ H1) as [Ha Hb], (fle_not_nan _ _ H2) as [_ Hc].
  apply (fle_ext a b Ha Hb) in H1. apply (fle_ext b c Hb Hc) in H2.
  apply fle_ext; [assumption..|lra].
Qed.

Lemma flt_fle_trans (a b c : f64) : flt a b = true -> fle b c = true -> flt a c = true.
Proof.
  intros H1 H2. destruct (flt_not_nan _ _ H1) as [Ha Hb], (fle_not_nan _ _ H2) as [_ Hc].
  apply (flt_ext a b Ha Hb) in H1. apply (fle_ext b c Hb Hc) in H2.
  apply flt_ext; [assumption..|lra].
Qed.

Lemma fle_flt_trans (a b c : f64) : fle a b = true -> flt b c = true -> flt a c = true.
Proof.
  intros H1 H2. destruct (fle_not_nan _ _ H1) as [Ha Hb], (flt_not_nan _ _ H2) as [_ Hc].
  apply (fle_ext a b Ha Hb) in H1. apply (flt_ext b c Hb Hc) in H2.
  apply flt_ext; [assumption..|lra].
Qed.

Lemma fle_antisym_feq (a b : f64) : fle a b = true -> fle b a = true -> feq a b = true.
Proof.
  intros H1 H2. destruct (fle_not_nan _ _ H1) as [Ha Hb].
  apply (fle_ext a b Ha Hb) in H1. apply (fle_ext b a Hb Ha) in H2.
  apply feq_ext; [assumption..|lra].
Qed.

Lemma feq_refl (a : f64) : isnan a = false -> feq a a = true.
Proof. intros Ha. apply feq_ext; [assumption..|reflexivity]. Qed.

Lemma feq_trans (a b c : f64) : feq a b = true -> feq b c = true -> feq a c = true.
Proof.
  intros H1 H2. destruct (feq_not_nan _ _ H1) as [Ha Hb], (feq_not_nan _ _ H2) as [_ Hc].
  apply (feq_ext a b Ha Hb) in H1. apply (feq_ext b c Hb Hc) in H2. apply feq_ext; [assumption..|congruence].
Qed.

Lemma feq_fle (a b : f64) : feq a b = true -> fle a b = true.
Proof.
  intros H. destruct (feq_not_nan _ _ H) as [Ha Hb].
  apply (feq_ext a b Ha Hb) in H. apply fle_ext; [assumption..|lra].
Qed.

Lemma feq_sym (a b : f64) : feq a b = feq b a.
Proof.
  destruct (isnan a) eqn:Ha; [rewrite feq_nan_l, feq_nan_r by exact Ha; reflexivity|].
  destruct (isnan b) eqn:Hb; [rewrite feq_nan_r, feq_nan_l by exact Hb; reflexivity|].
  destruct (feq a b) eqn:E1; destruct (feq b a) eqn:E2; try reflexivity.
  - apply (feq_ext a b Ha Hb) in E1. symmetry in E1. apply (feq_ext b a Hb Ha) in E1. congruence.
  - apply (feq_ext b a Hb Ha) in E2. symmetry in E2. apply (feq_ext a b Ha Hb) in E2. congruence.
Qed.

Lemma flt_irrefl (a : f64) : flt a a = false.
Proof.
  destruct (isnan a) eqn:Ha; [apply flt_nan_l; exact Ha|].
  apply fle_flt_false, fle_refl, Ha.
Qed.

Lemma np_le_refl (a : f64) : np_le a a = true.
Proof.
  unfold np_le. destruct (isnan a) eqn:Ha; [reflexivity|]. cbn. apply fle_refl, Ha.
Qed.

Lemma np_le_trans (a b c : f64) : np_le a b = true -> np_le b c = true -> np_le a c = true.
Proof.
  unfold np_le. intros H1 H2. destruct (isnan c) eqn:Hc; [reflexivity|]. cbn in *.
  destruct (isnan b) eqn:Hb; [rewrite fle_nan_l in H2 by exact Hb; discriminate|]. cbn in *.
  eapply fle_trans; eassumption.
Qed.

Lemma np_le_total (a b : f64) : np_le a b = true \/ np_le b a = true.
Proof.
  unfold np_le. destruct (isnan a) eqn:Ha; [right; reflexivity|].
  destruct (isnan b) eqn:Hb; [left; reflexivity|]. cbn.
  destruct (Rle_lt_dec (ext a) (ext b)) as [H|H].
  - left. apply fle_ext; assumption.
  - right. apply fle_ext; [assumption..|lra].
Qed.

Lemma np_le_not_flt (a b : f64) : np_le a b = true -> flt b a = false.
Proof.
  unfold np_le. destruct (isnan b) eqn:Hb; cbn; intros H.
  - apply flt_nan_l; exact Hb.
  - apply fle_flt_false, H.
Qed.

Lemma np_le_fle (a b : f64) : isnan b = false -> np_le a b = true -> fle a b = true.
Proof. unfold np_le. intros ->. cbn. tauto. Qed.

(* ------------------------------------------------------------------ *)
(** ** Multiplication by a positive finite constant is monotone *)

(** Rounding to the nearest double.  Not code: used in proofs. *)
Definition rnd (x : R) : R := round radix2 (SpecFloat.fexp 53 1024) (round_mode mode_NE) x.

(** Overflow.  Not code: used in proofs. *)
Definition clip (x : R) : R := Rmax (- big) (Rmin big x).

Lemma rnd_le (x y : R) : x <= y -> rnd x <= rnd y.
Proof. intros H. apply round_le; [apply fexp_correct; reflexivity|apply valid_rnd_round_mode|exact H]. Qed.

Lemma rnd_0 : rnd 0 = 0.
Proof. apply round_0, valid_rnd_round_mode. Qed.

Lemma rnd_B2R (a : f64) : rnd (B2R a) = B2R a.
Proof. apply round_generic; [apply valid_rnd_round_mode|apply generic_format_B2R]. Qed.

Lemma rnd_ge_0 (x : R) : 0 <= x -> 0 <= rnd x.
Proof. intros H. rewrite <- rnd_0. apply rnd_le, H. Qed.

Lemma rnd_le_0 (x : R) : x <= 0 -> rnd x <= 0.
Proof. intros H. rewrite <- rnd_0. apply rnd_le, H. Qed.

Lemma clip_le (x y : R) : x <= y -> clip x <= clip y.
Proof.
  intros H. unfold clip. apply Rmax_lub; [apply Rmax_l|].
  eapply Rle_trans; [|apply Rmax_r]. apply Rmin_glb; [apply Rmin_l|].
  eapply Rle_trans; [apply Rmin_r|exact H].
Qed.

Lemma clip_id (x : R) : - big <= x <= big -> clip x = x.
Proof. intros [H1 H2]. unfold clip. rewrite Rmin_right by exact H2. apply Rmax_right, H1. Qed.

Lemma clip_hi (x : R) : big <= x -> clip x = big.
Proof.
  intros H. pose proof big_pos. unfold clip. rewrite Rmin_left by exact H.
  apply Rmax_right. lra.
Qed.

Lemma clip_lo (x : R) : x <= - big -> clip x = - big.
Proof.
  intros H. pose proof big_pos. unfold clip. rewrite Rmin_right by lra.
  apply Rmax_left. lra.
Qed.

Lemma Bsign_neg_B2R (a : f64) : isfin a = true -> B2R a < 0 -> Bsign a = true.
Proof.
  destruct a as [s|s| |[] m e Hb]; cbn; intros Hf H; try lra; try discriminate; try reflexivity.
  exfalso. assert (0 <= F2R (Float radix2 (Z.pos m) e)) by (apply F2R_ge_0; cbn; lia). lra.
Qed.

Lemma Bsign_pos_B2R (a : f64) : isfin a = true -> 0 < B2R a -> Bsign a = false.
Proof.
  destruct a as [s|s| |[] m e Hb]; cbn; intros Hf H; try lra; try discriminate; try reflexivity.
  exfalso. assert (F2R (Float radix2 (Z.neg m) e) <= 0) by (apply F2R_le_0; cbn; lia). lra.
Qed.

(** For finite [a] and finite [c] with [c > 0]: the product is never NaN and its
    embedding is the clipped, rounded real product. *)
Lemma fmul_fin_pos (a c : f64) :
  isfin a = true -> isfin c = true -> 0 < B2R c ->
  isnan (fmul a c) = false /\ ext (fmul a c) = clip (rnd (B2R a * B2R c)).
Proof.
  intros Fa Fc Hc. pose proof big_pos as Hbig.
  pose proof (Bmult_correct 53 1024 _ _ mode_NE a c) as H.
  change (Bmult mode_NE a c) with (fmul a c) in H.
  set (x := rnd (B2R a * B2R c)).
  change (round radix2 (SpecFloat.fexp 53 1024) (round_mode mode_NE) (B2R a * B2R c)) with x in H.
  fold big in H.
  destruct (Rlt_bool_spec (Rabs x) big) as [Hlt|Hge].
  - destruct H as [HR [HF _]]. change (is_finite a) with (isfin a) in HF.
    change (is_finite c) with (isfin c) in HF. rewrite Fa, Fc in HF. cbn in HF.
    split.
    + unfold isnan. destruct (fmul a c); cbn in HF |- *; try discriminate; reflexivity.
    + rewrite (ext_finite _ HF), HR. apply Rabs_lt_inv in Hlt. symmetry. apply clip_id. lra.
  - assert (Hsc : Bsign c = false) by (apply Bsign_pos_B2R; assumption).
    rewrite Hsc in H. unfold binary_overflow in H. cbn in H.
    assert (Hinf : fmul a c = B754_infinity (xorb (Bsign a) false)).
    { destruct (fmul a c) as [s|s| |s m e Hb]; cbn in H; try discriminate.
      injection H as ->. reflexivity. }
    rewrite Hinf. split; [reflexivity|].
    destruct (Rle_lt_dec 0 (B2R a)) as [Hpos|Hneg].
    + assert (Hx : 0 <= x) by (apply rnd_ge_0, Rmult_le_pos; lra).
      rewrite Rabs_pos_eq in Hge by exact Hx.
      assert (Ha : 0 < B2R a).
      { destruct Hpos as [Hp|Hp]; [exact Hp|exfalso]. unfold x in Hge. rewrite <- Hp in Hge.
        rewrite Rmult_0_l, rnd_0 in Hge. lra. }
      rewrite (Bsign_pos_B2R a Fa Ha). cbn. symmetry. apply clip_hi, Hge.
    + assert (Hx : x <= 0).
      { apply rnd_le_0. rewrite <- (Rmult_0_l (B2R c)). apply Rmult_le_compat_r; lra. }
      rewrite Rabs_left1 in Hge by exact Hx.
      rewrite (Bsign_neg_B2R a Fa Hneg). cbn. symmetry. apply clip_lo. lra.
Qed.

Lemma fmul_inf_pos (s : bool) (c : f64) :
  isfin c = true -> 0 < B2R c -> fmul (B754_infinity s) c = B754_infinity s.
Proof.
  intros Fc Hc. pose proof (Bsign_pos_B2R c Fc Hc) as Hs.
  destruct c as [s'|s'| |s' m e Hb]; cbn in *; try discriminate; try lra.
  unfold fmul, Bmult. rewrite Hs. rewrite xorb_false_r. reflexivity.
Qed.

Lemma fmul_pos_not_nan (a c : f64) :
  isnan a = false -> isfin c = true -> 0 < B2R c -> isnan (fmul a c) = false.
Proof.
  intros Ha Fc Hc. destruct (isfin a) eqn:Fa.
  - apply fmul_fin_pos; assumption.
  - destruct a as [s|s| |s m e Hb]; cbn in Fa, Ha; try discriminate.
    rewrite fmul_inf_pos by assumption. reflexivity.
Qed.

Lemma fmul_pos_mono (a b c : f64) :
  isfin c = true -> 0 < B2R c -> fle a b = true -> fle (fmul a c) (fmul b c) = true.
Proof.
  intros Fc Hc Hab. destruct (fle_not_nan _ _ Hab) as [Ha Hb].
  apply (fle_ext a b Ha Hb) in Hab.
  apply fle_ext; [apply fmul_pos_not_nan; assumption..|].
  destruct (isfin a) eqn:Fa; destruct (isfin b) eqn:Fb.
  - rewrite (ext_finite a Fa), (ext_finite b Fb) in Hab.
    destruct (fmul_fin_pos a c Fa Fc Hc) as [_ ->]. destruct (fmul_fin_pos b c Fb Fc Hc) as [_ ->].
    apply clip_le, rnd_le, Rmult_le_compat_r; lra.
  - destruct b as [s|s| |s m e Hbd]; cbn in Fb, Hb; try discriminate.
    rewrite (fmul_inf_pos s c Fc Hc). destruct s; cbn [ext].
    + rewrite (ext_finite a Fa) in Hab. cbn [ext] in Hab. pose proof (B2R_lt_big a). lra.
    + apply ext_range.
  - destruct a as [s|s| |s m e Hbd]; cbn in Fa, Ha; try discriminate.
    rewrite (fmul_inf_pos s c Fc Hc). destruct s; cbn [ext].
    + apply ext_range.
    + rewrite (ext_finite b Fb) in Hab. cbn [ext] in Hab. pose proof (B2R_lt_big b). lra.
  - destruct a as [s|s| |s m e Hbd]; cbn in Fa, Ha; try discriminate.
    destruct b as [s'|s'| |s' m e Hbd]; cbn in Fb, Hb; try discriminate.
    rewrite !fmul_inf_pos by assumption. exact Hab.
Qed.

(** Inflation: for [c >= 1], [x <= x*c] when [x >= 0] and [x*c <= x] when [x <= 0]. *)
Lemma fmul_ge1_nonneg (a c : f64) :
  isnan a = false -> isfin c = true -> 1 <= B2R c -> 0 <= ext a -> fle a (fmul a c) = true.
Proof.
  intros Ha Fc Hc H0. apply fle_ext; [assumption|apply fmul_pos_not_nan; try assumption; lra|].
  destruct (isfin a) eqn:Fa.
  - destruct (fmul_fin_pos a c Fa Fc ltac:(lra)) as [_ ->].
    rewrite (ext_finite a Fa) in *. pose proof (B2R_lt_big a) as Hr.
    rewrite <- (clip_id (B2R a)) at 1 by lra. apply clip_le.
    rewrite <- (rnd_B2R a) at 1. apply rnd_le.
    rewrite <- (Rmult_1_r (B2R a)) at 1. apply Rmult_le_compat_l; lra.
  - destruct a as [s|s| |s m e Hbd]; cbn in Fa, Ha; try discriminate.
    rewrite fmul_inf_pos by (try assumption; lra). lra.
Qed.

Lemma fmul_ge1_nonpos (a c : f64) :
  isnan a = false -> isfin c = true -> 1 <= B2R c -> ext a <= 0 -> fle (fmul a c) a = true.
Proof.
  intros Ha Fc Hc H0. apply fle_ext; [apply fmul_pos_not_nan; try assumption; lra|assumption|].
  destruct (isfin a) eqn:Fa.
  - destruct (fmul_fin_pos a c Fa Fc ltac:(lra)) as [_ ->].
    rewrite (ext_finite a Fa) in *. pose proof (B2R_lt_big a) as Hr.
    rewrite <- (clip_id (B2R a)) at 2 by lra. apply clip_le.
    rewrite <- (rnd_B2R a) at 2. apply rnd_le.
    rewrite <- (Rmult_1_r (B2R a)) at 2. apply Rmult_le_compat_neg_l; lra.
  - destruct a as [s|s| |s m e Hbd]; cbn in Fa, Ha; try discriminate.
    rewrite fmul_inf_pos by (try assumption; lra). lra.
Qed.

(* ------------------------------------------------------------------ *)
(** ** Conversions from integers *)

Lemma Z2f_exact (z : Z) : (Z.abs z <= 2 ^ 53)%Z -> B2R (Z2f z) = IZR z /\ isfin (Z2f z) = true.
Proof.
  intros Hz. pose proof (binary_normalize_correct 53 1024 _ _ mode_NE z 0 false) as H.
  change (binary_normalize 53 1024 _ _ mode_NE z 0 false) with (Z2f z) in H. cbv zeta in H.
  assert (HF : F2R (Float radix2 z 0) = IZR z).
  { unfold F2R; cbn. lra. }
  rewrite HF in H.
  assert (Hgen : generic_format radix2 (SpecFloat.fexp 53 1024) (IZR z)).
  { destruct (Z.eq_dec (Z.abs z) (2 ^ 53)) as [He|Hne].
    - assert (Hpow : generic_format radix2 (SpecFloat.fexp 53 1024) (bpow radix2 53)).
      { apply generic_format_bpow. cbv. discriminate. }
      assert (Hb : bpow radix2 53 = IZR (2 ^ 53)) by reflexivity.
      rewrite Hb in Hpow.
      destruct (Z.abs_eq_or_opp z) as [Ha|Ha].
      + rewrite <- Ha, He. exact Hpow.
      + replace z with (- (2 ^ 53))%Z by lia. rewrite opp_IZR. apply generic_format_opp, Hpow.
    - apply generic_format_FLT. exists (Float radix2 z 0).
      + symmetry. exact HF.
      + cbn. change (2 ^ 53)%Z with 9007199254740992%Z in *. lia.
      + cbn. lia. }
  rewrite round_generic in H; [|apply valid_rnd_round_mode|exact Hgen].
  rewrite Rlt_bool_true in H.
  - destruct H as [HR [HFin _]]. split; [exact HR|exact HFin].
  - rewrite <- abs_IZR. eapply Rle_lt_trans; [apply IZR_le, Hz|].
    replace (IZR (2 ^ 53)) with (bpow radix2 53) by reflexivity.
    apply bpow_lt. lia.
Qed.

Lemma Z2f_not_nan (z : Z) : isnan (Z2f z) = false.
Proof. apply is_nan_binary_normalize. Qed.

Lemma fone_R : B2R fone = 1.
Proof. apply Z2f_exact. cbn. lia. Qed.

Lemma fone_fin : isfin fone = true.
Proof. apply Z2f_exact. cbn. lia. Qed.

Lemma fmul_one_r (a : f64) : isnan a = false -> feq (fmul a fone) a = true.
Proof.
  intros Ha. apply fle_antisym_feq.
  - destruct (Rle_lt_dec (ext a) 0) as [H|H].
    + apply fmul_ge1_nonpos; [exact Ha|exact fone_fin|rewrite fone_R; lra|exact H].
    + destruct (isfin a) eqn:Fa.
      * apply fle_ext; [apply fmul_pos_not_nan; [exact Ha|exact fone_fin|rewrite fone_R; lra]|exact Ha|].
        destruct (fmul_fin_pos a fone Fa fone_fin ltac:(rewrite fone_R; lra)) as [_ ->].
        rewrite fone_R, Rmult_1_r, rnd_B2R, (ext_finite a Fa). pose proof (B2R_lt_big a).
        rewrite clip_id; lra.
      * destruct a as [s|s| |s m e Hbd]; cbn in Fa, Ha; try discriminate.
        rewrite (fmul_inf_pos s fone fone_fin ltac:(rewrite fone_R; lra)). apply fle_refl. reflexivity.
  - destruct (Rle_lt_dec (ext a) 0) as [H|H].
    + destruct (isfin a) eqn:Fa.
      * apply fle_ext; [exact Ha|apply fmul_pos_not_nan; [exact Ha|exact fone_fin|rewrite fone_R; lra]|].
        destruct (fmul_fin_pos a fone Fa fone_fin ltac:(rewrite fone_R; lra)) as [_ ->].
        rewrite fone_R, Rmult_1_r, rnd_B2R, (ext_finite a Fa). pose proof (B2R_lt_big a).
        rewrite clip_id; lra.
      * destruct a as [s|s| |s m e Hbd]; cbn in Fa, Ha; try discriminate.
        rewrite (fmul_inf_pos s fone fone_fin ltac:(rewrite fone_R; lra)). apply fle_refl. reflexivity.
    + apply fmul_ge1_nonneg; [exact Ha|exact fone_fin|rewrite fone_R; lra|lra].
Qed.
