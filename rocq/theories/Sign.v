(** Signs of results of the arithmetic: standard deviations are never negative. *)
From Coq Require Import String List ZArith Bool Lia Reals Lra.
From Flocq Require Import Core IEEE754.BinarySingleNaN.
From Verif Require Import PyBase B64 B64More NdArray Rand Models Trunc.
Import ListNotations.
Open Scope nat_scope.

Lemma overflow_sign (x : f64) s : B2SF x = binary_overflow 53 1024 mode_NE s -> Bsign x = s.
Proof. destruct x as [t|t| |t m e Hb]; cbn; intros H; try discriminate. injection H as ->. reflexivity. Qed.

Lemma fmul_sign (a b : f64) : isnan (fmul a b) = false -> Bsign (fmul a b) = xorb (Bsign a) (Bsign b).
Proof.
  intros N. pose proof (Bmult_correct 53 1024 eq_refl eq_refl mode_NE a b) as H.
  change (Bmult mode_NE a b) with (fmul a b) in H. destruct (Rlt_bool _ _).
  - destruct H as (_ & _ & H). apply H, N.
  - apply overflow_sign, H.
Qed.

Lemma fdiv_sign (a b : f64) : isnan (fdiv a b) = false -> Bsign (fdiv a b) = xorb (Bsign a) (Bsign b).
Proof.
  intros N. destruct (Req_dec (B2R b) 0) as [Hb|Hb].
  - destruct b as [s|s| |s m e Hm].
    + destruct a; cbn in *; try discriminate; reflexivity.
    + destruct a; cbn in *; try discriminate; reflexivity.
    + destruct a; discriminate.
    + exfalso. cbn in Hb. apply eq_0_F2R in Hb. destruct s; discriminate.
  - pose proof (Bdiv_correct 53 1024 eq_refl eq_refl mode_NE a b Hb) as H.
    change (Bdiv mode_NE a b) with (fdiv a b) in H. destruct (Rlt_bool _ _).
    + destruct H as (_ & _ & H). apply H, N.
    + apply overflow_sign, H.
Qed.

Lemma fsqrt_sign (a : f64) : isnan (fsqrt a) = false -> Bsign (fsqrt a) = Bsign a.
Proof. intros N. pose proof (Bsqrt_correct 53 1024 eq_refl eq_refl mode_NE a) as (_ & _ & H). apply H, N. Qed.

Lemma signed_iff (x : f64) : neg_signed x = false <-> (isnan x = false -> Bsign x = false).
Proof. unfold neg_signed. destruct (isnan x), (Bsign x); cbn; intuition congruence. Qed.

Lemma fmul_nan (a b : f64) : isnan (fmul a b) = false -> isnan a = false /\ isnan b = false.
Proof. destruct a, b; cbn; auto; discriminate. Qed.
Lemma fdiv_nan (a b : f64) : isnan (fdiv a b) = false -> isnan a = false /\ isnan b = false.
Proof. destruct a, b; cbn; auto; discriminate. Qed.
Lemma fsqrt_nan (a : f64) : isnan (fsqrt a) = false -> isnan a = false.
Proof. destruct a; cbn; auto. Qed.

Lemma square_nonneg (a : f64) : neg_signed (fmul a a) = false.
Proof. apply signed_iff. intros N. rewrite fmul_sign by exact N. apply xorb_nilpotent. Qed.
Lemma fdiv_nonneg (a b : f64) : neg_signed a = false -> neg_signed b = false -> neg_signed (fdiv a b) = false.
Proof.
  rewrite !signed_iff. intros Ha Hb N. destruct (fdiv_nan _ _ N) as [Na Nb]. rewrite fdiv_sign by exact N. rewrite Ha, Hb by assumption. reflexivity.
Qed.
Lemma fsqrt_nonneg (a : f64) : neg_signed a = false -> neg_signed (fsqrt a) = false.
Proof. rewrite !signed_iff. intros Ha N. rewrite fsqrt_sign by exact N. apply Ha, fsqrt_nan, N. Qed.
Lemma Z2f_nonneg k : neg_signed (Z2f (Z.of_nat k)) = false.
Proof. apply signed_iff. intros _. apply Z2f_sign. Qed.

(** Above something that carries no sign there is no sign. *)
Lemma above_nonneg (x l : f64) : neg_signed x = false -> flt x l = true -> neg_signed l = false.
Proof.
  destruct x as [[|]|[|]| |[|] m e Hm], l as [[|]|[|]| |[|] m' e' Hm']; cbn; try discriminate; reflexivity.
Qed.

(** A summation of numbers without a sign has no sign: true of any order of additions. *)
Definition sum_ok (s : list f64 -> f64) : Prop :=
  forall l, Forall (fun x => neg_signed x = false) l -> neg_signed (s l) = false.

Lemma std_nonneg s x : sum_ok s -> neg_signed (std (b64_ops s) x) = false.
Proof.
  intros Hs. unfold std. cbn [b64_ops o_sqrt o_div o_ofZ len_T]. apply fsqrt_nonneg, fdiv_nonneg.
  - unfold dot. cbn [b64_ops o_sum o_mul]. apply Hs. apply Forall_forall. intros v Hv. apply in_map_iff in Hv as ([a b] & <- & Hin).
    assert (E : a = b).
    { revert Hin. generalize (centred (b64_ops s) x). induction l as [|y l IH]; cbn; [intros []|]. intros [H|H]; [congruence|apply IH, H]. }
    subst b. apply square_nonneg.
  - apply Z2f_nonneg.
Qed.

Lemma raised_nonneg s lower v : neg_signed v = false -> neg_signed (raise_to (b64_ops s) lower v) = false.
Proof.
  intros H. unfold raise_to. cbn [b64_ops o_ltb]. destruct (flt v lower) eqn:E; [|exact H]. eapply above_nonneg; eassumption.
Qed.

Lemma fadd_nonneg (a b : f64) : neg_signed a = false -> neg_signed b = false -> neg_signed (fadd a b) = false.
Proof.
  rewrite (signed_iff a), (signed_iff b). intros Ha Hb. apply signed_iff. intros N.
  destruct (isfin a) eqn:Fa; destruct (isfin b) eqn:Fb.
  - assert (Sa : Bsign a = false) by (apply Ha; destruct a; cbn in *; congruence).
    assert (Sb : Bsign b = false) by (apply Hb; destruct b; cbn in *; congruence).
    pose proof (Bplus_correct 53 1024 eq_refl eq_refl mode_NE a b Fa Fb) as Hc.
    change (Bplus mode_NE a b) with (fadd a b) in Hc. destruct (Rlt_bool _ _).
    + destruct Hc as (_ & _ & Hs). rewrite Hs, Sa, Sb.
      assert (0 <= B2R a)%R by (destruct a as [s|s| |s m e Hm]; cbn in *; try lra; subst; apply F2R_ge_0; cbn; lia).
      assert (0 <= B2R b)%R by (destruct b as [s|s| |s m e Hm]; cbn in *; try lra; subst; apply F2R_ge_0; cbn; lia).
      destruct (Rcompare_spec (B2R a + B2R b) 0); try reflexivity. lra.
    + destruct Hc as [Hc _]. rewrite (overflow_sign _ _ Hc). exact Sa.
  - destruct b as [s|s| |s m e Hm]; cbn in *; try discriminate; destruct a as [t|t| |t m e Hm]; cbn in *; try discriminate; auto.
  - destruct a as [s|s| |s m e Hm]; cbn in *; try discriminate; destruct b as [t|t| |t m e Hm]; cbn in *; try discriminate; auto.
  - destruct a as [s|s| |s m e Hm]; cbn in *; try discriminate; destruct b as [t|t| |t m e Hm]; cbn in *; try discriminate.
    specialize (Ha eq_refl). specialize (Hb eq_refl). subst. reflexivity.
Qed.

Lemma seq_sum_ok : sum_ok seq_sum.
Proof.
  intros l H. unfold seq_sum. assert (G : forall a, neg_signed a = false -> neg_signed (fold_left fadd l a) = false).
  { induction H as [|x l Hx _ IH]; intros a Ha; cbn [fold_left]; [exact Ha|]. apply IH, fadd_nonneg; assumption. }
  apply G. apply (Z2f_nonneg 0).
Qed.
