(** int(x) on doubles, int(size * factor), and the ranges UniGaussGenInit draws from. *)
From Coq Require Import String List ZArith Bool Lia Reals Lra.
From Flocq Require Import Core IEEE754.BinarySingleNaN.
From Verif Require Import PyBase B64 B64More NdArray Rand Models Inits InitThms Interval.
Import ListNotations.
Open Scope R_scope.

Lemma Btrunc_Z (x : f64) : Btrunc x = Ztrunc (B2R x).
Proof. apply eq_IZR. rewrite (Btrunc_correct 53 1024 eq_refl). apply round_FIX_IZR. Qed.

Lemma py_int_fin (x : f64) : isfin x = true -> py_int x = Ok (Ztrunc (B2R x)).
Proof. intros H. rewrite <- Btrunc_Z. destruct x; try discriminate; reflexivity. Qed.

(** A factor in [0, 1]: an int or a double. *)
Definition factor (p : pynum) : Prop :=
  match p with PyI z => z = 0%Z \/ z = 1%Z | PyF x => fle (Z2f 0) x = true /\ fle x fone = true end.
Definition factor_R (p : pynum) : R := match p with PyI z => IZR z | PyF x => B2R x end.

Lemma int_times_bounds n p :
  (0 <= n <= 2 ^ 53)%Z -> factor p ->
  exists t, int_times n p = Ok t /\ (0 <= t <= n)%Z /\
    (Zfloor (IZR n * factor_R p) <= t <= Zceil (IZR n * factor_R p))%Z /\
    t = Zfloor (match p with PyI _ => IZR n * factor_R p | PyF _ => rnd (IZR n * factor_R p) end).
Proof.
  intros Hn Hp. destruct p as [z|x]; cbn [factor factor_R int_times] in *.
  - exists (n * z)%Z. rewrite <- mult_IZR, Zfloor_IZR, Zceil_IZR. split; [reflexivity|]. repeat split; destruct Hp; subst; lia.
  - destruct Hp as [H0 H1]. destruct (fle_unit_R x H0 H1) as [Fx [X0 X1]].
    destruct (Z2f_exact n ltac:(lia)) as [Rn Fn]. rewrite Fn.
    assert (N0 : 0 <= IZR n) by (apply IZR_le; lia).
    set (p := IZR n * B2R x).
    assert (P0 : 0 <= p) by (apply Rmult_le_pos; assumption).
    assert (P1 : p <= IZR n) by (unfold p; rewrite <- (Rmult_1_r (IZR n)) at 2; apply Rmult_le_compat_l; assumption).
    pose proof (Zfloor_lb p) as F1. pose proof (Zceil_ub p) as C1.
    assert (Zf : (0 <= Zfloor p <= n)%Z).
    { split; [apply Zfloor_lub; exact P0|]. rewrite <- (Zfloor_IZR n). apply Zfloor_le, P1. }
    assert (Zc : (0 <= Zceil p <= n)%Z).
    { split; [|apply Zceil_glb, P1]. apply Z.le_trans with (Zfloor p); [lia|]. apply le_IZR. lra. }
    assert (R1 : IZR (Zfloor p) <= rnd p) by (apply Z_le_rnd; [lia|exact F1]).
    assert (R2 : rnd p <= IZR (Zceil p)) by (apply rnd_le_Z; [lia|exact C1]).
    assert (R0 : 0 <= rnd p) by (apply rnd_ge_0, P0).
    destruct (fmul_fin (Z2f n) x Fn Fx) as [Fm Rm].
    { rewrite Rn. fold p. rewrite Rabs_pos_eq by exact R0. eapply Rle_lt_trans; [exact R2|].
      apply Rle_lt_trans with (IZR (2 ^ 53)); [apply IZR_le; lia|apply big_gt_2_53]. }
    rewrite Rn in Rm. fold p in Rm. rewrite (py_int_fin _ Fm), Rm.
    assert (T : Ztrunc (rnd p) = Zfloor (rnd p)) by (apply Ztrunc_floor, R0).
    exists (Ztrunc (rnd p)). split; [reflexivity|]. rewrite T.
    assert (A : (Zfloor p <= Zfloor (rnd p))%Z) by (rewrite <- (Zfloor_IZR (Zfloor p)) at 1; apply Zfloor_le, R1).
    assert (B : (Zfloor (rnd p) <= Zceil p)%Z) by (rewrite <- (Zfloor_IZR (Zceil p)); apply Zfloor_le, R2).
    split; [lia|]. split; [lia|reflexivity].
Qed.

(** ** [np.arange] *)

Lemma ceil_len_pos x : isfin x = true -> flt (Z2f 0) x = true -> (0 < ceil_len x)%nat.
Proof.
  intros Fx H. pose proof H as H'. apply (flt_fin _ _ Z2f_0_fin Fx) in H'. rewrite Z2f_0_R in H'.
  unfold ceil_len. rewrite (py_int_fin x Fx), (Ztrunc_floor (B2R x)) by lra. cbv beta iota.
  assert (0 <= Zfloor (B2R x))%Z by (apply Zfloor_lub; lra).
  destruct (Z.eq_dec (Zfloor (B2R x)) 0) as [->|Hz].
  - rewrite H. cbn. lia.
  - destruct (flt (Z2f (Zfloor (B2R x))) x); lia.
Qed.

Lemma ceil_len_zero x : isfin x = true -> fle x (Z2f 0) = true -> ceil_len x = 0%nat.
Proof.
  intros Fx H. apply (fle_fin _ _ Fx Z2f_0_fin) in H. rewrite Z2f_0_R in H.
  unfold ceil_len. rewrite (py_int_fin x Fx), (Ztrunc_ceil (B2R x)) by lra. cbv beta iota.
  assert (Hc : (Zceil (B2R x) <= 0)%Z) by (apply Zceil_glb; lra).
  destruct (flt (Z2f (Zceil (B2R x))) x) eqn:E; [|lia].
  destruct (Z.eq_dec (Zceil (B2R x)) 0) as [E0|]; [|lia].
  rewrite E0 in E. apply (flt_fin _ _ Z2f_0_fin Fx) in E. rewrite Z2f_0_R in E. lra.
Qed.

(** A difference of doubles rounds to zero only when they are equal. *)
Lemma fsub_pos (a b : f64) : isfin a = true -> isfin b = true -> isfin (fsub a b) = true -> B2R b < B2R a -> 0 < B2R (fsub a b).
Proof.
  intros Fa Fb Fd H. rewrite (fsub_isfin_R a b Fa Fb Fd).
  destruct (Rle_lt_dec (B2R a - B2R b) (bpow radix2 (-1021))) as [Hs|Hs].
  - replace (B2R a - B2R b) with (B2R a + - B2R b) by ring. rewrite small_sum_exact; [lra|apply B2R_F|apply generic_format_opp, B2R_F|].
    rewrite Rabs_pos_eq by lra. lra.
  - pose proof (bpow_gt_0 radix2 (-1021)).
    assert (bpow radix2 (-1021) <= rnd (B2R a - B2R b)); [|lra].
    replace (bpow radix2 (-1021)) with (rnd (bpow radix2 (-1021))); [apply rnd_le; lra|].
    apply round_generic; [apply valid_rnd_N|]. apply generic_format_bpow. change (SpecFloat.fexp 53 1024 (-1021 + 1)) with (-1073)%Z. lia.
Qed.

Lemma fsub_nonpos (a b : f64) : isfin a = true -> isfin b = true -> isfin (fsub a b) = true -> B2R a <= B2R b -> B2R (fsub a b) <= 0.
Proof. intros Fa Fb Fd H. rewrite (fsub_isfin_R a b Fa Fb Fd). apply rnd_le_0. lra. Qed.

Lemma arange_empty lo hi : isfin lo = true -> isfin hi = true -> isfin (fsub hi lo) = true ->
  (arange_f lo hi = [] <-> fle hi lo = true).
Proof.
  intros Fl Fh Fd. unfold arange_f. destruct (Rle_lt_dec (B2R hi) (B2R lo)) as [H|H].
  - rewrite ceil_len_zero; [|exact Fd|apply fle_fin; [exact Fd|exact Z2f_0_fin|]; rewrite Z2f_0_R; apply fsub_nonpos; assumption].
    split; [intros _; apply fle_fin; assumption|reflexivity].
  - assert (Hp : (0 < ceil_len (fsub hi lo))%nat).
    { apply ceil_len_pos; [exact Fd|]. apply flt_fin; [exact Z2f_0_fin|exact Fd|]. rewrite Z2f_0_R. apply fsub_pos; assumption. }
    split; intros E.
    + destruct (ceil_len (fsub hi lo)); [lia|discriminate].
    + apply (fle_fin _ _ Fh Fl) in E. lra.
Qed.

Lemma Z2f_sign (k : nat) : Bsign (Z2f (Z.of_nat k)) = false.
Proof.
  unfold Z2f. destruct (Z.of_nat k) as [|p|p] eqn:E; [reflexivity| |lia].
  pose proof (binary_normalize_correct 53 1024 eq_refl eq_refl mode_NE (Zpos p) 0 false) as Hc. cbv zeta in Hc.
  replace (F2R {| Fnum := Z.pos p; Fexp := 0 |}) with (IZR (Zpos p)) in Hc by (unfold F2R; cbn [Fnum Fexp bpow]; ring).
  rewrite (Rlt_bool_false (IZR (Z.pos p)) 0) in Hc by (apply IZR_le; lia).
  rewrite Rcompare_Gt in Hc by (apply IZR_lt; lia).
  destruct (Rlt_bool _ _).
  - apply Hc.
  - match type of Hc with B2SF ?z = _ => set (y := z) in *; change (Bsign y = false) end.
    destruct y as [s|s| |s m e Hb]; cbn in Hc; try discriminate. injection Hc as ->. reflexivity.
Qed.

(** Points of a range that starts at or above zero carry no sign. *)
Lemma fadd_nonneg_sign (a : f64) (k : nat) : neg_signed a = false -> isnan a = false -> neg_signed (fadd a (Z2f (Z.of_nat k))) = false.
Proof.
  intros H N.
  assert (K : exists b, Z2f (Z.of_nat k) = b /\ (isnan b = false) /\ Bsign b = false).
  { eexists. split; [reflexivity|]. split; [apply Z2f_not_nan|apply Z2f_sign]. }
  destruct K as (b & Eb & Nb & Sb). rewrite Eb. clear Eb.
  assert (Sa : Bsign a = false) by (unfold neg_signed in H; rewrite N in H; exact H).
  unfold neg_signed. destruct (isnan (fadd a b)) eqn:En; [reflexivity|]. cbn [negb andb].
  destruct (isfin a) eqn:Fa; destruct (isfin b) eqn:Fb.
  - pose proof (Bplus_correct 53 1024 eq_refl eq_refl mode_NE a b Fa Fb) as Hc.
    change (Bplus mode_NE a b) with (fadd a b) in Hc.
    destruct (Rlt_bool _ _).
    + destruct Hc as (_ & _ & Hs). rewrite Hs, Sa, Sb.
      assert (0 <= B2R a) by (destruct a as [s|s| |s m e Hb]; cbn in *; try lra; subst; apply F2R_ge_0; cbn; lia).
      assert (0 <= B2R b) by (destruct b as [s|s| |s m e Hb]; cbn in *; try lra; subst; apply F2R_ge_0; cbn; lia).
      destruct (Rcompare_spec (B2R a + B2R b) 0); try reflexivity. lra.
    + destruct Hc as [Hc _]. rewrite Sa in Hc. destruct (fadd a b) as [s|s| |s m e Hb]; cbn in Hc; try discriminate. injection Hc as ->. reflexivity.
  - destruct b as [s|s| |s m e Hb]; cbn in *; try discriminate. subst. destruct a as [s|s| |s m e Hb]; cbn in *; try discriminate; subst; reflexivity.
  - destruct a as [s|s| |s m e Hb]; cbn in *; try discriminate. subst. destruct b as [s|s| |s m e Hb]; cbn in *; try discriminate; subst; reflexivity.
  - destruct a as [s|s| |s m e Hb]; cbn in *; try discriminate. subst. destruct b as [s|s| |s m e Hb]; cbn in *; try discriminate; subst; reflexivity.
Qed.

Lemma fabs_sign (a : f64) : neg_signed (fabs a) = false.
Proof. destruct a as [[|]|[|]| |[|] m e Hb]; reflexivity. Qed.
