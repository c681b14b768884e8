(** low + (high - low) * u, with every operation rounded, stays between low and high. *)
From Coq Require Import Reals Lra ZArith Bool Lia.
From Flocq Require Import Core IEEE754.BinarySingleNaN Plus_error.
From Verif Require Import B64 B64More.
Open Scope R_scope.

Local Notation fe := (SpecFloat.fexp 53 1024).
Local Notation F := (generic_format radix2 fe).

Lemma fe_FLT : forall e, fe e = FLT_exp (-1074) 53 e. Proof. reflexivity. Qed.

Lemma B2R_F (a : f64) : F (B2R a). Proof. apply generic_format_B2R. Qed.

(** A finite difference is the rounded difference. *)
Lemma fsub_isfin_R (a b : f64) : isfin a = true -> isfin b = true -> isfin (fsub a b) = true -> B2R (fsub a b) = rnd (B2R a - B2R b).
Proof.
  intros Fa Fb Fd. destruct (Rlt_le_dec (Rabs (rnd (B2R a - B2R b))) big) as [H|H]; [apply fsub_fin; assumption|exfalso].
  pose proof (Bminus_correct 53 1024 _ _ mode_NE a b Fa Fb) as Hc. change (Bminus mode_NE a b) with (fsub a b) in Hc.
  unfold rnd, big in H. rewrite Rlt_bool_false in Hc by exact H. destruct Hc as [Hc _].
  unfold isfin in Fd. rewrite <- is_finite_SF_B2SF in Fd. rewrite Hc in Fd. destruct (Bsign a); discriminate.
Qed.

#[local] Instance prec_pos : Prec_gt_0 53. Proof. reflexivity. Qed.
#[local] Instance fe_valid : Valid_exp fe. Proof. apply (fexp_correct 53 1024). reflexivity. Qed.

Lemma pred_one : pred radix2 fe 1 = 1 - bpow radix2 (-53).
Proof.
  change 1 with (bpow radix2 0) at 1. rewrite pred_bpow.
  change (fe 0) with (-53)%Z. reflexivity.
Qed.

(** A double below one is at most 1 - 2^-53. *)
Lemma unit_le_pred (u : f64) : B2R u < 1 -> B2R u <= 1 - bpow radix2 (-53).
Proof.
  intros H. rewrite <- pred_one. apply pred_ge_gt; [exact fe_valid|apply B2R_F| |exact H].
  rewrite <- fone_R. apply B2R_F.
Qed.

Lemma rnd_N_le_midp (x v : R) : F x -> v < (x + succ radix2 fe x) / 2 -> rnd v <= x.
Proof. intros Hx H. unfold rnd. apply round_N_le_midp; [exact fe_valid|exact Hx|exact H]. Qed.

(** Multiplying a normal double by something below one lands on a smaller double. *)
Lemma rnd_mul_unit (d u : R) : F d -> bpow radix2 (-1021) <= d -> 0 <= u -> u <= 1 - bpow radix2 (-53) ->
  rnd (d * u) <= pred radix2 fe d.
Proof.
  intros Fd Hd H0 Hu. set (e := bpow radix2 (-1021)) in *.
  assert (He : 0 < e) by apply bpow_gt_0.
  set (p := pred radix2 fe d).
  assert (Fp : F p) by (apply generic_format_pred; [exact fe_valid|exact Fd]).
  apply rnd_N_le_midp; [exact Fp|].
  assert (Hs : succ radix2 fe p = d) by (apply succ_pred; [exact fe_valid|exact Fd]). rewrite Hs.
  assert (Hp1 : bpow radix2 (-1022) <= p).
  { apply pred_ge_gt; [exact fe_valid| |exact Fd|].
    - apply generic_format_bpow. change (fe (-1022 + 1)) with (-1074)%Z. lia.
    - apply Rlt_le_trans with e; [|exact Hd]. apply bpow_lt. lia. }
  assert (Hp0 : 0 < p) by (eapply Rlt_le_trans; [apply bpow_gt_0|exact Hp1]).
  assert (Hul : p + ulp radix2 fe p = d).
  { rewrite <- succ_eq_pos by lra. exact Hs. }
  assert (Hle : ulp radix2 fe p <= Rabs p * bpow radix2 (1 - 53)).
  { apply (ulp_FLT_le radix2 (-1074) 53 p). rewrite Rabs_pos_eq by lra. change (-1074 + 53 - 1)%Z with (-1022)%Z. exact Hp1. }
  rewrite Rabs_pos_eq in Hle by lra. change (1 - 53)%Z with (-52)%Z in Hle.
  assert (Hlt : p < d).
  { rewrite <- Hul. pose proof (ulp_ge_0 radix2 fe p). destruct (Rle_lt_or_eq_dec _ _ H) as [H1|H1]; [lra|].
    exfalso. pose proof (pred_lt_id radix2 fe d ltac:(lra)). fold p in H2. lra. }
  assert (H52 : bpow radix2 (-52) = 2 * bpow radix2 (-53)).
  { change 2 with (bpow radix2 1). rewrite <- bpow_plus. reflexivity. }
  pose proof (bpow_gt_0 radix2 (-53)) as H53.
  assert (Hdu : d * u <= d - d * bpow radix2 (-53)).
  { replace (d - d * bpow radix2 (-53)) with (d * (1 - bpow radix2 (-53))) by ring. apply Rmult_le_compat_l; lra. }
  assert (Hx : d - p < 2 * (d * bpow radix2 (-53))).
  { replace (d - p) with (ulp radix2 fe p) by lra. eapply Rle_lt_trans; [exact Hle|]. rewrite H52.
    apply Rlt_le_trans with (d * (2 * bpow radix2 (-53))); [apply Rmult_lt_compat_r; lra|lra]. }
  lra.
Qed.

(** Sums of doubles that round to something tiny are exact. *)
Lemma small_sum_exact (x y : R) : F x -> F y -> Rabs (x + y) <= bpow radix2 (-1021) -> rnd (x + y) = x + y.
Proof.
  intros Fx Fy H. apply round_generic; [apply valid_rnd_N|].
  apply (FLT_format_plus_small radix2 (-1074) 53); [exact Fx|exact Fy|].
  eapply Rle_trans; [exact H|]. apply bpow_le. lia.
Qed.

Lemma affine_R (lo hi u : R) : F lo -> F hi -> lo <= hi -> 0 <= u -> u <= 1 - bpow radix2 (-53) ->
  lo <= rnd (lo + rnd (rnd (hi - lo) * u)) <= hi.
Proof.
  intros Fl Fh Hle H0 Hu.
  assert (Rl : rnd lo = lo) by (apply round_generic; [apply valid_rnd_N|exact Fl]).
  assert (Rh : rnd hi = hi) by (apply round_generic; [apply valid_rnd_N|exact Fh]).
  set (x := hi - lo) in *. assert (Hx : 0 <= x) by (unfold x; lra).
  pose proof (rnd_ge_0 x Hx) as Hd. set (d := rnd x) in *.
  pose proof (bpow_gt_0 radix2 (-53)) as H53.
  assert (Hdu0 : 0 <= d * u) by (apply Rmult_le_pos; assumption).
  assert (Hdu1 : d * u <= d) by (rewrite <- (Rmult_1_r d) at 2; apply Rmult_le_compat_l; lra).
  assert (Fd : F d) by (apply generic_format_round; [exact fe_valid|apply valid_rnd_N]).
  assert (Rd : rnd d = d) by (apply round_generic; [apply valid_rnd_N|exact Fd]).
  assert (Hp0 : 0 <= rnd (d * u)) by (apply rnd_ge_0, Hdu0).
  assert (Hpx : rnd (d * u) <= x).
  { destruct (Rle_lt_dec d x) as [Hdx|Hdx].
    - apply Rle_trans with d; [|exact Hdx]. rewrite <- Rd at 2. apply rnd_le, Hdu1.
    - (* rounded up *)
      assert (Hbig : bpow radix2 (-1021) <= d).
      { destruct (Rle_lt_dec x (bpow radix2 (-1021))) as [Hs|Hs].
        - exfalso. assert (E : d = x).
          { unfold d, x. replace (hi - lo) with (hi + - lo) by ring. apply small_sum_exact; [exact Fh|apply generic_format_opp, Fl|].
            replace (hi + - lo) with x by (unfold x; ring). rewrite Rabs_pos_eq by exact Hx. exact Hs. }
          lra.
        - lra. }
      eapply Rle_trans; [apply rnd_mul_unit; eassumption|].
      destruct (Rle_lt_dec (pred radix2 fe d) x) as [H|H]; [exact H|exfalso].
      assert (H1 : d <= pred radix2 fe d).
      { unfold d at 1, rnd. apply round_le_generic; [exact fe_valid|apply valid_rnd_N|apply generic_format_pred; [exact fe_valid|exact Fd]|lra]. }
      pose proof (pred_lt_id radix2 fe d ltac:(pose proof (bpow_gt_0 radix2 (-1021)); lra)). lra. }
  split.
  - rewrite <- Rl at 1. apply rnd_le. lra.
  - rewrite <- Rh. apply rnd_le. unfold x in *. lra.
Qed.

(** The same for doubles. *)
Lemma affine_between (lo hi u : f64) :
  isfin lo = true -> isfin hi = true -> fle lo hi = true -> isfin (fsub hi lo) = true ->
  fle (Z2f 0) u = true -> flt u fone = true ->
  let v := fadd lo (fmul (fsub hi lo) u) in
  isfin v = true /\ fle lo v = true /\ fle v hi = true.
Proof.
  intros Fl Fh Hle Fd H0 H1. cbv zeta. destruct (unit_R u H0 H1) as [Fu [U0 U1]]. apply unit_le_pred in U1.
  apply (fle_fin _ _ Fl Fh) in Hle.
  pose proof (fsub_isfin_R hi lo Fh Fl Fd) as Rd.
  pose proof (affine_R (B2R lo) (B2R hi) (B2R u) (B2R_F lo) (B2R_F hi) Hle U0 U1) as [A B]. rewrite <- Rd in A, B.
  pose proof (bpow_gt_0 radix2 (-53)) as H53.
  assert (Hd0 : 0 <= B2R (fsub hi lo)) by (rewrite Rd; apply rnd_ge_0; lra).
  assert (Hm0 : 0 <= B2R (fsub hi lo) * B2R u) by (apply Rmult_le_pos; assumption).
  assert (Hm1 : B2R (fsub hi lo) * B2R u <= B2R (fsub hi lo)) by (rewrite <- (Rmult_1_r (B2R (fsub hi lo))) at 2; apply Rmult_le_compat_l; lra).
  destruct (fmul_fin (fsub hi lo) u Fd Fu) as [Fm Rm].
  { apply rnd_le_B2R in Hm1. apply rnd_ge_0 in Hm0. pose proof (B2R_lt_big (fsub hi lo)). rewrite Rabs_pos_eq by exact Hm0. lra. }
  rewrite <- Rm in A, B.
  destruct (fadd_fin lo (fmul (fsub hi lo) u) Fl Fm) as [Fv Rv].
  { pose proof (B2R_lt_big lo). pose proof (B2R_lt_big hi). apply Rabs_def1; lra. }
  rewrite <- Rv in A, B. split; [exact Fv|]. split; apply fle_fin; assumption.
Qed.
