(** Numbers far from the limits of the format: multiplying by a power of two commutes with
    arithmetic, sign of zero included. *)
From Coq Require Import List ZArith Bool Lia Reals Lra Permutation.
From Flocq Require Import Core IEEE754.BinarySingleNaN.
From Verif Require Import PyBase B64 B64More NdArray InitGauss Rand Models Scale.
Import ListNotations.
Open Scope R_scope.

(* ---------------- multiples of a power of two ---------------- *)
Definition multiple (k : Z) (x : R) : Prop := exists m : Z, x = IZR m * bpow radix2 (- k).

Lemma multiple_up k k' x : (k <= k')%Z -> multiple k x -> multiple k' x.
Proof.
  intros H [m ->]. exists (m * 2 ^ (k' - k))%Z. rewrite mult_IZR.
  change (2 ^ (k' - k))%Z with (Zpower radix2 (k' - k)). rewrite IZR_Zpower by lia.
  rewrite Rmult_assoc, <- bpow_plus. do 2 f_equal. lia.
Qed.
Lemma multiple_plus k x y : multiple k x -> multiple k y -> multiple k (x + y).
Proof. intros [m ->] [p ->]. exists (m + p)%Z. rewrite plus_IZR. ring. Qed.
Lemma multiple_minus k x y : multiple k x -> multiple k y -> multiple k (x - y).
Proof. intros [m ->] [p ->]. exists (m - p)%Z. rewrite minus_IZR. ring. Qed.
Lemma multiple_mult k l x y : multiple k x -> multiple l y -> multiple (k + l) (x * y).
Proof.
  intros [m ->] [p ->]. exists (m * p)%Z. rewrite mult_IZR. replace (- (k + l))%Z with (- k + - l)%Z by lia. rewrite bpow_plus. ring.
Qed.
Lemma multiple_0 k : multiple k 0. Proof. exists 0%Z. ring. Qed.
Lemma multiple_big k x : multiple k x -> x = 0 \/ bpow radix2 (- k) <= Rabs x.
Proof.
  intros [m ->]. destruct (Z.eq_dec m 0) as [->|Hm]; [left; ring|right].
  rewrite Rabs_mult, (Rabs_pos_eq (bpow radix2 (- k))) by apply bpow_ge_0. rewrite <- (Rmult_1_l (bpow radix2 (- k))) at 1.
  apply Rmult_le_compat_r; [apply bpow_ge_0|]. rewrite <- abs_IZR. apply IZR_le. lia.
Qed.
Lemma multiple_exp k e (m : Z) : (- k <= e)%Z -> multiple k (IZR m * bpow radix2 e).
Proof. intros H. apply (multiple_up (- e)); [lia|]. exists m. rewrite Z.opp_involutive. reflexivity. Qed.
Lemma multiple_rnd k x : (k <= 1074)%Z -> multiple k x -> multiple k (rnd x).
Proof.
  intros Hk Hx. unfold rnd. destruct (Z_le_gt_dec (- k) (cexp radix2 (SpecFloat.fexp 53 1024) x)) as [H|H].
  - unfold round, F2R. cbn [Fnum Fexp]. apply multiple_exp, H.
  - destruct Hx as [m ->]. rewrite round_generic; [exists m; reflexivity|apply valid_rnd_N|].
    apply (generic_format_F2R radix2 (SpecFloat.fexp 53 1024) m (- k)). intros _.
    replace (F2R (Float radix2 m (- k))) with (IZR m * bpow radix2 (- k)) by reflexivity. lia.
Qed.
Lemma float_multiple (a : f64) j k : bpow radix2 (- j) <= Rabs (B2R a) -> (j + 53 <= k)%Z -> multiple k (B2R a).
Proof.
  intros H Hk. pose proof (generic_format_B2R 53 1024 a) as G. unfold generic_format, F2R in G. cbn [Fnum Fexp] in G. rewrite G.
  apply multiple_exp. unfold cexp, SpecFloat.fexp, SpecFloat.emin.
  assert (- j < mag radix2 (B2R a))%Z by (apply mag_gt_bpow, H). lia.
Qed.

(** A finite number that is a multiple of [2^-k] and at most [2^u]. *)
Definition grid (k u : Z) (x : f64) : Prop := isfin x = true /\ multiple k (B2R x) /\ Rabs (B2R x) <= bpow radix2 u.

Lemma grid_up k u k' u' x : (k <= k')%Z -> (u <= u')%Z -> grid k u x -> grid k' u' x.
Proof.
  intros H1 H2 (F & M & B). split; [exact F|]. split; [apply (multiple_up k); assumption|].
  eapply Rle_trans; [exact B|apply bpow_le, H2].
Qed.
Lemma grid_zero k u x : isfin x = true -> B2R x = 0 -> grid k u x.
Proof. intros F Z. split; [exact F|]. rewrite Z, Rabs_R0. split; [apply multiple_0|apply bpow_ge_0]. Qed.
Lemma pow_big v : (v <= 1000)%Z -> bpow radix2 v < big.
Proof. intros H. unfold big. apply bpow_lt. lia. Qed.
Lemma rnd_small x v : (-1000 <= v <= 1000)%Z -> Rabs x <= bpow radix2 v -> Rabs (rnd x) <= bpow radix2 v /\ Rabs (rnd x) < big.
Proof.
  intros H Hx. assert (B : Rabs (rnd x) <= bpow radix2 v) by (apply rnd_bpow_le; [lia|exact Hx]).
  split; [exact B|]. eapply Rle_lt_trans; [exact B|apply pow_big; lia].
Qed.

(* ---------------- operations, with the sign of the result ---------------- *)
Definition sum_sign (x : R) (s t : bool) : bool := match Rcompare x 0 with Eq => s && t | Lt => true | Gt => false end.
Lemma add_all (a b : f64) : isfin a = true -> isfin b = true -> Rabs (rnd (B2R a + B2R b)) < big ->
  isfin (fadd a b) = true /\ B2R (fadd a b) = rnd (B2R a + B2R b) /\ Bsign (fadd a b) = sum_sign (B2R a + B2R b) (Bsign a) (Bsign b).
Proof.
  intros Fa Fb H. pose proof (Bplus_correct 53 1024 _ _ mode_NE a b Fa Fb) as Hc.
  change (Bplus mode_NE a b) with (fadd a b) in Hc. unfold rnd, big in H. rewrite Rlt_bool_true in Hc by exact H.
  destruct Hc as (H1 & H2 & H3). split; [exact H2|]. split; [exact H1|exact H3].
Qed.
Lemma sub_all (a b : f64) : isfin a = true -> isfin b = true -> Rabs (rnd (B2R a - B2R b)) < big ->
  isfin (fsub a b) = true /\ B2R (fsub a b) = rnd (B2R a - B2R b) /\ Bsign (fsub a b) = sum_sign (B2R a - B2R b) (Bsign a) (negb (Bsign b)).
Proof.
  intros Fa Fb H. pose proof (Bminus_correct 53 1024 _ _ mode_NE a b Fa Fb) as Hc.
  change (Bminus mode_NE a b) with (fsub a b) in Hc. unfold rnd, big in H. rewrite Rlt_bool_true in Hc by exact H.
  destruct Hc as (H1 & H2 & H3). split; [exact H2|]. split; [exact H1|exact H3].
Qed.
Lemma mul_all (a b : f64) : isfin a = true -> isfin b = true -> Rabs (rnd (B2R a * B2R b)) < big ->
  isfin (fmul a b) = true /\ B2R (fmul a b) = rnd (B2R a * B2R b) /\ Bsign (fmul a b) = xorb (Bsign a) (Bsign b).
Proof.
  intros Fa Fb H. pose proof (Bmult_correct 53 1024 _ _ mode_NE a b) as Hc.
  change (Bmult mode_NE a b) with (fmul a b) in Hc. unfold rnd, big in H. rewrite Rlt_bool_true in Hc by exact H.
  destruct Hc as (H1 & H2 & H3). unfold isfin in Fa, Fb. rewrite Fa, Fb in H2. split; [exact H2|]. split; [exact H1|].
  apply H3. apply isfin_not_nan. exact H2.
Qed.
Lemma div_all (a b : f64) : isfin a = true -> B2R b <> 0 -> Rabs (rnd (B2R a / B2R b)) < big ->
  isfin (fdiv a b) = true /\ B2R (fdiv a b) = rnd (B2R a / B2R b) /\ Bsign (fdiv a b) = xorb (Bsign a) (Bsign b).
Proof.
  intros Fa Fb H. pose proof (Bdiv_correct 53 1024 _ _ mode_NE a b Fb) as Hc.
  change (Bdiv mode_NE a b) with (fdiv a b) in Hc. unfold rnd, big in H. rewrite Rlt_bool_true in Hc by exact H.
  destruct Hc as (H1 & H2 & H3). unfold isfin in Fa. rewrite Fa in H2. split; [exact H2|]. split; [exact H1|].
  apply H3. apply isfin_not_nan. exact H2.
Qed.
Lemma sqrt_all (a : f64) : isfin a = true -> (B2R a = 0 \/ Bsign a = false) ->
  isfin (fsqrt a) = true /\ B2R (fsqrt a) = rnd (sqrt (B2R a)) /\ Bsign (fsqrt a) = Bsign a.
Proof.
  intros Fa H. pose proof (Bsqrt_correct 53 1024 _ _ mode_NE a) as Hc.
  change (Bsqrt mode_NE a) with (fsqrt a) in Hc. destruct Hc as (H1 & H2 & H3).
  assert (F : isfin (fsqrt a) = true).
  { unfold isfin. rewrite H2. destruct a as [s|s| |s m b Hb]; try discriminate; [reflexivity|]. destruct H as [H|H].
    - exfalso. cbn in H. destruct s; unfold F2R in H; cbn [Fnum Fexp cond_Zopp] in H; pose proof (bpow_gt_0 radix2 b);
        apply Rmult_integral in H; destruct H as [H|H]; try lra; apply eq_IZR in H; discriminate H.
    - cbn in H. rewrite H. reflexivity. }
  split; [exact F|]. split; [exact H1|]. apply H3. apply isfin_not_nan, F.
Qed.

(* ---------------- ranges of results ---------------- *)
Lemma sum_small x y u : Rabs x <= bpow radix2 u -> Rabs y <= bpow radix2 u -> Rabs (x + y) <= bpow radix2 (u + 1).
Proof. intros H1 H2. eapply Rle_trans; [apply Rabs_triang|]. rewrite bpow_plus. change (bpow radix2 1) with 2. lra. Qed.
Lemma diff_small x y u : Rabs x <= bpow radix2 u -> Rabs y <= bpow radix2 u -> Rabs (x - y) <= bpow radix2 (u + 1).
Proof. intros H1 H2. apply sum_small; [exact H1|]. rewrite Rabs_Ropp. exact H2. Qed.
Lemma prod_small x y u v : Rabs x <= bpow radix2 u -> Rabs y <= bpow radix2 v -> Rabs (x * y) <= bpow radix2 (u + v).
Proof. intros H1 H2. rewrite Rabs_mult, bpow_plus. apply Rmult_le_compat; try apply Rabs_pos; assumption. Qed.

Lemma grid_add k u a b : (k <= 1000)%Z -> (-900 <= u <= 900)%Z -> grid k u a -> grid k u b -> grid k (u + 1) (fadd a b).
Proof.
  intros Hk Hu (Fa & Ma & Ba) (Fb & Mb & Bb). destruct (rnd_small (B2R a + B2R b) (u + 1)) as [S B]; [lia|apply sum_small; assumption|].
  destruct (add_all a b Fa Fb B) as (F & E & _). split; [exact F|]. rewrite E. split; [|exact S].
  apply multiple_rnd; [lia|]. apply multiple_plus; assumption.
Qed.
Lemma grid_sub k u a b : (k <= 1000)%Z -> (-900 <= u <= 900)%Z -> grid k u a -> grid k u b -> grid k (u + 1) (fsub a b).
Proof.
  intros Hk Hu (Fa & Ma & Ba) (Fb & Mb & Bb). destruct (rnd_small (B2R a - B2R b) (u + 1)) as [S B]; [lia|apply diff_small; assumption|].
  destruct (sub_all a b Fa Fb B) as (F & E & _). split; [exact F|]. rewrite E. split; [|exact S].
  apply multiple_rnd; [lia|]. apply multiple_minus; assumption.
Qed.
Lemma grid_mul k u l v a b : (k + l <= 1000)%Z -> (-900 <= u + v <= 900)%Z -> grid k u a -> grid l v b -> grid (k + l) (u + v) (fmul a b).
Proof.
  intros Hk Hu (Fa & Ma & Ba) (Fb & Mb & Bb). destruct (rnd_small (B2R a * B2R b) (u + v)) as [S B]; [lia|apply prod_small; assumption|].
  destruct (mul_all a b Fa Fb B) as (F & E & _). split; [exact F|]. rewrite E. split; [|exact S].
  apply multiple_rnd; [lia|]. apply multiple_mult; assumption.
Qed.
(** A divisor between 1 and [2^40]. *)
Definition few (b : f64) : Prop := isfin b = true /\ 1 <= B2R b <= bpow radix2 40.
Lemma quot_big k a b : grid k 900 a -> few b -> B2R a / B2R b = 0 \/ bpow radix2 (- (k + 40)) <= Rabs (B2R a / B2R b).
Proof.
  intros (Fa & Ma & Ba) (Fb & B1 & B2). destruct (multiple_big _ _ Ma) as [Z|H]; [left; rewrite Z; unfold Rdiv; ring|right].
  unfold Rdiv. rewrite Rabs_mult, Rabs_inv, (Rabs_pos_eq (B2R b)) by lra.
  replace (- (k + 40))%Z with (- k + - (40))%Z by lia. rewrite bpow_plus. apply Rmult_le_compat; try apply bpow_ge_0; [exact H|].
  rewrite bpow_opp. apply Rinv_le; lra.
Qed.
Lemma quot_small u (a b : f64) : Rabs (B2R a) <= bpow radix2 u -> few b -> Rabs (B2R a / B2R b) <= bpow radix2 u.
Proof.
  intros H (Fb & B1 & B2). unfold Rdiv. rewrite Rabs_mult, Rabs_inv, (Rabs_pos_eq (B2R b)) by lra.
  rewrite <- (Rmult_1_r (bpow radix2 u)). apply Rmult_le_compat; [apply Rabs_pos|left; apply Rinv_0_lt_compat; lra|exact H|].
  rewrite <- Rinv_1. apply Rinv_le; lra.
Qed.
Lemma grid_div k u a b : (-900 <= k <= 900)%Z -> (-900 <= u <= 900)%Z -> grid k u a -> few b -> grid (k + 93) u (fdiv a b).
Proof.
  intros Hk Hu Ga Hb. pose proof Ga as (Fa & Ma & Ba). pose proof Hb as (Fb & B1 & B2).
  destruct (rnd_small (B2R a / B2R b) u) as [S B]; [lia|apply quot_small; assumption|].
  destruct (div_all a b Fa ltac:(lra) B) as (F & E & _). split; [exact F|]. split; [|rewrite E; exact S].
  destruct (quot_big k a b (grid_up k u k 900 a ltac:(lia) ltac:(lia) Ga) Hb) as [Z|H].
  - rewrite E, Z, rnd_0. apply multiple_0.
  - apply (float_multiple _ (k + 40)); [|lia]. rewrite E. unfold rnd.
    apply abs_round_ge_generic; [apply FLT_exp_valid; exact eq_refl|apply valid_rnd_N| |exact H].
    apply generic_format_bpow. unfold SpecFloat.fexp, SpecFloat.emin. lia.
Qed.
Lemma sqrt_pow j : sqrt (bpow radix2 (j + j)) = bpow radix2 j.
Proof. rewrite bpow_plus. apply sqrt_square, bpow_ge_0. Qed.
Lemma root_big j a : grid (j + j) 900 a -> 0 <= B2R a -> sqrt (B2R a) = 0 \/ bpow radix2 (- j) <= Rabs (sqrt (B2R a)).
Proof.
  intros (Fa & Ma & Ba) P. destruct (multiple_big _ _ Ma) as [Z|H]; [left; rewrite Z; apply sqrt_0|right].
  rewrite Rabs_pos_eq by apply sqrt_pos. rewrite <- sqrt_pow. apply sqrt_le_1_alt. rewrite Rabs_pos_eq in H by exact P.
  replace (- j + - j)%Z with (- (j + j))%Z by lia. exact H.
Qed.
Lemma root_small v (a : f64) : Rabs (B2R a) <= bpow radix2 (v + v) -> 0 <= B2R a -> Rabs (sqrt (B2R a)) <= bpow radix2 v.
Proof.
  intros H P. rewrite Rabs_pos_eq by apply sqrt_pos. rewrite <- sqrt_pow. apply sqrt_le_1_alt. rewrite Rabs_pos_eq in H by exact P. exact H.
Qed.
Definition signed_ok (a : f64) : Prop := 0 <= B2R a /\ (B2R a = 0 \/ Bsign a = false).
Lemma grid_sqrt j v a : (-400 <= j <= 800)%Z -> (-400 <= v <= 400)%Z -> grid (j + j) (v + v) a -> signed_ok a -> grid (j + 53) v (fsqrt a).
Proof.
  intros Hj Hv Ga [P Sa]. pose proof Ga as (Fa & Ma & Ba). destruct (sqrt_all a Fa Sa) as (F & E & _).
  destruct (rnd_small (sqrt (B2R a)) v) as [S B]; [lia|apply root_small; assumption|].
  split; [exact F|]. split; [|rewrite E; exact S].
  destruct (root_big j a (grid_up (j + j) (v + v) (j + j) 900 a ltac:(lia) ltac:(lia) Ga) P) as [Z|H].
  - rewrite E, Z, rnd_0. apply multiple_0.
  - apply (float_multiple _ j); [|lia]. rewrite E. unfold rnd.
    apply abs_round_ge_generic; [apply FLT_exp_valid; exact eq_refl|apply valid_rnd_N| |exact H].
    apply generic_format_bpow. unfold SpecFloat.fexp, SpecFloat.emin. lia.
Qed.

(* ---------------- scaling ---------------- *)
Lemma pow_sign e : (-100 <= e <= 100)%Z -> Bsign (lit 1 e) = false.
Proof.
  intros He. destruct (pow_lit e He) as [E F]. pose proof (bpow_gt_0 radix2 e) as P. rewrite <- E in P.
  destruct (lit 1 e) as [s|s| |s m b Hb]; try discriminate; [cbn in P; lra|]. destruct s; [|reflexivity]. exfalso.
  cbn in P. unfold F2R in P. cbn [Fnum Fexp cond_Zopp] in P. pose proof (bpow_gt_0 radix2 b).
  assert (IZR (Z.neg m) < 0) by (apply IZR_lt; lia). assert (0 < - IZR (Z.neg m) * bpow radix2 b) by (apply Rmult_lt_0_compat; lra). lra.
Qed.
Lemma grid_near k u x : (k <= 880)%Z -> (u <= 880)%Z -> grid k u x -> B2R x = 0 \/ bpow radix2 (-880) <= Rabs (B2R x) <= bpow radix2 880.
Proof.
  intros Hk Hu (F & M & B). destruct (multiple_big _ _ M) as [Z|H]; [left; exact Z|right].
  split; eapply Rle_trans; try eassumption; apply bpow_le; lia.
Qed.
Lemma scaled_all e k u x : (-100 <= e <= 100)%Z -> (k <= 880)%Z -> (u <= 880)%Z -> grid k u x ->
  isfin (scaled e x) = true /\ B2R (scaled e x) = B2R x * bpow radix2 e /\ Bsign (scaled e x) = Bsign x.
Proof.
  intros He Hk Hu G. destruct (scaled_fin e He x (proj1 G) (grid_near k u x Hk Hu G)) as [F E].
  split; [exact F|]. split; [exact E|]. destruct (pow_lit e He) as [Re Fe]. unfold scaled in *.
  assert (B : Rabs (rnd (B2R x * B2R (lit 1 e))) < big).
  { rewrite Re. destruct G as (Fx & _ & B).
    apply (proj2 (rnd_small _ 1000 ltac:(lia) (Rle_trans _ _ _ (prod_small _ _ u e B (Req_le _ _ (Rabs_pos_eq _ (bpow_ge_0 radix2 e)))) (bpow_le radix2 (u + e) 1000 ltac:(lia))))). }
  destruct (mul_all x (lit 1 e) (proj1 G) Fe B) as (_ & _ & S). rewrite S, pow_sign by exact He. apply xorb_false_r.
Qed.
Lemma same_float (a b : f64) : isfin a = true -> isfin b = true -> B2R a = B2R b -> Bsign a = Bsign b -> a = b.
Proof. intros Fa Fb R S. apply B2R_Bsign_inj; assumption. Qed.
(** The scaled result, from the facts about the two computations. *)
Lemma lift e k u (r r' : f64) x : (-100 <= e <= 100)%Z -> (k <= 880)%Z -> (u <= 880)%Z ->
  grid k u r -> B2R r = rnd x -> (x = 0 \/ bpow radix2 (-880) <= Rabs x) ->
  isfin r' = true -> B2R r' = rnd (x * bpow radix2 e) -> Bsign r' = Bsign r -> r' = scaled e r.
Proof.
  intros He Hk Hu G E Hx F' E' S. destruct (scaled_all e k u r He Hk Hu G) as (Fs & Es & Ss).
  apply same_float; [exact F'|exact Fs| |congruence]. rewrite E', Es, E. destruct Hx as [->|Hx].
  - rewrite Rmult_0_l, rnd_0. ring.
  - apply rnd_scale.
    + eapply Rle_trans; [|exact Hx]. apply bpow_le. lia.
    + apply Rle_trans with (bpow radix2 (-880) * bpow radix2 e); [rewrite <- bpow_plus; apply bpow_le; lia|].
      apply Rmult_le_compat_r; [apply bpow_ge_0|exact Hx].
Qed.
Lemma sum_sign_scale e x s t : sum_sign (x * bpow radix2 e) s t = sum_sign x s t.
Proof.
  unfold sum_sign. replace (Rcompare (x * bpow radix2 e) 0) with (Rcompare x 0); [reflexivity|].
  pose proof (bpow_gt_0 radix2 e) as P. rewrite <- (Rcompare_mult_r (bpow radix2 e) x 0 P). f_equal. ring.
Qed.
Lemma multiple_far k x : (k <= 880)%Z -> multiple k x -> x = 0 \/ bpow radix2 (-880) <= Rabs x.
Proof. intros Hk M. destruct (multiple_big _ _ M) as [Z|H]; [left; exact Z|right]. eapply Rle_trans; [|exact H]. apply bpow_le. lia. Qed.

Section Commute.
Variable e : Z.
Hypothesis He : (-100 <= e <= 100)%Z.
Lemma pow_abs : Rabs (bpow radix2 e) <= bpow radix2 e. Proof. rewrite Rabs_pos_eq by apply bpow_ge_0. lra. Qed.
Lemma scaled_small x u : (-800 <= u <= 800)%Z -> Rabs x <= bpow radix2 u -> Rabs (rnd (x * bpow radix2 e)) < big.
Proof. intros Hu H. apply (rnd_small _ (u + e)); [lia|]. apply prod_small; [exact H|apply pow_abs]. Qed.

Lemma scaled_add k u a b : (k <= 880)%Z -> (-700 <= u <= 700)%Z -> grid k u a -> grid k u b ->
  fadd (scaled e a) (scaled e b) = scaled e (fadd a b).
Proof.
  intros Hk Hu Ga Gb. pose proof (grid_add k u a b ltac:(lia) ltac:(lia) Ga Gb) as G.
  destruct (scaled_all e k u a He ltac:(lia) ltac:(lia) Ga) as (Fa & Ea & Sa). destruct (scaled_all e k u b He ltac:(lia) ltac:(lia) Gb) as (Fb & Eb & Sb).
  destruct Ga as (Fa0 & Ma & Ba), Gb as (Fb0 & Mb & Bb).
  destruct (rnd_small (B2R a + B2R b) (u + 1) ltac:(lia) (sum_small _ _ _ Ba Bb)) as [_ B].
  destruct (add_all a b Fa0 Fb0 B) as (_ & E & S).
  assert (X : B2R (scaled e a) + B2R (scaled e b) = (B2R a + B2R b) * bpow radix2 e) by (rewrite Ea, Eb; ring).
  destruct (add_all (scaled e a) (scaled e b) Fa Fb) as (F' & E' & S').
  { rewrite X. apply (scaled_small _ (u + 1)); [lia|apply sum_small; assumption]. }
  apply (lift e k (u + 1) _ _ (B2R a + B2R b) He Hk ltac:(lia) G E).
  - apply (multiple_far k); [exact Hk|apply multiple_plus; assumption].
  - exact F'.
  - rewrite E', X. reflexivity.
  - rewrite S', S, X, sum_sign_scale, Sa, Sb. reflexivity.
Qed.
Lemma scaled_sub k u a b : (k <= 880)%Z -> (-700 <= u <= 700)%Z -> grid k u a -> grid k u b ->
  fsub (scaled e a) (scaled e b) = scaled e (fsub a b).
Proof.
  intros Hk Hu Ga Gb. pose proof (grid_sub k u a b ltac:(lia) ltac:(lia) Ga Gb) as G.
  destruct (scaled_all e k u a He ltac:(lia) ltac:(lia) Ga) as (Fa & Ea & Sa). destruct (scaled_all e k u b He ltac:(lia) ltac:(lia) Gb) as (Fb & Eb & Sb).
  destruct Ga as (Fa0 & Ma & Ba), Gb as (Fb0 & Mb & Bb).
  destruct (rnd_small (B2R a - B2R b) (u + 1) ltac:(lia) (diff_small _ _ _ Ba Bb)) as [_ B].
  destruct (sub_all a b Fa0 Fb0 B) as (_ & E & S).
  assert (X : B2R (scaled e a) - B2R (scaled e b) = (B2R a - B2R b) * bpow radix2 e) by (rewrite Ea, Eb; ring).
  destruct (sub_all (scaled e a) (scaled e b) Fa Fb) as (F' & E' & S').
  { rewrite X. apply (scaled_small _ (u + 1)); [lia|apply diff_small; assumption]. }
  apply (lift e k (u + 1) _ _ (B2R a - B2R b) He Hk ltac:(lia) G E).
  - apply (multiple_far k); [exact Hk|apply multiple_minus; assumption].
  - exact F'.
  - rewrite E', X. reflexivity.
  - rewrite S', S, X, sum_sign_scale, Sa, Sb. reflexivity.
Qed.
(** Times a factor that is not scaled. *)
Lemma scaled_mul_l k u l v a b : (k + l <= 880)%Z -> (0 <= l)%Z -> (-700 <= u + v <= 700)%Z -> (-700 <= u <= 700)%Z -> grid k u a -> grid l v b ->
  fmul (scaled e a) b = scaled e (fmul a b).
Proof.
  intros Hk Hl Huv Hu Ga Gb. pose proof (grid_mul k u l v a b ltac:(lia) ltac:(lia) Ga Gb) as G.
  destruct (scaled_all e k u a He ltac:(lia) ltac:(lia) Ga) as (Fa & Ea & Sa).
  destruct Ga as (Fa0 & Ma & Ba), Gb as (Fb0 & Mb & Bb).
  destruct (rnd_small (B2R a * B2R b) (u + v) ltac:(lia) (prod_small _ _ _ _ Ba Bb)) as [_ B].
  destruct (mul_all a b Fa0 Fb0 B) as (_ & E & S).
  assert (X : B2R (scaled e a) * B2R b = (B2R a * B2R b) * bpow radix2 e) by (rewrite Ea; ring).
  destruct (mul_all (scaled e a) b Fa Fb0) as (F' & E' & S').
  { rewrite X. apply (scaled_small _ (u + v)); [lia|apply prod_small; assumption]. }
  apply (lift e (k + l) (u + v) _ _ (B2R a * B2R b) He Hk ltac:(lia) G E).
  - apply (multiple_far (k + l)); [exact Hk|apply multiple_mult; assumption].
  - exact F'.
  - rewrite E', X. reflexivity.
  - rewrite S', S, Sa. reflexivity.
Qed.
Lemma scaled_mul_r k u l v a b : (k + l <= 880)%Z -> (0 <= l)%Z -> (-700 <= u + v <= 700)%Z -> (-700 <= u <= 700)%Z -> grid k u a -> grid l v b ->
  fmul b (scaled e a) = scaled e (fmul b a).
Proof.
  intros Hk Hl Huv Hu Ga Gb. pose proof (grid_mul l v k u b a ltac:(lia) ltac:(lia) Gb Ga) as G.
  destruct (scaled_all e k u a He ltac:(lia) ltac:(lia) Ga) as (Fa & Ea & Sa).
  destruct Ga as (Fa0 & Ma & Ba), Gb as (Fb0 & Mb & Bb).
  destruct (rnd_small (B2R b * B2R a) (v + u) ltac:(lia) (prod_small _ _ _ _ Bb Ba)) as [_ B].
  destruct (mul_all b a Fb0 Fa0 B) as (_ & E & S).
  assert (X : B2R b * B2R (scaled e a) = (B2R b * B2R a) * bpow radix2 e) by (rewrite Ea; ring).
  destruct (mul_all b (scaled e a) Fb0 Fa) as (F' & E' & S').
  { rewrite X. apply (scaled_small _ (v + u)); [lia|apply prod_small; assumption]. }
  apply (lift e (l + k) (v + u) _ _ (B2R b * B2R a) He ltac:(lia) ltac:(lia) G E).
  - apply (multiple_far (l + k)); [lia|apply multiple_mult; assumption].
  - exact F'.
  - rewrite E', X. reflexivity.
  - rewrite S', S, Sa. reflexivity.
Qed.
Lemma scaled_div k u a b : (-700 <= k <= 780)%Z -> (-700 <= u <= 700)%Z -> grid k u a -> few b ->
  fdiv (scaled e a) b = scaled e (fdiv a b).
Proof.
  intros Hk Hu Ga Hb. pose proof (grid_div k u a b ltac:(lia) ltac:(lia) Ga Hb) as G. pose proof Hb as (Fb & B1 & B2).
  destruct (scaled_all e k u a He ltac:(lia) ltac:(lia) Ga) as (Fa & Ea & Sa). pose proof Ga as (Fa0 & Ma & Ba).
  destruct (rnd_small (B2R a / B2R b) u ltac:(lia) (quot_small _ _ _ Ba Hb)) as [_ B].
  destruct (div_all a b Fa0 ltac:(lra) B) as (_ & E & S).
  assert (X : B2R (scaled e a) / B2R b = (B2R a / B2R b) * bpow radix2 e) by (rewrite Ea; unfold Rdiv; ring).
  destruct (div_all (scaled e a) b Fa ltac:(lra)) as (F' & E' & S').
  { rewrite X. apply (scaled_small _ u); [lia|apply quot_small; assumption]. }
  apply (lift e (k + 93) u _ _ (B2R a / B2R b) He ltac:(lia) ltac:(lia) G E).
  - destruct (quot_big k a b (grid_up k u k 900 a ltac:(lia) ltac:(lia) Ga) Hb) as [Z|H]; [left; exact Z|right].
    eapply Rle_trans; [|exact H]. apply bpow_le. lia.
  - exact F'.
  - rewrite E', X. reflexivity.
  - rewrite S', S, Sa. reflexivity.
Qed.
Lemma scaled_zero z : isfin z = true -> B2R z = 0 -> scaled e z = z.
Proof.
  intros F Z. destruct (scaled_all e 0 0 z He ltac:(lia) ltac:(lia) (grid_zero 0 0 z F Z)) as (Fs & Es & Ss).
  apply same_float; [exact Fs|exact F| |exact Ss]. rewrite Es, Z. ring.
Qed.
Lemma grid_flt k u a b : (k <= 880)%Z -> (u <= 880)%Z -> grid k u a -> grid k u b -> flt (scaled e a) (scaled e b) = flt a b.
Proof. intros Hk Hu Ga Gb. apply scaled_flt; [exact He| |]; intros _; apply (grid_near k u); assumption. Qed.
Lemma grid_sign k u a : (k <= 880)%Z -> (u <= 880)%Z -> grid k u a -> neg_signed (scaled e a) = neg_signed a.
Proof.
  intros Hk Hu Ga. destruct (scaled_all e k u a He Hk Hu Ga) as (F & _ & S). unfold neg_signed. rewrite S.
  rewrite (isfin_not_nan _ F), (isfin_not_nan _ (proj1 Ga)). reflexivity.
Qed.
End Commute.

Section Square.
Variable e : Z.
Hypothesis He : (-50 <= e <= 50)%Z.
Lemma scaled_mul k u l v a b : (k + l <= 880)%Z -> (-500 <= k)%Z -> (-500 <= l)%Z -> (-700 <= u + v <= 700)%Z -> (-700 <= u <= 700)%Z -> (-700 <= v <= 700)%Z ->
  (k <= 880)%Z -> (l <= 880)%Z -> grid k u a -> grid l v b ->
  fmul (scaled e a) (scaled e b) = scaled (e + e) (fmul a b).
Proof.
  intros Hkl Hk Hl Huv Hu Hv Hk' Hl' Ga Gb. pose proof (grid_mul k u l v a b ltac:(lia) ltac:(lia) Ga Gb) as G.
  destruct (scaled_all e k u a ltac:(lia) ltac:(lia) ltac:(lia) Ga) as (Fa & Ea & Sa). destruct (scaled_all e l v b ltac:(lia) ltac:(lia) ltac:(lia) Gb) as (Fb & Eb & Sb).
  destruct Ga as (Fa0 & Ma & Ba), Gb as (Fb0 & Mb & Bb).
  destruct (rnd_small (B2R a * B2R b) (u + v) ltac:(lia) (prod_small _ _ _ _ Ba Bb)) as [_ B].
  destruct (mul_all a b Fa0 Fb0 B) as (_ & E & S).
  assert (X : B2R (scaled e a) * B2R (scaled e b) = (B2R a * B2R b) * bpow radix2 (e + e)) by (rewrite Ea, Eb, bpow_plus; ring).
  destruct (mul_all (scaled e a) (scaled e b) Fa Fb) as (F' & E' & S').
  { rewrite X. apply (scaled_small (e + e) ltac:(lia) _ (u + v)); [lia|apply prod_small; assumption]. }
  apply (lift (e + e) (k + l) (u + v) _ _ (B2R a * B2R b) ltac:(lia) Hkl ltac:(lia) G E).
  - apply (multiple_far (k + l)); [exact Hkl|apply multiple_mult; assumption].
  - exact F'.
  - rewrite E', X. reflexivity.
  - rewrite S', S, Sa, Sb. reflexivity.
Qed.
Lemma scaled_sqrt j v a : (-400 <= j <= 400)%Z -> (-300 <= v <= 300)%Z -> grid (j + j) (v + v) a -> signed_ok a ->
  fsqrt (scaled (e + e) a) = scaled e (fsqrt a).
Proof.
  intros Hj Hv Ga [P Sa0]. pose proof (grid_sqrt j v a ltac:(lia) ltac:(lia) Ga (conj P Sa0)) as G.
  destruct (scaled_all (e + e) (j + j) (v + v) a ltac:(lia) ltac:(lia) ltac:(lia) Ga) as (Fa & Ea & Sa). pose proof Ga as (Fa0 & Ma & Ba).
  destruct (sqrt_all a Fa0 Sa0) as (_ & E & S).
  assert (X : sqrt (B2R (scaled (e + e) a)) = sqrt (B2R a) * bpow radix2 e).
  { rewrite Ea, sqrt_mult_alt by exact P. rewrite sqrt_pow. reflexivity. }
  destruct (sqrt_all (scaled (e + e) a) Fa) as (F' & E' & S').
  { rewrite Sa, Ea. destruct Sa0 as [Z|Z]; [left; rewrite Z; ring|right; exact Z]. }
  apply (lift e (j + 53) v _ _ (sqrt (B2R a)) ltac:(lia) ltac:(lia) ltac:(lia) G E).
  - destruct (root_big j a (grid_up (j + j) (v + v) (j + j) 900 a ltac:(lia) ltac:(lia) Ga) P) as [Z|H]; [left; exact Z|right].
    eapply Rle_trans; [|exact H]. apply bpow_le. lia.
  - exact F'.
  - rewrite E', X. reflexivity.
  - rewrite S', S, Sa. reflexivity.
Qed.
End Square.
