(** Mean and standard deviation in binary64 against the exact ones. *)
From Coq Require Import List ZArith Bool Lia Reals Lra Permutation.
From Flocq Require Import Core IEEE754.BinarySingleNaN.
From Verif Require Import PyBase B64 B64More NdArray Rand Models ModelThms Sign FloatSum.
Import ListNotations.
Open Scope R_scope.

(** Finite numbers of magnitude at most [B]. *)
Definition within (B : R) (x : list f64) : Prop := forall v, In v x -> isfin v = true /\ Rabs (B2R v) <= B.
Definition far : R := bpow radix2 400.

Lemma within_fin B x : within B x -> Forall (fun v => isfin v = true) x.
Proof. intros H. apply Forall_forall. intros v Hv. apply H, Hv. Qed.
Lemma within_mag B x : within B x -> Rmag x <= INR (List.length x) * B.
Proof.
  intros H. unfold Rmag. rewrite <- (map_length (fun x : f64 => Rabs (B2R x)) x). apply (Rsum_bounds 0 B).
  intros w Hw. apply in_map_iff in Hw as (v & <- & Hv). split; [apply Rabs_pos|apply H, Hv].
Qed.
Lemma u_le : u <= / 2 ^ 13.
Proof. unfold u. replace (/ 2 ^ 13) with (bpow radix2 (-13)); [apply bpow_le; lia|]. cbn. f_equal. lra. Qed.
Lemma few_pred n : few n -> few (Nat.pred n).
Proof. unfold few. lia. Qed.
Lemma few_huge n : few n -> INR n * bpow radix2 900 * 2 <= huge.
Proof.
  unfold few, huge. intros H. rewrite INR_IZR_INZ. apply IZR_le in H. change (IZR (2 ^ 40)) with (bpow radix2 40) in H.
  pose proof (bpow_gt_0 radix2 900). apply (Rmult_le_compat_r (bpow radix2 900)) in H; [|lra]. rewrite <- bpow_plus in H.
  assert (bpow radix2 (40 + 900) * 2 <= bpow radix2 1000).
  { change 2 with (bpow radix2 1). rewrite <- bpow_plus. apply bpow_le. lia. } lra.
Qed.

(** A sum of [n] finite numbers with magnitudes up to 2^900. *)
Lemma sum_err s (x : list f64) (B : R) : adds s -> few (List.length x) -> within B x -> B <= bpow radix2 900 ->
  isfin (s x) = true /\ Rabs (B2R (s x) - Rtot x) <= 2 * INR (Nat.pred (List.length x)) * u * Rmag x.
Proof.
  intros Hs Hf Hw HB. pose proof (Rmag_pos x) as P. pose proof (within_mag _ _ Hw) as HM.
  destruct (added_err x (s x) (Hs x) (within_fin _ _ Hw)) as [F E].
  - eapply Rle_trans; [|apply (few_huge _ Hf)]. pose proof (grow_lin _ Hf). pose proof (few_u _ Hf). pose proof (grow_1 (List.length x)).
    pose proof (pos_INR (List.length x)).
    assert (INR (List.length x) * B <= INR (List.length x) * bpow radix2 900) by (apply Rmult_le_compat_l; lra).
    assert ((1 + u) ^ List.length x * Rmag x <= 2 * Rmag x) by (apply Rmult_le_compat_r; [lra|]; cbn [pow] in *; lra). lra.
  - split; [exact F|]. eapply Rle_trans; [exact E|]. apply Rmult_le_compat_r; [exact P|].
    pose proof (grow_lin _ (few_pred _ Hf)). lra.
Qed.

Lemma len_exact n : few n -> B2R (Z2f (Z.of_nat n)) = INR n /\ isfin (Z2f (Z.of_nat n)) = true.
Proof.
  intros Hf. unfold few in Hf. destruct (Z2f_exact (Z.of_nat n)) as [E F]; [lia|]. split; [rewrite E; symmetry; apply INR_IZR_INZ|exact F].
Qed.

(** A sum divided by the number of summands. *)
Lemma sum_div_err s (x : list f64) (B : R) : adds s -> x <> [] -> few (List.length x) -> within B x -> B <= bpow radix2 900 ->
  let n := INR (List.length x) in
  isfin (fdiv (s x) (Z2f (Z.of_nat (List.length x)))) = true /\
  Rabs (B2R (fdiv (s x) (Z2f (Z.of_nat (List.length x)))) - Rtot x / n) <= 2 * n * u * (Rmag x / n) + eta.
Proof.
  intros Hs Hx Hf Hw HB n. destruct (sum_err s x B Hs Hf Hw HB) as [F E]. destruct (len_exact _ Hf) as [L _].
  assert (Hn : 1 <= n). { unfold n. apply (le_INR 1). destruct x; [congruence|cbn; lia]. }
  assert (Hp : INR (Nat.pred (List.length x)) = n - 1).
  { unfold n. destruct x; [congruence|]. cbn [List.length Nat.pred]. rewrite S_INR. lra. }
  rewrite Hp in E. pose proof (Rmag_pos x) as P. pose proof u_pos as Hu. pose proof (few_u _ Hf) as Hnu. fold n in Hnu.
  assert (Hc : / 2 ^ 13 <= / 8) by (cbn; lra).
  set (S := B2R (s x)) in *. set (A := Rmag x / n).
  assert (HA : 0 <= A) by (apply Rmult_le_pos; [lra|left; apply Rinv_0_lt_compat; lra]).
  assert (HMA : Rmag x = n * A) by (unfold A; field; lra).
  assert (HT : Rabs (Rtot x / n) <= A).
  { unfold A, Rdiv. rewrite Rabs_mult, (Rabs_right (/ n)) by (apply Rle_ge; left; apply Rinv_0_lt_compat; lra).
    apply Rmult_le_compat_r; [left; apply Rinv_0_lt_compat; lra|apply Rtot_mag]. }
  assert (HD : Rabs (S / n - Rtot x / n) <= 2 * (n - 1) * u * A).
  { replace (S / n - Rtot x / n) with ((S - Rtot x) / n) by (field; lra). unfold Rdiv.
    rewrite Rabs_mult, (Rabs_right (/ n)) by (apply Rle_ge; left; apply Rinv_0_lt_compat; lra).
    apply (Rmult_le_reg_r n); [lra|]. rewrite Rmult_assoc, Rinv_l, Rmult_1_r by lra.
    eapply Rle_trans; [exact E|]. rewrite HMA. lra. }
  assert (HAB : A <= bpow radix2 900).
  { unfold A. apply (Rmult_le_reg_r n); [lra|]. unfold Rdiv. rewrite Rmult_assoc, Rinv_l, Rmult_1_r by lra.
    eapply Rle_trans; [apply (within_mag _ _ Hw)|]. fold n. rewrite Rmult_comm. apply Rmult_le_compat_r; lra. }
  assert (HSn : Rabs (S / n) <= 2 * A).
  { replace (S / n) with ((S / n - Rtot x / n) + Rtot x / n) by ring. eapply Rle_trans; [apply Rabs_triang|].
    assert (2 * (n - 1) * u * A <= 1 * A) by (apply Rmult_le_compat_r; lra). lra. }
  destruct (div_rel (s x) (Z2f (Z.of_nat (List.length x))) F) as [F' (e & t & He & Ht & Hr)].
  - rewrite L. fold n. lra.
  - rewrite L. fold n S. eapply Rle_trans; [exact HSn|]. unfold huge.
    assert (2 * bpow radix2 900 <= bpow radix2 1000). { change 2 with (bpow radix2 1). rewrite <- bpow_plus. apply bpow_le. lia. } lra.
  - split; [exact F'|]. rewrite Hr, L. fold n S.
    replace (S / n * (1 + e) + t - Rtot x / n) with ((S / n - Rtot x / n) * (1 + e) + Rtot x / n * e + t) by ring.
    eapply Rle_trans; [apply Rabs_triang|]. eapply Rle_trans; [apply Rplus_le_compat_r, Rabs_triang|]. rewrite !Rabs_mult.
    assert (H1 : Rabs (1 + e) <= 1 + u). { eapply Rle_trans; [apply Rabs_triang|]. rewrite Rabs_R1. lra. }
    assert (Q1 : Rabs (S / n - Rtot x / n) * Rabs (1 + e) <= 2 * (n - 1) * u * A * (1 + u)) by (apply Rmult_le_compat; auto using Rabs_pos).
    assert (Q2 : Rabs (Rtot x / n) * Rabs e <= A * u) by (apply Rmult_le_compat; auto using Rabs_pos).
    assert (Q3 : 2 * (n - 1) * u * A * (1 + u) + A * u <= 2 * n * u * A).
    { assert (0 <= u * A) by (apply Rmult_le_pos; lra).
      assert ((2 * (n - 1) * u) * (u * A) <= 1 * (u * A)) by (apply Rmult_le_compat_r; lra). lra. }
    lra.
Qed.

Lemma mag_avg (x : list f64) B : x <> [] -> within B x -> Rmag x / INR (List.length x) <= B.
Proof.
  intros Hx Hw. assert (Hn : 1 <= INR (List.length x)) by (apply (le_INR 1); destruct x; [congruence|cbn; lia]).
  apply (Rmult_le_reg_r (INR (List.length x))); [lra|]. unfold Rdiv. rewrite Rmult_assoc, Rinv_l, Rmult_1_r by lra.
  rewrite Rmult_comm. apply within_mag, Hw.
Qed.

Lemma mean_err s (x : list f64) (B : R) : adds s -> x <> [] -> few (List.length x) -> within B x -> B <= bpow radix2 900 ->
  isfin (mean (b64_ops s) x) = true /\
  Rabs (B2R (mean (b64_ops s) x) - avg (map B2R x)) <= 2 * INR (List.length x) * u * B + eta.
Proof.
  intros Hs Hx Hf Hw HB. destruct (sum_div_err s x B Hs Hx Hf Hw HB) as [F E]. split; [exact F|].
  unfold avg. rewrite map_length. unfold mean, len_T. cbn [b64_ops o_div o_sum o_ofZ]. eapply Rle_trans; [exact E|].
  apply Rplus_le_compat_r, Rmult_le_compat_l; [|apply mag_avg; assumption].
  pose proof (pos_INR (List.length x)). pose proof u_pos. apply Rmult_le_pos; lra.
Qed.

(* ------------------------------------------------------------------ *)
(** ** Standard deviation *)

(** Mean square distance to [m]. *)
Definition moment (m : R) (x : list R) : R := Rsum (map (fun v => (v - m) * (v - m)) x) / INR (List.length x).

Lemma moment_sum (m a : R) (x : list R) :
  Rsum (map (fun v => (v - m) * (v - m)) x) =
  Rsum (map (fun v => (v - a) * (v - a)) x) + 2 * (a - m) * (Rsum x - INR (List.length x) * a) + INR (List.length x) * ((a - m) * (a - m)).
Proof.
  unfold Rsum. induction x as [|v x IH]; [cbn; lra|]. cbn [map fold_right List.length]. rewrite S_INR, IH. ring.
Qed.
Lemma moment_var (m : R) (x : list R) : x <> [] -> moment m x = pop_var x + (avg x - m) * (avg x - m).
Proof.
  intros Hx. assert (Hn : 1 <= INR (List.length x)) by (apply (le_INR 1); destruct x; [congruence|cbn; lia]).
  unfold moment, pop_var. rewrite (moment_sum m (avg x) x). unfold avg. field. lra.
Qed.
Lemma sq_nonneg (v : R) : 0 <= v * v.
Proof. exact (Rle_0_sqr v). Qed.
Lemma Rsum_map_le {A} (f g : A -> R) l : (forall v, In v l -> f v <= g v) -> Rsum (map f l) <= Rsum (map g l).
Proof.
  unfold Rsum. induction l as [|v l IH]; intros H; cbn; [lra|]. apply Rplus_le_compat; [apply H; left; reflexivity|].
  apply IH. intros w Hw. apply H. right. exact Hw.
Qed.
Lemma Rsum_map_dist {A} (f g : A -> R) (k t : R) l : (forall v, In v l -> Rabs (f v - g v) <= k * g v + t) ->
  Rabs (Rsum (map f l) - Rsum (map g l)) <= k * Rsum (map g l) + INR (List.length l) * t.
Proof.
  unfold Rsum. induction l as [|v l IH]; intros H; [cbn; rewrite Rminus_0_r, Rabs_R0; lra|].
  cbn [map fold_right List.length]. rewrite S_INR.
  specialize (IH (fun w Hw => H w (or_intror Hw))). pose proof (H v (or_introl eq_refl)).
  match goal with |- Rabs (?a + ?b - (?c + ?d)) <= _ => replace (a + b - (c + d)) with ((a - c) + (b - d)) by ring end.
  eapply Rle_trans; [apply Rabs_triang|]. lra.
Qed.
Lemma moment_nonneg m x : 0 <= moment m x.
Proof.
  unfold moment, Rdiv. destruct x as [|v x]; [cbn; rewrite Rmult_0_l; lra|]. apply Rmult_le_pos; [|left; apply Rinv_0_lt_compat, lt_0_INR; cbn; lia].
  unfold Rsum. generalize (v :: x). intros l. induction l as [|w l IH]; cbn; [lra|]. pose proof (sq_nonneg (w - m)). lra.
Qed.
Lemma avg_within (x : list f64) B : x <> [] -> within B x -> Rabs (avg (map B2R x)) <= B.
Proof.
  intros Hx Hw. eapply Rle_trans; [|apply (mag_avg x B Hx Hw)].
  assert (avg (map B2R x) = Rtot x / INR (List.length x)) as -> by (unfold avg; rewrite map_length; reflexivity). unfold Rdiv.
  assert (0 < / INR (List.length x)) by (apply Rinv_0_lt_compat, lt_0_INR; destruct x; [congruence|cbn; lia]).
  rewrite Rabs_mult, (Rabs_right (/ INR (List.length x))) by (apply Rle_ge; left; assumption). apply Rmult_le_compat_r; [lra|]. apply (Rtot_mag x).
Qed.
Lemma var_within (x : list f64) B : x <> [] -> within B x -> pop_var (map B2R x) <= B * B.
Proof.
  intros Hx Hw. assert (Hx' : map B2R x <> []) by (destruct x; [congruence|discriminate]).
  pose proof (moment_var 0 (map B2R x) Hx') as E. pose proof (sq_nonneg (avg (map B2R x) - 0)).
  assert (moment 0 (map B2R x) <= B * B); [|lra]. unfold moment. set (n := INR (List.length (map B2R x))).
  assert (Hn : 1 <= n) by (apply (le_INR 1); destruct x; [congruence|cbn; lia]).
  apply (Rmult_le_reg_r n); [lra|]. unfold Rdiv. rewrite Rmult_assoc, Rinv_l, Rmult_1_r by lra. rewrite Rmult_comm.
  unfold n. rewrite <- (map_length (fun v => (v - 0) * (v - 0)) (map B2R x)). apply (Rsum_bounds 0 (B * B)).
  intros w Hw'. apply in_map_iff in Hw' as (v & <- & Hv). apply in_map_iff in Hv as (y & <- & Hy).
  split; [apply sq_nonneg|]. rewrite Rminus_0_r. destruct (Hw y Hy) as [_ HB]. rewrite <- (Rabs_right (B2R y * B2R y)) by (apply Rle_ge, sq_nonneg).
  rewrite Rabs_mult. apply Rmult_le_compat; auto using Rabs_pos.
Qed.

(** A squared deviation. *)
Lemma centred_sq (v m : f64) (K : R) : isfin v = true -> isfin m = true -> Rabs (B2R v - B2R m) <= K -> K <= bpow radix2 404 ->
  let c := fsub v m in let D := (B2R v - B2R m) * (B2R v - B2R m) in
  isfin (fmul c c) = true /\ 0 <= B2R (fmul c c) /\ Rabs (B2R (fmul c c) - D) <= 4 * u * D + eta /\ Rabs (B2R (fmul c c)) <= bpow radix2 900.
Proof.
  intros Fv Fm HK HB c D. pose proof u_pos as Hu. pose proof u_small as Hs. pose proof eta_pos as He0.
  set (X := B2R v - B2R m) in *.
  assert (H4 : bpow radix2 404 <= huge) by (unfold huge; apply bpow_le; lia).
  destruct (sub_rel v m Fv Fm) as [Fc (e & He & Ec)]; [fold X; lra|]. fold c X in Ec, Fc.
  assert (Ce : 0 <= 1 + e <= 1 + u) by (unfold Rabs in He; destruct (Rcase_abs e); lra).
  assert (HD : 0 <= D) by apply sq_nonneg.
  assert (HDb : D <= bpow radix2 808).
  { replace (bpow radix2 808) with (bpow radix2 404 * bpow radix2 404) by (rewrite <- bpow_plus; reflexivity).
    unfold D. rewrite <- (Rabs_right (X * X)) by (apply Rle_ge, sq_nonneg). rewrite Rabs_mult.
    apply Rmult_le_compat; try apply Rabs_pos; lra. }
  assert (Ecc : B2R c * B2R c = D * ((1 + e) * (1 + e))) by (rewrite Ec; unfold D; ring).
  assert (Hee : Rabs ((1 + e) * (1 + e) - 1) <= 2 * u + u * u).
  { replace ((1 + e) * (1 + e) - 1) with (2 * e + e * e) by ring. eapply Rle_trans; [apply Rabs_triang|]. rewrite !Rabs_mult, (Rabs_right 2) by lra.
    assert (Rabs e * Rabs e <= u * u) by (apply Rmult_le_compat; auto using Rabs_pos). lra. }
  assert (Huu : u * u <= u * / 1024) by (apply Rmult_le_compat_l; lra).
  assert (Hee' : 0 <= (1 + e) * (1 + e) <= 2).
  { split; [apply sq_nonneg|]. revert Hee. unfold Rabs. destruct (Rcase_abs _); lra. }
  assert (Hcc : Rabs (B2R c * B2R c) <= 2 * bpow radix2 808).
  { rewrite Ecc, Rabs_right by (apply Rle_ge, Rmult_le_pos; lra). rewrite (Rmult_comm 2). apply Rmult_le_compat; lra. }
  assert (H8 : 2 * bpow radix2 808 <= bpow radix2 809) by (change 2 with (bpow radix2 1) at 1; rewrite <- bpow_plus; apply Rle_refl).
  assert (H9 : bpow radix2 809 <= huge) by (unfold huge; apply bpow_le; lia).
  destruct (mul_rel c c Fc Fc) as [Fq (f & t & Hf & Ht & Eq)]; [lra|].
  assert (Hd : Rabs (B2R (fmul c c) - D) <= 4 * u * D + eta).
  { rewrite Eq, Ecc. replace (D * ((1 + e) * (1 + e)) * (1 + f) + t - D) with (D * (((1 + e) * (1 + e) - 1) + (1 + e) * (1 + e) * f) + t) by ring.
    eapply Rle_trans; [apply Rabs_triang|]. rewrite Rabs_mult, (Rabs_right D) by lra.
    assert (HH : Rabs ((1 + e) * (1 + e) - 1 + (1 + e) * (1 + e) * f) <= 4 * u).
    { eapply Rle_trans; [apply Rabs_triang|]. rewrite (Rabs_mult ((1 + e) * (1 + e)) f), (Rabs_right ((1 + e) * (1 + e))) by lra.
      assert ((1 + e) * (1 + e) <= 1 + / 2) by (revert Hee; unfold Rabs; destruct (Rcase_abs _); lra).
      assert ((1 + e) * (1 + e) * Rabs f <= (1 + / 2) * u) by (apply Rmult_le_compat; auto using Rabs_pos; lra). lra. }
    apply (Rmult_le_compat_l D) in HH; [|lra]. lra. }
  split; [exact Fq|]. assert (Hpos : 0 <= B2R (fmul c c)).
  { destruct (fmul_fin c c Fc Fc) as [_ E]; [apply rnd_huge; lra|]. rewrite E. unfold rnd. rewrite <- (round_0 radix2 (SpecFloat.fexp 53 1024) (round_mode mode_NE)).
    apply round_le; [apply FLT_exp_valid; reflexivity|apply valid_rnd_N|apply sq_nonneg]. }
  split; [exact Hpos|]. split; [exact Hd|]. rewrite Rabs_right by lra.
  assert (bpow radix2 808 * 2 + 1 <= bpow radix2 900).
  { assert (1 <= bpow radix2 808) by (change 1 with (bpow radix2 0); apply bpow_le; lia).
    assert (4 * bpow radix2 808 <= bpow radix2 900); [|lra]. change 4 with (bpow radix2 2). rewrite <- bpow_plus. apply bpow_le. lia. }
  assert (eta <= 1) by (unfold eta; change 1 with (bpow radix2 0); apply bpow_le; lia).
  assert (4 * u * D <= 1 * D) by (apply Rmult_le_compat_r; lra).
  revert Hd. unfold Rabs. destruct (Rcase_abs _); lra.
Qed.

Lemma sqrt_plus (a b : R) : 0 <= a -> 0 <= b -> sqrt (a + b) <= sqrt a + sqrt b.
Proof.
  intros Ha Hb. pose proof (sqrt_pos a). pose proof (sqrt_pos b). apply Rsqr_incr_0_var; [|lra].
  unfold Rsqr. rewrite sqrt_sqrt by lra. pose proof (sqrt_sqrt a Ha). pose proof (sqrt_sqrt b Hb).
  assert (0 <= sqrt a * sqrt b) by (apply Rmult_le_pos; lra). lra.
Qed.

(** The square root of a number known up to a factor and a term. *)
Lemma sqrt_dist (v V k t : R) : 0 <= v -> 0 <= V -> 0 <= k <= 1 -> 0 <= t -> Rabs (v - V) <= k * V + t -> Rabs (sqrt v - sqrt V) <= k * sqrt V + sqrt t.
Proof.
  intros Hv HV Hk Ht H. pose proof (sqrt_pos V) as P. pose proof (sqrt_sqrt V HV) as Q.
  assert (H' : V - k * V - t <= v <= V + k * V + t) by (revert H; unfold Rabs; destruct (Rcase_abs _); lra).
  assert (U : sqrt v <= sqrt V * (1 + k) + sqrt t).
  { apply Rle_trans with (sqrt (V * (1 + k) + t)); [apply sqrt_le_1_alt; lra|]. eapply Rle_trans; [apply sqrt_plus; [apply Rmult_le_pos|]; lra|].
    apply Rplus_le_compat_r. rewrite sqrt_mult_alt by lra. apply Rmult_le_compat_l; [lra|].
    rewrite <- (sqrt_square (1 + k)) at 2 by lra. apply sqrt_le_1_alt. pose proof (sq_nonneg k). lra. }
  assert (L : sqrt V * (1 - k) <= sqrt v + sqrt t).
  { apply Rle_trans with (sqrt (v + t)); [|apply sqrt_plus; lra]. apply Rle_trans with (sqrt (V * (1 - k))); [|apply sqrt_le_1_alt; lra].
    rewrite sqrt_mult_alt by lra. apply Rmult_le_compat_l; [lra|]. rewrite <- (sqrt_square (1 - k)) at 1 by lra. apply sqrt_le_1_alt.
    assert (k * k <= 1 * k) by (apply Rmult_le_compat_r; lra). lra. }
  unfold Rabs. destruct (Rcase_abs _); lra.
Qed.

Lemma dot_centred s (x : list f64) : dot (b64_ops s) (centred (b64_ops s) x) (centred (b64_ops s) x) =
  s (map (fun v => fmul (fsub v (mean (b64_ops s) x)) (fsub v (mean (b64_ops s) x))) x).
Proof.
  unfold dot, centred. cbn [b64_ops o_sum o_mul o_sub]. f_equal. generalize (mean (b64_ops s) x). intros m.
  induction x as [|v x IH]; [reflexivity|]. cbn [map combine fst snd]. f_equal. exact IH.
Qed.

(** What underflow can add to a standard deviation. *)
Definition tiny : R := bpow radix2 (-530).

Lemma tiny_ok : 2 * eta + 2 * sqrt (4 * eta) <= tiny.
Proof.
  assert (E : sqrt (4 * eta) <= bpow radix2 (-535)).
  { replace (bpow radix2 (-535)) with (sqrt (bpow radix2 (-1070))).
    - apply sqrt_le_1_alt. unfold eta. change 4 with (bpow radix2 2). rewrite <- bpow_plus. apply bpow_le. lia.
    - replace (bpow radix2 (-1070)) with (bpow radix2 (-535) * bpow radix2 (-535)) by (rewrite <- bpow_plus; reflexivity).
      apply sqrt_square, bpow_ge_0. }
  assert (eta <= bpow radix2 (-535)) by (apply bpow_le; lia).
  assert (4 * bpow radix2 (-535) <= tiny); [|lra]. unfold tiny. change 4 with (bpow radix2 2). rewrite <- bpow_plus. apply bpow_le. lia.
Qed.

(** A sum of squares is not negative. *)
Lemma added_nonneg l t : added l t -> l <> [] -> Forall (fun x => neg_signed x = false) l -> neg_signed t = false.
Proof.
  induction 1 as [z Hz Fz|x|l l1 l2 a b HP Ha IHa Hb IHb]; intros Hl F.
  - congruence.
  - inversion F; assumption.
  - assert (F' : Forall (fun x => neg_signed x = false) (l1 ++ l2)) by (eapply Permutation_Forall; eassumption).
    apply Forall_app in F' as [F1 F2].
    assert (Z : forall c, added [] c -> exists sg, c = B754_zero sg).
    { intros c Hc. destruct (added_err [] c Hc (Forall_nil _)) as [Fc Ec]; [change (Rmag []) with 0; rewrite Rmult_0_r; apply bpow_ge_0|].
      unfold Rtot, Rmag, Rsum in Ec. cbn in Ec. rewrite Rmult_0_r, Rminus_0_r in Ec. apply Rabs_le_0 in Ec.
      destruct c as [sg|sg| |sg m e Hm]; [exists sg; reflexivity|discriminate|discriminate|]. exfalso. cbn in Ec. apply eq_0_F2R in Ec. destruct sg; discriminate. }
    destruct l1 as [|x1 l1]; [destruct l2 as [|x2 l2]|destruct l2 as [|x2 l2]].
    + apply Permutation_sym, Permutation_nil in HP. congruence.
    + destruct (Z a Ha) as [sg ->]. specialize (IHb ltac:(discriminate) F2). destruct sg, b as [[|]|[|]| |[|] m e Hm]; try discriminate; reflexivity.
    + destruct (Z b Hb) as [sg ->]. specialize (IHa ltac:(discriminate) F1). destruct sg, a as [[|]|[|]| |[|] m e Hm]; try discriminate; reflexivity.
    + apply fadd_nonneg; [apply IHa|apply IHb]; auto; discriminate.
Qed.

Lemma std_err s (x : list f64) (B : R) : adds s -> x <> [] -> few (List.length x) -> within B x -> B <= far ->
  isfin (std (b64_ops s) x) = true /\
  Rabs (B2R (std (b64_ops s) x) - sqrt (pop_var (map B2R x))) <= (6 * INR (List.length x) + 7) * u * B + tiny.
Proof.
  intros Hs Hx Hf Hw HB. pose proof u_pos as Hu. pose proof eta_pos as Het. pose proof u_small as Hus.
  set (n := INR (List.length x)). assert (Hn : 1 <= n) by (apply (le_INR 1); destruct x; [congruence|cbn; lia]).
  pose proof (few_u _ Hf) as Hnu. fold n in Hnu. assert (Hc : / 2 ^ 13 <= / 1024) by (cbn; lra).
  assert (H9 : far <= bpow radix2 900) by (apply bpow_le; lia).
  assert (Het1 : eta <= 1) by (change 1 with (bpow radix2 0); apply bpow_le; lia).
  assert (Hfar : 1 <= far) by (change 1 with (bpow radix2 0); apply bpow_le; lia).
  assert (Hfar4 : 16 * far <= bpow radix2 404) by (unfold far; change 16 with (bpow radix2 4); rewrite <- bpow_plus; apply bpow_le; lia).
  assert (HB0 : 0 <= B). { destruct x as [|v x]; [congruence|]. destruct (Hw v (or_introl eq_refl)) as [_ H]. pose proof (Rabs_pos (B2R v)). lra. }
  assert (Hx' : map B2R x <> []) by (destruct x; [congruence|discriminate]).
  destruct (mean_err s x B Hs Hx Hf Hw) as [Fm Em]; [lra|]. fold n in Em.
  pose proof (avg_within x B Hx Hw) as Ha.
  set (m := mean (b64_ops s) x) in *. set (a := avg (map B2R x)) in *. set (d := B2R m - a) in *.
  assert (HnuB : n * u * B <= / 1024 * B) by (apply Rmult_le_compat_r; lra).
  set (q := map (fun v => fmul (fsub v m) (fsub v m)) x).
  assert (Hlq : List.length q = List.length x) by apply map_length.
  assert (Hq : forall v, In v x -> let c := fsub v m in let D := (B2R v - B2R m) * (B2R v - B2R m) in
    isfin (fmul c c) = true /\ 0 <= B2R (fmul c c) /\ Rabs (B2R (fmul c c) - D) <= 4 * u * D + eta /\ Rabs (B2R (fmul c c)) <= bpow radix2 900).
  { intros v Hv. destruct (Hw v Hv) as [Fv Bv]. apply (centred_sq v m (4 * far) Fv Fm); [|lra].
    assert (Rabs (B2R m) <= 2 * B + eta).
    { replace (B2R m) with (d + a) by (unfold d; ring). eapply Rle_trans; [apply Rabs_triang|]. lra. }
    unfold Rminus. eapply Rle_trans; [apply Rabs_triang|]. rewrite Rabs_Ropp. lra. }
  assert (Hwq : within (bpow radix2 900) q).
  { intros w Hw'. apply in_map_iff in Hw' as (v & <- & Hv). destruct (Hq v Hv) as (F & _ & _ & Bq). split; assumption. }
  assert (Hqx : q <> []) by (unfold q; destruct x; [congruence|discriminate]).
  destruct (sum_div_err s q (bpow radix2 900) Hs Hqx ltac:(rewrite Hlq; exact Hf) Hwq (Rle_refl _)) as [Fv Ev].
  rewrite Hlq in Fv, Ev. fold n in Ev. set (v := fdiv (s q) (Z2f (Z.of_nat (List.length x)))) in *.
  assert (Estd : std (b64_ops s) x = fsqrt v) by (unfold std; rewrite dot_centred; reflexivity).
  assert (HMT : Rmag q = Rtot q).
  { unfold Rmag, Rtot. f_equal. apply map_ext_in. intros w Hw'. apply in_map_iff in Hw' as (y & <- & Hy).
    destruct (Hq y Hy) as (_ & P & _). apply Rabs_right. lra. }
  assert (Hv0 : neg_signed v = false).
  { unfold v. apply fdiv_nonneg; [|apply Z2f_nonneg]. apply (added_nonneg q _ (Hs q) Hqx). unfold q. apply Forall_forall. intros w Hw'.
    apply in_map_iff in Hw' as (y & <- & Hy). apply square_nonneg. }
  set (V := moment (B2R m) (map B2R x)).
  assert (HV0 : 0 <= V) by apply moment_nonneg.
  assert (HW : Rabs (Rtot q / n - V) <= 4 * u * V + eta).
  { unfold V, moment. rewrite map_length, map_map. fold n. unfold Rtot, q. rewrite map_map.
    set (S1 := Rsum (map (fun v0 => B2R (fmul (fsub v0 m) (fsub v0 m))) x)).
    assert (E1 := Rsum_map_dist (fun v0 : f64 => B2R (fmul (fsub v0 m) (fsub v0 m))) (fun v0 : f64 => (B2R v0 - B2R m) * (B2R v0 - B2R m)) (4 * u) eta x
       ltac:(intros y Hy; apply (Hq y Hy))). fold S1 n in E1.
    set (S2 := Rsum (map (fun v0 : f64 => (B2R v0 - B2R m) * (B2R v0 - B2R m)) x)) in *.
    change (Rabs (S1 / n - S2 / n) <= 4 * u * (S2 / n) + eta).
    replace (S1 / n - S2 / n) with ((S1 - S2) * / n) by (field; lra).
    rewrite Rabs_mult, (Rabs_right (/ n)) by (apply Rle_ge; left; apply Rinv_0_lt_compat; lra).
    apply (Rmult_le_reg_r n); [lra|]. rewrite Rmult_assoc, Rinv_l, Rmult_1_r by lra.
    replace ((4 * u * (S2 / n) + eta) * n) with (4 * u * S2 + n * eta) by (field; lra). exact E1. }
  set (W := Rtot q / n) in *. rewrite HMT in Ev. fold W in Ev.
  set (k := (2 * n + 5) * u).
  assert (Hk : 0 <= k <= 1) by (unfold k; split; [apply Rmult_le_pos|]; lra).
  assert (HvV : Rabs (B2R v - V) <= k * V + 4 * eta).
  { replace (B2R v - V) with ((B2R v - W) + (W - V)) by ring. eapply Rle_trans; [apply Rabs_triang|].
    assert (HWV : W <= V + 4 * u * V + eta) by (revert HW; unfold Rabs; destruct (Rcase_abs _); lra).
    assert (Hnu0 : 0 <= n * u) by (apply Rmult_le_pos; lra).
    apply (Rmult_le_compat_l (n * u)) in HWV; [|exact Hnu0].
    assert (n * u * (4 * u * V) <= / 1024 * (4 * u * V)) by (apply Rmult_le_compat_r; [apply Rmult_le_pos|]; lra).
    assert (n * u * eta <= / 1024 * eta) by (apply Rmult_le_compat_r; lra).
    assert (0 <= u * V) by (apply Rmult_le_pos; lra). unfold k. lra. }
  assert (HvR : 0 <= B2R v).
  { clear - Hv0. destruct v as [[|]|[|]| |[|] mm ee Hm]; cbn [B2R]; try discriminate; try apply Rle_refl. apply F2R_ge_0. cbn. lia. }
  destruct (sqrt_rel v Fv Hv0) as [Fr (e & He & Er)]. rewrite Estd. split; [exact Fr|]. rewrite Er.
  pose proof (sqrt_dist (B2R v) V k (4 * eta) HvR HV0 Hk ltac:(lra) HvV) as Hsd.
  set (w := sqrt V) in *. set (r := sqrt (4 * eta)) in *.
  assert (Hw0 : 0 <= w) by apply sqrt_pos. assert (Hr0 : 0 <= r) by apply sqrt_pos.
  assert (Hsw : Rabs (sqrt (B2R v) * (1 + e) - w) <= (2 * n + 7) * u * w + 2 * r).
  { replace (sqrt (B2R v) * (1 + e) - w) with ((sqrt (B2R v) - w) * (1 + e) + w * e) by ring.
    eapply Rle_trans; [apply Rabs_triang|]. rewrite !Rabs_mult, (Rabs_right w) by lra.
    assert (H1 : Rabs (1 + e) <= 1 + u). { eapply Rle_trans; [apply Rabs_triang|]. rewrite Rabs_R1. lra. }
    assert (Q1 : Rabs (sqrt (B2R v) - w) * Rabs (1 + e) <= (k * w + r) * (1 + u)) by (apply Rmult_le_compat; auto using Rabs_pos).
    assert (Q2 : w * Rabs e <= w * u) by (apply Rmult_le_compat_l; assumption).
    assert (0 <= w * u) by (apply Rmult_le_pos; lra).
    assert (k * (w * u) <= 1 * (w * u)) by (apply Rmult_le_compat_r; lra).
    assert (r * u <= r * 1) by (apply Rmult_le_compat_l; lra). unfold k in *. lra. }
  set (g := sqrt (pop_var (map B2R x))).
  assert (Hpv : V = pop_var (map B2R x) + d * d). { unfold V. rewrite (moment_var _ _ Hx'). fold a. unfold d. ring. }
  assert (Hpv0 : 0 <= pop_var (map B2R x)) by (apply (moment_nonneg (avg (map B2R x)))).
  assert (Hg0 : 0 <= g) by apply sqrt_pos.
  assert (Hgw : g <= w) by (unfold g, w; apply sqrt_le_1_alt; rewrite Hpv; pose proof (sq_nonneg d); lra).
  assert (Hwg : w <= g + Rabs d).
  { unfold w. rewrite Hpv. eapply Rle_trans; [apply sqrt_plus; [exact Hpv0|apply sq_nonneg]|]. fold g. apply Rplus_le_compat_l.
    change (d * d) with (Rsqr d). rewrite sqrt_Rsqr_abs. apply Rle_refl. }
  assert (HgB : g <= B). { unfold g. rewrite <- (sqrt_square B HB0). apply sqrt_le_1_alt, var_within; assumption. }
  replace (sqrt (B2R v) * (1 + e) - g) with ((sqrt (B2R v) * (1 + e) - w) + (w - g)) by ring.
  eapply Rle_trans; [apply Rabs_triang|]. rewrite (Rabs_right (w - g)) by lra.
  assert (Hd0 := Rabs_pos d).
  assert (Hk7 : 0 <= (2 * n + 7) * u <= 1) by (split; [apply Rmult_le_pos|]; lra).
  assert (Q1 : (2 * n + 7) * u * w <= (2 * n + 7) * u * g + Rabs d).
  { apply Rle_trans with ((2 * n + 7) * u * (g + Rabs d)); [apply Rmult_le_compat_l; lra|].
    assert ((2 * n + 7) * u * Rabs d <= 1 * Rabs d) by (apply Rmult_le_compat_r; lra). lra. }
  assert (Q2 : (2 * n + 7) * u * g <= (2 * n + 7) * u * B) by (apply Rmult_le_compat_l; lra).
  pose proof tiny_ok as HT. fold r in HT. lra.
Qed.

(* ------------------------------------------------------------------ *)
(** ** What the models learn *)

Lemma raise_to_R s (lo v : f64) : isfin lo = true -> isfin v = true ->
  isfin (raise_to (b64_ops s) lo v) = true /\ B2R (raise_to (b64_ops s) lo v) = Rmax (B2R lo) (B2R v).
Proof.
  intros Fl Fv. unfold raise_to. cbn [b64_ops o_ltb]. unfold flt. rewrite (Bltb_correct 53 1024 v lo Fv Fl).
  destruct (Rlt_bool_spec (B2R v) (B2R lo)) as [H|H].
  - split; [exact Fl|]. rewrite Rmax_left by lra. reflexivity.
  - split; [exact Fv|]. rewrite Rmax_right by lra. reflexivity.
Qed.
Lemma Rmax_dist a b c : Rabs (Rmax a b - Rmax a c) <= Rabs (b - c).
Proof. unfold Rmax. destruct (Rle_dec a b), (Rle_dec a c); unfold Rabs; repeat destruct (Rcase_abs _); lra. Qed.

Lemma raised_std s lower (x : list f64) B : adds s -> isfin lower = true -> x <> [] -> few (List.length x) -> within B x -> B <= far ->
  isfin (raise_to (b64_ops s) lower (std (b64_ops s) x)) = true /\
  Rabs (B2R (raise_to (b64_ops s) lower (std (b64_ops s) x)) - Rmax (B2R lower) (sqrt (pop_var (map B2R x)))) <=
    (6 * INR (List.length x) + 7) * u * B + tiny.
Proof.
  intros Hs Fl Hx Hf Hw HB. destruct (std_err s x B Hs Hx Hf Hw HB) as [F E].
  destruct (raise_to_R s lower _ Fl F) as [F' E']. split; [exact F'|]. rewrite E'. eapply Rle_trans; [apply Rmax_dist|exact E].
Qed.

Lemma avg_between (x : list f64) lo hi : x <> [] -> (forall v, In v x -> lo <= B2R v <= hi) -> lo <= avg (map B2R x) <= hi.
Proof.
  intros Hx H. rewrite <- mean_avg. apply mean_between; [destruct x; [congruence|discriminate]|].
  intros w Hw. apply in_map_iff in Hw as (v & <- & Hv). apply H, Hv.
Qed.

Lemma unigauss_float s lower col pm pm' i (x : list f64) B q :
  adds s -> isfin lower = true -> unigauss_learn (b64_ops s) lower col pm = (Ok tt, pm') -> nth_error pm' i = Some q ->
  col i = Ok x -> x <> [] -> (Z.of_nat (List.length x) <= 2 ^ 40)%Z ->
  (forall v, In v x -> isfin v = true /\ Rabs (B2R v) <= B) -> B <= bpow radix2 400 ->
  let n := INR (List.length x) in
  let slack := 2 * n * bpow radix2 (-53) * B + bpow radix2 (-1075) in
  isfin (fst q) = true /\ isfin (snd q) = true /\
  Rabs (B2R (fst q) - avg (map B2R x)) <= slack /\
  (forall lo hi, (forall v, In v x -> lo <= B2R v <= hi) -> lo - slack <= B2R (fst q) <= hi + slack) /\
  Rabs (B2R (snd q) - Rmax (B2R lower) (sqrt (pop_var (map B2R x)))) <= (6 * n + 7) * bpow radix2 (-53) * B + bpow radix2 (-530).
Proof.
  intros Hs Fl H Hq Hc Hx Hf Hw HB n slack. apply learn_from_ok in H as [Hl Hk].
  assert (Hi : (i < List.length pm)%nat) by (rewrite <- Hl; apply nth_error_Some; congruence).
  destruct (Hk i Hi) as (q' & H1 & H2). rewrite Hq in H1. assert (q' = q) by congruence. subst q'.
  unfold unigauss_upd in H2. cbn [plus] in H2. rewrite Hc in H2. cbn [rmap] in H2.
  match type of H2 with Ok ?v = _ => assert (Hv : q = v) by congruence end. clear H2. subst q. cbn [fst snd].
  assert (H9 : bpow radix2 400 <= bpow radix2 900) by (apply bpow_le; lia).
  destruct (mean_err s x B Hs Hx Hf Hw) as [Fm Em]; [lra|].
  destruct (raised_std s lower x B Hs Fl Hx Hf Hw HB) as [Fr Er].
  split; [exact Fm|]. split; [exact Fr|]. split; [exact Em|]. split; [|exact Er].
  intros lo hi Hb. pose proof (avg_between x lo hi Hx Hb) as Ha. fold n u eta in Em. unfold slack. fold u eta.
  revert Em. unfold Rabs. destruct (Rcase_abs _); lra.
Qed.

(** One rounded operation on numbers known up to an error. *)
Lemma add_near (a b : f64) (A B ea eb K : R) : isfin a = true -> isfin b = true -> Rabs (B2R a - A) <= ea -> Rabs (B2R b - B) <= eb ->
  Rabs A + ea + (Rabs B + eb) <= K -> K <= huge ->
  isfin (fadd a b) = true /\ Rabs (B2R (fadd a b) - (A + B)) <= ea + eb + u * K.
Proof.
  intros Fa Fb Ha Hb HK Hh. assert (Rabs (B2R a) <= Rabs A + ea).
  { replace (B2R a) with (A + (B2R a - A)) by ring. eapply Rle_trans; [apply Rabs_triang|]. lra. }
  assert (Rabs (B2R b) <= Rabs B + eb).
  { replace (B2R b) with (B + (B2R b - B)) by ring. eapply Rle_trans; [apply Rabs_triang|]. lra. }
  assert (HS : Rabs (B2R a + B2R b) <= K) by (eapply Rle_trans; [apply Rabs_triang|]; lra).
  destruct (add_rel a b Fa Fb ltac:(lra)) as [F (e & He & E)]. split; [exact F|]. rewrite E.
  replace ((B2R a + B2R b) * (1 + e) - (A + B)) with ((B2R a - A) + (B2R b - B) + (B2R a + B2R b) * e) by ring.
  eapply Rle_trans; [apply Rabs_triang|]. eapply Rle_trans; [apply Rplus_le_compat_r, Rabs_triang|]. rewrite Rabs_mult.
  assert (Rabs (B2R a + B2R b) * Rabs e <= K * u) by (apply Rmult_le_compat; auto using Rabs_pos). lra.
Qed.
Lemma sub_near (a b : f64) (A B ea eb K : R) : isfin a = true -> isfin b = true -> Rabs (B2R a - A) <= ea -> Rabs (B2R b - B) <= eb ->
  Rabs A + ea + (Rabs B + eb) <= K -> K <= huge ->
  isfin (fsub a b) = true /\ Rabs (B2R (fsub a b) - (A - B)) <= ea + eb + u * K.
Proof.
  intros Fa Fb Ha Hb HK Hh. assert (Rabs (B2R a) <= Rabs A + ea).
  { replace (B2R a) with (A + (B2R a - A)) by ring. eapply Rle_trans; [apply Rabs_triang|]. lra. }
  assert (Rabs (B2R b) <= Rabs B + eb).
  { replace (B2R b) with (B + (B2R b - B)) by ring. eapply Rle_trans; [apply Rabs_triang|]. lra. }
  assert (HS : Rabs (B2R a - B2R b) <= K) by (unfold Rminus; eapply Rle_trans; [apply Rabs_triang|]; rewrite Rabs_Ropp; lra).
  destruct (sub_rel a b Fa Fb ltac:(lra)) as [F (e & He & E)]. split; [exact F|]. rewrite E.
  replace ((B2R a - B2R b) * (1 + e) - (A - B)) with ((B2R a - A) + (- (B2R b - B)) + (B2R a - B2R b) * e) by ring.
  eapply Rle_trans; [apply Rabs_triang|]. eapply Rle_trans; [apply Rplus_le_compat_r, Rabs_triang|]. rewrite Rabs_mult, Rabs_Ropp.
  assert (Rabs (B2R a - B2R b) * Rabs e <= K * u) by (apply Rmult_le_compat; auto using Rabs_pos). lra.
Qed.
Lemma mul_near (a b : f64) (A B ea eb K : R) : isfin a = true -> isfin b = true -> Rabs (B2R a - A) <= ea -> Rabs (B2R b - B) <= eb ->
  (Rabs A + ea) * (Rabs B + eb) <= K -> K <= huge ->
  isfin (fmul a b) = true /\ Rabs (B2R (fmul a b) - A * B) <= (Rabs A + ea) * eb + ea * Rabs B + u * K + eta.
Proof.
  intros Fa Fb Ha Hb HK Hh. assert (H1 : Rabs (B2R a) <= Rabs A + ea).
  { replace (B2R a) with (A + (B2R a - A)) by ring. eapply Rle_trans; [apply Rabs_triang|]. lra. }
  assert (H2 : Rabs (B2R b) <= Rabs B + eb).
  { replace (B2R b) with (B + (B2R b - B)) by ring. eapply Rle_trans; [apply Rabs_triang|]. lra. }
  assert (HS : Rabs (B2R a * B2R b) <= K). { rewrite Rabs_mult. eapply Rle_trans; [|exact HK]. apply Rmult_le_compat; auto using Rabs_pos. }
  destruct (mul_rel a b Fa Fb ltac:(lra)) as [F (e & t & He & Ht & E)]. split; [exact F|]. rewrite E.
  replace (B2R a * B2R b * (1 + e) + t - A * B) with (B2R a * (B2R b - B) + (B2R a - A) * B + B2R a * B2R b * e + t) by ring.
  eapply Rle_trans; [apply Rabs_triang|]. apply Rplus_le_compat; [|exact Ht].
  eapply Rle_trans; [apply Rabs_triang|]. apply Rplus_le_compat.
  - eapply Rle_trans; [apply Rabs_triang|]. rewrite !Rabs_mult. apply Rplus_le_compat; apply Rmult_le_compat; auto using Rabs_pos; lra.
  - rewrite Rabs_mult, Rmult_comm. apply Rmult_le_compat; auto using Rabs_pos.
Qed.

Lemma adapt_float s lower alpha col pm pm' i (x : list f64) b1 b2 rest B q :
  adds s -> isfin lower = true -> isfin alpha = true -> 0 <= B2R alpha <= 1 ->
  adapt_learn (b64_ops s) lower alpha col pm = (Ok tt, pm') -> nth_error pm' i = Some q ->
  col i = Ok x -> x = b1 :: b2 :: rest -> (Z.of_nat (List.length x) <= 2 ^ 40)%Z ->
  (forall v, In v x -> isfin v = true /\ Rabs (B2R v) <= B) -> B <= bpow radix2 400 ->
  let n := INR (List.length x) in
  let a := B2R alpha in
  let target := (1 - a) * avg (map B2R x) + a * (B2R b1 + B2R b2 - B2R (last x b1)) in
  isfin (fst q) = true /\ isfin (snd q) = true /\
  Rabs (B2R (fst q) - target) <= (4 * n + 30) * bpow radix2 (-53) * B + bpow radix2 (-1072) /\
  Rabs (B2R (snd q) - Rmax (B2R lower) (sqrt (pop_var (map B2R x)))) <= (6 * n + 7) * bpow radix2 (-53) * B + bpow radix2 (-530).
Proof.
  intros Hs Fl Fa Ha H Hq Hc Hx Hf Hw HB n a target. apply learn_from_ok in H as [Hl Hk].
  assert (Hi : (i < List.length pm)%nat) by (rewrite <- Hl; apply nth_error_Some; congruence).
  destruct (Hk i Hi) as (q' & H1 & H2). rewrite Hq in H1. assert (q' = q) by congruence. subst q'.
  unfold adapt_upd in H2. cbn [plus] in H2. rewrite Hc in H2. cbn [rbind] in H2. rewrite Hx in H2. rewrite <- Hx in H2.
  assert (Hxn : x <> []) by (rewrite Hx; discriminate).
  assert (I1 : In b1 x) by (rewrite Hx; left; reflexivity). assert (I2 : In b2 x) by (rewrite Hx; right; left; reflexivity).
  assert (I3 : In (last x b1) x).
  { clear - Hxn. destruct (exists_last Hxn) as (l & z & ->). rewrite last_last. apply in_or_app. right. left. reflexivity. }
  set (w := last x b1) in *.
  match type of H2 with Ok ?v = _ => assert (Hv : q = v) by congruence end. clear H2. subst q. cbn [fst snd].
  assert (H9 : bpow radix2 400 <= bpow radix2 900) by (apply bpow_le; lia).
  destruct (mean_err s x B Hs Hxn Hf Hw) as [Fm Em]; [lra|].
  destruct (raised_std s lower x B Hs Fl Hxn Hf Hw HB) as [Fr Er].
  pose proof (avg_within x B Hxn Hw) as Av.
  destruct (Hw b1 I1) as [F1 B1]. destruct (Hw b2 I2) as [F2 B2']. destruct (Hw w I3) as [F3 B3].
  assert (HB0 : 0 <= B) by (pose proof (Rabs_pos (B2R b1)); lra).
  fold n in Em. fold u. fold u in Er. set (m := mean (b64_ops s) x) in *. set (A := avg (map B2R x)) in *.
  pose proof u_pos as Hu. pose proof u_small as Hus. pose proof eta_pos as He.
  assert (Hn : 1 <= n) by (apply (le_INR 1); rewrite Hx; cbn; lia).
  pose proof (few_u _ Hf) as Hnu. fold n in Hnu. assert (Hc13 : / 2 ^ 13 <= / 1024) by (cbn; lra).
  assert (HuB : 0 <= u * B) by (apply Rmult_le_pos; lra).
  assert (HnuB : n * u * B <= / 1024 * B) by (apply Rmult_le_compat_r; lra).
  assert (HnuB0 : 0 <= n * u * B) by (apply Rmult_le_pos; [apply Rmult_le_pos; lra|lra]).
  assert (Hf1 : 1 <= far) by (change 1 with (bpow radix2 0); apply bpow_le; lia).
  assert (Hhuge : 16 * far + 1 <= huge).
  { assert (32 * far <= huge); [|lra]. unfold far, huge. change 32 with (bpow radix2 5). rewrite <- bpow_plus. apply bpow_le. lia. }
  fold far in HB. assert (Het1 : eta <= / 1024) by (replace (/ 1024) with (bpow radix2 (-10)) by (cbn; f_equal; lra); apply bpow_le; lia).
  assert (HuB1 : u * B <= / 1024 * B) by (apply Rmult_le_compat_r; lra).
  assert (Zr : forall y : R, Rabs (y - y) <= 0) by (intros y; rewrite Rminus_diag_eq, Rabs_R0; [lra|reflexivity]).
  assert (Aa : Rabs a = a) by (apply Rabs_right; unfold a; lra).
  assert (A1a : Rabs (1 - a) = 1 - a) by (apply Rabs_right; unfold a; lra).
  destruct (Z2f_exact 1) as [E1 Fo]; [lia|].
  destruct (sub_near (Z2f 1) alpha 1 a 0 0 2 Fo Fa) as [Fs Es]; [rewrite E1; apply Zr|apply Zr|rewrite Rabs_R1, Aa; unfold a; lra|lra|].
  destruct (mul_near (fsub (Z2f 1) alpha) m (1 - a) A (2 * u) (2 * n * u * B + eta) (2 * B + 2 * eta) Fs Fm) as [Ft1 Et1];
    [eapply Rle_trans; [exact Es|]; lra|exact Em| |lra|].
  { rewrite A1a. assert (1 - a + 2 * u <= 1 + / 512) by (unfold a; lra).
    apply Rle_trans with ((1 + / 512) * (B + (2 * n * u * B + eta))); [|lra]. apply Rmult_le_compat; try lra.
    - unfold a; lra.
    - pose proof (Rabs_pos A). lra. }
  destruct (add_near b1 b2 (B2R b1) (B2R b2) 0 0 (2 * B) F1 F2 (Zr _) (Zr _)) as [Fb Eb]; [lra|lra|].
  assert (Hbb : Rabs (B2R b1 + B2R b2) <= 2 * B) by (eapply Rle_trans; [apply Rabs_triang|]; lra).
  destruct (sub_near (fadd b1 b2) w (B2R b1 + B2R b2) (B2R w) (2 * u * B) 0 (4 * B) Fb F3) as [Fd Ed];
    [eapply Rle_trans; [exact Eb|]; lra|apply Zr|lra|lra|].
  set (D := B2R b1 + B2R b2 - B2R w) in *.
  assert (HD : Rabs D <= 3 * B) by (unfold D, Rminus; eapply Rle_trans; [apply Rabs_triang|]; rewrite Rabs_Ropp; lra).
  destruct (mul_near alpha (fsub (fadd b1 b2) w) a D 0 (6 * u * B) (4 * B) Fa Fd (Zr _)) as [Ft2 Et2];
    [eapply Rle_trans; [exact Ed|]; lra| |lra|].
  { rewrite Aa, Rplus_0_r. apply Rle_trans with (1 * (Rabs D + 6 * u * B)); [|lra]. apply Rmult_le_compat_r; [pose proof (Rabs_pos D); lra|unfold a; lra]. }
  set (t1 := fmul (fsub (Z2f 1) alpha) m) in *. set (t2 := fmul alpha (fsub (fadd b1 b2) w)) in *.
  assert (Et1' : Rabs (B2R t1 - (1 - a) * A) <= (2 * n + 5) * u * B + 3 * eta).
  { eapply Rle_trans; [exact Et1|]. rewrite A1a.
    assert (Q1 : (1 - a + 2 * u) * (2 * n * u * B + eta) <= (1 + 2 * u) * (2 * n * u * B + eta)) by (apply Rmult_le_compat_r; [lra|unfold a; lra]).
    assert (Q2 : 2 * u * Rabs A <= 2 * u * B) by (apply Rmult_le_compat_l; lra).
    assert (Q3 : u * (n * u * B) <= u * (/ 1024 * B)) by (apply Rmult_le_compat_l; lra).
    assert (Q4 : u * eta <= / 1024 * eta) by (apply Rmult_le_compat_r; lra). lra. }
  assert (Et2' : Rabs (B2R t2 - a * D) <= 10 * u * B + eta).
  { eapply Rle_trans; [exact Et2|]. rewrite Aa, Rplus_0_r.
    assert (Q1 : a * (6 * u * B) <= 1 * (6 * u * B)) by (apply Rmult_le_compat_r; [lra|unfold a; lra]). lra. }
  assert (P1 : Rabs ((1 - a) * A) <= B).
  { rewrite Rabs_mult, A1a. replace B with (1 * B) by ring. apply Rmult_le_compat; auto using Rabs_pos; unfold a; lra. }
  assert (P2 : Rabs (a * D) <= 3 * B).
  { rewrite Rabs_mult, Aa. replace (3 * B) with (1 * (3 * B)) by ring. apply Rmult_le_compat; auto using Rabs_pos; unfold a; lra. }
  destruct (add_near t1 t2 ((1 - a) * A) (a * D) _ _ (5 * B + 4 * eta) Ft1 Ft2 Et1' Et2') as [Fq Eq]; [lra|lra|].
  split; [exact Fq|]. split; [exact Fr|]. split; [|exact Er]. fold target in Eq. cbn [b64_ops o_add o_mul o_sub o_ofZ]. fold t1 t2.
  eapply Rle_trans; [exact Eq|].
  assert (Heta8 : 8 * eta = bpow radix2 (-1072)) by (unfold eta; change 8 with (bpow radix2 3); rewrite <- bpow_plus; reflexivity).
  assert (u * eta <= / 1024 * eta) by (apply Rmult_le_compat_r; lra). lra.
Qed.
