(** Rounding analysis of the validation [np.random.choice] performs: a list of probabilities
    whose exact sum is close to one is accepted. *)
From Coq Require Import String List ZArith Bool Lia Reals Lra.
From Flocq Require Import Core IEEE754.BinarySingleNaN.
From Verif Require Import PyBase B64 B64More NdArray Rand RandThms Models.
Import ListNotations.
Open Scope R_scope.

Definition eps : R := bpow radix2 (-51).

Lemma eps_pos : 0 < eps. Proof. apply bpow_gt_0. Qed.

Local Instance fexp_mono : Monotone_exp (SpecFloat.fexp 53 1024).
Proof. intros e1 e2 H. unfold SpecFloat.fexp. lia. Qed.
Local Instance fexp_val : Valid_exp (SpecFloat.fexp 53 1024).
Proof. apply fexp_correct. reflexivity. Qed.

Lemma rnd_err_bpow (x : R) (e : Z) : (-1000 <= e)%Z -> Rabs x <= bpow radix2 e -> Rabs (rnd x - x) <= bpow radix2 (e - 53).
Proof.
  intros He H. unfold rnd. cbn [round_mode].
  eapply Rle_trans; [apply error_le_half_ulp; exact fexp_val|].
  assert (Hu : ulp radix2 (SpecFloat.fexp 53 1024) x <= bpow radix2 (e - 52)).
  { apply Rle_trans with (ulp radix2 (SpecFloat.fexp 53 1024) (bpow radix2 e)).
    - apply ulp_le; [exact fexp_val|exact fexp_mono|]. rewrite (Rabs_pos_eq (bpow radix2 e)) by apply bpow_ge_0. exact H.
    - rewrite ulp_bpow. apply bpow_le. unfold SpecFloat.fexp, SpecFloat.emin. lia. }
  replace (e - 52)%Z with (1 + (e - 53))%Z in Hu by lia. rewrite bpow_plus in Hu.
  change (bpow radix2 1) with 2 in Hu. lra.
Qed.

Lemma rnd_err (x : R) : Rabs x <= 4 -> Rabs (rnd x - x) <= eps.
Proof. intros H. apply (rnd_err_bpow x 2); [lia|exact H]. Qed.

Lemma rnd_lt_big (x : R) : Rabs x <= 4 -> Rabs (rnd x) < big.
Proof.
  intros H. pose proof (rnd_le_Z x 4 ltac:(cbn; lia)) as H1. pose proof (Z_le_rnd x (-4) ltac:(cbn; lia)) as H2.
  pose proof big_gt_2_53 as Hb. assert (4 <= IZR (2 ^ 53)) by (apply IZR_le; lia).
  apply Rabs_le_inv in H. apply Rabs_def1; [lra|]. assert (-4 <= rnd x) by (apply H2; lra). lra.
Qed.

(** The four operations of the compensated sum, on operands of moderate size. *)
Lemma fadd_near (a b : f64) : isfin a = true -> isfin b = true -> Rabs (B2R a + B2R b) <= 4 ->
  isfin (fadd a b) = true /\ Rabs (B2R (fadd a b) - (B2R a + B2R b)) <= eps.
Proof.
  intros Fa Fb H. destruct (fadd_fin a b Fa Fb (rnd_lt_big _ H)) as [F R]. split; [exact F|]. rewrite R. apply rnd_err, H.
Qed.
Lemma fsub_near (a b : f64) : isfin a = true -> isfin b = true -> Rabs (B2R a - B2R b) <= 4 ->
  isfin (fsub a b) = true /\ Rabs (B2R (fsub a b) - (B2R a - B2R b)) <= eps.
Proof.
  intros Fa Fb H. destruct (fsub_fin a b Fa Fb (rnd_lt_big _ H)) as [F R]. split; [exact F|]. rewrite R. apply rnd_err, H.
Qed.

Ltac abs_lra := repeat match goal with H : Rabs _ <= _ |- _ => apply Rabs_le_inv in H end; apply Rabs_le; lra.

(** The exact sum of a list of doubles. *)
Definition real_sum (l : list f64) : R := fold_right (fun x s => B2R x + s) 0 l.

Lemma eps_small : eps <= / 1024.
Proof.
  unfold eps. apply Rle_trans with (bpow radix2 (-10)); [apply bpow_le; lia|].
  change (bpow radix2 (-10)) with (/ IZR (2 ^ 10)). change (2 ^ 10)%Z with 1024%Z. lra.
Qed.

(** Each step of the compensated sum is off by at most 5 eps. *)
Lemma kahan_from_near l : forall s c err,
  isfin s = true -> isfin c = true -> Rabs (B2R c) <= 3 * eps -> 0 <= err ->
  err - 1 <= B2R s -> Forall prob l ->
  B2R s + real_sum l + err <= 2 -> 5 * eps * INR (List.length l) <= err ->
  isfin (kahan_from s c l) = true /\
  Rabs (B2R (kahan_from s c l) - (B2R s + real_sum l)) <= 5 * eps * INR (List.length l).
Proof.
  induction l as [|x l IH]; intros s c err Fs Fc Hc He Hs Hp Hsum Herr; cbn [kahan_from].
  - cbn. split; [exact Fs|]. replace (B2R s - (B2R s + 0)) with 0 by ring. rewrite Rabs_R0. lra.
  - inversion Hp as [|? ? Hx Hp']; subst. destruct (prob_R x Hx) as [Fx Rx].
    cbn [real_sum fold_right] in *. fold (real_sum l) in *. cbn [List.length] in *. rewrite S_INR in *.
    pose proof eps_pos as E0. pose proof eps_small as E1.
    assert (Hl0 : 0 <= real_sum l).
    { clear - Hp'. induction Hp' as [|y l Hy Hl IH]; cbn; [lra|]. destruct (prob_R y Hy). fold (real_sum l). lra. }
    assert (Hn0 : 0 <= INR (List.length l)) by apply pos_INR.
    assert (Hen : 0 <= 5 * eps * INR (List.length l)) by (apply Rmult_le_pos; lra).
    assert (Hx2 : B2R s + B2R x <= 2) by lra.
    destruct (fsub_near x c Fx Fc) as [Fy Ry]; [abs_lra|].
    destruct (fadd_near s (fsub x c) Fs Fy) as [Ft Rt]; [abs_lra|].
    destruct (fsub_near (fadd s (fsub x c)) s Ft Fs) as [Fd Rd]; [abs_lra|].
    destruct (fsub_near (fsub (fadd s (fsub x c)) s) (fsub x c) Fd Fy) as [Fe Re]; [abs_lra|].
    set (t := fadd s (fsub x c)) in *. set (c' := fsub (fsub t s) (fsub x c)) in *.
    assert (Hc' : Rabs (B2R c') <= 3 * eps) by abs_lra.
    assert (Ht : Rabs (B2R t - (B2R s + B2R x)) <= 5 * eps) by abs_lra.
    destruct (IH t c' (err - 5 * eps) Ft Fe Hc' ltac:(lra) ltac:(apply Rabs_le_inv in Ht; lra) Hp'
                 ltac:(apply Rabs_le_inv in Ht; lra) ltac:(lra)) as [F R].
    split; [exact F|]. abs_lra.
Qed.

Lemma real_sum_nonneg l : Forall prob l -> 0 <= real_sum l.
Proof. induction 1 as [|y l Hy Hl IH]; cbn; [lra|]. destruct (prob_R y Hy). fold (real_sum l). lra. Qed.

Lemma eps_4M : 5 * eps * IZR (2 ^ 22) <= bpow radix2 (-26).
Proof.
  unfold eps. change (IZR (2 ^ 22)) with (bpow radix2 22). rewrite Rmult_assoc, <- bpow_plus.
  apply Rle_trans with (bpow radix2 3 * bpow radix2 (-51 + 22)).
  - apply Rmult_le_compat_r; [apply bpow_ge_0|]. change (bpow radix2 3) with 8. lra.
  - rewrite <- bpow_plus. apply bpow_le. lia.
Qed.
Lemma eps_4M' : 5 * eps * IZR (2 ^ 22) + eps <= bpow radix2 (-27) + bpow radix2 (-28).
Proof.
  unfold eps. change (IZR (2 ^ 22)) with (bpow radix2 22). rewrite Rmult_assoc, <- bpow_plus.
  change (-51 + 22)%Z with (-29)%Z.
  assert (H1 : bpow radix2 (-27) = 4 * bpow radix2 (-29)) by (change (-27)%Z with (2 + -29)%Z; rewrite bpow_plus; reflexivity).
  assert (H2 : bpow radix2 (-28) = 2 * bpow radix2 (-29)) by (change (-28)%Z with (1 + -29)%Z; rewrite bpow_plus; reflexivity).
  assert (H3 : bpow radix2 (-51) <= bpow radix2 (-29)) by (apply bpow_le; lia). lra.
Qed.

(** The sum numpy computes is close to the exact one. *)
Lemma kahan_sum_near l :
  Forall prob l -> (Z.of_nat (List.length l) <= 2 ^ 22)%Z -> real_sum l <= 3 / 2 ->
  isfin (kahan_sum l) = true /\ Rabs (B2R (kahan_sum l) - real_sum l) <= 5 * eps * IZR (2 ^ 22).
Proof.
  intros Hp Hlen Hsum. pose proof eps_pos as E0. pose proof eps_4M as E1.
  assert (E2 : bpow radix2 (-26) <= / 4) by (change (/ 4) with (bpow radix2 (-2)); apply bpow_le; lia).
  destruct l as [|x l]; cbn [kahan_sum].
  - split; [exact Z2f_0_fin|]. rewrite Z2f_0_R. cbn [real_sum fold_right]. rewrite Rminus_0_r, Rabs_R0.
    apply Rmult_le_pos; [lra|]. apply IZR_le. lia.
  - inversion Hp as [|? ? Hx Hp']; subst. destruct (prob_R x Hx) as [Fx Rx].
    cbn [real_sum fold_right] in *. fold (real_sum l) in *.
    assert (Hl : 5 * eps * INR (List.length l) <= 5 * eps * IZR (2 ^ 22)).
    { apply Rmult_le_compat_l; [lra|]. rewrite INR_IZR_INZ. apply IZR_le. cbn [List.length] in Hlen. lia. }
    assert (Hl0 : 0 <= 5 * eps * INR (List.length l)) by (apply Rmult_le_pos; [lra|apply pos_INR]).
    destruct (kahan_from_near l x (Z2f 0) (5 * eps * INR (List.length l)) Fx Z2f_0_fin) as [F R]; try assumption; try lra.
    + rewrite Z2f_0_R, Rabs_R0. lra.
    + split; [exact F|]. lra.
Qed.

Lemma atol_R : isfin choice_atol = true /\ B2R choice_atol = bpow radix2 (-26).
Proof.
  split; [reflexivity|]. unfold choice_atol, lit.
  pose proof (binary_normalize_correct 53 1024 eq_refl eq_refl mode_NE 1 (-26) false) as H.
  replace (F2R {| Fnum := 1; Fexp := -26 |}) with (bpow radix2 (-26)) in H by (unfold F2R; cbn [Fnum Fexp]; lra).
  cbv zeta in H. rewrite round_generic in H.
  - rewrite Rlt_bool_true in H; [apply H|]. rewrite Rabs_pos_eq by apply bpow_ge_0. apply bpow_lt. lia.
  - apply valid_rnd_round_mode.
  - apply generic_format_bpow. unfold SpecFloat.fexp, SpecFloat.emin. lia.
Qed.

(** Frequencies whose exact sum is within 2^-28 of one pass the validation. *)
Lemma probs_ok_near l :
  Forall prob l -> (Z.of_nat (List.length l) <= 2 ^ 22)%Z ->
  Rabs (real_sum l - 1) <= bpow radix2 (-28) -> probs_ok l = true.
Proof.
  intros Hp Hlen Hs.
  assert (E3 : bpow radix2 (-28) <= / 4) by (change (/ 4) with (bpow radix2 (-2)); apply bpow_le; lia).
  pose proof eps_4M' as E1. pose proof eps_pos as E0.
  assert (E4 : 0 <= 5 * eps * IZR (2 ^ 22)) by (apply Rmult_le_pos; [lra|apply IZR_le; lia]).
  assert (E5 : bpow radix2 (-27) <= / 4) by (change (/ 4) with (bpow radix2 (-2)); apply bpow_le; lia).
  destruct (kahan_sum_near l Hp Hlen) as [Fk Rk]; [apply Rabs_le_inv in Hs; lra|].
  assert (H26 : bpow radix2 (-26) = bpow radix2 (-27) + bpow radix2 (-28) + bpow radix2 (-28)).
  { assert (H1 : bpow radix2 (-26) = 4 * bpow radix2 (-28)) by (change (-26)%Z with (2 + -28)%Z; rewrite bpow_plus; reflexivity).
    assert (H2 : bpow radix2 (-27) = 2 * bpow radix2 (-28)) by (change (-27)%Z with (1 + -28)%Z; rewrite bpow_plus; reflexivity). lra. }
  unfold probs_ok. cbv zeta. apply andb_true_iff. split; [apply andb_true_iff; split|].
  - rewrite (isfin_not_nan _ Fk). reflexivity.
  - apply forallb_forall. intros x Hx. rewrite Forall_forall in Hp. destruct (Hp x Hx) as [H0 _].
    apply fle_flt_false in H0. rewrite H0. reflexivity.
  - destruct (fsub_near (kahan_sum l) fone Fk fone_fin) as [Fd Rd]; [rewrite fone_R; abs_lra|].
    rewrite fone_R in Rd.
    assert (Fb : isfin (fabs (fsub (kahan_sum l) fone)) = true).
    { unfold fabs, isfin in *. rewrite is_finite_Babs. exact Fd. }
    destruct atol_R as [Fa Ra].
    destruct (flt choice_atol (fabs (fsub (kahan_sum l) fone))) eqn:E; [exfalso|reflexivity].
    apply (flt_fin _ _ Fa Fb) in E. unfold fabs in E. rewrite B2R_Babs, Ra in E.
    apply Rlt_not_le in E. apply E.
    repeat match goal with H : Rabs _ <= _ |- _ => apply Rabs_le_inv in H end. apply Rabs_le. lra.
Qed.

(** Frequencies count / rows, as computed, add up to one up to rounding. *)
Lemma freq_near (k n : nat) :
  (0 < n)%nat -> (k <= n)%nat -> (Z.of_nat n <= 2 ^ 53)%Z ->
  let p := fdiv (Z2f (Z.of_nat k)) (Z2f (Z.of_nat n)) in
  prob p /\ Rabs (B2R p - INR k / INR n) <= bpow radix2 (-53) /\ ((0 < k)%nat -> 0 < B2R p).
Proof.
  intros Hn Hk Hb. cbv zeta.
  destruct (Z2f_exact (Z.of_nat k)) as [Rk Fk]; [lia|]. destruct (Z2f_exact (Z.of_nat n)) as [Rn Fn]; [lia|].
  rewrite <- INR_IZR_INZ in Rk, Rn.
  assert (Hn0 : 0 < INR n) by (apply lt_0_INR; exact Hn).
  assert (Hq : 0 <= INR k / INR n <= 1).
  { split; [apply Rmult_le_pos; [apply pos_INR|left; apply Rinv_0_lt_compat, Hn0]|].
    apply (Rmult_le_reg_r (INR n)); [exact Hn0|]. unfold Rdiv. rewrite Rmult_assoc, Rinv_l by lra.
    rewrite Rmult_1_r, Rmult_1_l. apply le_INR, Hk. }
  assert (H4 : Rabs (INR k / INR n) <= 4) by (apply Rabs_le; lra).
  destruct (fdiv_fin (Z2f (Z.of_nat k)) (Z2f (Z.of_nat n)) Fk) as [Fp Rp]; [rewrite Rn; lra|rewrite Rk, Rn; apply rnd_lt_big, H4|].
  rewrite Rk, Rn in Rp.
  assert (H01 : 0 <= B2R (fdiv (Z2f (Z.of_nat k)) (Z2f (Z.of_nat n))) <= 1).
  { rewrite Rp. split; [apply rnd_ge_0; lra|]. apply (rnd_le_Z _ 1); [lia|lra]. }
  split; [|split].
  - split; [apply (fle_fin _ _ Z2f_0_fin Fp); rewrite Z2f_0_R; lra|apply (fle_fin _ _ Fp fone_fin); rewrite fone_R; lra].
  - rewrite Rp. apply (rnd_err_bpow _ 0); [lia|]. apply Rabs_le. change (bpow radix2 0) with 1. lra.
  - intros Hk0. rewrite Rp. apply Rlt_le_trans with (bpow radix2 (-53)); [apply bpow_gt_0|].
    assert (Hg : rnd (bpow radix2 (-53)) = bpow radix2 (-53)).
    { apply round_generic; [apply valid_rnd_round_mode|]. apply generic_format_bpow. unfold SpecFloat.fexp, SpecFloat.emin. lia. }
    rewrite <- Hg. apply rnd_le. apply (Rmult_le_reg_r (INR n)); [exact Hn0|]. unfold Rdiv. rewrite Rmult_assoc, Rinv_l, Rmult_1_r by lra.
    apply Rle_trans with 1; [|apply (le_INR 1); lia].
    apply Rle_trans with (bpow radix2 (-53) * bpow radix2 53).
    + apply Rmult_le_compat_l; [apply bpow_ge_0|]. rewrite INR_IZR_INZ. change (bpow radix2 53) with (IZR (2 ^ 53)). apply IZR_le, Hb.
    + rewrite <- bpow_plus. change (bpow radix2 (-53 + 53)) with 1. lra.
Qed.

(** So a table of frequencies is always accepted. *)
Lemma freqs_ok (ks : list nat) (n : nat) :
  (0 < n)%nat -> (Z.of_nat n <= 2 ^ 53)%Z -> (Z.of_nat (List.length ks) <= 2 ^ 22)%Z ->
  fold_right plus 0%nat ks = n ->
  let p := map (fun k => fdiv (Z2f (Z.of_nat k)) (Z2f (Z.of_nat n))) ks in
  Forall prob p /\ probs_ok p = true.
Proof.
  intros Hn Hb Hlen Hsum. cbv zeta.
  assert (Hle : forall k, In k ks -> (k <= n)%nat).
  { rewrite <- Hsum. clear. induction ks as [|a ks IH]; intros k Hk; [destruct Hk|]. cbn. destruct Hk as [->|Hk]; [lia|]. specialize (IH k Hk). lia. }
  assert (Hp : Forall prob (map (fun k => fdiv (Z2f (Z.of_nat k)) (Z2f (Z.of_nat n))) ks)).
  { apply Forall_forall. intros x Hx. apply in_map_iff in Hx as (k & <- & Hk). apply freq_near; auto. }
  split; [exact Hp|]. apply probs_ok_near; [exact Hp|rewrite map_length; exact Hlen|].
  assert (Hn0 : 0 < INR n) by (apply lt_0_INR; exact Hn).
  assert (Herr : Rabs (real_sum (map (fun k => fdiv (Z2f (Z.of_nat k)) (Z2f (Z.of_nat n))) ks) - INR (fold_right plus 0%nat ks) / INR n)
                 <= INR (List.length ks) * bpow radix2 (-53)).
  { clear Hsum Hlen Hp. induction ks as [|k ks IH]; cbn [map real_sum fold_right List.length].
    - cbn. unfold Rdiv. rewrite Rmult_0_l, Rminus_0_r, Rabs_R0. lra.
    - fold (real_sum (map (fun k => fdiv (Z2f (Z.of_nat k)) (Z2f (Z.of_nat n))) ks)).
      specialize (IH ltac:(intros j Hj; apply Hle; right; exact Hj)).
      destruct (freq_near k n Hn (Hle k ltac:(left; reflexivity)) Hb) as (_ & Hk & _). cbv zeta in Hk.
      rewrite plus_INR, S_INR. unfold Rdiv in *. rewrite Rmult_plus_distr_r. abs_lra. }
  rewrite Hsum in Herr. unfold Rdiv in Herr. rewrite Rinv_r in Herr by lra.
  eapply Rle_trans; [exact Herr|].
  apply Rle_trans with (bpow radix2 22 * bpow radix2 (-53)).
  - apply Rmult_le_compat_r; [apply bpow_ge_0|]. rewrite INR_IZR_INZ. change (bpow radix2 22) with (IZR (2 ^ 22)). apply IZR_le, Hlen.
  - rewrite <- bpow_plus. apply bpow_le. lia.
Qed.
