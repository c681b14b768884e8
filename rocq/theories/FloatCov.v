(** Covariances in binary64 against the exact ones, and what MultiGauss learns. *)
From Coq Require Import List ZArith Bool Lia Reals Lra Permutation.
From Flocq Require Import Core IEEE754.BinarySingleNaN.
From Verif Require Import PyBase B64 B64More NdArray Rand Models ModelThms Sign FloatSum FloatMean.
Import ListNotations.
Open Scope R_scope.

(** A magnitude that underflow cannot reach. *)
Definition plain (B : R) : Prop := bpow radix2 (-500) <= B <= bpow radix2 400.

Lemma plain_pos B : plain B -> 0 < B.
Proof. intros [H _]. pose proof (bpow_gt_0 radix2 (-500)). lra. Qed.
Lemma plain_sq B : plain B -> bpow radix2 (-1000) <= B * B <= bpow radix2 800.
Proof.
  intros H. pose proof (plain_pos B H) as P. destruct H as [H1 H2]. pose proof (bpow_gt_0 radix2 (-500)).
  replace (bpow radix2 (-1000)) with (bpow radix2 (-500) * bpow radix2 (-500)) by (rewrite <- bpow_plus; reflexivity).
  replace (bpow radix2 800) with (bpow radix2 400 * bpow radix2 400) by (rewrite <- bpow_plus; reflexivity).
  split; apply Rmult_le_compat; lra.
Qed.
Lemma eta_uB B : plain B -> eta <= / 1024 * (u * B).
Proof.
  intros [H _]. assert (E : eta <= / 1024 * (u * bpow radix2 (-500))).
  { unfold u, eta. rewrite <- bpow_plus. replace (/ 1024) with (bpow radix2 (-10)) by (cbn; f_equal; lra). rewrite <- bpow_plus. apply bpow_le. lia. }
  pose proof u_pos. apply (Rmult_le_compat_l u) in H; [|lra]. lra.
Qed.
Lemma eta_uBB B : plain B -> eta <= / 1024 * (u * (B * B)).
Proof.
  intros H. destruct (plain_sq B H) as [H1 _]. assert (E : eta <= / 1024 * (u * bpow radix2 (-1000))).
  { unfold u, eta. rewrite <- bpow_plus. replace (/ 1024) with (bpow radix2 (-10)) by (cbn; f_equal; lra). rewrite <- bpow_plus. apply bpow_le. lia. }
  pose proof u_pos. apply (Rmult_le_compat_l u) in H1; [|lra]. lra.
Qed.

(** A deviation from the mean. *)
Lemma centred_near s (x : list f64) B v : adds s -> few (List.length x) -> within B x -> plain B -> In v x ->
  isfin (fsub v (mean (b64_ops s) x)) = true /\
  Rabs (B2R (fsub v (mean (b64_ops s) x)) - (B2R v - avg (map B2R x))) <= (2 * INR (List.length x) + 4) * u * B /\
  Rabs (B2R v - avg (map B2R x)) <= 2 * B.
Proof.
  intros Hs Hf Hw HB Hv. pose proof (plain_pos B HB) as PB. pose proof (eta_uB B HB) as He. destruct HB as [_ HB].
  assert (Hx : x <> []) by (intros ->; destruct Hv). pose proof u_pos as Hu. pose proof u_small as Hus. pose proof (few_u _ Hf) as Hnu.
  assert (Hc13 : / 2 ^ 13 <= / 1024) by (cbn; lra).
  assert (H9 : bpow radix2 400 <= bpow radix2 900) by (apply bpow_le; lia).
  assert (H10 : 4 * bpow radix2 400 <= huge) by (unfold huge; change 4 with (bpow radix2 2); rewrite <- bpow_plus; apply bpow_le; lia).
  destruct (mean_err s x B Hs Hx Hf Hw) as [Fm Em]; [lra|]. pose proof (avg_within x B Hx Hw) as Ha. destruct (Hw v Hv) as [Fv Bv].
  set (n := INR (List.length x)) in *. assert (Hn : 1 <= n) by (apply (le_INR 1); destruct x; [congruence|cbn; lia]).
  assert (HnuB : n * u * B <= / 1024 * B) by (apply Rmult_le_compat_r; lra).
  assert (HuB : u * B <= / 1024 * B) by (apply Rmult_le_compat_r; lra).
  assert (HuB0 : 0 <= u * B) by (apply Rmult_le_pos; lra).
  destruct (sub_near v (mean (b64_ops s) x) (B2R v) (avg (map B2R x)) 0 (2 * n * u * B + eta) (3 * B) Fv Fm) as [F E].
  - rewrite Rminus_diag_eq, Rabs_R0 by reflexivity. lra.
  - exact Em.
  - lra.
  - lra.
  - split; [exact F|]. split; [eapply Rle_trans; [exact E|]; lra|]. unfold Rminus. eapply Rle_trans; [apply Rabs_triang|]. rewrite Rabs_Ropp. lra.
Qed.

Lemma Rsum_const_dist {A} (f g : A -> R) (t : R) l : (forall v, In v l -> Rabs (f v - g v) <= t) ->
  Rabs (Rsum (map f l) - Rsum (map g l)) <= INR (List.length l) * t.
Proof.
  intros H. pose proof (Rsum_map_dist f g 0 t l) as E. rewrite Rmult_0_l in E. rewrite Rplus_0_l in E. apply E. intros v Hv.
  rewrite Rmult_0_l, Rplus_0_l. apply H, Hv.
Qed.
Lemma Rsum_abs {A} (f : A -> R) (t : R) l : (forall v, In v l -> Rabs (f v) <= t) -> Rabs (Rsum (map f l)) <= INR (List.length l) * t.
Proof.
  intros H. pose proof (Rsum_const_dist f (fun _ => 0) t l) as E.
  assert (Z : Rsum (map (fun _ : A => 0) l) = 0) by (clear; unfold Rsum; induction l; cbn; lra).
  rewrite Z, Rminus_0_r in E. apply E. intros v Hv. rewrite Rminus_0_r. apply H, Hv.
Qed.

Lemma in_combine_both {A B} (p : A * B) l l' : In p (combine l l') -> In (fst p) l /\ In (snd p) l'.
Proof. destruct p as [a b]. intros H. split; [eapply in_combine_l|eapply in_combine_r]; exact H. Qed.

(** A sum of products of deviations. *)
Lemma dot_err s (x y : list f64) B : adds s -> few (List.length x) -> List.length y = List.length x -> x <> [] -> within B x -> within B y -> plain B ->
  let n := INR (List.length x) in
  let S := Rsum (map (fun p => (fst p - avg (map B2R x)) * (snd p - avg (map B2R y))) (combine (map B2R x) (map B2R y))) in
  isfin (dot (b64_ops s) (centred (b64_ops s) x) (centred (b64_ops s) y)) = true /\
  Rabs (B2R (dot (b64_ops s) (centred (b64_ops s) x) (centred (b64_ops s) y)) - S) <= n * ((19 * n + 12) * u * (B * B)) /\
  Rabs S <= n * (4 * (B * B)).
Proof.
  intros Hs Hf Hl Hx Hwx Hwy HB n S. pose proof (plain_pos B HB) as PB. pose proof (eta_uBB B HB) as He. destruct (plain_sq B HB) as [_ HBB].
  pose proof u_pos as Hu. pose proof u_small as Hus. pose proof (few_u _ Hf) as Hnu. fold n in Hnu.
  assert (Hc13 : / 2 ^ 13 <= / 4096) by (cbn; lra).
  assert (Hn : 1 <= n) by (apply (le_INR 1); destruct x; [congruence|cbn; lia]).
  set (mx := mean (b64_ops s) x). set (my := mean (b64_ops s) y). set (ax := avg (map B2R x)) in *. set (ay := avg (map B2R y)) in *.
  set (pr := fun p : f64 * f64 => fmul (fsub (fst p) mx) (fsub (snd p) my)).
  set (ex := fun p : f64 * f64 => (B2R (fst p) - ax) * (B2R (snd p) - ay)).
  assert (Ed : dot (b64_ops s) (centred (b64_ops s) x) (centred (b64_ops s) y) = s (map pr (combine x y))).
  { unfold dot, centred. cbn [b64_ops o_sum o_mul o_sub]. fold mx my. rewrite combine_map2, map_map. reflexivity. }
  assert (ES : S = Rsum (map ex (combine x y))).
  { unfold S. rewrite combine_map2, map_map. reflexivity. }
  assert (Hlc : List.length (combine x y) = List.length x) by (rewrite combine_length, Hl; apply Nat.min_id).
  set (Q := B * B) in *. assert (PQ : 0 < Q) by (apply Rmult_lt_0_compat; lra).
  assert (HuQ : 0 <= u * Q) by (apply Rmult_le_pos; lra).
  assert (HuQ1 : u * Q <= / 1024 * Q) by (apply Rmult_le_compat_r; lra).
  assert (HnuQ : n * u * Q <= / 4096 * Q) by (apply Rmult_le_compat_r; lra).
  assert (HnuQ0 : 0 <= n * u * Q) by (apply Rmult_le_pos; [apply Rmult_le_pos; lra|lra]).
  assert (H8 : 1024 * bpow radix2 800 <= bpow radix2 900).
  { change 1024 with (bpow radix2 10). rewrite <- bpow_plus. apply bpow_le. lia. }
  assert (H9 : bpow radix2 900 <= huge) by (apply bpow_le; lia).
  assert (Hp : forall p, In p (combine x y) -> isfin (pr p) = true /\ Rabs (B2R (pr p) - ex p) <= (9 * n + 22) * u * Q /\ Rabs (ex p) <= 4 * Q /\ Rabs (B2R (pr p)) <= 5 * Q).
  { intros p Hp. apply in_combine_both in Hp as [I1 I2].
    destruct (centred_near s x B (fst p) Hs Hf Hwx HB I1) as (F1 & E1 & B1).
    destruct (centred_near s y B (snd p) Hs ltac:(rewrite Hl; exact Hf) Hwy HB I2) as (F2 & E2 & B2').
    rewrite Hl in E2. fold n mx ax in E1, F1, B1. fold n my ay in E2, F2, B2'. set (E := (2 * n + 4) * u * B) in *.
    assert (HE0 : 0 <= E) by (unfold E; repeat apply Rmult_le_pos; lra).
    assert (HE : E <= / 128 * B).
    { unfold E. apply Rmult_le_compat_r; lra. }
    assert (HBE : B * E = (2 * n + 4) * u * Q) by (unfold E, Q; ring).
    assert (HEE : E * E <= / 128 * (B * E)) by (rewrite <- Rmult_assoc; apply Rmult_le_compat_r; assumption).
    assert (HK : (Rabs (B2R (fst p) - ax) + E) * (Rabs (B2R (snd p) - ay) + E) <= (2 * B + E) * (2 * B + E)).
    { apply Rmult_le_compat; try lra; pose proof (Rabs_pos (B2R (fst p) - ax)); pose proof (Rabs_pos (B2R (snd p) - ay)); lra. }
    assert (HK2 : (2 * B + E) * (2 * B + E) <= (4 + / 16) * Q).
    { replace ((2 * B + E) * (2 * B + E)) with (4 * Q + 4 * (B * E) + E * E) by (unfold Q; ring).
      assert (B * E <= / 128 * Q) by (unfold Q; rewrite <- Rmult_assoc, (Rmult_comm (/ 128) B), Rmult_assoc; apply Rmult_le_compat_l; lra). lra. }
    destruct (mul_near (fsub (fst p) mx) (fsub (snd p) my) (B2R (fst p) - ax) (B2R (snd p) - ay) E E ((4 + / 16) * Q) F1 F2 E1 E2) as [F3 E3]; [lra|lra|].
    split; [exact F3|].
    assert (Hd : Rabs (B2R (pr p) - ex p) <= (9 * n + 22) * u * Q).
    { eapply Rle_trans; [exact E3|].
      assert (T1 : (Rabs (B2R (fst p) - ax) + E) * E <= (2 * B + E) * E) by (apply Rmult_le_compat_r; lra).
      assert (T2 : E * Rabs (B2R (snd p) - ay) <= E * (2 * B)) by (apply Rmult_le_compat_l; lra). lra. }
    assert (He4 : Rabs (ex p) <= 4 * Q).
    { unfold ex. rewrite Rabs_mult. replace (4 * Q) with (2 * B * (2 * B)) by (unfold Q; ring). apply Rmult_le_compat; auto using Rabs_pos. }
    split; [exact Hd|]. split; [exact He4|]. replace (B2R (pr p)) with ((B2R (pr p) - ex p) + ex p) by ring.
    eapply Rle_trans; [apply Rabs_triang|]. lra. }
  set (l := map pr (combine x y)).
  assert (Hll : List.length l = List.length x) by (unfold l; rewrite map_length; exact Hlc).
  assert (Hwl : within (5 * Q) l).
  { intros v Hv. apply in_map_iff in Hv as (p & <- & Hin). destruct (Hp p Hin) as (F & _ & _ & Bp). split; assumption. }
  destruct (sum_err s l (5 * Q) Hs ltac:(rewrite Hll; exact Hf) Hwl ltac:(lra)) as [F E].
  pose proof (within_mag _ _ Hwl) as HM. rewrite Hll in E, HM. fold n in HM.
  assert (Hpr : INR (Nat.pred (List.length x)) = n - 1).
  { unfold n. destruct x; [congruence|]. cbn [List.length Nat.pred]. rewrite S_INR. lra. }
  rewrite Hpr in E.
  assert (HT : Rabs (Rtot l - S) <= n * ((9 * n + 22) * u * Q)).
  { rewrite ES. unfold Rtot, l. rewrite map_map. unfold n. rewrite <- Hlc. apply Rsum_const_dist. intros p Hin. rewrite Hlc. apply (Hp p Hin). }
  rewrite Ed. fold l. split; [exact F|]. split.
  - replace (B2R (s l) - S) with ((B2R (s l) - Rtot l) + (Rtot l - S)) by ring. eapply Rle_trans; [apply Rabs_triang|].
    assert (2 * (n - 1) * u * Rmag l <= 2 * (n - 1) * u * (n * (5 * Q))) by (apply Rmult_le_compat_l; [repeat apply Rmult_le_pos; lra|exact HM]).
    assert (2 * (n - 1) * u * (n * (5 * Q)) = n * ((10 * n - 10) * u * Q)) by ring.
    assert (n * ((19 * n + 12) * u * Q) = n * ((10 * n - 10) * u * Q) + n * ((9 * n + 22) * u * Q)) by ring. lra.
  - rewrite ES. unfold n. rewrite <- Hlc. apply Rsum_abs. intros p Hin. apply (Hp p Hin).
Qed.

Lemma cov_err s (x y : list f64) B : adds s -> few (List.length x) -> List.length y = List.length x -> (2 <= List.length x)%nat -> within B x -> within B y -> plain B ->
  isfin (cov_entry (b64_ops s) x y) = true /\
  Rabs (B2R (cov_entry (b64_ops s) x y) - sample_cov (map B2R x) (map B2R y)) <= (38 * INR (List.length x) + 50) * u * (B * B).
Proof.
  intros Hs Hf Hl H2 Hwx Hwy HB. assert (Hx : x <> []) by (intros ->; cbn in H2; lia).
  destruct (dot_err s x y B Hs Hf Hl Hx Hwx Hwy HB) as (Fd & Ed & BS).
  pose proof (plain_pos B HB) as PB. pose proof (eta_uBB B HB) as He. destruct (plain_sq B HB) as [_ HBB].
  pose proof u_pos as Hu. pose proof u_small as Hus. pose proof (few_u _ Hf) as Hnu. pose proof eta_pos as Het.
  set (n := INR (List.length x)) in *. assert (Hn : 2 <= n) by (apply (le_INR 2); exact H2).
  assert (Hc13 : / 2 ^ 13 <= / 4096) by (cbn; lra).
  set (Q := B * B) in *. assert (PQ : 0 < Q) by (apply Rmult_lt_0_compat; lra).
  assert (HuQ : 0 <= u * Q) by (apply Rmult_le_pos; lra).
  assert (HuQ1 : u * Q <= / 1024 * Q) by (apply Rmult_le_compat_r; lra).
  assert (HnuQ : n * u * Q <= / 4096 * Q) by (apply Rmult_le_compat_r; lra).
  assert (HnuQ0 : 0 <= n * u * Q) by (apply Rmult_le_pos; [apply Rmult_le_pos; lra|lra]).
  set (S := Rsum (map (fun p => (fst p - avg (map B2R x)) * (snd p - avg (map B2R y))) (combine (map B2R x) (map B2R y)))) in *.
  set (k := / (n - 1)). assert (Hk0 : 0 < k) by (apply Rinv_0_lt_compat; lra).
  assert (Hk1 : k <= 1) by (unfold k; rewrite <- Rinv_1; apply Rinv_le; lra).
  assert (Hnk : n * k <= 2). { unfold k. apply (Rmult_le_reg_r (n - 1)); [lra|]. rewrite Rmult_assoc, Rinv_l by lra. lra. }
  assert (Hcov : sample_cov (map B2R x) (map B2R y) = S * k).
  { unfold sample_cov. rewrite map_length. reflexivity. }
  assert (Hz : (Z.max (Z.of_nat (List.length x) - 1) 0 = Z.of_nat (List.length x) - 1)%Z) by lia.
  destruct (Z2f_exact (Z.of_nat (List.length x) - 1)) as [Ez Fz]; [unfold few in Hf; lia|].
  assert (Ez' : B2R (Z2f (Z.of_nat (List.length x) - 1)) = n - 1) by (rewrite Ez, minus_IZR, <- INR_IZR_INZ; reflexivity).
  destruct (Z2f_exact 1) as [Eo Fo]; [lia|].
  assert (H9 : 1024 * bpow radix2 800 <= huge) by (unfold huge; change 1024 with (bpow radix2 10); rewrite <- bpow_plus; apply bpow_le; lia).
  assert (Hh1 : 1 <= huge) by (unfold huge; change 1 with (bpow radix2 0); apply bpow_le; lia).
  destruct (div_rel (Z2f 1) (Z2f (Z.of_nat (List.length x) - 1)) Fo) as [Fk (e & t & Hee & Ht & Ek)].
  { rewrite Ez'. lra. }
  { rewrite Eo, Ez'. unfold Rdiv. rewrite Rmult_1_l. fold k. rewrite Rabs_right by lra. lra. }
  rewrite Eo, Ez' in Ek. unfold Rdiv in Ek. rewrite Rmult_1_l in Ek. fold k in Ek.
  assert (Hek : eta <= u * k).
  { assert (Hnb : n <= bpow radix2 40). { unfold n. rewrite INR_IZR_INZ. change (bpow radix2 40) with (IZR (2 ^ 40)). apply IZR_le. exact Hf. }
    assert (Hkb : bpow radix2 (-40) <= k). { unfold k. replace (bpow radix2 (-40)) with (/ bpow radix2 40) by (rewrite <- bpow_opp; reflexivity). apply Rinv_le; lra. }
    apply Rle_trans with (u * bpow radix2 (-40)); [unfold u, eta; rewrite <- bpow_plus; apply bpow_le; lia|]. apply Rmult_le_compat_l; lra. }
  assert (Ekk : Rabs (B2R (fdiv (Z2f 1) (Z2f (Z.of_nat (List.length x) - 1))) - k) <= 2 * (u * k)).
  { rewrite Ek. replace (k * (1 + e) + t - k) with (k * e + t) by ring. eapply Rle_trans; [apply Rabs_triang|].
    rewrite Rabs_mult, (Rabs_right k) by lra. assert (k * Rabs e <= k * u) by (apply Rmult_le_compat_l; lra). lra. }
  set (ea := n * ((19 * n + 12) * u * Q)) in *.
  assert (Hea : ea <= n * (/ 32 * Q)) by (unfold ea; apply Rmult_le_compat_l; lra).
  assert (Hea0 : 0 <= ea) by (unfold ea; apply Rmult_le_pos; lra).
  assert (HS0 := Rabs_pos S).
  assert (Huk0 : 0 <= u * k) by (apply Rmult_le_pos; lra).
  assert (Huk1 : u * k <= / 1024 * k) by (apply Rmult_le_compat_r; lra).
  assert (HSe : Rabs S + ea <= n * ((4 + / 32) * Q)) by lra.
  assert (HnkQ : forall c, 0 <= c -> n * (c * Q) * k <= 2 * (c * Q)).
  { intros c Hc. replace (n * (c * Q) * k) with (n * k * (c * Q)) by ring. apply Rmult_le_compat_r; [apply Rmult_le_pos; lra|exact Hnk]. }
  assert (HK : (Rabs S + ea) * (Rabs k + 2 * (u * k)) <= 9 * Q).
  { rewrite (Rabs_right k) by lra. apply Rle_trans with (n * ((4 + / 32) * Q) * ((1 + / 512) * k)).
    - apply Rmult_le_compat; lra.
    - pose proof (HnkQ (4 + / 32) ltac:(lra)). lra. }
  destruct (mul_near (dot (b64_ops s) (centred (b64_ops s) x) (centred (b64_ops s) y)) (fdiv (Z2f 1) (Z2f (Z.of_nat (List.length x) - 1)))
    S k ea (2 * (u * k)) (9 * Q) Fd Fk Ed Ekk HK) as [F E]; [lra|].
  unfold cov_entry. rewrite Hz, Hcov. cbn [b64_ops o_mul o_div o_ofZ]. split; [exact F|]. eapply Rle_trans; [exact E|].
  rewrite (Rabs_right k) by lra.
  assert (T1 : (Rabs S + ea) * (2 * (u * k)) <= 2 * u * (2 * ((4 + / 32) * Q))).
  { replace ((Rabs S + ea) * (2 * (u * k))) with (2 * u * ((Rabs S + ea) * k)) by ring. apply Rmult_le_compat_l; [lra|].
    eapply Rle_trans; [apply Rmult_le_compat_r; [lra|exact HSe]|]. apply HnkQ. lra. }
  assert (T2 : ea * k <= 2 * ((19 * n + 12) * u * Q)).
  { unfold ea. apply HnkQ. apply Rmult_le_pos; lra. }
  lra.
Qed.

Lemma lower_to_R s (hi v : f64) : isfin hi = true -> isfin v = true ->
  isfin (lower_to (b64_ops s) hi v) = true /\ B2R (lower_to (b64_ops s) hi v) = Rmin (B2R hi) (B2R v).
Proof.
  intros Fl Fv. unfold lower_to. cbn [b64_ops o_ltb]. unfold flt. rewrite (Bltb_correct 53 1024 hi v Fl Fv).
  destruct (Rlt_bool_spec (B2R hi) (B2R v)) as [H|H].
  - split; [exact Fl|]. rewrite Rmin_left by lra. reflexivity.
  - split; [exact Fv|]. rewrite Rmin_right by lra. reflexivity.
Qed.
Lemma Rmin_dist a b c : Rabs (Rmin a b - Rmin a c) <= Rabs (b - c).
Proof. unfold Rmin. destruct (Rle_dec a b), (Rle_dec a c); unfold Rabs; repeat destruct (Rcase_abs _); lra. Qed.

Lemma rmapM_given {A B} (f : A -> res B) (g : A -> B) l : (forall a, In a l -> f a = Ok (g a)) -> rmapM f l = Ok (map g l).
Proof.
  induction l as [|a l IH]; intros H; [reflexivity|]. cbn [rmapM map]. rewrite (H a (or_introl eq_refl)). cbn [rbind].
  rewrite IH by (intros b Hb; apply H; right; exact Hb). reflexivity.
Qed.

Lemma multigauss_float s lower upper nc (col : nat -> res (list f64)) (xs : nat -> list f64) rows B p p' :
  adds s -> isfin lower = true -> isfin upper = true -> multigauss_learn (b64_ops s) lower upper nc col p = (Ok tt, p') ->
  (forall i, (i < nc)%nat -> col i = Ok (xs i) /\ List.length (xs i) = rows /\ forall v, In v (xs i) -> isfin v = true /\ Rabs (B2R v) <= B) ->
  (2 <= rows)%nat -> (Z.of_nat rows <= 2 ^ 40)%Z -> bpow radix2 (-500) <= B <= bpow radix2 400 ->
  let n := INR rows in
  (forall k m, (k < nc)%nat -> nth_error (mg_means p') k = Some m ->
     isfin m = true /\ Rabs (B2R m - avg (map B2R (xs k))) <= 2 * n * bpow radix2 (-53) * B + bpow radix2 (-1075)) /\
  exists M, mg_cov p' = CovMat M /\ forall i j, (i < nc)%nat -> (j < nc)%nat -> exists v, entry M i j = Some v /\ isfin v = true /\
    (i = j -> Rabs (B2R v - sqrt (pop_var (map B2R (xs i)))) <= (6 * n + 7) * bpow radix2 (-53) * B + bpow radix2 (-530)) /\
    (i <> j -> Rabs (B2R v - Rmin (B2R upper) (Rmax (B2R lower) (sample_cov (map B2R (xs i)) (map B2R (xs j))))) <= (38 * n + 50) * bpow radix2 (-53) * (B * B)).
Proof.
  intros Hs Fl Fu H Hc H2 Hf HB n. apply multigauss_ok in H as (_ & Hl & Hm & cols & Ecols & Hlen & Ecov).
  assert (Ec : cols = map xs (seq 0 nc)).
  { rewrite (rmapM_given col xs) in Ecols by (intros i Hi; apply in_seq in Hi; apply Hc; lia). congruence. }
  assert (Hnth : forall i, (i < nc)%nat -> nth i cols [] = xs i).
  { intros i Hi. rewrite Ec. apply nth_error_nth. rewrite nth_error_map, nth_error_nth' with (d := 0%nat) by (rewrite seq_length; exact Hi).
    cbn [option_map]. rewrite seq_nth by exact Hi. reflexivity. }
  assert (Hnil : forall i, (i < nc)%nat -> xs i <> []).
  { intros i Hi E. destruct (Hc i Hi) as (_ & L & _). rewrite E in L. cbn in L. lia. }
  assert (H9 : bpow radix2 400 <= bpow radix2 900) by (apply bpow_le; lia).
  split.
  - intros k m Hk Hm'. assert (Hk' : (k < List.length (mg_means p))%nat) by (rewrite <- Hl; apply nth_error_Some; congruence).
    destruct (Hm k Hk') as (x & Ex & En). destruct (Hc k Hk) as (Ek & Lk & Wk). assert (x = xs k) by congruence. subst x.
    assert (E : m = mean (b64_ops s) (xs k)) by congruence. subst m. unfold n. rewrite <- Lk in Hf |- *.
    apply (mean_err s (xs k) B Hs (Hnil k Hk) Hf Wk). lra.
  - exists (cov_matrix (b64_ops s) lower upper cols). split; [exact Ecov|]. intros i j Hi Hj.
    rewrite entry_cov_matrix by lia. rewrite (Hnth i Hi), (Hnth j Hj). eexists. split; [reflexivity|].
    destruct (Hc i Hi) as (_ & Li & Wi). destruct (Hc j Hj) as (_ & Lj & Wj). destruct (Nat.eqb_spec i j) as [->|Hne].
    + destruct (std_err s (xs j) B Hs (Hnil j Hj) ltac:(unfold few; rewrite Lj; exact Hf) Wj ltac:(apply HB)) as [F E].
      split; [exact F|]. split; [intros _; unfold n; rewrite <- Lj; exact E|congruence].
    + destruct (cov_err s (xs i) (xs j) B Hs) as [F E]; try assumption; try (unfold few; rewrite Li; exact Hf); try congruence; try (rewrite Li; exact H2).
      unfold clamped_cov. destruct (raise_to_R s lower _ Fl F) as [F1 E1]. destruct (lower_to_R s upper _ Fu F1) as [F2 E2].
      split; [exact F2|]. split; [congruence|]. intros _. rewrite E2, E1. eapply Rle_trans; [apply Rmin_dist|]. eapply Rle_trans; [apply Rmax_dist|].
      unfold n. rewrite <- Li. exact E.
Qed.
