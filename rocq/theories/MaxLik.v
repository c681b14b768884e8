(** The univariate models are maximum-likelihood models of the data they learn from. *)
From Coq Require Import String List ZArith Bool Lia Reals Lra.
From Flocq Require Import Core IEEE754.BinarySingleNaN.
From Verif Require Import PyBase B64 B64More NdArray Rand RandThms Models ModelThms ModelMore CatThms ModelProps Kahan ChoiceMore Explore.
Import ListNotations.
Open Scope R_scope.

(** A product of reals. *)
Definition Rprod (l : list R) : R := fold_right Rmult 1 l.

(** The normal density. *)
Definition density (mu sigma x : R) : R := exp (- ((x - mu) * (x - mu)) / (2 * (sigma * sigma))) / (sigma * sqrt (2 * PI)).
(** The likelihood of independent normal numbers. *)
Definition normal_likelihood (mu sigma : R) (x : list R) : R := Rprod (map (density mu sigma) x).
(** The likelihood of column [j] of rows of bits, ones having probability [p]. *)
Definition bits_likelihood (j : nat) (p : R) (rs : list row) : R :=
  Rprod (map (fun r => match nth_error r j with Some (CI 1%Z) => p | _ => 1 - p end) rs).
(** The likelihood of a column of categories. *)
Definition cat_likelihood (p : cell -> R) (col : list cell) : R := Rprod (map p col).
(** The frequency of a category. *)
Definition frequency (col : list cell) (x : cell) : R := INR (occurrences x col) / INR (List.length col).

Lemma Rprod_app l l' : Rprod (l ++ l') = Rprod l * Rprod l'.
Proof. unfold Rprod. induction l as [|x l IH]; cbn; [ring|]. rewrite IH. ring. Qed.
Lemma Rprod_ge0 l : (forall y, In y l -> 0 <= y) -> 0 <= Rprod l.
Proof.
  unfold Rprod. induction l as [|x l IH]; cbn; intros H; [lra|]. apply Rmult_le_pos; [apply H; left; reflexivity|]. apply IH. intros y Hy. apply H. right. exact Hy.
Qed.
Lemma Rprod_gt0 l : (forall y, In y l -> 0 < y) -> 0 < Rprod l.
Proof.
  unfold Rprod. induction l as [|x l IH]; cbn; intros H; [lra|]. apply Rmult_lt_0_compat; [apply H; left; reflexivity|]. apply IH. intros y Hy. apply H. right. exact Hy.
Qed.
Lemma Rprod_mul {A} (f g : A -> R) l : Rprod (map (fun x => f x * g x) l) = Rprod (map f l) * Rprod (map g l).
Proof. unfold Rprod. induction l as [|x l IH]; cbn; [ring|]. rewrite IH. ring. Qed.

Lemma exp_ge y : y <= exp (y - 1).
Proof. pose proof (exp_ineq1_le (y - 1)). lra. Qed.
Lemma exp_gt y : y <> 1 -> y < exp (y - 1).
Proof. intros H. assert (y - 1 <> 0) as H' by lra. pose proof (exp_ineq1 (y - 1) H'). lra. Qed.

(** The product of nonnegative numbers, against their sum. *)
Lemma prod_exp l : (forall y, In y l -> 0 <= y) -> Rprod l <= exp (Rsum (map (fun y => y - 1) l)).
Proof.
  unfold Rprod, Rsum. induction l as [|y l IH]; cbn; intros H; [rewrite exp_0; lra|]. rewrite exp_plus.
  apply Rmult_le_compat; [apply H; left; reflexivity| |apply exp_ge|].
  - apply (Rprod_ge0 l). intros z Hz. apply H. right. exact Hz.
  - apply IH. intros z Hz. apply H. right. exact Hz.
Qed.
Lemma prod_exp_lt l y0 : (forall y, In y l -> 0 <= y) -> In y0 l -> y0 <> 1 -> Rprod l < exp (Rsum (map (fun y => y - 1) l)).
Proof.
  intros H Hin Hne. apply in_split in Hin as (l1 & l2 & ->). rewrite Rprod_app. change (Rprod (y0 :: l2)) with (y0 * Rprod l2).
  rewrite map_app. cbn [map]. assert (E : forall a b, Rsum (a ++ b) = Rsum a + Rsum b).
  { intros a b. unfold Rsum. induction a as [|x a IH]; cbn; [ring|]. rewrite IH. ring. }
  rewrite E. change (Rsum (y0 - 1 :: map (fun y => y - 1) l2)) with (y0 - 1 + Rsum (map (fun y => y - 1) l2)).
  rewrite !exp_plus.
  assert (H1 : Rprod l1 <= exp (Rsum (map (fun y => y - 1) l1))) by (apply prod_exp; intros z Hz; apply H, in_or_app; left; exact Hz).
  assert (H2 : Rprod l2 <= exp (Rsum (map (fun y => y - 1) l2))) by (apply prod_exp; intros z Hz; apply H, in_or_app; right; right; exact Hz).
  assert (P1 : 0 <= Rprod l1) by (apply Rprod_ge0; intros z Hz; apply H, in_or_app; left; exact Hz).
  assert (P2 : 0 <= Rprod l2) by (apply Rprod_ge0; intros z Hz; apply H, in_or_app; right; right; exact Hz).
  assert (P0 : 0 <= y0) by (apply H, in_or_app; right; left; reflexivity).
  pose proof (exp_pos (Rsum (map (fun y => y - 1) l1))) as E1. pose proof (exp_pos (Rsum (map (fun y => y - 1) l2))) as E2.
  pose proof (exp_gt y0 Hne) as E0.
  apply Rle_lt_trans with (exp (Rsum (map (fun y => y - 1) l1)) * (y0 * exp (Rsum (map (fun y => y - 1) l2)))).
  - apply Rmult_le_compat; [exact P1|apply Rmult_le_pos; assumption|exact H1|]. apply Rmult_le_compat_l; assumption.
  - apply Rmult_lt_compat_l; [exact E1|]. apply Rmult_lt_compat_r; assumption.
Qed.

(** Comparing two likelihoods through the ratios of their factors. *)
Lemma ratio_le {A} (f g : A -> R) l :
  (forall x, In x l -> 0 < f x) -> (forall x, In x l -> 0 <= g x) -> Rsum (map (fun x => g x / f x - 1) l) <= 0 ->
  Rprod (map g l) <= Rprod (map f l) /\ ((exists x, In x l /\ g x <> f x) -> Rprod (map g l) < Rprod (map f l)).
Proof.
  intros Hf Hg Hs.
  assert (Hp : 0 < Rprod (map f l)) by (apply Rprod_gt0; intros y Hy; apply in_map_iff in Hy as (x & <- & Hx); auto).
  assert (E : Rprod (map g l) = Rprod (map (fun x => g x / f x) l) * Rprod (map f l)).
  { rewrite <- Rprod_mul. f_equal. apply map_ext_in. intros x Hx. specialize (Hf x Hx). field. lra. }
  assert (Hn : forall y, In y (map (fun x => g x / f x) l) -> 0 <= y).
  { intros y Hy. apply in_map_iff in Hy as (x & <- & Hx). apply Rmult_le_pos; [auto|]. left. apply Rinv_0_lt_compat. auto. }
  assert (Hexp : exp (Rsum (map (fun y => y - 1) (map (fun x => g x / f x) l))) <= 1).
  { rewrite map_map. destruct Hs as [Hs|Hs]; [left; apply exp_increasing in Hs; rewrite exp_0 in Hs; exact Hs|rewrite Hs, exp_0; lra]. }
  split.
  - rewrite E. rewrite <- (Rmult_1_l (Rprod (map f l))) at 2. apply Rmult_le_compat_r; [lra|]. eapply Rle_trans; [apply prod_exp, Hn|exact Hexp].
  - intros (x & Hx & Hne). rewrite E. rewrite <- (Rmult_1_l (Rprod (map f l))) at 2. apply Rmult_lt_compat_r; [exact Hp|].
    eapply Rlt_le_trans; [|exact Hexp]. apply (prod_exp_lt _ (g x / f x) Hn); [apply in_map_iff; eauto|].
    specialize (Hf x Hx). intros E1. apply Hne. apply (Rmult_eq_reg_r (/ f x)); [|apply Rinv_neq_0_compat; lra].
    rewrite Rinv_r by lra. exact E1.
Qed.

(* ------------------------------ bits ------------------------------ *)

Lemma bits_sum j a b rs :
  Rsum (map (fun r => match nth_error r j with Some (CI 1%Z) => a | _ => b end) rs)
  = INR (ones_in j rs) * a + (INR (List.length rs) - INR (ones_in j rs)) * b.
Proof.
  unfold Rsum. induction rs as [|r rs IH]; [cbn; ring|]. cbn [map fold_right ones_in List.length]. rewrite IH, plus_INR, S_INR.
  destruct (nth_error r j) as [[z|x|s]|]; [destruct z as [|p|p]; [|destruct p|]| | |]; cbn [INR]; ring.
Qed.

Lemma ones_all j rs r : ones_in j rs = List.length rs -> In r rs -> nth_error r j = Some (CI 1%Z).
Proof.
  induction rs as [|r' rs IH]; cbn [ones_in List.length In]; intros E Hin; [destruct Hin|].
  pose proof (ones_in_le j rs) as Hle.
  destruct (nth_error r' j) as [[z|x|s]|] eqn:En; [destruct z as [|p|p]; [|destruct p|]| | |]; try lia.
  destruct Hin as [<-|Hin]; [exact En|]. apply IH; [lia|exact Hin].
Qed.
Lemma ones_none j rs r : ones_in j rs = 0%nat -> In r rs -> nth_error r j <> Some (CI 1%Z).
Proof.
  induction rs as [|r' rs IH]; cbn [ones_in In]; intros E Hin; [destruct Hin|]. destruct Hin as [->|Hin]; [|apply IH; [lia|exact Hin]].
  intros En. rewrite En in E. lia.
Qed.

(** The clamped frequency of ones is the best probability between the bounds, and the only one. *)
Lemma best_probability j rs lo hi :
  rs <> [] -> 0 <= lo -> lo < hi -> hi <= 1 ->
  let p := Rmin hi (Rmax lo (INR (ones_in j rs) / INR (List.length rs))) in
  (lo <= p <= hi) /\ forall q, lo <= q <= hi ->
    bits_likelihood j q rs <= bits_likelihood j p rs /\ (q <> p -> bits_likelihood j q rs < bits_likelihood j p rs).
Proof.
  intros Hne Hlo Hlh Hhi. cbv zeta.
  set (k := ones_in j rs). set (n := List.length rs). set (f := INR k / INR n). set (p := Rmin hi (Rmax lo f)).
  assert (Hn : 0 < INR n) by (apply lt_0_INR; unfold n; destruct rs; [congruence|cbn; lia]).
  assert (Hkn : INR k <= INR n) by (apply le_INR, ones_in_le). pose proof (pos_INR k) as Hk.
  assert (Hf : 0 <= f <= 1).
  { unfold f, Rdiv. split; [apply Rmult_le_pos; [exact Hk|left; apply Rinv_0_lt_compat, Hn]|].
    apply (Rmult_le_reg_r (INR n)); [exact Hn|]. rewrite Rmult_assoc, Rinv_l by lra. lra. }
  assert (Hfk : f * INR n = INR k) by (unfold f; field; lra).
  assert (Hp : lo <= p <= hi) by (unfold p, Rmin, Rmax; repeat destruct Rle_dec; lra).
  assert (Hcase : forall q, lo <= q <= hi -> (q - p) * (f - p) <= 0).
  { intros q Hq. unfold p, Rmin, Rmax. destruct (Rle_dec lo f); destruct (Rle_dec hi _).
    - replace ((q - hi) * (f - hi)) with (- ((hi - q) * (f - hi))) by ring. assert (0 <= (hi - q) * (f - hi)) by (apply Rmult_le_pos; lra). lra.
    - rewrite Rminus_diag_eq with (r1 := f) by reflexivity. lra.
    - lra.
    - replace ((q - lo) * (f - lo)) with (- ((q - lo) * (lo - f))) by ring. assert (0 <= (q - lo) * (lo - f)) by (apply Rmult_le_pos; lra). lra. }
  split; [exact Hp|]. intros q Hq. specialize (Hcase q Hq). unfold bits_likelihood.
  assert (Hz : p = 0 -> k = 0%nat).
  { intros E. destruct (Nat.eq_dec k 0) as [E0|E0]; [exact E0|exfalso]. assert (0 < INR k) by (apply lt_0_INR; lia).
    assert (0 < f) by (apply (Rmult_lt_reg_r (INR n)); [exact Hn|]; lra). revert E. unfold p, Rmin, Rmax. repeat destruct Rle_dec; lra. }
  assert (Ho : p = 1 -> k = n).
  { intros E. assert (f = 1) by (revert E; unfold p, Rmin, Rmax; repeat destruct Rle_dec; lra). apply INR_eq. rewrite <- Hfk. rewrite H. ring. }
  assert (Hpos : forall r, In r rs -> 0 < match nth_error r j with Some (CI 1%Z) => p | _ => 1 - p end).
  { intros r Hr. destruct (Req_dec p 1) as [E1|E1].
    - rewrite (ones_all j rs r (Ho E1) Hr). lra.
    - destruct (Req_dec p 0) as [E0|E0].
      + pose proof (ones_none j rs r (Hz E0) Hr) as Hx. destruct (nth_error r j) as [[[|[?|?|]|?]|?|?]|]; try lra. congruence.
      + destruct (nth_error r j) as [[[|[?|?|]|?]|?|?]|]; lra. }
  assert (Hsum : Rsum (map (fun r => match nth_error r j with Some (CI 1%Z) => q | _ => 1 - q end / match nth_error r j with Some (CI 1%Z) => p | _ => 1 - p end - 1) rs) <= 0).
  { assert (E : map (fun r => match nth_error r j with Some (CI 1%Z) => q | _ => 1 - q end / match nth_error r j with Some (CI 1%Z) => p | _ => 1 - p end - 1) rs
      = map (fun r => match nth_error r j with Some (CI 1%Z) => q / p - 1 | _ => (1 - q) / (1 - p) - 1 end) rs).
    { apply map_ext. intros r. destruct (nth_error r j) as [[[|[?|?|]|?]|?|?]|]; reflexivity. }
    rewrite E, bits_sum. change (INR k * (q / p - 1) + (INR n - INR k) * ((1 - q) / (1 - p) - 1) <= 0). destruct (Req_dec p 0) as [E0|E0]; [|destruct (Req_dec p 1) as [E1|E1]].
    - rewrite (Hz E0). cbn [INR]. rewrite E0, Rmult_0_l. assert (0 <= INR n * q) by (apply Rmult_le_pos; lra). replace ((1 - q) / (1 - 0) - 1) with (- q) by field. replace (0 + (INR n - 0) * - q) with (- (INR n * q)) by ring. lra.
    - rewrite (Ho E1), E1. replace (q / 1 - 1) with (q - 1) by field. rewrite (Rminus_diag_eq (INR n) (INR n)), Rmult_0_l by reflexivity. assert (0 <= INR n * (1 - q)) by (apply Rmult_le_pos; lra). lra.
    - replace (INR k * (q / p - 1) + (INR n - INR k) * ((1 - q) / (1 - p) - 1)) with (INR n * ((q - p) * (f - p)) / (p * (1 - p))).
      + unfold Rdiv. assert (0 < / (p * (1 - p))) by (apply Rinv_0_lt_compat, Rmult_lt_0_compat; lra).
        assert (INR n * ((q - p) * (f - p)) <= 0).
        { replace 0 with (INR n * 0) by ring. apply Rmult_le_compat_l; lra. }
        replace 0 with (0 * / (p * (1 - p))) by ring. apply Rmult_le_compat_r; lra.
      + rewrite <- Hfk. field. lra. }
  destruct (ratio_le (fun r => match nth_error r j with Some (CI 1%Z) => p | _ => 1 - p end) (fun r => match nth_error r j with Some (CI 1%Z) => q | _ => 1 - q end) rs Hpos) as [A B].
  - intros r _. destruct (nth_error r j) as [[[|[?|?|]|?]|?|?]|]; lra.
  - exact Hsum.
  - split; [exact A|]. intros Hqp. apply B. destruct rs as [|r rs']; [congruence|]. exists r. split; [left; reflexivity|].
    destruct (nth_error r j) as [[[|[?|?|]|?]|?|?]|]; lra.
Qed.

(** UniBin: what is learned is within rounding of the maximum-likelihood probability between the bounds. *)
Lemma unibin_likely n upper lower m d :
  unibin_made n upper lower m -> a_nc d = n -> Forall (bit_row n) (a_rows d) -> a_rows d <> [] ->
  (Z.of_nat (List.length (a_rows d)) <= 2 ^ 53)%Z -> prob lower -> prob upper ->
  exists m', unibin_learn d m = (Ok tt, m') /\
  forall j, (j < n)%nat -> exists p best, nth_error (ub_pm m') j = Some p /\ isfin p = true /\
    Rabs (B2R p - best) <= bpow radix2 (-53) /\ B2R lower <= best <= B2R upper /\
    forall q, B2R lower <= q <= B2R upper ->
      bits_likelihood j q (a_rows d) <= bits_likelihood j best (a_rows d) /\
      (q <> best -> bits_likelihood j q (a_rows d) < bits_likelihood j best (a_rows d)).
Proof.
  intros Hm Hn Hr Hne Hlen Pl Pu. destruct (prob_R _ Pl) as [Fl Rl]. destruct (prob_R _ Pu) as [Fu Ru].
  pose proof Hm as (Hlt & _). pose proof Hlt as Hlt'. apply (flt_fin _ _ Fl Fu) in Hlt.
  destruct (unibin_bits_made n upper lower m d Hm Hn Hr Hne) as (m' & Hl & _ & H). exists m'. split; [exact Hl|]. intros j Hj.
  destruct (H j Hj) as (p & Hp & Hc).
  assert (Hnr : (0 < List.length (a_rows d))%nat) by (destruct (a_rows d); [congruence|cbn; lia]).
  destruct (freq_near (ones_in j (a_rows d)) (List.length (a_rows d)) Hnr (ones_in_le _ _) Hlen) as (Hpq & Hnear & _). cbv zeta in Hpq, Hnear.
  destruct (prob_R _ Hpq) as [Fq _].
  destruct (clamped_R _ _ _ _ Hc Hlt' Fl Fu Fq) as [Fp Ep].
  destruct (best_probability j (a_rows d) (B2R lower) (B2R upper) Hne) as [Hb Hbest]; [lra|lra|lra|].
  exists p, (Rmin (B2R upper) (Rmax (B2R lower) (INR (ones_in j (a_rows d)) / INR (List.length (a_rows d))))).
  split; [exact Hp|]. split; [exact Fp|]. split; [|split; [exact Hb|exact Hbest]].
  rewrite Ep. eapply Rle_trans; [|exact Hnear]. unfold Rmax, Rmin. repeat destruct Rle_dec; unfold Rabs; repeat destruct Rcase_abs; lra.
Qed.

(* ------------------------------ categories ------------------------------ *)

Lemma occurrences_pos x col : discrete col -> In x col -> (0 < occurrences x col)%nat.
Proof.
  intros Hd Hx. unfold occurrences. assert (Hin : In x (filter (fun y => cell_eqb y x) col)).
  { apply filter_In. split; [exact Hx|]. apply (discrete_eqb col); auto. }
  destruct (filter (fun y => cell_eqb y x) col); [destruct Hin|cbn; lia].
Qed.

(** A sum over a column, category by category. *)
Lemma sum_by_category (g : cell -> R) vals all : discrete all -> NoDup vals -> (forall x, In x vals -> In x all) ->
  forall col, incl col vals -> Rsum (map g col) = Rsum (map (fun x => INR (occurrences x col) * g x) vals).
Proof.
  intros Hd Hnd Hall. induction col as [|c col IH]; intros Hi.
  - cbn. unfold Rsum. induction vals as [|v vals IHv]; cbn; [reflexivity|]. inversion Hnd. rewrite <- IHv; [ring|assumption|intros; apply Hall; right; assumption|intros ? []].
  - cbn [map]. change (Rsum (g c :: map g col)) with (g c + Rsum (map g col)). rewrite IH by (intros x Hx; apply Hi; right; exact Hx).
    assert (Hc : In c vals) by (apply Hi; left; reflexivity). clear IH Hi.
    assert (Hocc : forall x, In x vals -> INR (occurrences x (c :: col)) = (if cell_eqb c x then 1 else 0) + INR (occurrences x col)).
    { intros x Hx. unfold occurrences. cbn [filter]. destruct (cell_eqb c x); cbn [List.length]; [rewrite S_INR|]; ring. }
    apply in_split in Hc as (v1 & v2 & ->).
    assert (Hsplit : forall h : cell -> R, Rsum (map h (v1 ++ c :: v2)) = Rsum (map h v1) + h c + Rsum (map h v2)).
    { intros h. rewrite map_app. cbn [map]. unfold Rsum. generalize (map h v1). intros l. induction l as [|a l IH]; cbn [app fold_right]; [ring|]. rewrite IH. ring. }
    rewrite !Hsplit. apply NoDup_remove_2 in Hnd.
    assert (Hother : forall l, (forall x, In x l -> In x (v1 ++ v2)) ->
      Rsum (map (fun x => INR (occurrences x (c :: col)) * g x) l) = Rsum (map (fun x => INR (occurrences x col) * g x) l)).
    { intros l Hl. f_equal. apply map_ext_in. intros x Hx. specialize (Hl x Hx).
      assert (Hv : In x (v1 ++ c :: v2)) by (apply in_app_or in Hl; apply in_or_app; cbn; tauto).
      rewrite (Hocc x Hv). destruct (cell_eqb c x) eqn:E; [|ring]. exfalso. apply Hnd.
      assert (Ec : c = x); [|rewrite Ec; exact Hl]. apply (discrete_eqb all c x Hd); [apply Hall, in_or_app; right; left; reflexivity|apply Hall, Hv|exact E]. }
    rewrite (Hother v1) by (intros; apply in_or_app; auto). rewrite (Hother v2) by (intros; apply in_or_app; auto).
    assert (Hcin : In c (v1 ++ c :: v2)) by (apply in_or_app; right; left; reflexivity).
    rewrite (Hocc c Hcin). assert (Ecc : cell_eqb c c = true) by (apply (discrete_eqb all c c Hd); auto). rewrite Ecc. ring.
Qed.

(** The frequencies are the best distribution over the categories, and the only one. *)
Lemma best_frequencies col vals : discrete col -> col <> [] -> NoDup vals -> (forall x, In x vals <-> In x col) ->
  forall q : cell -> R, (forall x, In x vals -> 0 <= q x) -> Rsum (map q vals) <= 1 ->
  cat_likelihood q col <= cat_likelihood (frequency col) col /\
  ((exists x, In x col /\ q x <> frequency col x) -> cat_likelihood q col < cat_likelihood (frequency col) col).
Proof.
  intros Hd Hne Hnd Hv q Hq Hs. unfold cat_likelihood.
  assert (Hn : 0 < INR (List.length col)) by (apply lt_0_INR; destruct col; [congruence|cbn; lia]).
  assert (Hpos : forall x, In x col -> 0 < INR (occurrences x col)) by (intros x Hx; apply lt_0_INR, occurrences_pos; assumption).
  apply (ratio_le (frequency col) q col).
  - intros x Hx. unfold frequency, Rdiv. apply Rmult_lt_0_compat; [auto|apply Rinv_0_lt_compat, Hn].
  - intros x Hx. apply Hq, Hv, Hx.
  - rewrite (sum_by_category (fun x => q x / frequency col x - 1) vals col Hd Hnd (fun x => proj1 (Hv x)) col) by (intros x Hx; apply Hv, Hx).
    assert (E : map (fun x => INR (occurrences x col) * (q x / frequency col x - 1)) vals = map (fun x => INR (List.length col) * q x - INR (occurrences x col) * 1) vals).
    { apply map_ext_in. intros x Hx. apply Hv in Hx. specialize (Hpos x Hx). unfold frequency. field. split; lra. }
    rewrite E. assert (Hsub : forall (a b : cell -> R) l, Rsum (map (fun x => a x - b x) l) = Rsum (map a l) - Rsum (map b l)).
    { intros a b l. unfold Rsum. induction l as [|x l IH]; cbn; [ring|]. rewrite IH. ring. }
    assert (Hscal : forall c (a : cell -> R) l, Rsum (map (fun x => c * a x) l) = c * Rsum (map a l)).
    { intros c a l. unfold Rsum. induction l as [|x l IH]; cbn; [ring|]. rewrite IH. ring. }
    rewrite Hsub, Hscal.
    rewrite <- (sum_by_category (fun _ => 1) vals col Hd Hnd (fun x => proj1 (Hv x)) col) by (intros x Hx; apply Hv, Hx).
    assert (Hone : forall l : list cell, Rsum (map (fun _ => 1) l) = INR (List.length l)).
    { intros l. unfold Rsum. induction l as [|x l IH]; cbn [map fold_right List.length]; [reflexivity|]. rewrite IH, S_INR. ring. }
    rewrite Hone. assert (INR (List.length col) * Rsum (map q vals) <= INR (List.length col) * 1) by (apply Rmult_le_compat_l; lra). lra.
Qed.

Lemma occurrences_le x col : (occurrences x col <= List.length col)%nat.
Proof. unfold occurrences. induction col as [|c col IH]; cbn; [lia|]. destruct (cell_eqb c x); cbn; lia. Qed.

(** UniCategorical. *)
Lemma cat_likely d t :
  List.length t = a_nc d -> a_rows d <> [] -> (forall j, (j < a_nc d)%nat -> discrete (column j (a_rows d))) ->
  (Z.of_nat (List.length (a_rows d)) <= 2 ^ 53)%Z ->
  exists t', cat_learn d t = (Ok tt, t') /\
    forall j, (j < a_nc d)%nat ->
      let col := column j (a_rows d) in
      exists p, nth_error t' j = Some (Some p) /\ NoDup (map fst p) /\ (forall x, In x (map fst p) <-> In x col) /\
        (forall x q, In (x, q) p -> Rabs (B2R q - frequency col x) <= bpow radix2 (-53)) /\
        forall q : cell -> R, (forall x, In x (map fst p) -> 0 <= q x) -> Rsum (map q (map fst p)) <= 1 ->
          cat_likelihood q col <= cat_likelihood (frequency col) col /\
          ((exists x, In x col /\ q x <> frequency col x) -> cat_likelihood q col < cat_likelihood (frequency col) col).
Proof.
  intros Ht Hne Hd Hlen. destruct (cat_frequencies d t Ht Hne Hd) as (t' & Hl & _ & H). exists t'. split; [exact Hl|].
  intros j Hj. cbv zeta. destruct (H j Hj) as (p & Hp & Hnd & Hv & Hq & _). exists p.
  assert (Hcl : List.length (column j (a_rows d)) = List.length (a_rows d)) by apply map_length.
  assert (Hcn : column j (a_rows d) <> []) by (intros E; rewrite E in Hcl; destruct (a_rows d); [congruence|discriminate]).
  split; [exact Hp|]. split; [exact Hnd|]. split; [exact Hv|]. split.
  - intros x q Hin. rewrite (Hq x q Hin). unfold frequency. apply freq_near; [|apply occurrences_le|rewrite Hcl; exact Hlen].
    destruct (column j (a_rows d)); [congruence|cbn; lia].
  - apply best_frequencies; auto.
Qed.

(* ------------------------------ normal distributions ------------------------------ *)

Lemma Rsum_map_plus {A} (f g : A -> R) l : Rsum (map (fun x => f x + g x) l) = Rsum (map f l) + Rsum (map g l).
Proof. unfold Rsum. induction l as [|x l IH]; cbn; [ring|]. rewrite IH. ring. Qed.
Lemma Rsum_map_scal {A} c (f : A -> R) l : Rsum (map (fun x => c * f x) l) = c * Rsum (map f l).
Proof. unfold Rsum. induction l as [|x l IH]; cbn; [ring|]. rewrite IH. ring. Qed.
Lemma Rsum_const {A} c (l : list A) : Rsum (map (fun _ => c) l) = INR (List.length l) * c.
Proof. unfold Rsum. induction l as [|x l IH]; cbn [map fold_right List.length]; [cbn; ring|]. rewrite IH, S_INR. ring. Qed.

(** The squares around any centre. *)
Lemma squares_around x mu : x <> [] ->
  Rsum (map (fun v => (v - mu) * (v - mu)) x) = INR (List.length x) * (pop_var x + (avg x - mu) * (avg x - mu)).
Proof.
  intros Hne. assert (Hn : 0 < INR (List.length x)) by (apply lt_0_INR; destruct x; [congruence|cbn; lia]).
  assert (E : forall v, (v - mu) * (v - mu) = (v - avg x) * (v - avg x) + (2 * (avg x - mu) * v + ((mu * mu - avg x * avg x)))) by (intros; ring).
  rewrite (map_ext _ _ E), Rsum_map_plus. rewrite (Rsum_map_plus (fun v => 2 * (avg x - mu) * v)), Rsum_map_scal, Rsum_const, map_id.
  assert (Es : Rsum x = INR (List.length x) * avg x) by (unfold avg; field; lra). rewrite Es.
  assert (Ev : Rsum (map (fun v => (v - avg x) * (v - avg x)) x) = INR (List.length x) * pop_var x) by (unfold pop_var; field; lra).
  rewrite Ev. ring.
Qed.

(** The likelihood in closed form. *)
Lemma normal_closed mu s x : 0 < s -> x <> [] ->
  normal_likelihood mu s x = exp (- (INR (List.length x) * (pop_var x + (avg x - mu) * (avg x - mu))) / (2 * (s * s))) * (/ (s * sqrt (2 * PI))) ^ List.length x.
Proof.
  intros Hs Hne. unfold normal_likelihood, density. rewrite <- (squares_around x mu Hne). clear Hne.
  induction x as [|v x IH].
  - unfold Rprod, Rsum. cbn. replace (- 0 / (2 * (s * s))) with 0 by (field; lra). rewrite exp_0. ring.
  - change (Rprod (map (fun x => exp (- ((x - mu) * (x - mu)) / (2 * (s * s))) / (s * sqrt (2 * PI))) (v :: x))) with
      (exp (- ((v - mu) * (v - mu)) / (2 * (s * s))) / (s * sqrt (2 * PI)) * Rprod (map (fun x => exp (- ((x - mu) * (x - mu)) / (2 * (s * s))) / (s * sqrt (2 * PI))) x)).
    cbn [List.length pow]. rewrite IH. set (rest := Rsum (map (fun v => (v - mu) * (v - mu)) x)).
    change (Rsum (map (fun v => (v - mu) * (v - mu)) (v :: x))) with ((v - mu) * (v - mu) + rest).
    replace (- ((v - mu) * (v - mu) + rest) / (2 * (s * s))) with (- ((v - mu) * (v - mu)) / (2 * (s * s)) + - rest / (2 * (s * s))) by (field; lra).
    rewrite exp_plus. set (e1 := exp (- ((v - mu) * (v - mu)) / (2 * (s * s)))). set (e2 := exp (- rest / (2 * (s * s)))). unfold Rdiv. ring.
Qed.

Lemma pop_var_ge0 x : x <> [] -> 0 <= pop_var x.
Proof.
  intros Hne. assert (Hn : 0 < INR (List.length x)) by (apply lt_0_INR; destruct x; [congruence|cbn; lia]).
  unfold pop_var, Rdiv. apply Rmult_le_pos; [|left; apply Rinv_0_lt_compat, Hn].
  unfold Rsum. set (a := avg x). clearbody a. clear. induction x as [|v x IH]; cbn; [lra|]. pose proof (Rle_0_sqr (v - a)) as H. unfold Rsqr in H. lra.
Qed.

(** Mean and clamped deviation are the best parameters with a deviation not below the bound, and the only ones. *)
Lemma best_normal x lower : x <> [] -> 0 < Rmax lower (sqrt (pop_var x)) ->
  forall mu sigma, lower <= sigma -> 0 < sigma ->
  let best := normal_likelihood (avg x) (Rmax lower (sqrt (pop_var x))) x in
  normal_likelihood mu sigma x <= best /\
  ((mu, sigma) <> (avg x, Rmax lower (sqrt (pop_var x))) -> normal_likelihood mu sigma x < best).
Proof.
  intros Hne Hs mu sigma Hlow Hsig. cbv zeta. set (s := Rmax lower (sqrt (pop_var x))) in *. set (a := pop_var x). set (n := List.length x).
  assert (Hn : 0 < INR n) by (apply lt_0_INR; unfold n; destruct x; [congruence|cbn; lia]).
  assert (Ha : 0 <= a) by (apply pop_var_ge0, Hne).
  assert (Has : a <= s * s).
  { rewrite <- (sqrt_sqrt a Ha). assert (sqrt a <= s) by apply Rmax_r. apply Rmult_le_compat; try apply sqrt_pos; assumption. }
  assert (Hcase : sigma < s -> a = s * s).
  { intros H. assert (s = sqrt a) as ->; [|symmetry; apply sqrt_sqrt, Ha]. unfold s, Rmax in *. destruct (Rle_dec lower (sqrt (pop_var x))); [reflexivity|lra]. }
  rewrite !normal_closed by assumption. fold n a. replace ((avg x - avg x) * (avg x - avg x)) with 0 by ring.
  set (D := (avg x - mu) * (avg x - mu)). assert (HD : 0 <= D) by apply Rle_0_sqr.
  pose proof (Rmult_lt_0_compat _ _ Hs Hs) as Hss. pose proof (Rmult_lt_0_compat _ _ Hsig Hsig) as Hgg.
  assert (Hpi : 0 < sqrt (2 * PI)) by (apply sqrt_lt_R0; pose proof PI_RGT_0; lra).
  set (r := s / sigma). assert (Hr : 0 < r) by (apply Rmult_lt_0_compat; [exact Hs|apply Rinv_0_lt_compat, Hsig]).
  assert (Epow : (/ (sigma * sqrt (2 * PI))) ^ n = r ^ n * (/ (s * sqrt (2 * PI))) ^ n).
  { rewrite <- Rpow_mult_distr. f_equal. unfold r. field. repeat split; lra. }
  rewrite Epow.
  set (C := (/ (s * sqrt (2 * PI))) ^ n). assert (HC : 0 < C) by (apply pow_lt, Rinv_0_lt_compat, Rmult_lt_0_compat; assumption).
  (* r <= exp ((r^2 - 1) / 2) *)
  assert (Hexp : r <= exp ((r * r - 1) / 2) /\ (r <> 1 -> r < exp ((r * r - 1) / 2))).
  { assert (Esq : exp ((r * r - 1) / 2) * exp ((r * r - 1) / 2) = exp (r * r - 1)) by (rewrite <- exp_plus; f_equal; lra).
    pose proof (exp_pos ((r * r - 1) / 2)) as Hp. split.
    - apply Rnot_lt_le. intros H. pose proof (exp_ge (r * r)) as H1. rewrite <- Esq in H1.
      assert (exp ((r * r - 1) / 2) * exp ((r * r - 1) / 2) < r * r) by (apply Rmult_le_0_lt_compat; lra). lra.
    - intros Hr1. apply Rnot_le_lt. intros H. assert (Hne1 : r * r <> 1).
      { intros E. apply Hr1. assert (E2 : (r - 1) * (r + 1) = 0) by lra. apply Rmult_integral in E2. destruct E2; lra. }
      pose proof (exp_gt (r * r) Hne1) as H1. rewrite <- Esq in H1.
      assert (exp ((r * r - 1) / 2) * exp ((r * r - 1) / 2) <= r * r) by (apply Rmult_le_compat; lra). lra. }
  assert (Hpw : r ^ n <= exp (INR n * ((r * r - 1) / 2)) /\ (r <> 1 -> r ^ n < exp (INR n * ((r * r - 1) / 2)))).
  { assert (Epw : forall k y, exp (INR k * y) = exp y ^ k).
    { induction k as [|k IH]; intros y; [cbn; rewrite Rmult_0_l; apply exp_0|]. rewrite S_INR. cbn [pow]. rewrite <- IH, <- exp_plus. f_equal. ring. }
    rewrite Epw. destruct Hexp as [H1 H2]. split.
    - apply pow_incr. split; [lra|exact H1].
    - intros Hr1. specialize (H2 Hr1). assert (0 < n)%nat as Hn' by (apply INR_lt; cbn; exact Hn). destruct n as [|k]; [lia|]. cbn [pow].
      apply Rlt_le_trans with (exp ((r * r - 1) / 2) * r ^ k).
      + apply Rmult_lt_compat_r; [apply pow_lt, Hr|exact H2].
      + apply Rmult_le_compat_l; [left; apply exp_pos|]. apply pow_incr. split; [lra|exact H1]. }
  (* the exponents *)
  assert (Hfac : (r * r - 1) * (1 - a / (s * s)) <= 0).
  { assert (Hq : a / (s * s) <= 1).
    { apply (Rmult_le_reg_r (s * s)); [exact Hss|]. unfold Rdiv. rewrite Rmult_assoc, Rinv_l by lra. lra. }
    destruct (Rlt_le_dec sigma s) as [Hlt|Hge].
    - rewrite (Hcase Hlt). replace (s * s / (s * s)) with 1 by (field; lra). lra.
    - assert (Hr1 : r <= 1).
      { unfold r. apply (Rmult_le_reg_r sigma); [exact Hsig|]. unfold Rdiv. rewrite Rmult_assoc, Rinv_l by lra. lra. }
      assert (r * r <= 1 * 1) by (apply Rmult_le_compat; lra).
      assert (0 <= (1 - r * r) * (1 - a / (s * s))) by (apply Rmult_le_pos; lra). lra. }
  assert (Hee : - (INR n * (a + D)) / (2 * (sigma * sigma)) + INR n * ((r * r - 1) / 2)
     = - (INR n * (a + 0)) / (2 * (s * s)) + INR n / 2 * ((r * r - 1) * (1 - a / (s * s))) - INR n * D / (2 * (sigma * sigma))).
  { unfold r. field. split; lra. }
  assert (HDs : 0 <= INR n * D / (2 * (sigma * sigma))).
  { unfold Rdiv. apply Rmult_le_pos; [apply Rmult_le_pos; lra|left; apply Rinv_0_lt_compat; lra]. }
  assert (Hhalf : INR n / 2 * ((r * r - 1) * (1 - a / (s * s))) <= 0).
  { replace 0 with (INR n / 2 * 0) by ring. apply Rmult_le_compat_l; lra. }
  assert (Hmain : exp (- (INR n * (a + D)) / (2 * (sigma * sigma))) * exp (INR n * ((r * r - 1) / 2)) <= exp (- (INR n * (a + 0)) / (2 * (s * s)))).
  { rewrite <- exp_plus, Hee. apply exp_le. lra. }
  pose proof (exp_pos (- (INR n * (a + D)) / (2 * (sigma * sigma)))) as Hep. pose proof (exp_pos (- (INR n * (a + 0)) / (2 * (s * s)))) as Hep2.
  split.
  - rewrite <- Rmult_assoc. apply Rmult_le_compat_r; [lra|]. eapply Rle_trans; [|exact Hmain]. apply Rmult_le_compat_l; [lra|apply Hpw].
  - intros Hdiff. rewrite <- Rmult_assoc. apply Rmult_lt_compat_r; [exact HC|]. destruct (Req_dec r 1) as [Er|Er].
    + assert (Esig : sigma = s). { unfold r in Er. apply (f_equal (fun z => z * sigma)) in Er. unfold Rdiv in Er. rewrite Rmult_assoc, Rinv_l in Er by lra. lra. }
      assert (Hmu : mu <> avg x) by (intros E; apply Hdiff; rewrite E, Esig; reflexivity).
      assert (HDp : 0 < D). { unfold D. apply Rsqr_pos_lt. lra. }
      rewrite Er, pow1, Rmult_1_r, Esig. apply exp_increasing.
      unfold Rdiv. apply Rmult_lt_compat_r; [apply Rinv_0_lt_compat; lra|]. assert (INR n * (a + 0) < INR n * (a + D)) by (apply Rmult_lt_compat_l; lra). lra.
    + eapply Rlt_le_trans; [|exact Hmain]. apply Rmult_lt_compat_l; [exact Hep|]. apply Hpw, Er.
Qed.

(** UniGauss, in exact arithmetic. *)
Lemma unigauss_likely lower nc (d : list (list R)) pm pm' : d <> [] ->
  unigauss_learn R_ops lower (real_col nc d) pm = (Ok tt, pm') ->
  forall i q, nth_error pm' i = Some q -> 0 < snd q ->
    let x := map (fun r => nth i r 0) d in
    lower <= snd q /\ forall mu sigma, lower <= sigma -> 0 < sigma ->
      normal_likelihood mu sigma x <= normal_likelihood (fst q) (snd q) x /\
      ((mu, sigma) <> q -> normal_likelihood mu sigma x < normal_likelihood (fst q) (snd q) x).
Proof.
  intros Hne Hl i q Hq Hpos. cbv zeta. destruct (unigauss_real lower nc d pm pm' Hl) as [_ H]. destruct (H i q Hq) as (E1 & E2 & _). cbv zeta in *.
  destruct q as [m s]. cbn [fst snd] in *. subst m s. split; [apply Rmax_l|]. intros mu sigma H1 H2.
  apply best_normal; try assumption. destruct d; [congruence|discriminate].
Qed.
