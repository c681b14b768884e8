(** np.pi and np.e are the real constants up to 2^-52. *)
From Coq Require Import List ZArith Bool Lia Reals Lra Machin.
From Flocq Require Import Core IEEE754.BinarySingleNaN.
From Verif Require Import PyBase B64 FloatSum BenchFloat.
Open Scope R_scope.

Lemma PI_fine : 314159265358979323 / 10 ^ 17 < PI < 314159265358979325 / 10 ^ 17.
Proof.
  destruct (PI_2_3_7_ineq 8) as [H1 H2]. unfold tg_alt, PI_2_3_7_tg, Ratan_seq in H1, H2. cbn [sum_f_R0 Nat.mul Nat.add] in H1, H2.
  repeat rewrite INR_IZR_INZ in H1. repeat rewrite INR_IZR_INZ in H2.
  cbn [Z.of_nat Pos.of_succ_nat Pos.succ Pos.mul Pos.add pow Nat.mul Nat.add] in H1, H2. split; lra.
Qed.

(** exp(-1) between two partial sums of its alternating series. *)
Lemma exp_minus_1 N : sum_f_R0 (tg_alt (fun i => / INR (fact i))) (S (2 * N)) <= exp (-1) <= sum_f_R0 (tg_alt (fun i => / INR (fact i))) (2 * N).
Proof.
  unfold exp. destruct (exist_exp (-1)) as (x, e). cbn [proj1_sig]. unfold exp_in in e. apply alternated_series_ineq.
  - intros n. apply Rinv_le_contravar; [apply INR_fact_lt_0|]. apply le_INR, fact_le. lia.
  - intros eps He. destruct (cv_speed_pow_fact 1 eps He) as (k & Hk). exists k. intros n Hn. specialize (Hk n Hn). unfold Rdiv in Hk. rewrite pow1, Rmult_1_l in Hk. exact Hk.
  - intros eps He. destruct (e eps He) as (k & Hk). exists k. intros n Hn. specialize (Hk n Hn).
    replace (sum_f_R0 (tg_alt (fun i => / INR (fact i))) n) with (sum_f_R0 (fun i => / INR (fact i) * (-1) ^ i) n); [exact Hk|].
    apply sum_eq. intros i _. unfold tg_alt. apply Rmult_comm.
Qed.
Lemma fact_step n : INR (fact (S n)) = IZR (Z.of_nat (S n)) * INR (fact n).
Proof. change (fact (S n)) with (S n * fact n)%nat. rewrite mult_INR, INR_IZR_INZ. reflexivity. Qed.
Lemma E_fine : 271828182845904523 / 10 ^ 17 < exp 1 < 271828182845904524 / 10 ^ 17.
Proof.
  assert (E : exp 1 * exp (-1) = 1) by (rewrite <- exp_plus, Rplus_opp_r; apply exp_0).
  assert (B : 3678794411714423215 / 10 ^ 19 < exp (-1) /\ exp (-1) < 3678794411714423216 / 10 ^ 19).
  { destruct (exp_minus_1 11) as [H1 H2]. unfold tg_alt in H1, H2. cbn [sum_f_R0 Nat.mul Nat.add] in H1, H2.
    rewrite !fact_step in H1. rewrite !fact_step in H2. change (INR (fact 0)) with 1 in *.
    cbn [Z.of_nat Pos.of_succ_nat Pos.succ pow] in H1, H2. split; lra. }
  pose proof (exp_pos 1). split; nra.
Qed.

Lemma np_pi_R : isfin np_pi = true /\ Rabs (B2R np_pi - PI) <= 2 * u.
Proof.
  split; [vm_compute; reflexivity|]. pose proof PI_fine as [H1 H2]. replace (B2R np_pi) with (IZR 0x1921fb54442d18 / 2 ^ 51).
  - unfold u. replace (bpow radix2 (-53)) with (/ 2 ^ 53) by (cbn; f_equal; lra). apply Rabs_le. lra.
  - unfold np_pi. cbn. unfold F2R. cbn. lra.
Qed.
Lemma np_e_R : isfin np_e = true /\ Rabs (B2R np_e - exp 1) <= 2 * u.
Proof.
  split; [vm_compute; reflexivity|]. pose proof E_fine as [H1 H2]. replace (B2R np_e) with (IZR 0x15bf0a8b145769 / 2 ^ 51).
  - unfold u. replace (bpow radix2 (-53)) with (/ 2 ^ 53) by (cbn; f_equal; lra). apply Rabs_le. lra.
  - unfold np_e. cbn. unfold F2R. cbn. lra.
Qed.
