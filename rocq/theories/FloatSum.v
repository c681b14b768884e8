(** Rounding errors of sums, means and standard deviations in binary64, whatever the order of the
    additions. *)
From Coq Require Import List ZArith Bool Lia Reals Lra Permutation.
From Flocq Require Import Core IEEE754.BinarySingleNaN Relative Plus_error Div_sqrt_error.
From Verif Require Import PyBase B64 B64More NdArray Rand Models ModelThms Sign.
Import ListNotations.
Open Scope R_scope.

(** Unit roundoff, and half the smallest positive double. *)
Definition u : R := bpow radix2 (-53).
Definition eta : R := bpow radix2 (-1075).

Lemma u_pos : 0 < u. Proof. apply bpow_gt_0. Qed.
Lemma eta_pos : 0 < eta. Proof. apply bpow_gt_0. Qed.
Lemma u_value : / 2 * bpow radix2 (- 53 + 1) = u.
Proof. unfold u. change (/ 2) with (bpow radix2 (-1)). rewrite <- bpow_plus. reflexivity. Qed.
Lemma u_ro_value : u_ro radix2 53 = u. Proof. exact u_value. Qed.

Lemma rnd_rel (x : R) : exists e t, Rabs e <= u /\ Rabs t <= eta /\ rnd x = x * (1 + e) + t.
Proof.
  destruct (error_N_FLT radix2 (3 - 1024 - 53) 53 ltac:(reflexivity) (fun n => negb (Z.even n)) x) as (e & t & He & Ht & _ & H).
  exists e, t. split; [rewrite <- u_value; exact He|]. split; [|exact H].
  eapply Rle_trans; [exact Ht|]. unfold eta. change (/ 2) with (bpow radix2 (-1)). rewrite <- bpow_plus. apply bpow_le. lia.
Qed.

Lemma u_small : u <= / 1024.
Proof. unfold u. change (/ 1024) with (/ IZR (2 ^ 10)). change (/ IZR (2 ^ 10)) with (bpow radix2 (-10)). apply bpow_le. lia. Qed.

(** The largest magnitudes considered: far below overflow. *)
Definition huge : R := bpow radix2 1000.
Lemma rnd_huge (x : R) : Rabs x <= huge -> Rabs (rnd x) < big.
Proof.
  intros H. destruct (rnd_rel x) as (e & t & He & Ht & ->).
  assert (Hb : 4 * huge <= big) by (unfold huge, big; change 4 with (bpow radix2 2); rewrite <- bpow_plus; apply bpow_le; lia).
  assert (Hh : 1 <= huge) by (unfold huge; change 1 with (bpow radix2 0); apply bpow_le; lia).
  assert (Hn : eta <= 1) by (unfold eta; change 1 with (bpow radix2 0); apply bpow_le; lia).
  pose proof u_small. pose proof (Rabs_pos x). eapply Rle_lt_trans; [apply Rabs_triang|]. rewrite Rabs_mult.
  assert (Rabs (1 + e) <= 2).
  { eapply Rle_trans; [apply Rabs_triang|]. rewrite Rabs_R1. lra. }
  assert (Rabs x * Rabs (1 + e) <= huge * 2) by (apply Rmult_le_compat; try apply Rabs_pos; assumption). lra.
Qed.

Lemma add_rel (a b : f64) : isfin a = true -> isfin b = true -> Rabs (B2R a + B2R b) <= huge ->
  isfin (fadd a b) = true /\ exists e, Rabs e <= u /\ B2R (fadd a b) = (B2R a + B2R b) * (1 + e).
Proof.
  intros Fa Fb H. destruct (fadd_fin a b Fa Fb (rnd_huge _ H)) as [F E]. split; [exact F|].
  destruct (FLT_plus_error_N_ex radix2 (3 - 1024 - 53) 53 (fun n => negb (Z.even n)) (B2R a) (B2R b) (generic_format_B2R 53 1024 a) (generic_format_B2R 53 1024 b)) as (e & He & Hr).
  exists e. split; [|rewrite E; exact Hr]. rewrite u_ro_value in He. eapply Rle_trans; [exact He|]. pose proof u_pos.
  apply (Rmult_le_reg_r (1 + u)); [lra|]. unfold Rdiv. rewrite Rmult_assoc, Rinv_l by lra. pose proof (Rmult_le_pos u u ltac:(lra) ltac:(lra)). lra.
Qed.
Lemma sub_rel (a b : f64) : isfin a = true -> isfin b = true -> Rabs (B2R a - B2R b) <= huge ->
  isfin (fsub a b) = true /\ exists e, Rabs e <= u /\ B2R (fsub a b) = (B2R a - B2R b) * (1 + e).
Proof.
  intros Fa Fb H. destruct (fsub_fin a b Fa Fb (rnd_huge _ H)) as [F E]. split; [exact F|].
  destruct (FLT_plus_error_N_ex radix2 (3 - 1024 - 53) 53 (fun n => negb (Z.even n)) (B2R a) (- B2R b) (generic_format_B2R 53 1024 a)) as (e & He & Hr).
  { apply generic_format_opp, (generic_format_B2R 53 1024 b). }
  exists e. split; [|rewrite E; exact Hr]. rewrite u_ro_value in He. eapply Rle_trans; [exact He|]. pose proof u_pos.
  apply (Rmult_le_reg_r (1 + u)); [lra|]. unfold Rdiv. rewrite Rmult_assoc, Rinv_l by lra. pose proof (Rmult_le_pos u u ltac:(lra) ltac:(lra)). lra.
Qed.
Lemma mul_rel (a b : f64) : isfin a = true -> isfin b = true -> Rabs (B2R a * B2R b) <= huge ->
  isfin (fmul a b) = true /\ exists e t, Rabs e <= u /\ Rabs t <= eta /\ B2R (fmul a b) = B2R a * B2R b * (1 + e) + t.
Proof.
  intros Fa Fb H. destruct (fmul_fin a b Fa Fb (rnd_huge _ H)) as [F E]. split; [exact F|]. rewrite E. apply rnd_rel.
Qed.
Lemma div_rel (a b : f64) : isfin a = true -> B2R b <> 0 -> Rabs (B2R a / B2R b) <= huge ->
  isfin (fdiv a b) = true /\ exists e t, Rabs e <= u /\ Rabs t <= eta /\ B2R (fdiv a b) = B2R a / B2R b * (1 + e) + t.
Proof.
  intros Fa Fb H. destruct (fdiv_fin a b Fa Fb (rnd_huge _ H)) as [F E]. split; [exact F|]. rewrite E. apply rnd_rel.
Qed.
Lemma sqrt_rel (a : f64) : isfin a = true -> neg_signed a = false ->
  isfin (fsqrt a) = true /\ exists e, Rabs e <= u /\ B2R (fsqrt a) = sqrt (B2R a) * (1 + e).
Proof.
  intros Fa Sa. pose proof (Bsqrt_correct 53 1024 _ _ mode_NE a) as (E & F & _). change (Bsqrt mode_NE a) with (fsqrt a) in E, F.
  split; [unfold isfin; rewrite F; destruct a as [s|s| |[|] m e Hm]; try reflexivity; discriminate|].
  destruct (sqrt_error_N_FLT_ex radix2 53 (fun n => negb (Z.even n)) ltac:(reflexivity) (3 - 1024 - 53) ltac:(lia) (B2R a) (generic_format_B2R 53 1024 a)) as (e & He & Hr).
  exists e. split; [|rewrite E; exact Hr]. rewrite u_ro_value in He. eapply Rle_trans; [exact He|]. pose proof u_pos as Hu.
  set (r := sqrt (1 + 2 * u)). assert (Hr1 : 1 <= r) by (unfold r; rewrite <- sqrt_1 at 1; apply sqrt_le_1_alt; lra).
  assert (Hr2 : r <= 1 + u). { unfold r. rewrite <- (sqrt_square (1 + u)) by lra. apply sqrt_le_1_alt. pose proof (Rmult_le_pos u u ltac:(lra) ltac:(lra)). lra. }
  apply (Rmult_le_reg_r r); [lra|]. replace ((1 - 1 / r) * r) with (r - 1) by (field; lra).
  assert (u * 1 <= u * r) by (apply Rmult_le_compat_l; lra). lra.
Qed.

(* ------------------------------------------------------------------ *)
(** ** Sums in any order *)

(** [s] is what adding the numbers of [l] gives, each once, in some order and with some bracketing;
    adding nothing gives a zero. *)
Inductive added : list f64 -> f64 -> Prop :=
| added_none z : B2R z = 0 -> isfin z = true -> added [] z
| added_one x : added [x] x
| added_plus l l1 l2 a b : Permutation l (l1 ++ l2) -> added l1 a -> added l2 b -> added l (fadd a b).

Definition adds (s : list f64 -> f64) : Prop := forall l, added l (s l).

Lemma seq_adds : adds seq_sum.
Proof.
  intros l. unfold seq_sum. assert (G : forall l l0 a, added l0 a -> added (l0 ++ l) (fold_left fadd l a)).
  { clear l. induction l as [|x l IH]; intros l0 a H; cbn [fold_left]; [rewrite app_nil_r; exact H|].
    replace (l0 ++ x :: l) with ((l0 ++ [x]) ++ l) by (rewrite <- app_assoc; reflexivity). apply IH.
    eapply added_plus; [apply Permutation_refl|exact H|constructor]. }
  apply (G l []). constructor; reflexivity.
Qed.

Definition Rtot (l : list f64) : R := Rsum (map B2R l).
Definition Rmag (l : list f64) : R := Rsum (map (fun x => Rabs (B2R x)) l).

Lemma Rsum_app a b : Rsum (a ++ b) = Rsum a + Rsum b.
Proof. unfold Rsum. induction a as [|x a IH]; cbn; lra. Qed.
Lemma Rsum_perm a b : Permutation a b -> Rsum a = Rsum b.
Proof. unfold Rsum. induction 1; cbn in *; lra. Qed.
Lemma Rtot_perm l l1 l2 : Permutation l (l1 ++ l2) -> Rtot l = Rtot l1 + Rtot l2.
Proof. intros H. unfold Rtot. rewrite <- Rsum_app, <- map_app. apply Rsum_perm, Permutation_map, H. Qed.
Lemma Rmag_perm l l1 l2 : Permutation l (l1 ++ l2) -> Rmag l = Rmag l1 + Rmag l2.
Proof. intros H. unfold Rmag. rewrite <- Rsum_app, <- map_app. apply Rsum_perm, Permutation_map, H. Qed.
Lemma Rmag_pos l : 0 <= Rmag l.
Proof. unfold Rmag, Rsum. induction l as [|x l IH]; cbn; [lra|]. pose proof (Rabs_pos (B2R x)). lra. Qed.
Lemma Rtot_mag l : Rabs (Rtot l) <= Rmag l.
Proof.
  unfold Rtot, Rmag, Rsum. induction l as [|x l IH]; cbn; [rewrite Rabs_R0; lra|].
  eapply Rle_trans; [apply Rabs_triang|]. lra.
Qed.

Lemma Rabs_le_0 x : Rabs x <= 0 -> x = 0.
Proof. intros H. destruct (Req_dec x 0) as [E|N]; [exact E|]. pose proof (Rabs_pos_lt x N). lra. Qed.
Lemma grow_1 k : 1 <= (1 + u) ^ k.
Proof. apply pow_R1_Rle. pose proof u_pos. lra. Qed.
Lemma grow_le a b : (a <= b)%nat -> (1 + u) ^ a <= (1 + u) ^ b.
Proof. intros H. apply Rle_pow; [pose proof u_pos; lra|exact H]. Qed.

Lemma added_err l s : added l s -> Forall (fun x => isfin x = true) l -> (1 + u) ^ List.length l * Rmag l <= huge ->
  isfin s = true /\ Rabs (B2R s - Rtot l) <= ((1 + u) ^ Nat.pred (List.length l) - 1) * Rmag l.
Proof.
  induction 1 as [z Hz Fz|x|l l1 l2 a b HP Ha IHa Hb IHb]; intros F Hh.
  - split; [exact Fz|]. rewrite Hz. unfold Rtot, Rmag, Rsum. cbn. rewrite Rminus_0_r, Rabs_R0. lra.
  - inversion F; subst. split; [assumption|]. unfold Rtot, Rmag, Rsum. cbn. replace (B2R x - (B2R x + 0)) with 0 by lra. rewrite Rabs_R0. lra.
  - assert (F' : Forall (fun x => isfin x = true) (l1 ++ l2)) by (eapply Permutation_Forall; eassumption).
    apply Forall_app in F' as [F1 F2]. pose proof (Permutation_length HP) as HL. rewrite app_length in HL.
    rewrite (Rmag_perm _ _ _ HP) in Hh |- *. rewrite (Rtot_perm _ _ _ HP). rewrite HL in Hh |- *.
    pose proof (Rmag_pos l1) as P1. pose proof (Rmag_pos l2) as P2. pose proof u_pos as Hu.
    set (n1 := List.length l1) in *. set (n2 := List.length l2) in *.
    assert (G1 : (1 + u) ^ n1 <= (1 + u) ^ (n1 + n2)) by (apply grow_le; lia).
    assert (G2 : (1 + u) ^ n2 <= (1 + u) ^ (n1 + n2)) by (apply grow_le; lia).
    pose proof (grow_1 (n1 + n2)) as G0.
    destruct (IHa F1) as [Fa Ea]. { eapply Rle_trans; [|exact Hh]. apply Rmult_le_compat; [pose proof (grow_1 n1); lra|lra|lra|lra]. }
    destruct (IHb F2) as [Fb Eb]. { eapply Rle_trans; [|exact Hh]. apply Rmult_le_compat; [pose proof (grow_1 n2); lra|lra|lra|lra]. }
    set (g := (1 + u) ^ Nat.pred (n1 + n2)).
    assert (Hg : g <= (1 + u) ^ (n1 + n2)) by (apply grow_le; lia).
    assert (Hg1 : 1 <= g) by apply grow_1.
    assert (Eab : Rabs (B2R a + B2R b - (Rtot l1 + Rtot l2)) <= (g - 1) * (Rmag l1 + Rmag l2)).
    { replace (B2R a + B2R b - (Rtot l1 + Rtot l2)) with ((B2R a - Rtot l1) + (B2R b - Rtot l2)) by ring.
      eapply Rle_trans; [apply Rabs_triang|]. rewrite Rmult_plus_distr_l. apply Rplus_le_compat.
      - eapply Rle_trans; [exact Ea|]. apply Rmult_le_compat_r; [exact P1|]. apply Rplus_le_compat_r, grow_le. lia.
      - eapply Rle_trans; [exact Eb|]. apply Rmult_le_compat_r; [exact P2|]. apply Rplus_le_compat_r, grow_le. lia. }
    assert (Hab : Rabs (B2R a + B2R b) <= huge).
    { replace (B2R a + B2R b) with ((B2R a + B2R b - (Rtot l1 + Rtot l2)) + (Rtot l1 + Rtot l2)) by ring.
      eapply Rle_trans; [apply Rabs_triang|]. pose proof (Rtot_mag l1). pose proof (Rtot_mag l2).
      pose proof (Rabs_triang (Rtot l1) (Rtot l2)).
      assert (g * (Rmag l1 + Rmag l2) <= (1 + u) ^ (n1 + n2) * (Rmag l1 + Rmag l2)) by (apply Rmult_le_compat_r; lra). lra. }
    destruct (add_rel a b Fa Fb Hab) as [Fs (e & He & Es)]. split; [exact Fs|].
    destruct (Nat.eq_dec n1 0) as [Z1|Z1]; [|destruct (Nat.eq_dec n2 0) as [Z2|Z2]].
    + assert (l1 = []) as -> by (destruct l1; [reflexivity|discriminate]). assert (B2R a = 0) as Ha0.
      { unfold Rtot, Rmag, Rsum in Ea. cbn in Ea. rewrite Rmult_0_r, Rminus_0_r in Ea. apply Rabs_le_0, Ea. }
      destruct (fadd_fin a b Fa Fb (rnd_huge _ Hab)) as [_ E]. rewrite Ha0, Rplus_0_l in E.
      rewrite E. unfold rnd. rewrite round_generic; [|apply valid_rnd_N|apply (generic_format_B2R 53 1024 b)].
      rewrite Ha0, Rplus_0_l in Eab. exact Eab.
    + assert (l2 = []) as -> by (destruct l2; [reflexivity|discriminate]). assert (B2R b = 0) as Hb0.
      { unfold Rtot, Rmag, Rsum in Eb. cbn in Eb. rewrite Rmult_0_r, Rminus_0_r in Eb. apply Rabs_le_0, Eb. }
      destruct (fadd_fin a b Fa Fb (rnd_huge _ Hab)) as [_ E]. rewrite Hb0, Rplus_0_r in E.
      rewrite E. unfold rnd. rewrite round_generic; [|apply valid_rnd_N|apply (generic_format_B2R 53 1024 a)].
      rewrite Hb0, Rplus_0_r in Eab. exact Eab.
    + set (h := (1 + u) ^ (n1 + n2 - 2)).
      assert (Hgh : g = (1 + u) * h). { unfold g, h. replace (Nat.pred (n1 + n2)) with (S (n1 + n2 - 2)) by lia. reflexivity. }
      assert (Eab' : Rabs (B2R a + B2R b - (Rtot l1 + Rtot l2)) <= (h - 1) * (Rmag l1 + Rmag l2)).
      { replace (B2R a + B2R b - (Rtot l1 + Rtot l2)) with ((B2R a - Rtot l1) + (B2R b - Rtot l2)) by ring.
        eapply Rle_trans; [apply Rabs_triang|]. rewrite Rmult_plus_distr_l. apply Rplus_le_compat.
        - eapply Rle_trans; [exact Ea|]. apply Rmult_le_compat_r; [exact P1|]. apply Rplus_le_compat_r, grow_le. lia.
        - eapply Rle_trans; [exact Eb|]. apply Rmult_le_compat_r; [exact P2|]. apply Rplus_le_compat_r, grow_le. lia. }
      rewrite Es. set (T := Rtot l1 + Rtot l2) in *. set (M := Rmag l1 + Rmag l2) in *.
      assert (HT : Rabs T <= M).
      { unfold T, M. eapply Rle_trans; [apply Rabs_triang|]. apply Rplus_le_compat; apply Rtot_mag. }
      replace ((B2R a + B2R b) * (1 + e) - T) with ((B2R a + B2R b - T) * (1 + e) + T * e) by ring.
      eapply Rle_trans; [apply Rabs_triang|]. rewrite !Rabs_mult.
      assert (H1 : Rabs (1 + e) <= 1 + u). { eapply Rle_trans; [apply Rabs_triang|]. rewrite Rabs_R1. lra. }
      assert (HM : 0 <= M) by (unfold M; lra).
      assert (Q1 : Rabs (B2R a + B2R b - T) * Rabs (1 + e) <= (h - 1) * M * (1 + u)) by (apply Rmult_le_compat; auto using Rabs_pos).
      assert (Q2 : Rabs T * Rabs e <= M * u) by (apply Rmult_le_compat; auto using Rabs_pos).
      rewrite Hgh. lra.
Qed.

(** Up to 2^40 summands. *)
Definition few (n : nat) : Prop := (Z.of_nat n <= 2 ^ 40)%Z.

Lemma few_u n : few n -> INR n * u <= / 2 ^ 13.
Proof.
  unfold few, u. intros H. rewrite INR_IZR_INZ. apply IZR_le in H. change (IZR (2 ^ 40)) with (bpow radix2 40) in H.
  pose proof (bpow_gt_0 radix2 (-53)). apply (Rmult_le_compat_r (bpow radix2 (-53))) in H; [|lra]. rewrite <- bpow_plus in H.
  replace (/ 2 ^ 13) with (bpow radix2 (-13)); [exact H|]. cbn. f_equal. lra.
Qed.
Lemma grow_lin k : few k -> (1 + u) ^ k <= 1 + 2 * INR k * u.
Proof.
  induction k as [|k IH]; intros H; [cbn; lra|]. assert (Hk : few k) by (unfold few in *; lia).
  specialize (IH Hk). pose proof (few_u k Hk) as B. rewrite S_INR. cbn [pow]. pose proof u_pos as Hu. pose proof (pos_INR k).
  assert (/ 2 ^ 13 <= / 2) by (cbn; lra).
  apply Rle_trans with ((1 + u) * (1 + 2 * INR k * u)); [apply Rmult_le_compat_l; lra|].
  assert (u * (2 * (INR k * u)) <= u * 1) by (apply Rmult_le_compat_l; lra). lra.
Qed.
