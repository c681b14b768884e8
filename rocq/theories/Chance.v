(** How likely each sampled value is, counted over the 2^53 equally likely values of
    [random_sample]: binary and categorical sampling follow their probabilities. *)
From Coq Require Import String List ZArith Bool Lia Reals Lra.
From Flocq Require Import Core IEEE754.BinarySingleNaN.
From Verif Require Import PyBase B64 B64More NdArray Rand RandThms Models ModelThms DemoModels FloatSum.
Import ListNotations.
Open Scope R_scope.

(** What numpy's generator makes of 53 random bits: [k / 9007199254740992.0]. *)
Definition unit53 (k : Z) : f64 := fdiv (Z2f k) (Z2f (2 ^ 53)).

(** [q] is the fraction of the 2^53 values of [random_sample] that satisfy [P]. *)
Definition chance (P : f64 -> Prop) (q : R) : Prop :=
  exists l : list Z, NoDup l /\ (forall k, In k l <-> (0 <= k < 2 ^ 53)%Z /\ P (unit53 k)) /\ q = INR (List.length l) * u.

Lemma u_inv : IZR (2 ^ 53) * u = 1.
Proof. unfold u. change (IZR (2 ^ 53)) with (bpow radix2 53). rewrite <- bpow_plus. reflexivity. Qed.

Lemma unit53_spec k : (0 <= k < 2 ^ 53)%Z -> isfin (unit53 k) = true /\ B2R (unit53 k) = IZR k * u.
Proof.
  intros Hk. destruct (Z2f_exact k ltac:(lia)) as [Rk Fk]. destruct (Z2f_exact (2 ^ 53) ltac:(lia)) as [Rd _].
  pose proof u_inv as Hu. pose proof u_pos as Hp. assert (H0 : 0 <= IZR k) by (apply IZR_le; lia). assert (H1 : IZR k < IZR (2 ^ 53)) by (apply IZR_lt; lia).
  assert (Hd : 0 < IZR (2 ^ 53)) by (apply IZR_lt; lia).
  assert (Eq : IZR k / IZR (2 ^ 53) = IZR k * u).
  { apply (Rmult_eq_reg_r (IZR (2 ^ 53))); [|lra]. unfold Rdiv. rewrite !Rmult_assoc, Rinv_l by lra. rewrite (Rmult_comm u), Hu. reflexivity. }
  assert (Er : rnd (IZR k * u) = IZR k * u).
  { unfold rnd. apply round_generic; [apply valid_rnd_N|]. unfold u. change (IZR k * bpow radix2 (-53)) with (F2R (Float radix2 k (-53))).
    apply generic_format_FLT. exists (Float radix2 k (-53)); [reflexivity|change (Z.abs k < 2 ^ 53)%Z; lia|change (3 - 1024 - 53 <= -53)%Z; lia]. }
  assert (Hs : IZR k * u < 1) by (rewrite <- Hu; apply Rmult_lt_compat_r; lra).
  assert (Hs0 : 0 <= IZR k * u) by (apply Rmult_le_pos; lra).
  destruct (fdiv_fin (Z2f k) (Z2f (2 ^ 53)) Fk) as [F E].
  - rewrite Rd. lra.
  - rewrite Rk, Rd, Eq, Er. pose proof big_gt_2_53. rewrite Rabs_pos_eq by lra. assert (1 <= IZR (2 ^ 53)) by (apply IZR_le; lia). lra.
  - rewrite Rk, Rd, Eq, Er in E. split; [exact F|exact E].
Qed.

Lemma chance_interval (P : f64 -> Prop) (a b : Z) : (0 <= a <= b)%Z -> (b <= 2 ^ 53)%Z ->
  (forall k, (0 <= k < 2 ^ 53)%Z -> (P (unit53 k) <-> (a <= k < b)%Z)) -> chance P (IZR (b - a) * u).
Proof.
  intros Ha Hb H. exists (map (fun i => a + Z.of_nat i)%Z (seq 0 (Z.to_nat (b - a)))). split; [|split].
  - apply FinFun.Injective_map_NoDup; [intros x y E; lia|apply seq_NoDup].
  - intros k. rewrite in_map_iff. split.
    + intros (i & <- & Hi). apply in_seq in Hi. split; [lia|]. apply H; lia.
    + intros [Hk HP]. apply H in HP; [|exact Hk]. exists (Z.to_nat (k - a)). split; [lia|]. apply in_seq. lia.
  - rewrite map_length, seq_length, INR_IZR_INZ, Z2Nat.id by lia. reflexivity.
Qed.

Lemma chance_unique P q q' : chance P q -> chance P q' -> q = q'.
Proof.
  intros (l & N & H & ->) (l' & N' & H' & ->). f_equal. f_equal. apply Nat.le_antisymm; apply NoDup_incl_length; try assumption.
  - intros k Hk. apply H', H, Hk.
  - intros k Hk. apply H, H', Hk.
Qed.
Lemma chance_ext P Q q : (forall x, P x <-> Q x) -> chance P q -> chance Q q.
Proof. intros E (l & N & H & Hq). exists l. split; [exact N|]. split; [|exact Hq]. intros k. rewrite H, E. tauto. Qed.

(** The number of random values below a real of the unit interval. *)
Definition below (x : R) : Z := Zceil (x * IZR (2 ^ 53)).
Lemma below_spec x : 0 <= x <= 1 -> (0 <= below x <= 2 ^ 53)%Z /\ x <= IZR (below x) * u < x + u.
Proof.
  intros Hx. unfold below. pose proof u_inv as Hu. pose proof u_pos as Hp. assert (Hd : 0 < IZR (2 ^ 53)) by (apply IZR_lt; lia).
  assert (X0 : 0 <= x * IZR (2 ^ 53)) by (apply Rmult_le_pos; lra).
  assert (X1 : x * IZR (2 ^ 53) <= IZR (2 ^ 53)) by (rewrite <- (Rmult_1_l (IZR (2 ^ 53))) at 2; apply Rmult_le_compat_r; lra).
  split; [split|].
  - apply le_IZR. eapply Rle_trans; [exact X0|apply Zceil_ub].
  - apply Zceil_glb. exact X1.
  - assert (Ex : x = x * IZR (2 ^ 53) * u) by (rewrite Rmult_assoc, Hu; ring).
    pose proof (Zceil_ub (x * IZR (2 ^ 53))) as Hub. pose proof (Zceil_lb (x * IZR (2 ^ 53))) as Hlb.
    split; [rewrite Ex at 1; apply Rmult_le_compat_r; lra|].
    replace (x + u) with ((x * IZR (2 ^ 53) + 1) * u) by (rewrite Rmult_plus_distr_r, <- Ex; ring). apply Rmult_lt_compat_r; lra.
Qed.
Lemma below_iff x k : IZR k * u < x <-> (k < below x)%Z.
Proof.
  unfold below. pose proof u_inv as Hu. pose proof u_pos as Hp. assert (Hd : 0 < IZR (2 ^ 53)) by (apply IZR_lt; lia).
  assert (Ek : IZR k = IZR k * u * IZR (2 ^ 53)) by (rewrite Rmult_assoc, (Rmult_comm u), Hu; ring).
  split; intros H.
  - apply lt_IZR. eapply Rlt_le_trans; [|apply Zceil_ub]. rewrite Ek. apply Rmult_lt_compat_r; assumption.
  - apply Rnot_le_lt. intros Hle. assert (x * IZR (2 ^ 53) <= IZR k) by (rewrite Ek; apply Rmult_le_compat_r; lra).
    apply Zceil_glb in H0. lia.
Qed.
Lemma below_mono x y : x <= y -> (below x <= below y)%Z.
Proof. intros H. unfold below. apply Zceil_le. apply Rmult_le_compat_r; [apply IZR_le; lia|exact H]. Qed.

(** A half-open interval of the unit interval is hit with its width as probability. *)
Lemma chance_between (P : f64 -> Prop) lo hi : 0 <= lo <= hi -> hi <= 1 ->
  (forall x, isfin x = true -> 0 <= B2R x < 1 -> (P x <-> lo <= B2R x < hi)) ->
  exists q, chance P q /\ Rabs (q - (hi - lo)) < u.
Proof.
  intros Hl Hh HP. destruct (below_spec lo ltac:(lra)) as [B1 R1]. destruct (below_spec hi ltac:(lra)) as [B2 R2].
  pose proof (below_mono lo hi ltac:(lra)) as Hm. exists (IZR (below hi - below lo) * u). split.
  - apply chance_interval; [lia|lia|]. intros k Hk. destruct (unit53_spec k Hk) as [F E]. pose proof u_inv as Hu. pose proof u_pos as Hp.
    assert (H0 : 0 <= IZR k) by (apply IZR_le; lia). assert (H1 : IZR k < IZR (2 ^ 53)) by (apply IZR_lt; lia).
    rewrite HP; [|exact F|].
    + rewrite E. pose proof (below_iff lo k) as I1. pose proof (below_iff hi k) as I2. split.
      * intros [L H]. split; [|apply I2, H]. apply Z.nlt_ge. intros C. apply I1 in C. lra.
      * intros [L H]. split; [|apply I2, H]. apply Rnot_lt_le. intros C. apply I1 in C. lia.
    + rewrite E. split; [apply Rmult_le_pos; lra|]. rewrite <- Hu. apply Rmult_lt_compat_r; lra.
  - rewrite minus_IZR. replace ((IZR (below hi) - IZR (below lo)) * u - (hi - lo)) with ((IZR (below hi) * u - hi) - (IZR (below lo) * u - lo)) by ring.
    apply Rabs_def1; lra.
Qed.

(* ------------------------------------------------------------------ *)
(** ** Binary sampling *)

Lemma chance_lt p : prob p -> exists q, chance (fun x => flt x p = true) q /\ B2R p <= q < B2R p + u.
Proof.
  intros Hp. destruct (prob_R p Hp) as [Fp Rp]. destruct (below_spec (B2R p) Rp) as [B1 R1]. exists (IZR (below (B2R p)) * u). split; [|exact R1].
  rewrite <- (Z.sub_0_r (below (B2R p))). apply chance_interval; [lia|lia|]. intros k Hk. destruct (unit53_spec k Hk) as [F E].
  rewrite (flt_fin _ _ F Fp), E, below_iff. lia.
Qed.

(* ------------------------------------------------------------------ *)
(** ** Running sums *)

Lemma prob_mag l : Forall prob l -> Rmag l = Rtot l.
Proof.
  unfold Rmag, Rtot, Rsum. induction 1 as [|x l Hx Hl IH]; cbn [map fold_right]; [reflexivity|].
  destruct (prob_R x Hx) as [_ R]. rewrite Rabs_pos_eq by lra. cbn in *. lra.
Qed.
Lemma prob_tot l : Forall prob l -> 0 <= Rtot l <= INR (List.length l).
Proof.
  unfold Rtot, Rsum. induction 1 as [|x l Hx Hl IH]; cbn [map fold_right List.length]; [cbn; lra|].
  destruct (prob_R x Hx) as [_ R]. rewrite S_INR. cbn in *. lra.
Qed.

Lemma cumsum_from_added l : forall l0 a i, added l0 a -> (i < List.length l)%nat -> added (l0 ++ firstn (S i) l) (nth i (cumsum_from a l) fnan).
Proof.
  induction l as [|x l IH]; intros l0 a i Ha Hi; cbn [List.length] in Hi; [lia|].
  assert (Hx : added (l0 ++ [x]) (fadd a x)) by (eapply added_plus; [apply Permutation.Permutation_refl|exact Ha|constructor]).
  destruct i as [|i]; cbn [cumsum_from nth].
  - exact Hx.
  - change (firstn (S (S i)) (x :: l)) with (x :: firstn (S i) l). replace (l0 ++ x :: firstn (S i) l) with ((l0 ++ [x]) ++ firstn (S i) l) by (rewrite <- app_assoc; reflexivity).
    apply IH; [exact Hx|lia].
Qed.
Lemma cumsum_added l i : (i < List.length l)%nat -> added (firstn (S i) l) (nth i (cumsum l) fnan).
Proof.
  destruct l as [|x l]; intros Hi; cbn [List.length] in Hi; [lia|]. destruct i as [|i]; cbn [cumsum nth].
  - constructor.
  - change (firstn (S (S i)) (x :: l)) with ([x] ++ firstn (S i) l). apply cumsum_from_added; [constructor|lia].
Qed.

Lemma Forall_firstn {A} (P : A -> Prop) n l : Forall P l -> Forall P (firstn n l).
Proof. intros H. apply Forall_forall. intros x Hx. rewrite Forall_forall in H. apply H. rewrite <- (firstn_skipn n l). apply in_or_app. left. exact Hx. Qed.

Lemma few_huge (n : nat) : few n -> (1 + u) ^ n * INR n <= huge.
Proof.
  intros Hn. pose proof (grow_lin n Hn) as G. pose proof (few_u n Hn) as U. pose proof (pos_INR n) as P. assert (/ 2 ^ 13 <= / 2) by (cbn; lra).
  assert (N : INR n <= bpow radix2 40). { unfold few in Hn. apply IZR_le in Hn. rewrite <- INR_IZR_INZ in Hn. exact Hn. }
  assert (B : 2 * bpow radix2 40 <= huge). { change 2 with (bpow radix2 1). rewrite <- bpow_plus. unfold huge. apply bpow_le. lia. }
  apply Rle_trans with (2 * INR n); [|lra]. apply Rmult_le_compat_r; lra.
Qed.

Lemma cumsum_near l i : few (List.length l) -> Forall prob l -> (i < List.length l)%nat ->
  let t := Rtot (firstn (S i) l) in Rabs (B2R (nth i (cumsum l) fnan) - t) <= 2 * INR (List.length l) * u * t.
Proof.
  intros Hf Hp Hi t. pose proof (cumsum_added l i Hi) as A. pose proof (Forall_firstn prob (S i) l Hp) as Hp'.
  assert (Hlen : List.length (firstn (S i) l) = S i) by (rewrite firstn_length; lia).
  destruct (added_err _ _ A) as [_ E].
  - apply Forall_forall. intros x Hx. rewrite Forall_forall in Hp'. apply (prob_R x), Hp', Hx.
  - rewrite prob_mag by exact Hp'. pose proof (prob_tot _ Hp') as T. rewrite Hlen in *.
    eapply Rle_trans; [|apply (few_huge (S i))]; [|unfold few in *; lia]. apply Rmult_le_compat_l; [pose proof (grow_1 (S i)); lra|lra].
  - rewrite prob_mag in E by exact Hp'. pose proof (prob_tot _ Hp') as T. fold t in E, T. eapply Rle_trans; [exact E|].
    apply Rmult_le_compat_r; [lra|]. rewrite Hlen. cbn [Nat.pred]. pose proof (grow_le i (List.length l) ltac:(lia)). pose proof (grow_lin _ Hf). lra.
Qed.

(** The quotient of two nearly exact numbers. *)
Lemma ratio_near (s t S T h : R) : 0 <= t <= T -> 0 < T -> 0 <= h <= / 4 -> Rabs (s - t) <= h * t -> Rabs (S - T) <= h * T ->
  Rabs (s / S - t / T) <= 3 * h.
Proof.
  intros Ht HT Hh Hs HS. assert (Hp : 3 / 4 * T <= S).
  { apply Rabs_le_inv in HS. assert (h * T <= / 4 * T) by (apply Rmult_le_compat_r; lra). lra. }
  assert (HSp : 0 < S) by lra.
  replace (s / S - t / T) with (((s - t) - t / T * (S - T)) / S) by (field; lra).
  assert (Hr : 0 <= t / T <= 1).
  { split; [apply Rmult_le_pos; [lra|left; apply Rinv_0_lt_compat; lra]|]. apply (Rmult_le_reg_r T); [lra|]. unfold Rdiv. rewrite Rmult_assoc, Rinv_l by lra. lra. }
  unfold Rdiv at 1. rewrite Rabs_mult, (Rabs_pos_eq (/ S)) by (left; apply Rinv_0_lt_compat; lra).
  apply (Rmult_le_reg_r S); [lra|]. rewrite Rmult_assoc, Rinv_l, Rmult_1_r by lra.
  assert (A1 : Rabs (s - t - t / T * (S - T)) <= h * t + 1 * (h * T)).
  { eapply Rle_trans; [apply Rabs_triang|]. rewrite Rabs_Ropp, Rabs_mult, (Rabs_pos_eq (t / T)) by lra.
    apply Rplus_le_compat; [exact Hs|]. apply Rmult_le_compat; [lra|apply Rabs_pos|lra|exact HS]. }
  assert (A2 : h * t <= h * T) by (apply Rmult_le_compat_l; lra).
  assert (A3 : 3 * h * (3 / 4 * T) <= 3 * h * S) by (apply Rmult_le_compat_l; lra).
  assert (0 <= h * T) by (apply Rmult_le_pos; lra). lra.
Qed.

(* ------------------------------------------------------------------ *)
(** ** The inverse-cdf lookup *)

Section Choice.
Variable p : list f64.
Hypothesis Hfew : few (List.length p).
Hypothesis Hp : Forall prob p.
Hypothesis Hpos : exists x, In x p /\ 0 < B2R x.

Lemma few_53 : (Z.of_nat (List.length p) <= 2 ^ 53)%Z.
Proof. unfold few in Hfew. lia. Qed.

Lemma tot_pos : 0 < Rtot p.
Proof.
  destruct Hpos as (x & Hx & Hx0). clear Hfew Hpos. unfold Rtot, Rsum. revert Hx. induction Hp as [|y l Hy Hl IH]; intros [].
  - subst y. pose proof (prob_tot l Hl) as T. unfold Rtot, Rsum in T. cbn in *. lra.
  - destruct (prob_R y Hy) as [_ R]. specialize (IH Hl H). cbn in *. lra.
Qed.

Definition share (i : nat) : R := Rtot (firstn i p) / Rtot p.

(** The cumulated probability after the first [i] positions, as numpy has it; 0 before the first. *)
Definition reach (i : nat) : R := match i with O => 0 | S j => B2R (nth j (cdf p) fnan) end.

Lemma eta_u : eta <= u.
Proof. unfold eta, u. apply bpow_le. lia. Qed.
Lemma h_small : 0 <= 2 * INR (List.length p) * u <= / 4.
Proof.
  pose proof (few_u _ Hfew). pose proof u_pos. pose proof (pos_INR (List.length p)). assert (/ 2 ^ 13 <= / 8) by (cbn; lra).
  assert (0 <= INR (List.length p) * u) by (apply Rmult_le_pos; lra). lra.
Qed.
Lemma share_bounds i : (i <= List.length p)%nat -> 0 <= share i <= 1 /\ 0 <= Rtot (firstn i p) <= Rtot p.
Proof.
  intros Hi. pose proof tot_pos as T. assert (H : 0 <= Rtot (firstn i p) <= Rtot p).
  { split; [apply prob_tot, Forall_firstn, Hp|]. 
    assert (E : Rtot p = Rtot (firstn i p) + Rtot (skipn i p)) by (unfold Rtot; rewrite <- Rsum_app, <- map_app, firstn_skipn; reflexivity).
    assert (0 <= Rtot (skipn i p)); [|lra]. apply prob_tot. rewrite <- (firstn_skipn i p) in Hp. apply Forall_app in Hp. apply Hp. }
  split; [|exact H]. unfold share. split; [apply Rmult_le_pos; [lra|left; apply Rinv_0_lt_compat; lra]|].
  apply (Rmult_le_reg_r (Rtot p)); [lra|]. unfold Rdiv. rewrite Rmult_assoc, Rinv_l by lra. lra.
Qed.

Lemma reach_near i : (i <= List.length p)%nat -> Rabs (reach i - share i) <= 6 * INR (List.length p) * u + 2 * u.
Proof.
  intros Hi. pose proof h_small as Hh. pose proof u_pos as Hu. destruct i as [|j]; cbn [reach].
  - assert (E0 : share 0 = 0) by (unfold share, Rdiv; change (Rtot (firstn 0 p)) with 0; apply Rmult_0_l). rewrite E0, Rminus_0_r, Rabs_R0. lra.
  - destruct (cdf_facts p few_53 Hp Hpos j Hi) as [_ E]. rewrite E. destruct (share_bounds (S j) Hi) as [Sb Tb].
    pose proof (cumsum_near p j Hfew Hp Hi) as N1. cbv zeta in N1.
    assert (Hn : (List.length p - 1 < List.length p)%nat) by lia.
    pose proof (cumsum_near p (List.length p - 1) Hfew Hp Hn) as N2. cbv zeta in N2.
    replace (S (List.length p - 1)) with (List.length p) in N2 by lia. rewrite firstn_all in N2.
    assert (El : nth (List.length p - 1) (cumsum p) fnan = last (cumsum p) fnan) by (rewrite last_nth, cumsum_length; reflexivity).
    rewrite El in N2. set (s := B2R (nth j (cumsum p) fnan)) in *. set (S1 := B2R (last (cumsum p) fnan)) in *.
    pose proof (ratio_near s (Rtot (firstn (S j) p)) S1 (Rtot p) _ Tb tot_pos Hh N1 N2) as Q. fold (share (S j)) in Q.
    assert (Hc : Rabs (rnd (s / S1) - s / S1) <= 2 * u).
    { assert (Q1 : 0 <= s / S1 <= 1).
      { destruct (total_facts p few_53 Hp Hpos) as [_ TT]. fold S1 in TT. destruct (cumsum_facts p few_53 Hp j Hi) as (_ & C1 & _). cbv zeta in C1. fold s in C1.
        pose proof (cumsum_mono p few_53 Hp j (List.length p - 1) ltac:(lia) Hn) as M. rewrite El in M. fold s S1 in M.
        split; [apply Rmult_le_pos; [lra|left; apply Rinv_0_lt_compat; lra]|]. apply (Rmult_le_reg_r S1); [lra|]. unfold Rdiv. rewrite Rmult_assoc, Rinv_l by lra. lra. }
      destruct (rnd_rel (s / S1)) as (e & t & He & Ht & ->). replace (s / S1 * (1 + e) + t - s / S1) with (s / S1 * e + t) by ring.
      eapply Rle_trans; [apply Rabs_triang|]. rewrite Rabs_mult, (Rabs_pos_eq (s / S1)) by lra. pose proof eta_u.
      assert (s / S1 * Rabs e <= 1 * u) by (apply Rmult_le_compat; [lra|apply Rabs_pos|lra|exact He]). lra. }
    replace (rnd (s / S1) - share (S j)) with ((rnd (s / S1) - s / S1) + (s / S1 - share (S j))) by ring.
    eapply Rle_trans; [apply Rabs_triang|]. lra.
Qed.

Lemma reach_mono i j : (i <= j <= List.length p)%nat -> reach i <= reach j.
Proof.
  intros H. destruct i as [|i]; destruct j as [|j]; cbn [reach]; [lra| |lia|].
  - destruct (cdf_facts p few_53 Hp Hpos j ltac:(lia)) as [_ ->]. destruct (cumsum_facts p few_53 Hp j ltac:(lia)) as (_ & C & _). cbv zeta in C.
    destruct (total_facts p few_53 Hp Hpos) as [_ T]. rewrite <- rnd_0. apply rnd_le. apply Rmult_le_pos; [lra|]. left. apply Rinv_0_lt_compat. lra.
  - apply (cdf_mono p few_53 Hp Hpos); lia.
Qed.
Lemma reach_last : reach (List.length p) = 1.
Proof.
  pose proof (n_pos p few_53 Hp Hpos). pose proof (cdf_last p few_53 Hp Hpos) as L. destruct (List.length p) as [|n] eqn:E; [lia|].
  cbn [reach]. replace (S n - 1)%nat with n in L by lia. exact L.
Qed.

(** Position [i] is looked up exactly by the draws between two cumulated probabilities. *)
Lemma lookup_iff x i : isfin x = true -> 0 <= B2R x < 1 -> (i < List.length p)%nat ->
  (searchsorted_right (cdf p) x = i <-> reach i <= B2R x < reach (S i)).
Proof.
  intros Fx Rx Hi.
  assert (Hlt : forall i, (i < List.length p)%nat -> (flt x (nth i (cdf p) fnan) = true <-> B2R x < B2R (nth i (cdf p) fnan))).
  { intros k Hk. apply flt_fin; [exact Fx|]. apply (cdf_facts p few_53 Hp Hpos k Hk). }
  pose proof (cdf_length p) as Hcl.
  destruct (bsearch_spec x (cdf p)) with (fuel := S (List.length (cdf p))) (lo := 0%nat) (hi := List.length (cdf p)) as (Hk & Hbefore & Hat); try lia.
  { intros a b Hab Hb. rewrite Hcl in Hb. rewrite !Hlt by lia. pose proof (cdf_mono p few_53 Hp Hpos a b Hab Hb). lra. }
  fold (searchsorted_right (cdf p) x) in *. set (k := searchsorted_right (cdf p) x) in *. rewrite Hcl in *.
  assert (R1 : forall j, (j < k)%nat -> (j < List.length p)%nat -> B2R (nth j (cdf p) fnan) <= B2R x).
  { intros j Hj Hj2. apply Rnot_lt_le. intros C. apply (Hlt j Hj2) in C. rewrite (Hbefore j Hj) in C. discriminate. }
  assert (R2 : (k < List.length p)%nat -> B2R x < B2R (nth k (cdf p) fnan)) by (intros C; apply (Hlt k C), Hat, C).
  split.
  - intros <-. split; [|exact (R2 Hi)]. destruct k as [|j]; cbn [reach]; [lra|]. apply R1; lia.
  - intros [L H]. cbn [reach] in H. destruct (lt_eq_lt_dec k i) as [[C|C]|C]; [exfalso|exact C|exfalso].
    + specialize (R2 ltac:(lia)). destruct i as [|i]; [lia|]. cbn [reach] in L. pose proof (cdf_mono p few_53 Hp Hpos k i ltac:(lia) ltac:(lia)). lra.
    + specialize (R1 i C Hi). lra.
Qed.

Lemma share_step i : (i < List.length p)%nat -> share (S i) - share i = B2R (nth i p fnan) / Rtot p.
Proof.
  intros Hi. unfold share. assert (E : Rtot (firstn (S i) p) = Rtot (firstn i p) + B2R (nth i p fnan)).
  { clear - Hi. revert i Hi. unfold Rtot, Rsum. induction p as [|x l IH]; intros i Hi; cbn [List.length] in Hi; [lia|].
    destruct i as [|i]; [cbn; lra|]. specialize (IH i ltac:(lia)). cbn [firstn map fold_right nth] in *. cbn in *. lra. }
  rewrite E. unfold Rdiv. ring.
Qed.

Lemma chance_lookup i : (i < List.length p)%nat ->
  exists q, chance (fun x => searchsorted_right (cdf p) x = i) q /\
    Rabs (q - B2R (nth i p fnan) / Rtot p) <= INR (List.length p) * bpow radix2 (-48).
Proof.
  intros Hi. destruct (chance_between (fun x => searchsorted_right (cdf p) x = i) (reach i) (reach (S i))) as (q & Hq & Eq).
  - split; [pose proof (reach_mono 0 i ltac:(lia)) as H; exact H|apply reach_mono; lia].
  - rewrite <- reach_last. apply reach_mono. lia.
  - intros x Fx Rx. apply lookup_iff; assumption.
  - exists q. split; [exact Hq|]. rewrite <- (share_step i Hi). pose proof (reach_near i ltac:(lia)) as N1. pose proof (reach_near (S i) Hi) as N2.
    replace (q - (share (S i) - share i)) with ((q - (reach (S i) - reach i)) + ((reach (S i) - share (S i)) - (reach i - share i))) by ring.
    eapply Rle_trans; [apply Rabs_triang|]. unfold Rminus at 3. pose proof (Rabs_triang (reach (S i) - share (S i)) (- (reach i - share i))) as T. rewrite Rabs_Ropp in T.
    assert (B : bpow radix2 (-48) = 32 * u) by (unfold u; change 32 with (bpow radix2 5); rewrite <- bpow_plus; reflexivity). rewrite B.
    assert (1 <= INR (List.length p)) by (apply (le_INR 1); lia). pose proof u_pos.
    assert (1 * u <= INR (List.length p) * u) by (apply Rmult_le_compat_r; lra). unfold Rminus in *. lra.
Qed.
End Choice.

(** 0.5 splits the random values in two halves. *)
Lemma chance_half : chance (fun x => flt x (lit 1 (-1)) = true) (1 / 2).
Proof.
  destruct (lit_R 1 (-1) (1 / 2) ltac:(lia) ltac:(lia) ltac:(cbn; lra)) as [Eh Fh].
  assert (Ehalf : 1 / 2 = IZR (2 ^ 52 - 0) * u).
  { pose proof u_inv as Hu. assert (Hd : IZR (2 ^ 53) = 2 * IZR (2 ^ 52)) by (rewrite <- mult_IZR; reflexivity). rewrite Hd in Hu. rewrite Z.sub_0_r. lra. }
  rewrite Ehalf at 1. apply chance_interval; [lia|lia|]. intros k Hk. destruct (unit53_spec k Hk) as [F E]. rewrite (flt_fin _ _ F Fh), E, Eh.
      pose proof u_inv as Hu. pose proof u_pos as Hp. assert (Hd : IZR (2 ^ 53) = 2 * IZR (2 ^ 52)) by (rewrite <- mult_IZR; reflexivity).
    split; intros H.
    + split; [lia|]. apply lt_IZR, (Rmult_lt_reg_r u); [exact Hp|]. rewrite Hd in Hu. lra.
    + assert (IZR k < IZR (2 ^ 52)) by (apply IZR_lt; lia). assert (IZR k * u < IZR (2 ^ 52) * u) by (apply Rmult_lt_compat_r; lra). rewrite Hd in Hu. lra.
Qed.
