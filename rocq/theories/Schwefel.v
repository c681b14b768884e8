(** The modified Schwefel function: bounds of z sin(sqrt |z|). *)
From Coq Require Import List ZArith Bool Lia Reals Lra Psatz.
From Flocq Require Import Core.
From Verif Require Import PyBase Bench BenchThms BenchCec.
Import ListNotations.
Open Scope R_scope.

(** ** pi *)
Lemma PI_bounds : 314159265 / 10 ^ 8 < PI < 314159266 / 10 ^ 8.
Proof.
  destruct (PI_2_3_7_ineq 4) as [H1 H2]. unfold tg_alt, PI_2_3_7_tg, Ratan_seq in H1, H2. cbn [sum_f_R0 Nat.mul Nat.add] in H1, H2.
  repeat rewrite INR_IZR_INZ in H1. repeat rewrite INR_IZR_INZ in H2.
  cbn [Z.of_nat Pos.of_succ_nat Pos.succ Pos.mul Pos.add pow Nat.mul Nat.add] in H1, H2. split; lra.
Qed.

(** ** Main bound *)
Definition centre : R := 13 / 2 * PI.
Lemma centre_bounds : 2042035222 / 10 ^ 8 < centre < 2042035230 / 10 ^ 8.
Proof. unfold centre. pose proof PI_bounds. lra. Qed.
Lemma sin_centre t : sin (centre + t) = cos t.
Proof.
  unfold centre. replace (13 / 2 * PI + t) with (PI / 2 + t + 2 * INR 3 * PI) by (cbn; field). rewrite sin_period. rewrite (cos_sin t). f_equal.
Qed.
Lemma cos_upper t : -2 <= t <= 2 -> cos t <= 1 - t ^ 2 / 2 + t ^ 4 / 24.
Proof.
  intros [H1 H2]. destruct (pre_cos_bound t 0 H1 H2) as [_ H]. unfold cos_approx, cos_term in H. cbn in H. lra.
Qed.
Lemma cos_lower t : -2 <= t <= 2 -> 1 - t ^ 2 / 2 + t ^ 4 / 24 - t ^ 6 / 720 <= cos t.
Proof.
  intros [H1 H2]. destruct (pre_cos_bound t 1 H1 H2) as [H _]. unfold cos_approx, cos_term in H. cbn in H. lra.
Qed.

Lemma poly_bound t : -44 / 100 <= t <= 1 ->
  (2042035230 / 10 ^ 8 + t) ^ 2 * (1 - t ^ 2 / 2 + t ^ 4 / 24) <= 4189829 / 10000 - 8 / 10 ^ 6.
Proof.
  intros H. set (u := t - 971 / 10000). assert (Et : t = u + 971 / 10000) by (unfold u; ring). assert (Hu : -54 / 100 <= u <= 91 / 100) by (unfold u; lra). rewrite Et. clear H Et. clearbody u.
  assert (U2 : 0 <= u ^ 2 <= 9 / 10) by nra.
  assert (U3 : u ^ 3 <= 9 / 10) by (replace (u ^ 3) with (u * u ^ 2) by ring; nra).
  assert (U4 : u ^ 4 <= 9 / 10) by (replace (u ^ 4) with (u ^ 2 * u ^ 2) by ring; nra).
  assert (A : 0 <= u ^ 2 * (100 + (82230273517551990341 / 6000000000000000000) * u - (14165345876313843 / 800000000000000) * u ^ 2 - (69038841 / 40000000) * u ^ 3 - (1 / 24) * u ^ 4)) by (apply Rmult_le_pos; lra).
  assert (B : 0 <= (4498944131649973329376111 / 40000000000000000000000) * u ^ 2 - (6011597492570046529664573 / 200000000000000000000000000) * u + (76521162945584256266135351 / 24000000000000000000000000000000)).
  { assert (C : 0 <= (u - (6011597492570046529664573 / 44989441316499733293761110000)) ^ 2) by apply sq_nonneg. lra. }
  lra.
Qed.

(** s^2 sin s for 0 <= s^2 <= 500 *)
Lemma peak s : 0 <= s -> s ^ 2 <= 500 -> s ^ 2 * sin s <= 4189829 / 10000 - 8 / 10 ^ 6.
Proof.
  intros H0 H5. assert (Hs : s <= 2237 / 100) by nra. pose proof (SIN_bound s) as [Sl Su]. destruct (Rle_dec s 20) as [H|H]; [nra|].
  pose proof centre_bounds as [C1 C2]. set (t := s - centre). assert (Es : s = centre + t) by (unfold t; ring).
  assert (Ht : -44 / 100 <= t <= 2) by (unfold t; lra). assert (Ec : sin s = cos t) by (rewrite Es; apply sin_centre). rewrite Ec. clear Ec.
  destruct (Rle_dec t 1) as [H1|H1].
  - pose proof (cos_upper t ltac:(lra)) as HC. set (p := 1 - t ^ 2 / 2 + t ^ 4 / 24) in *.
    assert (Hp : 0 <= p). { unfold p. assert (t ^ 2 <= 1) by nra. assert (0 <= t ^ 4) by (replace (t ^ 4) with ((t ^ 2) ^ 2) by ring; apply sq_nonneg). lra. }
    pose proof (poly_bound t ltac:(lra)) as HB. fold p in HB. eapply Rle_trans; [|exact HB].
    apply Rle_trans with (s ^ 2 * p); [apply Rmult_le_compat_l; [apply sq_nonneg|exact HC]|].
    apply Rmult_le_compat_r; [exact Hp|]. apply pow_incr. lra.
  - pose proof (cos_upper t ltac:(lra)) as HC. assert (cos t <= 8 / 10).
    { eapply Rle_trans; [exact HC|]. replace (t ^ 4) with (t ^ 2 * t ^ 2) by ring. assert (1 <= t ^ 2 <= 4) by nra. nra. }
    assert (s ^ 2 * cos t <= s ^ 2 * (8 / 10)) by (apply Rmult_le_compat_l; [apply sq_nonneg|assumption]). lra.
Qed.
(** the other sign *)
Lemma trough s : 0 <= s -> s ^ 2 <= 500 -> - (s ^ 2 * sin s) <= 400.
Proof.
  intros H0 H5. assert (Hs : s <= 2237 / 100) by nra. pose proof (SIN_bound s) as [Sl Su]. destruct (Rle_dec s 20) as [H|H]; [nra|].
  pose proof PI_bounds as [P1 P2]. assert (E : sin s = - sin (s - 7 * PI)).
  { replace s with (s - 7 * PI + PI + 2 * INR 3 * PI) at 1 by (cbn; ring). rewrite sin_period, neg_sin. reflexivity. }
  assert (sin (s - 7 * PI) <= 1 / 2).
  { destruct (Rle_dec (s - 7 * PI) 0) as [G|G].
    - assert (0 <= sin (- (s - 7 * PI))) by (apply sin_ge_0; lra). rewrite sin_neg in H1. lra.
    - pose proof (sin_lt_x (s - 7 * PI) ltac:(lra)). lra. }
  rewrite E. assert (s ^ 2 * sin (s - 7 * PI) <= s ^ 2 * (1 / 2)) by (apply Rmult_le_compat_l; [apply sq_nonneg|assumption]). lra.
Qed.

Lemma ppow_half b : 0 <= b -> ppow b (1 / 2) = sqrt b.
Proof.
  intros H. unfold ppow. destruct (Req_EM_T b 0) as [->|E]; [rewrite sqrt_0; reflexivity|]. replace (1 / 2) with (/ 2) by field. apply Rpower_sqrt. lra.
Qed.
Lemma pmod_range z : 0 <= pmod z 500 < 500.
Proof.
  unfold pmod. pose proof (Zfloor_lb (z / 500)). pose proof (Zfloor_ub (z / 500)). replace z with (500 * (z / 500)) at 1 3 by field. lra.
Qed.
(** remainders of z and -z *)
Lemma pmod_opp z : (pmod z 500 = 0 /\ pmod (- z) 500 = 0) \/ pmod z 500 + pmod (- z) 500 = 500.
Proof.
  pose proof (pmod_range z) as H1. pose proof (pmod_range (- z)) as H2. unfold pmod in *.
  set (a := Zfloor (z / 500)) in *. set (b := Zfloor (- z / 500)) in *.
  assert (E : - 500 * IZR a + - 500 * IZR b = 500 * IZR (- a - b)) by (rewrite minus_IZR, opp_IZR; ring).
  assert (G : (- a - b = 0 \/ - a - b = 1)%Z).
  { assert (-1 < IZR (- a - b) < 2) by lra. assert (-1 < - a - b)%Z by (apply lt_IZR; lra). assert (- a - b < 2)%Z by (apply lt_IZR; lra). lia. }
  destruct G as [G|G]; rewrite G in E; [left|right]; lra.
Qed.

(** every value of the auxiliary function is below the constant of the definition *)
Lemma mod_sch_upper z dim : 10 <= dim -> mod_sch_f z dim <= 4189829 / 10000 - 8 / 10 ^ 6.
Proof.
  intros Hd. unfold mod_sch_f. destruct (Rle_dec (Rabs z) 500) as [H|H].
  - rewrite (ppow_half _ (Rabs_pos z)). pose proof (sqrt_pos (Rabs z)) as Q. pose proof (sqrt_sqrt (Rabs z) (Rabs_pos z)) as E. set (s := sqrt (Rabs z)) in *.
    assert (Es : s ^ 2 = Rabs z) by (rewrite <- E; ring). destruct (Rle_dec 0 z) as [Hz|Hz].
    + rewrite Rabs_pos_eq in Es by lra. rewrite <- Es. apply peak; [exact Q|]. rewrite Es. rewrite Rabs_pos_eq in H by lra. exact H.
    + rewrite Rabs_left in Es by lra. rewrite Rabs_left in H by lra. replace (z * sin s) with (- (s ^ 2 * sin s)) by (rewrite Es; ring).
      eapply Rle_trans; [apply trough; [exact Q|rewrite Es; exact H]|lra].
  - destruct (Rlt_dec 500 z) as [Hz|Hz].
    + pose proof (pmod_range z) as HP. set (q := pmod z 500) in *. rewrite (Rabs_pos_eq (500 - q)) by lra. pose proof (sqrt_pos (500 - q)) as Q. pose proof (sqrt_sqrt (500 - q) ltac:(lra)) as E. set (s := sqrt (500 - q)) in *.
      assert (Es : s ^ 2 = 500 - q) by (rewrite <- E; ring). rewrite <- Es. assert (s ^ 2 * sin s <= 4189829 / 10000 - 8 / 10 ^ 6) by (apply peak; [exact Q|lra]).
      pose proof (sq_nonneg (z - 500)) as HQ. assert (0 <= (z - 500) ^ 2 / 10000 * dim) by (apply Rmult_le_pos; lra). lra.
    + assert (Hn : z < -500) by (unfold Rabs in H; destruct (Rcase_abs z); lra). rewrite (Rabs_left z) by lra.
      pose proof (pmod_range z) as HP. pose proof (pmod_range (- z)) as HQ. set (b := sin (sqrt (Rabs (pmod (- z) 500 - 500)))). assert (Hb : -1 <= b <= 1) by apply SIN_bound.
      assert (HW : pmod (- z) 500 <= - z - 500).
      { unfold pmod. assert (1 <= Zfloor (- z / 500))%Z by (apply Zfloor_lub; apply Rmult_le_reg_r with 500; [lra|]; unfold Rdiv; rewrite Rmult_assoc, Rinv_l by lra; lra). apply IZR_le in H0. lra. }
      set (w := - z - 500) in *. replace ((z + 500) ^ 2) with (w ^ 2) by (unfold w; ring).
      assert (HD : w ^ 2 / 10000 * 10 <= w ^ 2 / 10000 * dim) by (apply Rmult_le_compat_l; [pose proof (sq_nonneg w); lra|exact Hd]).
      destruct (pmod_opp z) as [[E1 E2]|E].
      * assert (W5 : 500 <= w).
        { unfold w. unfold pmod in E2. assert (Ez : - z = 500 * IZR (Zfloor (- z / 500))) by lra. assert (1 < Zfloor (- z / 500))%Z by (apply lt_IZR; lra). assert (2 <= Zfloor (- z / 500))%Z by lia. apply IZR_le in H1. lra. }
        rewrite E1. assert ((0 - 500) * b <= 500) by nra. assert (500 ^ 2 <= w ^ 2) by (apply pow_incr; lra). lra.
      * set (q := pmod (- z) 500) in *. replace (pmod z 500 - 500) with (- q) by lra. assert (- q * b <= q) by nra. assert (q ^ 2 <= w ^ 2) by (apply pow_incr; lra). nra.
Qed.

(** ** The sum *)
Lemma mod_schwefel_sum x : mod_schwefel x = rsum (map (fun i => 4189829 / 10000 - mod_sch_f (get i x + offset) (INR (length x))) (range 0 (length x))).
Proof.
  unfold mod_schwefel. assert (G : forall (f : nat -> R) l a, fold_left (fun r i => r - f i) l a = a - rsum (map f l)).
  { intros f l. induction l as [|i l IH]; intros a; cbn; [ring|]. rewrite IH. ring. }
  rewrite (G (fun i => mod_sch_f (get (i - 1) x + offset) (INR (length x)))). rewrite (shift_range (fun i => mod_sch_f (get i x + offset) (INR (length x)))).
  rewrite (rsum_ext (fun i => 4189829 / 10000 - mod_sch_f (get i x + offset) (INR (length x))) (fun i => 4189829 / 10000 + -1 * mod_sch_f (get i x + offset) (INR (length x)))) by (intros; ring).
  rewrite rsum_plus, rsum_const, rsum_scal, range_length, Nat.sub_0_r. ring.
Qed.
Theorem schwefel_above d x : (10 <= d)%nat -> length x = d -> 0 < mod_schwefel x.
Proof.
  intros Hd HL. rewrite mod_schwefel_sum, HL. assert (D : 10 <= INR d) by (replace 10 with (INR 10) by (cbn; ring); apply le_INR; exact Hd).
  apply Rlt_le_trans with (rsum (map (fun _ => 8 / 10 ^ 6) (range 0 d))); [rewrite rsum_const, range_length, Nat.sub_0_r; lra|].
  apply rsum_le. intros i _. pose proof (mod_sch_upper (get i x + offset) (INR d) D). lra.
Qed.

(** at the shift *)
Lemma offset_root : 2051752290 / 10 ^ 8 < sqrt offset < 2051752291 / 10 ^ 8.
Proof.
  unfold offset. split.
  - rewrite <- (sqrt_pow2 (2051752290 / 10 ^ 8)) by lra. apply sqrt_lt_1_alt. lra.
  - rewrite <- (sqrt_pow2 (2051752291 / 10 ^ 8)) by lra. apply sqrt_lt_1_alt. lra.
Qed.
Lemma mod_sch_offset dim : 4189829 / 10000 - 2 / 10 ^ 5 <= mod_sch_f offset dim.
Proof.
  unfold mod_sch_f. assert (Ho : 0 < offset < 500) by (unfold offset; lra). rewrite Rabs_pos_eq by lra. destruct (Rle_dec offset 500) as [_|H]; [|lra].
  rewrite (ppow_half offset) by lra. pose proof offset_root as [R1 R2]. set (s := sqrt offset) in *. pose proof centre_bounds as [C1 C2]. set (t := s - centre).
  assert (Es : s = centre + t) by (unfold t; ring). rewrite Es, sin_centre. assert (Ht : 9717060 / 10 ^ 8 < t < 9717069 / 10 ^ 8) by (unfold t; lra).
  pose proof (cos_lower t ltac:(lra)) as HC. eapply Rle_trans; [|apply Rmult_le_compat_l; [lra|exact HC]]. clear HC.
  assert (T2 : (9717060 / 10 ^ 8) ^ 2 <= t ^ 2 <= (9717069 / 10 ^ 8) ^ 2) by (split; apply pow_incr; lra).
  assert (T4 : (9717060 / 10 ^ 8) ^ 4 <= t ^ 4) by (apply pow_incr; lra). assert (T6 : t ^ 6 <= (9717069 / 10 ^ 8) ^ 6) by (apply pow_incr; lra).
  unfold offset. lra.
Qed.
Theorem schwefel_shift d : (10 <= d)%nat -> 0 < mod_schwefel (repeat 0 d) <= INR d * (2 / 10 ^ 5).
Proof.
  intros Hd. split; [apply (schwefel_above d _ Hd (repeat_length _ _))|]. rewrite mod_schwefel_sum, repeat_length.
  replace (INR d * (2 / 10 ^ 5)) with (rsum (map (fun _ => 2 / 10 ^ 5) (range 0 d))) by (rewrite rsum_const, range_length, Nat.sub_0_r; ring).
  apply rsum_le. intros i Hi. apply in_range in Hi. rewrite get_repeat, Rplus_0_l by lia. pose proof (mod_sch_offset (INR d)). lra.
Qed.

Theorem cec_schwefel D dim d : shipped D -> new_cec dim = Ok d -> (2 <= d)%nat -> forall k, k = 10%nat \/ k = 11%nat ->
  (forall x, length x = d -> exists v, cec14 D d k x = Ok v /\ 100 * INR k < v) /\
  exists v, cec14 D d k (shift_of D d k) = Ok v /\ v <= 100 * INR k + INR d * (2 / 10 ^ 5).
Proof.
  intros HD Hc H2 k Hk. apply new_cec_cases in Hc. assert (Hd : In d [10; 20; 30; 50; 100]%nat) by (cbn in *; lia). assert (H10 : (10 <= d <= 100)%nat) by (cbn in Hd; lia).
  destruct Hk as [-> | ->]; cbn [cec14].
  - replace (100 * INR 10) with 1000 by (cbn; ring). split.
    + intros x HL. destruct (shifted_ok D d 10 10 x HD ltac:(lia) ltac:(lia) HL) as (z & Ez & Lz & _). rewrite Ez. cbn [rbind bias rmap]. eexists. split; [reflexivity|].
      pose proof (schwefel_above d z ltac:(lia) Lz). lra.
    + destruct (shift_length D d 10 HD ltac:(lia) ltac:(lia)) as [Ls _]. destruct (shifted_ok D d 10 10 _ HD ltac:(lia) ltac:(lia) Ls) as (z & Ez & Lz & Zz). rewrite Ez, (Zz eq_refl). cbn [rbind bias rmap].
      eexists. split; [reflexivity|]. pose proof (schwefel_shift d ltac:(lia)). lra.
  - replace (100 * INR 11) with 1100 by (cbn; ring). split.
    + intros x HL. destruct (rotated_ok D d 11 10 x HD ltac:(lia) Hd HL) as (z & Ez & Lz & _). rewrite Ez. cbn [rbind bias rmap]. eexists. split; [reflexivity|].
      pose proof (schwefel_above d z ltac:(lia) Lz). lra.
    + destruct (shift_length D d 11 HD ltac:(lia) ltac:(lia)) as [Ls _]. destruct (rotated_ok D d 11 10 _ HD ltac:(lia) Hd Ls) as (z & Ez & Lz & Zz). rewrite Ez, (Zz eq_refl). cbn [rbind bias rmap].
      eexists. split; [reflexivity|]. pose proof (schwefel_shift d ltac:(lia)). lra.
Qed.

(** ** One variable: the function falls below its bias *)
Lemma mod_sch_high : exists z, 4189829 / 10000 < mod_sch_f z 1.
Proof.
  pose proof PI_bounds as [P1 P2]. set (r := 3 / 2 * PI). assert (Hr : 4712388 / 10 ^ 6 < r < 4712389 / 10 ^ 6) by (unfold r; lra). assert (Hr2 : 22206 / 1000 < r ^ 2 < 22207 / 1000) by nra.
  exists (- (1000 - r ^ 2)). unfold mod_sch_f. set (z := - (1000 - r ^ 2)). assert (Hz : z < -977) by (unfold z; lra). rewrite (Rabs_left z) by lra.
  destruct (Rle_dec (- z) 500); [lra|]. destruct (Rlt_dec 500 z); [lra|].
  assert (F1 : pmod (- z) 500 = 500 - r ^ 2).
  { unfold pmod. assert (E : Zfloor (- z / 500) = 1%Z) by (apply Zfloor_imp; rewrite plus_IZR; unfold z; lra). rewrite E. unfold z. ring. }
  assert (F2 : pmod z 500 = r ^ 2).
  { unfold pmod. assert (E : Zfloor (z / 500) = (-2)%Z) by (apply Zfloor_imp; rewrite plus_IZR; unfold z; lra). rewrite E. unfold z. ring. }
  rewrite F1, F2. replace (500 - r ^ 2 - 500) with (- r ^ 2) by ring. rewrite Rabs_Ropp, Rabs_pos_eq, sqrt_pow2 by lra.
  assert (ES : sin r = -1) by (unfold r; replace (3 / 2 * PI) with (3 * (PI / 2)) by field; apply sin_3PI2). rewrite ES.
  replace ((z + 500) ^ 2) with ((500 - r ^ 2) ^ 2) by (unfold z; ring). assert ((500 - r ^ 2) ^ 2 <= 478 ^ 2) by (apply pow_incr; lra). lra.
Qed.
Theorem cec10_below D : shipped D -> exists x v, length x = 1%nat /\ cec14 D 1 10 x = Ok v /\ v < 1000.
Proof.
  intros HD. destruct mod_sch_high as (z & Hz). destruct (shift_length D 1 10 HD ltac:(lia) ltac:(lia)) as [Ls Es].
  destruct (shift_of D 1 10) as [|s [|? ?]] eqn:ES; try discriminate. exists [s + (z - offset) / 10]. eexists. split; [reflexivity|]. split.
  - cbn [cec14]. unfold shifted. rewrite Es. cbn [rbind np_sub length Nat.eqb combine map fst snd bias rmap]. reflexivity.
  - rewrite mod_schwefel_sum. cbn [length]. unfold range, get. cbn [seq Nat.sub map rsum nth].
    replace (10 * (s + (z - offset) / 10 - s) + offset) with z by field. change (INR 1) with 1. lra.
Qed.

(** ** Gathered statements *)
Theorem all_minima d : (2 <= d)%nat ->
  minimum d (rosenbrock d) (all_equal d 1) /\ minimum d (discus d) (all_equal d 0) /\ minimum d elliptic (all_equal d 0) /\
  minimum d (fun x => Ok (rastrigin x)) (all_equal d 0) /\ minimum d (ackley d) (all_equal d 0) /\
  minimum d (happycat d) (all_equal d (-1)) /\ minimum d (hgbat d) (all_equal d (-1)) /\
  minimum d (katsuura d) (half_integers d) /\ minimum d (expanded_scaffer d) (all_equal d 0).
Proof.
  intros H. assert (H1 : (1 <= d)%nat) by lia.
  exact (conj (rosenbrock_min d H) (conj (discus_min d H1) (conj (elliptic_min d H) (conj (rastrigin_min d) (conj (ackley_min d H1) (conj (happycat_min d H1) (conj (hgbat_min d H1) (conj (katsuura_min d H1) (scaffer_expanded_min d H1))))))))).
Qed.
Theorem one_variable_minima :
  minimum 1 (discus 1) (all_equal 1 0) /\ minimum 1 (fun x => Ok (rastrigin x)) (all_equal 1 0) /\ minimum 1 (ackley 1) (all_equal 1 0) /\
  minimum 1 (happycat 1) (all_equal 1 (-1)) /\ minimum 1 (hgbat 1) (all_equal 1 (-1)) /\
  minimum 1 (katsuura 1) (half_integers 1) /\ minimum 1 (expanded_scaffer 1) (all_equal 1 0) /\
  (forall x, rosenbrock 1 x = Ok 0).
Proof.
  assert (H : (1 <= 1)%nat) by lia.
  exact (conj (discus_min 1 H) (conj (rastrigin_min 1) (conj (ackley_min 1 H) (conj (happycat_min 1 H) (conj (hgbat_min 1 H) (conj (katsuura_min 1 H) (conj (scaffer_expanded_min 1 H) rosenbrock_one))))))).
Qed.
Theorem bent_wrong : exists d x v, length x = d /\ bent_cigar d x = Ok v /\ v <> bent_cigar_textbook d x.
Proof.
  destruct (bent_exactly 1 [1] ltac:(lia) eq_refl) as (v & E & H). exists 1%nat, [1], v. refine (conj eq_refl (conj E _)).
  intros G. apply H in G. unfold all_equal in G. cbn in G. injection G. lra.
Qed.
Theorem weierstrass_wrong : weierstrass 2 [0; 0] <> Ok 0.
Proof. intros H. pose proof (proj1 (weierstrass_at_zero 2) H). lia. Qed.
Theorem weierstrass_off d x v : length x = d -> weierstrass d x = Ok v -> v = weierstrass_textbook d x <-> (d <= 1)%nat.
Proof.
  intros HL E. rewrite (weierstrass_value d x HL) in E. assert (Ev : v = weierstrass_textbook d x + INR d * (INR d - 1) * (2 - (1 / 2) ^ 19)) by congruence. rewrite Ev.
  assert (P : 1 <= 2 - (1 / 2) ^ 19) by lra. destruct d as [|[|d]].
  - split; [lia|]. intros _. cbn [INR]. ring.
  - split; [lia|]. intros _. cbn [INR]. ring.
  - split; [|lia]. intros G. exfalso. rewrite S_INR in G. assert (1 <= INR (S d)) by (rewrite S_INR; pose proof (pos_INR d); lra). assert (0 < (INR (S d) + 1) * (INR (S d) + 1 - 1) * (2 - (1 / 2) ^ 19)) by (apply Rmult_lt_0_compat; [nra|lra]). lra.
Qed.
Theorem cec5_wrong D : shipped D -> cec14 D 10 5 (shift_of D 10 5) = Ok 800.
Proof. intros HD. exact (proj1 (cec_off D 10 10 HD eq_refl ltac:(lia))). Qed.
Theorem cec1_missing D : shipped D -> new_cec 1 = Ok 1%nat /\ cec14 D 1 1 [0] = Raise FileNotFoundError.
Proof.
  intros HD. split; [reflexivity|]. assert (I : In 1%nat implemented) by (cbn; tauto).
  exact (proj2 (cec_defined D 1 1 1 [0] HD eq_refl I eq_refl) eq_refl ltac:(lia) ltac:(lia)).
Qed.
