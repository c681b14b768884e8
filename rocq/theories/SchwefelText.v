(** The modified Schwefel function against the definition of the CEC 2014 report. *)
From Coq Require Import List ZArith Bool Lia Reals Lra.
From Flocq Require Import Core.
From Verif Require Import PyBase Bench BenchThms BenchCec Schwefel.
Import ListNotations.
Open Scope R_scope.

(** The definition: with [m] the remainder of the magnitude, [D] the number of variables,
    the penalties are divided by [10000 * D]. *)
Definition remainder (a : R) : R := a - 500 * IZR (Zfloor (a / 500)).
(** One term of the definition.  Not code. *)
Definition schwefel_term (D z : R) : R :=
  let m := remainder (Rabs z) in
  if Rle_dec (Rabs z) 500 then z * sin (sqrt (Rabs z))
  else if Rlt_dec 500 z then (500 - m) * sin (sqrt (500 - m)) - (z - 500) ^ 2 / (10000 * D)
  else (m - 500) * sin (sqrt (500 - m)) - (z + 500) ^ 2 / (10000 * D).
(** The definition (compare continuous.py:163-175). *)
Definition schwefel_textbook (x : list R) : R :=
  4189829 / 10000 * INR (length x) -
  rsum (map (fun i => schwefel_term (INR (length x)) (get i x + offset)) (range 0 (length x))).

Lemma term_inside D z : Rabs z <= 500 -> mod_sch_f z D = schwefel_term D z.
Proof.
  intros H. unfold mod_sch_f, schwefel_term. cbv zeta. destruct (Rle_dec (Rabs z) 500) as [_|N]; [|contradiction].
  rewrite ppow_half by apply Rabs_pos. reflexivity.
Qed.
Lemma times_or_over a D : 0 < a -> 0 < D -> a / 10000 * D = a / (10000 * D) <-> D = 1.
Proof.
  intros Ha HD. replace (a / (10000 * D)) with (a / 10000 * / D) by (field; lra). split; intros H.
  - assert (E : D = / D) by (apply Rmult_eq_reg_l with (a / 10000); [exact H|lra]).
    assert (D * D = 1) by (rewrite E at 1; apply Rinv_l; lra). nra.
  - rewrite H, Rinv_1. reflexivity.
Qed.
Lemma term_above D z : 0 < D -> 500 < z -> mod_sch_f z D = schwefel_term D z <-> D = 1.
Proof.
  intros HD H. unfold mod_sch_f, schwefel_term. cbv zeta.
  assert (Az : Rabs z = z) by (apply Rabs_pos_eq; lra). rewrite Az.
  destruct (Rle_dec z 500) as [L|_]; [lra|]. destruct (Rlt_dec 500 z) as [_|N]; [|contradiction].
  pose proof (pmod_range z) as HP. change (remainder z) with (pmod z 500). rewrite (Rabs_pos_eq (500 - pmod z 500)) by lra.
  assert (Ha : 0 < (z - 500) ^ 2) by nra.
  rewrite <- (times_or_over _ D Ha HD). split; intros E; lra.
Qed.
Lemma term_below D z : 0 < D -> z < -500 ->
  let m := remainder (- z) in
  mod_sch_f z D - schwefel_term D z =
    (if Req_EM_T m 0 then 0 else (500 - 2 * m) * sin (sqrt (500 - m))) - (z + 500) ^ 2 / 10000 * (D - / D).
Proof.
  intros HD H. cbv zeta. unfold mod_sch_f, schwefel_term. cbv zeta.
  assert (Az : Rabs z = - z) by (apply Rabs_left; lra). rewrite Az.
  destruct (Rle_dec (- z) 500) as [L|_]; [lra|]. destruct (Rlt_dec 500 z) as [L|_]; [lra|].
  change (remainder (- z)) with (pmod (- z) 500). pose proof (pmod_range (- z)) as HP.
  rewrite (Rabs_left (pmod (- z) 500 - 500)) by lra. replace (- (pmod (- z) 500 - 500)) with (500 - pmod (- z) 500) by ring.
  set (m := pmod (- z) 500) in *. set (s := sin (sqrt (500 - m))).
  replace ((z + 500) ^ 2 / (10000 * D)) with ((z + 500) ^ 2 / 10000 * / D) by (field; lra).
  destruct (pmod_opp z) as [[E1 E2]|E].
  - fold m in E2. destruct (Req_EM_T m 0) as [_|N]; [|contradiction]. rewrite E1, E2. ring.
  - fold m in E. pose proof (pmod_range z) as HQ. destruct (Req_EM_T m 0) as [Z|_]; [lra|].
    replace (pmod z 500 - 500) with (- m) by lra. ring.
Qed.
(** The code agrees with the definition on every vector whose offset values stay within
    [-500, 500]. *)
Lemma schwefel_inside x : (forall i, (i < length x)%nat -> Rabs (get i x + offset) <= 500) ->
  mod_schwefel x = schwefel_textbook x.
Proof.
  intros H. rewrite mod_schwefel_sum. unfold schwefel_textbook. unfold range. rewrite Nat.sub_0_r.
  assert (G : forall l, (forall i, In i l -> (i < length x)%nat) ->
    rsum (map (fun i => 4189829 / 10000 - mod_sch_f (get i x + offset) (INR (length x))) l) =
    4189829 / 10000 * INR (length l) - rsum (map (fun i => schwefel_term (INR (length x)) (get i x + offset)) l)).
  { induction l as [|i l IH]; intros HL; [cbn; ring|]. cbn [map rsum fold_right]. 
    change (length (i :: l)) with (S (length l)). rewrite S_INR.
    rewrite term_inside by (apply H, HL; left; reflexivity).
    specialize (IH (fun j Hj => HL j (or_intror Hj))).
    change (rsum (?a :: ?b)) with (a + rsum b). rewrite IH. ring. }
  rewrite G.
  - rewrite seq_length. reflexivity.
  - intros i Hi. apply in_seq in Hi. lia.
Qed.
Lemma schwefel_single z D : mod_schwefel [z - offset] = 4189829 / 10000 - mod_sch_f z 1 /\
  (D = 1 -> schwefel_textbook [z - offset] = 4189829 / 10000 - schwefel_term D z).
Proof.
  assert (E : z - offset + offset = z) by ring. split.
  - rewrite mod_schwefel_sum. cbn. unfold get. cbn. rewrite E. ring.
  - intros ->. unfold schwefel_textbook. cbn. unfold get. cbn. rewrite E. ring.
Qed.
(** One variable below -500: the first factor is wrong. *)
Lemma one_below : exists z, z < -500 /\ mod_sch_f z 1 <> schwefel_term 1 z.
Proof.
  exists (- (1000 - (PI / 2) ^ 2)). destruct PI_bounds as [P1 P2]. set (r := PI / 2).
  assert (Hr : 15 / 10 < r < 16 / 10) by (unfold r; lra). assert (R2 : 225 / 100 < r ^ 2 < 256 / 100) by nra.
  split; [lra|]. intros E.
  pose proof (term_below 1 (- (1000 - r ^ 2)) ltac:(lra) ltac:(lra)) as T. cbv zeta in T. rewrite E in T.
  assert (F : remainder (- - (1000 - r ^ 2)) = 500 - r ^ 2).
  { unfold remainder. assert (Z : Zfloor (- - (1000 - r ^ 2) / 500) = 1%Z) by (apply Zfloor_imp; rewrite plus_IZR; lra).
    rewrite Z. ring. }
  rewrite F in T. destruct (Req_EM_T (500 - r ^ 2) 0) as [Z|_]; [lra|].
  replace (500 - (500 - r ^ 2)) with (r ^ 2) in T by ring.
  assert (Q : sqrt (r ^ 2) = r) by (apply sqrt_pow2; lra). rewrite Q in T. assert (S1 : sin r = 1) by apply sin_PI2. rewrite S1, Rinv_1 in T. nra.
Qed.
(** Two variables above 500: the penalty is multiplied by the number of variables instead of
    divided by it. *)
Lemma two_above : exists x, length x = 2%nat /\ mod_schwefel x <> schwefel_textbook x /\
  schwefel_textbook x < mod_schwefel x.
Proof.
  exists [600 - offset; 600 - offset].
  assert (E : 600 - offset + offset = 600) by ring.
  assert (T : mod_sch_f 600 2 < schwefel_term 2 600).
  { unfold mod_sch_f, schwefel_term. cbv zeta. rewrite (Rabs_pos_eq 600) by lra.
    destruct (Rle_dec 600 500) as [L|_]; [lra|]. destruct (Rlt_dec 500 600) as [_|N]; [|lra].
    pose proof (pmod_range 600) as HP. change (remainder 600) with (pmod 600 500). rewrite (Rabs_pos_eq (500 - pmod 600 500)) by lra. lra. }
  assert (L : schwefel_textbook [600 - offset; 600 - offset] < mod_schwefel [600 - offset; 600 - offset]).
  { rewrite mod_schwefel_sum. unfold schwefel_textbook. cbn [length range seq Nat.sub map]. unfold get. cbn [nth]. rewrite E.
    cbn [INR]. replace (1 + 1) with 2 by ring. unfold rsum. cbn [fold_right fold_left]. lra. }
  split; [reflexivity|]. split; [lra|exact L].
Qed.
Lemma one_below_vector : exists x, length x = 1%nat /\ mod_schwefel x <> schwefel_textbook x.
Proof.
  destruct one_below as (z & _ & H). exists [z - offset]. split; [reflexivity|].
  destruct (schwefel_single z 1) as [E1 E2]. rewrite E1, (E2 eq_refl). lra.
Qed.
Lemma inside_origin : forall i, (i < length [0; 0])%nat -> Rabs (get i [0; 0] + offset) <= 500.
Proof.
  intros [|[|i]] Hi; cbn in Hi; try lia; unfold get; cbn [nth]; unfold offset; rewrite Rabs_pos_eq; lra.
Qed.
