(** The ranges the random Gaussian initialisers draw from, for integer bounds. *)
From Coq Require Import List ZArith Bool Lia Reals Lra.
From Flocq Require Import Core IEEE754.BinarySingleNaN.
From Verif Require Import PyBase B64 B64More NdArray Interval Rand RandThms Trunc Inits InitGauss.
Import ListNotations.
Open Scope R_scope.

(** [x] is the number k/4. *)
Definition quarters (k : Z) (x : f64) : Prop := isfin x = true /\ B2R x = IZR k / 4.

Lemma rnd_quarter k : (Z.abs k < 2 ^ 53)%Z -> rnd (IZR k / 4) = IZR k / 4.
Proof.
  intros Hk. apply round_generic; [apply valid_rnd_N|].
  apply (generic_format_FLT radix2 (-1074) 53). exists (Float radix2 k (-2)); cbn [Fnum Fexp].
  - unfold F2R. cbn [Fnum Fexp]. change (bpow radix2 (-2)) with (/ IZR 4). reflexivity.
  - exact Hk.
  - lia.
Qed.

Lemma quarter_small k : (Z.abs k < 2 ^ 53)%Z -> Rabs (rnd (IZR k / 4)) < big.
Proof.
  intros Hk. rewrite (rnd_quarter k Hk). eapply Rle_lt_trans; [|exact big_gt_2_53].
  assert (Rabs (IZR k) <= IZR (2 ^ 53)) by (rewrite <- abs_IZR; apply IZR_le; lia).
  unfold Rdiv. rewrite Rabs_mult, (Rabs_pos_eq (/ 4)) by lra. pose proof (Rabs_pos (IZR k)). lra.
Qed.

Lemma quarters_Z z : (Z.abs z <= 2 ^ 53)%Z -> quarters (4 * z) (Z2f z).
Proof. intros Hz. destruct (Z2f_exact z Hz) as [R F]. split; [exact F|]. rewrite R, mult_IZR. lra. Qed.

Lemma quarters_add a b x y : quarters a x -> quarters b y -> (Z.abs (a + b) < 2 ^ 53)%Z -> quarters (a + b) (fadd x y).
Proof.
  intros [Fx Rx] [Fy Ry] H. assert (E : B2R x + B2R y = IZR (a + b) / 4) by (rewrite Rx, Ry, plus_IZR; lra).
  destruct (fadd_fin x y Fx Fy) as [F R]; [rewrite E; apply quarter_small, H|]. split; [exact F|]. rewrite R, E. apply rnd_quarter, H.
Qed.

Lemma quarters_sub a b x y : quarters a x -> quarters b y -> (Z.abs (a - b) < 2 ^ 53)%Z -> quarters (a - b) (fsub x y).
Proof.
  intros [Fx Rx] [Fy Ry] H. assert (E : B2R x - B2R y = IZR (a - b) / 4) by (rewrite Rx, Ry, minus_IZR; lra).
  destruct (fsub_fin x y Fx Fy) as [F R]; [rewrite E; apply quarter_small, H|]. split; [exact F|]. rewrite R, E. apply rnd_quarter, H.
Qed.

Lemma quarters_abs a x : quarters a x -> quarters (Z.abs a) (fabs x).
Proof.
  intros [Fx Rx]. destruct (fabs_R x Fx) as [F R]. split; [exact F|]. rewrite R, Rx. unfold Rdiv.
  rewrite Rabs_mult, (Rabs_pos_eq (/ 4)) by lra. rewrite abs_IZR. reflexivity.
Qed.

Lemma quarters_div z d k : (Z.abs z < 2 ^ 48)%Z -> (d = 2 \/ d = 4)%Z -> (k * d = 4 * z)%Z -> quarters k (fdiv (Z2f z) (Z2f d)).
Proof.
  intros Hz Hd Hk. destruct (Z2f_exact z ltac:(lia)) as [R F]. destruct (Z2f_exact d ltac:(lia)) as [Rd Fd].
  assert (D : IZR d <> 0) by (apply not_0_IZR; lia).
  assert (E : B2R (Z2f z) / B2R (Z2f d) = IZR k / 4).
  { rewrite R, Rd. apply (Rmult_eq_reg_r (IZR d)); [|exact D]. unfold Rdiv. rewrite Rmult_assoc, Rinv_l by exact D.
    assert (X : IZR k * IZR d = 4 * IZR z) by (rewrite <- mult_IZR, Hk, mult_IZR; reflexivity). lra. }
  assert (Hk' : (Z.abs k < 2 ^ 53)%Z) by (destruct Hd as [-> | ->]; lia).
  destruct (fdiv_fin (Z2f z) (Z2f d) F) as [F' R']; [rewrite Rd; exact D|rewrite E; apply quarter_small, Hk'|].
  split; [exact F'|]. rewrite R', E. apply rnd_quarter, Hk'.
Qed.

(** The number of points: those whose distance from the start is below x. *)
Lemma ceil_len_quarters k x i : quarters k x -> (Z.abs k < 2 ^ 53)%Z -> ((i < ceil_len x)%nat <-> (4 * Z.of_nat i < k)%Z).
Proof.
  intros [F R] Hk. unfold ceil_len. rewrite (py_int_fin x F), R. cbv beta iota.
  assert (Hq : IZR (Ztrunc (IZR k / 4)) < IZR k / 4 <-> (4 * Ztrunc (IZR k / 4) < k)%Z).
  { assert (E : IZR (4 * Ztrunc (IZR k / 4)) = 4 * IZR (Ztrunc (IZR k / 4))) by apply mult_IZR.
    split; intros H; [apply lt_IZR; rewrite E; lra|apply IZR_lt in H; lra]. }
  assert (Ht : (Z.abs (Ztrunc (IZR k / 4)) <= 2 ^ 53)%Z).
  { rewrite <- Ztrunc_abs. rewrite Ztrunc_floor by apply Rabs_pos. apply le_IZR.
    eapply Rle_trans; [apply Zfloor_lb|]. unfold Rdiv. rewrite Rabs_mult, (Rabs_pos_eq (/ 4)), <- abs_IZR by lra.
    assert (IZR (Z.abs k) <= IZR (2 ^ 53)) by (apply IZR_le; lia). assert (0 <= IZR (Z.abs k)) by (apply IZR_le; lia). lra. }
  destruct (Z2f_exact _ Ht) as [Rt Ft].
  assert (Hf : flt (Z2f (Ztrunc (IZR k / 4))) x = true <-> (4 * Ztrunc (IZR k / 4) < k)%Z).
  { rewrite (flt_fin _ _ Ft F), Rt, R. exact Hq. }
  destruct (Z_lt_le_dec k 0) as [Neg|Pos].
  - assert (Hc : (Ztrunc (IZR k / 4) <= 0)%Z).
    { rewrite Ztrunc_ceil by (assert (IZR k < 0) by (apply IZR_lt; lia); lra). apply Zceil_glb.
      assert (IZR k < 0) by (apply IZR_lt; lia). lra. }
    assert (Hge : IZR k / 4 <= IZR (Ztrunc (IZR k / 4))).
    { rewrite Ztrunc_ceil by (assert (IZR k < 0) by (apply IZR_lt; lia); lra). apply Zceil_ub. }
    destruct (flt (Z2f (Ztrunc (IZR k / 4))) x) eqn:E; [pose proof (proj2 Hq (proj1 Hf eq_refl)); lra|]. lia.
  - assert (P : 0 <= IZR k / 4) by (assert (0 <= IZR k) by (apply IZR_le; lia); lra).
    assert (L : IZR (Ztrunc (IZR k / 4)) <= IZR k / 4) by (rewrite Ztrunc_floor by exact P; apply Zfloor_lb).
    assert (U : IZR k / 4 < IZR (Ztrunc (IZR k / 4)) + 1) by (rewrite Ztrunc_floor by exact P; apply Zfloor_ub).
    set (t := Ztrunc (IZR k / 4)) in *.
    assert (L' : (4 * t <= k)%Z) by (apply le_IZR; rewrite mult_IZR; lra).
    assert (U' : (k < 4 * t + 4)%Z) by (apply lt_IZR; rewrite plus_IZR, mult_IZR; lra).
    destruct (flt (Z2f t) x) eqn:E.
    + pose proof (proj1 Hf eq_refl). lia.
    + assert (~ (4 * t < k)%Z) by (intros X; apply Hf in X; discriminate). lia.
Qed.

Lemma arange_quarters a b lo hi x : quarters a lo -> quarters b hi -> (Z.abs a < 2 ^ 51)%Z -> (Z.abs b < 2 ^ 51)%Z ->
  In x (arange_f lo hi) -> exists i : nat, (a + 4 * Z.of_nat i < b)%Z /\ quarters (a + 4 * Z.of_nat i) x.
Proof.
  intros Ql Qh Ha Hb Hx. unfold arange_f in Hx. apply tabulate_In in Hx as (i & Hi & ->).
  apply (ceil_len_quarters _ _ i (quarters_sub _ _ _ _ Qh Ql ltac:(lia)) ltac:(lia)) in Hi.
  exists i. split; [lia|]. apply quarters_add; [exact Ql|apply quarters_Z; lia|lia].
Qed.

Lemma arange_nth a b lo hi i : quarters a lo -> quarters b hi -> (Z.abs a < 2 ^ 51)%Z -> (Z.abs b < 2 ^ 51)%Z ->
  (a + 4 * Z.of_nat i < b)%Z -> (i < List.length (arange_f lo hi))%nat /\ exists x, nth_error (arange_f lo hi) i = Some x /\ quarters (a + 4 * Z.of_nat i) x.
Proof.
  intros Ql Qh Ha Hb Hi.
  assert (H : (i < ceil_len (fsub hi lo))%nat) by (apply (ceil_len_quarters _ _ i (quarters_sub _ _ _ _ Qh Ql ltac:(lia)) ltac:(lia)); lia).
  unfold arange_f. rewrite tabulate_length. split; [exact H|].
  exists (fadd lo (Z2f (Z.of_nat i))). split; [rewrite nth_error_tabulate by exact H; reflexivity|].
  apply quarters_add; [exact Ql|apply quarters_Z; lia|lia].
Qed.

(** What a choice returns. *)
Lemma choice_any_in {W A} (g : rng W) (l : list A) k w out w' : np_choice_any g l k w = (Ok out, w') -> List.length out = k /\ incl out l.
Proof.
  unfold np_choice_any. destruct (_ && _)%bool; [discriminate|]. destruct (g_pick g (List.length l) k w) as [f w2]. intros H.
  assert (Hg : gather (tabulate k f) l = Ok out) by congruence. apply gather_ok_Forall2 in Hg. split.
  - rewrite <- (tabulate_length k f). clear -Hg. induction Hg; cbn; congruence.
  - intros x Hx. clear -Hg Hx. induction Hg as [|i y l1 l2 Hy Hg IH]; [destruct Hx|]. destruct Hx as [<-|Hx]; [eapply nth_error_In, Hy|apply IH, Hx].
Qed.

(** The integer grid. *)
Definition on_grid (lo hi : Z) (m : f64) : Prop := exists z, (lo <= z <= hi)%Z /\ isfin m = true /\ B2R m = IZR z.

Definition small (z : Z) : Prop := (Z.abs z < 2 ^ 48)%Z.

Lemma fone_Z : fone = Z2f 1.
Proof. reflexivity. Qed.

Lemma upper_quarters hi : small hi -> quarters (4 * (hi + 1)) (fadd (Z2f hi) fone).
Proof.
  intros H. unfold small in H. rewrite fone_Z. replace (4 * (hi + 1))%Z with (4 * hi + 4 * 1)%Z by ring.
  apply quarters_add; [apply quarters_Z; lia|apply quarters_Z; lia|lia].
Qed.

Lemma arange_grid lo hi x : small lo -> small hi -> In x (arange_f (Z2f lo) (fadd (Z2f hi) fone)) -> on_grid lo hi x.
Proof.
  intros Hl Hh Hx. pose proof (upper_quarters hi Hh) as Q. unfold small in *.
  destruct (arange_quarters (4 * lo) (4 * (hi + 1)) (Z2f lo) _ x (quarters_Z lo ltac:(lia)) Q ltac:(lia) ltac:(lia) Hx) as (i & Hi & F & R).
  exists (lo + Z.of_nat i)%Z. split; [lia|]. split; [exact F|]. rewrite R. replace (4 * lo + 4 * Z.of_nat i)%Z with (4 * (lo + Z.of_nat i))%Z by ring.
  rewrite mult_IZR. lra.
Qed.

Lemma grid_arange lo hi z : small lo -> small hi -> (lo <= z <= hi)%Z ->
  let k := Z.to_nat (z - lo) in
  (k < List.length (arange_f (Z2f lo) (fadd (Z2f hi) fone)))%nat /\
  exists x, nth_error (arange_f (Z2f lo) (fadd (Z2f hi) fone)) k = Some x /\ isfin x = true /\ B2R x = IZR z.
Proof.
  intros Hl Hh Hz k. pose proof (upper_quarters hi Hh) as Q. unfold small in *.
  destruct (arange_nth (4 * lo) (4 * (hi + 1)) (Z2f lo) _ k (quarters_Z lo ltac:(lia)) Q ltac:(lia) ltac:(lia)) as (L & x & Hx & F & R); [unfold k; lia|].
  split; [exact L|]. exists x. split; [exact Hx|]. split; [exact F|]. rewrite R. unfold k. rewrite Z2Nat.id by lia.
  replace (4 * lo + 4 * (z - lo))%Z with (4 * z)%Z by ring. rewrite mult_IZR. lra.
Qed.

Lemma unigauss_grid {W} (g : rng W) n lo hi w i w' : small lo -> small hi ->
  unigauss_init_new g n [] [] (Z2f lo) (Z2f hi) w = (Ok i, w') ->
  List.length (gi_means i) = Z.to_nat n /\ List.length (gi_stds i) = Z.to_nat n /\
  Forall (on_grid lo hi) (gi_means i) /\
  Forall (fun d => isfin d = true /\ exists k : nat, B2R d = Rabs (IZR lo) / 4 + INR k /\ B2R d < Rabs (IZR hi) / 2) (gi_stds i).
Proof.
  intros Hl Hh. unfold unigauss_init_new. cbn [List.length Nat.eqb negb]. destruct (n <? 0)%Z; [discriminate|].
  destruct (np_choice_any g (arange_f (Z2f lo) _) _ w) as [[ms|e] w1] eqn:E1; [|discriminate].
  destruct (np_choice_any g (arange_f (fabs _) _) _ w1) as [[ss|e] w2] eqn:E2; [|discriminate]. intros H.
  assert (Hi : i = mkGI n ms ss) by congruence. subst i. cbn [gi_means gi_stds].
  apply choice_any_in in E1 as [L1 I1]. apply choice_any_in in E2 as [L2 I2].
  split; [exact L1|]. split; [exact L2|]. split.
  - apply Forall_forall. intros m Hm. apply arange_grid; [exact Hl|exact Hh|apply I1, Hm].
  - apply Forall_forall. intros d Hd. apply I2 in Hd. unfold small in *.
    assert (Q1 : quarters (Z.abs lo) (fabs (fquarter (Z2f lo)))) by (apply quarters_abs, (quarters_div lo 4 lo); lia).
    assert (Q2 : quarters (Z.abs (2 * hi)) (fabs (fhalf (Z2f hi)))) by (apply quarters_abs, (quarters_div hi 2 (2 * hi)); lia).
    destruct (arange_quarters _ _ _ _ d Q1 Q2 ltac:(lia) ltac:(lia) Hd) as (k & Hk & F & R).
    split; [exact F|]. exists k. rewrite R, plus_IZR, mult_IZR, <- INR_IZR_INZ, abs_IZR. split; [lra|].
    assert (X : IZR (Z.abs lo + 4 * Z.of_nat k) < IZR (Z.abs (2 * hi))) by (apply IZR_lt; lia).
    rewrite plus_IZR, mult_IZR, <- INR_IZR_INZ, !abs_IZR, mult_IZR, Rabs_mult, (Rabs_pos_eq 2) in X by lra. lra.
Qed.

Lemma chunk_spec {A} n k (l : list A) : List.length l = (k * n)%nat ->
  List.length (chunk n k l) = k /\ Forall (fun r => List.length r = n /\ incl r l) (chunk n k l) /\
  forall i j, (i < k)%nat -> (j < n)%nat -> exists r, nth_error (chunk n k l) i = Some r /\ nth_error r j = nth_error l (i * n + j).
Proof.
  revert l. induction k as [|k IH]; intros l Hl; cbn [chunk]; [split; [reflexivity|split; [constructor|intros; lia]]|].
  cbn [Nat.mul] in Hl. destruct (IH (skipn n l)) as (A1 & A2 & A3); [rewrite skipn_length; lia|].
  split; [cbn; congruence|]. split.
  - constructor.
    + split; [rewrite firstn_length; lia|]. intros x Hx. rewrite <- (firstn_skipn n l). apply in_or_app. left. exact Hx.
    + eapply Forall_impl; [|exact A2]. intros r [R1 R2]. split; [exact R1|]. intros x Hx. rewrite <- (firstn_skipn n l). apply in_or_app. right. apply R2, Hx.
  - intros [|i] j Hi Hj; cbn [nth_error].
    + exists (firstn n l). split; [reflexivity|]. cbn. rewrite <- (firstn_skipn n l) at 2. rewrite nth_error_app1 by (rewrite firstn_length; lia). reflexivity.
    + destruct (A3 i j ltac:(lia) Hj) as (r & Hr & Hrj). exists r. split; [exact Hr|]. rewrite Hrj.
      rewrite <- (firstn_skipn n l) at 2. rewrite nth_error_app2 by (rewrite firstn_length; lia). f_equal. rewrite firstn_length. cbn. lia.
Qed.

Lemma mgauss_grid {W} (g : rng W) n lo hi w i w' : small lo -> small hi ->
  mgauss_init_new g n [] [] (Z2f lo) (Z2f hi) w = (Ok i, w') ->
  List.length (mi_means i) = Z.to_nat n /\ Forall (on_grid lo hi) (mi_means i) /\
  List.length (mi_cov i) = Z.to_nat n /\ Forall (fun r => List.length r = Z.to_nat n /\ Forall (on_grid lo hi) r) (mi_cov i).
Proof.
  intros Hl Hh. unfold mgauss_init_new. cbn [List.length Nat.eqb negb]. destruct (n <? 0)%Z; [discriminate|]. cbv zeta.
  destruct (np_choice_any g (arange_f (Z2f lo) _) _ w) as [[ms|e] w1] eqn:E1; [|discriminate].
  destruct (np_choice_any g (arange_f (Z2f lo) _) (Z.to_nat n * Z.to_nat n) w1) as [[cs|e] w2] eqn:E2; [|discriminate]. intros H.
  assert (Hi : i = mkMI n ms (chunk (Z.to_nat n) (Z.to_nat n) cs)) by congruence. subst i. cbn [mi_means mi_cov].
  apply choice_any_in in E1 as [L1 I1]. apply choice_any_in in E2 as [L2 I2].
  assert (G : forall l, incl l (arange_f (Z2f lo) (fadd (Z2f hi) fone)) -> Forall (on_grid lo hi) l).
  { intros l Hin. apply Forall_forall. intros m Hm. apply arange_grid; [exact Hl|exact Hh|apply Hin, Hm]. }
  destruct (chunk_spec (Z.to_nat n) (Z.to_nat n) cs L2) as (C1 & C2 & _).
  split; [exact L1|]. split; [apply G, I1|]. split; [exact C1|].
  eapply Forall_impl; [|exact C2]. intros r [R1 R2]. split; [exact R1|]. apply G. eapply incl_tran; eassumption.
Qed.

Lemma F2_nth {A B} (P : A -> B -> Prop) l l' : Forall2 P l l' -> forall i a, nth_error l i = Some a -> exists b, nth_error l' i = Some b /\ P a b.
Proof. induction 1 as [|x y l l' Hxy _ IH]; intros [|i] a Ha; cbn in *; try discriminate; [assert (a = x) by congruence; subst; eauto|eauto]. Qed.

(** A generator that makes one given pick at every draw. *)
Definition pick_rng (f : nat -> nat) : rng unit :=
  mkRng (fun _ _ w => (fun _ _ => fzero, w)) (fun _ _ w => (fun _ _ => fzero, w))
    (fun n _ w => (fun i => Nat.min (f i) (Nat.pred n), w)) (fun _ _ _ w => (Ok (fun _ _ => fzero), w)).

Lemma pick_rng_ok f : pick_ok (pick_rng f).
Proof. intros n k w i Hn. cbn. lia. Qed.

Lemma pick_choice {A} (f : nat -> nat) (l : list A) k : (0 < List.length l)%nat ->
  exists out, np_choice_any (pick_rng f) l k tt = (Ok out, tt) /\
    forall i, (i < k)%nat -> (f i < List.length l)%nat -> nth_error out i = nth_error l (f i).
Proof.
  intros Hl. unfold np_choice_any. destruct (Nat.eqb (List.length l) 0) eqn:E; [apply Nat.eqb_eq in E; lia|]. cbn [andb]. cbv beta iota zeta. cbn [g_pick pick_rng].
  destruct (gather_in_range (tabulate k (fun i => Nat.min (f i) (Nat.pred (List.length l)))) l) as [out Hout].
  { apply Forall_tabulate. intros i _. lia. }
  exists out. rewrite Hout. split; [reflexivity|]. intros i Hi Hf. apply gather_ok_Forall2 in Hout.
  destruct (F2_nth _ _ _ Hout i (Nat.min (f i) (Nat.pred (List.length l)))) as (x & Hx & Hy); [apply (nth_error_tabulate k (fun i => Nat.min (f i) (Nat.pred (List.length l)))), Hi|].
  rewrite Hx, <- Hy. f_equal. lia.
Qed.

(** Every vector of integers of the grid can be drawn. *)
Lemma grid_choice lo hi (f : nat -> Z) k : small lo -> small hi -> (forall i, lo <= f i <= hi)%Z ->
  exists out, np_choice_any (pick_rng (fun i => Z.to_nat (f i - lo))) (arange_f (Z2f lo) (fadd (Z2f hi) fone)) k tt = (Ok out, tt) /\
    List.length out = k /\ forall i, (i < k)%nat -> exists x, nth_error out i = Some x /\ isfin x = true /\ B2R x = IZR (f i).
Proof.
  intros Hl Hh Hf. destruct (grid_arange lo hi (f 0%nat) Hl Hh (Hf 0%nat)) as [L0 _].
  destruct (pick_choice (fun i => Z.to_nat (f i - lo)) (arange_f (Z2f lo) (fadd (Z2f hi) fone)) k ltac:(lia)) as (out & E & H).
  exists out. split; [exact E|]. split; [apply choice_any_in in E; apply E|].
  intros i Hi. destruct (grid_arange lo hi (f i) Hl Hh (Hf i)) as (L & x & Hx & Fx & Rx).
  exists x. split; [rewrite (H i Hi L); exact Hx|]. split; [exact Fx|exact Rx].
Qed.

Lemma unigauss_every n lo hi (f : nat -> Z) : small lo -> small hi -> (0 <= n)%Z -> (Z.abs lo < 2 * Z.abs hi)%Z -> (forall i, lo <= f i <= hi)%Z ->
  exists (g : rng unit) i, pick_ok g /\ unigauss_init_new g n [] [] (Z2f lo) (Z2f hi) tt = (Ok i, tt) /\
    forall k, (k < Z.to_nat n)%nat -> exists x, nth_error (gi_means i) k = Some x /\ isfin x = true /\ B2R x = IZR (f k).
Proof.
  intros Hl Hh Hn Hd Hf. destruct (grid_choice lo hi f (Z.to_nat n) Hl Hh Hf) as (ms & E1 & _ & Hms).
  set (g := pick_rng (fun i => Z.to_nat (f i - lo))) in *.
  assert (L : (0 < List.length (arange_f (fabs (fquarter (Z2f lo))) (fabs (fhalf (Z2f hi)))))%nat).
  { unfold small in *.
    assert (Q1 : quarters (Z.abs lo) (fabs (fquarter (Z2f lo)))) by (apply quarters_abs, (quarters_div lo 4 lo); lia).
    assert (Q2 : quarters (Z.abs (2 * hi)) (fabs (fhalf (Z2f hi)))) by (apply quarters_abs, (quarters_div hi 2 (2 * hi)); lia).
    apply (arange_nth _ _ _ _ 0 Q1 Q2); lia. }
  destruct (pick_choice (fun i => Z.to_nat (f i - lo)) (arange_f (fabs (fquarter (Z2f lo))) (fabs (fhalf (Z2f hi)))) (Z.to_nat n) L) as (ss & E2 & _).
  exists g, (mkGI n ms ss). split; [apply pick_rng_ok|]. split; [|exact Hms].
  unfold unigauss_init_new. cbn [List.length Nat.eqb negb]. destruct (n <? 0)%Z eqn:E; [apply Z.ltb_lt in E; lia|].
  rewrite E1. fold g in E2. rewrite E2. reflexivity.
Qed.

Lemma mgauss_every n lo hi (f : nat -> Z) : small lo -> small hi -> (0 <= n)%Z -> (forall i, lo <= f i <= hi)%Z ->
  exists (g : rng unit) i, pick_ok g /\ mgauss_init_new g n [] [] (Z2f lo) (Z2f hi) tt = (Ok i, tt) /\
    (forall k, (k < Z.to_nat n)%nat -> exists x, nth_error (mi_means i) k = Some x /\ isfin x = true /\ B2R x = IZR (f k)) /\
    forall a b, (a < Z.to_nat n)%nat -> (b < Z.to_nat n)%nat ->
      exists r x, nth_error (mi_cov i) a = Some r /\ nth_error r b = Some x /\ isfin x = true /\ B2R x = IZR (f (a * Z.to_nat n + b)%nat).
Proof.
  intros Hl Hh Hn Hf. destruct (grid_choice lo hi f (Z.to_nat n) Hl Hh Hf) as (ms & E1 & _ & Hms).
  destruct (grid_choice lo hi f (Z.to_nat n * Z.to_nat n) Hl Hh Hf) as (cs & E2 & L2 & Hcs).
  destruct (chunk_spec (Z.to_nat n) (Z.to_nat n) cs L2) as (_ & _ & C3).
  exists (pick_rng (fun i => Z.to_nat (f i - lo))), (mkMI n ms (chunk (Z.to_nat n) (Z.to_nat n) cs)).
  split; [apply pick_rng_ok|]. split; [|split; [exact Hms|]].
  - unfold mgauss_init_new. cbn [List.length Nat.eqb negb]. destruct (n <? 0)%Z eqn:E; [apply Z.ltb_lt in E; lia|]. cbv zeta. rewrite E1, E2. reflexivity.
  - intros a b Ha Hb. cbn [mi_cov]. destruct (C3 a b Ha Hb) as (r & Hr & Hrb).
    destruct (Hcs (a * Z.to_nat n + b)%nat) as (x & Hx & Fx & Rx); [nia|].
    exists r, x. split; [exact Hr|]. split; [rewrite Hrb; exact Hx|]. split; [exact Fx|exact Rx].
Qed.

(** Entry (a, b) of a covariance matrix. *)
Definition cov_at (i : mgauss_init) (a b : nat) (v : R) : Prop :=
  exists r x, nth_error (mi_cov i) a = Some r /\ nth_error r b = Some x /\ isfin x = true /\ B2R x = v.

Lemma mgauss_asymmetric n lo hi : small lo -> small hi -> (2 <= n)%Z -> (lo < hi)%Z ->
  exists (g : rng unit) i, pick_ok g /\ mgauss_init_new g n [] [] (Z2f lo) (Z2f hi) tt = (Ok i, tt) /\
    exists u v, cov_at i 0 1 u /\ cov_at i 1 0 v /\ u <> v.
Proof.
  intros Hl Hh Hn Hlt. destruct (mgauss_every n lo hi (fun i => if Nat.eqb i 1 then hi else lo) Hl Hh ltac:(lia)) as (g & i & G & E & _ & C).
  { intros i. destruct (Nat.eqb i 1); lia. }
  exists g, i. split; [exact G|]. split; [exact E|]. exists (IZR hi), (IZR lo). split; [|split].
  - destruct (C 0%nat 1%nat) as (r & x & H); [lia|lia|]. exists r, x. exact H.
  - destruct (C 1%nat 0%nat) as (r & x & H1 & H2 & H3 & H4); [lia|lia|]. exists r, x. split; [exact H1|]. split; [exact H2|]. split; [exact H3|].
    rewrite H4. destruct (Nat.eqb (1 * Z.to_nat n + 0) 1) eqn:X; [apply Nat.eqb_eq in X; lia|reflexivity].
  - intros X. apply eq_IZR in X. lia.
Qed.

Lemma mgauss_negative n lo hi : small lo -> small hi -> (1 <= n)%Z -> (lo < 0)%Z -> (lo <= hi)%Z ->
  exists (g : rng unit) i, pick_ok g /\ mgauss_init_new g n [] [] (Z2f lo) (Z2f hi) tt = (Ok i, tt) /\
    forall a, (a < Z.to_nat n)%nat -> exists v, cov_at i a a v /\ v < 0.
Proof.
  intros Hl Hh Hn Hneg Hle. destruct (mgauss_every n lo hi (fun _ => lo) Hl Hh ltac:(lia)) as (g & i & G & E & _ & C); [intros; lia|].
  exists g, i. split; [exact G|]. split; [exact E|]. intros a Ha. exists (IZR lo). split; [exact (C a a Ha Ha)|apply IZR_lt, Hneg].
Qed.

Lemma mgauss_some_cov {W} (g : rng W) n lo hi w i w' : small lo -> small hi ->
  mgauss_init_new g n [] [] (Z2f lo) (Z2f hi) w = (Ok i, w') ->
  (forall a b, (a < Z.to_nat n)%nat -> (b < Z.to_nat n)%nat -> exists v, cov_at i a b v) /\
  ((0 <= lo)%Z -> forall a v, cov_at i a a v -> 0 <= v) /\
  (lo = hi \/ (n <= 1)%Z -> forall a b u v, cov_at i a b u -> cov_at i b a v -> u = v).
Proof.
  intros Hl Hh E. destruct (mgauss_grid g n lo hi w i w' Hl Hh E) as (_ & _ & Lc & Fc).
  rewrite Forall_forall in Fc.
  assert (G : forall a b v, cov_at i a b v -> (a < Z.to_nat n)%nat /\ (b < Z.to_nat n)%nat /\ exists z, (lo <= z <= hi)%Z /\ v = IZR z).
  { intros a b v (r & x & Hr & Hx & Fx & Rx). destruct (Fc r (nth_error_In _ _ Hr)) as [Lr Gr]. rewrite Forall_forall in Gr.
    destruct (Gr x (nth_error_In _ _ Hx)) as (z & Hz & _ & Rz).
    split; [rewrite <- Lc; apply nth_error_Some; congruence|]. split; [rewrite <- Lr; apply nth_error_Some; congruence|].
    exists z. split; [exact Hz|congruence]. }
  split; [|split].
  - intros a b Ha Hb. destruct (nth_error (mi_cov i) a) as [r|] eqn:Hr; [|apply nth_error_None in Hr; lia].
    destruct (Fc r (nth_error_In _ _ Hr)) as [Lr Gr]. rewrite Forall_forall in Gr.
    destruct (nth_error r b) as [x|] eqn:Hx; [|apply nth_error_None in Hx; lia].
    destruct (Gr x (nth_error_In _ _ Hx)) as (z & _ & Fx & Rx). exists (IZR z), r, x. repeat split; assumption.
  - intros H0 a v Hv. destruct (G a a v Hv) as (_ & _ & z & Hz & ->). apply IZR_le. lia.
  - intros [<- | Hn] a b u v Hu Hv.
    + destruct (G a b u Hu) as (_ & _ & z & Hz & ->). destruct (G b a v Hv) as (_ & _ & z' & Hz' & ->). f_equal. lia.
    + destruct (G a b u Hu) as (Ha & Hb & _). assert (a = b) by lia. subst b.
      destruct Hu as (r & x & Hr & Hx & _ & <-), Hv as (r' & x' & Hr' & Hx' & _ & <-). congruence.
Qed.

Lemma unigauss_met : exists (g : rng unit) i, pick_ok g /\ small (-5) /\ small 5 /\
  unigauss_init_new g 3 [] [] (Z2f (-5)) (Z2f 5) tt = (Ok i, tt) /\ map B2R (gi_means i) = [-5; 5; 0].
Proof.
  assert (S1 : small (-5)) by (unfold small; lia). assert (S2 : small 5) by (unfold small; lia).
  destruct (unigauss_every 3 (-5) 5 (fun i => match i with 0%nat => -5 | 1%nat => 5 | _ => 0 end)%Z S1 S2) as (g & i & G & E & M); [lia|lia| |].
  { intros [|[|i]]; lia. }
  exists g, i. split; [exact G|]. split; [exact S1|]. split; [exact S2|]. split; [exact E|].
  destruct (unigauss_grid g 3 (-5) 5 tt i tt S1 S2 E) as (L & _). cbn in L, M.
  destruct (gi_means i) as [|a [|b [|c [|]]]]; try discriminate L.
  destruct (M 0%nat ltac:(lia)) as (x & X & _ & X'), (M 1%nat ltac:(lia)) as (y & Y & _ & Y'), (M 2%nat ltac:(lia)) as (z & Z & _ & Z').
  cbn in X, Y, Z. cbn [map]. assert (x = a) by congruence. assert (y = b) by congruence. assert (z = c) by congruence. subst. rewrite X', Y', Z'. reflexivity.
Qed.

Lemma mgauss_met : exists (g : rng unit) i, pick_ok g /\ mgauss_init_new g 2 [] [] (Z2f 0) (Z2f 7) tt = (Ok i, tt) /\
  cov_at i 0 0 7 /\ cov_at i 1 1 2 /\ cov_at i 0 1 3 /\ cov_at i 1 0 0.
Proof.
  assert (S1 : small 0) by (unfold small; lia). assert (S2 : small 7) by (unfold small; lia).
  destruct (mgauss_every 2 0 7 (fun i => match i with 0%nat => 7 | 1%nat => 3 | 2%nat => 0 | _ => 2 end)%Z S1 S2) as (g & i & G & E & _ & M); [lia| |].
  { intros [|[|[|i]]]; lia. }
  exists g, i. split; [exact G|]. split; [exact E|].
  repeat split; [apply (M 0%nat 0%nat)|apply (M 1%nat 1%nat)|apply (M 0%nat 1%nat)|apply (M 1%nat 0%nat)]; cbn; lia.
Qed.
