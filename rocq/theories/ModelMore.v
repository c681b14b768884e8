(** Combined statements about the probabilistic models, in the form the property files use. *)
From Coq Require Import String List ZArith Bool Lia Reals Lra.
From Flocq Require Import Core IEEE754.BinarySingleNaN.
From Verif Require Import PyBase B64 B64More NdArray Rand RandThms Models Inits ModelThms Kahan CatThms.
Import ListNotations.
Open Scope nat_scope.

(* ------------------------------------------------------------------ *)
(** ** UniBin *)

(** A model as its constructor and any number of learns leave it. *)
Definition unibin_made (n : nat) (upper lower : f64) (m : unibin) : Prop :=
  flt lower upper = true /\ ub_n m = n /\ ub_lo m = lower /\ ub_hi m = upper.

Lemma unibin_made_new n upper lower m : unibin_new n upper lower = Ok m -> unibin_made n upper lower m.
Proof. unfold unibin_new. destruct (flt lower upper) eqn:E; [|discriminate]. intros H. injection H as <-. repeat split; auto. Qed.

Lemma unibin_new_iff n upper lower : (exists m, unibin_new n upper lower = Ok m) <-> flt lower upper = true.
Proof. unfold unibin_new. destruct (flt lower upper); split; intros H; [reflexivity|eauto|destruct H as [m H]; discriminate|discriminate]. Qed.

Lemma unibin_made_learn n upper lower m d r m' :
  unibin_made n upper lower m -> unibin_learn d m = (r, m') -> unibin_made n upper lower m'.
Proof.
  intros (A & B & C & D) H. unfold unibin_learn in H. destruct (unibin_probs _ _ _); injection H as <- <-; repeat split; auto.
Qed.

Lemma unibin_bounds_made n upper lower m d m' :
  unibin_made n upper lower m -> unibin_learn d m = (Ok tt, m') ->
  Forall (fun p => isnan p = false -> fle lower p = true /\ fle p upper = true) (ub_pm m').
Proof. intros (A & B & <- & <-) H. eapply unibin_bounds; eassumption. Qed.

Lemma unibin_bits_made n upper lower m d :
  unibin_made n upper lower m -> a_nc d = n -> Forall (bit_row n) (a_rows d) -> a_rows d <> [] ->
  exists m', unibin_learn d m = (Ok tt, m') /\ List.length (ub_pm m') = n /\
    forall j, j < n -> exists p, nth_error (ub_pm m') j = Some p /\
      clamped lower upper (fdiv (Z2f (Z.of_nat (ones_in j (a_rows d)))) (Z2f (Z.of_nat (List.length (a_rows d))))) p.
Proof.
  intros (A & B & <- & <-) Hn Hr Hne. destruct (unibin_bits d m n A Hn Hr Hne) as (m' & H & _ & _ & _ & H1 & H2). eauto.
Qed.

Lemma ones_in_le j rs : ones_in j rs <= List.length rs.
Proof. induction rs as [|r rs IH]; cbn; [lia|]. destruct (nth_error r j) as [[[|[| |]|]| |]|]; lia. Qed.

Lemma clamped_not_nan lo hi q p : clamped lo hi q p -> isnan q = false -> flt lo hi = true -> isnan p = false /\ fle lo p = true /\ fle p hi = true.
Proof.
  intros (H1 & H2 & H3) Nq Hb. destruct (flt_not_nan _ _ Hb) as [Nl Nh].
  destruct (flt q lo) eqn:E1.
  - rewrite (H1 eq_refl). split; [exact Nl|]. split; [apply fle_refl, Nl|apply flt_fle, Hb].
  - destruct (flt hi q) eqn:E2.
    + rewrite (H2 eq_refl). split; [exact Nh|]. split; [apply flt_fle, Hb|apply fle_refl, Nh].
    + assert (A : fle lo q = true) by (apply flt_false_fle; assumption).
      assert (B : fle q hi = true) by (apply flt_false_fle; assumption).
      rewrite (H3 A B). auto.
Qed.

(** No value is out of reach: with the raw draw [u] for row [i], column [j], a [u] under the
    lower bound gives a one, a [u] not under the upper bound gives a zero. *)
Lemma unibin_alive n upper lower m d :
  unibin_made n upper lower m -> a_nc d = n -> Forall (bit_row n) (a_rows d) -> a_rows d <> [] ->
  (Z.of_nat (List.length (a_rows d)) <= 2 ^ 53)%Z ->
  exists m', unibin_learn d m = (Ok tt, m') /\
  forall W (g : rng W) size w, (0 <= size)%Z ->
  exists a w', unibin_sample g m' size w = (Ok a, w') /\ bit_arr n a /\ a_len a = Z.to_nat size /\
    forall i j, i < Z.to_nat size -> j < n ->
      let u := fst (g_unif g (Z.to_nat size) n w) i j in
      exists c, nth_error (nth i (a_rows a) []) j = Some c /\
        (flt u lower = true -> c = CI 1) /\ (fle upper u = true -> c = CI 0).
Proof.
  intros Hm Hn Hr Hne Hlen. destruct (unibin_bits_made n upper lower m d Hm Hn Hr Hne) as (m' & Hl & Hlp & Hp).
  exists m'. split; [exact Hl|]. intros W g size w Hs.
  destruct (unibin_made_learn _ _ _ _ _ _ _ Hm Hl) as (Hb & Hn' & Hlo & Hhi).
  destruct (unibin_sample g m' size w) as [[a|e] w'] eqn:E.
  - exists a, w'. split; [reflexivity|]. apply unibin_sample_spec in E as (_ & E1 & E2 & E3 & E4 & E5).
    rewrite Hn', Hlp in E3. unfold bres in E3. rewrite Nat.eqb_refl in E3. injection E3 as E3.
    split; [split; [exact E1|split; [exact E3|rewrite <- E3 at 1; exact E4]]|]. split; [exact E2|]. intros i j Hi Hj u.
    rewrite E5 by lia. eexists. split; [reflexivity|].
    rewrite Hn', Hlp. destruct (Hp j Hj) as (p & Hpj & Hc).
    assert (Hbi : forall k, j < k -> bidx k j = j).
    { intros k Hk. unfold bidx. destruct (Nat.eqb_spec k 1); [subst; lia|reflexivity]. }
    rewrite (Hbi n Hj). rewrite (nth_error_nth _ _ fnan Hpj).
    assert (Nq : isnan (fdiv (Z2f (Z.of_nat (ones_in j (a_rows d)))) (Z2f (Z.of_nat (List.length (a_rows d))))) = false).
    { apply isfin_not_nan. eapply prob_R, freq_near; [destruct (a_rows d); [congruence|cbn; lia]|apply ones_in_le|exact Hlen]. }
    destruct (clamped_not_nan _ _ _ _ Hc Nq Hb) as (_ & C1 & C2). fold u. split; intros Hu.
    + rewrite (flt_fle_trans _ _ _ Hu C1). reflexivity.
    + assert (F : flt u p = false) by (apply fle_flt_false; eapply fle_trans; eassumption). rewrite F. reflexivity.
  - exfalso. unfold unibin_sample in E. destruct (Z.ltb_spec size 0); [lia|]. destruct (g_unif g (Z.to_nat size) (ub_n m') w) as [u w1].
    rewrite Hn', Hlp in E. unfold bres in E. rewrite Nat.eqb_refl in E. discriminate.
Qed.

(* ------------------------------------------------------------------ *)
(** ** MultiGauss *)

(** A symmetric bilinear form from a matrix. *)
Open Scope R_scope.
Definition quad (n : nat) (m : list (list R)) (v : nat -> R) : R :=
  Rsum (map (fun i => Rsum (map (fun j => v i * v j * match entry m i j with Some x => x | None => 0 end) (seq 0 n))) (seq 0 n)).

Lemma Rsum_two (f : nat -> R) n i j : (i < n)%nat -> (j < n)%nat -> i <> j -> (forall k, k <> i -> k <> j -> f k = 0) ->
  Rsum (map f (seq 0 n)) = f i + f j.
Proof.
  assert (Hz : forall m s, (forall k, (s <= k < s + m)%nat -> f k = 0) -> Rsum (map f (seq s m)) = 0).
  { induction m as [|m IH]; intros s Hk; [reflexivity|]. cbn [seq map]. unfold Rsum in *. cbn [fold_right]. rewrite Hk by lia. rewrite IH; [lra|]. intros k Hk'. apply Hk. lia. }
  assert (Ho : forall m s a, (s <= a < s + m)%nat -> (forall k, k <> a -> (s <= k < s + m)%nat -> f k = 0) -> Rsum (map f (seq s m)) = f a).
  { induction m as [|m IH]; intros s a Ha Hk; [lia|]. cbn [seq map]. unfold Rsum in *. cbn [fold_right].
    destruct (Nat.eq_dec s a) as [->|Hne].
    - fold (Rsum (map f (seq (S a) m))). rewrite Hz; [lra|]. intros k Hk'. apply Hk; lia.
    - rewrite (Hk s) by lia. rewrite (IH (S s) a); [lra|lia|]. intros k Hk1 Hk2. apply Hk; lia. }
  assert (Ht : forall m s a b, (s <= a < s + m)%nat -> (s <= b < s + m)%nat -> a <> b -> (forall k, k <> a -> k <> b -> (s <= k < s + m)%nat -> f k = 0) -> Rsum (map f (seq s m)) = f a + f b).
  { induction m as [|m IH]; intros s a b Ha Hb Hab Hk; [lia|]. cbn [seq map]. change (Rsum (f s :: map f (seq (S s) m))) with (f s + Rsum (map f (seq (S s) m))).
    destruct (Nat.eq_dec s a) as [->|Hne].
    - rewrite (Ho m (S a) b); [lra|lia|]. intros k Hk1 Hk2. apply Hk; lia.
    - destruct (Nat.eq_dec s b) as [->|Hne'].
      + rewrite (Ho m (S b) a); [lra|lia|]. intros k Hk1 Hk2. apply Hk; lia.
      + rewrite (Hk s) by lia. rewrite (IH (S s) a b); [lra|lia|lia|exact Hab|]. intros k Hk1 Hk2 Hk3. apply Hk; lia. }
  intros Hi Hj Hij Hf. apply Ht; try lia. intros k Hk1 Hk2 _. apply Hf; assumption.
Qed.

Lemma pop_var_const x c : x <> [] -> (forall v, In v x -> v = c) -> pop_var x = 0.
Proof.
  intros Hne H.
  assert (Ha : avg x = c).
  { assert (B : c <= mean R_ops x <= c) by (apply mean_between; [exact Hne|]; intros v Hv; rewrite (H v Hv); lra). rewrite mean_avg in B. lra. }
  unfold pop_var. rewrite Ha.
  assert (Hs : Rsum (map (fun v => (v - c) * (v - c)) x) = 0).
  { clear Hne Ha. induction x as [|v x IH]; [reflexivity|]. cbn [map]. change (Rsum (?a :: ?l)) with (a + Rsum l).
    rewrite IH by (intros u Hu; apply H; right; exact Hu). rewrite (H v (or_introl eq_refl)). ring. }
  rewrite Hs. unfold Rdiv. ring.
Qed.

(** With a constant column in the training data the diagonal entry of that variable is zero
    whatever the lower factor, and with a positive lower factor the matrix is indefinite. *)
Lemma multigauss_degenerate lower upper nc (d : list (list R)) p p' i j c :
  multigauss_learn R_ops lower upper nc (real_col nc d) p = (Ok tt, p') ->
  0 < lower -> lower <= upper -> d <> [] -> (i < nc)%nat -> (j < nc)%nat -> i <> j ->
  (forall r, In r d -> nth i r 0 = c) ->
  exists m, mg_cov p' = CovMat m /\ entry m i i = Some 0 /\ exists v, quad nc m v < 0.
Proof.
  intros H Hl Hu Hd Hi Hj Hij Hc. apply multigauss_ok in H as (_ & _ & _ & cols & Hcols & Hlc & Hcov).
  assert (Hcol : forall k, (k < nc)%nat -> nth k cols [] = map (fun r => nth k r 0) d).
  { intros k Hk. apply rmapM_Forall2 in Hcols.
    assert (G : forall l cs m z, Forall2 (fun (x : nat) (y : list R) => real_col nc d x = Ok y) l cs -> nth_error l m = Some z -> exists y, nth_error cs m = Some y /\ real_col nc d z = Ok y).
    { clear. intros l cs m z F. revert m. induction F as [|a b l cs Hab F IH]; intros [|m] Hm; cbn in *; try discriminate; [injection Hm as <-; eauto|eauto]. }
    destruct (G _ _ k k Hcols) as (y & Hy & Hy').
    { rewrite (nth_error_nth' _ 0%nat) by (rewrite seq_length; exact Hk). rewrite seq_nth by exact Hk. reflexivity. }
 rewrite (nth_error_nth _ _ [] Hy). unfold real_col in Hy'. destruct (Nat.ltb_spec k nc); [|lia]. injection Hy' as <-. reflexivity. }
  exists (cov_matrix R_ops lower upper cols). split; [exact Hcov|].
  assert (E : forall a b, (a < nc)%nat -> (b < nc)%nat -> entry (cov_matrix R_ops lower upper cols) a b =
      Some (if Nat.eqb a b then std R_ops (nth a cols []) else clamped_cov R_ops lower upper (nth a cols []) (nth b cols []))).
  { intros a b Ha Hb. apply entry_cov_matrix; lia. }
  assert (Hii : entry (cov_matrix R_ops lower upper cols) i i = Some 0).
  { rewrite E by assumption. rewrite Nat.eqb_refl. f_equal. rewrite std_pop, Hcol by exact Hi. rewrite (pop_var_const _ c), sqrt_0; [reflexivity|destruct d; [congruence|discriminate]|].
    intros v Hv. apply in_map_iff in Hv as (r & <- & Hr). apply Hc, Hr. }
  split; [exact Hii|].
  set (cij := clamped_cov R_ops lower upper (nth i cols []) (nth j cols [])).
  set (cji := clamped_cov R_ops lower upper (nth j cols []) (nth i cols [])).
  set (s := std R_ops (nth j cols [])).
  assert (Hpos : forall x y, 0 < clamped_cov R_ops lower upper x y).
  { intros x y. unfold clamped_cov. rewrite lower_to_min, raise_to_max. apply Rmin_glb_lt; [lra|]. eapply Rlt_le_trans; [exact Hl|apply Rmax_l]. }
  pose proof (Hpos (nth i cols []) (nth j cols [])) as P1. pose proof (Hpos (nth j cols []) (nth i cols [])) as P2. fold cij in P1. fold cji in P2.
  exists (fun k => if Nat.eqb k i then - (s + 1) / (cij + cji) else if Nat.eqb k j then 1 else 0).
  set (v := fun k => if Nat.eqb k i then - (s + 1) / (cij + cji) else if Nat.eqb k j then 1 else 0).
  assert (Vi : v i = - (s + 1) / (cij + cji)) by (unfold v; rewrite Nat.eqb_refl; reflexivity).
  assert (Vj : v j = 1) by (unfold v; rewrite (proj2 (Nat.eqb_neq j i)) by congruence; rewrite Nat.eqb_refl; reflexivity).
  assert (Vk : forall k, k <> i -> k <> j -> v k = 0).
  { intros k H1 H2. unfold v. rewrite (proj2 (Nat.eqb_neq k i)) by exact H1. rewrite (proj2 (Nat.eqb_neq k j)) by exact H2. reflexivity. }
  unfold quad.
  rewrite (Rsum_two _ nc i j Hi Hj Hij).
  2:{ intros k H1 H2. rewrite (Vk k H1 H2). generalize (seq 0 nc) as l. induction l as [|a l IH]; [reflexivity|].
      cbn [map]. change (Rsum (?x :: ?l)) with (x + Rsum l). rewrite IH. ring. }
  rewrite !(Rsum_two _ nc i j Hi Hj Hij).
  2,3: intros k H1 H2; rewrite (Vk k H1 H2); ring.
  rewrite Hii, !E by assumption. rewrite Nat.eqb_refl. rewrite (proj2 (Nat.eqb_neq i j)) by exact Hij. rewrite (proj2 (Nat.eqb_neq j i)) by congruence.
  fold cij. fold cji. fold s. rewrite Vi, Vj.
  replace (- (s + 1) / (cij + cji) * (- (s + 1) / (cij + cji)) * 0 + - (s + 1) / (cij + cji) * 1 * cij + (1 * (- (s + 1) / (cij + cji)) * cji + 1 * 1 * s)) with (-1); [lra|].
  field. lra.
Qed.

(** In exact arithmetic: the diagonal holds population standard deviations (not variances, not
    bounded below), the rest sample covariances forced into the bounds. *)
Lemma multigauss_real lower upper nc (d : list (list R)) p p' :
  multigauss_learn R_ops lower upper nc (real_col nc d) p = (Ok tt, p') -> (2 <= List.length d)%nat ->
  (forall k, (k < List.length (mg_means p))%nat -> nth_error (mg_means p') k = Some (avg (map (fun r => nth k r 0) d))) /\
  exists m, mg_cov p' = CovMat m /\ List.length m = nc /\
    forall i j, (i < nc)%nat -> (j < nc)%nat -> entry m i j =
      Some (if Nat.eqb i j then sqrt (pop_var (map (fun r => nth i r 0) d))
            else Rmin upper (Rmax lower (sample_cov (map (fun r => nth i r 0) d) (map (fun r => nth j r 0) d)))).
Proof.
  intros H Hd2. apply multigauss_ok in H as (_ & _ & Hm & cols & Hcols & Hlc & Hcov).
  assert (Hcol : forall k, (k < nc)%nat -> nth k cols [] = map (fun r => nth k r 0) d).
  { intros k Hk. apply rmapM_Forall2 in Hcols.
    assert (G : forall l cs m z, Forall2 (fun (x : nat) (y : list R) => real_col nc d x = Ok y) l cs -> nth_error l m = Some z -> exists y, nth_error cs m = Some y /\ real_col nc d z = Ok y).
    { clear. intros l cs m z F. revert m. induction F as [|a b l cs Hab F IH]; intros [|m] Hm; cbn in *; try discriminate; [injection Hm as <-; eauto|eauto]. }
    destruct (G _ _ k k Hcols) as (y & Hy & Hy').
    { rewrite (nth_error_nth' _ 0%nat) by (rewrite seq_length; exact Hk). rewrite seq_nth by exact Hk. reflexivity. }
    rewrite (nth_error_nth _ _ [] Hy). unfold real_col in Hy'. destruct (Nat.ltb_spec k nc); [|lia]. injection Hy' as <-. reflexivity. }
  split.
  - intros k Hk. destruct (Hm k Hk) as (x & Hx & ->). unfold real_col in Hx. destruct (Nat.ltb k nc); [|discriminate].
    injection Hx as <-. rewrite mean_avg. reflexivity.
  - eexists. split; [exact Hcov|]. split; [unfold cov_matrix; rewrite tabulate_length; exact Hlc|]. intros i j Hi Hj.
    rewrite entry_cov_matrix by lia. f_equal. rewrite !Hcol by assumption. destruct (Nat.eqb i j); [apply std_pop|].
    unfold clamped_cov. rewrite lower_to_min, raise_to_max, cov_entry_sample by (rewrite map_length; exact Hd2). reflexivity.
Qed.
