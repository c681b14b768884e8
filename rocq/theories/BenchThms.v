(** Minima of the benchmark functions. *)
From Coq Require Import List ZArith Bool Lia Reals Lra.
From Flocq Require Import Core.
From Verif Require Import PyBase Bench.
Import ListNotations.
Open Scope R_scope.

(** [f] is defined on every vector of dimension [d], never negative, and zero exactly on [opt]. *)
Definition minimum (d : nat) (f : list R -> res R) (opt : list R -> Prop) : Prop :=
  forall x, length x = d -> exists v, f x = Ok v /\ 0 <= v /\ (v = 0 <-> opt x).
Definition all_equal (d : nat) (c : R) (x : list R) : Prop := x = repeat c d.

(** ** one_max *)
Lemma one_max_acc l : forall a, fold_left Z.add l a = (a + one_max l)%Z.
Proof.
  unfold one_max. induction l as [|z l IH]; intros a; cbn [fold_left]; [lia|]. rewrite IH, (IH (0 + z)%Z). lia.
Qed.
Definition binary (z : Z) : Prop := z = 0%Z \/ z = 1%Z.
Theorem one_max_count l : Forall binary l ->
  one_max l = Z.of_nat (count_occ Z.eq_dec l 1%Z) /\ (0 <= one_max l <= Z.of_nat (length l))%Z /\
  (one_max l = Z.of_nat (length l) <-> Forall (fun z => z = 1%Z) l).
Proof.
  intros H. induction H as [|z l Hz H IH].
  - refine (conj eq_refl (conj _ _)); [cbn; lia|]. split; [intros _; constructor|reflexivity].
  - destruct IH as (I1 & I2 & I3). assert (E : one_max (z :: l) = (z + one_max l)%Z) by (unfold one_max at 1; cbn [fold_left]; rewrite one_max_acc; lia).
    rewrite E. destruct Hz as [-> | ->].
    + rewrite count_occ_cons_neq by lia. cbn [length]. split; [lia|]. split; [lia|]. split; [lia|]. intros F. inversion F; lia.
    + rewrite count_occ_cons_eq by lia. cbn [length]. split; [lia|]. split; [lia|]. split.
      * intros G. constructor; [reflexivity|]. apply I3. lia.
      * intros F. inversion F; subst. rewrite (proj2 I3) by assumption. lia.
Qed.

(** ** Sums *)
Fixpoint rsum (l : list R) : R := match l with [] => 0 | a :: l' => a + rsum l' end.
Lemma add_up_rsum f l : forall a, add_up a f l = a + rsum (map f l).
Proof. unfold add_up. induction l as [|i l IH]; intros a; cbn; [ring|]. rewrite IH. ring. Qed.
Lemma rsum_nonneg l : Forall (fun a => 0 <= a) l -> 0 <= rsum l.
Proof. induction 1; cbn; lra. Qed.
Lemma rsum_zero l : Forall (fun a => 0 <= a) l -> rsum l = 0 -> Forall (fun a => a = 0) l.
Proof. induction 1 as [|a l Ha H IH]; cbn; intros E; [constructor|]. pose proof (rsum_nonneg l H). constructor; [lra|apply IH; lra]. Qed.
Lemma rsum_all_zero l : Forall (fun a => a = 0) l -> rsum l = 0.
Proof. induction 1 as [|a l Ha H IH]; cbn; [reflexivity|]. rewrite Ha, IH. ring. Qed.
Lemma rsum_plus {A} (f g : A -> R) l : rsum (map (fun i => f i + g i) l) = rsum (map f l) + rsum (map g l).
Proof. induction l as [|i l IH]; cbn; [ring|]. rewrite IH. ring. Qed.
Lemma rsum_scal {A} c (f : A -> R) l : rsum (map (fun i => c * f i) l) = c * rsum (map f l).
Proof. induction l as [|i l IH]; cbn; [ring|]. rewrite IH. ring. Qed.
Lemma rsum_const {A} c (l : list A) : rsum (map (fun _ => c) l) = INR (length l) * c.
Proof. induction l as [|i l IH]; [cbn; ring|]. cbn [map rsum length]. rewrite IH, S_INR. ring. Qed.
Lemma rsum_ext {A} (f g : A -> R) l : (forall i, In i l -> f i = g i) -> rsum (map f l) = rsum (map g l).
Proof. intros H. f_equal. apply map_ext_in. exact H. Qed.
Lemma rsum_le {A} (f g : A -> R) l : (forall i, In i l -> f i <= g i) -> rsum (map f l) <= rsum (map g l).
Proof. induction l as [|i l IH]; cbn; intros H; [lra|]. pose proof (H i (or_introl eq_refl)). assert (rsum (map f l) <= rsum (map g l)) by (apply IH; auto). lra. Qed.

(** sums of nonnegative terms over an index list *)
Lemma sum_nonneg (f : nat -> R) l : (forall i, In i l -> 0 <= f i) -> 0 <= rsum (map f l).
Proof. intros H. apply rsum_nonneg. apply Forall_forall. intros a Ha. apply in_map_iff in Ha as (i & <- & Hi). auto. Qed.
Lemma sum_zero (f : nat -> R) l : (forall i, In i l -> 0 <= f i) -> (rsum (map f l) = 0 <-> forall i, In i l -> f i = 0).
Proof.
  intros H. split.
  - intros E i Hi. assert (F : Forall (fun a => 0 <= a) (map f l)) by (apply Forall_forall; intros a Ha; apply in_map_iff in Ha as (j & <- & Hj); auto).
    apply (proj1 (Forall_forall _ _) (rsum_zero _ F E)). apply in_map. exact Hi.
  - intros G. apply rsum_all_zero. apply Forall_forall. intros a Ha. apply in_map_iff in Ha as (j & <- & Hj). auto.
Qed.

Lemma in_range a b i : In i (range a b) <-> (a <= i < b)%nat.
Proof. unfold range. rewrite in_seq. lia. Qed.

Lemma all_equal_iff d c x : length x = d -> (all_equal d c x <-> forall i, (i < d)%nat -> get i x = c).
Proof.
  intros HL. unfold all_equal, get. split.
  - intros -> i Hi. apply (repeat_spec d c). apply nth_In. rewrite repeat_length. exact Hi.
  - intros H. apply nth_ext with 0 0; [rewrite repeat_length; exact HL|]. intros i Hi. rewrite HL in Hi. rewrite (H i Hi).
    symmetry. apply (repeat_spec d c). apply nth_In. rewrite repeat_length. exact Hi.
Qed.
Lemma reads_ok d x r : length x = d -> reads d x r = Ok r.
Proof. intros H. unfold reads. rewrite (proj2 (Nat.leb_le _ _)) by lia. reflexivity. Qed.

Lemma sq_nonneg a : 0 <= a ^ 2. Proof. nra. Qed.
Lemma sq_zero a : a ^ 2 = 0 <-> a = 0. Proof. split; [intros H; nra|intros ->; ring]. Qed.

(** shift of the index by one *)
Lemma shift_range (f : nat -> R) d : rsum (map (fun i => f (i - 1)%nat) (range 1 (d + 1))) = rsum (map f (range 0 d)).
Proof.
  unfold range. replace (d + 1 - 1)%nat with d by lia. rewrite Nat.sub_0_r. rewrite <- seq_shift, map_map.
  apply rsum_ext. intros i _. f_equal. lia.
Qed.
Lemma range_split (f : nat -> R) d : (1 <= d)%nat -> rsum (map f (range 0 d)) = f 0%nat + rsum (map f (range 1 d)).
Proof. intros H. unfold range. rewrite Nat.sub_0_r. destruct d; [lia|]. cbn [seq map rsum]. rewrite Nat.sub_succ, Nat.sub_0_r. reflexivity. Qed.
Lemma range_length a b : length (range a b) = (b - a)%nat. Proof. apply seq_length. Qed.

(** ** Discus, Rosenbrock, elliptic *)
Theorem discus_min d : (1 <= d)%nat -> minimum d (discus d) (all_equal d 0).
Proof.
  intros Hd x HL. unfold discus. eexists. split; [apply reads_ok; exact HL|]. rewrite add_up_rsum.
  set (S := rsum _). assert (HS : 0 <= S) by (apply sum_nonneg; intros; apply sq_nonneg). pose proof (sq_nonneg (get 0 x)) as H0.
  split; [nra|]. rewrite (all_equal_iff d 0 x HL). split.
  - intros E i Hi. assert (ES : S = 0) by nra. assert (E0 : get 0 x ^ 2 = 0) by nra. destruct i; [apply sq_zero; exact E0|].
    apply sq_zero. apply (proj1 (sum_zero (fun i => get i x ^ 2) (range 1 d) (fun _ _ => sq_nonneg _)) ES). apply in_range. lia.
  - intros H. rewrite (H 0%nat) by lia. replace S with 0; [ring|]. symmetry. apply sum_zero; [intros; apply sq_nonneg|]. intros i Hi. apply in_range in Hi. rewrite (H i) by lia. ring.
Qed.

Theorem rosenbrock_min d : (2 <= d)%nat -> minimum d (rosenbrock d) (all_equal d 1).
Proof.
  intros Hd x HL. unfold rosenbrock. rewrite (proj2 (Nat.leb_gt _ _)) by lia. eexists. split; [apply reads_ok; exact HL|]. rewrite add_up_rsum, Rplus_0_l.
  assert (HN : forall i, In i (range 0 (d - 1)) -> 0 <= 100 * (get i x ^ 2 - get (i + 1) x) ^ 2 + (get i x - 1) ^ 2).
  { intros i _. pose proof (sq_nonneg (get i x ^ 2 - get (i + 1) x)). pose proof (sq_nonneg (get i x - 1)). lra. }
  split; [apply sum_nonneg; exact HN|]. rewrite (sum_zero _ _ HN), (all_equal_iff d 1 x HL). split.
  - intros H. assert (G : forall i, (i < d - 1)%nat -> get i x = 1 /\ get (i + 1) x = 1).
    { intros i Hi. specialize (H i ltac:(apply in_range; lia)). pose proof (sq_nonneg (get i x ^ 2 - get (i + 1) x)). pose proof (sq_nonneg (get i x - 1)).
      assert (E1 : (get i x - 1) ^ 2 = 0) by lra. assert (E2 : (get i x ^ 2 - get (i + 1) x) ^ 2 = 0) by lra. apply (proj1 (sq_zero _)) in E1. apply (proj1 (sq_zero _)) in E2. assert (E3 : get i x = 1) by lra. rewrite E3 in E2. split; [exact E3|lra]. }
    intros [|i] Hi; [apply (G 0%nat); lia|]. destruct (G i ltac:(lia)) as [_ G2]. rewrite Nat.add_1_r in G2. exact G2.
  - intros H i Hi. apply in_range in Hi. rewrite (H i) by lia. rewrite (H (i + 1)%nat) by lia. ring.
Qed.
Theorem rosenbrock_one x : rosenbrock 1 x = Ok 0.
Proof. reflexivity. Qed.

Theorem elliptic_min d : (2 <= d)%nat -> minimum d elliptic (all_equal d 0).
Proof.
  intros Hd x HL. unfold elliptic. rewrite HL. rewrite (proj2 (Nat.eqb_neq _ _)) by lia. eexists. split; [reflexivity|]. rewrite add_up_rsum, Rplus_0_l.
  rewrite (shift_range (fun i => Rpower (10 ^ 6) (INR i / INR (d - 1)) * get i x ^ 2) d).
  assert (HN : forall i, In i (range 0 d) -> 0 <= Rpower (10 ^ 6) (INR i / INR (d - 1)) * get i x ^ 2).
  { intros i _. apply Rmult_le_pos; [left; apply exp_pos|apply sq_nonneg]. }
  split; [apply sum_nonneg; exact HN|]. rewrite (sum_zero _ _ HN), (all_equal_iff d 0 x HL). split.
  - intros H i Hi. specialize (H i ltac:(apply in_range; lia)). apply Rmult_integral in H as [H|H]; [exfalso; pose proof (exp_pos (INR i / INR (d - 1) * ln (10 ^ 6))); unfold Rpower in H; lra|]. apply sq_zero. exact H.
  - intros H i Hi. apply in_range in Hi. rewrite (H i) by lia. ring.
Qed.
Theorem elliptic_one x : length x = 1%nat -> elliptic x = Raise ZeroDivisionError.
Proof. intros H. unfold elliptic. rewrite H. reflexivity. Qed.

(** ** Rastrigin, Ackley *)
Theorem rastrigin_min d : minimum d (fun x => Ok (rastrigin x)) (all_equal d 0).
Proof.
  intros x HL. eexists. split; [reflexivity|]. unfold rastrigin. rewrite add_up_rsum, Rplus_0_l, HL.
  assert (HN : forall i, In i (range 0 d) -> 0 <= get i x ^ 2 - 10 * cos (2 * PI * get i x) + 10).
  { intros i _. pose proof (COS_bound (2 * PI * get i x)). pose proof (sq_nonneg (get i x)). lra. }
  split; [apply sum_nonneg; exact HN|]. rewrite (sum_zero _ _ HN), (all_equal_iff d 0 x HL). split.
  - intros H i Hi. specialize (H i ltac:(apply in_range; lia)). pose proof (COS_bound (2 * PI * get i x)). pose proof (sq_nonneg (get i x)). apply sq_zero. lra.
  - intros H i Hi. apply in_range in Hi. rewrite (H i) by lia. rewrite Rmult_0_r, cos_0. ring.
Qed.

Lemma div_pos_INR a d : (1 <= d)%nat -> 0 <= a -> 0 <= a / INR d.
Proof. intros Hd Ha. apply Rmult_le_pos; [exact Ha|]. left. apply Rinv_0_lt_compat. apply lt_0_INR. lia. Qed.

Theorem ackley_min d : (1 <= d)%nat -> minimum d (ackley d) (all_equal d 0).
Proof.
  intros Hd x HL. unfold ackley. eexists. split; [apply reads_ok; exact HL|]. rewrite !add_up_rsum, !Rplus_0_l.
  set (S1 := rsum (map (fun i => get i x ^ 2) _)). set (S2 := rsum (map (fun i => cos _) _)).
  assert (HS1 : 0 <= S1) by (apply sum_nonneg; intros; apply sq_nonneg).
  assert (Hdp : 0 < INR d) by (apply lt_0_INR; lia).
  assert (HS2 : S2 <= INR d).
  { unfold S2. eapply Rle_trans; [apply (rsum_le _ (fun _ => 1)); intros; apply COS_bound|]. rewrite rsum_const, range_length. rewrite Nat.sub_0_r. lra. }
  assert (Q2 : S2 / INR d <= 1) by (apply Rmult_le_reg_r with (INR d); [exact Hdp|]; unfold Rdiv; rewrite Rmult_assoc, Rinv_l by lra; lra).
  assert (Q1 : 0 <= S1 / INR d) by (apply div_pos_INR; assumption). pose proof (sqrt_pos (S1 / INR d)) as Qs.
  assert (E1 : exp (- (2 / 10) * sqrt (S1 / INR d)) <= 1).
  { rewrite <- exp_0. destruct (Rle_lt_or_eq_dec _ _ Qs) as [H|H]; [left; apply exp_increasing; lra|rewrite <- H, Rmult_0_r; lra]. }
  assert (E2 : exp (S2 / INR d) <= exp 1) by (destruct (Rle_lt_or_eq_dec _ _ Q2) as [H|H]; [left; apply exp_increasing; exact H|rewrite H; lra]).
  split; [lra|]. rewrite (all_equal_iff d 0 x HL). split.
  - intros E i Hi. assert (Ee : exp (- (2 / 10) * sqrt (S1 / INR d)) = exp 0) by (rewrite exp_0; lra). apply exp_inv in Ee.
    assert (Es : sqrt (S1 / INR d) = 0) by lra. apply sqrt_eq_0 in Es; [|exact Q1]. assert (S1 = 0).
    { replace S1 with (S1 / INR d * INR d) by (field; lra). rewrite Es. ring. }
    apply sq_zero. apply (proj1 (sum_zero (fun i => get i x ^ 2) (range 0 d) (fun _ _ => sq_nonneg _)) H). apply in_range. lia.
  - intros H. assert (Z1 : S1 = 0) by (apply sum_zero; [intros; apply sq_nonneg|]; intros i Hi; apply in_range in Hi; rewrite (H i) by lia; ring).
    assert (Z2 : S2 = INR d).
    { unfold S2. rewrite (rsum_ext _ (fun _ => 1)); [rewrite rsum_const, range_length, Nat.sub_0_r; ring|]. intros i Hi. apply in_range in Hi. rewrite (H i) by lia. rewrite !Rmult_0_l. apply cos_0. }
    rewrite Z1, Z2. replace (0 / INR d) with 0 by (field; lra). rewrite sqrt_0, Rmult_0_r, exp_0. replace (INR d / INR d) with 1 by (field; lra). ring.
Qed.

(** ** HappyCat, HGBat *)
Lemma ppow_nonneg b e : 0 <= ppow b e.
Proof. unfold ppow. destruct (Req_EM_T b 0); [lra|]. left. apply exp_pos. Qed.
Lemma ppow_0 e : ppow 0 e = 0.
Proof. unfold ppow. destruct (Req_EM_T 0 0); [reflexivity|contradiction]. Qed.

Lemma cat_square d x : (1 <= d)%nat -> let a := rsum (map (fun i => get i x ^ 2) (range 0 d)) in let b := rsum (map (fun i => get i x) (range 0 d)) in
  (5 / 10 * a + b) / INR d + 5 / 10 = rsum (map (fun i => (get i x + 1) ^ 2) (range 0 d)) / (2 * INR d).
Proof.
  intros Hd a b. assert (Hdp : 0 < INR d) by (apply lt_0_INR; lia).
  replace (rsum (map (fun i => (get i x + 1) ^ 2) (range 0 d))) with (a + 2 * b + INR d).
  - field. lra.
  - unfold a, b. rewrite <- rsum_scal, <- rsum_plus. replace (INR d) with (rsum (map (fun _ => 1) (range 0 d))) by (rewrite rsum_const, range_length, Nat.sub_0_r; ring).
    rewrite <- rsum_plus. apply rsum_ext. intros i _. ring.
Qed.
Lemma cat_zero d x : (1 <= d)%nat -> length x = d -> (rsum (map (fun i => (get i x + 1) ^ 2) (range 0 d)) / (2 * INR d) = 0 <-> all_equal d (-1) x).
Proof.
  intros Hd HL. assert (Hdp : 0 < INR d) by (apply lt_0_INR; lia). rewrite (all_equal_iff d (-1) x HL).
  assert (HN : forall i, In i (range 0 d) -> 0 <= (get i x + 1) ^ 2) by (intros; apply sq_nonneg). split.
  - intros E i Hi. apply Rmult_integral in E as [E|E]; [|exfalso; assert (0 < / (2 * INR d)) by (apply Rinv_0_lt_compat; lra); lra].
    pose proof (proj1 (sum_zero _ _ HN) E i ltac:(apply in_range; lia)) as G. apply (proj1 (sq_zero _)) in G. lra.
  - intros H. rewrite (proj2 (sum_zero _ _ HN)); [unfold Rdiv; ring|]. intros i Hi. apply in_range in Hi. rewrite (H i) by lia. ring.
Qed.
Lemma cat_nonneg d x : (1 <= d)%nat -> 0 <= rsum (map (fun i => (get i x + 1) ^ 2) (range 0 d)) / (2 * INR d).
Proof.
  intros Hd. assert (Hdp : 0 < INR d) by (apply lt_0_INR; lia). apply Rmult_le_pos; [apply sum_nonneg; intros; apply sq_nonneg|]. left. apply Rinv_0_lt_compat. lra.
Qed.
Lemma minus_ones d x : length x = d -> all_equal d (-1) x -> rsum (map (fun i => get i x ^ 2) (range 0 d)) = INR d /\ rsum (map (fun i => get i x) (range 0 d)) = - INR d.
Proof.
  intros HL H. rewrite (all_equal_iff d (-1) x HL) in H. split.
  - rewrite (rsum_ext _ (fun _ => 1)); [rewrite rsum_const, range_length, Nat.sub_0_r; ring|]. intros i Hi. apply in_range in Hi. rewrite (H i) by lia. ring.
  - rewrite (rsum_ext _ (fun _ => -1)); [rewrite rsum_const, range_length, Nat.sub_0_r; ring|]. intros i Hi. apply in_range in Hi. rewrite (H i) by lia. ring.
Qed.

Theorem happycat_min d : (1 <= d)%nat -> minimum d (happycat d) (all_equal d (-1)).
Proof.
  intros Hd x HL. unfold happycat. eexists. split; [apply reads_ok; exact HL|]. rewrite !add_up_rsum, !Rplus_0_l.
  rewrite (shift_range (fun i => get i x ^ 2)), (shift_range (fun i => get i x)). rewrite (cat_square d x Hd).
  set (p := ppow _ _). assert (Hp : 0 <= p) by apply ppow_nonneg. pose proof (cat_nonneg d x Hd) as HC. split; [lra|]. split.
  - intros E. apply (cat_zero d x Hd HL). lra.
  - intros H. rewrite (proj2 (cat_zero d x Hd HL) H). unfold p. rewrite (proj1 (minus_ones d x HL H)). rewrite Rminus_diag_eq, Rabs_R0, ppow_0 by reflexivity. ring.
Qed.
Theorem hgbat_min d : (1 <= d)%nat -> minimum d (hgbat d) (all_equal d (-1)).
Proof.
  intros Hd x HL. unfold hgbat. eexists. split; [apply reads_ok; exact HL|]. rewrite !add_up_rsum, !Rplus_0_l.
  rewrite (shift_range (fun i => get i x ^ 2)), (shift_range (fun i => get i x)). rewrite Rplus_assoc, (cat_square d x Hd).
  set (p := ppow _ _). assert (Hp : 0 <= p) by apply ppow_nonneg. pose proof (cat_nonneg d x Hd) as HC. split; [lra|]. split.
  - intros E. apply (cat_zero d x Hd HL). lra.
  - intros H. rewrite (proj2 (cat_zero d x Hd HL) H). unfold p. destruct (minus_ones d x HL H) as [-> ->]. replace (INR d ^ 2 - (- INR d) ^ 2) with 0 by ring. rewrite Rabs_R0, ppow_0. ring.
Qed.

(** ** Katsuura: zero wherever twice each coordinate is an integer *)
Lemma pround_int z : pround (IZR z) = z.
Proof. unfold pround. exact (Zrnd_IZR ZnearestE z). Qed.

Lemma ppow_ge1 b e : 1 <= b -> 0 < e -> 1 <= ppow b e /\ (ppow b e = 1 <-> b = 1).
Proof.
  intros Hb He. unfold ppow. destruct (Req_EM_T b 0) as [E|E]; [lra|]. unfold Rpower.
  assert (Hl : 0 <= ln b). { destruct (Rle_lt_or_eq_dec _ _ Hb) as [H|H]; [left; rewrite <- ln_1; apply ln_increasing; lra|rewrite <- H, ln_1; lra]. }
  split.
  - rewrite <- exp_0. destruct (Rle_lt_or_eq_dec _ _ Hl) as [H|H]; [left; apply exp_increasing; nra|rewrite <- H, Rmult_0_r; lra].
  - split; [|intros ->; rewrite ln_1, Rmult_0_r; apply exp_0]. intros H. rewrite <- exp_0 in H. apply exp_inv in H. apply ln_inv; [lra|lra|]. rewrite ln_1. nra.
Qed.
Lemma prod_ge1 (f : nat -> R) l : (forall i, In i l -> 1 <= f i) -> forall a, 1 <= a ->
  1 <= fold_left (fun r i => r * f i) l a /\ (fold_left (fun r i => r * f i) l a = 1 <-> a = 1 /\ forall i, In i l -> f i = 1).
Proof.
  induction l as [|i l IH]; intros H a Ha; cbn [fold_left].
  - split; [exact Ha|]. split; [intros E; split; [exact E|intros i []]|intros [E _]; exact E].
  - pose proof (H i (or_introl eq_refl)) as Hi. destruct (IH (fun j Hj => H j (or_intror Hj)) (a * f i) ltac:(nra)) as [I1 I2]. split; [exact I1|]. rewrite I2. split.
    + intros [E1 E2]. assert (a = 1) by nra. subst a. split; [reflexivity|]. intros j [<-|Hj]; [lra|auto].
    + intros [-> E]. split; [rewrite (E i (or_introl eq_refl)); ring|intros j Hj; apply E; right; exact Hj].
Qed.

Definition half_integers (d : nat) (x : list R) : Prop := forall i, (i < d)%nat -> exists z : Z, 2 * get i x = IZR z.
Lemma pow2_pos j : 0 < 2 ^ j. Proof. apply pow_lt. lra. Qed.
Lemma IZR_pow2 z j : IZR z * 2 ^ j = IZR (z * 2 ^ Z.of_nat j).
Proof. rewrite mult_IZR, pow_IZR. reflexivity. Qed.

Theorem katsuura_min d : (1 <= d)%nat -> minimum d (katsuura d) (half_integers d).
Proof.
  intros Hd x HL. unfold katsuura. eexists. split; [apply reads_ok; exact HL|]. assert (Hdp : 0 < INR d) by (apply lt_0_INR; lia).
  set (aux2 := fun i => add_up 0 (fun j => Rabs (get (i - 1) x * 2 ^ j - IZR (pround (get (i - 1) x * 2 ^ j))) / 2 ^ j) (range 1 32)).
  set (e := 10 / Rpower (INR d) (12 / 10)). assert (He : 0 < e) by (apply Rmult_lt_0_compat; [lra|apply Rinv_0_lt_compat, exp_pos]).
  assert (HT : forall i j, In j (range 1 32) -> 0 <= Rabs (get (i - 1) x * 2 ^ j - IZR (pround (get (i - 1) x * 2 ^ j))) / 2 ^ j).
  { intros i j _. apply Rmult_le_pos; [apply Rabs_pos|]. left. apply Rinv_0_lt_compat, pow2_pos. }
  assert (HA : forall i, 0 <= aux2 i) by (intros i; unfold aux2; rewrite add_up_rsum, Rplus_0_l; apply sum_nonneg; apply HT).
  assert (HF : forall i, In i (range 1 (d + 1)) -> 1 <= ppow (1 + INR i * aux2 i) e).
  { intros i _. apply ppow_ge1; [|exact He]. pose proof (HA i). pose proof (pos_INR i). nra. }
  destruct (prod_ge1 (fun i => ppow (1 + INR i * aux2 i) e) (range 1 (d + 1)) HF 1 ltac:(lra)) as [P1 P2].
  change (fun aux i => aux * ppow (1 + INR i * aux2 i) e) with (fun (r : R) (i : nat) => r * (fun i => ppow (1 + INR i * aux2 i) e) i).
  set (p := fold_left _ _ 1) in *. assert (Hq : 0 < 10 / INR d ^ 2) by (apply Rmult_lt_0_compat; [lra|]; apply Rinv_0_lt_compat, pow_lt, Hdp).
  split; [nra|]. transitivity (p = 1); [split; intros; nra|]. rewrite P2.
  assert (Z2 : forall i, aux2 i = 0 <-> exists z : Z, 2 * get (i - 1) x = IZR z).
  { intros i. unfold aux2. rewrite add_up_rsum, Rplus_0_l, (sum_zero _ _ (HT i)). split.
    - intros H. specialize (H 1%nat ltac:(apply in_range; lia)). apply Rmult_integral in H as [H|H]; [|exfalso; pose proof (Rinv_0_lt_compat _ (pow2_pos 1)); lra].
      exists (pround (get (i - 1) x * 2 ^ 1)). destruct (Req_dec (get (i - 1) x * 2 ^ 1 - IZR (pround (get (i - 1) x * 2 ^ 1))) 0) as [E|E]; [lra|]. apply Rabs_no_R0 in E. contradiction.
    - intros (z & Hz) [|j] Hj; apply in_range in Hj; [lia|]. assert (E : get (i - 1) x * 2 ^ S j = IZR (z * 2 ^ Z.of_nat j)).
      { rewrite <- IZR_pow2, <- Hz. cbn [pow]. ring. }
      rewrite E, pround_int, Rminus_diag_eq, Rabs_R0 by reflexivity. unfold Rdiv. ring. }
  split.
  - intros [_ H] i Hi. specialize (H (S i) ltac:(apply in_range; lia)). apply ppow_ge1 in H; [| |exact He].
    + assert (E : INR (S i) * aux2 (S i) = 0) by lra. apply Rmult_integral in E as [E|E]; [exfalso; pose proof (lt_0_INR (S i) ltac:(lia)); lra|].
      apply Z2 in E. rewrite Nat.sub_succ, Nat.sub_0_r in E. exact E.
    + pose proof (HA (S i)). pose proof (pos_INR (S i)). nra.
  - intros H. split; [reflexivity|]. intros i Hi. apply in_range in Hi. assert (E : aux2 i = 0) by (apply Z2; apply H; lia). rewrite E, Rmult_0_r, Rplus_0_r.
    apply ppow_ge1; [lra|exact He|reflexivity].
Qed.

(** ** Expanded Scaffer F6 *)
Lemma scaffer_min x y : 0 <= scaffer_f6 x y /\ (scaffer_f6 x y = 0 <-> x = 0 /\ y = 0).
Proof.
  unfold scaffer_f6. set (r := x ^ 2 + y ^ 2). assert (Hr : 0 <= r) by (unfold r; nra). set (s := sin (sqrt r) ^ 2). assert (Hs : 0 <= s) by apply sq_nonneg.
  set (q := (1 + 1 / 1000 * r) ^ 2). assert (Hq : 1 <= q) by (unfold q; nra).
  assert (E : 5 / 10 + (s - 5 / 10) / q = (s + 5 / 10 * (q - 1)) / q) by (field; lra). rewrite E.
  split; [apply Rmult_le_pos; [nra|left; apply Rinv_0_lt_compat; lra]|]. split.
  - intros H. apply Rmult_integral in H as [H|H]; [|exfalso; pose proof (Rinv_0_lt_compat q ltac:(lra)); lra]. assert (q = 1) by nra. unfold q in H0. assert (r = 0) by nra. unfold r in H1. split; nra.
  - intros [-> ->]. unfold s, q, r. replace (0 ^ 2 + 0 ^ 2) with 0 by ring. rewrite sqrt_0, sin_0. field.
Qed.

Theorem scaffer_expanded_min d : (1 <= d)%nat -> minimum d (expanded_scaffer d) (all_equal d 0).
Proof.
  intros Hd x HL. unfold expanded_scaffer. eexists. split; [apply reads_ok; exact HL|]. rewrite add_up_rsum, Rplus_0_l.
  assert (HN : forall i, In i (range 1 d) -> 0 <= scaffer_f6 (get (i - 1) x) (get i x)) by (intros; apply scaffer_min).
  pose proof (sum_nonneg _ _ HN) as HS. pose proof (proj1 (scaffer_min (get (d - 1) x) (get 0 x))) as HL2. split; [lra|]. rewrite (all_equal_iff d 0 x HL). split.
  - intros E i Hi. assert (E1 : rsum (map (fun i => scaffer_f6 (get (i - 1) x) (get i x)) (range 1 d)) = 0) by lra.
    assert (E2 : scaffer_f6 (get (d - 1) x) (get 0 x) = 0) by lra. apply scaffer_min in E2. destruct i as [|i]; [apply E2|].
    pose proof (proj1 (sum_zero _ _ HN) E1 (S i) ltac:(apply in_range; lia)) as G. apply scaffer_min in G. apply G.
  - intros H. rewrite (proj2 (sum_zero _ _ HN)).
    + rewrite (proj2 (proj2 (scaffer_min _ _))); [ring|]. split; apply H; lia.
    + intros i Hi. apply in_range in Hi. apply scaffer_min. split; apply H; lia.
Qed.
