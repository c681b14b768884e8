(** The benchmark functions in binary64: values at the textbook minimum and signs. *)
From Coq Require Import List ZArith Bool Lia Reals Lra.
From Flocq Require Import Core IEEE754.BinarySingleNaN.
From Verif Require Import PyBase B64 B64More Rand Trunc Sign FloatLow BenchFloat.
Import ListNotations.
Open Scope R_scope.

(* ---------------- what is assumed of the C library ---------------- *)
(** Squares are not negative, a number from one upwards has a square from one upwards, and
    the squares of 0, 1 and -1 are exact. *)
Definition squares_ok (m : libm) : Prop :=
  (forall v, at_least fzero (m_sq m v)) /\ (forall v, at_least fone v -> at_least fone (m_sq m v)) /\
  m_sq m fzero = fzero /\ m_sq m fone = fone /\ m_sq m (Z2f (-1)) = fone.
(** Powers of numbers that are not negative are not negative; those of numbers from one
    upwards with exponents that are not negative are from one upwards; powers of a million with
    exponents in [0, 1] are finite; 1**e is 1, and 0**e is 0 for the exponents 1/4 and 1/2. *)
Definition powers_ok (m : libm) : Prop :=
  (forall b e, at_least fzero b -> at_least fzero (m_pow m b e)) /\
  (forall b e, at_least fone b -> at_least fzero e -> at_least fone (m_pow m b e)) /\
  (forall e, fle fzero e = true -> fle e fone = true -> isfin (m_pow m (Z2f 1000000) e) = true) /\
  (forall e, m_pow m fone e = fone) /\ m_pow m fzero (lit 1 (-2)) = fzero /\ m_pow m fzero half = fzero.
(** cos is at most one and 1 at 0; sin and round are 0 at 0; exp is 1 at -0.0 and np.e at 1. *)
Definition trig_ok (m : libm) : Prop :=
  (forall v, at_most fone (m_cos m v)) /\ m_cos m fzero = fone /\ m_sin m fzero = fzero /\ m_round m fzero = fzero.
Definition exp_ok (m : libm) : Prop := m_exp m (fopp fzero) = fone /\ m_exp m fone = np_e.
Definition libm_ok (m : libm) : Prop := squares_ok m /\ powers_ok m /\ trig_ok m /\ exp_ok m.
(** ... and squares are rounded correctly. *)
Definition squares_rounded (m : libm) : Prop := forall v, m_sq m v = fmul v v.

Definition never_below_zero (r : res f64) : Prop := forall v, r = Ok v -> flt v (Z2f 0) = false.

(* ---------------- numbers ---------------- *)
Lemma half_R : isfin half = true /\ B2R half = / 2.
Proof. split; [vm_compute; reflexivity|]. unfold half. cbn. unfold F2R. cbn. lra. Qed.
Lemma minus_half_R : isfin (lit (-1) (-1)) = true /\ B2R (lit (-1) (-1)) = - / 2.
Proof. split; [vm_compute; reflexivity|]. cbn. unfold F2R. cbn. lra. Qed.
Lemma small_Z z : (Z.abs z <= 2 ^ 53)%Z -> isfin (Z2f z) = true /\ B2R (Z2f z) = IZR z.
Proof. intros H. destruct (Z2f_exact z H). split; assumption. Qed.
Lemma nat_nonneg n : at_least fzero (nat_f n).
Proof.
  assert (N : isnan (nat_f n) = false) by apply Z2f_not_nan. right. unfold nat_f in *.
  pose proof (Z2f_sign n) as S. destruct (Z2f (Z.of_nat n)) as [[]|[]| |[] mm e Hm]; try discriminate; reflexivity.
Qed.
Lemma Z_nonneg z : (0 <= z)%Z -> at_least fzero (Z2f z).
Proof. intros H. rewrite <- (Z2Nat.id z H). apply nat_nonneg. Qed.
Lemma signed_at_least v : neg_signed v = false -> at_least fzero v.
Proof. destruct v as [[]|[]| |[] mm e Hm]; intros H; try discriminate; [right|right|left|right]; reflexivity. Qed.
Lemma zero_Z2f : Z2f 0 = fzero.
Proof. vm_compute. reflexivity. Qed.
Lemma add_nonneg a b : at_least fzero a -> at_least fzero b -> at_least fzero (fadd a b).
Proof. apply add_at_least; try reflexivity. cbn. lra. Qed.
Lemma mul_nonneg a b : at_least fzero a -> at_least fzero b -> at_least fzero (fmul a b).
Proof. apply mul_at_least; try reflexivity; cbn; try lra. intros x y Hx Hy. apply Rmult_le_pos; assumption. Qed.
Lemma addf_nonneg f l : (forall i, at_least fzero (f i)) -> forall a, at_least fzero a -> at_least fzero (addf a f l).
Proof. intros H. induction l as [|i l IH]; intros a Ha; [exact Ha|]. apply IH, add_nonneg; [exact Ha|apply H]. Qed.
Lemma addf_zero f l : (forall i, In i l -> f i = fzero) -> addf fzero f l = fzero.
Proof.
  induction l as [|i l IH]; intros H; [reflexivity|]. unfold addf. cbn [fold_left]. rewrite H by (left; reflexivity).
  apply IH. intros j Hj. apply H. right. exact Hj.
Qed.
Lemma fabs_nonneg v : at_least fzero (fabs v).
Proof. destruct v as [s|s| |s mm e Hm]; unfold fabs; cbn [Babs]; [right; reflexivity|right; reflexivity|left; reflexivity|right; reflexivity]. Qed.
Lemma reads_below d x r : at_least fzero r -> never_below_zero (reads_f d x r).
Proof.
  intros H v E. unfold reads_f in E. destruct (Nat.leb d (length x)); [|discriminate].
  assert (r = v) by congruence. subst v. rewrite zero_Z2f. apply at_least_not_below, H.
Qed.
Lemma ok_below r : at_least fzero r -> never_below_zero (Ok r).
Proof. intros H v E. assert (r = v) by congruence. subst v. rewrite zero_Z2f. apply at_least_not_below, H. Qed.

Section Signs.
Variable (m : libm).
Hypothesis Hm : libm_ok m.
Lemma sq_nonneg v : at_least fzero (m_sq m v). Proof. apply Hm. Qed.

Lemma bent_sign d x : never_below_zero (bent_cigar_f m d x).
Proof.
  apply reads_below. assert (H : at_least fzero (addf (m_sq m (getf 0 x)) (fun i => m_sq m (getf i x)) (span 1 d)))
    by (apply addf_nonneg; [intros i; apply sq_nonneg|apply sq_nonneg]).
  apply add_nonneg; [exact H|apply mul_nonneg; [exact H|apply (Z_nonneg 1000000); lia]].
Qed.
Lemma discus_sign d x : never_below_zero (discus_f m d x).
Proof. apply reads_below, addf_nonneg; [intros i; apply sq_nonneg|]. apply mul_nonneg; [apply (Z_nonneg 1000000); lia|apply sq_nonneg]. Qed.
Lemma rosenbrock_sign d x : never_below_zero (rosenbrock_f m d x).
Proof.
  unfold rosenbrock_f. cbv zeta.
  match goal with |- context [Ok ?r] => assert (H : at_least fzero r) end.
  { apply addf_nonneg; [|apply at_least_refl]. intros i. apply add_nonneg; [apply mul_nonneg; [apply (Z_nonneg 100); lia|apply sq_nonneg]|apply sq_nonneg]. }
  destruct (Nat.leb d 1); [apply ok_below, H|apply reads_below, H].
Qed.
Lemma griewank_sign d x : never_below_zero (griewank_f m d x).
Proof.
  apply reads_below. apply (sub_at_least fzero fzero fzero); try reflexivity.
  - cbn. lra.
  - apply addf_nonneg; [|apply at_least_refl]. intros i. destruct (small_Z 4000) as [F R]; [lia|].
    apply div_nonneg; [apply sq_nonneg|exact F|rewrite R; lra].
  - assert (G : forall l a, (isnan a = true \/ exists s, a = B754_zero s) -> 
       let r := fold_left (fun aux i => fmul aux (fadd (m_cos m (fdiv (getf (i - 1) x) (fsqrt (nat_f i)))) fone)) l a in
       isnan r = true \/ exists s, r = B754_zero s).
    { induction l as [|i l IH]; intros a Ha; [exact Ha|]. cbv zeta. cbn [fold_left]. apply IH.
      set (q := fadd _ _). destruct Ha as [N|[s ->]].
      - left. destruct a; try discriminate. destruct q; reflexivity.
      - destruct q; [right; eexists; reflexivity|left; reflexivity|left; reflexivity|right; eexists; reflexivity]. }
    destruct (G (span 1 d) fzero) as [N|[s E]]; [right; exists false; reflexivity|left; exact N|].
    rewrite E. right. destruct s; reflexivity.
Qed.
Lemma cos_bound v : at_most (Z2f 10) (fmul (Z2f 10) (m_cos m v)).
Proof.
  destruct Hm as (_ & _ & (Hc & _) & _). specialize (Hc v). set (c := m_cos m v) in *. destruct (small_Z 10) as [F R]; [lia|].
  destruct Hc as [N|H]; [left; destruct c; try discriminate; reflexivity|].
  right. rewrite fmul_comm. assert (E : fle (fmul fone (Z2f 10)) (Z2f 10) = true) by (vm_compute; reflexivity).
  apply fle_trans with (2 := E). apply fmul_pos_mono; [exact F|rewrite R; lra|exact H].
Qed.
Lemma rastrigin_sign x : never_below_zero (Ok (rastrigin_f m x)).
Proof.
  apply ok_below, addf_nonneg; [|apply at_least_refl]. intros i. destruct (small_Z 10) as [F R]; [lia|]. destruct (small_Z (-10)) as [F' R']; [lia|].
  apply (add_at_least (Z2f (-10)) (Z2f 10) fzero); try assumption; try reflexivity; [rewrite R, R'; cbn; lra| |apply at_least_refl].
  apply (sub_at_least fzero (Z2f 10) (Z2f (-10))); try assumption; try reflexivity; [rewrite R, R'; cbn; lra|apply sq_nonneg|apply cos_bound].
Qed.
Lemma elliptic_sign x : never_below_zero (elliptic_f m x).
Proof.
  unfold elliptic_f. destruct (Nat.eqb (length x) 1); [intros v; discriminate|].
  apply ok_below, addf_nonneg; [|apply at_least_refl]. intros i. apply mul_nonneg; [|apply sq_nonneg].
  apply Hm. apply (Z_nonneg 1000000); lia.
Qed.
Lemma one_at_least n : (1 <= n)%nat -> (Z.of_nat n <= 2 ^ 53)%Z -> at_least fone (nat_f n).
Proof.
  intros H1 H2. destruct (small_Z (Z.of_nat n)) as [F R]; [lia|]. apply fin_at_least; [apply fone_fin|exact F|].
  unfold nat_f. rewrite fone_R, R. apply (IZR_le 1). lia.
Qed.
Lemma katsuura_sign d x : (1 <= d)%nat -> (Z.of_nat (d * d) <= 2 ^ 53)%Z -> never_below_zero (katsuura_f m d x).
Proof.
  intros Hd Hd2. unfold katsuura_f. cbv zeta.
  destruct (find _ _) as [v|]; [intros w; discriminate|]. apply reads_below.
  destruct Hm as (_ & (_ & Hp & _) & _).
  assert (Q : at_least fone (nat_f (d * d))) by (apply one_at_least; nia).
  set (q := fdiv (Z2f 10) (nat_f (d * d))).
  assert (Hq : at_least fzero q) by (apply div_at_least; [reflexivity|cbn; lra|apply (Z_nonneg 10); lia|exact Q]).
  assert (Fq : isfin q = true).
  { unfold q. destruct (small_Z 10) as [F10 R10]; [lia|]. destruct (small_Z (Z.of_nat (d * d))) as [Fd Rd]; [lia|].
    apply fdiv_fin; [exact F10| |].
    - unfold nat_f. rewrite Rd. apply (IZR_neq _ 0). nia.
    - unfold nat_f. rewrite R10, Rd.
      assert (B : 1 <= IZR (Z.of_nat (d * d))) by (apply (IZR_le 1); nia).
      assert (I1 : 0 < / IZR (Z.of_nat (d * d)) <= 1) by (split; [apply Rinv_0_lt_compat; lra|rewrite <- Rinv_1; apply Rinv_le; lra]).
      assert (B1 : 0 <= 10 / IZR (Z.of_nat (d * d)) <= 10) by (unfold Rdiv; nra).
      rewrite Rabs_pos_eq by (apply rnd_ge_0; lra). apply Rle_lt_trans with (IZR 10).
      + apply rnd_le_Z; [lia|]. lra.
      + apply Rlt_trans with (IZR (2 ^ 53)); [apply IZR_lt; lia|apply big_gt_2_53]. }
  match goal with |- at_least _ (fsub (fmul ?a _) _) => assert (A : at_least fone a) end.
  { assert (G : forall (f : nat -> f64) l a, at_least fone a -> (forall i, at_least fone (f i)) -> at_least fone (fold_left (fun aux i => fmul aux (f i)) l a)).
    { intros f l. induction l as [|i l IH]; intros a Ha Hf; [exact Ha|]. cbn [fold_left]. apply IH; [|exact Hf].
      apply (mul_at_least fone fone fone); try apply fone_fin; rewrite ?fone_R; try lra; [|exact Ha|apply Hf].
      intros u w Hu Hw. nra. }
    apply (G (fun i => m_pow m (fadd fone (fmul (nat_f i) _)) _)); [apply at_least_refl|]. intros i. apply Hp.
    - apply (add_at_least fone fzero fone); try apply fone_fin; try reflexivity; [cbn [B2R fzero]; lra|apply at_least_refl|].
      apply mul_nonneg; [apply nat_nonneg|]. apply addf_nonneg; [|apply at_least_refl]. intros j.
      apply signed_at_least, fdiv_nonneg.
      + destruct (fsub _ _); reflexivity.
      + replace (2 ^ Z.of_nat j)%Z with (Z.of_nat (2 ^ j)) by (rewrite Nat2Z.inj_pow; reflexivity). apply Z2f_nonneg.
    - apply div_at_least; [reflexivity|cbn; lra|apply (Z_nonneg 10); lia|].
      apply Hp; [apply one_at_least; nia|].
      apply (div_nonneg (Z2f 12) (Z2f 10)); [apply (Z_nonneg 12); lia|apply small_Z; lia|]. destruct (small_Z 10) as [_ ->]; [lia|lra]. }
  apply (sub_at_least q q fzero); try assumption; try reflexivity; [cbn; lra| |].
  - pose proof (at_least_fin fzero q eq_refl Fq Hq) as Pq. cbn [B2R fzero] in Pq.
    apply (mul_at_least fone q q); try assumption; try apply fone_fin; rewrite ?fone_R; try lra; [|apply at_least_refl].
    intros u w Hu Hw. nra.
  - right. apply fle_ext; [apply isfin_not_nan, Fq..|lra].
Qed.
Lemma scaffer_sign x y : at_least fzero (scaffer_f m x y).
Proof.
  unfold scaffer_f. cbv zeta. destruct half_R as [Fh Rh]. destruct minus_half_R as [Fn Rn].
  destruct Hm as ((Hs & Hs1 & _) & _ & _).
  apply (add_at_least half (lit (-1) (-1)) fzero); try assumption; try reflexivity; [rewrite Rh, Rn; cbn [B2R fzero]; lra|apply at_least_refl|].
  apply div_at_least; [exact Fn|rewrite Rn; lra| |].
  - apply (sub_at_least fzero half); try assumption; try reflexivity; [rewrite Rh, Rn; cbn [B2R fzero]; lra|apply Hs|].
    right. apply fle_ext; [apply isfin_not_nan, Fh..|lra].
  - apply Hs1. apply (add_at_least fone fzero fone); try apply fone_fin; try reflexivity; [cbn [B2R fzero]; lra|apply at_least_refl|].
    apply mul_nonneg; [|apply add_nonneg; apply Hs]. apply div_nonneg; [apply (Z_nonneg 1); lia|apply small_Z; lia|].
    destruct (small_Z 1000) as [_ ->]; [lia|lra].
Qed.
Lemma expanded_sign d x : never_below_zero (expanded_scaffer_f m d x).
Proof.
  apply reads_below, add_nonneg; [|apply scaffer_sign]. apply addf_nonneg; [|apply at_least_refl]. intros i. apply scaffer_sign.
Qed.
End Signs.

(* ---------------- values at the textbook minimum ---------------- *)
Definition evaluates_to (r : res f64) (z : f64) : Prop := exists v, r = Ok v /\ feq v z = true.
Definition dims : list nat := [1; 10; 20; 30; 50; 100]%nat.

Lemma reads_full d x r : length x = d -> reads_f d x r = Ok r.
Proof. intros H. unfold reads_f. rewrite (proj2 (Nat.leb_le d (length x))) by lia. reflexivity. Qed.
Lemma get_repeat i v d : (i < d)%nat -> getf i (repeat v d) = v.
Proof. intros H. unfold getf. revert i H. induction d as [|d IH]; intros [|i] H; cbn; try lia; [reflexivity|]. apply IH. lia. Qed.
Lemma span_lt a b i : In i (span a b) -> (a <= i < b)%nat.
Proof. unfold span. rewrite in_seq. lia. Qed.
Lemma addf_ext f g l : (forall i, In i l -> f i = g i) -> forall a, addf a f l = addf a g l.
Proof.
  unfold addf. induction l as [|i l IH]; intros H a; [reflexivity|]. cbn [fold_left]. rewrite (H i) by (left; reflexivity).
  apply IH. intros j Hj. apply H. right. exact Hj.
Qed.
Lemma zero_value r : r = Ok fzero -> evaluates_to r (Z2f 0).
Proof. intros ->. exists fzero. split; reflexivity. Qed.

(* ---------------- arithmetic of the dimensions ---------------- *)
Definition plus_zero (v : f64) : bool := match v with B754_zero false => true | _ => false end.
Lemma plus_zero_eq v : plus_zero v = true -> v = fzero.
Proof. destruct v as [[]|s| |s mm e Hm]; intros H; try discriminate. reflexivity. Qed.
Lemma by_table (P : nat -> bool) n : forallb P (seq 0 n) = true -> forall i, (i < n)%nat -> P i = true.
Proof. intros H i Hi. rewrite forallb_forall in H. apply H, in_seq. lia. Qed.
Lemma zero_over_root i : (1 <= i < 101)%nat -> fdiv fzero (fsqrt (nat_f i)) = fzero.
Proof.
  intros H. apply plus_zero_eq. replace i with (Datatypes.S (i - 1)) by lia.
  apply (by_table (fun k => plus_zero (fdiv fzero (fsqrt (nat_f (Datatypes.S k))))) 100); [vm_compute; reflexivity|lia].
Qed.
Lemma ratio_in d i : In d dims -> d <> 1%nat -> (1 <= i < d + 1)%nat ->
  fle fzero (fdiv (nat_f (i - 1)) (nat_f (d - 1))) && fle (fdiv (nat_f (i - 1)) (nat_f (d - 1))) fone = true.
Proof.
  intros Hd N Hi.
  assert (T : forallb (fun d => Nat.eqb d 1 || forallb (fun k => fle fzero (fdiv (nat_f k) (nat_f (d - 1))) && fle (fdiv (nat_f k) (nat_f (d - 1))) fone) (seq 0 d)) dims = true)
    by (vm_compute; reflexivity).
  rewrite forallb_forall in T. specialize (T d Hd). rewrite (proj2 (Nat.eqb_neq d 1) N) in T. cbn [orb] in T.
  rewrite forallb_forall in T. apply T, in_seq. lia.
Qed.
Lemma zero_times_power j : (1 <= j < 32)%nat -> fmul fzero (Z2f (2 ^ Z.of_nat j)) = fzero.
Proof.
  intros H. apply plus_zero_eq. apply (by_table (fun j => plus_zero (fmul fzero (Z2f (2 ^ Z.of_nat j)))) 32); [vm_compute; reflexivity|lia].
Qed.
Lemma zero_over_power j : (1 <= j < 32)%nat -> fdiv fzero (Z2f (2 ^ Z.of_nat j)) = fzero.
Proof.
  intros H. apply plus_zero_eq. apply (by_table (fun j => plus_zero (fdiv fzero (Z2f (2 ^ Z.of_nat j)))) 32); [vm_compute; reflexivity|lia].
Qed.
Lemma nat_times_zero i : (i < 101)%nat -> fmul (nat_f i) fzero = fzero.
Proof.
  intros H. apply plus_zero_eq. apply (by_table (fun i => plus_zero (fmul (nat_f i) fzero)) 101); [vm_compute; reflexivity|lia].
Qed.
Lemma one_plus_0 : fadd fone fzero = fone.
Proof. apply B2SF_inj. vm_compute. reflexivity. Qed.
Lemma one_times_1 : fmul fone fone = fone.
Proof. apply B2SF_inj. vm_compute. reflexivity. Qed.
Lemma last_step d : In d dims -> feq (fsub (fmul fone (fdiv (Z2f 10) (nat_f (d * d)))) (fdiv (Z2f 10) (nat_f (d * d)))) (Z2f 0) = true.
Proof.
  intros Hd. assert (T : forallb (fun d => feq (fsub (fmul fone (fdiv (Z2f 10) (nat_f (d * d)))) (fdiv (Z2f 10) (nat_f (d * d)))) (Z2f 0)) dims = true)
    by (vm_compute; reflexivity).
  rewrite forallb_forall in T. apply (T d Hd).
Qed.
Definition tally (v : f64) (d : nat) : f64 := addf fzero (fun _ => v) (span 1 (d + 1)).
Lemma ones_d d : In d dims ->
  fabs (fsub (tally fone d) (nat_f d)) = fzero /\
  feq (fadd fzero (fadd (fdiv (fadd (fmul half (tally fone d)) (tally (Z2f (-1)) d)) (nat_f d)) half)) (Z2f 0) = true /\
  fabs (fsub (fmul (tally fone d) (tally fone d)) (fmul (tally (Z2f (-1)) d) (tally (Z2f (-1)) d))) = fzero /\
  feq (fadd (fadd fzero (fdiv (fadd (fmul half (tally fone d)) (tally (Z2f (-1)) d)) (nat_f d))) half) (Z2f 0) = true.
Proof.
  intros Hd. assert (T : forallb (fun d => plus_zero (fabs (fsub (tally fone d) (nat_f d))) &&
    (feq (fadd fzero (fadd (fdiv (fadd (fmul half (tally fone d)) (tally (Z2f (-1)) d)) (nat_f d)) half)) (Z2f 0) &&
    (plus_zero (fabs (fsub (fmul (tally fone d) (tally fone d)) (fmul (tally (Z2f (-1)) d) (tally (Z2f (-1)) d)))) &&
     feq (fadd (fadd fzero (fdiv (fadd (fmul half (tally fone d)) (tally (Z2f (-1)) d)) (nat_f d))) half) (Z2f 0)))) dims = true)
    by (vm_compute; reflexivity).
  rewrite forallb_forall in T. specialize (T d Hd). apply andb_prop in T as [T1 T]. apply andb_prop in T as [T2 T]. apply andb_prop in T as [T3 T4].
  apply plus_zero_eq in T1, T3. auto.
Qed.
Definition same_sf (a b : SpecFloat.spec_float) : bool :=
  match a, b with
  | SpecFloat.S754_finite s mm e, SpecFloat.S754_finite s' mm' e' => Bool.eqb s s' && Pos.eqb mm mm' && Z.eqb e e'
  | _, _ => false
  end.
Lemma same_sf_eq (a b : f64) : same_sf (B2SF a) (B2SF b) = true -> a = b.
Proof.
  intros H. apply B2SF_inj. destruct (B2SF a); destruct (B2SF b); try discriminate. cbn [same_sf] in H.
  apply andb_prop in H as [H H3]. apply andb_prop in H as [H1 H2]. apply Bool.eqb_prop in H1. apply Pos.eqb_eq in H2. apply Z.eqb_eq in H3. congruence.
Qed.
Lemma ackley_d d : In d dims ->
  fmul (fopp (fdiv (Z2f 2) (Z2f 10))) (fsqrt (fdiv fzero (nat_f d))) = fopp fzero /\
  fdiv (addf fzero (fun _ => fone) (span 0 d)) (nat_f d) = fone.
Proof.
  intros Hd.
  assert (T : forallb (fun d => plus_zero (fopp (fmul (fopp (fdiv (Z2f 2) (Z2f 10))) (fsqrt (fdiv fzero (nat_f d))))) &&
                                same_sf (B2SF (fdiv (addf fzero (fun _ => fone) (span 0 d)) (nat_f d))) (B2SF fone)) dims = true)
    by (vm_compute; reflexivity).
  rewrite forallb_forall in T. specialize (T d Hd). apply andb_prop in T as [T1 T2]. split; [|apply same_sf_eq, T2].
  destruct (fmul _ _) as [[]|s| |s mm e Hm]; try discriminate. reflexivity.
Qed.

Section Zeros.
Variable (m : libm).
Hypothesis Hm : libm_ok m.
Lemma sq0 : m_sq m fzero = fzero. Proof. apply Hm. Qed.
Lemma sq1 : m_sq m fone = fone. Proof. apply Hm. Qed.
Lemma sqm1 : m_sq m (Z2f (-1)) = fone. Proof. apply Hm. Qed.
Lemma cos0 : m_cos m fzero = fone. Proof. apply Hm. Qed.

Lemma bent_zero d : (1 <= d)%nat -> evaluates_to (bent_cigar_f m d (repeat fzero d)) (Z2f 0).
Proof.
  intros Hd. apply zero_value. unfold bent_cigar_f. cbv zeta. rewrite reads_full by apply repeat_length.
  rewrite get_repeat, sq0 by lia. rewrite addf_zero; [reflexivity|]. intros i Hi. apply span_lt in Hi. rewrite get_repeat by lia. apply sq0.
Qed.
Lemma discus_zero d : (1 <= d)%nat -> evaluates_to (discus_f m d (repeat fzero d)) (Z2f 0).
Proof.
  intros Hd. apply zero_value. unfold discus_f. rewrite reads_full by apply repeat_length.
  rewrite get_repeat, sq0 by lia. assert (E : fmul (Z2f 1000000) fzero = fzero) by (vm_compute; reflexivity). rewrite E.
  rewrite addf_zero; [reflexivity|]. intros i Hi. apply span_lt in Hi. rewrite get_repeat by lia. apply sq0.
Qed.
Lemma rosenbrock_zero d : evaluates_to (rosenbrock_f m d (repeat fone d)) (Z2f 0).
Proof.
  apply zero_value. unfold rosenbrock_f. cbv zeta. rewrite reads_full by apply repeat_length.
  rewrite addf_zero; [destruct (Nat.leb d 1); reflexivity|].
  intros i Hi. apply span_lt in Hi. rewrite !get_repeat, sq1 by lia.
  assert (E : fsub fone fone = fzero) by (vm_compute; reflexivity). rewrite E, sq0. vm_compute. reflexivity.
Qed.
Lemma griewank_zero d : In d dims -> evaluates_to (griewank_f m d (repeat fzero d)) (Z2f 0).
Proof.
  intros Hd. apply zero_value. unfold griewank_f. cbv zeta. rewrite reads_full by apply repeat_length.
  rewrite addf_zero.
  2:{ intros i Hi. apply span_lt in Hi. rewrite get_repeat, sq0 by lia. vm_compute. reflexivity. }
  match goal with |- context [fold_left ?f ?l fzero] => assert (G : fold_left f l fzero = fzero) end.
  { assert (HI : forall i, In i (span 1 d) -> (1 <= i < d)%nat) by (intros i; apply span_lt). revert HI.
    generalize (span 1 d) as l. induction l as [|i l IH]; intros HI; [reflexivity|]. cbn [fold_left].
    assert (Hi : (1 <= i < d)%nat) by (apply HI; left; reflexivity). rewrite get_repeat by lia.
    rewrite (zero_over_root i), cos0 by (cbn in Hd; lia).
    assert (E2 : fmul fzero (fadd fone fone) = fzero) by (vm_compute; reflexivity). rewrite E2.
    apply IH. intros j Hj. apply HI. right. exact Hj. }
  rewrite G. reflexivity.
Qed.
Lemma rastrigin_zero d : evaluates_to (Ok (rastrigin_f m (repeat fzero d))) (Z2f 0).
Proof.
  apply zero_value. unfold rastrigin_f. rewrite repeat_length. f_equal. apply addf_zero. intros i Hi. apply span_lt in Hi.
  rewrite get_repeat, sq0 by lia. assert (E : fmul (fmul (Z2f 2) np_pi) fzero = fzero) by (vm_compute; reflexivity). rewrite E, cos0.
  vm_compute. reflexivity.
Qed.
Lemma elliptic_zero d : In d dims -> d <> 1%nat -> evaluates_to (elliptic_f m (repeat fzero d)) (Z2f 0).
Proof.
  intros Hd N1. apply zero_value. unfold elliptic_f. rewrite repeat_length.
  rewrite (proj2 (Nat.eqb_neq d 1)) by exact N1. f_equal.
  assert (G : forall f l, (forall i, In i l -> exists s, f i = B754_zero s) -> addf fzero f l = fzero).
  { intros f l. unfold addf. induction l as [|i l IH]; intros H; [reflexivity|]. cbn [fold_left].
    destruct (H i (or_introl eq_refl)) as [s ->]. assert (E : fadd fzero (B754_zero s) = fzero) by (destruct s; reflexivity).
    rewrite E. apply IH. intros j Hj. apply H. right. exact Hj. }
  apply G. intros i Hi. apply span_lt in Hi. rewrite get_repeat, sq0 by lia.
  assert (F : isfin (m_pow m (Z2f 1000000) (fdiv (nat_f (i - 1)) (nat_f (d - 1)))) = true).
  { destruct Hm as (_ & (_ & _ & Hf & _) & _).
    assert (Q : fle fzero (fdiv (nat_f (i - 1)) (nat_f (d - 1))) && fle (fdiv (nat_f (i - 1)) (nat_f (d - 1))) fone = true).
    { apply (ratio_in d i Hd N1). lia. }
    apply andb_prop in Q as [Q1 Q2]. apply Hf; assumption. }
  destruct (m_pow m (Z2f 1000000) _); try discriminate; eexists; reflexivity.
Qed.
Lemma katsuura_zero d : In d dims -> evaluates_to (katsuura_f m d (repeat fzero d)) (Z2f 0).
Proof.
  intros Hd. unfold katsuura_f. cbv zeta.
  assert (A : forall i j, (1 <= i <= d)%nat -> (1 <= j < 32)%nat -> fmul (getf (i - 1) (repeat fzero d)) (Z2f (2 ^ Z.of_nat j)) = fzero).
  { intros i j Hi Hj. rewrite get_repeat by lia. apply zero_times_power. lia. }
  assert (FN : find (fun v : f64 => negb (isfin v))
     (flat_map (fun i => map (fun j => fmul (getf (i - 1) (repeat fzero d)) (Z2f (2 ^ Z.of_nat j))) (span 1 32)) (span 1 (d + 1))) = None).
  { destruct (find _ _) as [v|] eqn:E; [|reflexivity]. exfalso. apply find_some in E as [Hin Hv]. apply in_flat_map in Hin as (i & Hi & Hv2).
    apply in_map_iff in Hv2 as (j & <- & Hj). apply span_lt in Hi. apply span_lt in Hj. rewrite A in Hv by lia. discriminate. }
  rewrite FN. rewrite reads_full by apply repeat_length.
  match goal with |- context [fold_left ?f ?l fone] => assert (G : fold_left f l fone = fone) end.
  { assert (HI : forall i, In i (span 1 (d + 1)) -> (1 <= i <= d)%nat) by (intros i Hi; apply span_lt in Hi; lia). revert HI.
    generalize (span 1 (d + 1)) as l. induction l as [|i l IH]; intros HI; [reflexivity|]. cbn [fold_left].
    assert (Hi : (1 <= i <= d)%nat) by (apply HI; left; reflexivity).
    rewrite addf_zero.
    - rewrite (nat_times_zero i) by (cbn in Hd; lia). rewrite one_plus_0. destruct Hm as (_ & (_ & _ & _ & Hp & _) & _). rewrite Hp, one_times_1.
      apply IH. intros j Hj. apply HI. right. exact Hj.
    - intros j Hj. apply span_lt in Hj. rewrite A by lia. destruct Hm as (_ & _ & (_ & _ & _ & Hr) & _). rewrite Hr.
      assert (E : fabs (fsub fzero fzero) = fzero) by reflexivity. rewrite E. apply zero_over_power. lia. }
  rewrite G. eexists. split; [reflexivity|]. apply (last_step d Hd).
Qed.
Lemma happycat_zero d : In d dims -> evaluates_to (happycat_f m d (repeat (Z2f (-1)) d)) (Z2f 0).
Proof.
  intros Hd. unfold happycat_f. cbv zeta. rewrite reads_full by apply repeat_length.
  rewrite (addf_ext _ (fun _ => fone)) by (intros i Hi; apply span_lt in Hi; rewrite get_repeat by lia; apply sqm1).
  rewrite (addf_ext (fun i => getf (i - 1) _) (fun _ => Z2f (-1))) by (intros i Hi; apply span_lt in Hi; apply get_repeat; lia).
  change (addf fzero (fun _ : nat => fone) (span 1 (d + 1))) with (tally fone d).
  change (addf fzero (fun _ : nat => Z2f (-1)) (span 1 (d + 1))) with (tally (Z2f (-1)) d).
  destruct (ones_d d Hd) as (E1 & E2 & _). rewrite E1. destruct Hm as (_ & (_ & _ & _ & _ & Hp & _) & _). rewrite Hp.
  eexists. split; [reflexivity|exact E2].
Qed.
Lemma hgbat_zero d : In d dims -> squares_rounded m -> evaluates_to (hgbat_f m d (repeat (Z2f (-1)) d)) (Z2f 0).
Proof.
  intros Hd Hr. unfold hgbat_f. cbv zeta. rewrite reads_full by apply repeat_length.
  rewrite (addf_ext _ (fun _ => fone)) by (intros i Hi; apply span_lt in Hi; rewrite get_repeat by lia; apply sqm1).
  rewrite (addf_ext (fun i => getf (i - 1) _) (fun _ => Z2f (-1))) by (intros i Hi; apply span_lt in Hi; apply get_repeat; lia).
  change (addf fzero (fun _ : nat => fone) (span 1 (d + 1))) with (tally fone d).
  change (addf fzero (fun _ : nat => Z2f (-1)) (span 1 (d + 1))) with (tally (Z2f (-1)) d).
  destruct (ones_d d Hd) as (_ & _ & E1 & E2). rewrite !Hr, E1. destruct Hm as (_ & (_ & _ & _ & _ & _ & Hp) & _). rewrite Hp.
  eexists. split; [reflexivity|exact E2].
Qed.
Lemma scaffer_zero : scaffer_f m fzero fzero = fzero.
Proof.
  unfold scaffer_f. cbv zeta. rewrite sq0.
  assert (E : fsqrt (fadd fzero fzero) = fzero) by (vm_compute; reflexivity). rewrite E.
  destruct Hm as (_ & _ & (_ & _ & Hs & _) & _). rewrite Hs, sq0.
  assert (E2 : fadd fone (fmul (fdiv fone (Z2f 1000)) (fadd fzero fzero)) = fone) by (apply B2SF_inj; vm_compute; reflexivity).
  rewrite E2, sq1. vm_compute. reflexivity.
Qed.
Lemma expanded_zero d : (1 <= d)%nat -> evaluates_to (expanded_scaffer_f m d (repeat fzero d)) (Z2f 0).
Proof.
  intros Hd. apply zero_value. unfold expanded_scaffer_f. rewrite reads_full by apply repeat_length.
  rewrite !get_repeat by lia. rewrite scaffer_zero, addf_zero; [reflexivity|]. intros i Hi. apply span_lt in Hi. rewrite !get_repeat by lia. apply scaffer_zero.
Qed.
(** Ackley's function misses zero by rounding. *)
Lemma ackley_off d : In d dims -> evaluates_to (ackley_f m d (repeat fzero d)) (lit 1 (-51)).
Proof.
  intros Hd. unfold ackley_f. cbv zeta. rewrite reads_full by apply repeat_length.
  rewrite (addf_zero (fun i => m_sq m _)) by (intros i Hi; apply span_lt in Hi; rewrite get_repeat by lia; apply sq0).
  rewrite (addf_ext _ (fun _ => fone)).
  2:{ intros i Hi. apply span_lt in Hi. rewrite get_repeat by lia. assert (E : fmul (fmul fzero (Z2f 2)) np_pi = fzero) by (vm_compute; reflexivity). rewrite E. apply cos0. }
  destruct (ackley_d d Hd) as [E1 E2]. rewrite E1, E2. destruct Hm as (_ & _ & _ & H1 & H2). rewrite H1, H2.
  eexists. split; [reflexivity|]. vm_compute. reflexivity.
Qed.
End Zeros.

(* ---------------- below zero ---------------- *)
Definition tilted (l : list Z) : list f64 := map (fun k => fadd (Z2f (-1)) (lit k (-53))) l.
Definition happy_low : list f64 := tilted [-4; 0; -4; 3; -4; 3; 3; 3; 0; 3]%Z.
Definition hg_low : list f64 := tilted [-4; -2; 4; -4; 3; -2; -4; -4; 0; 6]%Z.
Lemma happycat_low m : libm_ok m -> squares_rounded m -> exists v, happycat_f m 10 happy_low = Ok v /\ flt v (Z2f 0) = true.
Proof.
  intros Hm Hr. unfold happycat_f. cbv zeta. rewrite reads_full by reflexivity.
  rewrite (addf_ext _ (fun i => fmul (getf (i - 1) happy_low) (getf (i - 1) happy_low))) by (intros i _; apply Hr).
  assert (E : fabs (fsub (addf fzero (fun i => fmul (getf (i - 1) happy_low) (getf (i - 1) happy_low)) (span 1 (10 + 1))) (nat_f 10)) = fzero)
    by (vm_compute; reflexivity).
  rewrite E. destruct Hm as (_ & (_ & _ & _ & _ & Hp & _) & _). rewrite Hp. eexists. split; [reflexivity|]. vm_compute. reflexivity.
Qed.
Lemma hgbat_low m : libm_ok m -> squares_rounded m -> exists v, hgbat_f m 10 hg_low = Ok v /\ flt v (Z2f 0) = true.
Proof.
  intros Hm Hr. unfold hgbat_f. cbv zeta. rewrite reads_full by reflexivity.
  rewrite (addf_ext _ (fun i => fmul (getf (i - 1) hg_low) (getf (i - 1) hg_low))) by (intros i _; apply Hr). rewrite !Hr.
  match goal with |- context [fabs ?v] => assert (E : fabs v = fzero) by (vm_compute; reflexivity) end.
  rewrite E. destruct Hm as (_ & (_ & _ & _ & _ & _ & Hp) & _). rewrite Hp. eexists. split; [reflexivity|]. vm_compute. reflexivity.
Qed.

(* ---------------- a library ---------------- *)
(** Rounded squares; the other functions are step functions with the values required. *)
Definition steps : libm := {|
  m_sq := fun v => fmul v v;
  m_pow := fun b _ => if feq b fzero then fzero else fone;
  m_cos := fun v => if feq v fzero then fone else fzero;
  m_sin := fun v => if feq v fzero then fzero else fone;
  m_exp := fun v => if feq v fone then np_e else fone;
  m_round := fun _ => fzero |}.
Lemma steps_ok : libm_ok steps /\ squares_rounded steps.
Proof.
  split; [|intros v; reflexivity]. split; [|split; [|split]].
  - split; [|split; [|split; [|split]]]; cbn [steps m_sq].
    + intros v. apply signed_at_least, square_nonneg.
    + intros v Hv. apply (mul_at_least fone fone fone); try apply fone_fin; rewrite ?fone_R; try lra; try assumption. intros a b Ha Hb. nra.
    + reflexivity.
    + apply B2SF_inj. vm_compute. reflexivity.
    + apply B2SF_inj. vm_compute. reflexivity.
  - split; [|split; [|split; [|split; [|split]]]]; cbn [steps m_pow].
    + intros b e _. destruct (feq b fzero); [apply at_least_refl|right; vm_compute; reflexivity].
    + intros b e Hb _. destruct (feq b fzero) eqn:E; [|apply at_least_refl]. exfalso.
      destruct Hb as [N|H]; [rewrite feq_nan_l in E by exact N; discriminate|].
      pose proof (fle_trans _ _ _ H (feq_fle _ _ E)) as X. vm_compute in X. discriminate.
    + intros e _ _. destruct (feq (Z2f 1000000) fzero); vm_compute; reflexivity.
    + intros e. assert (E : feq fone fzero = false) by (vm_compute; reflexivity). rewrite E. reflexivity.
    + reflexivity.
    + reflexivity.
  - split; [|split; [|split]]; cbn [steps m_cos m_sin m_round]; try reflexivity.
    intros v. destruct (feq v fzero); right; vm_compute; reflexivity.
  - split; cbn [steps m_exp].
    + assert (E : feq (fopp fzero) fone = false) by (vm_compute; reflexivity). rewrite E. reflexivity.
    + assert (E : feq fone fone = true) by (vm_compute; reflexivity). rewrite E. reflexivity.
Qed.

(* ---------------- all together ---------------- *)
Lemma signs m d x : libm_ok m -> In d dims ->
  never_below_zero (bent_cigar_f m d x) /\ never_below_zero (discus_f m d x) /\ never_below_zero (rosenbrock_f m d x) /\
  never_below_zero (griewank_f m d x) /\ never_below_zero (Ok (rastrigin_f m x)) /\ never_below_zero (elliptic_f m x) /\
  never_below_zero (katsuura_f m d x) /\ never_below_zero (expanded_scaffer_f m d x).
Proof.
  intros Hm Hd. split; [apply bent_sign, Hm|]. split; [apply discus_sign, Hm|]. split; [apply rosenbrock_sign, Hm|].
  split; [apply griewank_sign, Hm|]. split; [apply rastrigin_sign, Hm|]. split; [apply elliptic_sign, Hm|].
  split; [|apply expanded_sign, Hm]. apply katsuura_sign; [exact Hm| |]; cbn [dims In] in Hd; nia.
Qed.
Lemma zeros m d : libm_ok m -> In d dims ->
  evaluates_to (bent_cigar_f m d (repeat fzero d)) (Z2f 0) /\ evaluates_to (discus_f m d (repeat fzero d)) (Z2f 0) /\
  evaluates_to (rosenbrock_f m d (repeat fone d)) (Z2f 0) /\ evaluates_to (griewank_f m d (repeat fzero d)) (Z2f 0) /\
  evaluates_to (Ok (rastrigin_f m (repeat fzero d))) (Z2f 0) /\
  (d <> 1%nat -> evaluates_to (elliptic_f m (repeat fzero d)) (Z2f 0)) /\
  evaluates_to (katsuura_f m d (repeat fzero d)) (Z2f 0) /\ evaluates_to (happycat_f m d (repeat (Z2f (-1)) d)) (Z2f 0) /\
  (squares_rounded m -> evaluates_to (hgbat_f m d (repeat (Z2f (-1)) d)) (Z2f 0)) /\
  evaluates_to (expanded_scaffer_f m d (repeat fzero d)) (Z2f 0).
Proof.
  intros Hm Hd. assert (H1 : (1 <= d)%nat) by (cbn [dims In] in Hd; lia).
  split; [apply bent_zero; assumption|]. split; [apply discus_zero; assumption|]. split; [apply rosenbrock_zero; assumption|].
  split; [apply griewank_zero; assumption|]. split; [apply rastrigin_zero; assumption|]. split; [apply elliptic_zero; assumption|].
  split; [apply katsuura_zero; assumption|]. split; [apply happycat_zero; assumption|]. split; [apply hgbat_zero; assumption|].
  apply expanded_zero; assumption.
Qed.
