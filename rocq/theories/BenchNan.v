(** NaN in the argument of a benchmark function. *)
From Coq Require Import List ZArith Bool Lia.
From Flocq Require Import IEEE754.BinarySingleNaN.
From Verif Require Import PyBase B64 BenchFloat.
Import ListNotations.
Local Open Scope res_scope.

(** Squares, cos, sin and exp of NaN are NaN; the square of an infinity is not finite, its cos and sin are NaN. *)
Definition spreads (m : libm) : Prop :=
  m_sq m B754_nan = B754_nan /\ m_exp m B754_nan = B754_nan /\ m_cos m B754_nan = B754_nan /\ m_sin m B754_nan = B754_nan /\
  forall s, isfin (m_sq m (B754_infinity s)) = false /\ m_cos m (B754_infinity s) = B754_nan /\ m_sin m (B754_infinity s) = B754_nan.
(** The result is NaN. *)
Definition gives_nan (r : res f64) : Prop := r = Ok B754_nan.

Lemma isnan_eq (v : f64) : isnan v = true -> v = B754_nan.
Proof. destruct v; try discriminate. reflexivity. Qed.
Lemma add_nan_r (a : f64) : fadd a B754_nan = B754_nan. Proof. destruct a; reflexivity. Qed.
Lemma sub_nan_r (a : f64) : fsub a B754_nan = B754_nan. Proof. destruct a; reflexivity. Qed.
Lemma mul_nan_r (a : f64) : fmul a B754_nan = B754_nan. Proof. destruct a; reflexivity. Qed.
Lemma addf_nan f l : addf B754_nan f l = B754_nan.
Proof. unfold addf. induction l as [|i l IH]; [reflexivity|exact IH]. Qed.
Lemma addf_in f l i : In i l -> f i = B754_nan -> forall a, addf a f l = B754_nan.
Proof.
  intros Hi Hf. induction l as [|j l IH]; intros a; [destruct Hi|]. unfold addf. cbn [fold_left]. change (addf (fadd a (f j)) f l = B754_nan).
  destruct Hi as [-> |Hi]; [rewrite Hf, add_nan_r; apply addf_nan|apply IH; exact Hi].
Qed.
Lemma span_in a b i : (a <= i < b)%nat -> In i (span a b).
Proof. intros H. unfold span. apply in_seq. lia. Qed.
Lemma reads_ok d x v : (d <= length x)%nat -> reads_f d x v = Ok v.
Proof. intros H. unfold reads_f. apply Nat.leb_le in H. rewrite H. reflexivity. Qed.
Lemma div_nan_l (b : f64) : fdiv B754_nan b = B754_nan. Proof. destruct b; reflexivity. Qed.
Lemma mul_nan_l (b : f64) : fmul B754_nan b = B754_nan. Proof. destruct b; reflexivity. Qed.
Lemma add_nan_l (b : f64) : fadd B754_nan b = B754_nan. Proof. destruct b; reflexivity. Qed.
Lemma sub_nan_l (b : f64) : fsub B754_nan b = B754_nan. Proof. destruct b; reflexivity. Qed.
Lemma sqrt_nan : fsqrt B754_nan = B754_nan. Proof. reflexivity. Qed.

Section Nan.
Variable m : libm.
Hypothesis Hm : spreads m.
Variables (d i : nat) (x : list f64).
Hypothesis Hd : (d <= length x)%nat.
Hypothesis Hi : (i < d)%nat.
Hypothesis Hx : getf i x = B754_nan.
Let Hsq : m_sq m B754_nan = B754_nan := proj1 Hm.
Let Hexp : m_exp m B754_nan = B754_nan := proj1 (proj2 Hm).
Let Hcos : m_cos m B754_nan = B754_nan := proj1 (proj2 (proj2 Hm)).
Let Hsin : m_sin m B754_nan = B754_nan := proj1 (proj2 (proj2 (proj2 Hm))).
Ltac nan := rewrite ?Hx, ?Hsq, ?Hcos, ?Hsin, ?Hexp, ?sqrt_nan, ?div_nan_l, ?mul_nan_l, ?mul_nan_r, ?add_nan_l, ?add_nan_r, ?sub_nan_l, ?sub_nan_r.
Ltac at_i := apply (addf_in _ _ i); [apply span_in; lia|cbv beta; repeat (progress nan); reflexivity].

Lemma squares_nan : addf (m_sq m (getf 0 x)) (fun i => m_sq m (getf i x)) (span 1 d) = B754_nan.
Proof. destruct i as [|j] eqn:E; [nan; apply addf_nan|]. rewrite <- E in *. at_i. Qed.
Lemma bent_nan : gives_nan (bent_cigar_f m d x).
Proof. unfold bent_cigar_f. rewrite squares_nan. rewrite reads_ok by exact Hd. reflexivity. Qed.
Lemma discus_nan : gives_nan (discus_f m d x).
Proof.
  unfold discus_f. rewrite reads_ok by exact Hd. apply f_equal. destruct i as [|j] eqn:E; [|rewrite <- E in *; at_i].
  nan. apply addf_nan.
Qed.
Lemma rosenbrock_nan : (2 <= d)%nat -> gives_nan (rosenbrock_f m d x).
Proof.
  intros H2. unfold rosenbrock_f. rewrite (proj2 (Nat.leb_gt d 1)) by lia. rewrite reads_ok by exact Hd. apply f_equal.
  destruct (Nat.eq_dec i (d - 1)) as [E|E].
  - apply (addf_in _ _ (d - 2)%nat); [apply span_in; lia|]. cbv beta. replace (d - 2 + 1)%nat with i by lia. repeat (progress nan). reflexivity.
  - at_i.
Qed.
Lemma ackley_nan : gives_nan (ackley_f m d x).
Proof.
  unfold ackley_f. rewrite reads_ok by exact Hd. apply f_equal.
  assert (S : addf fzero (fun i => m_sq m (getf i x)) (span 0 d) = B754_nan) by at_i. rewrite S. repeat (progress nan). reflexivity.
Qed.
Lemma weierstrass_nan : gives_nan (weierstrass_f m d x).
Proof.
  unfold weierstrass_f. rewrite reads_ok by exact Hd. apply f_equal. apply (addf_in _ _ i); [apply span_in; lia|]. cbv beta.
  assert (S : addf fzero (fun k => fmul (m_pow m half (nat_f k)) (m_cos m (fmul (fmul (fmul (Z2f 2) np_pi) (Z2f (3 ^ Z.of_nat k))) (fadd (getf i x) half)))) (span 0 20) = B754_nan).
  { apply (addf_in _ _ 0%nat); [apply span_in; lia|]. cbv beta. repeat (progress nan). reflexivity. }
  rewrite S. reflexivity.
Qed.
Lemma griewank_nan : gives_nan (griewank_f m d x).
Proof.
  unfold griewank_f. rewrite reads_ok by exact Hd. apply f_equal.
  assert (S : addf fzero (fun i => fdiv (m_sq m (getf i x)) (Z2f 4000)) (span 0 d) = B754_nan) by at_i. rewrite S. apply sub_nan_l.
Qed.
Lemma rastrigin_nan : rastrigin_f m x = B754_nan.
Proof. unfold rastrigin_f. at_i. Qed.
Lemma elliptic_nan : (2 <= d)%nat -> gives_nan (elliptic_f m x).
Proof.
  intros H2. unfold elliptic_f. rewrite (proj2 (Nat.eqb_neq (length x) 1)) by lia. apply f_equal.
  apply (addf_in _ _ (S i)); [apply span_in; lia|]. cbv beta. replace (S i - 1)%nat with i by lia. repeat (progress nan). reflexivity.
Qed.
Lemma schwefel_nan : mod_schwefel_f m x = Raise TypeError.
Proof.
  unfold mod_schwefel_f.
  assert (R : forall l, fold_left (fun r i => result <-? r ; match mod_sch_g m (fadd (getf (i - 1) x) (fdiv (Z2f 4209687462275036) (Z2f (10 ^ 13)))) (length x) with
     | Some v => Ok (fsub result v) | None => Raise TypeError end) l (Raise TypeError) = Raise TypeError) by (induction l as [|j l IH]; [reflexivity|exact IH]).
  assert (G : forall l a, In (S i) l -> fold_left (fun r i => result <-? r ; match mod_sch_g m (fadd (getf (i - 1) x) (fdiv (Z2f 4209687462275036) (Z2f (10 ^ 13)))) (length x) with
     | Some v => Ok (fsub result v) | None => Raise TypeError end) l (Ok a) = Raise TypeError).
  { induction l as [|j l IH]; intros a Hl; [destruct Hl|]. cbn [fold_left rbind]. destruct Hl as [-> |Hl].
    - replace (S i - 1)%nat with i by lia. rewrite Hx, add_nan_l. change (mod_sch_g m B754_nan (length x)) with (@None f64). apply R.
    - destruct (mod_sch_g m (fadd (getf (j - 1) x) (fdiv (Z2f 4209687462275036) (Z2f (10 ^ 13)))) (length x)); [apply IH; exact Hl|apply R]. }
  apply G, span_in. lia.
Qed.
Lemma katsuura_nan : exists e, katsuura_f m d x = Raise e.
Proof.
  unfold katsuura_f.
  match goal with |- context [find ?p ?l] => destruct (find p l) as [v|] eqn:E end; [eexists; reflexivity|].
  exfalso. eapply find_none with (x := fmul (getf i x) (Z2f (2 ^ Z.of_nat 1))) in E; [rewrite Hx, mul_nan_l in E; discriminate|].
  apply in_flat_map. exists (S i). split; [apply span_in; lia|]. apply in_map_iff. exists 1%nat. split; [replace (S i - 1)%nat with i by lia; reflexivity|apply span_in; lia].
Qed.
Lemma cat_nan : addf fzero (fun i => m_sq m (getf (i - 1) x)) (span 1 (d + 1)) = B754_nan.
Proof. apply (addf_in _ _ (S i)); [apply span_in; lia|]. cbv beta. replace (S i - 1)%nat with i by lia. nan. reflexivity. Qed.
Lemma happycat_nan : gives_nan (happycat_f m d x).
Proof. unfold happycat_f. rewrite cat_nan, reads_ok by exact Hd. apply f_equal. repeat (progress nan). reflexivity. Qed.
Lemma hgbat_nan : gives_nan (hgbat_f m d x).
Proof. unfold hgbat_f. rewrite cat_nan, reads_ok by exact Hd. apply f_equal. repeat (progress nan). reflexivity. Qed.
Lemma scaffer_nan a b : a = B754_nan \/ b = B754_nan -> scaffer_f m a b = B754_nan.
Proof. intros H. unfold scaffer_f. assert (S : fadd (m_sq m a) (m_sq m b) = B754_nan) by (destruct H as [-> | ->]; rewrite Hsq; [apply add_nan_l|apply add_nan_r]). rewrite S. repeat (progress nan). reflexivity. Qed.
Lemma expanded_nan : gives_nan (expanded_scaffer_f m d x).
Proof.
  unfold expanded_scaffer_f. rewrite reads_ok by exact Hd. apply f_equal. destruct (Nat.eq_dec i (d - 1)) as [E|E].
  - rewrite (scaffer_nan (getf (d - 1) x)) by (left; rewrite <- E; exact Hx). apply add_nan_r.
  - assert (S : addf fzero (fun i => scaffer_f m (getf (i - 1) x) (getf i x)) (span 1 d) = B754_nan); [|rewrite S; apply add_nan_l].
    apply (addf_in _ _ (S i)); [apply span_in; lia|]. cbv beta. apply scaffer_nan. left. replace (S i - 1)%nat with i by lia. exact Hx.
Qed.
End Nan.

(** The same for numbers that are not finite. *)
Definition not_finite (r : res f64) : Prop := match r with Ok v => isfin v = false | Raise _ => False end.
Lemma fin_cases (v : f64) : isfin v = false -> v = B754_nan \/ exists s, v = B754_infinity s.
Proof. destruct v; try discriminate; [right; eexists; reflexivity|left; reflexivity]. Qed.
Lemma add_bad (a b : f64) : isfin a = false \/ isfin b = false -> isfin (fadd a b) = false.
Proof. destruct a as [sa|sa| |sa ma ea Ha], b as [sb|sb| |sb mb eb Hb]; intros [H|H]; try discriminate; try reflexivity; destruct sa, sb; reflexivity. Qed.
Lemma sub_bad (a b : f64) : isfin a = false \/ isfin b = false -> isfin (fsub a b) = false.
Proof. destruct a as [sa|sa| |sa ma ea Ha], b as [sb|sb| |sb mb eb Hb]; intros [H|H]; try discriminate; try reflexivity; destruct sa, sb; reflexivity. Qed.
Lemma mul_bad (a b : f64) : isfin a = false \/ isfin b = false -> isfin (fmul a b) = false.
Proof. destruct a as [sa|sa| |sa ma ea Ha], b as [sb|sb| |sb mb eb Hb]; intros [H|H]; try discriminate; reflexivity. Qed.
Lemma div_bad (a b : f64) : isfin a = false -> isfin (fdiv a b) = false.
Proof. destruct a as [sa|sa| |sa ma ea Ha], b as [sb|sb| |sb mb eb Hb]; intros H; try discriminate; reflexivity. Qed.
Lemma sqrt_bad (a : f64) : isfin a = false -> isfin (fsqrt a) = false.
Proof. destruct a as [sa|sa| |sa ma ea Ha]; intros H; try discriminate; try reflexivity; destruct sa; reflexivity. Qed.
Lemma addf_bad_l f l : forall a, isfin a = false -> isfin (addf a f l) = false.
Proof. unfold addf. induction l as [|i l IH]; intros a H; [exact H|]. cbn [fold_left]. apply IH, add_bad. left. exact H. Qed.
Lemma addf_bad f l i : In i l -> isfin (f i) = false -> forall a, isfin (addf a f l) = false.
Proof.
  intros Hi Hf. induction l as [|j l IH]; intros a; [destruct Hi|]. unfold addf. cbn [fold_left]. change (isfin (addf (fadd a (f j)) f l) = false).
  destruct Hi as [-> |Hi]; [apply addf_bad_l, add_bad; right; exact Hf|apply IH; exact Hi].
Qed.
Section Infinite.
Variable m : libm.
Hypothesis Hm : spreads m.
Lemma sq_bad v : isfin v = false -> isfin (m_sq m v) = false.
Proof. destruct Hm as (H1 & _ & _ & _ & H). intros B. destruct (fin_cases v B) as [-> |(s & ->)]; [rewrite H1; reflexivity|apply H]. Qed.
Lemma cos_bad v : isfin v = false -> m_cos m v = B754_nan.
Proof. destruct Hm as (_ & _ & H1 & _ & H). intros B. destruct (fin_cases v B) as [-> |(s & ->)]; [exact H1|apply H]. Qed.
Lemma sin_bad v : isfin v = false -> m_sin m v = B754_nan.
Proof. destruct Hm as (_ & _ & _ & H1 & H). intros B. destruct (fin_cases v B) as [-> |(s & ->)]; [exact H1|apply H]. Qed.
Variables (d i : nat) (x : list f64).
Hypothesis Hd : (d <= length x)%nat.
Hypothesis Hi : (i < d)%nat.
Hypothesis Hx : isfin (getf i x) = false.
Lemma ok_bad v : isfin v = false -> not_finite (reads_f d x v).
Proof. intros H. rewrite reads_ok by exact Hd. exact H. Qed.
Lemma bent_bad : not_finite (bent_cigar_f m d x).
Proof.
  apply ok_bad, add_bad. left. destruct i as [|j] eqn:E; [apply addf_bad_l, sq_bad, Hx|]. apply (addf_bad _ _ (S j)); [apply span_in; lia|]. apply sq_bad, Hx.
Qed.
Lemma discus_bad : not_finite (discus_f m d x).
Proof.
  apply ok_bad. destruct i as [|j] eqn:E; [apply addf_bad_l, mul_bad; right; apply sq_bad, Hx|]. apply (addf_bad _ _ (S j)); [apply span_in; lia|]. apply sq_bad, Hx.
Qed.
Lemma rosenbrock_bad : (2 <= d)%nat -> not_finite (rosenbrock_f m d x).
Proof.
  intros H2. unfold rosenbrock_f. rewrite (proj2 (Nat.leb_gt d 1)) by lia. apply ok_bad. destruct (Nat.eq_dec i (d - 1)) as [E|E].
  - apply (addf_bad _ _ (d - 2)%nat); [apply span_in; lia|]. cbv beta. replace (d - 2 + 1)%nat with i by lia. apply add_bad. left. apply mul_bad. right. apply sq_bad, sub_bad. right. exact Hx.
  - apply (addf_bad _ _ i); [apply span_in; lia|]. cbv beta. apply add_bad. right. apply sq_bad, sub_bad. left. exact Hx.
Qed.
Lemma ackley_bad : not_finite (ackley_f m d x).
Proof.
  apply ok_bad. assert (S : addf fzero (fun i => m_cos m (fmul (fmul (getf i x) (Z2f 2)) np_pi)) (span 0 d) = B754_nan).
  { apply (addf_in _ _ i); [apply span_in; lia|]. cbv beta. apply cos_bad, mul_bad. left. apply mul_bad. left. exact Hx. }
  rewrite S, div_nan_l. destruct Hm as (_ & -> & _). rewrite sub_nan_r. reflexivity.
Qed.
Lemma weierstrass_bad : not_finite (weierstrass_f m d x).
Proof.
  apply ok_bad. apply (addf_bad _ _ i); [apply span_in; lia|]. cbv beta. apply sub_bad. left. apply (addf_bad _ _ 0%nat); [apply span_in; lia|]. cbv beta. apply mul_bad. right.
  rewrite cos_bad; [reflexivity|]. apply mul_bad. right. apply add_bad. left. exact Hx.
Qed.
Lemma griewank_bad : not_finite (griewank_f m d x).
Proof. apply ok_bad, sub_bad. left. apply (addf_bad _ _ i); [apply span_in; lia|]. cbv beta. apply div_bad, sq_bad, Hx. Qed.
Lemma rastrigin_bad : isfin (rastrigin_f m x) = false.
Proof. apply (addf_bad _ _ i); [apply span_in; lia|]. cbv beta. apply add_bad. left. apply sub_bad. left. apply sq_bad, Hx. Qed.
Lemma elliptic_bad : (2 <= d)%nat -> not_finite (elliptic_f m x).
Proof.
  intros H2. unfold elliptic_f. rewrite (proj2 (Nat.eqb_neq (length x) 1)) by lia. cbn [not_finite].
  apply (addf_bad _ _ (S i)); [apply span_in; lia|]. cbv beta. replace (S i - 1)%nat with i by lia. apply mul_bad. right. apply sq_bad, Hx.
Qed.
Lemma schwefel_bad : (exists e, mod_schwefel_f m x = Raise e) \/ not_finite (mod_schwefel_f m x).
Proof.
  unfold mod_schwefel_f. set (g := fun i => mod_sch_g m (fadd (getf (i - 1) x) (fdiv (Z2f 4209687462275036) (Z2f (10 ^ 13)))) (length x)).
  set (step := fun r i => result <-? r ; match g i with Some v => Ok (fsub result v) | None => Raise TypeError end).
  change (fun r i => result <-? r ; match mod_sch_g m (fadd (getf (i - 1) x) (fdiv (Z2f 4209687462275036) (Z2f (10 ^ 13)))) (length x) with Some v => Ok (fsub result v) | None => Raise TypeError end) with step.
  assert (R : forall l e, exists e', fold_left step l (Raise e) = Raise e') by (induction l as [|j l IH]; intros e; [eexists; reflexivity|apply IH]).
  assert (B : forall l a, isfin a = false -> (exists e, fold_left step l (Ok a) = Raise e) \/ not_finite (fold_left step l (Ok a))).
  { induction l as [|j l IH]; intros a Ha; [right; exact Ha|]. cbn [fold_left]. unfold step at 2 4. cbn [rbind]. destruct (g j); [apply IH, sub_bad; left; exact Ha|left; apply R]. }
  assert (G : forall l a, In (S i) l -> (exists e, fold_left step l (Ok a) = Raise e) \/ not_finite (fold_left step l (Ok a))).
  { induction l as [|j l IH]; intros a Hl; [destruct Hl|]. cbn [fold_left]. unfold step at 2 4. cbn [rbind]. destruct Hl as [-> |Hl].
    - assert (V : isfin (fadd (getf i x) (fdiv (Z2f 4209687462275036) (Z2f (10 ^ 13)))) = false) by (apply add_bad; left; exact Hx).
      unfold g. replace (S i - 1)%nat with i by lia. set (v := fadd (getf i x) _) in *. clearbody v. destruct (fin_cases v V) as [-> |(s & ->)]; [left; apply R|].
      destruct s.
      + change (mod_sch_g m (B754_infinity true) (length x)) with (Some (fsub (fmul (fsub B754_nan (Z2f 500)) (m_sin m (fsqrt (fabs (fsub (frem (fabs (B754_infinity true)) (Z2f 500)) (Z2f 500))))))
          (fmul (fdiv (m_sq m (fadd (B754_infinity true) (Z2f 500))) (Z2f 10000)) (nat_f (length x))))).
        apply B, sub_bad. right. apply sub_bad. left. apply mul_bad. left. reflexivity.
      + change (mod_sch_g m (B754_infinity false) (length x)) with (Some (fsub (fmul (fsub (Z2f 500) B754_nan) (m_sin m (fsqrt (fabs (fsub (Z2f 500) (frem (B754_infinity false) (Z2f 500)))))))
          (fmul (fdiv (m_sq m (fsub (B754_infinity false) (Z2f 500))) (Z2f 10000)) (nat_f (length x))))).
        apply B, sub_bad. right. apply sub_bad. left. apply mul_bad. left. apply sub_bad. right. reflexivity.
    - destruct (g j); [apply IH; exact Hl|left; apply R]. }
  apply G, span_in. lia.
Qed.
Lemma katsuura_bad : exists e, katsuura_f m d x = Raise e.
Proof.
  unfold katsuura_f.
  match goal with |- context [find ?p ?l] => destruct (find p l) as [v|] eqn:E end; [eexists; reflexivity|].
  exfalso. eapply find_none with (x := fmul (getf i x) (Z2f (2 ^ Z.of_nat 1))) in E; [rewrite mul_bad in E by (left; exact Hx); discriminate|].
  apply in_flat_map. exists (S i). split; [apply span_in; lia|]. apply in_map_iff. exists 1%nat. split; [replace (S i - 1)%nat with i by lia; reflexivity|apply span_in; lia].
Qed.
Lemma cat_bad : isfin (addf fzero (fun i => getf (i - 1) x) (span 1 (d + 1))) = false.
Proof. apply (addf_bad _ _ (S i)); [apply span_in; lia|]. cbv beta. replace (S i - 1)%nat with i by lia. exact Hx. Qed.
Lemma happycat_bad : not_finite (happycat_f m d x).
Proof. apply ok_bad, add_bad. right. apply add_bad. left. apply div_bad, add_bad. right. apply cat_bad. Qed.
Lemma hgbat_bad : not_finite (hgbat_f m d x).
Proof. apply ok_bad, add_bad. left. apply add_bad. right. apply div_bad, add_bad. right. apply cat_bad. Qed.
Lemma scaffer_bad a b : isfin a = false \/ isfin b = false -> scaffer_f m a b = B754_nan.
Proof.
  intros H. unfold scaffer_f. assert (S : isfin (fadd (m_sq m a) (m_sq m b)) = false) by (apply add_bad; destruct H; [left|right]; apply sq_bad; assumption).
  rewrite (sin_bad (fsqrt _)) by (apply sqrt_bad, S). destruct Hm as (-> & _). rewrite sub_nan_l, div_nan_l. apply add_nan_r.
Qed.
Lemma expanded_bad : gives_nan (expanded_scaffer_f m d x).
Proof.
  unfold expanded_scaffer_f. rewrite reads_ok by exact Hd. apply f_equal. destruct (Nat.eq_dec i (d - 1)) as [E|E].
  - rewrite (scaffer_bad (getf (d - 1) x)) by (left; rewrite <- E; exact Hx). apply add_nan_r.
  - assert (S : addf fzero (fun i => scaffer_f m (getf (i - 1) x) (getf i x)) (span 1 d) = B754_nan); [|rewrite S; apply add_nan_l].
    apply (addf_in _ _ (S i)); [apply span_in; lia|]. cbv beta. apply scaffer_bad. left. replace (S i - 1)%nat with i by lia. exact Hx.
Qed.
End Infinite.

Definition spoils_nan (m : libm) (d : nat) (x : list f64) : Prop :=
  gives_nan (bent_cigar_f m d x) /\ gives_nan (discus_f m d x) /\ ((2 <= d)%nat -> gives_nan (rosenbrock_f m d x)) /\ gives_nan (ackley_f m d x) /\
  gives_nan (weierstrass_f m d x) /\ gives_nan (griewank_f m d x) /\ rastrigin_f m x = B754_nan /\ ((2 <= d)%nat -> gives_nan (elliptic_f m x)) /\
  mod_schwefel_f m x = Raise TypeError /\ (exists e, katsuura_f m d x = Raise e) /\ gives_nan (happycat_f m d x) /\ gives_nan (hgbat_f m d x) /\
  gives_nan (expanded_scaffer_f m d x).
Lemma all_nan m d x i : spreads m -> (d <= length x)%nat -> (i < d)%nat -> isnan (getf i x) = true -> spoils_nan m d x.
Proof.
  intros Hm Hd Hi Hx. apply isnan_eq in Hx. unfold spoils_nan. split; [eapply bent_nan; eassumption|]. split; [eapply discus_nan; eassumption|].
  split; [eapply rosenbrock_nan; eassumption|]. split; [eapply ackley_nan; eassumption|]. split; [eapply weierstrass_nan; eassumption|]. split; [eapply griewank_nan; eassumption|].
  split; [eapply rastrigin_nan; eassumption|]. split; [eapply elliptic_nan; eassumption|]. split; [eapply schwefel_nan; eassumption|]. split; [eapply katsuura_nan; eassumption|].
  split; [eapply happycat_nan; eassumption|]. split; [eapply hgbat_nan; eassumption|eapply expanded_nan; eassumption].
Qed.
Definition spoils (m : libm) (d : nat) (x : list f64) : Prop :=
  not_finite (bent_cigar_f m d x) /\ not_finite (discus_f m d x) /\ ((2 <= d)%nat -> not_finite (rosenbrock_f m d x)) /\ not_finite (ackley_f m d x) /\
  not_finite (weierstrass_f m d x) /\ not_finite (griewank_f m d x) /\ isfin (rastrigin_f m x) = false /\ ((2 <= d)%nat -> not_finite (elliptic_f m x)) /\
  ((exists e, mod_schwefel_f m x = Raise e) \/ not_finite (mod_schwefel_f m x)) /\ (exists e, katsuura_f m d x = Raise e) /\ not_finite (happycat_f m d x) /\
  not_finite (hgbat_f m d x) /\ gives_nan (expanded_scaffer_f m d x).
Lemma all_bad m d x i : spreads m -> (d <= length x)%nat -> (i < d)%nat -> isfin (getf i x) = false -> spoils m d x.
Proof.
  intros Hm Hd Hi Hx. unfold spoils. split; [eapply bent_bad; eassumption|]. split; [eapply discus_bad; eassumption|].
  split; [eapply rosenbrock_bad; eassumption|]. split; [eapply ackley_bad; eassumption|]. split; [eapply weierstrass_bad; eassumption|]. split; [eapply griewank_bad; eassumption|].
  split; [eapply rastrigin_bad; eassumption|]. split; [eapply elliptic_bad; eassumption|]. split; [eapply schwefel_bad; eassumption|]. split; [eapply katsuura_bad; eassumption|].
  split; [eapply happycat_bad; eassumption|]. split; [eapply hgbat_bad; eassumption|eapply expanded_bad; eassumption].
Qed.
Lemma rosenbrock_blind m v : rosenbrock_f m 1 [v] = Ok fzero.
Proof. reflexivity. Qed.
(** A library that treats numbers that are not finite like the C library. *)
Definition careful (m : libm) : libm := {|
  m_sq v := if isfin v then m_sq m v else fmul v v; m_pow := m_pow m; m_cos v := if isfin v then m_cos m v else B754_nan; m_sin v := if isfin v then m_sin m v else B754_nan;
  m_exp v := match v with B754_nan => B754_nan | B754_infinity true => fzero | B754_infinity false => v | _ => m_exp m v end; m_round := m_round m |}.
Lemma careful_spreads m : spreads (careful m).
Proof. repeat split; reflexivity. Qed.
