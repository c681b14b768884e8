(** What a linear Gaussian network means: random variables solving its equations. *)
From Coq Require Import String List ZArith Bool Lia Reals Lra FunctionalExtensionality.
From Verif Require Import PyBase Models Gbn.
Import ListNotations.
Open Scope R_scope.

(** An expectation on a space of random variables: the second-order part of a probability space.
    [L2] are the square integrable variables, [L1] the integrable ones. *)
Record probability (O : Type) := mkProb {
  L1 : (O -> R) -> Prop;
  L2 : (O -> R) -> Prop;
  Ex : (O -> R) -> R;
  L2_const : forall c, L2 (fun _ => c);
  L2_add : forall f g, L2 f -> L2 g -> L2 (fun w => f w + g w);
  L2_scal : forall c f, L2 f -> L2 (fun w => c * f w);
  L1_prod : forall f g, L2 f -> L2 g -> L1 (fun w => f w * g w);
  L1_add : forall f g, L1 f -> L1 g -> L1 (fun w => f w + g w);
  L1_scal : forall c f, L1 f -> L1 (fun w => c * f w);
  Ex_const : forall c, Ex (fun _ => c) = c;
  Ex_add : forall f g, L1 f -> L1 g -> Ex (fun w => f w + g w) = Ex f + Ex g;
  Ex_scal : forall c f, L1 f -> Ex (fun w => c * f w) = c * Ex f;
  Ex_nonneg : forall f, L1 f -> (forall w, 0 <= f w) -> 0 <= Ex f
}.
Arguments mkProb {O}. Arguments L1 {O}. Arguments L2 {O}. Arguments Ex {O}.
Arguments L2_const {O}. Arguments L2_add {O}. Arguments L2_scal {O}. Arguments L1_prod {O}. Arguments L1_add {O}.
Arguments L1_scal {O}. Arguments Ex_const {O}. Arguments Ex_add {O}. Arguments Ex_scal {O}. Arguments Ex_nonneg {O}.

Definition cov {O} (P : probability O) (f g : O -> R) : R := Ex P (fun w => (f w - Ex P f) * (g w - Ex P g)).

(** c_1 f(p_1) + c_2 f(p_2) + ... *)
Fixpoint lin (cs : list R) (ps : list string) (f : string -> R) : R :=
  match cs, ps with
  | c :: cs', p :: ps' => c * f p + lin cs' ps' f
  | _, _ => 0
  end.

(** A network whose nodes are distinct, whose parents come earlier in the order and whose
    coefficients are an intercept and one number per parent (what pybnesian's fit produces). *)
Definition dag {T} (N : network T) : Prop :=
  NoDup (n_order N) /\
  forall i v, nth_error (n_order N) i = Some v ->
    length (d_beta (n_cpd N v)) = S (length (d_parents (n_cpd N v))) /\
    Forall (fun p => In p (firstn i (n_order N))) (d_parents (n_cpd N v)).

(** [X] solves the equations of the network: every variable is the intercept, plus its parents
    times their coefficients, plus a centred noise of the given variance; noises of different
    nodes are uncorrelated. *)
Definition solves {O} (P : probability O) (N : network R) (X eps : string -> O -> R) : Prop :=
  (forall v, In v (n_order N) ->
     L2 P (eps v) /\ Ex P (eps v) = 0 /\ cov P (eps v) (eps v) = d_var (n_cpd N v) /\
     forall w, X v w = hd 0 (d_beta (n_cpd N v)) + lin (tl (d_beta (n_cpd N v))) (d_parents (n_cpd N v)) (fun p => X p w) + eps v w) /\
  (forall v v', In v (n_order N) -> In v' (n_order N) -> v <> v' -> cov P (eps v) (eps v') = 0).

(** ** Expectation and covariance *)
Section Prob.
Context {O : Type} (P : probability O).

Lemma L2_L1 f : L2 P f -> L1 P f.
Proof.
  intros H. replace f with (fun w => f w * (fun _ => 1) w) by (extensionality w; ring).
  apply L1_prod; [exact H|apply L2_const].
Qed.
Lemma L2_sub f g : L2 P f -> L2 P g -> L2 P (fun w => f w - g w).
Proof.
  intros Hf Hg. replace (fun w => f w - g w) with (fun w => f w + (fun w => -1 * g w) w) by (extensionality w; ring).
  apply L2_add; [exact Hf|apply L2_scal; exact Hg].
Qed.
Lemma L2_dev f c : L2 P f -> L2 P (fun w => f w - c).
Proof. intros H. apply (L2_sub f (fun _ => c)); [exact H|apply L2_const]. Qed.

Lemma Ex_lin f g c : L2 P f -> L2 P g -> Ex P (fun w => c * f w + g w) = c * Ex P f + Ex P g.
Proof.
  intros Hf Hg. rewrite (Ex_add P (fun w => c * f w) g); [|apply L1_scal; apply L2_L1; exact Hf|apply L2_L1; exact Hg].
  rewrite Ex_scal; [reflexivity|apply L2_L1; exact Hf].
Qed.

Lemma cov_sym f g : cov P f g = cov P g f.
Proof. unfold cov. f_equal. extensionality w. ring. Qed.

Lemma cov_lin f g h c : L2 P f -> L2 P g -> L2 P h -> cov P (fun w => c * f w + g w) h = c * cov P f h + cov P g h.
Proof.
  intros Hf Hg Hh. unfold cov. rewrite Ex_lin by assumption.
  set (a := Ex P f). set (b := Ex P g). set (d := Ex P h).
  rewrite <- (Ex_scal P c (fun w => (f w - a) * (h w - d))) by (apply L1_prod; apply L2_dev; assumption).
  rewrite <- (Ex_add P (fun w => c * ((f w - a) * (h w - d))) (fun w => (g w - b) * (h w - d)))
    by (try apply L1_scal; apply (L1_prod P (fun w => _ w - _) (fun w => _ w - _)); apply L2_dev; assumption).
  f_equal. extensionality w. ring.
Qed.
Lemma cov_const f c : L2 P f -> cov P (fun _ => c) f = 0.
Proof.
  intros Hf. unfold cov. rewrite Ex_const. replace (fun w => (c - c) * (f w - Ex P f)) with (fun _ : O => 0) by (extensionality w; ring).
  apply Ex_const.
Qed.
Lemma cov_add f g h : L2 P f -> L2 P g -> L2 P h -> cov P (fun w => f w + g w) h = cov P f h + cov P g h.
Proof.
  intros Hf Hg Hh. replace (fun w => f w + g w) with (fun w => 1 * f w + g w) by (extensionality w; ring).
  rewrite cov_lin by assumption. ring.
Qed.
Lemma cov_scal f h c : L2 P f -> L2 P h -> cov P (fun w => c * f w) h = c * cov P f h.
Proof.
  intros Hf Hh. replace (fun w => c * f w) with (fun w => c * f w + 0) by (extensionality w; ring).
  rewrite cov_lin; [|assumption|apply L2_const|assumption]. rewrite cov_const by assumption. ring.
Qed.
Lemma cov_nonneg f : L2 P f -> 0 <= cov P f f.
Proof. intros Hf. apply Ex_nonneg; [apply L1_prod; apply L2_dev; exact Hf|]. intros w. apply Rle_0_sqr. Qed.

(** Cauchy-Schwarz, in the degenerate case. *)
Lemma cov_degenerate f g : L2 P f -> L2 P g -> cov P f f = 0 -> cov P f g = 0.
Proof.
  intros Hf Hg H0.
  assert (Q : forall t, 0 <= 2 * t * cov P f g + cov P g g).
  { intros t. assert (Hh : L2 P (fun w => t * f w + g w)) by (apply (L2_add P (fun w => t * f w) g); [apply L2_scal; exact Hf|exact Hg]).
    pose proof (cov_nonneg _ Hh) as H. rewrite cov_lin in H by assumption.
    rewrite (cov_sym f), (cov_sym g) in H. rewrite !cov_lin in H by assumption. rewrite H0, (cov_sym g f) in H. lra. }
  destruct (Req_dec (cov P f g) 0) as [H|H]; [exact H|].
  specialize (Q (- (cov P g g + 1) / (2 * cov P f g))).
  replace (2 * (- (cov P g g + 1) / (2 * cov P f g)) * cov P f g) with (- (cov P g g + 1)) in Q by (field; exact H). lra.
Qed.

(** Linear combinations *)
Lemma lin_L2 X cs ps : (forall p, In p ps -> L2 P (X p)) -> L2 P (fun w => lin cs ps (fun p => X p w)).
Proof.
  revert ps. induction cs as [|c cs IH]; intros [|p ps] H; cbn [lin]; try apply L2_const.
  apply (L2_add P (fun w => c * X p w)); [apply L2_scal; apply H; left; reflexivity|]. apply IH. intros q Hq. apply H. right. exact Hq.
Qed.
Lemma lin_Ex X cs ps : (forall p, In p ps -> L2 P (X p)) ->
  Ex P (fun w => lin cs ps (fun p => X p w)) = lin cs ps (fun p => Ex P (X p)).
Proof.
  revert ps. induction cs as [|c cs IH]; intros [|p ps] H; cbn [lin]; try apply Ex_const.
  assert (H' : forall q, In q ps -> L2 P (X q)) by (intros q Hq; apply H; right; exact Hq).
  rewrite (Ex_lin (X p) (fun w => lin cs ps (fun p => X p w))); [|apply H; left; reflexivity|apply lin_L2; exact H'].
  rewrite IH by exact H'. reflexivity.
Qed.
Lemma lin_cov X cs ps h : (forall p, In p ps -> L2 P (X p)) -> L2 P h ->
  cov P (fun w => lin cs ps (fun p => X p w)) h = lin cs ps (fun p => cov P (X p) h).
Proof.
  revert ps. induction cs as [|c cs IH]; intros [|p ps] H Hh; cbn [lin]; try (apply cov_const; exact Hh).
  assert (H' : forall q, In q ps -> L2 P (X q)) by (intros q Hq; apply H; right; exact Hq).
  rewrite (cov_lin (X p) (fun w => lin cs ps (fun p => X p w))); [|apply H; left; reflexivity|apply lin_L2; exact H'|exact Hh].
  rewrite IH by assumption. reflexivity.
Qed.
End Prob.

Lemma lin_ext cs ps f g : (forall p, In p ps -> f p = g p) -> lin cs ps f = lin cs ps g.
Proof.
  revert ps. induction cs as [|c cs IH]; intros [|p ps] H; cbn [lin]; try reflexivity.
  rewrite (H p) by (left; reflexivity). rewrite IH; [reflexivity|]. intros q Hq. apply H. right. exact Hq.
Qed.
Lemma lin_zero cs ps : lin cs ps (fun _ => 0) = 0.
Proof. revert ps. induction cs as [|c cs IH]; intros [|p ps]; cbn [lin]; try reflexivity. rewrite IH. ring. Qed.

(** ** The moments of a solution *)
Section Moments.
Context {O : Type} (P : probability O) (N : network R) (X eps : string -> O -> R).
Hypothesis HD : dag N.
Hypothesis HS : solves P N X eps.

Lemma node_in i v : nth_error (n_order N) i = Some v -> In v (n_order N).
Proof. apply nth_error_In. Qed.

Lemma parents_earlier i v p : nth_error (n_order N) i = Some v -> In p (d_parents (n_cpd N v)) ->
  exists k, (k < i)%nat /\ nth_error (n_order N) k = Some p.
Proof.
  intros Hi Hp. destruct HD as [_ H]. destruct (H i v Hi) as [_ HF]. rewrite Forall_forall in HF. specialize (HF p Hp).
  apply In_nth_error in HF as [k Hk]. exists k.
  assert (k < i)%nat. { assert (k < length (firstn i (n_order N)))%nat by (apply nth_error_Some; rewrite Hk; discriminate). rewrite firstn_length in H0. lia. }
  split; [exact H0|]. rewrite <- Hk. clear -H0. revert i H0. generalize (n_order N) as l. induction k as [|k IH]; intros [|y l] [|i] H; try lia; try reflexivity.
  cbn. apply IH. lia.
Qed.

Lemma node_L2 : forall i v, nth_error (n_order N) i = Some v -> L2 P (X v).
Proof.
  induction i as [i IH] using (well_founded_induction Wf_nat.lt_wf). intros v Hi.
  destruct HS as [H1 _]. destruct (H1 v (node_in i v Hi)) as (He & _ & _ & HX).
  replace (X v) with (fun w => hd 0 (d_beta (n_cpd N v)) + (lin (tl (d_beta (n_cpd N v))) (d_parents (n_cpd N v)) (fun p => X p w) + eps v w))
    by (extensionality w; rewrite HX; ring).
  apply (L2_add P (fun _ => hd 0 (d_beta (n_cpd N v)))); [apply L2_const|].
  apply (L2_add P (fun w => lin (tl (d_beta (n_cpd N v))) (d_parents (n_cpd N v)) (fun p => X p w))); [|exact He].
  apply lin_L2. intros p Hp. destruct (parents_earlier i v p Hi Hp) as (k & Hk & Hn). apply (IH k Hk p Hn).
Qed.
Lemma parent_L2 i v p : nth_error (n_order N) i = Some v -> In p (d_parents (n_cpd N v)) -> L2 P (X p).
Proof. intros Hi Hp. destruct (parents_earlier i v p Hi Hp) as (k & _ & Hn). exact (node_L2 k p Hn). Qed.

Lemma node_eq i v : nth_error (n_order N) i = Some v ->
  X v = (fun w => (hd 0 (d_beta (n_cpd N v)) + lin (tl (d_beta (n_cpd N v))) (d_parents (n_cpd N v)) (fun p => X p w)) + eps v w).
Proof. intros Hi. destruct HS as [H1 _]. destruct (H1 v (node_in i v Hi)) as (_ & _ & _ & HX). extensionality w. apply HX. Qed.
Lemma eps_L2 i v : nth_error (n_order N) i = Some v -> L2 P (eps v).
Proof. intros Hi. destruct HS as [H1 _]. apply (H1 v (node_in i v Hi)). Qed.

Lemma node_Ex i v : nth_error (n_order N) i = Some v ->
  Ex P (X v) = hd 0 (d_beta (n_cpd N v)) + lin (tl (d_beta (n_cpd N v))) (d_parents (n_cpd N v)) (fun p => Ex P (X p)).
Proof.
  intros Hi. pose proof (fun p => parent_L2 i v p Hi) as HP. rewrite (node_eq i v Hi) at 1.
  destruct HS as [H1 _]. destruct (H1 v (node_in i v Hi)) as (He & He0 & _ & _).
  pose proof (lin_L2 P X (tl (d_beta (n_cpd N v))) _ HP) as HL.
  rewrite (Ex_add P (fun w => hd 0 (d_beta (n_cpd N v)) + lin (tl (d_beta (n_cpd N v))) (d_parents (n_cpd N v)) (fun p => X p w)) (eps v));
    [|apply L2_L1; apply (L2_add P (fun _ => hd 0 (d_beta (n_cpd N v)))); [apply L2_const|exact HL]|apply L2_L1; exact He].
  rewrite (Ex_add P (fun _ => hd 0 (d_beta (n_cpd N v)))); [|apply L2_L1; apply L2_const|apply L2_L1; exact HL].
  rewrite Ex_const, lin_Ex by exact HP. rewrite He0. ring.
Qed.

(** the covariance of a node with anything square integrable *)
Lemma node_cov i v h : nth_error (n_order N) i = Some v -> L2 P h ->
  cov P (X v) h = lin (tl (d_beta (n_cpd N v))) (d_parents (n_cpd N v)) (fun p => cov P (X p) h) + cov P (eps v) h.
Proof.
  intros Hi Hh. pose proof (fun p => parent_L2 i v p Hi) as HP. rewrite (node_eq i v Hi) at 1.
  pose proof (lin_L2 P X (tl (d_beta (n_cpd N v))) _ HP) as HL.
  rewrite (cov_add P (fun w => hd 0 (d_beta (n_cpd N v)) + lin (tl (d_beta (n_cpd N v))) (d_parents (n_cpd N v)) (fun p => X p w)) (eps v));
    [|apply (L2_add P (fun _ => hd 0 (d_beta (n_cpd N v)))); [apply L2_const|exact HL]|exact (eps_L2 i v Hi)|exact Hh].
  rewrite (cov_add P (fun _ => hd 0 (d_beta (n_cpd N v)))); [|apply L2_const|exact HL|exact Hh].
  rewrite cov_const, lin_cov by assumption. ring.
Qed.

Lemma nth_error_NoDup_neq {A} (l : list A) i j x y : NoDup l -> nth_error l i = Some x -> nth_error l j = Some y -> i <> j -> x <> y.
Proof.
  intros ND Hi Hj Hn ->. apply Hn. apply (proj1 (NoDup_nth_error l) ND); [|congruence]. apply nth_error_Some. rewrite Hi. discriminate.
Qed.

(** earlier nodes are uncorrelated with later noises *)
Lemma cov_eps : forall i j v u, (i < j)%nat -> nth_error (n_order N) i = Some v -> nth_error (n_order N) j = Some u ->
  cov P (X v) (eps u) = 0.
Proof.
  induction i as [i IH] using (well_founded_induction Wf_nat.lt_wf). intros j v u Hij Hi Hj.
  rewrite (node_cov i v (eps u) Hi (eps_L2 j u Hj)).
  rewrite (lin_ext _ _ _ (fun _ => 0)), lin_zero.
  - destruct HS as [_ H2]. rewrite H2; [ring|apply (node_in i v Hi)|apply (node_in j u Hj)|].
    destruct HD as [ND _]. apply (nth_error_NoDup_neq _ i j v u ND Hi Hj). lia.
  - intros p Hp. destruct (parents_earlier i v p Hi Hp) as (k & Hk & Hn). apply (IH k Hk j p u); [lia|exact Hn|exact Hj].
Qed.

(** Cov(X_i, X_j) for i before j *)
Lemma cov_step i j v u : (i < j)%nat -> nth_error (n_order N) i = Some v -> nth_error (n_order N) j = Some u ->
  cov P (X v) (X u) = lin (tl (d_beta (n_cpd N u))) (d_parents (n_cpd N u)) (fun p => cov P (X v) (X p)).
Proof.
  intros Hij Hi Hj. rewrite cov_sym, (node_cov j u (X v) Hj (node_L2 i v Hi)), cov_sym with (f := eps u), (cov_eps i j v u Hij Hi Hj).
  rewrite Rplus_0_r. apply lin_ext. intros p _. apply cov_sym.
Qed.

Lemma cov_own i v : nth_error (n_order N) i = Some v -> cov P (X v) (eps v) = d_var (n_cpd N v).
Proof.
  intros Hi. rewrite (node_cov i v (eps v) Hi (eps_L2 i v Hi)).
  destruct HS as [H1 _]. destruct (H1 v (node_in i v Hi)) as (_ & _ & Hv & _). rewrite Hv.
  rewrite (lin_ext _ _ _ (fun _ => 0)), lin_zero; [ring|].
  intros p Hp. destruct (parents_earlier i v p Hi Hp) as (k & Hk & Hn). exact (cov_eps k i p v Hk Hn Hi).
Qed.

(** Var(X_i) *)
Lemma var_step i v : nth_error (n_order N) i = Some v ->
  cov P (X v) (X v) = d_var (n_cpd N v) +
    lin (tl (d_beta (n_cpd N v))) (d_parents (n_cpd N v))
      (fun p => lin (tl (d_beta (n_cpd N v))) (d_parents (n_cpd N v)) (fun q => cov P (X p) (X q))).
Proof.
  intros Hi. rewrite (node_cov i v (X v) Hi (node_L2 i v Hi)), cov_sym with (f := eps v), (cov_own i v Hi). rewrite Rplus_comm. f_equal.
  apply lin_ext. intros p Hp. destruct (parents_earlier i v p Hi Hp) as (k & Hk & Hn). exact (cov_step k i p v Hk Hn Hi).
Qed.
End Moments.
