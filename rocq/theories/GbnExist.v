(** Every network has a solution: the equations of [solves] are never vacuous. *)
From Coq Require Import String List ZArith Bool Lia Reals Lra FunctionalExtensionality.
From Verif Require Import PyBase Models Gbn GbnSpec GbnThms.
Import ListNotations.
Open Scope R_scope.

(** ** n fair coins *)
Fixpoint coins (n : nat) (f : list bool -> R) : R :=
  match n with
  | 0%nat => f []
  | S n' => (coins n' (fun w => f (true :: w)) + coins n' (fun w => f (false :: w))) / 2
  end.
Lemma coins_const n c : coins n (fun _ => c) = c.
Proof. induction n as [|n IH]; cbn [coins]; [reflexivity|]. rewrite IH. lra. Qed.
Lemma coins_add n f g : coins n (fun w => f w + g w) = coins n f + coins n g.
Proof. revert f g. induction n as [|n IH]; intros f g; cbn [coins]; [reflexivity|]. rewrite (IH (fun w => f (true :: w)) (fun w => g (true :: w))), (IH (fun w => f (false :: w)) (fun w => g (false :: w))). lra. Qed.
Lemma coins_scal n c f : coins n (fun w => c * f w) = c * coins n f.
Proof. revert f. induction n as [|n IH]; intros f; cbn [coins]; [reflexivity|]. rewrite (IH (fun w => f (true :: w))), (IH (fun w => f (false :: w))). lra. Qed.
Lemma coins_nonneg n f : (forall w, 0 <= f w) -> 0 <= coins n f.
Proof. revert f. induction n as [|n IH]; intros f H; cbn [coins]; [apply H|]. pose proof (IH (fun w => f (true :: w)) (fun w => H _)). pose proof (IH (fun w => f (false :: w)) (fun w => H _)). lra. Qed.

Definition coin_space (n : nat) : probability (list bool).
Proof.
  refine (mkProb (fun _ => True) (fun _ => True) (coins n) _ _ _ _ _ _ (coins_const n) (fun f g _ _ => coins_add n f g) (fun c f _ => coins_scal n c f) (fun f _ H => coins_nonneg n f H)); auto.
Defined.

Definition face (i : nat) (w : list bool) : R := if nth i w false then 1 else -1.
Lemma face_mean n i : (i < n)%nat -> coins n (face i) = 0.
Proof.
  revert i. induction n as [|n IH]; intros [|i] H; try lia; cbn [coins].
  - unfold face. cbn [nth]. rewrite !coins_const. lra.
  - change (fun w => face (S i) (true :: w)) with (face i). change (fun w => face (S i) (false :: w)) with (face i). rewrite IH by lia. lra.
Qed.
Lemma face_square n i : coins n (fun w => face i w * face i w) = 1.
Proof.
  replace (fun w => face i w * face i w) with (fun _ : list bool => 1); [apply coins_const|]. extensionality w. unfold face. destruct (nth i w false); ring.
Qed.
Lemma face_product n i j : (i < n)%nat -> (j < n)%nat -> i <> j -> coins n (fun w => face i w * face j w) = 0.
Proof.
  revert i j. induction n as [|n IH]; intros [|i] [|j] Hi Hj Hn; try lia; cbn [coins].
  - unfold face at 1 3. cbn [nth]. change (fun w => 1 * face (S j) (true :: w)) with (fun w => 1 * face j w).
    change (fun w => -1 * face (S j) (false :: w)) with (fun w => -1 * face j w). rewrite !coins_scal, face_mean by lia. lra.
  - replace (fun w => face (S i) (true :: w) * face 0 (true :: w)) with (fun w => 1 * face i w) by (extensionality w; unfold face; cbn [nth]; ring).
    replace (fun w => face (S i) (false :: w) * face 0 (false :: w)) with (fun w => -1 * face i w) by (extensionality w; unfold face; cbn [nth]; ring).
    rewrite !coins_scal, face_mean by lia. lra.
  - change (fun w => face (S i) (true :: w) * face (S j) (true :: w)) with (fun w => face i w * face j w).
    change (fun w => face (S i) (false :: w) * face (S j) (false :: w)) with (fun w => face i w * face j w). rewrite IH by lia. lra.
Qed.

(** ** The solution *)
Section Solve.
Context (N : network R) (HD : dag N).
Definition noise (v : string) (w : list bool) : R := sqrt (d_var (n_cpd N v)) * face (pos N v) w.
Definition value_of (prev : list R) (v : string) (w : list bool) : R :=
  hd 0 (d_beta (n_cpd N v)) + lin (tl (d_beta (n_cpd N v))) (d_parents (n_cpd N v)) (fun p => nth (pos N p) prev 0) + noise v w.
Definition values (l : list string) (w : list bool) : list R := fold_left (fun prev v => prev ++ [value_of prev v w]) l [].
Definition solution (v : string) (w : list bool) : R := nth (pos N v) (values (n_order N) w) 0.

Lemma values_snoc l v w : values (l ++ [v]) w = values l w ++ [value_of (values l w) v w].
Proof. unfold values. rewrite fold_left_app. reflexivity. Qed.
Lemma values_length l w : length (values l w) = length l.
Proof. induction l as [|v l IH] using rev_ind; [reflexivity|]. rewrite values_snoc, !app_length, IH. reflexivity. Qed.
Lemma values_prefix l l' k w : (k < length l)%nat -> nth k (values (l ++ l') w) 0 = nth k (values l w) 0.
Proof.
  induction l' as [|v l' IH] using rev_ind; intros H; [rewrite app_nil_r; reflexivity|].
  rewrite app_assoc, values_snoc, app_nth1; [apply IH; exact H|]. rewrite values_length, app_length. lia.
Qed.

Lemma solution_eq v w : In v (n_order N) ->
  solution v w = hd 0 (d_beta (n_cpd N v)) + lin (tl (d_beta (n_cpd N v))) (d_parents (n_cpd N v)) (fun p => solution p w) + noise v w.
Proof.
  intros Hv. apply In_nth_error in Hv as [i Hi]. unfold solution. rewrite (pos_ok N i v HD Hi).
  destruct (nth_error_split (n_order N) i Hi) as (l1 & l2 & E & Hl).
  assert (A : forall k, (k < i)%nat -> nth k (values (n_order N) w) 0 = nth k (values l1 w) 0).
  { intros k Hk. rewrite E. apply values_prefix. lia. }
  rewrite E at 1. change (l1 ++ v :: l2) with (l1 ++ [v] ++ l2). rewrite app_assoc, values_prefix by (rewrite app_length; cbn; lia).
  rewrite values_snoc, app_nth2 by (rewrite values_length; lia). rewrite values_length, Hl, Nat.sub_diag. cbn [nth]. unfold value_of. f_equal. f_equal.
  apply lin_ext. intros p Hp. destruct (dag_parent N i v p HD Hi Hp) as (_ & A2 & _). symmetry. apply A. exact A2.
Qed.

Theorem solution_solves : (forall v, In v (n_order N) -> 0 <= d_var (n_cpd N v)) ->
  solves (coin_space (length (n_order N))) N solution noise.
Proof.
  intros HV. set (n := length (n_order N)).
  assert (HP : forall v, In v (n_order N) -> (pos N v < n)%nat).
  { intros v Hv. apply In_nth_error in Hv as [i Hi]. rewrite (pos_ok N i v HD Hi). apply nth_error_Some. rewrite Hi. discriminate. }
  assert (HM : forall v, In v (n_order N) -> coins n (noise v) = 0).
  { intros v Hv. unfold noise. rewrite coins_scal, face_mean by (apply HP; exact Hv). ring. }
  assert (HC : forall v u, In v (n_order N) -> In u (n_order N) -> cov (coin_space n) (noise v) (noise u) =
     (sqrt (d_var (n_cpd N v)) * sqrt (d_var (n_cpd N u))) * coins n (fun w => face (pos N v) w * face (pos N u) w)).
  { intros v u Hv Hu. unfold cov. cbn [Ex coin_space]. rewrite (HM v Hv), (HM u Hu). rewrite <- coins_scal. f_equal. extensionality w. unfold noise. ring. }
  split.
  - intros v Hv. split; [exact I|]. split; [exact (HM v Hv)|]. split; [|intros w; apply solution_eq; exact Hv].
    rewrite HC by assumption. rewrite face_square, sqrt_sqrt by (apply HV; exact Hv). ring.
  - intros v u Hv Hu Hn. rewrite HC by assumption. rewrite face_product; [ring|apply HP; exact Hv|apply HP; exact Hu|].
    intros E. apply Hn. apply In_nth_error in Hv as [i Hi]. apply In_nth_error in Hu as [j Hj].
    rewrite (pos_ok N i v HD Hi), (pos_ok N j u HD Hj) in E. subst j. congruence.
Qed.
End Solve.
