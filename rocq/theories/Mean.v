(** Averages over all sequences of draws. *)
From Coq Require Import List ZArith Bool Lia Reals Lra.
From Flocq Require Import Core IEEE754.BinarySingleNaN.
From Verif Require Import PyBase B64 B64More NdArray Models ModelThms FloatSum Chance.
Import ListNotations.
Open Scope R_scope.

(** The average of [f] over all sequences of [n] elements of [D], each as likely as any other. *)
Fixpoint mean {A} (D : list A) (n : nat) (f : list A -> R) : R :=
  match n with
  | O => f []
  | S n' => avg (map (fun k => mean D n' (fun v => f (k :: v))) D)
  end.

(** The 53-bit integers behind [random_sample] (see [unit53]). *)
Definition below_Z (n : Z) : list Z := map Z.of_nat (seq 0 (Z.to_nat n)).
Definition draws : list Z := below_Z (2 ^ 53).

(** 1 when the test is passed and 0 otherwise. *)
Definition ind (b : bool) : R := if b then 1 else 0.

(** The fraction of the sequences of [n] draws that pass the test. *)
Definition likelihood (n : nat) (test : list Z -> bool) : R := mean draws n (fun v => ind (test v)).

Section Mean.
Context {A : Type}.
Variable D : list A.
Hypothesis nonempty : D <> [].

Let dn : 0 < INR (List.length D).
Proof. apply lt_0_INR. destruct D; [congruence|cbn; lia]. Qed.

Definition sequence (n : nat) (v : list A) : Prop := List.length v = n /\ incl v D.

Lemma avg_le (f g : A -> R) l : (0 < List.length l)%nat -> (forall k, In k l -> f k <= g k) -> avg (map f l) <= avg (map g l).
Proof.
  intros Hl H. unfold avg. rewrite !map_length. unfold Rdiv. apply Rmult_le_compat_r; [left; apply Rinv_0_lt_compat, lt_0_INR, Hl|].
  clear Hl. unfold Rsum. induction l as [|k l IH]; cbn; [lra|]. apply Rplus_le_compat; [apply H; left; reflexivity|]. apply IH. intros. apply H. right. assumption.
Qed.
Lemma avg_const (r : R) : avg (map (fun _ : A => r) D) = r.
Proof.
  unfold avg. rewrite map_length. assert (E : Rsum (map (fun _ : A => r) D) = INR (List.length D) * r).
  { clear nonempty dn. unfold Rsum. induction D as [|k l IH]; cbn [map fold_right List.length]; [cbn; ring|]. rewrite IH, S_INR. ring. }
  rewrite E. field. lra.
Qed.
Lemma avg_scal (r : R) (f : A -> R) : avg (map (fun k => r * f k) D) = r * avg (map f D).
Proof.
  unfold avg. rewrite !map_length. assert (E : Rsum (map (fun k => r * f k) D) = r * Rsum (map f D)).
  { unfold Rsum. clear nonempty dn. induction D as [|k l IH]; cbn; [ring|]. rewrite IH. ring. }
  rewrite E. unfold Rdiv. ring.
Qed.
Lemma avg_minus (f g : A -> R) : avg (map (fun k => f k - g k) D) = avg (map f D) - avg (map g D).
Proof.
  unfold avg. rewrite !map_length. assert (E : Rsum (map (fun k => f k - g k) D) = Rsum (map f D) - Rsum (map g D)).
  { unfold Rsum. clear nonempty dn. induction D as [|k l IH]; cbn; [ring|]. rewrite IH. ring. }
  rewrite E. unfold Rdiv. ring.
Qed.

Lemma avg_not (t : A -> bool) : avg (map (fun k => ind (negb (t k))) D) = 1 - avg (map (fun k => ind (t k)) D).
Proof.
  rewrite <- (avg_const 1) at 1. rewrite <- avg_minus. f_equal. apply map_ext. intros k. destruct (t k); cbn; ring.
Qed.

Lemma mean_le n : forall f g, (forall v, sequence n v -> f v <= g v) -> mean D n f <= mean D n g.
Proof.
  induction n as [|n IH]; intros f g H; cbn [mean]; [apply H; split; [reflexivity|intros ? []]|].
  apply avg_le; [destruct D; [congruence|cbn; lia]|]. intros k Hk. apply IH. intros v [Hl Hi]. apply H. split; [cbn; congruence|].
  intros y [<-|Hy]; [exact Hk|apply Hi, Hy].
Qed.
Lemma mean_ext n f g : (forall v, sequence n v -> f v = g v) -> mean D n f = mean D n g.
Proof. intros H. apply Rle_antisym; apply mean_le; intros v Hv; rewrite H by exact Hv; lra. Qed.
Lemma mean_const n r : mean D n (fun _ => r) = r.
Proof.
  induction n as [|n IH]; cbn [mean]; [reflexivity|]. rewrite IH. apply avg_const.
Qed.
Lemma mean_scal n r : forall f, mean D n (fun v => r * f v) = r * mean D n f.
Proof.
  induction n as [|n IH]; intros f; cbn [mean]; [reflexivity|]. rewrite <- avg_scal. f_equal. apply map_ext. intros k. apply IH.
Qed.
Lemma mean_minus n : forall f g, mean D n (fun v => f v - g v) = mean D n f - mean D n g.
Proof.
  induction n as [|n IH]; intros f g; cbn [mean]; [reflexivity|]. rewrite <- avg_minus. f_equal. apply map_ext. intros k. apply IH.
Qed.
Lemma mean_app n m : forall f, mean D (n + m) f = mean D n (fun v => mean D m (fun t => f (v ++ t))).
Proof.
  induction n as [|n IH]; intros f; cbn [mean plus]; [reflexivity|]. f_equal. apply map_ext. intros k. rewrite IH. reflexivity.
Qed.
Lemma mean_ge0 n f : (forall v, sequence n v -> 0 <= f v) -> 0 <= mean D n f.
Proof. intros H. rewrite <- (mean_const n 0). apply mean_le, H. Qed.
Lemma sequence_app n m v t : sequence n v -> sequence m t -> sequence (n + m) (v ++ t).
Proof. intros [L1 I1] [L2 I2]. split; [rewrite app_length; lia|apply incl_app; assumption]. Qed.
End Mean.

Lemma below_length n : (0 <= n)%Z -> INR (List.length (below_Z n)) = IZR n.
Proof. intros H. unfold below_Z. rewrite map_length, seq_length, INR_IZR_INZ, Z2Nat.id by exact H. reflexivity. Qed.
Lemma below_in n k : In k (below_Z n) <-> (0 <= k < n)%Z.
Proof.
  unfold below_Z. rewrite in_map_iff. split.
  - intros (i & <- & Hi). apply in_seq in Hi. lia.
  - intros H. exists (Z.to_nat k). split; [lia|]. apply in_seq. lia.
Qed.
Lemma below_nodup n : NoDup (below_Z n).
Proof. apply FinFun.Injective_map_NoDup; [intros x y E; lia|apply seq_NoDup]. Qed.
Lemma draws_length : INR (List.length draws) = IZR (2 ^ 53).
Proof. exact (below_length (2 ^ 53) ltac:(lia)). Qed.
Lemma draws_in k : In k draws <-> (0 <= k < 2 ^ 53)%Z.
Proof. exact (below_in (2 ^ 53) k). Qed.
Lemma draws_nodup : NoDup draws.
Proof. exact (below_nodup (2 ^ 53)). Qed.
Lemma draws_nonempty : draws <> [].
Proof. intros E. pose proof (proj2 (draws_in 0) ltac:(lia)) as H. rewrite E in H. destruct H. Qed.
Global Opaque draws.

Lemma sum_filter {A} (t : A -> bool) l : Rsum (map (fun k => ind (t k)) l) = INR (List.length (filter t l)).
Proof.
  unfold Rsum. induction l as [|k l IH]; cbn [map fold_right filter]; [reflexivity|]. rewrite IH. destruct (t k); cbn [List.length ind]; [rewrite S_INR|]; ring.
Qed.

(** One draw: the average is the counted fraction. *)
Lemma avg_chance (t : f64 -> bool) q : chance (fun x => t x = true) q -> avg (map (fun k => ind (t (unit53 k))) draws) = q.
Proof.
  intros (l & N & H & ->). unfold avg. rewrite map_length, draws_length, (sum_filter (fun k => t (unit53 k))).
  assert (E : List.length (filter (fun k => t (unit53 k)) draws) = List.length l).
  { apply Nat.le_antisymm; apply NoDup_incl_length; [apply NoDup_filter, draws_nodup| |exact N|].
    - intros k Hk. destruct (proj1 (filter_In (fun k => t (unit53 k)) k draws) Hk) as [Hk' Ht]. apply H. split; [exact (proj1 (draws_in k) Hk')|exact Ht].
    - intros k Hk. apply H in Hk as [Hk Ht]. refine (proj2 (filter_In (fun k => t (unit53 k)) k draws) (conj (proj2 (draws_in k) Hk) Ht)). }
  rewrite E. pose proof u_inv as U. assert (Hn : IZR (2 ^ 53) <> 0) by (apply IZR_neq; lia).
  apply (Rmult_eq_reg_r (IZR (2 ^ 53))); [|exact Hn]. unfold Rdiv. rewrite !Rmult_assoc, Rinv_l by exact Hn.
  rewrite (Rmult_comm u), U. reflexivity.
Qed.
Lemma avg_chance_not (t : f64 -> bool) q : chance (fun x => t x = true) q -> avg (map (fun k => ind (negb (t (unit53 k)))) draws) = 1 - q.
Proof.
  intros H. rewrite <- (avg_chance t q H). exact (avg_not draws draws_nonempty (fun k => t (unit53 k))).
Qed.
