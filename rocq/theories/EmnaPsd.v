(** When the matrix EMNA learns is positive semidefinite. *)
From Coq Require Import List Lia Reals Lra.
From Verif Require Import PyBase Models ModelThms ModelMore.
Import ListNotations.
Open Scope R_scope.

Lemma Rsum_cons x l : Rsum (x :: l) = x + Rsum l.
Proof. reflexivity. Qed.

Lemma Rsum_ext {A} (f g : A -> R) l : (forall x, In x l -> f x = g x) -> Rsum (map f l) = Rsum (map g l).
Proof.
  induction l as [|a l IH]; intros H; [reflexivity|]. cbn [map]. rewrite !Rsum_cons, (H a) by (left; reflexivity).
  rewrite IH; [reflexivity|]. intros x Hx. apply H. right. exact Hx.
Qed.

Lemma Rsum_le {A} (f g : A -> R) l : (forall x, In x l -> f x <= g x) -> Rsum (map f l) <= Rsum (map g l).
Proof.
  induction l as [|a l IH]; intros H; [apply Rle_refl|]. cbn [map]. rewrite !Rsum_cons. apply Rplus_le_compat.
  - apply H. left. reflexivity.
  - apply IH. intros x Hx. apply H. right. exact Hx.
Qed.

Lemma Rsum_plus {A} (f g : A -> R) l : Rsum (map (fun x => f x + g x) l) = Rsum (map f l) + Rsum (map g l).
Proof. induction l as [|a l IH]; [unfold Rsum; cbn; ring|]. cbn [map]. rewrite !Rsum_cons, IH. ring. Qed.

Lemma Rsum_scale {A} (f : A -> R) k l : Rsum (map (fun x => k * f x) l) = k * Rsum (map f l).
Proof. induction l as [|a l IH]; [unfold Rsum; cbn; ring|]. cbn [map]. rewrite !Rsum_cons, IH. ring. Qed.

Lemma Rsum_zero {A} (l : list A) : Rsum (map (fun _ => 0) l) = 0.
Proof. induction l as [|a l IH]; [reflexivity|]. cbn [map]. rewrite Rsum_cons, IH. ring. Qed.

Lemma Rsum_swap {A B} (f : A -> B -> R) l l' :
  Rsum (map (fun x => Rsum (map (f x) l')) l) = Rsum (map (fun y => Rsum (map (fun x => f x y) l)) l').
Proof.
  induction l as [|a l IH]; [cbn [map]; change (Rsum []) with 0; rewrite Rsum_zero; reflexivity|].
  cbn [map]. rewrite Rsum_cons, IH, <- Rsum_plus. apply Rsum_ext. intros y _. cbn [map]. rewrite Rsum_cons. reflexivity.
Qed.

(** Picking one term out. *)
Lemma Rsum_pick (h : nat -> R) n i : (i < n)%nat ->
  Rsum (map h (seq 0 n)) = h i + Rsum (map (fun j => if Nat.eqb i j then 0 else h j) (seq 0 n)).
Proof.
  intros Hi.
  assert (G : forall m s, (s <= i < s + m)%nat -> Rsum (map h (seq s m)) = h i + Rsum (map (fun j => if Nat.eqb i j then 0 else h j) (seq s m))).
  { induction m as [|m IH]; intros s Hs; [lia|]. cbn [seq map]. rewrite !Rsum_cons. destruct (Nat.eqb_spec i s) as [->|Hne].
    - assert (E : Rsum (map (fun j => if Nat.eqb s j then 0 else h j) (seq (S s) m)) = Rsum (map h (seq (S s) m))).
      { apply Rsum_ext. intros x Hx. apply in_seq in Hx. destruct (Nat.eqb_spec s x); [lia|reflexivity]. }
      rewrite E. ring.
    - rewrite IH by lia. ring. }
  apply G. lia.
Qed.

(** The quadratic form of a matrix with entries [f i j]. *)
Lemma quad_entries n m (f : nat -> nat -> R) v : (forall i j, (i < n)%nat -> (j < n)%nat -> entry m i j = Some (f i j)) ->
  quad n m v = Rsum (map (fun i => Rsum (map (fun j => v i * v j * f i j) (seq 0 n))) (seq 0 n)).
Proof.
  intros H. unfold quad. apply Rsum_ext. intros i Hi. apply in_seq in Hi. apply Rsum_ext. intros j Hj. apply in_seq in Hj.
  rewrite H by lia. reflexivity.
Qed.

Lemma quad_two n m (f : nat -> nat -> R) i j x y : (forall a b, (a < n)%nat -> (b < n)%nat -> entry m a b = Some (f a b)) ->
  (i < n)%nat -> (j < n)%nat -> i <> j -> (forall a b, f a b = f b a) ->
  quad n m (fun k => if Nat.eqb k i then x else if Nat.eqb k j then y else 0) = x * x * f i i + 2 * (x * y * f i j) + y * y * f j j.
Proof.
  intros H Hi Hj Hij Hs. set (v := fun k => if Nat.eqb k i then x else if Nat.eqb k j then y else 0). rewrite (quad_entries _ _ f v H).
  assert (Vi : v i = x) by (unfold v; rewrite Nat.eqb_refl; reflexivity).
  assert (Vj : v j = y) by (unfold v; destruct (Nat.eqb_spec j i); [congruence|]; rewrite Nat.eqb_refl; reflexivity).
  assert (Vk : forall k, k <> i -> k <> j -> v k = 0) by (intros k K1 K2; unfold v; destruct (Nat.eqb_spec k i); [congruence|]; destruct (Nat.eqb_spec k j); congruence).
  rewrite (Rsum_two _ n i j Hi Hj Hij).
  2:{ intros k H1 H2. rewrite (Vk k H1 H2). eapply eq_trans; [|apply (Rsum_zero (seq 0 n))]. apply Rsum_ext. intros a _. ring. }
  rewrite !(Rsum_two _ n i j Hi Hj Hij).
  2,3: intros k H1 H2; rewrite (Vk k H1 H2); ring.
  rewrite Vi, Vj, (Hs j i). ring.
Qed.

Lemma two_negative a b c : 0 <= a -> 0 <= b -> a * b < c * c -> exists x y, x * x * a + 2 * (x * y * c) + y * y * b < 0.
Proof.
  intros Ha Hb H. destruct (Rle_lt_or_eq_dec 0 b Hb) as [Hb'|<-].
  - exists b, (- c). replace (b * b * a + 2 * (b * - c * c) + - c * - c * b) with (b * (a * b - c * c)) by ring.
    rewrite <- (Rmult_0_r b). apply Rmult_lt_compat_l; lra.
  - assert (Hc : c <> 0) by (intros ->; lra). exists 1, (- (a + 1) / (2 * c)).
    replace (1 * 1 * a + 2 * (1 * (- (a + 1) / (2 * c)) * c) + - (a + 1) / (2 * c) * (- (a + 1) / (2 * c)) * 0) with (-1) by (field; exact Hc). lra.
Qed.

Lemma two_nonneg a b c x y : 0 <= a -> 0 <= b -> c * c <= a * b -> 0 <= x * x * a + 2 * (x * y * c) + y * y * b.
Proof.
  intros Ha Hb H. destruct (Rle_lt_or_eq_dec 0 a Ha) as [Ha'|<-].
  - assert (E : a * (x * x * a + 2 * (x * y * c) + y * y * b) = (a * x + c * y) * (a * x + c * y) + y * y * (a * b - c * c)) by ring.
    assert (P : 0 <= a * (x * x * a + 2 * (x * y * c) + y * y * b)).
    { rewrite E. apply Rplus_le_le_0_compat; [apply Rle_0_sqr|]. apply Rmult_le_pos; [apply Rle_0_sqr|lra]. }
    destruct (Rle_or_lt 0 (x * x * a + 2 * (x * y * c) + y * y * b)) as [|N]; [assumption|].
    exfalso. assert (a * (x * x * a + 2 * (x * y * c) + y * y * b) < a * 0) by (apply Rmult_lt_compat_l; assumption). lra.
  - assert (Hc : c = 0). { rewrite Rmult_0_l in H. pose proof (Rle_0_sqr c) as Q. unfold Rsqr in Q. apply Rsqr_0_uniq. unfold Rsqr. lra. }
    subst c. replace (x * x * 0 + 2 * (x * y * 0) + y * y * b) with (y * y * b) by ring. apply Rmult_le_pos; [apply Rle_0_sqr|exact Hb].
Qed.

(** Diagonally dominant. *)
Lemma dominant_nonneg n (f : nat -> nat -> R) v : (forall a b, f a b = f b a) ->
  (forall i, (i < n)%nat -> Rsum (map (fun j => if Nat.eqb i j then 0 else Rabs (f i j)) (seq 0 n)) <= f i i) ->
  0 <= Rsum (map (fun i => Rsum (map (fun j => v i * v j * f i j) (seq 0 n))) (seq 0 n)).
Proof.
  intros Hs Hd.
  set (A := fun i j => if Nat.eqb i j then 0 else Rabs (f i j)).
  assert (AS : forall i j, A i j = A j i) by (intros i j; unfold A; rewrite Nat.eqb_sym, Hs; reflexivity).
  assert (B : Rsum (map (fun i => v i * v i * f i i + Rsum (map (fun j => - (A i j * (v i * v i + v j * v j) / 2)) (seq 0 n))) (seq 0 n))
              <= Rsum (map (fun i => Rsum (map (fun j => v i * v j * f i j) (seq 0 n))) (seq 0 n))).
  { apply Rsum_le. intros i Hi. apply in_seq in Hi. rewrite (Rsum_pick (fun j => v i * v j * f i j) n i) by lia.
    apply Rplus_le_compat_l, Rsum_le. intros j _. unfold A. destruct (Nat.eqb_spec i j); [lra|].
    pose proof (Rle_0_sqr (v i + v j)) as Q1. pose proof (Rle_0_sqr (v i - v j)) as Q2. unfold Rsqr in *.
    unfold Rabs. destruct (Rcase_abs (f i j)) as [N|P].
    - apply Rminus_le. replace (- (- f i j * (v i * v i + v j * v j) / 2) - v i * v j * f i j) with (f i j * ((v i - v j) * (v i - v j)) / 2) by field.
      assert (0 <= - f i j * ((v i - v j) * (v i - v j))) by (apply Rmult_le_pos; lra). lra.
    - apply Rminus_le. replace (- (f i j * (v i * v i + v j * v j) / 2) - v i * v j * f i j) with (- (f i j * ((v i + v j) * (v i + v j)) / 2)) by field.
      assert (0 <= f i j * ((v i + v j) * (v i + v j))) by (apply Rmult_le_pos; lra). lra. }
  eapply Rle_trans; [|exact B]. clear B.
  rewrite Rsum_plus.
  assert (E : Rsum (map (fun i => Rsum (map (fun j => - (A i j * (v i * v i + v j * v j) / 2)) (seq 0 n))) (seq 0 n)) =
              Rsum (map (fun i => - (v i * v i) * Rsum (map (A i) (seq 0 n))) (seq 0 n))).
  { rewrite (Rsum_ext _ (fun i => - (v i * v i / 2) * Rsum (map (A i) (seq 0 n)) + Rsum (map (fun j => - (A i j * (v j * v j) / 2)) (seq 0 n)))).
    2:{ intros i _. rewrite <- Rsum_scale, <- Rsum_plus. apply Rsum_ext. intros j _. field. }
    rewrite Rsum_plus. rewrite (Rsum_swap (fun i j => - (A i j * (v j * v j) / 2))).
    rewrite <- Rsum_plus. apply Rsum_ext. intros i _.
    rewrite (Rsum_ext (fun x => - (A x i * (v i * v i) / 2)) (fun x => - (v i * v i / 2) * A i x)).
    2:{ intros x _. rewrite (AS x i). field. }
    rewrite Rsum_scale. field. }
  rewrite E, <- Rsum_plus. eapply Rle_trans; [apply Req_le; symmetry; apply (Rsum_zero (seq 0 n))|]. apply Rsum_le. intros i Hi. apply in_seq in Hi.
  specialize (Hd i ltac:(lia)). change (fun j => if Nat.eqb i j then 0 else Rabs (f i j)) with (A i) in Hd.
  pose proof (Rle_0_sqr (v i)) as Q. unfold Rsqr in Q.
  replace (v i * v i * f i i + - (v i * v i) * Rsum (map (A i) (seq 0 n))) with (v i * v i * (f i i - Rsum (map (A i) (seq 0 n)))) by ring.
  apply Rmult_le_pos; lra.
Qed.

(** Standard deviation of a column, and the covariance of two columns after clamping. *)
Definition dev (d : list (list R)) (i : nat) : R := sqrt (pop_var (map (fun r => nth i r 0) d)).
Definition kept (lower upper : R) (d : list (list R)) (i j : nat) : R :=
  Rmin upper (Rmax lower (sample_cov (map (fun r => nth i r 0) d) (map (fun r => nth j r 0) d))).

Lemma sample_cov_sym x y : List.length x = List.length y -> sample_cov x y = sample_cov y x.
Proof.
  intros H. unfold sample_cov. rewrite H. f_equal. generalize (avg x) as a, (avg y) as b. intros a b. clear H.
  revert y. induction x as [|u x IH]; intros [|v y]; try reflexivity. cbn [combine map fst snd]. rewrite !Rsum_cons, IH. ring.
Qed.

Lemma kept_sym lower upper d i j : kept lower upper d i j = kept lower upper d j i.
Proof. unfold kept. rewrite sample_cov_sym by (rewrite !map_length; reflexivity). reflexivity. Qed.

Lemma emna_semidefinite lower upper nc (d : list (list R)) p p' :
  multigauss_learn R_ops lower upper nc (real_col nc d) p = (Ok tt, p') -> (2 <= List.length d)%nat ->
  exists m, mg_cov p' = CovMat m /\
    (forall i j, (i < nc)%nat -> (j < nc)%nat -> i <> j -> dev d i * dev d j < kept lower upper d i j * kept lower upper d i j ->
       exists v, quad nc m v < 0) /\
    ((forall i, (i < nc)%nat -> Rsum (map (fun j => if Nat.eqb i j then 0 else Rabs (kept lower upper d i j)) (seq 0 nc)) <= dev d i) ->
       forall v, 0 <= quad nc m v) /\
    (nc = 2%nat -> (forall v, 0 <= quad nc m v) <-> kept lower upper d 0 1 * kept lower upper d 0 1 <= dev d 0 * dev d 1).
Proof.
  intros H Hd. destruct (multigauss_real _ _ _ _ _ _ H Hd) as (_ & m & Hm & _ & He). exists m. split; [exact Hm|].
  set (f := fun i j => if Nat.eqb i j then dev d i else kept lower upper d i j).
  assert (Hf : forall i j, (i < nc)%nat -> (j < nc)%nat -> entry m i j = Some (f i j)) by (intros i j Hi Hj; rewrite He by assumption; reflexivity).
  assert (Hs : forall a b, f a b = f b a).
  { intros a b. unfold f. rewrite (Nat.eqb_sym b a). destruct (Nat.eqb_spec a b) as [->|]; [reflexivity|apply kept_sym]. }
  assert (Fd : forall i, f i i = dev d i) by (intros i; unfold f; rewrite Nat.eqb_refl; reflexivity).
  assert (Fo : forall i j, i <> j -> f i j = kept lower upper d i j) by (intros i j Hij; unfold f; destruct (Nat.eqb_spec i j); congruence).
  assert (Hdev : forall i, 0 <= dev d i) by (intros i; apply sqrt_pos).
  assert (Neg : forall i j, (i < nc)%nat -> (j < nc)%nat -> i <> j -> dev d i * dev d j < kept lower upper d i j * kept lower upper d i j ->
       exists v, quad nc m v < 0).
  { intros i j Hi Hj Hij Hlt. destruct (two_negative _ _ _ (Hdev i) (Hdev j) Hlt) as (x & y & Hxy). eexists.
    rewrite (quad_two nc m f i j x y Hf Hi Hj Hij Hs), !Fd, (Fo i j Hij). exact Hxy. }
  split; [exact Neg|]. split.
  - intros Hdom v. rewrite (quad_entries _ _ f v Hf). apply dominant_nonneg; [exact Hs|]. intros i Hi. rewrite Fd.
    eapply Rle_trans; [|apply Hdom, Hi]. apply Req_le, Rsum_ext. intros j _. destruct (Nat.eqb_spec i j) as [->|Hij]; [reflexivity|]. rewrite Fo by exact Hij. reflexivity.
  - intros ->. split.
    + intros Hp. destruct (Rle_or_lt (kept lower upper d 0 1 * kept lower upper d 0 1) (dev d 0 * dev d 1)) as [|Hlt]; [assumption|].
      destruct (Neg 0%nat 1%nat ltac:(lia) ltac:(lia) ltac:(lia) Hlt) as [v Hv]. specialize (Hp v). lra.
    + intros Hle v. rewrite (quad_entries _ _ f v Hf). cbn [seq map]. rewrite !Rsum_cons. change (Rsum []) with 0.
      rewrite (Hs 1%nat 0%nat), !Fd, (Fo 0%nat 1%nat) by lia.
      pose proof (two_nonneg _ _ _ (v 0%nat) (v 1%nat) (Hdev 0%nat) (Hdev 1%nat) Hle) as P. lra.
Qed.

(** A spread below the bound: whenever the deviations of two variables multiply to less than the
    square of a positive lower factor the matrix is indefinite, without any constant column. *)
Lemma emna_converged lower upper nc (d : list (list R)) p p' i j :
  multigauss_learn R_ops lower upper nc (real_col nc d) p = (Ok tt, p') -> (2 <= List.length d)%nat ->
  0 < lower -> lower <= upper -> (i < nc)%nat -> (j < nc)%nat -> i <> j -> dev d i * dev d j < lower * lower ->
  exists m, mg_cov p' = CovMat m /\ exists v, quad nc m v < 0.
Proof.
  intros H Hd Hl Hu Hi Hj Hij Hlt. destruct (emna_semidefinite _ _ _ _ _ _ H Hd) as (m & Hm & Neg & _). exists m. split; [exact Hm|].
  apply (Neg i j Hi Hj Hij). eapply Rlt_le_trans; [exact Hlt|].
  assert (K : lower <= kept lower upper d i j) by (unfold kept; apply Rmin_glb; [exact Hu|apply Rmax_l]).
  apply Rmult_le_compat; lra.
Qed.

(** Four points of a square, lower factor 1: deviations 2, kept covariance 1. *)
Definition square4 : list (list R) := [[0; 0]; [4; 4]; [0; 4]; [4; 0]].
Lemma square4_dev i : (i < 2)%nat -> dev square4 i = 2.
Proof.
  intros Hi. unfold dev. assert (E : pop_var (map (fun r => nth i r 0) square4) = 2 * 2).
  { destruct i as [|[|i]]; [| |lia]; unfold pop_var, avg, Rsum; cbn [square4 map nth fold_right List.length INR]; field. }
  rewrite E. apply sqrt_square. lra.
Qed.

Lemma square4_dominant : forall i, (i < 2)%nat ->
  Rsum (map (fun j => if Nat.eqb i j then 0 else Rabs (kept 1 2 square4 i j)) (seq 0 2)) <= dev square4 i.
Proof.
  assert (K : kept 1 2 square4 0 1 = 1).
  { unfold kept. assert (E : sample_cov (map (fun r => nth 0 r 0) square4) (map (fun r => nth 1 r 0) square4) = 0).
    { unfold sample_cov, avg, Rsum. cbn [square4 map nth fold_right List.length INR combine fst snd]. field. }
    rewrite E, Rmax_left, Rmin_right by lra. reflexivity. }
  intros i Hi. rewrite square4_dev by exact Hi. destruct i as [|[|i]]; [| |lia]; unfold Rsum; cbn [seq map fold_right Nat.eqb]; [rewrite K|rewrite kept_sym, K]; rewrite Rabs_R1; lra.
Qed.
