(** When a kernel density estimate exists.

    [UniKDE.learn] (EDAspy/optimization/custom/probabilistic_models/univariate_kde.py:33-39) is one
    call of scipy.stats.gaussian_kde on all columns together.  scipy computes the sample
    covariance matrix of the columns and its Cholesky factor, which exists exactly when the matrix
    is positive definite; otherwise it raises an exception.  Exact arithmetic. *)
From Coq Require Import List ZArith Lia Reals Lra.
From Verif Require Import PyBase Models ModelThms.
Import ListNotations.
Open Scope R_scope.

(** [dataset[:, i]]. *)
Definition column_of (d : list (list R)) (i : nat) : list R := map (fun r => nth i r 0) d.
(** Entry of the covariance matrix scipy computes (univariate_kde.py:39). *)
Definition kde_cov (d : list (list R)) (i j : nat) : R := sample_cov (column_of d i) (column_of d j).
(** A quadratic form.  Not code: what positive definite means. *)
Definition form (n : nat) (a : nat -> nat -> R) (v : nat -> R) : R :=
  Rsum (map (fun i => Rsum (map (fun j => v i * v j * a i j) (seq 0 n))) (seq 0 n)).
(** [gaussian_kde(dataset.T)] returns: more than one sample and a positive definite matrix. *)
Definition kde_fits (n : nat) (d : list (list R)) : Prop :=
  (0 < n)%nat /\ (2 <= List.length d)%nat /\
  forall v, (exists i, (i < n)%nat /\ v i <> 0) -> 0 < form n (kde_cov d) v.

(* ---------------- sums ---------------- *)
Lemma Rsum_scale {A} (f : A -> R) c l : Rsum (map (fun x => c * f x) l) = c * Rsum (map f l).
Proof. induction l as [|x l IH]; cbn; [lra|]. unfold Rsum in IH. rewrite IH. lra. Qed.
Lemma Rsum_plus {A} (f g : A -> R) l : Rsum (map (fun x => f x + g x) l) = Rsum (map f l) + Rsum (map g l).
Proof. induction l as [|x l IH]; cbn; [lra|]. unfold Rsum in IH. rewrite IH. lra. Qed.
Lemma Rsum_swap {A B} (f : A -> B -> R) l l' :
  Rsum (map (fun x => Rsum (map (fun y => f x y) l')) l) = Rsum (map (fun y => Rsum (map (fun x => f x y) l)) l').
Proof.
  induction l as [|x l IH].
  - cbn. induction l' as [|y l' IH]; cbn; [reflexivity|]. unfold Rsum in IH. rewrite <- IH. lra.
  - cbn [map Rsum fold_right]. fold (Rsum (map (fun x => Rsum (map (fun y => f x y) l')) l)). rewrite IH.
    rewrite <- Rsum_plus. f_equal.
Qed.
Lemma Rsum_ext {A} (f g : A -> R) l : (forall x, In x l -> f x = g x) -> Rsum (map f l) = Rsum (map g l).
Proof. intros H. f_equal. apply map_ext_in, H. Qed.
Lemma Rsum_nonneg {A} (f : A -> R) l : (forall x, In x l -> 0 <= f x) -> 0 <= Rsum (map f l).
Proof.
  induction l as [|x l IH]; intros H; cbn; [lra|]. pose proof (H x (or_introl eq_refl)).
  assert (0 <= Rsum (map f l)) by (apply IH; intros y Hy; apply H; right; exact Hy). unfold Rsum in *. lra.
Qed.
Lemma Rsum_zero {A} (f : A -> R) l : (forall x, In x l -> 0 <= f x) -> Rsum (map f l) = 0 -> forall x, In x l -> f x = 0.
Proof.
  induction l as [|y l IH]; intros H E x Hx; [destruct Hx|].
  assert (H0 := H y (or_introl eq_refl)). assert (H1 : 0 <= Rsum (map f l)) by (apply Rsum_nonneg; intros z Hz; apply H; right; exact Hz).
  cbn in E. fold (Rsum (map f l)) in E. destruct Hx as [<-|Hx]; [lra|]. apply IH; [intros z Hz; apply H; right; exact Hz|lra|exact Hx].
Qed.

(** The inner product of a row with [v]. *)
Definition inner (n : nat) (v : nat -> R) (r : list R) : R := Rsum (map (fun i => v i * nth i r 0) (seq 0 n)).

Lemma combine_cols d i j : combine (column_of d i) (column_of d j) = map (fun r => (nth i r 0, nth j r 0)) d.
Proof. unfold column_of. induction d as [|r d IH]; cbn; congruence. Qed.

(** The mean of the inner products.  Not code: used in proofs. *)
Definition mean_inner (n : nat) (v : nat -> R) (d : list (list R)) : R := Rsum (map (fun i => v i * avg (column_of d i)) (seq 0 n)).

(** The quadratic form is a sum of squares. *)
Lemma form_squares n d v :
  form n (kde_cov d) v = Rsum (map (fun r => (inner n v r - mean_inner n v d) * (inner n v r - mean_inner n v d)) d) / (INR (List.length d) - 1).
Proof.
  assert (Hd : forall r, inner n v r - mean_inner n v d = Rsum (map (fun i => v i * (nth i r 0 - avg (column_of d i))) (seq 0 n))).
  { intros r. unfold inner, mean_inner. replace (Rsum (map (fun i => v i * nth i r 0) (seq 0 n)) - Rsum (map (fun i => v i * avg (column_of d i)) (seq 0 n)))
      with (Rsum (map (fun i => v i * nth i r 0) (seq 0 n)) + (-1) * Rsum (map (fun i => v i * avg (column_of d i)) (seq 0 n))) by ring.
    rewrite <- Rsum_scale, <- Rsum_plus. apply Rsum_ext. intros i _. ring. }
  unfold form, kde_cov, sample_cov.
  set (c := fun (r : list R) i => nth i r 0 - avg (column_of d i)).
  transitivity (Rsum (map (fun i => Rsum (map (fun j => Rsum (map (fun r => (/ (INR (List.length d) - 1)) * ((v i * c r i) * (v j * c r j))) d)) (seq 0 n))) (seq 0 n))).
  { apply Rsum_ext. intros i _. apply Rsum_ext. intros j _. rewrite combine_cols, map_map. cbn [fst snd].
    unfold column_of at 3. rewrite ?map_length. unfold Rdiv.
    rewrite Rsum_scale. rewrite (Rsum_ext (fun x => v i * c x i * (v j * c x j)) (fun x => (v i * v j) * ((nth i x 0 - avg (column_of d i)) * (nth j x 0 - avg (column_of d j))))) by (intros r _; unfold c; ring).
    rewrite Rsum_scale. ring. }
  transitivity (Rsum (map (fun r => (/ (INR (List.length d) - 1)) * ((inner n v r - mean_inner n v d) * (inner n v r - mean_inner n v d))) d)).
  - transitivity (Rsum (map (fun i => Rsum (map (fun r => Rsum (map (fun j => (/ (INR (List.length d) - 1)) * ((v i * c r i) * (v j * c r j))) (seq 0 n))) d)) (seq 0 n))).
    { apply Rsum_ext. intros i _. apply Rsum_swap. }
    rewrite Rsum_swap. apply Rsum_ext. intros r _. rewrite Hd.
    transitivity (Rsum (map (fun i => (/ (INR (List.length d) - 1) * Rsum (map (fun j => v j * c r j) (seq 0 n))) * (v i * c r i)) (seq 0 n))).
    { apply Rsum_ext. intros i _. rewrite (Rsum_ext _ (fun j => (/ (INR (List.length d) - 1) * (v i * c r i)) * (v j * c r j))) by (intros j _; ring).
      rewrite Rsum_scale. ring. }
    rewrite Rsum_scale. fold (c r). change (fun i => v i * (nth i r 0 - avg (column_of d i))) with (fun i => v i * c r i). ring.
  - rewrite Rsum_scale. unfold Rdiv. ring.
Qed.

Lemma mean_is_mean n v d : d <> [] -> mean_inner n v d = Rsum (map (inner n v) d) / INR (List.length d).
Proof.
  intros Hne. unfold mean_inner, inner. rewrite Rsum_swap. unfold Rdiv. rewrite (Rmult_comm _ (/ _)), <- Rsum_scale.
  apply Rsum_ext. intros i _. unfold avg, column_of. rewrite map_length. rewrite (Rsum_scale (fun x => nth i x 0)). unfold Rdiv. ring.
Qed.

Lemma Rsum_const {A} c (l : list A) : Rsum (map (fun _ => c) l) = INR (List.length l) * c.
Proof. induction l as [|x l IH]; [cbn; lra|]. cbn [map List.length]. rewrite S_INR. cbn [Rsum fold_right]. fold (Rsum (map (fun _ => c) l)). rewrite IH. lra. Qed.

(** No form vanishes: no non-trivial linear combination of the columns is constant. *)
Theorem kde_fits_iff n d : (0 < n)%nat ->
  (kde_fits n d <-> (2 <= List.length d)%nat /\
     forall v, (exists i, (i < n)%nat /\ v i <> 0) -> exists r1 r2, In r1 d /\ In r2 d /\ inner n v r1 <> inner n v r2).
Proof.
  intros Hn. unfold kde_fits. split.
  - intros (_ & H2 & Hf). split; [exact H2|]. intros v Hv. specialize (Hf v Hv). rewrite form_squares in Hf.
    destruct d as [|r0 d]; [cbn in H2; lia|].
    assert (Hdec : (forall r, In r (r0 :: d) -> inner n v r = inner n v r0) \/ exists r, In r (r0 :: d) /\ inner n v r <> inner n v r0).
    { clear. induction (r0 :: d) as [|r l IH]; [left; intros r []|].
      destruct (Req_dec (inner n v r) (inner n v r0)) as [E|E].
      - destruct IH as [IH|(r' & Hr' & Hne)]; [left; intros r' [<-|H]; auto|right; exists r'; split; [right; exact Hr'|exact Hne]].
      - right. exists r. split; [left; reflexivity|exact E]. }
    destruct Hdec as [Hall|(r & Hr & Hne)]; [|exists r, r0; split; [exact Hr|split; [left; reflexivity|exact Hne]]].
    exfalso. assert (E : mean_inner n v (r0 :: d) = inner n v r0).
    { rewrite mean_is_mean by discriminate. rewrite (Rsum_ext _ (fun _ => inner n v r0)) by exact Hall. rewrite Rsum_const. field. apply not_0_INR. discriminate. }
    rewrite (Rsum_ext _ (fun _ => 0)) in Hf by (intros r Hr; rewrite E, (Hall r Hr); ring). rewrite Rsum_const in Hf. unfold Rdiv in Hf. lra.
  - intros (H2 & Hd). split; [exact Hn|]. split; [exact H2|]. intros v Hv. rewrite form_squares.
    assert (Hp : 0 < INR (List.length d) - 1) by (apply le_INR in H2; change (INR 2) with (1 + 1) in H2; lra).
    set (m := mean_inner n v d). assert (H0 : forall r, In r d -> 0 <= (inner n v r - m) * (inner n v r - m)) by (intros r _; apply Rle_0_sqr).
    pose proof (Rsum_nonneg _ d H0) as Hs. destruct Hs as [Hs|Hs].
    + apply Rmult_lt_0_compat; [exact Hs|]. apply Rinv_0_lt_compat, Hp.
    + exfalso. symmetry in Hs. pose proof (Rsum_zero _ d H0 Hs) as Hz. destruct (Hd v Hv) as (r1 & r2 & I1 & I2 & Hne).
      assert (Hm : forall r, In r d -> inner n v r = m) by (intros r Hr; specialize (Hz r Hr); apply Rsqr_0_uniq in Hz; lra).
      apply Hne. rewrite (Hm r1 I1), (Hm r2 I2). reflexivity.
Qed.

(* ---------------- fewer equations than unknowns ---------------- *)
Lemma Rsum_app l l' : Rsum (l ++ l') = Rsum l + Rsum l'.
Proof. unfold Rsum. induction l as [|x l IHl]; cbn; [lra|]. rewrite IHl. lra. Qed.

(** The indices other than [p].  Not code: used in proofs. *)
Definition skip (p i : nat) : nat := if (i <? p)%nat then i else S i.

Lemma sum_skip (f : nat -> R) n p : (p <= n)%nat -> Rsum (map f (seq 0 (S n))) = f p + Rsum (map (fun i => f (skip p i)) (seq 0 n)).
Proof.
  revert p. induction n as [|n IH]; intros p Hp.
  - assert (p = 0)%nat by lia. subst. cbn. lra.
  - rewrite (seq_S (S n) 0), map_app, Rsum_app. destruct (Nat.eq_dec p (S n)) as [->|Hne].
    + rewrite (Rsum_ext (fun i => f (skip (S n) i)) f).
      * cbn [map Nat.add Rsum fold_right]. fold (Rsum (map f (seq 0 (S n)))). lra.
      * intros i Hi. apply in_seq in Hi. unfold skip. destruct (Nat.ltb_spec i (S n)); [reflexivity|lia].
    + rewrite (IH p) by lia. rewrite (seq_S n 0), map_app, Rsum_app.
      assert (E : skip p n = S n) by (unfold skip; destruct (Nat.ltb_spec n p); [lia|reflexivity]).
      cbn [map Nat.add]. rewrite E. unfold Rsum. cbn [fold_right]. lra.
Qed.

Lemma unskip p i : i <> p -> exists k, i = skip p k /\ (forall n, (i < S n -> p <= n -> k < n)%nat).
Proof.
  intros H. destruct (Nat.lt_ge_cases i p).
  - exists i. unfold skip. destruct (Nat.ltb_spec i p); [|lia]. split; [reflexivity|lia].
  - exists (i - 1)%nat. unfold skip. destruct (Nat.ltb_spec (i - 1) p); [lia|]. split; [lia|lia].
Qed.
Lemma skip_lt p k n : (k < n)%nat -> (skip p k < S n)%nat.
Proof. unfold skip. destruct (Nat.ltb_spec k p); lia. Qed.
Lemma skip_ne p k : skip p k <> p.
Proof. unfold skip. destruct (Nat.ltb_spec k p); lia. Qed.

(** A sum over the variables.  Not code: used in proofs. *)
Definition total (n : nat) (f : nat -> R) : R := Rsum (map f (seq 0 n)).

Lemma homogeneous (es : list (nat -> R)) : forall n, (List.length es < n)%nat ->
  exists v, (exists i, (i < n)%nat /\ v i <> 0) /\ forall e, In e es -> total n (fun i => e i * v i) = 0.
Proof.
  induction es as [es IHes] using (well_founded_induction (Wf_nat.well_founded_ltof _ (@List.length (nat -> R)))). unfold Wf_nat.ltof in IHes.
  intros n Hn. destruct es as [|e es].
  { exists (fun _ => 1). split; [exists 0%nat; cbn in Hn; split; [lia|lra]|intros e []]. }
  cbn [List.length] in *.
  assert (Hdec : (forall i, (i < n)%nat -> e i = 0) \/ exists p, (p < n)%nat /\ e p <> 0).
  { clear. induction n as [|n IH]; [left; lia|]. destruct (Req_dec (e n) 0) as [E|E].
    - destruct IH as [IH|(p & Hp & Hne)].
      + left. intros i Hi. destruct (Nat.eq_dec i n); [subst; exact E|apply IH; lia].
      + right. exists p. split; [lia|exact Hne].
    - right. exists n. split; [lia|exact E]. }
  destruct Hdec as [Hz|(p & Hp & He)].
  - destruct (IHes es ltac:(lia) n ltac:(lia)) as (v & Hv & Hall). exists v. split; [exact Hv|].
    intros e' [<-|He']; [|apply Hall, He']. unfold total. rewrite (Rsum_ext _ (fun _ => 0)).
    + rewrite Rsum_const. lra.
    + intros i Hi. apply in_seq in Hi. rewrite Hz by lia. lra.
  - destruct n as [|n]; [lia|].
    destruct (IHes (map (fun (a : nat -> R) i => a (skip p i) - a p / e p * e (skip p i)) es) ltac:(rewrite map_length; lia) n) as (v' & (i0 & Hi0 & Hv0) & Hall); [rewrite map_length; lia|].
    set (u := total n (fun i => e (skip p i) * v' i)).
    set (v := fun i => if Nat.eqb i p then - u / e p else v' (if (i <? p)%nat then i else (i - 1)%nat)).
    assert (Hvp : v p = - u / e p) by (unfold v; rewrite Nat.eqb_refl; reflexivity).
    assert (Hvs : forall k, v (skip p k) = v' k).
    { intros k. unfold v. destruct (Nat.eqb_spec (skip p k) p) as [E|_]; [destruct (skip_ne p k E)|]. f_equal.
      unfold skip. destruct (Nat.ltb_spec k p) as [H|H]; [destruct (Nat.ltb_spec k p); [reflexivity|lia]|].
      destruct (Nat.ltb_spec (S k) p); lia. }
    exists v. split; [exists (skip p i0); split; [apply skip_lt, Hi0|rewrite Hvs; exact Hv0]|].
    intros a Ha.
    assert (Hsplit : total (S n) (fun i => a i * v i) = a p * v p + total n (fun i => a (skip p i) * v' i)).
    { unfold total. rewrite (sum_skip (fun i => a i * v i) n p) by lia. f_equal. apply Rsum_ext. intros i _. rewrite Hvs. reflexivity. }
    rewrite Hsplit, Hvp. destruct Ha as [<-|Ha].
    + fold u. field. exact He.
    + specialize (Hall _ (in_map _ _ _ Ha)). cbn beta in Hall. unfold total in Hall, u |- *.
      rewrite (Rsum_ext _ (fun i => a (skip p i) * v' i + (- (a p / e p)) * (e (skip p i) * v' i))) in Hall by (intros i _; ring).
      rewrite Rsum_plus, Rsum_scale in Hall. unfold Rdiv in Hall |- *. rewrite <- Hall. change (Rsum (map (fun x : nat => e (skip p x) * v' x) (seq 0 n))) with u. ring.
Qed.

(** Not more rows than variables: never. *)
Theorem kde_few_rows n d : (List.length d <= n)%nat -> ~ kde_fits n d.
Proof.
  intros Hl Hk. pose proof Hk as (Hn & H2 & _). apply (kde_fits_iff n d Hn) in Hk as [_ Hk].
  destruct d as [|r0 d]; [cbn in H2; lia|].
  destruct (homogeneous (map (fun r i => nth i r 0 - nth i r0 0) d) n) as (v & Hv & Hall); [rewrite map_length; cbn in Hl; lia|].
  destruct (Hk v Hv) as (r1 & r2 & I1 & I2 & Hne).
  assert (H : forall r, In r (r0 :: d) -> inner n v r = inner n v r0).
  { intros r [<-|Hr]; [reflexivity|]. specialize (Hall _ (in_map _ _ _ Hr)). cbn beta in Hall. unfold total in Hall. unfold inner.
    rewrite (Rsum_ext _ (fun i => v i * nth i r 0 + (-1) * (v i * nth i r0 0))) in Hall by (intros i _; ring).
    rewrite Rsum_plus, Rsum_scale in Hall. lra. }
  apply Hne. rewrite (H r1 I1), (H r2 I2). reflexivity.
Qed.

(** One variable: exactly when two values differ. *)
Theorem kde_one d : kde_fits 1 d <-> exists r1 r2, In r1 d /\ In r2 d /\ nth 0 r1 0 <> nth 0 r2 0.
Proof.
  rewrite kde_fits_iff by lia. assert (Hi : forall v r, inner 1 v r = v 0%nat * nth 0 r 0) by (intros v r; unfold inner; cbn; lra).
  split.
  - intros [_ H]. destruct (H (fun _ => 1)) as (r1 & r2 & I1 & I2 & Hne); [exists 0%nat; split; [lia|lra]|].
    exists r1, r2. split; [exact I1|]. split; [exact I2|]. intros E. apply Hne. rewrite !Hi, E. reflexivity.
  - intros (r1 & r2 & I1 & I2 & Hne). split.
    + destruct d as [|a [|b d]]; cbn [List.length]; [destruct I1| |lia]. exfalso. destruct I1 as [<-|[]], I2 as [<-|[]]. contradiction.
    + intros v (i & Hlt & Hv). assert (i = 0)%nat by lia. subst i. exists r1, r2. split; [exact I1|]. split; [exact I2|]. rewrite !Hi.
      intros E. apply Hne. apply (Rmult_eq_reg_l (v 0%nat)); assumption.
Qed.

(** Each column alone could be estimated, the two together cannot. *)
Theorem kde_joint : exists n d, (forall i, (i < n)%nat -> kde_fits 1 (map (fun r => [nth i r 0]) d)) /\ ~ kde_fits n d.
Proof.
  exists 2%nat, [[0; 0]; [1; 1]]. split; [|apply kde_few_rows; cbn; lia].
  intros i Hi. apply kde_one. exists [0], [1]. destruct i as [|[|i]]; [| |lia]; (split; [left; reflexivity|split; [right; left; reflexivity|cbn; lra]]).
Qed.
