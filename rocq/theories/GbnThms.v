(** Lemmas on the means and covariances computed by GBN. *)
From Coq Require Import String List ZArith Bool Lia Reals Lra.
From Verif Require Import PyBase Models Gbn GbnSpec.
Import ListNotations.
Open Scope nat_scope.

(** ** Lists, vectors, matrices *)
Lemma index_ok l k p : NoDup l -> nth_error l k = Some p -> index p l = Ok k.
Proof.
  revert k. induction l as [|y l IH]; intros [|k] ND H; try discriminate.
  - assert (y = p) by (cbn in H; congruence). subst. cbn. rewrite String.eqb_refl. reflexivity.
  - inversion ND as [|? ? Hy ND']; subst. cbn [index]. destruct (String.eqb_spec p y) as [->|_].
    + exfalso. apply Hy. exact (nth_error_In l k H).
    + rewrite (IH k ND' H). reflexivity.
Qed.
Lemma index_some l p k : index p l = Ok k -> nth_error l k = Some p.
Proof.
  revert k. induction l as [|y l IH]; intros k H; [discriminate|]. cbn [index] in H. destruct (String.eqb_spec p y) as [->|_].
  - assert (k = 0) by congruence. subst. reflexivity.
  - destruct (index p l) as [k'|e] eqn:Ei; [|discriminate]. assert (k = S k') by (cbn in H; congruence). subst. cbn. apply IH. reflexivity.
Qed.
Lemma index_absent l p : ~ In p l -> index p l = Raise ValueError.
Proof.
  induction l as [|y l IH]; intros H; [reflexivity|]. cbn [index]. destruct (String.eqb_spec p y) as [->|_].
  - exfalso. apply H. left. reflexivity.
  - rewrite IH; [reflexivity|]. intros Hp. apply H. right. exact Hp.
Qed.

Lemma vset_length {A} i (x : A) l : length (vset i x l) = length l.
Proof. revert i. induction l as [|y l IH]; intros [|i]; cbn; auto. Qed.
Lemma vset_same {A} i (x d : A) l : i < length l -> nth i (vset i x l) d = x.
Proof. revert i. induction l as [|y l IH]; intros [|i] H; cbn in *; try lia; [reflexivity|]. apply IH. lia. Qed.
Lemma vset_other {A} i j (x d : A) l : i <> j -> nth j (vset i x l) d = nth j l d.
Proof. revert i j. induction l as [|y l IH]; intros [|i] [|j] H; cbn; try reflexivity; try lia. apply IH. lia. Qed.
Lemma vset_vset {A} i (x y : A) l : vset i x (vset i y l) = vset i x l.
Proof. revert i. induction l as [|z l IH]; intros [|i]; cbn; try reflexivity. rewrite IH. reflexivity. Qed.

Lemma each_app {A S} (f : A -> S -> res S) l l' s : each f (l ++ l') s = rbind (each f l s) (each f l').
Proof. revert s. induction l as [|x l IH]; intros s; cbn; [reflexivity|]. destruct (f x s); cbn; [apply IH|reflexivity]. Qed.
Lemma each_seq {S} (f : nat -> S -> res S) (I : nat -> S -> Prop) a n s :
  I a s -> (forall i s, a <= i < a + n -> I i s -> exists s', f i s = Ok s' /\ I (Datatypes.S i) s') ->
  exists s', each f (seq a n) s = Ok s' /\ I (a + n) s'.
Proof.
  revert a s. induction n as [|n IH]; intros a s H0 Hs.
  - exists s. split; [reflexivity|]. rewrite Nat.add_0_r. exact H0.
  - destruct (Hs a s) as (s1 & E1 & I1); [lia|exact H0|]. cbn. rewrite E1. cbn.
    destruct (IH (Datatypes.S a) s1 I1) as (s2 & E2 & I2); [intros i s' Hi; apply Hs; lia|].
    exists s2. split; [exact E2|]. replace (a + Datatypes.S n) with (Datatypes.S a + n) by lia. exact I2.
Qed.

Section Matrix.
Context {T : Type} (o : ops T).

Definition square (n : nat) (m : list (list T)) : Prop := length m = n /\ forall i, i < n -> length (nth i m []) = n.

Lemma square_zero n : square n (repeat (repeat (zero o) n) n).
Proof.
  split; [apply repeat_length|]. intros i Hi. rewrite (nth_indep _ [] (repeat (zero o) n)) by (rewrite repeat_length; exact Hi).
  rewrite nth_repeat. apply repeat_length.
Qed.
Lemma mget_zero n i j : mget o i j (repeat (repeat (zero o) n) n) = zero o.
Proof.
  unfold mget, vget. destruct (Nat.lt_ge_cases i n) as [H|H].
  - rewrite (nth_indep _ [] (repeat (zero o) n)) by (rewrite repeat_length; exact H). rewrite nth_repeat. apply nth_repeat.
  - rewrite (nth_overflow _ []) by (rewrite repeat_length; exact H). destruct j; reflexivity.
Qed.
Lemma square_mset n i j x m : square n m -> square n (mset i j x m).
Proof.
  intros [H1 H2]. unfold mset. split; [rewrite vset_length; exact H1|]. intros k Hk. destruct (Nat.eq_dec i k) as [->|Hn].
  - rewrite vset_same by lia. rewrite vset_length. apply H2. exact Hk.
  - rewrite vset_other by exact Hn. apply H2. exact Hk.
Qed.
Lemma mget_same n i j x m : square n m -> i < n -> j < n -> mget o i j (mset i j x m) = x.
Proof. intros [H1 H2] Hi Hj. unfold mget, mset, vget. rewrite vset_same by lia. apply vset_same. rewrite H2; assumption. Qed.
Lemma mget_other n i j a b x m : square n m -> i < n -> (a <> i \/ b <> j) -> mget o a b (mset i j x m) = mget o a b m.
Proof.
  intros [H1 H2] Hi Hn. unfold mget, mset, vget. destruct (Nat.eq_dec i a) as [->|Hia].
  - rewrite vset_same by lia. apply vset_other. lia.
  - rewrite vset_other by exact Hia. reflexivity.
Qed.
Lemma mset_mset n i j x y m : square n m -> i < n -> mset i j x (mset i j y m) = mset i j x m.
Proof. intros [H1 H2] Hi. unfold mset. rewrite vset_same by lia. rewrite vset_vset, vset_vset. reflexivity. Qed.

(** the position of a node, and terms with an invariant *)
Definition pos (N : network T) (p : string) : nat := match index p (n_order N) with Ok k => k | Raise _ => 0 end.
Lemma pos_ok N k p : dag N -> nth_error (n_order N) k = Some p -> pos N p = k.
Proof. intros [ND _] H. unfold pos. rewrite (index_ok _ k p ND H). reflexivity. Qed.

Lemma dag_parent (N : network T) i v p : dag N -> nth_error (n_order N) i = Some v -> In p (d_parents (n_cpd N v)) ->
  index p (n_order N) = Ok (pos N p) /\ pos N p < i /\ nth_error (n_order N) (pos N p) = Some p.
Proof.
  intros HD Hi Hp. destruct HD as [ND H]. destruct (H i v Hi) as [_ HF]. rewrite Forall_forall in HF. specialize (HF p Hp).
  apply In_nth_error in HF as [k Hk].
  assert (Hki : k < i). { assert (k < length (firstn i (n_order N))) by (apply nth_error_Some; rewrite Hk; discriminate). rewrite firstn_length in H0. lia. }
  assert (Hn : nth_error (n_order N) k = Some p).
  { rewrite <- Hk. clear -Hki. revert i Hki. generalize (n_order N) as l. induction k as [|k IH]; intros [|y l] [|i] H; try lia; try reflexivity. cbn. apply IH. lia. }
  rewrite (pos_ok N k p (conj ND H) Hn). split; [apply index_ok; assumption|]. split; assumption.
Qed.
Lemma dag_length (N : network T) i v : dag N -> nth_error (n_order N) i = Some v ->
  length (tl (d_beta (n_cpd N v))) = length (d_parents (n_cpd N v)).
Proof. intros [_ H] Hi. destruct (H i v Hi) as [Hl _]. destruct (d_beta (n_cpd N v)); cbn in *; lia. Qed.
Lemma dag_beta (N : network T) i v : dag N -> nth_error (n_order N) i = Some v -> d_beta (n_cpd N v) <> [].
Proof. intros [_ H] Hi E. destruct (H i v Hi) as [Hl _]. rewrite E in Hl. discriminate. Qed.

Lemma node_at (N : network T) i : i < length (n_order N) -> exists v, nth_error (n_order N) i = Some v /\ nth i (n_order N) EmptyString = v.
Proof.
  intros H. destruct (nth_error (n_order N) i) as [v|] eqn:E; [|apply nth_error_None in E; lia].
  exists v. split; [reflexivity|]. apply nth_error_nth. exact E.
Qed.

Lemma terms_inv {S} (f : string -> T -> S -> res S) (J : S -> Prop) ps cs s :
  length cs = length ps -> J s -> (forall p c s, In p ps -> J s -> exists s', f p c s = Ok s' /\ J s') ->
  exists s', terms f ps cs s = Ok s' /\ J s'.
Proof.
  revert ps s. induction cs as [|c cs IH]; intros [|p ps] s Hl H0 Hs; try discriminate; [exists s; split; [reflexivity|exact H0]|].
  cbn [terms]. destruct (Hs p c s) as (s1 & E1 & J1); [left; reflexivity|exact H0|]. rewrite E1. cbn [rbind].
  apply IH; [cbn in Hl; lia|exact J1|]. intros q d s' Hq. apply Hs. right. exact Hq.
Qed.

(** *** The matrix is always symmetric *)
Lemma var_phase (N : network T) : dag N ->
  exists m, each (var_node o N) (seq 0 (length (n_order N))) (repeat (repeat (zero o) (length (n_order N))) (length (n_order N))) = Ok m /\
    square (length (n_order N)) m.
Proof.
  intros HD. destruct (each_seq (var_node o N) (fun _ m => square (length (n_order N)) m) 0 (length (n_order N))
    (repeat (repeat (zero o) (length (n_order N))) (length (n_order N)))) as (m & E & H).
  - apply square_zero.
  - intros i m Hi Hm. destruct (node_at N i) as (v & Hv & Hn); [lia|]. unfold var_node. rewrite Hn.
    apply terms_inv; [exact (dag_length N i v HD Hv)|apply square_mset; exact Hm|].
    intros p c m' Hp Hm'. destruct (dag_parent N i v p HD Hv Hp) as (Ei & _). rewrite Ei. cbn [rbind].
    eexists. split; [reflexivity|]. apply square_mset. exact Hm'.
  - exists m. split; assumption.
Qed.

Lemma cov_node_ok (N : network T) i j m : dag N -> square (length (n_order N)) m -> i < j -> j < length (n_order N) ->
  exists m', cov_node o N i j m = Ok m' /\ square (length (n_order N)) m' /\ mget o j i m' = mget o i j m' /\
    forall a b, ~ (a = i /\ b = j) -> ~ (a = j /\ b = i) -> mget o a b m' = mget o a b m.
Proof.
  intros HD Hm Hij Hj. unfold cov_node. destruct (node_at N j Hj) as (v & Hv & Hn). rewrite Hn.
  match goal with |- context [rbind (terms ?f ?ps ?cs m) _] =>
    destruct (terms_inv f (fun m' => square (length (n_order N)) m' /\ forall a b, ~ (a = i /\ b = j) -> mget o a b m' = mget o a b m) ps cs m) as (m' & E & Sm & Hk) end.
  - exact (dag_length N j v HD Hv).
  - split; [exact Hm|reflexivity].
  - intros p c m' Hp [Sm Hk]. destruct (dag_parent N j v p HD Hv Hp) as (Ei & _). rewrite Ei. cbn [rbind].
    eexists. split; [reflexivity|]. split; [apply square_mset; exact Sm|]. intros a b Hab.
    rewrite (mget_other (length (n_order N))) by (try assumption; lia). apply Hk. exact Hab.
  - rewrite E. cbn [rbind]. eexists. split; [reflexivity|]. split; [apply square_mset; exact Sm|]. split.
    + rewrite (mget_same (length (n_order N))) by (try assumption; lia). symmetry. apply (mget_other (length (n_order N))); [assumption|lia|lia].
    + intros a b H1 H2. rewrite (mget_other (length (n_order N))) by (try assumption; lia). apply Hk. exact H1.
Qed.

(** pairs treated before (i, j) *)
Definition treated (i j a b : nat) : Prop := a < i \/ (a = i /\ b < j).

Lemma all_sigma_symmetric (N : network T) : dag N ->
  exists m, all_sigma o N = Ok m /\ square (length (n_order N)) m /\
    forall a b, a < length (n_order N) -> b < length (n_order N) -> mget o a b m = mget o b a m.
Proof.
  intros HD. set (n := length (n_order N)). unfold all_sigma. fold n. destruct (var_phase N HD) as (m0 & E0 & S0). fold n in E0, S0.
  rewrite E0. cbn [rbind].
  destruct (each_seq (fun i => each (fun j => cov_node o N i j) (seq (S i) (n - S i)))
      (fun i m => square n m /\ forall a b, a < b < n -> a < i -> mget o b a m = mget o a b m) 0 n m0) as (m & E & Sm & Hm).
  - split; [exact S0|]. intros. lia.
  - intros i m Hi [Sm Hm].
    destruct (each_seq (fun j => cov_node o N i j)
      (fun j m => square n m /\ forall a b, a < b < n -> treated i j a b -> mget o b a m = mget o a b m) (S i) (n - S i) m) as (m' & E' & Sm' & Hm').
    + split; [exact Sm|]. intros a b Hab [Ht|[Ht1 Ht2]]; [apply Hm; assumption|lia].
    + intros j m1 Hj [Sm1 Hm1]. destruct (cov_node_ok N i j m1 HD Sm1) as (m2 & E2 & Sm2 & Hs & Ho); [lia|fold n; lia|].
      exists m2. split; [exact E2|]. split; [exact Sm2|]. intros a b Hab Ht.
      destruct (Nat.eq_dec a i) as [->|Hai]; [destruct (Nat.eq_dec b j) as [->|Hbj]|].
      * exact Hs.
      * rewrite (Ho i b), (Ho b i) by lia. apply Hm1; [lia|]. unfold treated in *. lia.
      * rewrite (Ho a b), (Ho b a) by lia. apply Hm1; [lia|]. unfold treated in *. lia.
    + exists m'. split; [exact E'|]. split; [exact Sm'|]. intros a b Hab Ht. apply Hm'; [exact Hab|]. unfold treated. lia.
  - exists m. split; [exact E|]. split; [exact Sm|]. intros a b Ha Hb. destruct (Nat.lt_trichotomy a b) as [H|[->|H]].
    + symmetry. apply Hm; lia.
    + reflexivity.
    + apply Hm; lia.
Qed.

End Matrix.

(* ------------------------------------------------------------------ *)
(** ** Exact arithmetic *)
Open Scope R_scope.

Definition mg := mget R_ops.

Section Exact.
Context (N : network R) (HD : dag N).
Let n := length (n_order N).

(** *** Means *)
Lemma mu_terms i ps bs mu (m : string -> R) : (i < length mu)%nat -> length bs = length ps ->
  (forall p, In p ps -> index p (n_order N) = Ok (pos N p) /\ (pos N p < i)%nat /\ vget R_ops (pos N p) mu = m p) ->
  exists mu', terms (fun p c mu => rbind (index p (n_order N)) (fun k => Ok (vset i (o_add R_ops (vget R_ops i mu) (o_mul R_ops c (vget R_ops k mu))) mu))) ps bs mu = Ok mu' /\
    length mu' = length mu /\ vget R_ops i mu' = vget R_ops i mu + lin bs ps m /\ forall k, k <> i -> vget R_ops k mu' = vget R_ops k mu.
Proof.
  revert ps mu. induction bs as [|b bs IH]; intros [|p ps] mu Hi Hl Hp; try discriminate.
  - exists mu. split; [reflexivity|]. split; [reflexivity|]. split; [cbn [lin]; ring|reflexivity].
  - cbn [terms]. destruct (Hp p (or_introl eq_refl)) as (Ei & Hk & Hv). rewrite Ei. cbn [rbind].
    destruct (IH ps (vset i (o_add R_ops (vget R_ops i mu) (o_mul R_ops b (vget R_ops (pos N p) mu))) mu)) as (mu' & E' & L' & V' & O').
    + rewrite vset_length. exact Hi.
    + cbn in Hl. lia.
    + intros q Hq. destruct (Hp q (or_intror Hq)) as (A1 & A2 & A3). split; [exact A1|]. split; [exact A2|].
      unfold vget. rewrite vset_other by lia. exact A3.
    + exists mu'. split; [exact E'|]. split; [rewrite L', vset_length; reflexivity|]. split.
      * rewrite V'. unfold vget at 1. rewrite vset_same by exact Hi. cbn [lin]. rewrite Hv. cbn [o_add o_mul R_ops]. ring.
      * intros k Hn. rewrite O' by exact Hn. unfold vget. apply vset_other. lia.
Qed.

Context {O : Type} (P : probability O) (X eps : string -> O -> R) (HS : solves P N X eps).

Lemma all_mu_ok : exists mu, all_mu R_ops N = Ok mu /\ length mu = n /\ forall k v, nth_error (n_order N) k = Some v -> vget R_ops k mu = Ex P (X v).
Proof.
  unfold all_mu. fold n.
  destruct (each_seq (mu_node R_ops N) (fun i mu => length mu = n /\ forall k v, (k < i)%nat -> nth_error (n_order N) k = Some v -> vget R_ops k mu = Ex P (X v))
    0 n (repeat (zero R_ops) n)) as (mu & E & L & H).
  - split; [apply repeat_length|]. intros; lia.
  - intros i mu Hi [L H]. destruct (node_at N i) as (v & Hv & Hn); [fold n; lia|]. unfold mu_node. rewrite Hn.
    pose proof (node_Ex P N X eps HD HS i v Hv) as HE. pose proof (dag_length N i v HD Hv) as Hl. pose proof (dag_beta N i v HD Hv) as Hb.
    destruct (d_beta (n_cpd N v)) as [|b0 bs]; [congruence|]. cbn [hd tl] in *.
    destruct (mu_terms i (d_parents (n_cpd N v)) bs (vset i b0 mu) (fun p => Ex P (X p))) as (mu' & E' & L' & V' & O').
    + rewrite vset_length. lia.
    + exact Hl.
    + intros p Hp. destruct (dag_parent N i v p HD Hv Hp) as (A1 & A2 & A3). split; [exact A1|]. split; [exact A2|].
      unfold vget. rewrite vset_other by lia. apply (H (pos N p) p A2 A3).
    + exists mu'. split; [exact E'|]. split; [rewrite L', vset_length; exact L|]. intros k u Hk Hu.
      destruct (Nat.eq_dec k i) as [->|Hki].
      * assert (u = v) by congruence. subst u. rewrite V', HE. unfold vget. rewrite vset_same by lia. reflexivity.
      * rewrite O' by exact Hki. unfold vget. rewrite vset_other by lia. apply H; [lia|exact Hu].
  - exists mu. split; [exact E|]. split; [exact L|]. intros k v Hk. apply H; [|exact Hk].
    apply nth_error_Some. rewrite Hk. discriminate.
Qed.
End Exact.

Lemma positions_ok {T} (N : network T) vars : dag N -> incl vars (n_order N) ->
  positions N vars = Ok (map (pos N) vars) /\ forall v, In v vars -> nth_error (n_order N) (pos N v) = Some v.
Proof.
  intros HD. assert (A : forall v, In v (n_order N) -> index v (n_order N) = Ok (pos N v) /\ nth_error (n_order N) (pos N v) = Some v).
  { intros v Hv. apply In_nth_error in Hv as [k Hk]. rewrite (pos_ok N k v HD Hk). split; [apply index_ok; [apply HD|exact Hk]|exact Hk]. }
  induction vars as [|v vars IH]; intros H; [split; [reflexivity|intros v []]|].
  destruct IH as [IH1 IH2]; [intros u Hu; apply H; right; exact Hu|].
  destruct (A v (H v (or_introl eq_refl))) as [A1 A2]. split.
  - unfold positions in *. cbn [rmapM map]. rewrite A1. cbn [rbind]. rewrite IH1. reflexivity.
  - intros u [<-|Hu]; [exact A2|exact (IH2 u Hu)].
Qed.
Lemma positions_absent {T} (N : network T) vars v : dag N -> In v vars -> ~ In v (n_order N) -> positions N vars = Raise ValueError.
Proof.
  intros HD Hv Hn. induction vars as [|u vars IH]; [destruct Hv|]. unfold positions in *. cbn [rmapM].
  destruct (in_dec string_dec u (n_order N)) as [Hu|Hu].
  - apply In_nth_error in Hu as [k Hk]. rewrite (index_ok _ k u (proj1 HD) Hk). cbn [rbind]. destruct Hv as [->|Hv].
    + exfalso. apply Hn. exact (nth_error_In _ _ Hk).
    + rewrite (IH Hv). reflexivity.
  - rewrite (index_absent _ _ Hu). reflexivity.
Qed.

Lemma list_of_nth {A B} (f : A -> B) (l : list A) (m : list B) d :
  length m = length l -> (forall k v, nth_error l k = Some v -> nth k m d = f v) -> m = map f l.
Proof.
  revert m. induction l as [|v l IH]; intros [|x m] Hl H; try discriminate; [reflexivity|]. cbn [map]. f_equal.
  - apply (H 0%nat v). reflexivity.
  - apply IH; [cbn in Hl; lia|]. intros k u Hk. apply (H (S k) u Hk).
Qed.

(** get_mu *)
Theorem get_mu_exact {O} (P : probability O) N X eps vars : dag N -> solves P N X eps -> incl vars (n_order N) ->
  get_mu R_ops N vars = Ok (map (fun v => Ex P (X v)) (match vars with [] => n_order N | _ => vars end)).
Proof.
  intros HD HS Hv. unfold get_mu. destruct (all_mu_ok N HD P X eps HS) as (mu & E & L & H). rewrite E. cbn [rbind].
  destruct vars as [|v0 vars0] eqn:Ev.
  - f_equal. apply (list_of_nth _ _ _ (zero R_ops)); [exact L|exact H].
  - rewrite <- Ev in *. destruct (positions_ok N vars HD Hv) as [Hp Hq]. rewrite Hp. cbn [rbind]. f_equal. rewrite map_map.
    apply map_ext_in. intros v Hin. apply H. apply Hq. exact Hin.
Qed.
