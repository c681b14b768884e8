(** The covariance matrix computed by GBN.get_sigma, in exact arithmetic. *)
From Coq Require Import String List ZArith Bool Lia Reals Lra.
From Verif Require Import PyBase Models Gbn GbnSpec GbnThms.
Import ListNotations.
Open Scope R_scope.

Definition sq (x : R) : R := x * x.

Section Sigma.
Context (N : network R) (HD : dag N).
Let n := length (n_order N).
Let par v := d_parents (n_cpd N v).
Let coef v := tl (d_beta (n_cpd N v)).

Lemma var_terms i ps bs m (f : string -> R) : square n m -> (i < n)%nat -> length bs = length ps ->
  (forall p, In p ps -> index p (n_order N) = Ok (pos N p) /\ (pos N p < i)%nat /\ mg (pos N p) (pos N p) m = f p) ->
  exists m', terms (fun p c m => rbind (index p (n_order N)) (fun k => Ok (mset i i (o_add R_ops (mget R_ops i i m) (o_mul R_ops (mget R_ops k k m) (o_mul R_ops c c))) m))) ps bs m = Ok m' /\
    square n m' /\ mg i i m' = mg i i m + lin (map sq bs) ps f /\ forall a b, (a <> i \/ b <> i) -> mg a b m' = mg a b m.
Proof.
  unfold mg. revert ps m. induction bs as [|b bs IH]; intros [|p ps] m Sm Hi Hl Hp; try discriminate.
  - exists m. split; [reflexivity|]. split; [exact Sm|]. split; [cbn [map lin]; ring|reflexivity].
  - cbn [terms]. destruct (Hp p (or_introl eq_refl)) as (Ei & Hk & Hv). rewrite Ei. cbn [rbind].
    set (x := o_add R_ops (mget R_ops i i m) (o_mul R_ops (mget R_ops (pos N p) (pos N p) m) (o_mul R_ops b b))).
    destruct (IH ps (mset i i x m)) as (m' & E' & S' & V' & O').
    + apply square_mset. exact Sm.
    + exact Hi.
    + cbn in Hl. lia.
    + intros q Hq. destruct (Hp q (or_intror Hq)) as (A1 & A2 & A3). split; [exact A1|]. split; [exact A2|].
      rewrite (mget_other R_ops n) by (try assumption; lia). exact A3.
    + exists m'. split; [exact E'|]. split; [exact S'|]. split.
      * rewrite V', (mget_same R_ops n) by assumption. unfold x. rewrite Hv. cbn [map lin o_add o_mul R_ops]. unfold sq. ring.
      * intros a c Hn. rewrite O' by exact Hn. apply (mget_other R_ops n); assumption.
Qed.

Lemma cov_terms i j ps bs m (f : string -> R) : square n m -> (i < n)%nat -> (j < n)%nat -> length bs = length ps ->
  (forall p, In p ps -> index p (n_order N) = Ok (pos N p) /\ (pos N p < j)%nat /\ mg i (pos N p) m = f p) ->
  exists m', terms (fun p c m => rbind (index p (n_order N)) (fun k => Ok (mset i j (o_add R_ops (mget R_ops i j m) (o_mul R_ops c (mget R_ops i k m))) m))) ps bs m = Ok m' /\
    square n m' /\ mg i j m' = mg i j m + lin bs ps f /\ forall a b, (a <> i \/ b <> j) -> mg a b m' = mg a b m.
Proof.
  unfold mg. revert ps m. induction bs as [|b bs IH]; intros [|p ps] m Sm Hi Hj Hl Hp; try discriminate.
  - exists m. split; [reflexivity|]. split; [exact Sm|]. split; [cbn [lin]; ring|reflexivity].
  - cbn [terms]. destruct (Hp p (or_introl eq_refl)) as (Ei & Hk & Hv). rewrite Ei. cbn [rbind].
    set (x := o_add R_ops (mget R_ops i j m) (o_mul R_ops b (mget R_ops i (pos N p) m))).
    destruct (IH ps (mset i j x m)) as (m' & E' & S' & V' & O').
    + apply square_mset. exact Sm.
    + exact Hi.
    + exact Hj.
    + cbn in Hl. lia.
    + intros q Hq. destruct (Hp q (or_intror Hq)) as (A1 & A2 & A3). split; [exact A1|]. split; [exact A2|].
      rewrite (mget_other R_ops n) by (try assumption; lia). exact A3.
    + exists m'. split; [exact E'|]. split; [exact S'|]. split.
      * rewrite V', (mget_same R_ops n) by assumption. unfold x. rewrite Hv. cbn [lin o_add o_mul R_ops]. ring.
      * intros a c Hn. rewrite O' by exact Hn. apply (mget_other R_ops n); assumption.
Qed.

(** the diagonal *)
Lemma diagonal_phase : exists m, each (var_node R_ops N) (seq 0 n) (repeat (repeat (zero R_ops) n) n) = Ok m /\ square n m /\
  (forall a b, a <> b -> mg a b m = 0) /\
  (forall k v, nth_error (n_order N) k = Some v -> mg k k m = d_var (n_cpd N v) + lin (map sq (coef v)) (par v) (fun p => mg (pos N p) (pos N p) m)).
Proof.
  destruct (each_seq (var_node R_ops N) (fun i m => square n m /\ (forall a b, a <> b -> mg a b m = 0) /\
     (forall k v, (k < i)%nat -> nth_error (n_order N) k = Some v -> mg k k m = d_var (n_cpd N v) + lin (map sq (coef v)) (par v) (fun p => mg (pos N p) (pos N p) m)))
     0%nat n (repeat (repeat (zero R_ops) n) n)) as (m & E & Sm & Z & H).
  - split; [apply square_zero|]. split; [intros; apply (mget_zero R_ops)|intros; lia].
  - intros i m Hi (Sm & Z & H). destruct (node_at N i) as (v & Hv & Hn); [fold n; lia|]. unfold var_node. rewrite Hn.
    destruct (var_terms i (par v) (coef v) (mset i i (d_var (n_cpd N v)) m) (fun p => mg (pos N p) (pos N p) m)) as (m' & E' & S' & V' & O').
    + apply square_mset. exact Sm.
    + lia.
    + exact (dag_length N i v HD Hv).
    + intros p Hp. destruct (dag_parent N i v p HD Hv Hp) as (A1 & A2 & _). split; [exact A1|]. split; [exact A2|].
      apply (mget_other R_ops n); [exact Sm|lia|lia].
    + assert (K : forall a b, (a <> i \/ b <> i) -> mg a b m' = mg a b m).
      { intros a b Hab. rewrite O' by exact Hab. apply (mget_other R_ops n); [exact Sm|lia|exact Hab]. }
      exists m'. split; [exact E'|]. split; [exact S'|]. split; [intros a b Hab; rewrite K by lia; apply Z; exact Hab|].
      intros k u Hk Hu. rewrite (lin_ext _ _ _ (fun p => mg (pos N p) (pos N p) m)).
      2:{ intros p Hp. destruct (dag_parent N k u p HD Hu Hp) as (_ & A2 & _). apply K. lia. }
      destruct (Nat.eq_dec k i) as [->|Hki].
      * assert (u = v) by congruence. subst u. rewrite V'. unfold mg at 1. rewrite (mget_same R_ops n) by (try assumption; lia). reflexivity.
      * rewrite K by lia. apply H; [lia|exact Hu].
  - exists m. split; [exact E|]. split; [exact Sm|]. split; [exact Z|]. intros k v Hk. apply H; [|exact Hk].
    apply nth_error_Some. rewrite Hk. discriminate.
Qed.

(** one covariance *)
Lemma cov_node_exact i j v m : square n m -> (i < j)%nat -> nth_error (n_order N) j = Some v ->
  exists m', cov_node R_ops N i j m = Ok m' /\ square n m' /\ mg j i m' = mg i j m' /\
    mg i j m' = mg i j m + lin (coef v) (par v) (fun p => mg i (pos N p) m) /\
    forall a b, ~ (a = i /\ b = j) -> ~ (a = j /\ b = i) -> mg a b m' = mg a b m.
Proof.
  intros Sm Hij Hv. assert (Hj : (j < n)%nat) by (apply nth_error_Some; rewrite Hv; discriminate).
  unfold cov_node. rewrite (nth_error_nth _ _ EmptyString Hv).
  destruct (cov_terms i j (par v) (coef v) m (fun p => mg i (pos N p) m)) as (m' & E' & S' & V' & O').
  - exact Sm.
  - lia.
  - exact Hj.
  - exact (dag_length N j v HD Hv).
  - intros p Hp. destruct (dag_parent N j v p HD Hv Hp) as (A1 & A2 & _). split; [exact A1|]. split; [exact A2|reflexivity].
  - fold (par v) (coef v). rewrite E'. cbn [rbind]. eexists. split; [reflexivity|]. split; [apply square_mset; exact S'|].
    assert (F : mg i j (mset j i (mget R_ops i j m') m') = mg i j m') by (apply (mget_other R_ops n); [exact S'|exact Hj|lia]).
    split; [rewrite F; apply (mget_same R_ops n); [exact S'|exact Hj|lia]|]. split; [rewrite F; exact V'|].
    intros a b H1 H2. unfold mg. rewrite (mget_other R_ops n) by (try assumption; lia). apply O'. lia.
Qed.

(** The whole computation, characterised. *)
Definition entries (m : list (list R)) : Prop :=
  (forall k v, nth_error (n_order N) k = Some v ->
     mg k k m = d_var (n_cpd N v) + lin (map sq (coef v)) (par v) (fun p => mg (pos N p) (pos N p) m)) /\
  (forall a b v, (a < b)%nat -> nth_error (n_order N) b = Some v ->
     mg a b m = lin (coef v) (par v) (fun p => mg a (pos N p) m) /\ mg b a m = mg a b m).

Definition row_inv (m0 : list (list R)) (i j : nat) (m : list (list R)) : Prop :=
  square n m /\ (forall k, mg k k m = mg k k m0) /\
  (forall a b v, (a < b)%nat -> nth_error (n_order N) b = Some v -> treated i j a b ->
     mg a b m = lin (coef v) (par v) (fun p => mg a (pos N p) m) /\ mg b a m = mg a b m) /\
  (forall a b, (a < b)%nat -> ~ treated i j a b -> mg a b m = 0).

Lemma row_step m0 i j m : (i < j)%nat -> (j < n)%nat -> row_inv m0 i j m ->
  exists m', cov_node R_ops N i j m = Ok m' /\ row_inv m0 i (S j) m'.
Proof.
  intros Hij Hj (Sm & D & C & Z). destruct (node_at N j Hj) as (v & Hv & _).
  destruct (cov_node_exact i j v m Sm Hij Hv) as (m' & E & S' & Y & V & K).
  exists m'. split; [exact E|]. split; [exact S'|]. split; [intros k; rewrite K by lia; apply D|]. split.
  - intros a b u Hab Hu Ht.
    assert (L : lin (coef u) (par u) (fun p => mg a (pos N p) m') = lin (coef u) (par u) (fun p => mg a (pos N p) m)).
    { apply lin_ext. intros p Hp. destruct (dag_parent N b u p HD Hu Hp) as (_ & A2 & _). apply K; unfold treated in Ht; lia. }
    rewrite L. destruct (Nat.eq_dec a i) as [->|Hai]; [destruct (Nat.eq_dec b j) as [->|Hbj]|].
    + assert (u = v) by congruence. subst u. split; [|exact Y]. rewrite V, (Z i j); [ring|exact Hij|unfold treated; lia].
    + rewrite (K i b), (K b i) by lia. apply C; [exact Hab|exact Hu|unfold treated in *; lia].
    + rewrite (K a b), (K b a) by lia. apply C; [exact Hab|exact Hu|unfold treated in *; lia].
  - intros a b Hab Ht. rewrite K by (unfold treated in Ht; lia). apply Z; [exact Hab|unfold treated in *; lia].
Qed.

Lemma all_sigma_entries : exists m, all_sigma R_ops N = Ok m /\ square n m /\ entries m.
Proof.
  unfold all_sigma. fold n. destruct diagonal_phase as (m0 & E0 & S0 & Z0 & D0). rewrite E0. cbn [rbind].
  destruct (each_seq (fun i => each (fun j => cov_node R_ops N i j) (seq (S i) (n - S i))) (fun i m => row_inv m0 i (S i) m) 0%nat n m0) as (m & E & Sm & D & C & Z).
  - split; [exact S0|]. split; [reflexivity|]. split; [intros a b v Hab _ Ht; unfold treated in Ht; lia|]. intros a b Hab _. apply Z0. lia.
  - intros i m Hi HI.
    destruct (each_seq (fun j => cov_node R_ops N i j) (fun j m => row_inv m0 i j m) (S i) (n - S i) m HI) as (m' & E' & S' & D' & C' & Z').
    + intros j m1 Hj H1. apply row_step; [lia|lia|exact H1].
    + exists m'. split; [exact E'|]. split; [exact S'|]. split; [exact D'|]. split.
      * intros a b v Hab Hv Ht. apply C'; [exact Hab|exact Hv|]. assert (b < n)%nat by (apply nth_error_Some; rewrite Hv; discriminate). unfold treated in *. lia.
      * intros a b Hab Ht. apply Z'; [exact Hab|]. unfold treated in *. lia.
  - exists m. split; [exact E|]. split; [exact Sm|]. split.
    + intros k v Hk. rewrite D, (D0 k v Hk). f_equal. apply lin_ext. intros p _. symmetry. apply D.
    + intros a b v Hab Hv. apply C; [exact Hab|exact Hv|]. assert (b < n)%nat by (apply nth_error_Some; rewrite Hv; discriminate). unfold treated. lia.
Qed.

(** The symmetry test passes. *)
Lemma check_exact tol m : 0 < tol -> (forall a b, (a < n)%nat -> (b < n)%nat -> mg a b m = mg b a m) -> check_symmetric R_ops tol n m = true.
Proof.
  intros Ht H. unfold check_symmetric. apply forallb_forall. intros i Hi. apply forallb_forall. intros j Hj.
  apply in_seq in Hi. apply in_seq in Hj. fold (mg i j m) (mg j i m). rewrite (H i j) by lia. cbn [o_ltb o_sub R_ops]. unfold nabs. cbn [o_ltb o_sub R_ops].
  unfold Rltb, zero. cbn [o_ofZ R_ops]. destruct (Rlt_dec (mg j i m - mg j i m) 0); [lra|]. destruct (Rlt_dec (mg j i m - mg j i m) tol); [reflexivity|lra].
Qed.

(** *** Correctness *)
Context {O : Type} (P : probability O) (X eps : string -> O -> R) (HS : solves P N X eps).
Let C p q := cov P (X p) (X q).

(** what the diagonal leaves out *)
Definition cross v : R := lin (coef v) (par v) (fun p => lin (coef v) (par v) (C p)) - lin (map sq (coef v)) (par v) (fun p => C p p).

Lemma var_cross i v : nth_error (n_order N) i = Some v ->
  C v v = d_var (n_cpd N v) + lin (map sq (coef v)) (par v) (fun p => C p p) + cross v.
Proof. intros Hi. unfold C at 1. rewrite (var_step P N X eps HD HS i v Hi). unfold cross. fold (coef v) (par v). fold C. change (fun p => lin (coef v) (par v) (fun q => cov P (X p) (X q))) with (fun p => lin (coef v) (par v) (C p)). ring. Qed.

Lemma entries_cov m : entries m -> (forall v, In v (n_order N) -> cross v = 0) ->
  forall b u, nth_error (n_order N) b = Some u -> forall a v, (a <= b)%nat -> nth_error (n_order N) a = Some v -> mg a b m = C v u.
Proof.
  intros [D E] HX. induction b as [b IH] using (well_founded_induction Wf_nat.lt_wf). intros u Hu a v Hab Hv.
  destruct (Nat.eq_dec a b) as [->|Hn].
  - assert (v = u) by congruence. subst v. rewrite (D b u Hu), (var_cross b u Hu), (HX u (nth_error_In _ _ Hu)), Rplus_0_r. f_equal.
    apply lin_ext. intros p Hp. destruct (dag_parent N b u p HD Hu Hp) as (_ & A2 & A3). apply (IH (pos N p) A2 p A3 (pos N p) p); [lia|exact A3].
  - destruct (E a b u ltac:(lia) Hu) as [E1 _]. rewrite E1. unfold C. rewrite (cov_step P N X eps HD HS a b v u ltac:(lia) Hv Hu).
    fold (coef u) (par u). apply lin_ext. intros p Hp. destruct (dag_parent N b u p HD Hu Hp) as (_ & A2 & A3).
    destruct (Nat.le_gt_cases a (pos N p)) as [Hle|Hgt].
    + apply (IH (pos N p) A2 p A3 a v Hle Hv).
    + destruct (E (pos N p) a v Hgt Hv) as [_ E2]. rewrite E2. rewrite (IH a ltac:(lia) v Hv (pos N p) p ltac:(lia) A3). unfold C. apply cov_sym.
Qed.

Lemma entries_cov_all m : entries m -> (forall v, In v (n_order N) -> cross v = 0) ->
  forall a b u v, nth_error (n_order N) a = Some v -> nth_error (n_order N) b = Some u -> mg a b m = C v u.
Proof.
  intros HE HX a b u v Ha Hb. destruct (Nat.le_gt_cases a b) as [H|H].
  - exact (entries_cov m HE HX b u Hb a v H Ha).
  - destruct HE as [D E]. destruct (E b a v H Ha) as [_ E2]. rewrite E2. rewrite (entries_cov m (conj D E) HX a v Ha b u ltac:(lia) Hb). apply cov_sym.
Qed.
End Sigma.

Definition crossed {O} (P : probability O) (N : network R) (X : string -> O -> R) (v : string) : R :=
  cross N P X v.

Lemma matrix_of_entries (N : network R) (f : string -> string -> R) m : square (length (n_order N)) m ->
  (forall a b u v, nth_error (n_order N) a = Some v -> nth_error (n_order N) b = Some u -> mg a b m = f v u) ->
  m = map (fun v => map (f v) (n_order N)) (n_order N).
Proof.
  intros [L1' L2'] H. apply (list_of_nth _ _ _ []); [exact L1'|]. intros a v Ha.
  apply (list_of_nth _ _ _ 0); [apply L2'; apply nth_error_Some; rewrite Ha; discriminate|]. intros b u Hb. exact (H a b u v Ha Hb).
Qed.

(** get_sigma is the covariance matrix exactly when no node's cross terms are left out. *)
Theorem get_sigma_exact {O} (P : probability O) N X eps tol vars : dag N -> solves P N X eps -> 0 < tol -> incl vars (n_order N) ->
  (forall v, In v (n_order N) -> crossed P N X v = 0) ->
  let vs := match vars with [] => n_order N | _ => vars end in
  get_sigma R_ops tol N vars = Ok (map (fun v => map (fun u => cov P (X v) (X u)) vs) vs).
Proof.
  intros HD HS Ht Hv HX vs. unfold get_sigma. destruct (all_sigma_entries N HD) as (m & E & Sm & HE).
  pose proof (entries_cov_all N HD P X eps HS m HE HX) as HC.
  rewrite E. cbn [rbind]. rewrite (check_exact N tol m Ht).
  - unfold vs. destruct vars as [|v0 vars0] eqn:Ev.
    + f_equal. apply matrix_of_entries; [exact Sm|]. intros a b u v Ha Hb. apply HC; assumption.
    + rewrite <- Ev in *. destruct (positions_ok N vars HD Hv) as [Hp Hq]. rewrite Hp. cbn [rbind]. f_equal. rewrite map_map.
      apply map_ext_in. intros v Hin. rewrite map_map. apply map_ext_in. intros u Hu. apply HC; apply Hq; assumption.
  - intros a b Ha Hb. destruct (node_at N a Ha) as (v & Hv' & _). destruct (node_at N b Hb) as (u & Hu' & _).
    rewrite (HC a b u v Hv' Hu'), (HC b a v u Hu' Hv'). apply cov_sym.
Qed.

Theorem get_sigma_iff {O} (P : probability O) N X eps tol : dag N -> solves P N X eps -> 0 < tol ->
  (get_sigma R_ops tol N [] = Ok (map (fun v => map (fun u => cov P (X v) (X u)) (n_order N)) (n_order N)) <->
   forall v, In v (n_order N) -> crossed P N X v = 0).
Proof.
  intros HD HS Ht. split.
  - intros H v Hin. apply In_nth_error in Hin as [i Hi]. unfold get_sigma in H. destruct (all_sigma_entries N HD) as (m & E & Sm & HE). rewrite E in H. cbn [rbind] in H.
    destruct (check_symmetric R_ops tol (length (n_order N)) m); [|discriminate].
    assert (Hm : m = map (fun v => map (fun u => cov P (X v) (X u)) (n_order N)) (n_order N)) by congruence. clear H.
    assert (G : forall k u, nth_error (n_order N) k = Some u -> mg k k m = cov P (X u) (X u)).
    { intros k u Hk. rewrite Hm. unfold mg, mget, vget. set (f := fun v => map (fun u => cov P (X v) (X u)) (n_order N)).
      rewrite (nth_error_nth (map f (n_order N)) k [] (x := f u)); [|rewrite nth_error_map, Hk; reflexivity]. unfold f.
      apply nth_error_nth. rewrite nth_error_map, Hk. reflexivity. }
    destruct HE as [D _]. pose proof (D i v Hi) as D1. rewrite (G i v Hi) in D1. pose proof (var_cross N HD P X eps HS i v Hi) as V1.
    rewrite (lin_ext _ _ _ (fun p => cov P (X p) (X p))) in D1; [unfold crossed; lra|].
    intros p Hp. destruct (dag_parent N i v p HD Hi Hp) as (_ & _ & A3). exact (G (pos N p) p A3).
  - intros HX. exact (get_sigma_exact P N X eps tol [] HD HS Ht (incl_nil_l _) HX).
Qed.

(** Parents that are distinct and pairwise uncorrelated leave nothing out. *)
Lemma lin_off cs ps (f : string -> R) : (forall q, In q ps -> f q = 0) -> lin cs ps f = 0.
Proof. intros H. rewrite (lin_ext _ _ _ (fun _ => 0)) by exact H. apply lin_zero. Qed.

Lemma double_lin cs ps (G : string -> string -> R) : length cs = length ps -> NoDup ps ->
  (forall p q, In p ps -> In q ps -> p <> q -> G p q = 0) ->
  lin cs ps (fun p => lin cs ps (G p)) = lin (map sq cs) ps (fun p => G p p).
Proof.
  intros Hl ND HG.
  assert (B : forall cs0 ps0, length cs0 = length ps0 -> NoDup ps0 -> incl ps0 ps ->
     lin cs0 ps0 (fun p => lin cs0 ps0 (G p)) = lin (map sq cs0) ps0 (fun p => G p p)).
  { induction cs0 as [|c cs0 IH]; intros [|p ps0] Hl0 ND0 Hinc; try discriminate; [reflexivity|]. cbn [lin map].
    inversion ND0 as [|? ? Hnp ND1]; subst.
    assert (Hps : incl ps0 ps) by (intros q Hq; apply Hinc; right; exact Hq). assert (Hp : In p ps) by (apply Hinc; left; reflexivity).
    rewrite (lin_off cs0 ps0 (G p)).
    2:{ intros q Hq. apply HG; [exact Hp|apply Hps; exact Hq|]. intros ->. contradiction. }
    rewrite (lin_ext cs0 ps0 (fun p0 => c * G p0 p + lin cs0 ps0 (G p0)) (fun p0 => lin cs0 ps0 (G p0))).
    2:{ intros q Hq. rewrite (HG q p); [ring|apply Hps; exact Hq|exact Hp|]. intros ->. contradiction. }
    rewrite IH by (try assumption; cbn in Hl0; lia). unfold sq. ring. }
  apply B; [exact Hl|exact ND|intros q Hq; exact Hq].
Qed.

Lemma uncorrelated_crossed {O} (P : probability O) N X v i : dag N -> nth_error (n_order N) i = Some v ->
  NoDup (d_parents (n_cpd N v)) ->
  (forall p q, In p (d_parents (n_cpd N v)) -> In q (d_parents (n_cpd N v)) -> p <> q -> cov P (X p) (X q) = 0) -> crossed P N X v = 0.
Proof.
  intros HD Hi ND HG. unfold crossed, cross. rewrite (double_lin _ _ (fun p q => cov P (X p) (X q)) (dag_length N i v HD Hi) ND HG). ring.
Qed.

(** Parents without a common ancestor are uncorrelated. *)
Inductive ancestor {T} (N : network T) : string -> string -> Prop :=
| anc_self : forall v, ancestor N v v
| anc_parent : forall a p v, In p (d_parents (n_cpd N v)) -> ancestor N a p -> ancestor N a v.

Definition unrelated {T} (N : network T) (p q : string) : Prop := forall a, ancestor N a p -> ancestor N a q -> False.

Lemma unrelated_cov {O} (P : probability O) N X eps : dag N -> solves P N X eps ->
  forall k i j p q, (i + j < k)%nat -> nth_error (n_order N) i = Some p -> nth_error (n_order N) j = Some q -> unrelated N p q ->
  cov P (X p) (X q) = 0.
Proof.
  intros HD HS. assert (U : forall p q, unrelated N p q -> unrelated N q p) by (intros p q H a H1 H2; exact (H a H2 H1)).
  induction k as [|k IH]; intros i j p q Hk Hi Hj HU; [lia|].
  assert (G : forall i j p q, (i + j < S k)%nat -> (i < j)%nat -> nth_error (n_order N) i = Some p -> nth_error (n_order N) j = Some q -> unrelated N p q -> cov P (X p) (X q) = 0).
  { clear i j p q Hk Hi Hj HU. intros i j p q Hk Hij Hi Hj HU. rewrite (cov_step P N X eps HD HS i j p q Hij Hi Hj). apply lin_off.
    intros r Hr. destruct (dag_parent N j q r HD Hj Hr) as (_ & A2 & A3). apply (IH i (pos N r) p r); [lia|exact Hi|exact A3|].
    intros a H1 H2. apply (HU a H1). apply (anc_parent N a r q Hr H2). }
  destruct (Nat.lt_trichotomy i j) as [H|[H|H]].
  - exact (G i j p q Hk H Hi Hj HU).
  - subst j. assert (p = q) by congruence. subst q. exfalso. apply (HU p); constructor.
  - rewrite cov_sym. apply (G j i q p); [lia|exact H|exact Hj|exact Hi|apply U; exact HU].
Qed.

(** Networks in which no node has two related parents (polytrees, in particular forests). *)
Definition no_diamond {T} (N : network T) : Prop := forall v, In v (n_order N) ->
  NoDup (d_parents (n_cpd N v)) /\
  forall p q, In p (d_parents (n_cpd N v)) -> In q (d_parents (n_cpd N v)) -> p <> q -> unrelated N p q.

Lemma no_diamond_crossed {O} (P : probability O) N X eps : dag N -> solves P N X eps -> no_diamond N ->
  forall v, In v (n_order N) -> crossed P N X v = 0.
Proof.
  intros HD HS HN v Hv. destruct (HN v Hv) as [ND HU]. apply In_nth_error in Hv as [i Hi].
  apply (uncorrelated_crossed P N X v i HD Hi ND). intros p q Hp Hq Hn.
  destruct (dag_parent N i v p HD Hi Hp) as (_ & _ & A3). destruct (dag_parent N i v q HD Hi Hq) as (_ & _ & B3).
  exact (unrelated_cov P N X eps HD HS (S (pos N p + pos N q)) (pos N p) (pos N q) p q (Nat.lt_succ_diag_r _) A3 B3 (HU p q Hp Hq Hn)).
Qed.

Theorem get_sigma_tree {O} (P : probability O) N X eps tol vars : dag N -> solves P N X eps -> no_diamond N -> 0 < tol -> incl vars (n_order N) ->
  let vs := match vars with [] => n_order N | _ => vars end in
  get_sigma R_ops tol N vars = Ok (map (fun v => map (fun u => cov P (X v) (X u)) vs) vs).
Proof. intros HD HS HN Ht Hv. apply (get_sigma_exact P N X eps tol vars HD HS Ht Hv). apply (no_diamond_crossed P N X eps HD HS HN). Qed.
