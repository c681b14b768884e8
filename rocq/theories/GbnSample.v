(** Sampling with evidence, structure lists, and the symmetry test in binary64. *)
From Coq Require Import String List ZArith Bool Lia Reals Lra Permutation Sorted.
From Flocq Require Import Core IEEE754.BinarySingleNaN.
From Verif Require Import PyBase B64 B64More Models Gbn GbnSpec GbnThms GbnSigma GbnInfer.
Import ListNotations.
Open Scope nat_scope.

(** ** Frames *)
Section Frames.
Context {T : Type}.
Implicit Types f : frame (T := T).

Lemma fcol_set_same v x r f : fcol (fset v x r f) v = Ok (repeat x r).
Proof.
  unfold fset. destruct (existsb (fun c => String.eqb v (fst c)) f) eqn:E.
  - unfold fcol. induction f as [|[u c] f IH]; [discriminate|]. cbn [map find fst existsb] in *. destruct (String.eqb_spec v u) as [->|Hn].
    + cbn [fst snd]. rewrite String.eqb_refl. reflexivity.
    + cbn [fst]. destruct (String.eqb_spec v u); [contradiction|]. apply IH. exact E.
  - unfold fcol. induction f as [|[u c] f IH]; cbn [app find fst existsb] in *.
    + rewrite String.eqb_refl. reflexivity.
    + apply orb_false_iff in E as [E1 E2]. rewrite E1. apply IH. exact E2.
Qed.
Lemma fcol_set_other v u x r f : u <> v -> fcol (fset v x r f) u = fcol f u.
Proof.
  intros Hn. unfold fset, fcol. destruct (existsb (fun c => String.eqb v (fst c)) f).
  - induction f as [|[z c] f IH]; [reflexivity|]. cbn [map find fst]. destruct (String.eqb_spec v z) as [->|Hz]; cbn [fst snd].
    + destruct (String.eqb_spec u z); [congruence|]. exact IH.
    + destruct (String.eqb u z); [reflexivity|exact IH].
  - induction f as [|[z c] f IH]; cbn [app find fst].
    + destruct (String.eqb_spec u v); [contradiction|reflexivity].
    + destruct (String.eqb u z); [reflexivity|exact IH].
Qed.

Definition set_all (size : nat) (ev : list (string * T)) f : frame := fold_left (fun f e => fset (fst e) (snd e) size f) ev f.
Lemma set_all_other size ev f u : ~ In u (map fst ev) -> fcol (set_all size ev f) u = fcol f u.
Proof.
  revert f. induction ev as [|[v x] ev IH]; intros f H; [reflexivity|]. unfold set_all in *. cbn [fold_left fst snd]. rewrite IH.
  - apply fcol_set_other. intros ->. apply H. left. reflexivity.
  - intros Hu. apply H. right. exact Hu.
Qed.
Lemma set_all_in size ev f v x : NoDup (map fst ev) -> In (v, x) ev -> fcol (set_all size ev f) v = Ok (repeat x size).
Proof.
  revert f. induction ev as [|[u y] ev IH]; intros f ND H; [destruct H|]. cbn [map fst] in ND. inversion ND as [|? ? Hu ND']; subst.
  unfold set_all in *. cbn [fold_left fst snd]. destruct H as [H|H].
  - assert (u = v /\ y = x) as [-> ->] by (split; congruence).
    change (fold_left (fun f e => fset (fst e) (snd e) size f) ev (fset v x size f)) with (set_all size ev (fset v x size f)).
    rewrite set_all_other by exact Hu. apply fcol_set_same.
  - apply IH; assumption.
Qed.
Lemma fcol_combine (vs : list string) (cols : list (list T)) k v : NoDup vs -> length cols = length vs -> nth_error vs k = Some v ->
  exists c, nth_error cols k = Some c /\ fcol (combine vs cols) v = Ok c.
Proof.
  revert vs k. induction cols as [|c cols IH]; intros [|u vs] [|k] ND Hl Hk; try discriminate.
  - assert (u = v) by (cbn in Hk; congruence). subst. exists c. split; [reflexivity|]. unfold fcol. cbn. rewrite String.eqb_refl. reflexivity.
  - inversion ND as [|? ? Hu ND']; subst. destruct (IH vs k ND') as (c' & E1 & E2); [cbn in Hl; lia|exact Hk|]. exists c'. split; [exact E1|].
    unfold fcol in *. cbn [combine find fst]. destruct (String.eqb_spec v u) as [->|_]; [|exact E2]. exfalso. apply Hu. cbn in Hk. exact (nth_error_In vs k Hk).
Qed.
End Frames.

Lemma rmapM_nth {A B} (f : A -> res B) l out j x : rmapM f l = Ok out -> nth_error l j = Some x -> exists y, nth_error out j = Some y /\ f x = Ok y.
Proof.
  revert out j. induction l as [|a l IH]; intros out [|j] H Hj; try discriminate; cbn [rmapM] in H;
    destruct (f a) as [y|] eqn:Ef; try discriminate; cbn [rbind] in H; destruct (rmapM f l) as [ys|] eqn:Er; try discriminate; cbn [rbind] in H;
    assert (out = y :: ys) by congruence; subst.
  - exists y. split; [reflexivity|]. assert (a = x) by (cbn in Hj; congruence). subst. exact Ef.
  - destruct (IH ys j eq_refl Hj) as (z & E1 & E2). exists z. split; assumption.
Qed.
Lemma rmapM_length {A B} (f : A -> res B) l out : rmapM f l = Ok out -> length out = length l.
Proof.
  revert out. induction l as [|a l IH]; intros out H; cbn [rmapM] in H; [assert (out = []) by congruence; subst; reflexivity|].
  destruct (f a) as [y|]; [|discriminate]. cbn [rbind] in H. destruct (rmapM f l) as [ys|]; [|discriminate]. cbn [rbind] in H.
  assert (out = y :: ys) by congruence. subst. cbn. rewrite (IH ys eq_refl). reflexivity.
Qed.

Section Sample.
Context {T : Type} (o : ops T).

(** Evidence columns are constant; free columns are one of the columns drawn. *)
Theorem sample_evidence_fixed tol ord pinv draw size variables evidences (N : network T) out :
  NoDup (map fst evidences) -> sample_evidence o tol ord pinv draw size variables evidences N = Ok out ->
  length out = length variables /\
  forall j v x, nth_error variables j = Some v -> In (v, x) evidences -> nth_error out j = Some (repeat x size).
Proof.
  intros ND H. unfold sample_evidence in H. destruct (inference o tol ord pinv N (map snd evidences) (map fst evidences)) as [mc|]; [|discriminate]. cbn [rbind] in H.
  destruct (draw (fst mc) (snd mc)) as [cols|]; [|discriminate]. cbn [rbind] in H.
  destruct (Nat.eqb (length cols) (length (set_minus ord variables (map fst evidences)))); [|discriminate].
  split; [exact (rmapM_length _ _ _ H)|]. intros j v x Hj Hin. destruct (rmapM_nth _ _ _ j v H Hj) as (y & E1 & E2).
  fold (set_all size evidences (combine (set_minus ord variables (map fst evidences)) cols)) in E2.
  rewrite (set_all_in size evidences _ v x ND Hin) in E2. rewrite E1. congruence.
Qed.

(** The order of a set does not depend on the order of insertion. *)
Definition ord_stable (ord : set_order) : Prop := forall a b, (forall x, In x a <-> In x b) -> ord_list ord a = ord_list ord b.

Theorem sample_evidence_labels tol ord pinv draw size variables evidences (N : network T) out :
  ord_ok ord -> ord_stable ord -> (forall x, In x variables <-> In x (n_order N)) ->
  sample_evidence o tol ord pinv draw size variables evidences N = Ok out ->
  exists mu S cols, inference o tol ord pinv N (map snd evidences) (map fst evidences) = Ok (mu, S) /\ draw mu S = Ok cols /\
    forall k v j, nth_error (set_minus ord (n_order N) (map fst evidences)) k = Some v -> nth_error variables j = Some v ->
      nth_error out j = nth_error cols k.
Proof.
  intros Ho Hs Hv H. unfold sample_evidence in H. destruct (inference o tol ord pinv N (map snd evidences) (map fst evidences)) as [[mu S]|]; [|discriminate]. cbn [rbind fst snd] in H.
  destruct (draw mu S) as [cols|] eqn:Hd; [|discriminate]. cbn [rbind] in H.
  destruct (Nat.eqb_spec (length cols) (length (set_minus ord variables (map fst evidences)))) as [Hl|]; [|discriminate].
  exists mu, S, cols. split; [reflexivity|]. split; [exact Hd|]. intros k v j Hk Hj.
  assert (E : set_minus ord variables (map fst evidences) = set_minus ord (n_order N) (map fst evidences)).
  { unfold set_minus. rewrite (Hs variables (n_order N) Hv). reflexivity. }
  destruct (rmapM_nth _ _ _ j v H Hj) as (y & E1 & E2). fold (set_all size evidences (combine (set_minus ord variables (map fst evidences)) cols)) in E2.
  rewrite set_all_other in E2.
  - rewrite <- E in Hk. destruct (fcol_combine _ cols k v (set_minus_nodup ord variables (map fst evidences) Ho) Hl Hk) as (c & C1 & C2).
    rewrite E1, C1. congruence.
  - apply (set_minus_in ord (n_order N) (map fst evidences) v Ho). exact (nth_error_In _ _ Hk).
Qed.
End Sample.

(** ** Sets ordered by a hash, collisions resolved by order of insertion *)
Section Hash.
Variable h : string -> nat.
Fixpoint ins (x : string) (l : list string) : list string :=
  match l with [] => [x] | y :: l' => if Nat.leb (h x) (h y) then x :: l else y :: ins x l' end.
Definition first_occurrences (l : list string) : list string := rev (nodup string_dec (rev l)).
Definition hashed (l : list string) : list string := fold_right ins [] (first_occurrences l).
Definition by_hash : set_order := mkOrd hashed hashed.

Lemma ins_perm x l : Permutation (ins x l) (x :: l).
Proof.
  induction l as [|y l IH]; [reflexivity|]. cbn [ins]. destruct (Nat.leb (h x) (h y)); [reflexivity|].
  rewrite IH. apply perm_swap.
Qed.
Lemma isort_perm l : Permutation (fold_right ins [] l) l.
Proof. induction l as [|x l IH]; [reflexivity|]. cbn [fold_right]. rewrite ins_perm. constructor. exact IH. Qed.
Lemma hashed_ok l : NoDup (hashed l) /\ forall x, In x (hashed l) <-> In x l.
Proof.
  unfold hashed. split.
  - apply (Permutation_NoDup (Permutation_sym (isort_perm _))). unfold first_occurrences. apply NoDup_rev. apply NoDup_nodup.
  - intros x. assert (E : In x (fold_right ins [] (first_occurrences l)) <-> In x (first_occurrences l)).
    { split; apply Permutation_in; [apply isort_perm|apply Permutation_sym, isort_perm]. }
    rewrite E. unfold first_occurrences. rewrite <- in_rev, nodup_In, <- in_rev. reflexivity.
Qed.
Lemma by_hash_ok : ord_ok by_hash.
Proof. split; [exact hashed_ok|]. intros l _. exact (hashed_ok l). Qed.

Definition le_h (x y : string) : Prop := h x <= h y.
Lemma ins_sorted x l : StronglySorted le_h l -> StronglySorted le_h (ins x l).
Proof.
  induction l as [|y l IH]; intros H; [constructor; constructor|]. inversion H as [|? ? H1 H2]; subst. cbn [ins]. destruct (Nat.leb_spec (h x) (h y)) as [E|E].
  - constructor; [exact H|]. constructor; [exact E|]. eapply Forall_impl; [|exact H2]. unfold le_h. cbn. intros z Hz. lia.
  - constructor; [apply IH; exact H1|]. apply (Permutation_Forall (Permutation_sym (ins_perm x l))). constructor; [unfold le_h; lia|exact H2].
Qed.
Lemma isort_sorted l : StronglySorted le_h (fold_right ins [] l).
Proof. induction l as [|x l IH]; [constructor|]. cbn [fold_right]. apply ins_sorted. exact IH. Qed.

Lemma sorted_unique a b : (forall x y, h x = h y -> x = y) -> StronglySorted le_h a -> StronglySorted le_h b -> NoDup a -> NoDup b ->
  (forall x, In x a <-> In x b) -> a = b.
Proof.
  intros Hinj. revert b. induction a as [|x a IH]; intros b Sa Sb Na Nb H.
  - destruct b as [|y b]; [reflexivity|]. exfalso. apply (proj2 (H y)). left. reflexivity.
  - destruct b as [|y b]; [exfalso; apply (proj1 (H x)); left; reflexivity|].
    inversion Sa as [|? ? Sa1 Sa2]; subst. inversion Sb as [|? ? Sb1 Sb2]; subst. inversion Na as [|? ? Na1 Na2]; subst. inversion Nb as [|? ? Nb1 Nb2]; subst.
    assert (E : x = y).
    { apply Hinj. rewrite Forall_forall in Sa2, Sb2. destruct (proj1 (H x) (or_introl eq_refl)) as [->|Hx]; [reflexivity|].
      destruct (proj2 (H y) (or_introl eq_refl)) as [->|Hy]; [reflexivity|]. specialize (Sa2 y Hy). specialize (Sb2 x Hx). unfold le_h in *. lia. }
    subst y. f_equal. apply IH; try assumption. intros z. split; intros Hz.
    + destruct (proj1 (H z) (or_intror Hz)) as [->|Hb]; [contradiction|exact Hb].
    + destruct (proj2 (H z) (or_intror Hz)) as [->|Ha]; [contradiction|exact Ha].
Qed.
Lemma by_hash_stable : (forall x y, h x = h y -> x = y) -> ord_stable by_hash.
Proof.
  intros Hinj a b H. cbn [by_hash ord_list]. apply sorted_unique; [exact Hinj|apply isort_sorted|apply isort_sorted|apply hashed_ok|apply hashed_ok|].
  intros x. rewrite (proj2 (hashed_ok a) x), (proj2 (hashed_ok b) x). apply H.
Qed.
End Hash.

(** ** White and black lists *)
Definition listed (l : option (list arc)) (a : arc) : Prop := match l with Some x => In a x | None => False end.
(** a structure learner that respects the lists it is given *)
Definition honours (hc : option (list arc) -> option (list arc) -> res (list arc)) : Prop := forall w b arcs, hc w b = Ok arcs ->
  forall a, (listed w a -> In a arcs) /\ (listed b a -> ~ In a arcs).
Lemma learn_arcs_ok hc white black arcs : honours hc -> learn_arcs hc white black = Ok arcs ->
  forall a, (listed white a -> In a arcs) /\ (listed black a -> ~ In a arcs).
Proof.
  intros Hh H. unfold learn_arcs in H.
  assert (F : forall l a, truthy l = false -> @listed l a -> False).
  { intros [[|x l]|] a Ht Hl; cbn in *; try discriminate; contradiction. }
  destruct (truthy white) eqn:Tw; destruct (truthy black) eqn:Tb; cbn [andb] in H; intros a;
    destruct (Hh _ _ _ H a) as [H1 H2]; split; auto; intros Hl; exfalso; solve [exact (F white a Tw Hl) | exact (F black a Tb Hl)].
Qed.

(** ** The symmetry test in binary64 *)
Section Symmetric64.
Variable s : list f64 -> f64.
Let o := b64_ops s.

Lemma self_difference (x tol : f64) : flt (Z2f 0) tol = true -> isnan tol = false ->
  o_ltb o (nabs o (o_sub o x x)) tol = isfin x.
Proof.
  intros Ht Hn. unfold nabs, o, zero. cbn [o_ltb o_sub o_ofZ b64_ops]. destruct (isfin x) eqn:Hx.
  - destruct (fsub_fin x x Hx Hx) as [HF HR].
    { rewrite Rminus_diag_eq, rnd_0, Rabs_R0 by reflexivity. apply big_pos. }
    rewrite Rminus_diag_eq, rnd_0 in HR by reflexivity.
    destruct (flt (fsub x x) (Z2f 0)) eqn:E.
    + apply (flt_fin _ _ HF Z2f_0_fin) in E. rewrite HR, Z2f_0_R in E. lra.
    + apply (fle_flt_trans _ (Z2f 0)); [|exact Ht]. apply (fle_fin _ _ HF Z2f_0_fin). rewrite HR, Z2f_0_R. lra.
  - assert (E : isnan (fsub x x) = true) by (destruct x as [b|b| |b m e B]; try discriminate; [destruct b; reflexivity|reflexivity]).
    rewrite (flt_nan_l _ _ E). apply flt_nan_l. exact E.
Qed.

Definition all_finite (m : list (list f64)) : Prop := Forall (Forall (fun x => isfin x = true)) m.
Lemma all_finite_dec m : {all_finite m} + {~ all_finite m}.
Proof. apply Forall_dec. intros r. apply Forall_dec. intros x. destruct (isfin x); [left; reflexivity|right; discriminate]. Qed.

Definition symmetric (m : list (list f64)) : Prop := forall i j, i < length m -> j < length m -> nth j (nth i m []) fnan = nth i (nth j m []) fnan.

Lemma square_forall (P : f64 -> Prop) n m : square n m -> (Forall (Forall P) m <-> forall i j, i < n -> j < n -> P (mget o i j m)).
Proof.
  intros [L1' L2']. split.
  - intros H i j Hi Hj. rewrite Forall_forall in H. assert (Hr : In (nth i m []) m) by (apply nth_In; lia). specialize (H _ Hr).
    rewrite Forall_forall in H. apply H. unfold mget, vget. apply nth_In. rewrite L2'; assumption.
  - intros H. apply Forall_forall. intros r Hr. apply (In_nth _ _ []) in Hr as (i & Hi & <-). rewrite L1' in Hi.
    apply Forall_forall. intros x Hx. apply (In_nth _ _ (zero o)) in Hx as (j & Hj & <-). rewrite L2' in Hj by exact Hi. apply (H i j Hi Hj).
Qed.

Theorem sigma64 tol (N : network f64) : dag N -> flt (Z2f 0) tol = true ->
  exists m, all_sigma o N = Ok m /\ square (length (n_order N)) m /\ symmetric m /\
    (all_finite m -> forall vars, incl vars (n_order N) -> exists m', get_sigma o tol N vars = Ok m' /\ symmetric m') /\
    (~ all_finite m -> forall vars, get_sigma o tol N vars = Raise AssertionError).
Proof.
  intros HD Ht. destruct (flt_not_nan _ _ Ht) as [_ Hn]. destruct (all_sigma_symmetric o N HD) as (m & E & Sm & Hsym).
  exists m. split; [exact E|]. split; [exact Sm|].
  assert (HS : symmetric m).
  { intros i j Hi Hj. destruct Sm as [S1 S2]. rewrite S1 in Hi, Hj. pose proof (Hsym i j Hi Hj) as H. unfold mget, vget in H.
    rewrite (nth_indep _ (zero o) fnan) in H by (rewrite S2; assumption). rewrite (nth_indep (nth j m []) (zero o) fnan) in H by (rewrite S2; assumption). exact H. }
  assert (HC : check_symmetric o tol (length (n_order N)) m = true <-> all_finite m).
  { unfold all_finite. rewrite (square_forall _ _ m Sm). unfold check_symmetric. rewrite forallb_forall. split.
    - intros H i j Hi Hj. assert (Hii : In i (seq 0 (length (n_order N)))) by (apply in_seq; lia). specialize (H i Hii). rewrite forallb_forall in H.
      assert (Hjj : In j (seq 0 (length (n_order N)))) by (apply in_seq; lia). specialize (H j Hjj). rewrite (Hsym j i Hj Hi), self_difference in H; assumption.
    - intros H i Hi. apply forallb_forall. intros j Hj. apply in_seq in Hi, Hj. rewrite (Hsym j i) by lia. rewrite self_difference by assumption. apply H; lia. }
  split; [exact HS|]. split.
  - intros HF vars Hv. unfold get_sigma. rewrite E. cbn [rbind]. rewrite (proj2 HC HF). destruct vars as [|v0 vars0] eqn:Ev.
    + exists m. split; [reflexivity|exact HS].
    + rewrite <- Ev in *. destruct (positions_ok N vars HD Hv) as [Hp Hq]. rewrite Hp. cbn [rbind]. eexists. split; [reflexivity|].
      intros i j Hi Hj. rewrite !map_length in Hi, Hj. rewrite map_map. set (g := fun x : string => _).
      assert (G : forall k, k < length vars -> exists v, nth_error vars k = Some v) by (intros k Hk; destruct (nth_error vars k) eqn:Ek; [eauto|apply nth_error_None in Ek; lia]).
      destruct (G i Hi) as (v & Hvi). destruct (G j Hj) as (u & Huj).
      rewrite (nth_error_nth (map g vars) i [] (x := g v)) by (rewrite nth_error_map, Hvi; reflexivity).
      rewrite (nth_error_nth (map g vars) j [] (x := g u)) by (rewrite nth_error_map, Huj; reflexivity). unfold g. rewrite !map_map.
      rewrite (nth_error_nth _ j fnan (x := mget o (pos N v) (pos N u) m)) by (rewrite nth_error_map, Huj; reflexivity).
      rewrite (nth_error_nth _ i fnan (x := mget o (pos N u) (pos N v) m)) by (rewrite nth_error_map, Hvi; reflexivity).
      apply Hsym; eapply nth_error_lt; apply Hq; eapply nth_error_In; eassumption.
  - intros HF vars. unfold get_sigma. rewrite E. cbn [rbind]. destruct (check_symmetric o tol (length (n_order N)) m) eqn:Ec; [|reflexivity].
    exfalso. apply HF. apply HC. reflexivity.
Qed.
End Symmetric64.

(** Exact arithmetic: the test never fires. *)
Theorem sigma_exact_symmetric tol (N : network R) vars : dag N -> (0 < tol)%R -> incl vars (n_order N) ->
  exists m, get_sigma R_ops tol N vars = Ok m /\ length m = length (match vars with [] => n_order N | _ => vars end) /\
    forall i j, i < length m -> j < length m -> nth j (nth i m []) 0%R = nth i (nth j m []) 0%R.
Proof.
  intros HD Ht Hv. destruct (all_sigma_symmetric R_ops N HD) as (m & E & Sm & Hsym). unfold get_sigma. rewrite E. cbn [rbind].
  rewrite (check_exact N tol m Ht Hsym). destruct vars as [|v0 vars0] eqn:Ev.
  - exists m. split; [reflexivity|]. destruct Sm as [S1 S2]. split; [exact S1|]. intros i j Hi Hj. rewrite S1 in Hi, Hj. exact (Hsym i j Hi Hj).
  - rewrite <- Ev in *. destruct (positions_ok N vars HD Hv) as [Hp Hq]. rewrite Hp. cbn [rbind]. eexists. split; [reflexivity|].
    split; [rewrite !map_length; reflexivity|]. intros i j Hi Hj. rewrite !map_length in Hi, Hj. rewrite map_map. set (g := fun x : string => _).
    assert (G : forall k, k < length vars -> exists v, nth_error vars k = Some v) by (intros k Hk; destruct (nth_error vars k) eqn:Ek; [eauto|apply nth_error_None in Ek; lia]).
    destruct (G i Hi) as (v & Hvi). destruct (G j Hj) as (u & Huj).
    rewrite (nth_error_nth (map g vars) i [] (x := g v)) by (rewrite nth_error_map, Hvi; reflexivity).
    rewrite (nth_error_nth (map g vars) j [] (x := g u)) by (rewrite nth_error_map, Huj; reflexivity). unfold g. rewrite !map_map.
    rewrite (nth_error_nth _ j 0%R (x := mg (pos N v) (pos N u) m)) by (rewrite nth_error_map, Huj; reflexivity).
    rewrite (nth_error_nth _ i 0%R (x := mg (pos N u) (pos N v) m)) by (rewrite nth_error_map, Hvi; reflexivity).
    apply Hsym; eapply nth_error_lt; apply Hq; eapply nth_error_In; eassumption.
Qed.
