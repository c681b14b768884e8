(** Inference and sampling with evidence in GBN. *)
From Coq Require Import String List ZArith Bool Lia Reals Lra FunctionalExtensionality.
From Verif Require Import PyBase Models Gbn GbnSpec GbnThms GbnSigma.
Import ListNotations.
Open Scope R_scope.

(** ** Dot products *)
Definition dotR := dot R_ops.
Lemma dot_nil_l v : dotR [] v = 0. Proof. reflexivity. Qed.
Lemma dot_nil_r u : dotR u [] = 0. Proof. destruct u; reflexivity. Qed.
Lemma dot_cons x u y v : dotR (x :: u) (y :: v) = x * y + dotR u v. Proof. reflexivity. Qed.
Lemma dot_comm u v : dotR u v = dotR v u.
Proof. revert v. induction u as [|x u IH]; intros [|y v]; try reflexivity. rewrite !dot_cons, IH. ring. Qed.
Lemma dot_lin cs ps f : dotR cs (map f ps) = lin cs ps f.
Proof. revert ps. induction cs as [|c cs IH]; intros [|p ps]; try reflexivity. cbn [map lin]. rewrite dot_cons, IH. reflexivity. Qed.

(** cs . P for a matrix P given by rows of length l *)
Fixpoint axpy (c : R) (r s : list R) : list R :=
  match r, s with x :: r', y :: s' => (c * x + y) :: axpy c r' s' | _, _ => [] end.
Fixpoint comb (l : nat) (p : list (list R)) (cs : list R) : list R :=
  match p, cs with r :: p', c :: cs' => axpy c r (comb l p' cs') | _, _ => repeat 0 l end.
Lemma axpy_length c r s l : length r = l -> length s = l -> length (axpy c r s) = l.
Proof. revert s l. induction r as [|x r IH]; intros [|y s] l H1 H2; cbn in *; try lia. destruct l; [lia|]. rewrite (IH s l); lia. Qed.
Lemma comb_length l p cs : Forall (fun r => length r = l) p -> length (comb l p cs) = l.
Proof. revert cs. induction p as [|r p IH]; intros [|c cs] H; cbn [comb]; try apply repeat_length. inversion H; subst. apply axpy_length; [reflexivity|apply IH; assumption]. Qed.
Lemma dot_axpy c r s d : length r = length s -> dotR (axpy c r s) d = c * dotR r d + dotR s d.
Proof.
  revert s d. induction r as [|x r IH]; intros [|y s] d H; try discriminate.
  - cbn [axpy]. rewrite !dot_nil_l. ring.
  - destruct d as [|z d]; [rewrite !dot_nil_r; ring|]. cbn [axpy]. rewrite !dot_cons, IH by (cbn in H; lia). ring.
Qed.
Lemma dot_repeat0 l d : dotR (repeat 0 l) d = 0.
Proof. revert d. induction l as [|l IH]; intros [|z d]; try reflexivity. cbn [repeat]. rewrite dot_cons, IH. ring. Qed.
Lemma dot_comb l p cs d : Forall (fun r => length r = l) p -> dotR (comb l p cs) d = dotR cs (map (fun r => dotR r d) p).
Proof.
  revert cs. induction p as [|r p IH]; intros [|c cs] H; cbn [comb map]; rewrite ?dot_repeat0, ?dot_nil_l, ?dot_nil_r; try reflexivity.
  inversion H as [|? ? Hr Hp]; subst. rewrite dot_axpy by (rewrite comb_length by assumption; reflexivity). rewrite dot_cons, IH by assumption. reflexivity.
Qed.

(** ** Matrices given by a function of two names *)
Definition tab (f : string -> string -> R) (a b : list string) : list (list R) := map (fun v => map (f v) b) a.

Lemma firstn_len {A} (a b : list A) k : k = length a -> firstn k (a ++ b) = a.
Proof. intros ->. rewrite firstn_app, Nat.sub_diag, firstn_all. cbn. apply app_nil_r. Qed.
Lemma skipn_len {A} (a b : list A) k : k = length a -> skipn k (a ++ b) = b.
Proof. intros ->. rewrite skipn_app, Nat.sub_diag, skipn_all. reflexivity. Qed.
Lemma tab_11 f a b : map (firstn (length a)) (firstn (length a) (tab f (a ++ b) (a ++ b))) = tab f a a.
Proof.
  unfold tab. rewrite map_app, firstn_len by (rewrite map_length; reflexivity). rewrite map_map. apply map_ext. intros v.
  rewrite map_app. apply firstn_len. rewrite map_length. reflexivity.
Qed.
Lemma tab_12 f a b : map (skipn (length a)) (firstn (length a) (tab f (a ++ b) (a ++ b))) = tab f a b.
Proof.
  unfold tab. rewrite map_app, firstn_len by (rewrite map_length; reflexivity). rewrite map_map. apply map_ext. intros v.
  rewrite map_app. apply skipn_len. rewrite map_length. reflexivity.
Qed.
Lemma tab_21 f a b : map (firstn (length a)) (skipn (length a) (tab f (a ++ b) (a ++ b))) = tab f b a.
Proof.
  unfold tab. rewrite map_app, skipn_len by (rewrite map_length; reflexivity). rewrite map_map. apply map_ext. intros v.
  rewrite map_app. apply firstn_len. rewrite map_length. reflexivity.
Qed.
Lemma tab_22 f a b : map (skipn (length a)) (skipn (length a) (tab f (a ++ b) (a ++ b))) = tab f b b.
Proof.
  unfold tab. rewrite map_app, skipn_len by (rewrite map_length; reflexivity). rewrite map_map. apply map_ext. intros v.
  rewrite map_app. apply skipn_len. rewrite map_length. reflexivity.
Qed.

Lemma mcol_tab f a b j u : nth_error b j = Some u -> mcol R_ops j (tab f a b) = map (fun v => f v u) a.
Proof.
  intros H. unfold mcol, tab. rewrite map_map. apply map_ext. intros v. unfold vget. apply nth_error_nth. rewrite nth_error_map, H. reflexivity.
Qed.
Lemma mcol_matmul c a b j : (j < c)%nat -> mcol R_ops j (matmul R_ops c a b) = map (fun r => dotR r (mcol R_ops j b)) a.
Proof.
  intros H. unfold mcol at 1, matmul. rewrite map_map. apply map_ext. intros r. unfold vget. apply nth_error_nth.
  rewrite nth_error_map. rewrite (nth_error_nth' (seq 0 c) 0%nat) by (rewrite seq_length; exact H). rewrite seq_nth by exact H. reflexivity.
Qed.

Lemma matmul_entry c a b i j r : nth_error a i = Some r -> (j < c)%nat ->
  nth j (nth i (matmul R_ops c a b) []) 0 = dotR r (mcol R_ops j b).
Proof.
  intros Hi Hj. unfold matmul.
  rewrite (nth_error_nth _ i [] (x := map (fun j => dot R_ops r (mcol R_ops j b)) (seq 0 c))) by (rewrite nth_error_map, Hi; reflexivity).
  apply nth_error_nth. rewrite nth_error_map, (nth_error_nth' (seq 0 c) 0%nat) by (rewrite seq_length; exact Hj).
  rewrite seq_nth by exact Hj. reflexivity.
Qed.

Lemma matmul_tab c f a b B : matmul R_ops c (tab f a b) B = map (fun v => map (fun j => dotR (map (f v) b) (mcol R_ops j B)) (seq 0 c)) a.
Proof. unfold matmul, tab. rewrite map_map. reflexivity. Qed.

(** P is a generalised inverse of S: S P S = S (the pseudo-inverse is one; the inverse too). *)
Definition gen_inverse (l : nat) (S P : list (list R)) : Prop :=
  length P = l /\ Forall (fun r => length r = l) P /\ matmul R_ops l S (matmul R_ops l P S) = S.

Lemma nth_error_lt {A} (l : list A) j u : nth_error l j = Some u -> (j < length l)%nat.
Proof. intros H. apply nth_error_Some. rewrite H. discriminate. Qed.

Lemma gen_inverse_entry f vn P t u : gen_inverse (length vn) (tab f vn vn) P -> In t vn -> In u vn ->
  dotR (map (f t) vn) (map (fun r => dotR r (map (fun s => f s u) vn)) P) = f t u.
Proof.
  intros (HL & HF & HM) Ht Hu. apply In_nth_error in Ht as [i Hi]. apply In_nth_error in Hu as [j Hj].
  pose proof (nth_error_lt _ _ _ Hj) as Hjl.
  assert (E : nth j (nth i (matmul R_ops (length vn) (tab f vn vn) (matmul R_ops (length vn) P (tab f vn vn))) []) 0 = f t u).
  { rewrite HM. unfold tab. rewrite (nth_error_nth _ _ [] (x := map (f t) vn)); [|rewrite nth_error_map, Hi; reflexivity].
    apply nth_error_nth. rewrite nth_error_map, Hj. reflexivity. }
  rewrite <- E. rewrite (matmul_entry _ _ _ i j (map (f t) vn)) by (try exact Hjl; unfold tab; rewrite nth_error_map, Hi; reflexivity).
  rewrite mcol_matmul by exact Hjl. rewrite (mcol_tab f vn vn j u Hj). reflexivity.
Qed.

(** ** Regression *)
Section Regression.
Context {O : Type} (P : probability O) (X : string -> O -> R) (vn : list string) (G : list (list R)).
Hypothesis HX : forall u, In u vn -> L2 P (X u).
Let C p q := cov P (X p) (X q).
Hypothesis HG : gen_inverse (length vn) (tab C vn vn) G.

Definition gains (v : string) : list R := comb (length vn) G (map (C v) vn).
Definition best (v : string) (w : O) : R := Ex P (X v) + dotR (gains v) (map (fun u => X u w - Ex P (X u)) vn).
Definition resid (v : string) (w : O) : R := X v w - best v w.

Lemma gen_rows : Forall (fun r => length r = length vn) G. Proof. apply HG. Qed.

Let dev (u : string) (w : O) : R := X u w - Ex P (X u).
Lemma dev_L2 u : L2 P (X u) -> L2 P (dev u). Proof. intros H. apply L2_dev. exact H. Qed.
Lemma cov_shift f g c : L2 P f -> L2 P g -> cov P (fun w => f w - c) g = cov P f g.
Proof.
  intros Hf Hg. replace (fun w => f w - c) with (fun w => f w + (fun _ => - c) w) by (extensionality w; ring).
  rewrite cov_add; [|exact Hf|apply L2_const|exact Hg]. rewrite cov_const by exact Hg. ring.
Qed.
Lemma cov_sub f g h : L2 P f -> L2 P g -> L2 P h -> cov P (fun w => f w - g w) h = cov P f h - cov P g h.
Proof.
  intros Hf Hg Hh. replace (fun w => f w - g w) with (fun w => -1 * g w + f w) by (extensionality w; ring).
  rewrite cov_lin by assumption. ring.
Qed.
Lemma cov_dev u h : L2 P (X u) -> L2 P h -> cov P (dev u) h = cov P (X u) h.
Proof. intros Hu Hh. apply cov_shift; assumption. Qed.
Lemma Ex_dev u : L2 P (X u) -> Ex P (dev u) = 0.
Proof.
  intros Hu. unfold dev. replace (fun w => X u w - Ex P (X u)) with (fun w => 1 * X u w + (fun _ => - Ex P (X u)) w) by (extensionality w; ring).
  rewrite Ex_lin; [|exact Hu|apply L2_const]. rewrite Ex_const. ring.
Qed.

Lemma resid_form v w : resid v w = dev v w - lin (gains v) vn (fun u => dev u w).
Proof. unfold resid, best. rewrite dot_lin. unfold dev. ring. Qed.
Lemma lin_dev_L2 cs : L2 P (fun w => lin cs vn (fun u => dev u w)).
Proof. apply (lin_L2 P dev). intros u Hu. apply dev_L2. apply HX. exact Hu. Qed.
Lemma resid_fun v : resid v = (fun w => dev v w - lin (gains v) vn (fun u => dev u w)).
Proof. extensionality w. apply resid_form. Qed.
Lemma resid_L2 v : L2 P (X v) -> L2 P (resid v).
Proof. intros Hv. rewrite resid_fun. apply L2_sub; [apply dev_L2; exact Hv|apply lin_dev_L2]. Qed.

Lemma resid_mean v : L2 P (X v) -> Ex P (resid v) = 0.
Proof.
  intros Hv. rewrite resid_fun.
  replace (fun w => dev v w - lin (gains v) vn (fun u => dev u w)) with (fun w => -1 * lin (gains v) vn (fun u => dev u w) + dev v w) by (extensionality w; ring).
  rewrite (Ex_lin P (fun w => lin (gains v) vn (fun u => dev u w)) (dev v)); [|apply lin_dev_L2|apply dev_L2; exact Hv].
  rewrite Ex_dev by exact Hv. rewrite (lin_Ex P dev) by (intros u Hu; apply dev_L2; apply HX; exact Hu).
  rewrite lin_off; [ring|]. intros u Hu. apply Ex_dev. apply HX. exact Hu.
Qed.

(** covariance of the residual with anything *)
Lemma resid_cov v h : L2 P (X v) -> L2 P h -> cov P (resid v) h = cov P (X v) h - dotR (gains v) (map (fun s => cov P (X s) h) vn).
Proof.
  intros Hv Hh. rewrite resid_fun.
  rewrite (cov_sub (dev v) (fun w => lin (gains v) vn (fun u => dev u w))); [|apply dev_L2; exact Hv|apply lin_dev_L2|exact Hh].
  rewrite cov_dev by assumption. f_equal. rewrite (lin_cov P dev) by (try exact Hh; intros u Hu; apply dev_L2; apply HX; exact Hu).
  rewrite dot_lin. apply lin_ext. intros u Hu. apply cov_dev; [apply HX; exact Hu|exact Hh].
Qed.

Lemma gains_dot v d : dotR (gains v) d = dotR (map (C v) vn) (map (fun r => dotR r d) G).
Proof. apply dot_comb. apply gen_rows. Qed.

(** the residual is uncorrelated with the evidence *)
Lemma resid_evidence v u : L2 P (X v) -> In u vn -> cov P (resid v) (X u) = 0.
Proof.
  intros Hv Hu. rewrite resid_cov by (try assumption; apply HX; exact Hu). rewrite gains_dot.
  set (b := map (fun r => dotR r (map (fun s => cov P (X s) (X u)) vn)) G).
  set (h := fun w => X u w - lin b vn (fun s => X s w)).
  assert (Hl : L2 P (fun w => lin b vn (fun s => X s w))) by (apply lin_L2; exact HX).
  assert (Hh : L2 P h) by (apply L2_sub; [apply HX; exact Hu|exact Hl]).
  assert (K : forall t, L2 P t -> cov P h t = cov P (X u) t - lin b vn (fun s => cov P (X s) t)).
  { intros t Ht. unfold h. rewrite (cov_sub (X u) (fun w => lin b vn (fun s => X s w))); [|apply HX; exact Hu|exact Hl|exact Ht].
    rewrite lin_cov by (try exact Ht; exact HX). reflexivity. }
  assert (Z : forall t, In t vn -> cov P h (X t) = 0).
  { intros t Ht. rewrite K by (apply HX; exact Ht). rewrite <- (dot_lin b vn), dot_comm.
    pose proof (gen_inverse_entry C vn G t u HG Ht Hu) as HE. fold b in HE.
    replace (map (fun s => cov P (X s) (X t)) vn) with (map (C t) vn) by (apply map_ext; intros s; apply cov_sym).
    unfold C in HE at 3. change (fun r => dotR r (map (fun s => C s u) vn)) with (fun r => dotR r (map (fun s => cov P (X s) (X u)) vn)) in HE. fold b in HE.
    rewrite HE. rewrite (cov_sym P (X u)). ring. }
  assert (D : cov P h h = 0).
  { rewrite K by exact Hh. rewrite (cov_sym P (X u) h), (Z u Hu). rewrite lin_off; [ring|]. intros s Hs. rewrite cov_sym. apply Z. exact Hs. }
  pose proof (cov_degenerate P h (X v) Hh Hv D) as HV. rewrite K in HV by exact Hv. rewrite <- (dot_lin b vn), dot_comm in HV.
  replace (map (C v) vn) with (map (fun s => cov P (X s) (X v)) vn) by (apply map_ext; intros s; apply cov_sym).
  rewrite (cov_sym P (X v) (X u)). exact HV.
Qed.

(** the covariance of residuals is the Schur complement *)
Lemma resid_resid v v' : L2 P (X v) -> L2 P (X v') ->
  cov P (resid v) (resid v') = C v v' - dotR (map (C v) vn) (map (fun r => dotR r (map (fun s => C s v') vn)) G).
Proof.
  intros Hv Hv'. rewrite (cov_sym P (resid v)). rewrite resid_cov by (try exact Hv'; apply resid_L2; exact Hv).
  rewrite (dot_lin (gains v')), lin_off.
  2:{ intros s Hs. rewrite cov_sym. apply resid_evidence; assumption. }
  rewrite cov_sym, resid_cov by assumption. rewrite gains_dot. unfold C. ring.
Qed.
End Regression.

(** ** inference *)
(** iteration order of a set: every element once *)
Definition ord_ok (ord : set_order) : Prop :=
  (forall l, NoDup (ord_list ord l) /\ forall x, In x (ord_list ord l) <-> In x l) /\
  (forall l, NoDup l -> NoDup (ord_copy ord l) /\ forall x, In x (ord_copy ord l) <-> In x l).

Lemma mem_in x l : mem x l = true <-> In x l.
Proof.
  unfold mem. rewrite existsb_exists. split; [intros (y & Hy & E); apply String.eqb_eq in E; subst; exact Hy|].
  intros H. exists x. split; [exact H|apply String.eqb_refl].
Qed.
Lemma set_minus_in ord a b x : ord_ok ord -> In x (set_minus ord a b) <-> In x a /\ ~ In x b.
Proof.
  intros [H H']. unfold set_minus. destruct (Nat.ltb _ _).
  - rewrite filter_In, (proj2 (H' _ (proj1 (H a)))), (proj2 (H a)), <- (mem_in x b), negb_true_iff. destruct (mem x b); intuition discriminate.
  - rewrite (proj2 (H _)), filter_In, (proj2 (H a)), <- (mem_in x b), negb_true_iff. destruct (mem x b); intuition discriminate.
Qed.
Lemma set_minus_nodup ord a b : ord_ok ord -> NoDup (set_minus ord a b).
Proof. intros [H H']. unfold set_minus. destruct (Nat.ltb _ _); [apply NoDup_filter, H', H|apply H]. Qed.

Lemma vsub_map {A} (f g : A -> R) l : vsub R_ops (map f l) (map g l) = map (fun u => f u - g u) l.
Proof. unfold vsub. induction l as [|u l IH]; [reflexivity|]. cbn [map combine]. rewrite IH. reflexivity. Qed.
Lemma vadd_map {A} (f g : A -> R) l : vadd R_ops (map f l) (map g l) = map (fun u => f u + g u) l.
Proof. unfold vadd. induction l as [|u l IH]; [reflexivity|]. cbn [map combine]. rewrite IH. reflexivity. Qed.
Lemma combine_map2 {A B D} (f : A -> B) (g : A -> D) l : combine (map f l) (map g l) = map (fun u => (f u, g u)) l.
Proof. induction l as [|u l IH]; [reflexivity|]. cbn. rewrite IH. reflexivity. Qed.

Lemma map_seq_nth {A B} (l : list A) (f : nat -> B) (g : A -> B) : (forall j u, nth_error l j = Some u -> f j = g u) -> map f (seq 0 (length l)) = map g l.
Proof.
  intros H. apply (list_of_nth g l (map f (seq 0 (length l))) (f 0%nat)); [rewrite map_length, seq_length; reflexivity|].
  intros k v Hk. pose proof (nth_error_lt _ _ _ Hk) as Hl.
  rewrite map_nth, seq_nth by exact Hl. apply (H k v Hk).
Qed.

Definition conditional {O} (P : probability O) (X : string -> O -> R) (vn vars1 : list string) (m : list R -> list R) (S : list (list R)) : Prop :=
  let r i v w := X v w - nth i (m (map (fun u => X u w) vn)) 0 in
  (forall e, length e = length vn -> length (m e) = length vars1) /\
  m (map (fun u => Ex P (X u)) vn) = map (fun v => Ex P (X v)) vars1 /\
  (forall i v, nth_error vars1 i = Some v -> L2 P (r i v) /\ Ex P (r i v) = 0 /\ forall u, In u vn -> cov P (r i v) (X u) = 0) /\
  (forall i j v v', nth_error vars1 i = Some v -> nth_error vars1 j = Some v' -> nth j (nth i S []) 0 = cov P (r i v) (r j v')) /\
  length S = length vars1 /\ Forall (fun row => length row = length vars1) S.

Theorem inference_exact {O} (P : probability O) N X eps tol ord pinv vn G :
  dag N -> solves P N X eps -> no_diamond N -> 0 < tol -> ord_ok ord -> incl vn (n_order N) -> vn <> [] ->
  pinv (tab (fun p q => cov P (X p) (X q)) vn vn) = Ok G -> gen_inverse (length vn) (tab (fun p q => cov P (X p) (X q)) vn vn) G ->
  exists m S, (forall e, length e = length vn -> inference R_ops tol ord pinv N e vn = Ok (m e, S)) /\
    conditional P X vn (set_minus ord (n_order N) vn) m S.
Proof.
  intros HD HS HN Ht Ho Hvn Hne Hp HG. set (vars1 := set_minus ord (n_order N) vn). set (C := fun p q => cov P (X p) (X q)) in *.
  assert (Hin : incl (vars1 ++ vn) (n_order N)).
  { intros x Hx. apply in_app_or in Hx as [Hx|Hx]; [apply (set_minus_in ord _ _ x Ho) in Hx; apply Hx|apply Hvn; exact Hx]. }
  assert (HL : forall v, In v (n_order N) -> L2 P (X v)) by (intros v Hv; apply In_nth_error in Hv as [i Hi]; exact (node_L2 P N X eps HD HS i v Hi)).
  assert (HX : forall u, In u vn -> L2 P (X u)) by (intros u Hu; apply HL; apply Hvn; exact Hu).
  assert (H1 : forall v, In v vars1 -> L2 P (X v)) by (intros v Hv; apply HL; apply Hin; apply in_or_app; left; exact Hv).
  assert (Hnil : (match vars1 ++ vn with [] => n_order N | _ => vars1 ++ vn end) = vars1 ++ vn).
  { destruct (vars1 ++ vn) eqn:E; [apply app_eq_nil in E as [_ E]; contradiction|reflexivity]. }
  set (m := fun e => map (fun v => Ex P (X v) + dotR (map (C v) vn) (map (fun r => dotR r (vsub R_ops e (map (fun u => Ex P (X u)) vn))) G)) vars1).
  set (S := map (fun v => map (fun v' => C v v' - dotR (map (C v) vn) (map (fun r => dotR r (map (fun s => C s v') vn)) G)) vars1) vars1).
  exists m, S. split.
  - intros e He. unfold inference. fold vars1.
    rewrite (get_mu_exact P N X eps _ HD HS Hin), Hnil. cbn [rbind].
    pose proof (get_sigma_tree P N X eps tol _ HD HS HN Ht Hin) as HSig. cbv zeta in HSig. rewrite Hnil in HSig.
    change (map (fun v => map (fun u => cov P (X v) (X u)) (vars1 ++ vn)) (vars1 ++ vn)) with (tab C (vars1 ++ vn) (vars1 ++ vn)) in HSig.
    rewrite HSig. cbn [rbind]. rewrite tab_11, tab_12, tab_21, tab_22. rewrite Hp. cbn [rbind].
    rewrite !map_app, firstn_len, skipn_len by (rewrite map_length; reflexivity).
    unfold deviation. rewrite map_length, He, Nat.eqb_refl. cbn [rbind]. f_equal. f_equal.
    + unfold m, matvec, tab. rewrite map_map. apply vadd_map.
    + unfold msub. rewrite matmul_tab. unfold tab at 1.
      rewrite combine_map2, map_map. unfold S. apply map_ext. intros v. cbn [fst snd].
      rewrite (map_seq_nth vars1 _ (fun v' => dotR (map (C v) vn) (map (fun r => dotR r (map (fun s => C s v') vn)) G))).
      * apply vsub_map.
      * intros j v' Hj. rewrite mcol_matmul by (exact (nth_error_lt _ _ _ Hj)). rewrite (mcol_tab C vn vars1 j v' Hj). reflexivity.
  - assert (R0 : forall i v, nth_error vars1 i = Some v -> (fun w => X v w - nth i (m (map (fun u => X u w) vn)) 0) = resid P X vn G v).
    { intros i v Hi. extensionality w. unfold resid, best. f_equal. unfold m.
      rewrite (nth_error_nth _ _ 0 (x := Ex P (X v) + dotR (map (C v) vn) (map (fun r => dotR r (vsub R_ops (map (fun u => X u w) vn) (map (fun u => Ex P (X u)) vn))) G)));
        [|rewrite nth_error_map, Hi; reflexivity].
      f_equal. rewrite (gains_dot P X vn G HG). rewrite vsub_map. reflexivity. }
    unfold conditional. split; [intros e _; unfold m; apply map_length|]. split.
    { unfold m. apply map_ext. intros v. rewrite vsub_map.
      replace (map (fun u => Ex P (X u) - Ex P (X u)) vn) with (repeat 0 (length vn)).
      2:{ clear. induction vn as [|u l IH]; [reflexivity|]. cbn [map length repeat]. rewrite IH. f_equal. ring. }
      replace (map (fun r => dotR r (repeat 0 (length vn))) G) with (repeat 0 (length G)).
      2:{ clear. induction G as [|r l IH]; [reflexivity|]. cbn [map length repeat]. rewrite IH, dot_comm, dot_repeat0. reflexivity. }
      rewrite dot_comm, dot_repeat0. ring. }
    split.
    { intros i v Hi. assert (Hv : L2 P (X v)) by (apply H1; exact (nth_error_In _ _ Hi)). rewrite (R0 i v Hi).
      split; [apply resid_L2; assumption|]. split; [apply resid_mean; assumption|]. intros u Hu. apply resid_evidence; assumption. }
    split.
    { intros i j v v' Hi Hj. rewrite (R0 i v Hi), (R0 j v' Hj). rewrite resid_resid by (try assumption; apply H1; eapply nth_error_In; eassumption).
      unfold S. set (g := fun v : string => map _ vars1). rewrite (nth_error_nth (map g vars1) i [] (x := g v)) by (rewrite nth_error_map, Hi; reflexivity).
      unfold g. apply nth_error_nth. rewrite nth_error_map, Hj. reflexivity. }
    unfold S. split; [apply map_length|]. apply Forall_forall. intros row Hrow. apply in_map_iff in Hrow as (v & <- & _). apply map_length.
Qed.
