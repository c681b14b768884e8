(** Properties of the Gaussian Bayesian network model (EDAspy.optimization.custom.GBN) and of the
    white and black lists of the network models. *)
From Coq Require Import String List ZArith Bool Lia Reals Lra.
From Verif Require Import PyBase B64 Models Gbn GbnSpec GbnThms GbnSigma GbnInfer GbnSample GbnExist Demo DemoGbn.
Import ListNotations.
Open Scope R_scope.
Local Open Scope string_scope.

(* ------------------------------ C38 ------------------------------ *)
Theorem C38_means : forall (O : Type) (P : probability O) N X eps vars,
  dag N -> solves P N X eps -> incl vars (n_order N) ->
  get_mu R_ops N vars = Ok (map (fun v => Ex P (X v)) (match vars with [] => n_order N | _ => vars end)).
Proof. exact @get_mu_exact. Qed.
Print Assumptions C38_means.
(** Every network with non-negative variances is solved by some random variables. *)
Theorem C38_solvable : forall N, dag N -> (forall v, In v (n_order N) -> 0 <= d_var (n_cpd N v)) ->
  solves (coin_space (length (n_order N))) N (solution N) (noise N).
Proof. exact solution_solves. Qed.
Print Assumptions C38_solvable.
Example C38_case : dag triangle /\ solves (coin_space 3) triangle (solution triangle) (noise triangle) /\ incl ["c"; "a"] (n_order triangle).
Proof. refine (conj triangle_dag (conj triangle_solved _)). intros x [<-|[<-|[]]]; cbn; tauto. Qed.

(* ------------------------------ C39 ------------------------------ *)
(** Missing from the full statement: networks in which two parents of a node share an ancestor
    (the code drops twice their covariance, see [C39_exactly] and [C39_refuted]). *)
Theorem C39_covariances_partial : forall (O : Type) (P : probability O) N X eps tol vars,
  dag N -> solves P N X eps -> no_diamond N -> 0 < tol -> incl vars (n_order N) ->
  let vs := match vars with [] => n_order N | _ => vars end in
  get_sigma R_ops tol N vars = Ok (map (fun v => map (fun u => cov P (X v) (X u)) vs) vs).
Proof. exact @get_sigma_tree. Qed.
Print Assumptions C39_covariances_partial.
Theorem C39_exactly : forall (O : Type) (P : probability O) N X eps tol, dag N -> solves P N X eps -> 0 < tol ->
  (get_sigma R_ops tol N [] = Ok (map (fun v => map (fun u => cov P (X v) (X u)) (n_order N)) (n_order N)) <->
   forall v, In v (n_order N) -> crossed P N X v = 0).
Proof. exact @get_sigma_iff. Qed.
Print Assumptions C39_exactly.
Theorem C39_refuted : exists N, dag N /\ (exists O (P : probability O) X eps, solves P N X eps) /\
  forall tol, 0 < tol -> forall O (P : probability O) X eps, solves P N X eps ->
    get_sigma R_ops tol N [] <> Ok (map (fun v => map (fun u => cov P (X v) (X u)) (n_order N)) (n_order N)).
Proof. exact triangle_refutes. Qed.
Print Assumptions C39_refuted.
Example C39_case : dag tree /\ solves (coin_space 2) tree (solution tree) (noise tree) /\ no_diamond tree.
Proof. exact (conj tree_dag (conj tree_solved tree_no_diamond)). Qed.

(* ------------------------------ C40 ------------------------------ *)
(** In binary64 the matrix is always symmetric; missing from the full statement: the test that is
    meant to check this fires when an entry is infinite or NaN. *)
Theorem C40_symmetric_partial : forall s tol (N : network f64), dag N -> flt (Z2f 0) tol = true ->
  exists m, all_sigma (b64_ops s) N = Ok m /\ square (length (n_order N)) m /\ symmetric m /\
    (all_finite m -> forall vars, incl vars (n_order N) -> exists m', get_sigma (b64_ops s) tol N vars = Ok m' /\ symmetric m') /\
    (~ all_finite m -> forall vars, get_sigma (b64_ops s) tol N vars = Raise AssertionError).
Proof. exact sigma64. Qed.
Print Assumptions C40_symmetric_partial.
Theorem C40_exact_arithmetic : forall tol (N : network R) vars, dag N -> 0 < tol -> incl vars (n_order N) ->
  exists m, get_sigma R_ops tol N vars = Ok m /\ length m = length (match vars with [] => n_order N | _ => vars end) /\
    forall i j, (i < length m)%nat -> (j < length m)%nat -> nth j (nth i m []) 0 = nth i (nth j m []) 0.
Proof. exact sigma_exact_symmetric. Qed.
Print Assumptions C40_exact_arithmetic.
Theorem C40_refuted : exists N : network f64, dag N /\ get_sigma (b64_ops seq_sum) (dec 1 8) N [] = Raise AssertionError.
Proof. exact huge_asserts. Qed.
Print Assumptions C40_refuted.
Example C40_case : dag roots /\ flt (Z2f 0) (dec 1 8) = true /\ is_ok (get_sigma (b64_ops seq_sum) (dec 1 8) roots []) = true.
Proof. exact roots_case. Qed.

(* ------------------------------ C41 ------------------------------ *)
(** Missing from the full statement: the networks for which get_sigma is wrong (C39). *)
Theorem C41_inference_partial : forall (O : Type) (P : probability O) N X eps tol ord pinv vn G,
  dag N -> solves P N X eps -> no_diamond N -> 0 < tol -> ord_ok ord -> incl vn (n_order N) -> vn <> [] ->
  pinv (tab (fun p q => cov P (X p) (X q)) vn vn) = Ok G -> gen_inverse (length vn) (tab (fun p q => cov P (X p) (X q)) vn vn) G ->
  exists m S, (forall e, length e = length vn -> inference R_ops tol ord pinv N e vn = Ok (m e, S)) /\
    conditional P X vn (set_minus ord (n_order N) vn) m S.
Proof. exact @inference_exact. Qed.
Print Assumptions C41_inference_partial.
Theorem C41_refuted : exists N ord pinv vn, dag N /\ ord_ok ord /\ incl vn (n_order N) /\ vn <> [] /\
  (forall x, x <> 0 -> exists G, pinv [[x]] = Ok G /\ gen_inverse (length vn) [[x]] G) /\ (exists O (P : probability O) X eps, solves P N X eps) /\
  forall tol, 0 < tol -> forall O (P : probability O) X eps, solves P N X eps ->
  ~ exists m S, (forall e, length e = length vn -> inference R_ops tol ord pinv N e vn = Ok (m e, S)) /\
      conditional P X vn (set_minus ord (n_order N) vn) m S.
Proof. exact triangle_refutes_inference. Qed.
Print Assumptions C41_refuted.
Example C41_case : dag tree /\ solves (coin_space 2) tree (solution tree) (noise tree) /\ no_diamond tree /\ ord_ok one_bucket /\
  incl ["b"] (n_order tree) /\ exists G, pinv1 (tab (fun p q => cov (coin_space 2) (solution tree p) (solution tree q)) ["b"] ["b"]) = Ok G /\
    gen_inverse 1 (tab (fun p q => cov (coin_space 2) (solution tree p) (solution tree q)) ["b"] ["b"]) G.
Proof. refine (conj tree_dag (conj tree_solved (conj tree_no_diamond (conj (by_hash_ok _) (conj _ tree_evidence))))). intros x [<-|[]]; cbn; tauto. Qed.

(* ------------------------------ C42 ------------------------------ *)
Theorem C42_fixed : forall (T : Type) (o : ops T) tol ord pinv draw size variables evidences (N : network T) out,
  NoDup (map fst evidences) -> sample_evidence o tol ord pinv draw size variables evidences N = Ok out ->
  length out = length variables /\
  forall j v x, nth_error variables j = Some v -> In (v, x) evidences -> nth_error out j = Some (repeat x size).
Proof. exact @sample_evidence_fixed. Qed.
Print Assumptions C42_fixed.
Example C42_case : NoDup (map fst [("c", Z2f 0)]) /\
  is_ok (sample_evidence (b64_ops seq_sum) (dec 1 8) one_bucket pinv64 draw_mean 1 ["a"; "b"; "c"] [("c", Z2f 0)] roots) = true.
Proof. exact roots_sample. Qed.

(* ------------------------------ C43 ------------------------------ *)
(** Missing from the full statement: hash orders in which sets with the same members are traversed
    differently (colliding names, see [C43_refuted]). *)
Theorem C43_labels_partial : forall (T : Type) (o : ops T) tol ord pinv draw size variables evidences (N : network T) out,
  ord_ok ord -> ord_stable ord -> (forall x, In x variables <-> In x (n_order N)) ->
  sample_evidence o tol ord pinv draw size variables evidences N = Ok out ->
  exists mu S cols, inference o tol ord pinv N (map snd evidences) (map fst evidences) = Ok (mu, S) /\ draw mu S = Ok cols /\
    forall k v j, nth_error (set_minus ord (n_order N) (map fst evidences)) k = Some v -> nth_error variables j = Some v ->
      nth_error out j = nth_error cols k.
Proof. exact @sample_evidence_labels. Qed.
Print Assumptions C43_labels_partial.
Theorem C43_stable_orders : forall h : string -> nat, (forall x y, h x = h y -> x = y) -> ord_ok (by_hash h) /\ ord_stable (by_hash h).
Proof. exact (fun h H => conj (by_hash_ok h) (by_hash_stable h H)). Qed.
Print Assumptions C43_stable_orders.
Theorem C43_refuted : exists ord vars ev N, ord_ok ord /\ (forall x, In x vars <-> In x (n_order N)) /\
  exists out mu S cols k v j,
    sample_evidence (b64_ops seq_sum) (dec 1 8) ord pinv64 draw_mean 1 vars ev N = Ok out /\
    inference (b64_ops seq_sum) (dec 1 8) ord pinv64 N (map snd ev) (map fst ev) = Ok (mu, S) /\ draw_mean mu S = Ok cols /\
    nth_error (set_minus ord (n_order N) (map fst ev)) k = Some v /\ nth_error vars j = Some v /\
    nth_error out j <> nth_error cols k.
Proof. exact (ex_intro _ _ (ex_intro _ _ (ex_intro _ _ (ex_intro _ _ mislabelled)))). Qed.
Print Assumptions C43_refuted.
Example C43_case : exists h : string -> nat, forall x y, h x = h y -> x = y.
Proof. exact injective_hash. Qed.

(* ------------------------------ C44 ------------------------------ *)
Theorem C44_lists : forall hc white black arcs, honours hc -> learn_arcs hc white black = Ok arcs ->
  forall a, (listed white a -> In a arcs) /\ (listed black a -> ~ In a arcs).
Proof. exact learn_arcs_ok. Qed.
Print Assumptions C44_lists.
Example C44_case : honours demo_hc /\ learn_arcs demo_hc (Some [("b", "a")]) (Some [("a", "b")]) = Ok [("b", "a"); ("b", "c")].
Proof. exact (conj demo_hc_honours eq_refl). Qed.
