(** Properties of the queries to a Gaussian Bayesian network (GBN.get_mu, get_sigma, inference,
    maximum_a_posteriori). *)
From Coq Require Import String List ZArith Bool Lia Reals Lra.
From Verif Require Import PyBase B64 NdArray Models Gbn GbnSpec GbnInfer GbnSample Stock Nets GbnQuery Demo DemoGbn.
Import ListNotations.
Open Scope nat_scope.

(* ------------------------------ C100 ------------------------------ *)
Theorem C100_means : forall (T : Type) (o : ops T) (N : network T) vars, dag N ->
  match get_mu o N vars with
  | Ok m => incl vars (n_order N) /\ length m = length (match vars with [] => n_order N | _ => vars end)
  | Raise e => e = ValueError /\ exists v, In v vars /\ ~ In v (n_order N)
  end.
Proof. exact @get_mu_answers. Qed.
Print Assumptions C100_means.
Theorem C100_covariances : forall tol (N : network R) vars, dag N -> (0 < tol)%R ->
  match get_sigma R_ops tol N vars with
  | Ok m => incl vars (n_order N) /\ length m = length (match vars with [] => n_order N | _ => vars end) /\ Forall (fun r => length r = length m) m
  | Raise e => e = ValueError /\ exists v, In v vars /\ ~ In v (n_order N)
  end.
Proof. exact get_sigma_answers. Qed.
Print Assumptions C100_covariances.
Theorem C100_inference : forall (T : Type) (o : ops T) tol ord pinv (N : network T) e vn v, dag N -> In v vn -> ~ In v (n_order N) ->
  inference o tol ord pinv N e vn = Raise ValueError.
Proof. exact @inference_unknown. Qed.
Print Assumptions C100_inference.
Example C100_met : dag triangle /\ get_mu R_ops triangle ["d"%string] = Raise ValueError /\ ~ In "d"%string (n_order triangle) /\ (0 < 1 / 100)%R.
Proof. split; [exact triangle_dag|]. split; [reflexivity|]. split; [cbn; intuition discriminate|lra]. Qed.

(* ------------------------------ C101 ------------------------------ *)
(** Missing from the full statement: a single value, which is taken for all measured variables. *)
Theorem C101_values_partial : forall (T : Type) (o : ops T) tol ord pinv (N : network T) e vn r, dag N -> ord_ok ord ->
  length e <> length vn -> length e <> 1 -> inference o tol ord pinv N e vn <> Ok r.
Proof. exact @inference_refuses. Qed.
Print Assumptions C101_values_partial.
Theorem C101_one_value : forall (T : Type) (o : ops T) tol ord pinv (N : network T) x vn, dag N -> ord_ok ord -> vn <> [] ->
  inference o tol ord pinv N [x] vn = inference o tol ord pinv N (repeat x (length vn)) vn.
Proof. exact @inference_one. Qed.
Print Assumptions C101_one_value.
Theorem C101_refuted : exists (N : network f64) ord pinv e vn r, dag N /\ ord_ok ord /\ incl vn (n_order N) /\ length e <> length vn /\
  inference (b64_ops seq_sum) (lit 1 (-20)) ord pinv N e vn = Ok r.
Proof. exact one_value_accepted. Qed.
Print Assumptions C101_refuted.
Example C101_met : dag triangle /\ ord_ok one_bucket /\ length [1%R; 2%R] <> length ["a"%string] /\ ["a"%string] <> [].
Proof. split; [exact triangle_dag|]. split; [apply by_hash_ok|]. split; discriminate. Qed.

(* ------------------------------ C102 ------------------------------ *)
(** Missing from the full statement: a network whose last learning failed after an earlier one had
    succeeded is not refused ([C102_refuted]). *)
Theorem C102_learned_partial : forall (W Net K : Type) (L : @library W Net K) (T : Type) (o : ops T) view tol ord pinv m e vn,
  (reached L m false -> gbn_map o view tol ord pinv m e vn = Raise AssertionError) /\
  (reached L m true -> gbn_map o view tol ord pinv m e vn = rmap fst (inference o tol ord pinv (view (nm_pm m)) e vn)).
Proof. exact @map_answers. Qed.
Print Assumptions C102_learned_partial.
Theorem C102_refuted : exists (L : @library unit nat unit) d (m : netm nat) w e m' w', reached L m true /\ nm_pm m <> l_new L KGBN (nm_vars m) /\
  gbn_learn L d m w = (Raise e, (m', w')) /\ nm_pm m' = l_new L KGBN (nm_vars m) /\
  forall T (o : ops T) view tol ord pinv ev vn,
    gbn_map o view tol ord pinv m' ev vn = rmap fst (inference o tol ord pinv (view (l_new L KGBN (nm_vars m))) ev vn).
Proof. exact map_stale. Qed.
Print Assumptions C102_refuted.
Example C102_met : reached two_rows_lib new_gbn false /\ reached two_rows_lib (fst (snd (gbn_learn two_rows_lib (one_column 2) new_gbn tt))) true.
Proof. split; [apply reached_new|]. apply (reached_learned two_rows_lib new_gbn false (one_column 2) tt _ tt); [apply reached_new|reflexivity]. Qed.
