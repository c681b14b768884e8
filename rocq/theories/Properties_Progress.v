(** C136: on additive cost functions the learned model is on average no dearer than the generation. *)
From Coq Require Import List ZArith Bool Reals.
From Flocq Require Import Core IEEE754.BinarySingleNaN.
From Verif Require Import PyBase B64 NdArray Eda Spec LoopFail RandThms Models ModelThms ModelMore CatThms FloatSum Average Progress ProgressBits ProgressMulti Demo DemoModels DemoProgress.
Import ListNotations.
Local Open Scope R_scope.

(* ------------------------------ C136 ------------------------------ *)
(** UniCategorical: let the costs be sums of one contribution per variable, up to [eps].  The
    expected sum under the probabilities learned from a training set is at most the average cost of
    the generation, up to [eps] and the rounding of the probabilities. *)
Theorem C136_categories : forall (S W : Type) (c : cfg) (h : hooks S W)
  (sort : argsort_ok (h_argsort h))
  (trunc : (0 <= c_trunc_len c)%Z)
  (elite_len : (0 <= c_elite_len c)%Z)
  ftol out (s : st S W) r tr
  (ran : executes c h ftol out s r tr),
  each_event (fun before e => match e with
    | EvSelect train elite => finite_costs (evaluated before) -> train <> [] ->
        exists gv, latest before = Some gv /\
        ((List.length train <= List.length (pairs gv))%nat -> (Z.of_nat (List.length train) <= 2 ^ 53)%Z ->
         forall n w eps B dt t, additive_costs n w eps train -> List.length t = n ->
         (forall j, (j < n)%nat -> discrete (column j (map fst train))) ->
         (forall j x, (j < n)%nat -> In x (column j (map fst train)) -> Rabs (w j x) <= B) ->
         exists t', cat_learn (mkArr dt n (map fst train)) t = (Ok tt, t') /\
           expected n w t' <= average (pairs gv) + eps + INR n * (INR (List.length train) * (bpow radix2 (-53) * B)))
    | _ => True
    end) tr.
Proof. exact (fun S W => @progress_categories S W). Qed.
Print Assumptions C136_categories.

(** A run on strings. *)
Example C136_categories_met : argsort_ok (h_argsort letter_hooks) /\ (0 <= c_trunc_len letter_cfg)%Z /\ (0 <= c_elite_len letter_cfg)%Z /\
  exists r tr, executes letter_cfg letter_hooks ftol_default true letter_start (Ok r) tr /\ finite_costs (evaluated tr) /\
    (2 <= List.length (selections tr))%nat /\
    Forall (fun p => let train := fst p in train <> [] /\ (List.length train <= 4)%nat /\ additive_costs 1 letter_w 0 train /\
      (forall j, (j < 1)%nat -> discrete (column j (map fst train))) /\
      (forall j x, (j < 1)%nat -> In x (column j (map fst train)) -> Rabs (letter_w j x) <= 2)) (selections tr).
Proof. exact letter_runs. Qed.

(** UniGauss: the same for linear contributions and the means learned, whatever order numpy adds
    in. *)
Theorem C136_gauss : forall (S W : Type) (c : cfg) (h : hooks S W)
  (sort : argsort_ok (h_argsort h))
  (trunc : (0 <= c_trunc_len c)%Z)
  (elite_len : (0 <= c_elite_len c)%Z)
  ftol out (s : st S W) r tr
  (ran : executes c h ftol out s r tr),
  each_event (fun before e => match e with
    | EvSelect train elite => finite_costs (evaluated before) -> train <> [] ->
        exists gv, latest before = Some gv /\
        ((List.length train <= List.length (pairs gv))%nat -> (Z.of_nat (List.length train) <= 2 ^ 40)%Z ->
         forall n k k0 eps K B sum lower dt pm pm', additive_costs n (linear k k0) eps train ->
         adds sum -> isfin lower = true -> List.length pm = n ->
         unigauss_learn (b64_ops sum) lower (num_col (mkArr dt n (map fst train))) pm = (Ok tt, pm') ->
         (forall j p, (j < n)%nat -> In p train -> isfin (value (nth j (fst p) (CF fnan))) = true /\ Rabs (B2R (value (nth j (fst p) (CF fnan)))) <= B) ->
         B <= bpow radix2 400 -> (forall j, (j < n)%nat -> Rabs (k j) <= K) ->
         expected_gauss n k k0 pm' <= average (pairs gv) + eps + INR n * (K * (2 * INR (List.length train) * bpow radix2 (-53) * B + bpow radix2 (-1075))))
    | _ => True
    end) tr.
Proof. exact (fun S W => @progress_gauss S W). Qed.
Print Assumptions C136_gauss.

(** A run whose cost is the only variable. *)
Example C136_gauss_met : argsort_ok (h_argsort demo_hooks) /\ (0 <= c_trunc_len demo_cfg)%Z /\ (0 <= c_elite_len demo_cfg)%Z /\
  adds seq_sum /\ isfin fone = true /\ B2R (Z2f 100) <= bpow radix2 400 /\ Rabs (id_k 0) <= 1 /\
  exists r tr, executes demo_cfg demo_hooks ftol_default true demo_start (Ok r) tr /\ finite_costs (evaluated tr) /\
    (2 <= List.length (selections tr))%nat /\
    Forall (fun p => let train := fst p in train <> [] /\ (List.length train <= 4)%nat /\ additive_costs 1 (linear id_k id_k0) 0 train /\
      (exists pm', unigauss_learn (b64_ops seq_sum) fone (num_col (mkArr DFloat 1 (map fst train))) [(Z2f 0, Z2f 0)] = (Ok tt, pm')) /\
      (forall j q, (j < 1)%nat -> In q train -> isfin (value (nth j (fst q) (CF fnan))) = true /\ Rabs (B2R (value (nth j (fst q) (CF fnan)))) <= B2R (Z2f 100))) (selections tr).
Proof. exact number_runs. Qed.

(** UniBin: the same for linear contributions, up to what its bounds move the probabilities. *)
Theorem C136_bits : forall (S W : Type) (c : cfg) (h : hooks S W)
  (sort : argsort_ok (h_argsort h))
  (trunc : (0 <= c_trunc_len c)%Z)
  (elite_len : (0 <= c_elite_len c)%Z)
  ftol out (s : st S W) r tr
  (ran : executes c h ftol out s r tr),
  each_event (fun before e => match e with
    | EvSelect train elite => finite_costs (evaluated before) -> train <> [] ->
        exists gv, latest before = Some gv /\
        ((List.length train <= List.length (pairs gv))%nat -> (Z.of_nat (List.length train) <= 2 ^ 53)%Z ->
         forall n k k0 eps K upper lower dt m, additive_costs n (linear k k0) eps train ->
         unibin_made n upper lower m -> prob lower -> prob upper -> Forall (bit_row n) (map fst train) ->
         (forall j, (j < n)%nat -> Rabs (k j) <= K) ->
         exists m', unibin_learn (mkArr dt n (map fst train)) m = (Ok tt, m') /\
           expected_bits n k k0 (ub_pm m') <= average (pairs gv) + eps + INR n * (K * (bpow radix2 (-53) + gap lower upper)))
    | _ => True
    end) tr.
Proof. exact (fun S W => @progress_bits S W). Qed.
Print Assumptions C136_bits.

(** A run whose cost is the only bit, with the bounds 1/4 and 3/4. *)
Example C136_bits_met : argsort_ok (h_argsort demo_hooks) /\ (0 <= c_trunc_len bit_cfg)%Z /\ (0 <= c_elite_len bit_cfg)%Z /\
  unibin_made 1 three_quarters quarter bit_model /\ prob quarter /\ prob three_quarters /\ Rabs (id_k 0) <= 1 /\
  exists r tr, executes bit_cfg demo_hooks ftol_default true bit_start (Ok r) tr /\ finite_costs (evaluated tr) /\
    (2 <= List.length (selections tr))%nat /\
    Forall (fun p => let train := fst p in train <> [] /\ (List.length train <= 4)%nat /\ additive_costs 1 (linear id_k id_k0) 0 train /\
      Forall (bit_row 1) (map fst train)) (selections tr).
Proof. exact bit_runs. Qed.

(** MultiGauss: as UniGauss. *)
Theorem C136_multi : forall (S W : Type) (c : cfg) (h : hooks S W)
  (sort : argsort_ok (h_argsort h))
  (trunc : (0 <= c_trunc_len c)%Z)
  (elite_len : (0 <= c_elite_len c)%Z)
  ftol out (s : st S W) r tr
  (ran : executes c h ftol out s r tr),
  each_event (fun before e => match e with
    | EvSelect train elite => finite_costs (evaluated before) -> train <> [] ->
        exists gv, latest before = Some gv /\
        ((List.length train <= List.length (pairs gv))%nat -> (Z.of_nat (List.length train) <= 2 ^ 40)%Z ->
         forall n k k0 eps K B sum lower upper dt (p p' : @mgauss f64), additive_costs n (linear k k0) eps train ->
         adds sum -> List.length (mg_means p) = n ->
         multigauss_learn (b64_ops sum) lower upper n (num_col (mkArr dt n (map fst train))) p = (Ok tt, p') ->
         (forall j q, (j < n)%nat -> In q train -> isfin (value (nth j (fst q) (CF fnan))) = true /\ Rabs (B2R (value (nth j (fst q) (CF fnan)))) <= B) ->
         B <= bpow radix2 400 -> (forall j, (j < n)%nat -> Rabs (k j) <= K) ->
         expected_multi n k k0 p' <= average (pairs gv) + eps + INR n * (K * (2 * INR (List.length train) * bpow radix2 (-53) * B + bpow radix2 (-1075))))
    | _ => True
    end) tr.
Proof. exact (fun S W => @progress_multi S W). Qed.
Print Assumptions C136_multi.

(** A run on two variables, of which the first is the cost. *)
Example C136_multi_met : argsort_ok (h_argsort demo_hooks) /\ (0 <= c_trunc_len demo_cfg)%Z /\ (0 <= c_elite_len demo_cfg)%Z /\
  adds seq_sum /\ B2R (Z2f 100) <= bpow radix2 400 /\ (forall j, (j < 2)%nat -> Rabs (first_k j) <= 1) /\ List.length (mg_means multi_model) = 2%nat /\
  exists r tr, executes demo_cfg demo_hooks ftol_default true pair_start (Ok r) tr /\ finite_costs (evaluated tr) /\
    (2 <= List.length (selections tr))%nat /\
    Forall (fun p => let train := fst p in train <> [] /\ (List.length train <= 4)%nat /\ additive_costs 2 (linear first_k id_k0) 0 train /\
      (exists p', multigauss_learn (b64_ops seq_sum) fone (Z2f 8) 2 (num_col (mkArr DFloat 2 (map fst train))) multi_model = (Ok tt, p')) /\
      (forall j q, (j < 2)%nat -> In q train -> isfin (value (nth j (fst q) (CF fnan))) = true /\ Rabs (B2R (value (nth j (fst q) (CF fnan)))) <= B2R (Z2f 100))) (selections tr).
Proof. exact pair_runs. Qed.
