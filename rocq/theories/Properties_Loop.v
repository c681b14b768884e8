(** Properties of EDA.minimize for every configuration, cost function, probabilistic model,
    initialiser, random stream and sort.  Each theorem is followed by a concrete run that
    meets its hypotheses; [_refuted] theorems exhibit runs that violate the property as a
    user would expect it, [_partial] ones prove the strongest restriction found to hold. *)
From Coq Require Import String List ZArith Bool Lia Sorting.Permutation Sorting.Sorted.
From Verif Require Import PyBase B64 NdArray Eda EdaInv Spec LoopThms Select LoopMore LoopRel LoopAny LoopPar LoopTrain LoopFinal Demo.
Import ListNotations.
Open Scope nat_scope.

(* ------------------------------ C01 ------------------------------ *)
Theorem C01_history : forall (S W : Type) (c : cfg) (h : hooks S W) ftol out s r tr,
  completes c h ftol out s r tr ->
  Forall2 (fun m gv => is_min m (snd gv)) (r_history r) (gens tr).
Proof. exact (fun S W => @history_lemma S W). Qed.
Print Assumptions C01_history.

Example C01_met : exists r tr, completes demo_cfg demo_hooks ftol_default true demo_start r tr /\
  Nat.eqb (List.length (r_history r)) 5 = true.
Proof. apply (run_check_completes demo_cfg demo_hooks _ _ demo_start (fun r _ => Nat.eqb (List.length (r_history r)) 5)); vm_compute; reflexivity. Qed.

(* ------------------------------ C02 ------------------------------ *)
(** best_ind is a solution only when some later generation was accepted as an improvement;
    otherwise it is the position of the best solution in the first generation. *)
Theorem C02_best_ind_partial : forall (S W : Type) (c : cfg) (h : hooks S W) ftol out s r tr,
  completes c h ftol out s r tr ->
  match r_best_ind r with
  | BRow x =>
      (exists v, In (x, v) (evaluated tr) /\ feq v (r_best_cost r) = true) /\
      In true (improvements ftol (r_history r))
  | BIdx i =>
      (exists x v, nth_error (flat_map pairs (firstn 1 (gens tr))) i = Some (x, v) /\
                   feq v (r_best_cost r) = true) /\
      ~ In true (improvements ftol (r_history r))
  end.
Proof. exact (fun S W => @best_ind_lemma S W). Qed.
Print Assumptions C02_best_ind_partial.

Example C02_met : exists r tr, completes demo_cfg demo_hooks ftol_default true demo_start r tr /\
  match r_best_ind r with BRow _ => true | BIdx _ => false end = true.
Proof. apply (run_check_completes demo_cfg demo_hooks _ _ demo_start (fun r _ => match r_best_ind r with BRow _ => true | _ => false end)); vm_compute; reflexivity. Qed.

Theorem C02_best_ind_refuted : exists r tr,
  completes (conf 4 1 1 false None None) demo_hooks ftol_default true demo_start r tr /\
  r_best_ind r = BIdx 1.
Proof.
  destruct (run_check_completes (conf 4 1 1 false None None) demo_hooks ftol_default true demo_start
     (fun r _ => match r_best_ind r with BIdx i => Nat.eqb i 1 | _ => false end)) as (r & tr & H & Hb);
    [reflexivity|vm_compute; reflexivity|].
  exists r, tr. split; [exact H|]. destruct (r_best_ind r); [|discriminate]. apply Nat.eqb_eq in Hb. congruence.
Qed.
Print Assumptions C02_best_ind_refuted.

(* ------------------------------ C03 ------------------------------ *)
Theorem C03_minimum_partial : forall (S W : Type) (c : cfg) (h : hooks S W) ftol out s r tr,
  completes c h ftol out s r tr ->
  feq ftol (Z2f 0) = true ->
  is_min (r_best_cost r) (r_history r) /\
  (forall x v, In (x, v) (evaluated tr) -> flt v (r_best_cost r) = false).
Proof. exact (fun S W => @min_best_lemma S W). Qed.
Print Assumptions C03_minimum_partial.

Example C03_met : feq (Z2f 0) (Z2f 0) = true /\ exists r tr, completes demo_cfg demo_hooks (Z2f 0) true demo_start r tr /\
  feq (r_best_cost r) (Z2f 2) = true.
Proof. split; [reflexivity|]. apply (run_check_completes demo_cfg demo_hooks _ _ demo_start (fun r _ => feq (r_best_cost r) (Z2f 2))); vm_compute; reflexivity. Qed.

(** With the default ftol a cost of 1.000000005 replaces a best cost of 1. *)
Theorem C03_minimum_refuted : exists s r tr v,
  completes demo_cfg demo_hooks ftol_default true s r tr /\
  In v (r_history r) /\ flt v (r_best_cost r) = true.
Proof.
  destruct (run_check_completes demo_cfg demo_hooks ftol_default true
     (start tt [col [Z2f 1; Z2f 2; Z2f 2]; col [dec 1000000005 9; Z2f 2; Z2f 2]; col (ints [5; 5; 5]%Z); col (ints [5; 5; 5]%Z)])
     (fun r _ => existsb (fun v => flt v (r_best_cost r)) (r_history r))) as (r & tr & H & Hb);
    [reflexivity|vm_compute; reflexivity|].
  apply existsb_In in Hb as (v & Hv & Hlt).
  exists (start tt [col [Z2f 1; Z2f 2; Z2f 2]; col [dec 1000000005 9; Z2f 2; Z2f 2]; col (ints [5; 5; 5]%Z); col (ints [5; 5; 5]%Z)]), r, tr, v.
  split; [exact H|]. split; assumption.
Qed.
Print Assumptions C03_minimum_refuted.

(* ------------------------------ C04 ------------------------------ *)
Theorem C04_nonpositive : forall (S W : Type) (c : cfg) (h : hooks S W) ftol out s r tr,
  completes c h ftol out s r tr -> tol_ok ftol ->
  Forall (fun v => fle v (Z2f 0) = true) (r_history r) ->
  (forall v, In v (r_history r) -> fle (fmul (r_best_cost r) (fadd fone ftol)) v = true) /\
  (forall x v, In (x, v) (evaluated tr) -> isnan v = false ->
               fle (fmul (r_best_cost r) (fadd fone ftol)) v = true).
Proof. exact (fun S W => @nonpos_lemma S W). Qed.
Print Assumptions C04_nonpositive.

(** The best cost displayed after each iteration never increases. *)
Theorem C04_never_increases : forall (S W : Type) (c : cfg) (h : hooks S W) ftol s r tr,
  completes c h ftol true s r tr -> tol_ok ftol ->
  Forall (fun v => fle v (Z2f 0) = true) (r_history r) ->
  StronglySorted (fun a b => fle (snd b) (snd a) = true) (progress tr).
Proof. exact (fun S W => @progress_nonpos S W). Qed.
Print Assumptions C04_never_increases.

Example C04_met : tol_ok ftol_default /\ exists r tr,
  completes demo_cfg demo_hooks ftol_default true demo_neg_start r tr /\
  forallb (fun v => fle v (Z2f 0)) (r_history r) && Nat.eqb (List.length (r_history r)) 4 = true.
Proof.
  split; [split; vm_compute; reflexivity|].
  apply (run_check_completes demo_cfg demo_hooks _ _ demo_neg_start (fun r _ => forallb (fun v => fle v (Z2f 0)) (r_history r) && Nat.eqb (List.length (r_history r)) 4)); vm_compute; reflexivity.
Qed.

(* ------------------------------ C05 ------------------------------ *)
Theorem C05_drift_bound : forall (S W : Type) (c : cfg) (h : hooks S W) ftol out s r tr,
  completes c h ftol out s r tr -> tol_ok ftol ->
  Forall (fun v => fle (Z2f 0) v = true) (r_history r) ->
  forall k v, nth_error (r_history r) k = Some v ->
  fle (r_best_cost r) (inflated ftol (List.length (r_history r) - 1 - k) v) = true.
Proof. exact (fun S W => @nonneg_lemma S W). Qed.
Print Assumptions C05_drift_bound.

Example C05_met : tol_ok ftol_default /\ exists r tr,
  completes demo_cfg demo_hooks ftol_default true demo_start r tr /\
  forallb (fun v => fle (Z2f 0) v) (r_history r) && Nat.eqb (List.length (r_history r)) 5 = true.
Proof.
  split; [split; vm_compute; reflexivity|].
  apply (run_check_completes demo_cfg demo_hooks _ _ demo_start (fun r _ => forallb (fun v => fle (Z2f 0) v) (r_history r) && Nat.eqb (List.length (r_history r)) 5)); vm_compute; reflexivity.
Qed.

(* ------------------------------ C06 ------------------------------ *)
Theorem C06_budget : forall (S W : Type) (c : cfg) (h : hooks S W) ftol out s r tr,
  completes c h ftol out s r tr ->
  List.length (r_history r) = List.length (gens tr) /\
  List.length (gens tr) = 1 + List.length (learns tr) /\
  List.length (gens tr) = 1 + List.length (selections tr) /\
  1 <= List.length (gens tr) <= 1 + Z.to_nat (c_max_iter c - 1).
Proof. exact (fun S W => @counts_lemma S W). Qed.
Print Assumptions C06_budget.

Example C06_met : exists r tr, completes (conf 4 0 0 false None None) demo_hooks ftol_default true demo_start r tr /\
  Nat.eqb (List.length (gens tr)) 1 = true.
Proof. apply (run_check_completes (conf 4 0 0 false None None) demo_hooks _ _ demo_start (fun _ tr => Nat.eqb (List.length (gens tr)) 1)); vm_compute; reflexivity. Qed.

(* ------------------------------ C07 ------------------------------ *)
Theorem C07_early_stop : forall (S W : Type) (c : cfg) (h : hooks S W) ftol out s r tr,
  completes c h ftol out s r tr ->
  (List.length (r_history r) = 1 + Z.to_nat (c_max_iter c - 1) \/
   (1 <= c_dead_iter c)%Z /\
   Z.of_nat (trailing_false (improvements ftol (r_history r))) = c_dead_iter c) /\
  (forall l b l', improvements ftol (r_history r) = l ++ b :: l' ->
     (1 <= c_dead_iter c)%Z -> (Z.of_nat (trailing_false l) < c_dead_iter c)%Z).
Proof. exact (fun S W => @stop_lemma S W). Qed.
Print Assumptions C07_early_stop.

Example C07_met : exists r tr, completes demo_cfg demo_hooks (Z2f 0) true demo_start r tr /\
  Nat.eqb (trailing_false (improvements (Z2f 0) (r_history r))) 2 && Nat.ltb (List.length (r_history r)) 10 = true.
Proof. apply (run_check_completes demo_cfg demo_hooks _ _ demo_start (fun r _ => Nat.eqb (trailing_false (improvements (Z2f 0) (r_history r))) 2 && Nat.ltb (List.length (r_history r)) 10)); vm_compute; reflexivity. Qed.

(* ------------------------------ C08 ------------------------------ *)
(** True when ftol is zero or the costs are non-positive. *)
Theorem C08_stagnation_partial : forall (S W : Type) (c : cfg) (h : hooks S W) ftol out s r tr l1 l2 m,
  completes c h ftol out s r tr -> tol_ok ftol ->
  feq ftol (Z2f 0) = true \/ Forall (fun v => fle v (Z2f 0) = true) (r_history r) ->
  (1 <= c_dead_iter c)%Z ->
  r_history r = l1 ++ l2 -> In m l1 -> Forall (fun v => fle m v = true) l2 ->
  (Z.of_nat (List.length l2) <= c_dead_iter c)%Z.
Proof. exact (fun S W => @stagnation_lemma S W). Qed.
Print Assumptions C08_stagnation_partial.

Example C08_met : tol_ok (Z2f 0) /\ feq (Z2f 0) (Z2f 0) = true /\ (1 <= c_dead_iter demo_cfg)%Z /\
  exists r tr, completes demo_cfg demo_hooks (Z2f 0) true demo_start r tr /\
  forallb (fun v => fle (Z2f 2) v) (skipn 2 (r_history r)) && Nat.eqb (List.length (r_history r)) 4 = true.
Proof.
  split; [split; vm_compute; reflexivity|]. split; [reflexivity|]. split; [vm_compute; discriminate|].
  apply (run_check_completes demo_cfg demo_hooks _ _ demo_start (fun r _ => forallb (fun v => fle (Z2f 2) v) (skipn 2 (r_history r)) && Nat.eqb (List.length (r_history r)) 4)); vm_compute; reflexivity.
Qed.

(** A plateau at a positive value is never recognised: every iteration counts as an
    improvement, whatever dead_iter is. *)
Theorem C08_positive_plateau : forall (S W : Type) (c : cfg) (h : hooks S W) ftol out s r tr v,
  completes c h ftol out s r tr ->
  flt v (fmul v (fadd fone ftol)) = true ->
  Forall (fun u => u = v) (r_history r) ->
  List.length (r_history r) = 1 + Z.to_nat (c_max_iter c - 1).
Proof. exact (fun S W => @plateau_lemma S W). Qed.
Print Assumptions C08_positive_plateau.

Example C08_plateau_met : flt (Z2f 1) (fmul (Z2f 1) (fadd fone ftol_default)) = true.
Proof. vm_compute. reflexivity. Qed.

Theorem C08_stagnation_refuted : exists c s r tr,
  completes c demo_hooks ftol_default true s r tr /\ c_dead_iter c = 1%Z /\
  Forall (fun u => feq u fone = true) (r_history r) /\ List.length (r_history r) = 6.
Proof.
  destruct (run_check_completes (conf 4 6 1 false None None) demo_hooks ftol_default true
     (start tt (repeat (col (ints [1; 2; 3; 4]%Z)) 6))
     (fun r _ => forallb (fun u => feq u fone) (r_history r) && Nat.eqb (List.length (r_history r)) 6)) as (r & tr & H & Hb);
    [reflexivity|vm_compute; reflexivity|].
  exists (conf 4 6 1 false None None), (start tt (repeat (col (ints [1; 2; 3; 4]%Z)) 6)), r, tr.
  apply andb_true_iff in Hb as [H1 H2].
  split; [exact H|]. split; [vm_compute; reflexivity|]. split; [apply forallb_Forall, H1|apply Nat.eqb_eq, H2].
Qed.
Print Assumptions C08_stagnation_refuted.

(* ------------------------------ C09 ------------------------------ *)
Theorem C09_nfev_partial : forall (S W : Type) (c : cfg) (h : hooks S W) ftol out s r tr,
  completes c h ftol out s r tr ->
  match c_init_data c with
  | Some d => Z.of_nat (a_len d) = c_size_gen c
  | None => forall w g w', h_init h w = (Ok g, w') -> Z.of_nat (a_len g) = c_size_gen c
  end ->
  (forall p w g w', h_sample h p w = (Ok g, w') -> Z.of_nat (a_len g) = c_size_gen c) ->
  r_nfev r = Z.of_nat (List.length (calls tr)).
Proof. exact (fun S W => @nfev_exact S W). Qed.
Print Assumptions C09_nfev_partial.

(** In general the count is off by the size difference of the initial data. *)
Theorem C09_nfev_error : forall (S W : Type) (c : cfg) (h : hooks S W) ftol out s r tr n0,
  completes c h ftol out s r tr ->
  match c_init_data c with
  | Some d => a_len d = n0
  | None => forall w g w', h_init h w = (Ok g, w') -> a_len g = n0
  end ->
  (forall p w g w', h_sample h p w = (Ok g, w') -> Z.of_nat (a_len g) = c_size_gen c) ->
  Z.of_nat (List.length (calls tr)) = (r_nfev r + (Z.of_nat n0 - c_size_gen c))%Z.
Proof. exact (fun S W => @nfev_lemma S W). Qed.
Print Assumptions C09_nfev_error.

Theorem C09_nfev_refuted : exists c s r tr,
  completes c demo_hooks ftol_default true s r tr /\
  r_nfev r <> Z.of_nat (List.length (calls tr)).
Proof.
  destruct (run_check_completes (conf 4 3 1 false (Some (col (ints [9; 8]%Z))) None) demo_hooks ftol_default true demo_start
     (fun r tr => negb (Z.eqb (r_nfev r) (Z.of_nat (List.length (calls tr)))))) as (r & tr & H & Hb);
    [reflexivity|vm_compute; reflexivity|].
  exists (conf 4 3 1 false (Some (col (ints [9; 8]%Z))) None), demo_start, r, tr. split; [exact H|].
  intros E. rewrite E, Z.eqb_refl in Hb. discriminate.
Qed.
Print Assumptions C09_nfev_refuted.

(* ------------------------- C10, C11, C12 ------------------------- *)
(** At every selection event, given the events before it. *)
Theorem C10_selection : forall (S W : Type) (c : cfg) (h : hooks S W),
  argsort_ok (h_argsort h) -> (0 <= c_trunc_len c)%Z -> (0 <= c_elite_len c)%Z ->
  forall ftol out d s r tr, completes c h ftol out s r tr -> one_dtype d tr ->
  each_event (fun before e => match e with
    | EvSelect train elite =>
        (exists gv, latest before = Some gv /\
           cheapest (Z.to_nat (c_trunc_len c)) (pairs gv ++ elite_before before) train /\
           cheapest (Z.to_nat (c_elite_len c)) (pairs gv ++ elite_before before) elite) /\
        (* C11 *)
        cheapest (Z.to_nat (c_elite_len c)) (evaluated before ++ firstn 1 (evaluated before)) elite /\
        Forall (fun p => In p (evaluated before)) elite /\
        Forall (fun p => In p (evaluated before)) train /\
        (* C12 *)
        (1 <= Z.to_nat (c_trunc_len c) -> 1 <= Z.to_nat (c_elite_len c) ->
         exists x train' y elite', train = x :: train' /\ elite = y :: elite' /\
           In x (evaluated before) /\ In y (evaluated before) /\
           forall z, In z (evaluated before) -> cheaper x z /\ cheaper y z)
    | _ => True
    end) tr.
Proof. exact (fun S W => @selection_lemma S W). Qed.
Print Assumptions C10_selection.

Example C10_met : argsort_ok (h_argsort demo_hooks) /\ (0 <= c_trunc_len demo_cfg)%Z /\ (0 <= c_elite_len demo_cfg)%Z /\
  exists r tr, completes demo_cfg demo_hooks ftol_default true demo_start r tr /\ one_dtype DFloat tr /\
               List.length (selections tr) = 4.
Proof.
  split; [exact argsort_ref_ok|]. split; [vm_compute; discriminate|]. split; [vm_compute; discriminate|].
  destruct (run_check_completes demo_cfg demo_hooks ftol_default true demo_start
     (fun _ tr => one_dtypeb DFloat tr && Nat.eqb (List.length (selections tr)) 4)) as (r & tr & H & Hb);
    [reflexivity|vm_compute; reflexivity|].
  apply andb_true_iff in Hb as [H1 H2].
  exists r, tr. split; [exact H|]. split; [apply one_dtypeb_ok, H1|apply Nat.eqb_eq, H2].
Qed.

(** What the model is trained on: right after each selection, the selected individuals with
    the noise of the run added ([w_noise] 0 or -1: unchanged). *)
Theorem C10_training : forall (S W : Type) (c : cfg) (h : hooks S W) ftol out s r tr,
  (forall g e p, h_data h g e p = (Ok g, p)) ->
  completes c h ftol out s r tr ->
  exists wn, noise_cfg c wn /\
    each_event (fun before e => match e with
      | EvLearn d => exists before' train elite,
          before = before' ++ [EvSelect train elite] /\
          moved (noise_delta wn) (map fst train) (a_rows d)
      | _ => True
      end) tr.
Proof. exact (fun S W => @training_lemma S W). Qed.
Print Assumptions C10_training.

Example C10_training_met : (forall g e p, h_data demo_hooks g e p = (Ok g, p)) /\
  exists r tr, completes demo_noise_cfg demo_hooks ftol_default true demo_start r tr /\ Nat.eqb (List.length (learns tr)) 4 = true.
Proof. split; [reflexivity|]. apply (run_check_completes demo_noise_cfg demo_hooks _ _ demo_start (fun _ tr => Nat.eqb (List.length (learns tr)) 4)); vm_compute; reflexivity. Qed.

(* ------------------------------ C13 ------------------------------ *)
(** Whatever attributes and model the optimiser starts with. *)
Theorem C13_prior_state : forall (S W : Type) (c : cfg) (h : hooks S W) ftol out (s s' : st S W),
  trains_on_selection h -> forgetful h (s_pm s) (s_pm s') -> s_w s = s_w s' -> s_tr s = [] -> s_tr s' = [] ->
  let (r, t) := minimize c h ftol out s in
  let (r', t') := minimize c h ftol out s' in
  r = r' /\ s_w t = s_w t' /\ s_tr t = s_tr t' /\ (is_ok r = true -> s_obj t = s_obj t').
Proof. exact (fun S W => @prior_state_explicit S W). Qed.
Print Assumptions C13_prior_state.

Example C13_met : trains_on_selection demo_hooks /\ (forall p p', forgetful demo_hooks p p') /\
  s_w demo_start = s_w (mkSt (mkObj (col (ints [1]%Z)) [fnan] (col []) [] fone (BIdx 7)) tt (s_w demo_start) []).
Proof.
  split; [intros g e p; reflexivity|]. split; [|reflexivity]. intros [] [] d w. cbn. split; reflexivity.
Qed.

(* ------------------------------ C15 ------------------------------ *)
(** For a cost function without side effects that returns floats only (or ints only), when
    no generation is smaller than the number of cores: the whole run is the same, whatever
    the number of cores and the assignment of chunks to workers. *)
Theorem C15_parallel_partial : forall (S W : Type) (c : cfg) (h : hooks S W) (f : row -> num),
  (forall r w, h_cost h r w = (Ok (f r), w)) ->
  (forall r, exists x, f r = NF x) \/ (forall r, exists z, f r = NI z) ->
  generations_at_least (cpu_count (h_pool h)) c h ->
  forall ftol out (s : st S W),
  minimize (set_parallelize true c) h ftol out s = minimize (set_parallelize false c) h ftol out s.
Proof. exact (fun S W c h f H1 H2 H3 => @parallel_run_lemma S W c h f H1 H2 H3 true false). Qed.
Print Assumptions C15_parallel_partial.

Definition constant_size (n : nat) : hooks unit (list arr) := {|
  h_argsort := argsort_ref;
  h_cost := fun r w => (Ok (NF (match r with CF x :: _ => x | _ => fnan end)), w);
  h_pool := mkPool 2 (fun i => i) (fun _ => 0);
  h_normal := fun _ w => (fun _ _ => fone, w);
  h_init := fun w => (Ok (col (repeat fone n)), w);
  h_data := fun g _ p => (Ok g, p);
  h_learn := fun _ p w => (Ok tt, (p, w));
  h_sample := fun _ w => (Ok (col (repeat fone n)), w);
  h_settings := []
|}.
Example C15_met :
  (forall r w, h_cost (constant_size 4) r w = (Ok (NF (match r with CF x :: _ => x | _ => fnan end)), w)) /\
  generations_at_least (cpu_count (h_pool (constant_size 4))) demo_cfg (constant_size 4).
Proof.
  split; [reflexivity|]. split; cbn.
  - intros w g w' H. injection H as <- _. cbn. repeat constructor.
  - intros p w g w' H. injection H as <- _. cbn. repeat constructor.
Qed.

(** Two individuals on three cores: parallel evaluation raises, serial does not. *)
Theorem C15_parallel_refuted : exists (h : hooks unit (list arr)) c s r tr,
  completes (set_parallelize false c) h ftol_default true s r tr /\
  raises (set_parallelize true c) h ftol_default true s ValueError.
Proof.
  exists (scripted first_cell 3), (conf 2 2 1 false None None), (start tt [col (ints [5; 3]%Z); col (ints [2; 6]%Z)]).
  destruct (run_check_completes (set_parallelize false (conf 2 2 1 false None None)) (scripted first_cell 3) ftol_default true
     (start tt [col (ints [5; 3]%Z); col (ints [2; 6]%Z)]) (fun _ _ => true)) as (r & tr & H & _);
    [reflexivity|vm_compute; reflexivity|].
  exists r, tr. split; [exact H|]. apply run_raises_ok. vm_compute. reflexivity.
Qed.
Print Assumptions C15_parallel_refuted.

(** A cost function returning an int for the first individual and floats for the others:
    the recorded costs depend on how the population is split. *)
Theorem C15_parallel_values_refuted : exists (h : hooks unit (list arr)) c s r tr r' tr',
  completes (set_parallelize false c) h ftol_default true s r tr /\
  completes (set_parallelize true c) h ftol_default true s r' tr' /\
  feq (r_best_cost r) (r_best_cost r') = false.
Proof.
  set (f := fun r : row => match r with CF x :: _ => if feq x fone then NI 1 else NF x | _ => NF fnan end).
  set (s := start tt [col [fone; lit 3 (-1); lit 1 (-1); lit 5 (-1)]]).
  exists (scripted f 4), (conf 4 1 1 false None None), s.
  destruct (run_check_completes (set_parallelize false (conf 4 1 1 false None None)) (scripted f 4) ftol_default true s
     (fun r _ => feq (r_best_cost r) (Z2f 0))) as (r & tr & H & Hb);
    [reflexivity|vm_compute; reflexivity|].
  destruct (run_check_completes (set_parallelize true (conf 4 1 1 false None None)) (scripted f 4) ftol_default true s
     (fun r _ => feq (r_best_cost r) (lit 1 (-1)))) as (r' & tr' & H' & Hb');
    [reflexivity|vm_compute; reflexivity|].
  exists r, tr, r', tr'. split; [exact H|]. split; [exact H'|].
  destruct (feq (r_best_cost r) (r_best_cost r')) eqn:E; [|reflexivity]. exfalso.
  rewrite (feq_sym (r_best_cost r) (Z2f 0)) in Hb.
  pose proof (feq_trans _ _ _ Hb (feq_trans _ _ _ E Hb')) as Hc. vm_compute in Hc. discriminate.
Qed.
Print Assumptions C15_parallel_values_refuted.

(* ------------------------------ C16 ------------------------------ *)
Theorem C16_recorded_floats_partial : forall (S W : Type) (c : cfg) (h : hooks S W) ftol out s r tr,
  completes c h ftol out s r tr -> all_float_returns tr ->
  calls tr = map (fun p => (fst p, NF (snd p))) (evaluated tr).
Proof. exact (fun S W => @evaluated_called S W). Qed.
Print Assumptions C16_recorded_floats_partial.

Theorem C16_recorded_ints_partial : forall (S W : Type) (c : cfg) (h : hooks S W) ftol out s r tr,
  completes c h ftol out s r tr ->
  Forall (fun rv => exists z, snd rv = NI z) (calls tr) ->
  Forall2 (fun cl p => fst cl = fst p /\ exists z, snd cl = NI z /\ snd p = Z2f z) (calls tr) (evaluated tr).
Proof. exact (fun S W => @evaluated_called_int S W). Qed.
Print Assumptions C16_recorded_ints_partial.

Example C16_met : exists r tr, completes demo_cfg demo_hooks ftol_default true demo_start r tr /\ all_float_returns tr.
Proof.
  destruct (run_check_completes demo_cfg demo_hooks ftol_default true demo_start (fun _ tr => all_floatsb tr)) as (r & tr & H & Hb);
    [reflexivity|vm_compute; reflexivity|].
  exists r, tr. split; [exact H|apply all_floatsb_ok, Hb].
Qed.

Theorem C16_order : forall (S W : Type) (c : cfg) (h : hooks S W) ftol out s r tr,
  completes c h ftol out s r tr -> map fst (calls tr) = map fst (evaluated tr).
Proof. exact (fun S W => @calls_order S W). Qed.
Print Assumptions C16_order.

(** An int first, then 0.5: the 0.5 is recorded as 0. *)
Theorem C16_recorded_refuted : exists (h : hooks unit (list arr)) c s r tr x u x' v,
  completes c h ftol_default true s r tr /\
  nth_error (calls tr) 1 = Some (x, NF u) /\ nth_error (evaluated tr) 1 = Some (x', v) /\
  feq u (lit 1 (-1)) = true /\ feq v (Z2f 0) = true.
Proof.
  set (f := fun r : row => match r with CF x :: _ => if feq x fone then NI 1 else NF x | _ => NF fnan end).
  set (s := start tt [col [fone; lit 1 (-1)]]).
  exists (scripted f 1), (conf 2 1 1 false None None), s.
  destruct (run_check_completes (conf 2 1 1 false None None) (scripted f 1) ftol_default true s
    (fun _ tr => match nth_error (calls tr) 1, nth_error (evaluated tr) 1 with
                 | Some (_, NF u), Some (_, v) => feq u (lit 1 (-1)) && feq v (Z2f 0)
                 | _, _ => false
                 end)) as (r & tr & H & Hb); [reflexivity|vm_compute; reflexivity|].
  destruct (nth_error (calls tr) 1) as [[x [z|u]]|] eqn:E1; try discriminate.
  destruct (nth_error (evaluated tr) 1) as [[x' v]|] eqn:E2; try discriminate.
  apply andb_true_iff in Hb as [H1 H2]. exists r, tr, x, u, x', v. repeat split; try assumption; apply H.
Qed.
Print Assumptions C16_recorded_refuted.

(* ------------------------------ C17 ------------------------------ *)
(** See also C10_selection: every elite member is one of the evaluated pairs. *)
Theorem C17_noise_free : forall (S W : Type) (c : cfg) (h : hooks S W),
  argsort_ok (h_argsort h) -> (0 <= c_trunc_len c)%Z -> (0 <= c_elite_len c)%Z ->
  forall ftol out d s r tr, completes c h ftol out s r tr -> one_dtype d tr -> all_float_returns tr ->
  each_event (fun before e => match e with
    | EvSelect train elite => Forall (fun p => In (fst p, NF (snd p)) (calls tr)) elite
    | _ => True
    end) tr /\
  match r_best_ind r with
  | BRow x => exists v, In (x, NF v) (calls tr) /\ feq v (r_best_cost r) = true
  | BIdx _ => True
  end.
Proof. exact (fun S W c h H1 H2 H3 ftol out => @noise_free_lemma S W c h ftol out H1 H2 H3). Qed.
Print Assumptions C17_noise_free.

Example C17_met : exists r tr, completes demo_noise_cfg demo_hooks ftol_default true demo_start r tr /\
  one_dtype DFloat tr /\ all_float_returns tr /\ py_eq_int (c_w_noise demo_noise_cfg) 1 = true.
Proof.
  destruct (run_check_completes demo_noise_cfg demo_hooks ftol_default true demo_start
     (fun _ tr => one_dtypeb DFloat tr && all_floatsb tr)) as (r & tr & H & Hb);
    [reflexivity|vm_compute; reflexivity|].
  apply andb_true_iff in Hb as [H1 H2].
  exists r, tr. split; [exact H|]. split; [apply one_dtypeb_ok, H1|]. split; [apply all_floatsb_ok, H2|vm_compute; reflexivity].
Qed.

(* ------------------------------ C18 ------------------------------ *)
(** The noise fits a selection from at least truncation_length candidates ... *)
Theorem C18_noise_fits_partial : forall (S W : Type) (c : cfg) (h : hooks S W) (s s' : st S W) draw,
  argsort_ok (h_argsort h) -> (0 <= c_trunc_len c)%Z ->
  truncation c h s = (Ok tt, s') ->
  a_dt (o_gen (s_obj s)) = DFloat -> a_dt (o_elite (s_obj s)) <> DObj ->
  Forall float_cells (a_rows (o_gen (s_obj s))) -> Forall float_cells (a_rows (o_elite (s_obj s))) ->
  Z.of_nat (a_nc (o_gen (s_obj s))) = c_nvars c ->
  let pool := List.length (o_evals (s_obj s)) + List.length (o_evel (s_obj s)) in
  let T := Z.to_nat (c_trunc_len c) in
  T <= pool \/ T = 1 ->
  exists g, iadd (o_gen (s_obj s')) (NoiseMat T (Z.to_nat (c_nvars c)) draw) = Ok g.
Proof. exact (fun S W => @noise_fits S W). Qed.
Print Assumptions C18_noise_fits_partial.

(** ... and no other. *)
Theorem C18_noise_does_not_fit : forall (S W : Type) (c : cfg) (h : hooks S W) (s s' : st S W) draw,
  argsort_ok (h_argsort h) -> (0 <= c_trunc_len c)%Z ->
  truncation c h s = (Ok tt, s') ->
  a_dt (o_gen (s_obj s)) = DFloat -> a_dt (o_elite (s_obj s)) <> DObj ->
  let pool := List.length (o_evals (s_obj s)) + List.length (o_evel (s_obj s)) in
  let T := Z.to_nat (c_trunc_len c) in
  pool < T -> T <> 1 ->
  iadd (o_gen (s_obj s')) (NoiseMat T (Z.to_nat (c_nvars c)) draw) = Raise ValueError.
Proof. exact (fun S W => @noise_does_not_fit S W). Qed.
Print Assumptions C18_noise_does_not_fit.

(** Four individuals and one in the elite: a selection of two fits the noise, one of ten does not. *)
Example C18_met : let s := mkSt (mkObj (col (ints [5; 3; 4; 6]%Z)) (ints [5; 3; 4; 6]%Z) (col (ints [5]%Z)) (ints [5]%Z) (Z2f 3) (BIdx 1)) tt [] [] in
  argsort_ok (h_argsort demo_hooks) /\ a_dt (o_gen (s_obj s)) = DFloat /\ a_dt (o_elite (s_obj s)) <> DObj /\
  Forall float_cells (a_rows (o_gen (s_obj s))) /\ Forall float_cells (a_rows (o_elite (s_obj s))) /\
  Z.of_nat (a_nc (o_gen (s_obj s))) = c_nvars demo_noise_cfg /\
  (c_trunc_len demo_noise_cfg = 2%Z /\ exists s', truncation demo_noise_cfg demo_hooks s = (Ok tt, s')) /\
  (c_trunc_len (conf 20 3 1 false None (Some (PyI 1))) = 10%Z /\ exists s', truncation (conf 20 3 1 false None (Some (PyI 1))) demo_hooks s = (Ok tt, s')).
Proof.
  intros s. split; [apply argsort_ref_ok|]. split; [reflexivity|]. split; [discriminate|].
  split; [repeat constructor|]. split; [repeat constructor|]. split; [reflexivity|].
  split; (split; [vm_compute; reflexivity|]).
  - assert (H : is_ok (fst (truncation demo_noise_cfg demo_hooks s)) = true) by (vm_compute; reflexivity).
    destruct (truncation demo_noise_cfg demo_hooks s) as [[[]|e] s'] eqn:E; [exists s'; reflexivity|discriminate].
  - assert (H : is_ok (fst (truncation (conf 20 3 1 false None (Some (PyI 1))) demo_hooks s)) = true) by (vm_compute; reflexivity).
    destruct (truncation (conf 20 3 1 false None (Some (PyI 1))) demo_hooks s) as [[[]|e] s'] eqn:E; [exists s'; reflexivity|discriminate].
Qed.

(** size_gen 8, alpha 1/2, two rows of initial data: minimize raises ValueError. *)
Theorem C18_noise_refuted :
  raises (conf 8 3 1 false (Some (col (ints [9; 8]%Z))) (Some (PyI 1))) demo_hooks ftol_default true demo_start ValueError.
Proof. apply run_raises_ok. vm_compute. reflexivity. Qed.
Print Assumptions C18_noise_refuted.

(* ------------------------------ C22 ------------------------------ *)
(** [c'] may differ from [c] in disp, alpha and elite_factor as reported, [h'] from [h] in
    the exported settings, and output_runtime may differ. *)
Theorem C22_display : forall (S W : Type) (c : cfg) (h : hooks S W) ftol out c' h' out' (s : st S W),
  same_but_disp c c' -> same_but_settings h h' ->
  let (r, t) := minimize c h ftol out s in
  let (r', t') := minimize c' h' ftol out' s in
  match r, r' with
  | Ok v, Ok v' => same_result v v'
  | Raise e, Raise e' => e = e'
  | _, _ => False
  end /\ s_obj t = s_obj t' /\ s_pm t = s_pm t' /\ s_w t = s_w t' /\ unprinted (s_tr t) = unprinted (s_tr t').
Proof. exact (fun S W => @display_explicit S W). Qed.
Print Assumptions C22_display.

Theorem C22_silent : forall (S W : Type) (c : cfg) (h : hooks S W) ftol s r tr,
  completes c h ftol false s r tr -> c_disp c = false -> prints tr = [].
Proof. exact (fun S W => @silent_lemma S W). Qed.
Print Assumptions C22_silent.

Definition set_disp (b : bool) (c : cfg) : cfg :=
  mkCfg (c_size_gen c) (c_max_iter c) (c_dead_iter c) (c_nvars c) (c_alpha c) (c_elite_factor c)
        b (c_parallelize c) (c_init_data c) (c_w_noise c) (c_trunc_len c) (c_elite_len c).
Example C22_met : same_but_disp demo_cfg (set_disp false demo_cfg) /\ same_but_settings demo_hooks demo_hooks /\
  c_disp demo_cfg = true /\ c_disp (set_disp false demo_cfg) = false.
Proof. repeat split. Qed.

(* ------------------------------ C23 ------------------------------ *)
(** A NaN cost for the first individual of a generation ends the run with IndexError, at
    that generation ... *)
Theorem C23_nan_first : forall (S W : Type) (c : cfg) (h : hooks S W) ftol out (s s' : st S W) r,
  s_tr s = [] -> minimize c h ftol out s = (r, s') ->
  (exists gv, In gv (gens (s_tr s')) /\ nan_head gv) ->
  r = Raise IndexError /\
  exists prev gv, gens (s_tr s') = prev ++ [gv] /\ nan_head gv /\ Forall (fun gv => ~ nan_head gv) prev.
Proof. exact (fun S W => @nan_lemma S W). Qed.
Print Assumptions C23_nan_first.

(** ... other NaN costs are ignored (and selected last: [cheaper] in C10 ranks NaN last). *)
Theorem C23_nan_ignored : forall (S W : Type) (c : cfg) (h : hooks S W) ftol out s r tr,
  completes c h ftol out s r tr ->
  Forall (fun v => isnan v = false) (r_history r) /\
  Forall2 (fun m gv => forall v, In v (snd gv) -> isnan v = true \/ fle m v = true) (r_history r) (gens tr) /\
  Forall (fun gv => ~ nan_head gv) (gens tr).
Proof. exact (fun S W => @nan_ignored S W). Qed.
Print Assumptions C23_nan_ignored.

Definition nan_start : st unit (list arr) := start tt [col (ints [5; 3]%Z); col [fnan; fone]].
Definition nan_later_start : st unit (list arr) := start tt [col (ints [5; 3]%Z); col [fone; fnan]].
Example C23_met :
  (let (r, s') := minimize (conf 2 2 1 false None None) demo_hooks ftol_default true nan_start in
   match last (gens (s_tr s')) (col [], []) with (_, v :: _) => isnan v | _ => false end) = true /\
  exists r tr, completes (conf 2 2 1 false None None) demo_hooks ftol_default true nan_later_start r tr /\
     existsb (fun gv => existsb isnan (snd gv)) (gens tr) = true.
Proof.
  split; [vm_compute; reflexivity|].
  apply (run_check_completes (conf 2 2 1 false None None) demo_hooks ftol_default true nan_later_start (fun _ tr => existsb (fun gv => existsb isnan (snd gv)) (gens tr))); vm_compute; reflexivity.
Qed.

(* ------------------------------ C67 ------------------------------ *)
(** Progress output is truthful: lines are numbered 0, 1, 2, ... without gaps, line k shows
    the best cost kept after k + 1 generations, at most the last iteration has no line, and
    the final report repeats the result. *)
Theorem C67_progress : forall (S W : Type) (c : cfg) (h : hooks S W) ftol s r tr,
  completes c h ftol true s r tr ->
  exists m, m <= List.length (r_history r) <= Datatypes.S m /\
    progress tr = map (fun k => (Z.of_nat k, run_best ftol (firstn (1 + k) (r_history r)))) (seq 0 m) /\
    (c_disp c = true -> exists pre, prints tr = pre ++ [PrFinal (r_nfev r) (r_best_cost r) (r_best_ind r)]).
Proof. exact (fun S W => @progress_lemma S W). Qed.
Print Assumptions C67_progress.

Theorem C67_reported_best : forall (S W : Type) (c : cfg) (h : hooks S W) ftol out s r tr,
  completes c h ftol out s r tr -> r_best_cost r = run_best ftol (r_history r).
Proof. exact (fun S W => @best_cost_lemma S W). Qed.
Print Assumptions C67_reported_best.

Example C67_met : c_disp demo_cfg = true /\ exists r tr, completes demo_cfg demo_hooks ftol_default true demo_start r tr /\
  Nat.eqb (List.length (progress tr)) 4 && Nat.eqb (List.length (prints tr)) 5 = true.
Proof. split; [vm_compute; reflexivity|]. apply (run_check_completes demo_cfg demo_hooks _ _ demo_start (fun _ tr => Nat.eqb (List.length (progress tr)) 4 && Nat.eqb (List.length (prints tr)) 5)); vm_compute; reflexivity. Qed.
