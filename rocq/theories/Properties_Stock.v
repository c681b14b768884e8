(** Properties of the optimisers of EDAspy.optimization as a user constructs and runs them, for
    every argument, cost function, random stream, sort, external model and earlier use. *)
From Coq Require Import String List ZArith Bool Lia Reals.
From Flocq Require Import Core.
From Verif Require Import PyBase B64 B64More NdArray Eda EdaInv Spec LoopInv Rand RandThms Models Inits ModelThms InitThms InitGauss Kahan CatThms Trunc Sign Stock StockInv StockGauss StockCat StockPrior StockArchive StockFail StockAll StockMore StockCustom StockFinal Demo DemoModels DemoStock.
Import ListNotations.
Open Scope nat_scope.

(* ------------------------------ C13 ------------------------------ *)
Theorem C13_stock : forall (X W : Type) (E : env X W) A g o0 o1 o2 a1 a2 cost ftol out w,
  construct E A g = Ok o0 -> uses_archive A = false -> refits E \/ external A = false -> used E o0 o1 -> used E o0 o2 ->
  let (r1, s1) := run_in E a1 o1 cost ftol out w in
  let (r2, s2) := run_in E a2 o2 cost ftol out w in
  r1 = r2 /\ s_w s1 = s_w s2 /\ s_tr s1 = s_tr s2 /\ (is_ok r1 = true -> s_obj s1 = s_obj s2).
Proof. exact (fun X W => @same_again X W). Qed.
Print Assumptions C13_stock.

Example C13_stock_met : refits env0 /\ exists o r s r' s', construct env0 umdac0 (demo_args 3 1 None) = Ok o /\
  run env0 o cost0 ftol_default false tt = (Ok r, s) /\
  run_in env0 (s_obj s) (after o s) cost0 ftol_default false tt = (Ok r', s') /\ Nat.leb 2 (List.length (r_history r')) = true.
Proof.
  split; [exact env0_refits|].
  apply (ran_twice_ok env0 _ cost0 ftol_default tt (fun _ r => Nat.leb 2 (List.length (r_history r)))). vm_compute. reflexivity.
Qed.

(* ------------------------------ C14 ------------------------------ *)
(** For the archive algorithms only the archive carries over from earlier calls. *)
Theorem C14_memory_partial : forall (X W : Type) (E : env X W) A g o0 o1 o2 a1 a2 cost ftol out w,
  construct E A g = Ok o0 -> refits E \/ external A = false -> used E o0 o1 -> used E o0 o2 ->
  ps_archive (op_st o1) = ps_archive (op_st o2) ->
  let (r1, s1) := run_in E a1 o1 cost ftol out w in
  let (r2, s2) := run_in E a2 o2 cost ftol out w in
  r1 = r2 /\ s_w s1 = s_w s2 /\ s_tr s1 = s_tr s2 /\ (is_ok r1 = true -> s_obj s1 = s_obj s2).
Proof. exact (fun X W => @same_again_archive X W). Qed.
Print Assumptions C14_memory_partial.

Example C14_met : exists o, construct env0 (speda (PyI 2)) (demo_args 2 1 None) = Ok o /\ used env0 o o.
Proof. eexists. split; [reflexivity|constructor]. Qed.

(** A second minimize in the same random state finds something else. *)
Theorem C14_memory_refuted : exists o r s r' s',
  construct env0 (speda (PyI 2)) (demo_args 2 1 None) = Ok o /\
  run env0 o cost0 ftol_default false tt = (Ok r, s) /\
  run_in env0 (s_obj s) (after o s) cost0 ftol_default false tt = (Ok r', s') /\
  feq (r_best_cost r) (Z2f (-2)) && feq (r_best_cost r') (Z2f (-4)) = true.
Proof.
  exact (ran_twice_ok env0 (construct env0 (speda (PyI 2)) (demo_args 2 1 None)) cost0 ftol_default tt
    (fun r r' => feq (r_best_cost r) (Z2f (-2)) && feq (r_best_cost r') (Z2f (-4))) ltac:(vm_compute; reflexivity)).
Qed.
Print Assumptions C14_memory_refuted.

(* ------------------------------ C19 ------------------------------ *)
Theorem C19_lengths : forall n p, (0 <= n <= 2 ^ 53)%Z -> factor p ->
  exists t, int_times n p = Ok t /\ (0 <= t <= n)%Z /\
    (Zfloor (IZR n * factor_R p) <= t <= Zceil (IZR n * factor_R p))%Z /\
    t = Zfloor (match p with PyI _ => IZR n * factor_R p | PyF _ => rnd (IZR n * factor_R p) end).
Proof. exact int_times_bounds. Qed.
Print Assumptions C19_lengths.

Example C19_met : factor (PyF (dec 7 1)) /\ int_times 10 (PyF (dec 7 1)) = Ok 7%Z.
Proof. split; [split|]; vm_compute; reflexivity. Qed.

(* ------------------------------ C20 ------------------------------ *)
Theorem C20_base : forall size max dead n al el disp par init wn,
  (0 <= size <= 2 ^ 53)%Z -> factor al -> factor el ->
  ((dead <= max)%Z /\ (forall d, init = Some d -> Z.of_nat (a_nc d) = n) <->
     exists c, eda_init size max dead n al el disp par init wn = Ok c) /\
  (~ ((dead <= max)%Z /\ (forall d, init = Some d -> Z.of_nat (a_nc d) = n)) ->
     eda_init size max dead n al el disp par init wn = Raise AssertionError).
Proof. exact eda_init_valid. Qed.
Print Assumptions C20_base.

Theorem C20_accepted : forall (X W : Type) (E : env X W) A g o,
  construct E A g = Ok o ->
  (g_dead_iter g <= g_max_iter g)%Z /\ forall d, g_init_data g = Some d -> Z.of_nat (a_nc d) = g_nvars g.
Proof. exact (fun X W => @construct_valid X W). Qed.
Print Assumptions C20_accepted.

Theorem C20_refused : forall (X W : Type) (E : env X W) A g,
  (0 <= g_size_gen g <= 2 ^ 53)%Z -> factor (g_alpha g) -> factor (g_elite_factor g) ->
  ~ ((g_dead_iter g <= g_max_iter g)%Z /\ forall d, g_init_data g = Some d -> Z.of_nat (a_nc d) = g_nvars g) ->
  construct E A g = Raise AssertionError.
Proof. exact (fun X W => @construct_invalid X W). Qed.
Print Assumptions C20_refused.

Example C20_met : factor (g_alpha (demo_args 0 1 None)) /\
  ~ ((g_dead_iter (demo_args 0 1 None) <= g_max_iter (demo_args 0 1 None))%Z /\
     forall d, g_init_data (demo_args 0 1 None) = Some d -> Z.of_nat (a_nc d) = g_nvars (demo_args 0 1 None)).
Proof. split; [exact factor_half|]. cbn. lia. Qed.

(* ------------------------------ C21 ------------------------------ *)
(** A matching model or initialiser is stored and nothing else changes; anything that is not one
    is refused without effect. *)
Theorem C21_pm_partial : forall (X : Type) (v : value X) (o : optimiser X),
  match v with
  | VModel m => Z.of_nat (model_width m) = c_nvars (op_cfg o) ->
      exists o', set_pm v o = (Ok tt, o') /\ ps_pm (op_st o') = Some m /\ op_cfg o' = op_cfg o /\ op_init o' = op_init o /\ op_upd o' = op_upd o /\ op_exp o' = op_exp o
  | _ => set_pm v o = (Raise ValueError, o)
  end.
Proof. exact (fun X => @assign_pm_cases X). Qed.
Print Assumptions C21_pm_partial.

Theorem C21_init_partial : forall (X : Type) (v : value X) (o : optimiser X),
  match v with
  | VInit i => initr_width i = c_nvars (op_cfg o) ->
      exists o', set_init v o = (Ok tt, o') /\ op_init o' = Some i /\ op_cfg o' = op_cfg o /\ op_st o' = op_st o /\ op_upd o' = op_upd o /\ op_exp o' = op_exp o
  | _ => set_init v o = (Raise ValueError, o)
  end.
Proof. exact (fun X => @assign_init_cases X). Qed.
Print Assumptions C21_init_partial.

(** A model or initialiser of the wrong width is refused but kept. *)
Theorem C21_pm_refuted : forall (X : Type) (m : model X) (o : optimiser X),
  Z.of_nat (model_width m) <> c_nvars (op_cfg o) ->
  exists o', set_pm (VModel m) o = (Raise PlainException, o') /\ ps_pm (op_st o') = Some m.
Proof. exact (fun X => @assign_pm_wrong X). Qed.
Print Assumptions C21_pm_refuted.

Theorem C21_init_refuted : forall (X : Type) i (o : optimiser X),
  initr_width i <> c_nvars (op_cfg o) ->
  exists o', set_init (VInit i) o = (Raise PlainException, o') /\ op_init o' = Some i.
Proof. exact (fun X => @assign_init_wrong X). Qed.
Print Assumptions C21_init_refuted.

Example C21_met : exists o, construct env0 umdac0 (demo_args 3 1 None) = Ok o /\
  Z.of_nat (model_width (MUniGauss (X := nat) half (gauss_new 2))) <> c_nvars (op_cfg o).
Proof. eexists. split; [reflexivity|]. cbn. lia. Qed.

(* ------------------------------ C24 ------------------------------ *)
(** Everything but PBIL's alpha and the archive algorithms' elite_factor. *)
Theorem C24_settings_partial : forall (X W : Type) (E : env X W) A g o0 o,
  construct E A g = Ok o0 -> used E o0 o ->
  exists d, export o = Ok d /\
    dict_get "size_gen" d = Some (SInt (g_size_gen g)) /\ dict_get "max_iter" d = Some (SInt (g_max_iter g)) /\
    dict_get "dead_iter" d = Some (SInt (g_dead_iter g)) /\ dict_get "n_variables" d = Some (SInt (g_nvars g)) /\
    dict_get "disp" d = Some (SBool (g_disp g)) /\ dict_get "parallelize" d = Some (SBool (g_parallelize g)) /\
    dict_get "alpha" d = Some (SNum (if is_pbil A then PyI 1 else g_alpha g)) /\
    dict_get "elite_factor" d = Some (SNum (if uses_archive A then g_alpha g else g_elite_factor g)).
Proof. exact (fun X W => @export_reports X W). Qed.
Print Assumptions C24_settings_partial.

(** Also in the result of minimize. *)
Theorem C24_result : forall (X W : Type) (E : env X W) o cost a ftol out w r s d,
  export o = Ok d -> run_in E a o cost ftol out w = (Ok r, s) -> r_settings r = d.
Proof. exact (fun X W => @result_settings X W). Qed.
Print Assumptions C24_result.

Theorem C24_settings_refuted : exists o d,
  construct env0 (PBIL (num 0) (num 1) None half None) (demo_args 3 1 None) = Ok o /\
  export o = Ok d /\ dict_get "alpha" d = Some (SNum (PyI 1)) /\ g_alpha (demo_args 3 1 None) = PyF half.
Proof. eexists. eexists. split; [reflexivity|]. split; [reflexivity|]. split; reflexivity. Qed.
Print Assumptions C24_settings_refuted.

Example C24_met : exists o r s d, construct env0 umdac0 (demo_args 3 1 None) = Ok o /\ export o = Ok d /\
  run env0 o cost0 ftol_default false tt = (Ok r, s).
Proof.
  destruct (ran_ok env0 (construct env0 umdac0 (demo_args 3 1 None)) cost0 ftol_default tt (fun _ _ => true)) as (o & r & s & Ho & Hr & _); [vm_compute; reflexivity|].
  exists o, r, s. destruct (export_reports env0 _ _ _ _ Ho (used_fresh env0 o)) as (d & Hd & _). exists d. auto.
Qed.

(* ------------------------------ C25 ------------------------------ *)
(** With the two keys spelt as read_settings expects them, the arguments come back. *)
Theorem C25_round_trip_partial : forall (X W : Type) (E : env X W) k z w o0 o w' d,
  custom_new E k z w = (Ok o0, w') -> used E o0 o -> export o = Ok d ->
  settings_args (respelt d) = Ok k /\
  forall w1, read_settings E (respelt d) z w1 = custom_new E k z w1.
Proof. exact (fun X W => @read_respelt X W). Qed.
Print Assumptions C25_round_trip_partial.

(** As it is, read_settings fails on everything export_settings returns. *)
Theorem C25_round_trip_refuted : forall (X W : Type) (E : env X W) k z w o0 o w' d z' w1,
  custom_new E k z w = (Ok o0, w') -> used E o0 o -> export o = Ok d ->
  read_settings E d z' w1 = (Raise (KeyError "size-gen"), w1).
Proof. exact (fun X W => @read_settings_fails X W). Qed.
Print Assumptions C25_round_trip_refuted.

Example C25_met : exists o d, fst (custom_new env0 (demo_cargs 1 4) (fun _ => fnan) tt) = Ok o /\ export o = Ok d.
Proof. eexists. eexists. split; reflexivity. Qed.

(* ------------------------------ C28 ------------------------------ *)
Theorem C28_binary : forall (X W : Type) (E : env X W) g vector lo hi o0 o cost a ftol out w r s,
  construct E (UMDAd vector lo hi) g = Ok o0 -> used E o0 o ->
  (forall v, vector = Some v -> List.length v = Z.to_nat (g_nvars g)) ->
  (forall d, g_init_data g = Some d -> rows_in DInt (Z.to_nat (g_nvars g)) (bit_row (Z.to_nat (g_nvars g))) d) ->
  run_in E a o cost ftol out w = (r, s) ->
  let n := Z.to_nat (g_nvars g) in
  Forall (fun gv => Forall (bit_row n) (a_rows (fst gv))) (gens (s_tr s)) /\
  Forall (fun rv => bit_row n (fst rv)) (calls (s_tr s)) /\
  (forall res x, r = Ok res -> r_best_ind res = BRow x -> bit_row n x).
Proof. exact (fun X W => @umdad_binary X W). Qed.
Print Assumptions C28_binary.

Example C28_met : exists o r s, construct env0 (UMDAd (Some [half; half]) quarter three_quarters) (demo_args 3 2 None) = Ok o /\
  run env0 o cost0 ftol_default false tt = (Ok r, s) /\ Nat.leb 2 (List.length (gens (s_tr s))) = true.
Proof. apply (ran_ok env0 _ cost0 ftol_default tt (fun _ tr => Nat.leb 2 (List.length (gens tr)))). vm_compute. reflexivity. Qed.

(* ------------------------------ C31, C32 ------------------------------ *)
Theorem C31_declared : forall (X W : Type) (E : env X W) g values freq o0 o cost a ftol out w r s,
  construct E (UMDAcat values freq) g = Ok o0 -> used E o0 o ->
  argsort_ok (e_argsort E) -> unif_ok (e_rng E) -> (1 <= g_nvars g)%Z -> cats_ok values freq ->
  (0 <= g_size_gen g <= 2 ^ 53)%Z -> factor (g_alpha g) -> g_init_data g = None ->
  run_in E a o cost ftol out w = (r, s) ->
  let n := Z.to_nat (g_nvars g) in
  Forall (fun gv => Forall (cat_row n values) (a_rows (fst gv))) (gens (s_tr s)) /\
  Forall (fun rv => cat_row n values (fst rv)) (calls (s_tr s)) /\
  (forall res x, r = Ok res -> r_best_ind res = BRow x -> cat_row n values x).
Proof. exact (fun X W => @umdacat_declared X W). Qed.
Print Assumptions C31_declared.

Theorem C32_extinct : forall (X W : Type) (E : env X W) g values freq o0 o cost a ftol out w r s,
  construct E (UMDAcat values freq) g = Ok o0 -> used E o0 o ->
  argsort_ok (e_argsort E) -> unif_ok (e_rng E) -> (1 <= g_nvars g)%Z -> cats_ok values freq ->
  (0 <= g_size_gen g <= 2 ^ 53)%Z -> factor (g_alpha g) -> g_init_data g = None ->
  run_in E a o cost ftol out w = (r, s) ->
  forall k d gv j c, nth_error (learns (s_tr s)) k = Some d -> nth_error (gens (s_tr s)) (S k) = Some gv -> j < Z.to_nat (g_nvars g) ->
     ~ In c (column j (a_rows d)) -> ~ In c (column j (a_rows (fst gv))).
Proof. exact (fun X W => @umdacat_extinct X W). Qed.
Print Assumptions C32_extinct.

Example C31_C32_met : cats_ok strings2 halves2 /\ unif_ok (e_rng env0) /\
  exists o r s, construct env0 (UMDAcat strings2 halves2) (demo_args 3 2 None) = Ok o /\
  run env0 o cost7 ftol_default false tt = (Ok r, s) /\ Nat.leb 2 (List.length (gens (s_tr s))) = true.
Proof.
  split; [exact strings2_ok|]. split; [exact demo_unif_ok|].
  apply (ran_ok env0 _ cost7 ftol_default tt (fun _ tr => Nat.leb 2 (List.length (gens tr)))). vm_compute. reflexivity.
Qed.

(* ------------------------------ C45 ------------------------------ *)
Theorem C45_archive : forall (X W : Type) (E : env X W) A g (l : nat) o t cost a ftol out w r s,
  construct E A g = Ok o -> archive_l A = Some (PyI (Z.of_nat l)) -> 1 <= l ->
  (0 <= g_size_gen g <= 2 ^ 53)%Z -> factor (g_alpha g) -> int_times (g_size_gen g) (g_alpha g) = Ok t ->
  (forall d, g_init_data g = Some d -> a_dt d = DFloat /\ Z.to_nat t <= a_len d) ->
  samples_floats E (archive_class A) (g_size_gen g) -> argsort_ok (e_argsort E) ->
  run_in E a o cost ftol out w = (Ok r, s) ->
  Forall (fun e => List.length e = Z.to_nat t) (elites (s_tr s)) /\
  List.length (learns (s_tr s)) = List.length (elites (s_tr s)) /\
  forall k d, nth_error (learns (s_tr s)) k = Some d ->
    a_rows d = concat (lastn l (firstn (S k) (elites (s_tr s)))) /\ a_len d = Nat.min l (S k) * Z.to_nat t.
Proof. exact (fun X W => @archive_exact X W). Qed.
Print Assumptions C45_archive.

Example C45_met : samples_floats env0 (archive_class (speda (PyI 2))) 4 /\
  exists o r s, construct env0 (speda (PyI (Z.of_nat 2))) (demo_args 4 1 None) = Ok o /\
  run env0 o cost0 ftol_default false tt = (Ok r, s) /\ Nat.eqb (List.length (learns (s_tr s))) 3 = true.
Proof.
  split; [apply env0_floats|].
  apply (ran_ok env0 _ cost0 ftol_default tt (fun _ tr => Nat.eqb (List.length (learns tr)) 3)). vm_compute. reflexivity.
Qed.

(* ------------------------------ C46 ------------------------------ *)
Theorem C46_bounded_partial : forall (X W : Type) (E : env X W) A g z o0 o t cost a ftol out w r s,
  construct E A g = Ok o0 -> archive_l A = Some (PyI z) -> (1 <= z)%Z ->
  int_times (g_size_gen g) (g_alpha g) = Ok t -> (1 <= t)%Z -> used E o0 o -> run_in E a o cost ftol out w = (r, s) ->
  Forall (fun d => (Z.of_nat (a_len d) <= z * t)%Z) (learns (s_tr s)).
Proof. exact (fun X W => @archive_le_run X W). Qed.
Print Assumptions C46_bounded_partial.

(** l = 0 keeps everything. *)
Theorem C46_bounded_refuted : exists o r s, construct env0 (speda (PyI 0)) (demo_args 4 1 None) = Ok o /\
  run env0 o cost0 ftol_default false tt = (Ok r, s) /\
  existsb (fun d => Nat.eqb (a_len d) 6) (learns (s_tr s)) = true.
Proof.
  exact (ran_ok env0 (construct env0 (speda (PyI 0)) (demo_args 4 1 None)) cost0 ftol_default tt
    (fun _ tr => existsb (fun d => Nat.eqb (a_len d) 6) (learns tr)) ltac:(vm_compute; reflexivity)).
Qed.
Print Assumptions C46_bounded_refuted.

(** And a float l, the documented type, never gets past the first update. *)
Theorem C46_float_refuted : forall (X W : Type) (E : env X W) A g x o0 o cost a ftol out w r s,
  construct E A g = Ok o0 -> archive_l A = Some (PyF x) -> used E o0 o ->
  run_in E a o cost ftol out w = (Ok r, s) -> (g_max_iter g <= 1)%Z.
Proof. exact (fun X W => @archive_float X W). Qed.
Print Assumptions C46_float_refuted.

Example C46_met : exists o s, construct env0 (speda (PyF (Z2f 10))) (demo_args 4 1 None) = Ok o /\
  run env0 o cost0 ftol_default false tt = (Raise TypeError, s).
Proof. apply raised_ok. vm_compute. reflexivity. Qed.

(* ------------------------------ C47 ------------------------------ *)
(** Whatever the noise, every row of the training data is an individual already evaluated. *)
Theorem C47_noise_refuted : forall (X W : Type) (E : env X W) A g (l : nat) o t cost a ftol out w r s,
  construct E A g = Ok o -> archive_l A = Some (PyI (Z.of_nat l)) -> 1 <= l ->
  (0 <= g_size_gen g <= 2 ^ 53)%Z -> factor (g_alpha g) -> int_times (g_size_gen g) (g_alpha g) = Ok t ->
  (forall d, g_init_data g = Some d -> a_dt d = DFloat /\ Z.to_nat t <= a_len d) ->
  samples_floats E (archive_class A) (g_size_gen g) -> argsort_ok (e_argsort E) ->
  run_in E a o cost ftol out w = (Ok r, s) ->
  Forall (fun d => incl (a_rows d) (map fst (evaluated (s_tr s)))) (learns (s_tr s)).
Proof. exact (fun X W => @archive_no_noise X W). Qed.
Print Assumptions C47_noise_refuted.

Example C47_met : exists o r s, construct env0 (SPEDA (num 0) (num 1) (PyI (Z.of_nat 2)) (Some (PyI 1))) (demo_args 4 1 None) = Ok o /\
  run env0 o cost0 ftol_default false tt = (Ok r, s) /\ Nat.eqb (List.length (learns (s_tr s))) 3 = true.
Proof. apply (ran_ok env0 _ cost0 ftol_default tt (fun _ tr => Nat.eqb (List.length (learns tr)) 3)). vm_compute. reflexivity. Qed.

(* ------------------------------ C49 ------------------------------ *)
(** Only the first generation is sure to respect the bounds. *)
Theorem C49_bounds_partial : forall (X W : Type) (E : env X W) A g lo hi o0 o cost a ftol out w r s,
  construct E A g = Ok o0 -> used E o0 o -> start_bounds A = Some (lo, hi) -> unif_ok (e_rng E) ->
  (1 <= g_nvars g)%Z -> g_init_data g = None -> bounds_ok (Z.to_nat (g_nvars g)) lo hi ->
  run_in E a o cost ftol out w = (Ok r, s) ->
  exists g0 v0 rest, gens (s_tr s) = (g0, v0) :: rest /\ Forall (within (Z.to_nat (g_nvars g)) lo hi) (a_rows g0).
Proof. exact (fun X W => @first_within X W). Qed.
Print Assumptions C49_bounds_partial.

Example C49_met : unif_ok (e_rng env0) /\ bounds_ok 1 (num 0) (num 1) /\
  exists o r s, construct env0 umdac0 (demo_args 3 1 None) = Ok o /\ run env0 o cost0 ftol_default false tt = (Ok r, s) /\ true = true.
Proof.
  split; [exact demo_unif_ok|]. split; [apply bounds01|].
  apply (ran_ok env0 _ cost0 ftol_default tt (fun _ _ => true)). vm_compute. reflexivity.
Qed.

(** UMDAc with bounds 0 and 1 evaluates 1.5. *)
Theorem C49_bounds_refuted : exists o r s,
  construct env0 umdac0 (demo_args 3 1 None) = Ok o /\ run env0 o cost0 ftol_default false tt = (Ok r, s) /\
  existsb (fun rv => match fst rv with [CF x] => flt (Z2f 1) x | _ => false end) (evaluated (s_tr s)) = true.
Proof.
  exact (ran_ok env0 (construct env0 umdac0 (demo_args 3 1 None)) cost0 ftol_default tt
    (fun _ tr => existsb (fun rv => match fst rv with [CF x] => flt (Z2f 1) x | _ => false end) (evaluated tr)) ltac:(vm_compute; reflexivity)).
Qed.
Print Assumptions C49_bounds_refuted.

(* ------------------------------ C57 ------------------------------ *)
Theorem C57_ids_partial :
  (forall k k', class_id k = class_id k' -> k = k' \/ (k = KBN /\ k' = KUniKDE) \/ (k = KUniKDE /\ k' = KBN)) /\
  (forall k k', init_class_id k = init_class_id k' -> k = k').
Proof. exact ids_distinct. Qed.
Print Assumptions C57_ids_partial.

Theorem C57_ids_refuted : exists k k', k <> k' /\ class_id k = class_id k'.
Proof. exact ids_shared. Qed.
Print Assumptions C57_ids_refuted.

(* ------------------------------ C65 ------------------------------ *)
Theorem C65_umdac : forall (X W : Type) (E : env X W) g lo hi vector lf wn o0 o cost a ftol out w t,
  construct E (UMDAc lo hi vector lf wn) g = Ok o0 -> used E o0 o -> sum_ok (e_sum E) -> argsort_ok (e_argsort E) -> unif_ok (e_rng E) ->
  (1 <= g_nvars g)%Z -> int_times (g_size_gen g) (g_alpha g) = Ok t -> (1 <= t <= g_size_gen g)%Z ->
  start_ok (Z.to_nat (g_nvars g)) vector lo hi \/ (exists d, g_init_data g = Some d) ->
  data_ok (Z.to_nat (g_nvars g)) (Z.to_nat t) (g_init_data g) -> noise_ok wn ->
  (g_parallelize g = true -> cpu_count (e_pool E) <= Z.to_nat (g_size_gen g) /\ forall d, g_init_data g = Some d -> cpu_count (e_pool E) <= a_len d) ->
  cost_total (float_row (Z.to_nat (g_nvars g))) cost ->
  exists res s, run_in E a o cost ftol out w = (Ok res, s).
Proof. exact (fun X W => @umdac_completes X W). Qed.
Print Assumptions C65_umdac.

Example C65_met : sum_ok (e_sum env0) /\ argsort_ok (e_argsort env0) /\ unif_ok (e_rng env0) /\
  is_ok (construct env0 umdac0 (demo_args 3 1 None)) = true /\ int_times 4 (PyF half) = Ok 2%Z /\
  start_ok 1 None (num 0) (num 1) /\ data_ok 1 2 None /\ noise_ok None /\ cost_total (float_row 1) cost7.
Proof.
  refine (conj seq_sum_ok (conj argsort_ref_ok (conj demo_unif_ok (conj _ (conj _ (conj (bounds01 1) (conj _ (conj I (cost7_total _)))))))));
    [vm_compute; reflexivity|vm_compute; reflexivity|intros d; discriminate].
Qed.

(* ------------------------------ C66 ------------------------------ *)
Theorem C66_umdad : forall (X W : Type) (E : env X W) g vector lo hi o0 o t cost a ftol out w,
  construct E (UMDAd vector lo hi) g = Ok o0 -> used E o0 o -> argsort_ok (e_argsort E) ->
  (forall v, vector = Some v -> List.length v = Z.to_nat (g_nvars g)) ->
  (forall d, g_init_data g = Some d -> rows_in DInt (Z.to_nat (g_nvars g)) (bit_row (Z.to_nat (g_nvars g))) d /\ 1 <= a_len d) ->
  (1 <= g_size_gen g)%Z -> int_times (g_size_gen g) (g_alpha g) = Ok t -> (1 <= t)%Z ->
  (g_parallelize g = true -> cpu_count (e_pool E) <= Z.to_nat (g_size_gen g) /\ forall d, g_init_data g = Some d -> cpu_count (e_pool E) <= a_len d) ->
  cost_total (bit_row (Z.to_nat (g_nvars g))) cost ->
  exists res s, run_in E a o cost ftol out w = (Ok res, s).
Proof. exact (fun X W => @umdad_completes X W). Qed.
Print Assumptions C66_umdad.

Example C66_met : is_ok (construct env0 (UMDAd (Some [half; half]) quarter three_quarters) (demo_args 3 2 None)) = true /\
  rows_in DInt 2 (bit_row 2) demo_bits /\ cost_total (bit_row 2) cost7.
Proof. split; [vm_compute; reflexivity|]. split; [split; [reflexivity|split; [reflexivity|exact demo_bits_ok]]|apply cost7_total]. Qed.

(* ------------------------------ C69 ------------------------------ *)
Theorem C69_nonstring : forall (X W : Type) (E : env X W) A g values freq o0 o j v t cost a ftol out w r s,
  construct E A g = Ok o0 -> declared_values A = Some (values, freq) -> used E o0 o ->
  argsort_ok (e_argsort E) -> unif_ok (e_rng E) -> cats_ok values freq ->
  int_times (g_size_gen g) (g_alpha g) = Ok t -> (1 <= t)%Z -> g_init_data g = None ->
  j < Z.to_nat (g_nvars g) -> nth_error values j = Some v -> Forall (fun c => ~ is_CS c) v ->
  run_in E a o cost ftol out w = (Ok r, s) -> (g_max_iter g <= 1)%Z.
Proof. exact (fun X W => @nonstring_categories X W). Qed.
Print Assumptions C69_nonstring.

Example C69_met : cats_ok ints2 halves2 /\ exists o s, construct env0 (UMDAcat ints2 halves2) (demo_args 3 2 None) = Ok o /\
  run env0 o cost7 ftol_default false tt = (Raise TypeError, s).
Proof. split; [exact ints2_ok|]. apply raised_ok. vm_compute. reflexivity. Qed.

(* ------------------------------ C70 ------------------------------ *)
Theorem C70_no_bounds : forall (X W : Type) (E : env X W) A g o0 o cost a ftol out w,
  construct E A g = Ok o0 -> used E o0 o -> start_bounds A = Some (BNone, BNone) -> g_init_data g = None ->
  exists s, run_in E a o cost ftol out w = (Raise TypeError, s).
Proof. exact (fun X W => @no_bounds_fails X W). Qed.
Print Assumptions C70_no_bounds.

Example C70_met : is_ok (construct env0 (EGNA BNone BNone None) (demo_args 3 2 None)) = true.
Proof. vm_compute. reflexivity. Qed.

(* ------------------------------ C71 ------------------------------ *)
Theorem C71_umdacat : forall (X W : Type) (E : env X W) g values freq o0 o t cost a ftol out w,
  construct E (UMDAcat values freq) g = Ok o0 -> used E o0 o ->
  argsort_ok (e_argsort E) -> unif_ok (e_rng E) -> (1 <= g_nvars g)%Z -> cats_ok values freq ->
  string_cats (Z.to_nat (g_nvars g)) values -> sums_ok values freq ->
  int_times (g_size_gen g) (g_alpha g) = Ok t -> (1 <= t <= 2 ^ 22)%Z -> (1 <= g_size_gen g)%Z -> g_init_data g = None ->
  (g_parallelize g = true -> cpu_count (e_pool E) <= Z.to_nat (g_size_gen g)) ->
  cost_total (cat_row (Z.to_nat (g_nvars g)) values) cost ->
  exists res s, run_in E a o cost ftol out w = (Ok res, s).
Proof. exact (fun X W => @umdacat_completes X W). Qed.
Print Assumptions C71_umdacat.

Example C71_met : cats_ok demo_values demo_freq /\ string_cats 1 demo_values /\ sums_ok demo_values demo_freq /\
  is_ok (construct env0 (UMDAcat demo_values demo_freq) (demo_args 3 1 None)) = true /\ cost_total (cat_row 1 demo_values) cost7.
Proof.
  split; [exact demo_category|]. split; [intros [|j] v Hj Hv; [|lia]; apply (f_equal (fun r => match r with Some x => x | None => [] end)) in Hv; subst v; repeat constructor|].
  split; [intros j v f Hv Hf; split; [|exact (demo_freq_near j f Hf)]; destruct (demo_category j v f Hv Hf) as (_ & _ & Hl);
          destruct j as [|[|j]]; [|discriminate|discriminate]; apply (f_equal (fun r => match r with Some x => x | None => [] end)) in Hf; subst f; cbn; lia|].
  split; [vm_compute; reflexivity|apply cost7_total].
Qed.

(* ------------------------------ C72 ------------------------------ *)
Theorem C72_pbil : forall (X W : Type) (E : env X W) g lo hi vector lf wn o0 o cost a ftol out w,
  construct E (PBIL lo hi vector lf wn) g = Ok o0 -> used E o0 o -> sum_ok (e_sum E) -> argsort_ok (e_argsort E) -> unif_ok (e_rng E) ->
  (1 <= g_nvars g)%Z -> (2 <= g_size_gen g)%Z ->
  start_ok (Z.to_nat (g_nvars g)) vector lo hi \/ (exists d, g_init_data g = Some d) ->
  data_ok (Z.to_nat (g_nvars g)) (Z.to_nat (g_size_gen g)) (g_init_data g) -> noise_ok wn ->
  (g_parallelize g = true -> cpu_count (e_pool E) <= Z.to_nat (g_size_gen g)) ->
  cost_total (float_row (Z.to_nat (g_nvars g))) cost ->
  exists res s, run_in E a o cost ftol out w = (Ok res, s).
Proof. exact (fun X W => @pbil_completes X W). Qed.
Print Assumptions C72_pbil.

Example C72_met : is_ok (construct env0 (PBIL (num 0) (num 1) None half None) (demo_args 3 1 None)) = true /\
  start_ok 1 None (num 0) (num 1) /\ cost_total (float_row 1) cost7.
Proof. split; [vm_compute; reflexivity|]. split; [apply bounds01|apply cost7_total]. Qed.

(* ------------------------------ C73 ------------------------------ *)
Theorem C73_shapes : forall (X W : Type) (E : env X W) g lo hi vector lf wn o0 o cost a ftol out w r s,
  construct E (UMDAc lo hi vector lf wn) g = Ok o0 \/ construct E (PBIL lo hi vector lf wn) g = Ok o0 -> used E o0 o -> sum_ok (e_sum E) ->
  data_ok (Z.to_nat (g_nvars g)) 0 (g_init_data g) ->
  run_in E a o cost ftol out w = (r, s) ->
  let n := Z.to_nat (g_nvars g) in
  Forall (rows_in DFloat n (float_row n)) (map fst (gens (s_tr s))) /\ Forall (fun rv => float_row n (fst rv)) (calls (s_tr s)) /\
  (forall res, r = Ok res -> best_ok (float_row n) (r_best_ind res)).
Proof. exact (fun X W => @umdac_pbil_shape X W). Qed.
Print Assumptions C73_shapes.

Example C73_met : exists o r s, construct env0 (PBIL (num 0) (num 1) None half None) (demo_args 3 2 None) = Ok o /\
  run env0 o cost7 ftol_default false tt = (Ok r, s) /\ Nat.leb 2 (List.length (gens (s_tr s))) = true.
Proof. apply (ran_ok env0 _ cost7 ftol_default tt (fun _ tr => Nat.leb 2 (List.length (gens tr)))). vm_compute. reflexivity. Qed.

(* ------------------------------ C74 ------------------------------ *)
Theorem C74_emna_one : forall (X W : Type) (E : env X W) g lo hi lf uf wn z o0 o cost a ftol out w r s,
  construct E (EMNA lo hi lf uf wn z) g = Ok o0 -> used E o0 o -> g_nvars g = 1%Z ->
  run_in E a o cost ftol out w = (Ok r, s) -> (g_max_iter g <= 1)%Z.
Proof. exact (fun X W => @emna_one_fails X W). Qed.
Print Assumptions C74_emna_one.

Example C74_met : exists o s, construct env0 (EMNA (num 0) (num 1) half (Z2f 100) None (fun _ => fnan)) (demo_args 3 1 None) = Ok o /\
  run env0 o cost0 ftol_default false tt = (Raise ValueError, s).
Proof. apply raised_ok. vm_compute. reflexivity. Qed.
