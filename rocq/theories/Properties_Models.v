(** Properties of the probabilistic models, for every data set, every previous state of the
    model and every random stream. *)
From Coq Require Import String List ZArith Bool Lia Reals Lra.
From Flocq Require Import Core IEEE754.BinarySingleNaN.
From Verif Require Import PyBase B64 B64More NdArray Rand RandThms Models Inits ModelThms Kahan CatThms ModelMore ModelProps InitThms DemoModels.
Import ListNotations.
Open Scope nat_scope.

(* ------------------------------ C27 ------------------------------ *)
Theorem C27_bounds : forall n upper lower m d m',
  unibin_made n upper lower m -> unibin_learn d m = (Ok tt, m') ->
  Forall (fun p => isnan p = false -> fle lower p = true /\ fle p upper = true) (ub_pm m').
Proof. exact unibin_bounds_made. Qed.
Print Assumptions C27_bounds.

(** Every accepted constructor call makes such a model, learning keeps it one. *)
Theorem C27_made : forall n upper lower,
  ((exists m, unibin_new n upper lower = Ok m) <-> flt lower upper = true) /\
  (forall m, unibin_new n upper lower = Ok m -> unibin_made n upper lower m) /\
  (forall m d r m', unibin_made n upper lower m -> unibin_learn d m = (r, m') -> unibin_made n upper lower m').
Proof. exact unibin_made_lemma. Qed.
Print Assumptions C27_made.

Theorem C27_frequency : forall n upper lower m d,
  unibin_made n upper lower m -> a_nc d = n -> Forall (bit_row n) (a_rows d) -> a_rows d <> [] ->
  exists m', unibin_learn d m = (Ok tt, m') /\ List.length (ub_pm m') = n /\
    forall j, j < n -> exists p, nth_error (ub_pm m') j = Some p /\
      clamped lower upper (fdiv (Z2f (Z.of_nat (ones_in j (a_rows d)))) (Z2f (Z.of_nat (List.length (a_rows d))))) p.
Proof. exact unibin_bits_made. Qed.
Print Assumptions C27_frequency.

Theorem C27_empty : forall d m, a_rows d = [] -> unibin_learn d m = (Raise ZeroDivisionError, m).
Proof. exact unibin_empty. Qed.
Print Assumptions C27_empty.

Example C27_met : unibin_made 2 three_quarters quarter demo_unibin /\ a_nc demo_bits = 2 /\
  Forall (bit_row 2) (a_rows demo_bits) /\ a_rows demo_bits <> [] /\
  map (fun p => feq p three_quarters) (ub_pm (snd (unibin_learn demo_bits demo_unibin))) = [true; false].
Proof. split; [exact demo_unibin_made|]. split; [reflexivity|]. split; [exact demo_bits_ok|]. split; [discriminate|vm_compute; reflexivity]. Qed.

(* ------------------------------ C29 ------------------------------ *)
Theorem C29_never_frozen : forall n upper lower m d,
  unibin_made n upper lower m -> a_nc d = n -> Forall (bit_row n) (a_rows d) -> a_rows d <> [] ->
  (Z.of_nat (List.length (a_rows d)) <= 2 ^ 53)%Z ->
  exists m', unibin_learn d m = (Ok tt, m') /\
  forall W (g : rng W) size w, (0 <= size)%Z ->
  exists a w', unibin_sample g m' size w = (Ok a, w') /\ bit_arr n a /\ a_len a = Z.to_nat size /\
    forall i j, i < Z.to_nat size -> j < n ->
      let u := fst (g_unif g (Z.to_nat size) n w) i j in
      exists c, nth_error (nth i (a_rows a) []) j = Some c /\
        (flt u lower = true -> c = CI 1) /\ (fle upper u = true -> c = CI 0).
Proof. exact unibin_alive. Qed.
Print Assumptions C29_never_frozen.

(** Draws of both kinds exist when the bounds are strictly inside the unit interval. *)
Theorem C29_draws_exist : forall lower upper,
  flt (Z2f 0) lower = true -> flt lower upper = true -> flt upper fone = true ->
  (exists u, (fle (Z2f 0) u = true /\ flt u fone = true) /\ flt u lower = true) /\
  (exists u, (fle (Z2f 0) u = true /\ flt u fone = true) /\ fle upper u = true).
Proof. exact draws_exist. Qed.
Print Assumptions C29_draws_exist.

Example C29_met : flt (Z2f 0) quarter = true /\ flt quarter three_quarters = true /\ flt three_quarters fone = true.
Proof. repeat split; vm_compute; reflexivity. Qed.

(* ------------------------------ C30 ------------------------------ *)
(** Columns of strings or of integers. *)
Theorem C30_frequencies : forall d t,
  List.length t = a_nc d -> a_rows d <> [] -> (forall j, j < a_nc d -> discrete (column j (a_rows d))) ->
  exists t', cat_learn d t = (Ok tt, t') /\ List.length t' = a_nc d /\
    forall j, j < a_nc d ->
      let col := column j (a_rows d) in
      exists p, nth_error t' j = Some (Some p) /\
        NoDup (map fst p) /\
        (forall x, In x (map fst p) <-> In x col) /\
        (forall x q, In (x, q) p -> q = fdiv (Z2f (Z.of_nat (occurrences x col))) (Z2f (Z.of_nat (List.length col)))) /\
        Rsum (map (fun x => INR (occurrences x col) / INR (List.length col))%R (map fst p)) = 1%R /\
        ((Z.of_nat (List.length col) <= 2 ^ 22)%Z -> probs_ok (map snd p) = true).
Proof. exact cat_frequencies. Qed.
Print Assumptions C30_frequencies.

Example C30_met : List.length (cat_new 2) = a_nc demo_cats /\ a_rows demo_cats <> [] /\
  (forall j, j < a_nc demo_cats -> discrete (column j (a_rows demo_cats))) /\
  map (option_map (map fst)) (snd (cat_learn demo_cats (cat_new 2))) = [Some [CS "a"; CS "b"]; Some [CS "x"; CS "y"]]%string.
Proof. split; [reflexivity|]. split; [discriminate|]. split; [exact demo_cats_discrete|vm_compute; reflexivity]. Qed.

(* ------------------------------ C33 ------------------------------ *)
(** With doubles, whatever order numpy adds in. *)
Theorem C33_deviation : forall s lower col pm pm',
  isnan lower = false -> unigauss_learn (b64_ops s) lower col pm = (Ok tt, pm') ->
  Forall (fun q => isnan (snd q) = false -> fle lower (snd q) = true) pm'.
Proof. exact unigauss_sd. Qed.
Print Assumptions C33_deviation.

(** In exact arithmetic. *)
Theorem C33_exact : forall lower nc (d : list (list R)) pm pm',
  unigauss_learn R_ops lower (real_col nc d) pm = (Ok tt, pm') ->
  List.length pm' = List.length pm /\
  forall i q, nth_error pm' i = Some q ->
    let x := map (fun r => nth i r 0%R) d in
    (fst q = avg x /\ snd q = Rmax lower (sqrt (pop_var x)) /\
    (d <> [] -> forall lo hi, (forall v, In v x -> lo <= v <= hi) -> lo <= fst q <= hi))%R.
Proof. exact unigauss_real. Qed.
Print Assumptions C33_exact.

Example C33_met : exists pm', unigauss_learn (b64_ops seq_sum) quarter (num_col demo_bits) (gauss_new 2) = (Ok tt, pm') /\
  map (fun q => (feq (fst q) fone, feq (snd q) quarter)) pm' = [(true, true); (false, false)].
Proof. eexists. split; [reflexivity|vm_compute; reflexivity]. Qed.

Example C33_exact_met : exists pm', unigauss_learn R_ops 1%R (real_col 1 [[2]; [4]]%R) [(0, 0)]%R = (Ok tt, pm').
Proof. eexists. reflexivity. Qed.

(* ------------------------------ C34 ------------------------------ *)
(** The mean of the training data stands where the documentation has the previous mean. *)
Theorem C34_rule_partial : forall lower alpha nc (d : list (list R)) pm pm',
  adapt_learn R_ops lower alpha (real_col nc d) pm = (Ok tt, pm') ->
  List.length pm' = List.length pm /\
  forall i q, nth_error pm' i = Some q ->
    let x := map (fun r => nth i r 0%R) d in
    2 <= List.length d /\
    (fst q = (1 - alpha) * avg x + alpha * (nth 0 x 0 + nth 1 x 0 - nth (List.length d - 1) x 0) /\
    snd q = Rmax lower (sqrt (pop_var x)))%R.
Proof. exact adapt_real. Qed.
Print Assumptions C34_rule_partial.

Theorem C34_previous_mean_refuted : exists lower alpha (d : list (list R)) pm pm',
  adapt_learn R_ops lower alpha (real_col 1 d) pm = (Ok tt, pm') /\
  exists m q, nth_error pm 0 = Some m /\ nth_error pm' 0 = Some q /\
    let x := map (fun r => nth 0 r 0%R) d in
    (fst q <> (1 - alpha) * fst m + alpha * (nth 0 x 0 + nth 1 x 0 - nth (List.length d - 1) x 0))%R.
Proof. exact adapt_previous_mean. Qed.
Print Assumptions C34_previous_mean_refuted.

Theorem C34_deviation : forall s lower alpha col pm pm',
  isnan lower = false -> adapt_learn (b64_ops s) lower alpha col pm = (Ok tt, pm') ->
  Forall (fun q => isnan (snd q) = false -> fle lower (snd q) = true) pm'.
Proof. exact adapt_sd. Qed.
Print Assumptions C34_deviation.

(** Fewer than two selected individuals cannot be learned from. *)
Theorem C34_too_few : forall s lower alpha d pm,
  a_len d < 2 -> pm <> [] -> fst (adapt_learn (b64_ops s) lower alpha (num_col d) pm) <> Ok tt.
Proof. exact adapt_too_few. Qed.
Print Assumptions C34_too_few.

Example C34_met : exists pm', adapt_learn (b64_ops seq_sum) quarter half (num_col demo_bits) (gauss_new 2) = (Ok tt, pm') /\
  map (fun q => feq (fst q) fone) pm' = [true; false].
Proof. eexists. split; [reflexivity|vm_compute; reflexivity]. Qed.

(* ------------------------------ C35 ------------------------------ *)
(** With doubles, whatever order numpy adds in. *)
Theorem C35_covariance : forall s lower upper d p p',
  fle lower upper = true ->
  multigauss_learn (b64_ops s) lower upper (a_nc d) (num_col d) p = (Ok tt, p') ->
  exists m, mg_cov p' = CovMat m /\ List.length m = a_nc d /\
    (forall i j v, entry m i j = Some v -> entry m j i = Some v) /\
    (forall i j v, entry m i j = Some v -> i <> j -> isnan v = false -> fle lower v = true /\ fle v upper = true).
Proof. exact multigauss_symmetric. Qed.
Print Assumptions C35_covariance.

Theorem C35_exact : forall lower upper nc (d : list (list R)) p p',
  multigauss_learn R_ops lower upper nc (real_col nc d) p = (Ok tt, p') -> 2 <= List.length d ->
  (forall k, k < List.length (mg_means p) -> nth_error (mg_means p') k = Some (avg (map (fun r => nth k r 0%R) d))) /\
  exists m, mg_cov p' = CovMat m /\ List.length m = nc /\
    forall i j, i < nc -> j < nc -> entry m i j =
      Some (if Nat.eqb i j then sqrt (pop_var (map (fun r => nth i r 0%R) d))
            else Rmin upper (Rmax lower (sample_cov (map (fun r => nth i r 0%R) d) (map (fun r => nth j r 0%R) d)))).
Proof. exact multigauss_real. Qed.
Print Assumptions C35_exact.

Example C35_met : exists p', multigauss_learn (b64_ops seq_sum) quarter fone 2 (num_col demo_bits) (mkMG [Z2f 0; Z2f 0] (CovScalar (Z2f 0))) = (Ok tt, p').
Proof. eexists. reflexivity. Qed.
Example C35_exact_met : exists p', multigauss_learn R_ops 1%R 2%R 2 (real_col 2 [[2; 1]; [4; 0]]%R) (mkMG [0; 0]%R (CovScalar 0%R)) = (Ok tt, p').
Proof. eexists. reflexivity. Qed.

(** One variable cannot be learned. *)
Theorem C35_one_variable_refuted : forall s lower upper d p,
  a_nc d = 1 -> fst (multigauss_learn (b64_ops s) lower upper 1 (num_col d) p) <> Ok tt.
Proof. exact multigauss_one. Qed.
Print Assumptions C35_one_variable_refuted.

(* ------------------------------ C36 ------------------------------ *)
(** A variable whose selected values agree gets spread zero whatever lower_factor is, and the
    matrix is then not positive semidefinite. *)
Theorem C36_spread_refuted : forall lower upper nc (d : list (list R)) p p' i j c,
  multigauss_learn R_ops lower upper nc (real_col nc d) p = (Ok tt, p') ->
  (0 < lower)%R -> (lower <= upper)%R -> d <> [] -> i < nc -> j < nc -> i <> j ->
  (forall r, In r d -> nth i r 0%R = c) ->
  exists m, mg_cov p' = CovMat m /\ entry m i i = Some 0%R /\ exists v, (quad nc m v < 0)%R.
Proof. exact multigauss_degenerate. Qed.
Print Assumptions C36_spread_refuted.

Example C36_met : exists p', multigauss_learn R_ops 1%R 2%R 2 (real_col 2 [[7; 1]; [7; 0]]%R) (mkMG [0; 0]%R (CovScalar 0%R)) = (Ok tt, p').
Proof. eexists. reflexivity. Qed.

(* ------------------------------ C37 ------------------------------ *)
(** Univariate and multivariate Gaussian models, for every arithmetic. *)
Theorem C37_gaussian : forall (T : Type) (o : ops T) (lower alpha upper : T) nc (col : nat -> res (list T)),
  (forall p1 p2, List.length p1 = List.length p2 -> forgets (unigauss_learn o lower col) p1 p2) /\
  (forall p1 p2, List.length p1 = List.length p2 -> forgets (adapt_learn o lower alpha col) p1 p2) /\
  (forall p1 p2, List.length (mg_means p1) = List.length (mg_means p2) -> forgets (multigauss_learn o lower upper nc col) p1 p2).
Proof. exact gaussian_forgets. Qed.
Print Assumptions C37_gaussian.

Theorem C37_discrete : forall d,
  (forall m1 m2, ub_n m1 = ub_n m2 -> ub_lo m1 = ub_lo m2 -> ub_hi m1 = ub_hi m2 -> forgets (unibin_learn d) m1 m2) /\
  (forall t1 t2, List.length t1 = List.length t2 -> forgets (cat_learn d) t1 t2).
Proof. exact discrete_forgets. Qed.
Print Assumptions C37_discrete.

Example C37_met : fst (unibin_learn demo_bits demo_unibin) = Ok tt /\ fst (cat_learn demo_cats (cat_new 2)) = Ok tt.
Proof. split; vm_compute; reflexivity. Qed.

(* ------------------------------ C51 ------------------------------ *)
(** np.random.choice(a, size, p). *)
Theorem C51_choice : forall W A (g : rng W) (a : list A) size p w,
  unif_ok g -> Forall prob p -> (Z.of_nat (List.length p) <= 2 ^ 53)%Z ->
  (exists out, fst (np_choice g a size p w) = Ok out /\
     List.length out = Z.to_nat size /\ (0 <= size)%Z /\ List.length p = List.length a /\
     Forall (fun x => exists k, nth_error a k = Some x /\ (0 < B2R (nth k p fnan))%R) out) \/
  fst (np_choice g a size p w) = Raise ValueError.
Proof. exact @np_choice_spec. Qed.
Print Assumptions C51_choice.

(** CategoricalSampling. *)
Theorem C51_declared : forall W (g : rng W) str_of s n values freq i size w a w',
  unif_ok g -> cat_init_new s n values freq = Ok i ->
  (forall j v f, nth_error values j = Some v -> nth_error freq j = Some f -> category v f) ->
  cat_init_sample g str_of i size w = (Ok a, w') ->
  a_nc a = Z.to_nat n /\ (0 < Z.to_nat n -> a_len a = Z.to_nat size) /\ Forall (fun r => List.length r = Z.to_nat n) (a_rows a) /\
  (0 < Z.to_nat n -> a_dt a <> DFloat) /\
  forall j v f, j < Z.to_nat n -> nth_error values j = Some v -> nth_error freq j = Some f ->
    Forall (fun c => exists k q, nth_error v k = Some c /\ nth_error f k = Some q /\ flt (Z2f 0) q = true) (column j (a_rows a)).
Proof. exact @cat_init_spec. Qed.
Print Assumptions C51_declared.

Example C51_met : unif_ok demo_rng /\
  (forall j v f, nth_error demo_values j = Some v -> nth_error demo_freq j = Some f -> category v f) /\
  match cat_init_new seq_sum 1 demo_values demo_freq with
  | Ok i => match fst (cat_init_sample demo_rng (fun _ => ""%string) i 2 tt) with Ok a => a_rows a | Raise _ => [] end
  | Raise _ => []
  end = [[CS "b"]; [CS "b"]]%string.
Proof. split; [exact demo_unif_ok|]. split; [exact demo_category|vm_compute; reflexivity]. Qed.

(** UniCategorical: only values present in the training column are sampled, and sampling a
    learned model always succeeds. *)
Theorem C51_learned : forall W (g : rng W) str_of d t t' size w a w',
  unif_ok g -> cat_learn d t = (Ok tt, t') -> List.length t = a_nc d ->
  a_rows d <> [] -> (Z.of_nat (List.length (a_rows d)) <= 2 ^ 53)%Z ->
  (forall j, j < a_nc d -> discrete (column j (a_rows d))) ->
  cat_sample g str_of t' size w = (Ok a, w') ->
  a_nc a = a_nc d /\ (0 < a_nc d -> a_len a = Z.to_nat size) /\ Forall (fun r => List.length r = a_nc a) (a_rows a) /\
  (0 < a_nc d -> a_dt a <> DFloat) /\
  forall j, j < a_nc d -> incl (column j (a_rows a)) (column j (a_rows d)).
Proof. exact @cat_sample_spec. Qed.
Print Assumptions C51_learned.

Theorem C51_learned_total : forall W (g : rng W) str_of d t t' size w,
  unif_ok g -> cat_learn d t = (Ok tt, t') -> List.length t = a_nc d ->
  a_rows d <> [] -> (Z.of_nat (List.length (a_rows d)) <= 2 ^ 22)%Z ->
  (forall j, j < a_nc d -> discrete (column j (a_rows d))) -> (0 <= size)%Z ->
  exists a, fst (cat_sample g str_of t' size w) = Ok a.
Proof. exact @cat_sample_total. Qed.
Print Assumptions C51_learned_total.

Example C51_learned_met :
  fst (cat_sample demo_rng (fun _ => ""%string) (snd (cat_learn demo_cats (cat_new 2))) 1 tt) = Ok (mkArr DObj 2 [[CS "a"; CS "x"]]%string).
Proof. vm_compute. reflexivity. Qed.
