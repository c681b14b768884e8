(** How likely each sampled value is, counted over the 2^53 equally likely values k / 2^53 of
    numpy's [random_sample]. *)
From Coq Require Import String List ZArith Bool Lia Reals Lra.
From Flocq Require Import Core IEEE754.BinarySingleNaN.
From Verif Require Import PyBase B64 NdArray Rand RandThms Models Inits ModelThms Kahan CatThms ModelMore InitThms ChoiceInt FloatSum Chance ChanceThms DemoModels.
Import ListNotations.
Open Scope R_scope.

(* ------------------------------ C120 ------------------------------ *)
(** The counted probability of an event is a number in its own right: there is at most one. *)
Theorem C120_counted : forall P q q', chance P q -> chance P q' -> q = q'.
Proof. exact chance_unique. Qed.
Print Assumptions C120_counted.

(** Sampling bits from a vector of probabilities (UniBin, UniBinGenInit). *)
Theorem C120_bits : forall (m : unibin) (j : nat) (p : f64),
  List.length (ub_pm m) = ub_n m -> nth_error (ub_pm m) j = Some p -> prob p ->
  exists (one : f64 -> bool) q, chance (fun x => one x = true) q /\ B2R p <= q < B2R p + bpow radix2 (-53) /\
  forall W (g : rng W) size w a w', unibin_sample g m size w = (Ok a, w') -> forall i, (i < Z.to_nat size)%nat ->
    nth_error (nth i (a_rows a) []) j = Some (CI (if one (fst (g_unif g (Z.to_nat size) (ub_n m) w) i j) then 1 else 0)%Z).
Proof. exact bits_chance. Qed.
Print Assumptions C120_bits.

(** UniBin after learning: the clamped frequency of ones. *)
Theorem C120_learned_bits : forall n upper lower m d,
  unibin_made n upper lower m -> a_nc d = n -> Forall (bit_row n) (a_rows d) -> a_rows d <> [] ->
  (Z.of_nat (List.length (a_rows d)) <= 2 ^ 53)%Z -> prob lower -> prob upper ->
  exists m', unibin_learn d m = (Ok tt, m') /\
  forall j, (j < n)%nat -> exists (one : f64 -> Prop) q,
    chance one q /\
    Rabs (q - Rmin (B2R upper) (Rmax (B2R lower) (INR (ones_in j (a_rows d)) / INR (List.length (a_rows d))))) <= bpow radix2 (-52) /\
    forall W (g : rng W) size w a w', unif_ok g -> unibin_sample g m' size w = (Ok a, w') ->
    forall i, (i < Z.to_nat size)%nat ->
      let x := fst (g_unif g (Z.to_nat size) n w) i j in
      let c := nth_error (nth i (a_rows a) []) j in
      (one x -> c = Some (CI 1)) /\ (~ one x -> c = Some (CI 0)).
Proof. exact learned_bits_chance. Qed.
Print Assumptions C120_learned_bits.

(** np.random.choice with probabilities, over at most 2^40 distinct values. *)
Theorem C120_choice : forall (p : list f64),
  few (List.length p) -> Forall prob p -> probs_ok p = true ->
  forall k, (k < List.length p)%nat -> exists (hit : f64 -> Prop) q,
    chance hit q /\ Rabs (q - B2R (nth k p fnan) / Rtot p) <= INR (List.length p) * bpow radix2 (-48) /\
    forall A (a : list A) W (g : rng W) size w out w', NoDup a -> unif_ok g -> np_choice g a size p w = (Ok out, w') ->
    forall i, (i < Z.to_nat size)%nat ->
      (nth_error out i = nth_error a k <-> hit (fst (g_unif g (Z.to_nat size) 1 w) i 0%nat)).
Proof. exact choice_chance. Qed.
Print Assumptions C120_choice.

(** UniCategorical after learning: the frequency of the value in the column. *)
Theorem C120_learned : forall (d : arr) t t',
  cat_learn d t = (Ok tt, t') -> List.length t = a_nc d ->
  a_rows d <> [] -> (Z.of_nat (List.length (a_rows d)) <= 2 ^ 22)%Z ->
  (forall j, (j < a_nc d)%nat -> discrete (column j (a_rows d))) ->
  forall j x, (j < a_nc d)%nat -> In x (column j (a_rows d)) ->
  exists (hit : f64 -> Prop) q,
    chance hit q /\ Rabs (q - INR (occurrences x (column j (a_rows d))) / INR (List.length (a_rows d))) <= bpow radix2 (-25) /\
    forall W (g : rng W) str_of size w a w', unif_ok g -> cat_sample g str_of t' size w = (Ok a, w') ->
    forall i, (i < Z.to_nat size)%nat ->
      (nth j (nth i (a_rows a) []) (CF fnan) = x <-> hit (fst (g_unif g (Z.to_nat size) 1 (world_at g size w j)) i 0%nat)).
Proof. exact learned_chance. Qed.
Print Assumptions C120_learned.

(** CategoricalSampling, for frequencies adding up to one within [d]. *)
Theorem C120_declared : forall s n values freq it,
  cat_init_new s n values freq = Ok it ->
  (forall j v f, nth_error values j = Some v -> nth_error freq j = Some f -> category v f) ->
  forall j v f k x q d, (j < Z.to_nat n)%nat -> nth_error values j = Some v -> nth_error freq j = Some f ->
  nth_error v k = Some x -> nth_error f k = Some q -> NoDup v -> (Z.of_nat (List.length f) <= 2 ^ 22)%Z ->
  Rabs (real_sum f - 1) <= d -> d <= / 4 ->
  exists (hit : f64 -> Prop) r,
    chance hit r /\ Rabs (r - B2R q) <= 2 * d + bpow radix2 (-25) /\
    forall W (g : rng W) str_of size w a w', unif_ok g -> cat_init_sample g str_of it size w = (Ok a, w') ->
    forall i, (i < Z.to_nat size)%nat ->
      (nth j (nth i (a_rows a) []) (CF fnan) = x <-> hit (fst (g_unif g (Z.to_nat size) 1 (world_at g size w j)) i 0%nat)).
Proof. exact declared_chance. Qed.
Print Assumptions C120_declared.

Example C120_met :
  (List.length (ub_pm (bi_pm (unibin_init_new 2 []))) = ub_n (bi_pm (unibin_init_new 2 [])) /\
   nth_error (ub_pm (bi_pm (unibin_init_new 2 []))) 1 = Some (lit 1 (-1)) /\ prob (lit 1 (-1))) /\
  (unibin_made 2 three_quarters quarter demo_unibin /\ a_nc demo_bits = 2%nat /\ Forall (bit_row 2) (a_rows demo_bits) /\
   a_rows demo_bits <> [] /\ prob quarter /\ prob three_quarters) /\
  (few (List.length [quarter; three_quarters]) /\ Forall prob [quarter; three_quarters] /\ probs_ok [quarter; three_quarters] = true) /\
  ((exists t', cat_learn demo_cats (cat_new 2) = (Ok tt, t')) /\ List.length (cat_new 2) = a_nc demo_cats /\
   a_rows demo_cats <> [] /\ (Z.of_nat (List.length (a_rows demo_cats)) <= 2 ^ 22)%Z /\
   (forall j, (j < a_nc demo_cats)%nat -> discrete (column j (a_rows demo_cats))) /\ In (CS "b") (column 0 (a_rows demo_cats))).
Proof.
  split; [split; [reflexivity|split; [reflexivity|split; reflexivity]]|]. split.
  - split; [exact demo_unibin_made|]. split; [reflexivity|]. split; [exact demo_bits_ok|]. split; [discriminate|]. split; split; reflexivity.
  - split.
    + split; [unfold few; cbn; lia|]. split; [repeat constructor|vm_compute; reflexivity].
    + split; [eexists; reflexivity|]. split; [reflexivity|]. split; [discriminate|]. split; [cbn; lia|]. split; [exact demo_cats_discrete|cbn; auto].
Qed.

(** A fair coin: exactly half of the random values are below 0.5. *)
Example C120_half : chance (fun x => flt x (lit 1 (-1)) = true) (1 / 2).
Proof. exact chance_half. Qed.
