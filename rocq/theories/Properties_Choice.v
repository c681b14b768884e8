(** Which uniform draws give which sampled value, and how likely that makes it. *)
From Coq Require Import String List ZArith Bool Lia Reals Lra.
From Flocq Require Import Core IEEE754.BinarySingleNaN.
From Verif Require Import PyBase B64 NdArray Rand RandThms Models Inits ModelThms Kahan CatThms ModelMore InitThms ChoiceInt ChoiceMore DemoModels.
Import ListNotations.
Open Scope R_scope.

(* ------------------------------ C78 ------------------------------ *)
(** UniCategorical after learning.  The generator draws one uniform number per row for every
    column in turn; [world_at] is its state before column [j]. *)
Theorem C78_learned : forall (d : arr) t t',
  cat_learn d t = (Ok tt, t') -> List.length t = a_nc d ->
  a_rows d <> [] -> (Z.of_nat (List.length (a_rows d)) <= 2 ^ 22)%Z ->
  (forall j, (j < a_nc d)%nat -> discrete (column j (a_rows d))) ->
  forall j x, (j < a_nc d)%nat -> In x (column j (a_rows d)) ->
  exists lo hi : R,
    0 <= lo <= hi /\ hi <= 1 /\
    Rabs (hi - lo - INR (occurrences x (column j (a_rows d))) / INR (List.length (a_rows d))) <= bpow radix2 (-26) /\
    forall W (g : rng W) str_of size w a w', unif_ok g -> cat_sample g str_of t' size w = (Ok a, w') ->
    forall i, (i < Z.to_nat size)%nat ->
      (nth j (nth i (a_rows a) []) (CF fnan) = x <->
       lo <= B2R (fst (g_unif g (Z.to_nat size) 1 (world_at g size w j)) i 0%nat) < hi).
Proof. exact sampled_as_learned. Qed.
Print Assumptions C78_learned.

(** CategoricalSampling, for frequencies adding up to one within [d]. *)
Theorem C78_declared : forall s n values freq it,
  cat_init_new s n values freq = Ok it ->
  (forall j v f, nth_error values j = Some v -> nth_error freq j = Some f -> category v f) ->
  forall j v f k x q d, (j < Z.to_nat n)%nat -> nth_error values j = Some v -> nth_error freq j = Some f ->
  nth_error v k = Some x -> nth_error f k = Some q -> NoDup v -> (Z.of_nat (List.length f) <= 2 ^ 22)%Z ->
  Rabs (real_sum f - 1) <= d -> d <= / 4 ->
  exists lo hi : R,
    0 <= lo <= hi /\ hi <= 1 /\ Rabs (hi - lo - B2R q) <= 2 * d + bpow radix2 (-26) /\
    forall W (g : rng W) str_of size w a w', unif_ok g -> cat_init_sample g str_of it size w = (Ok a, w') ->
    forall i, (i < Z.to_nat size)%nat ->
      (nth j (nth i (a_rows a) []) (CF fnan) = x <->
       lo <= B2R (fst (g_unif g (Z.to_nat size) 1 (world_at g size w j)) i 0%nat) < hi).
Proof. exact sampled_as_declared. Qed.
Print Assumptions C78_declared.

Example C78_learned_met : (exists t', cat_learn demo_cats (cat_new 2) = (Ok tt, t')) /\ List.length (cat_new 2) = a_nc demo_cats /\
  a_rows demo_cats <> [] /\ (Z.of_nat (List.length (a_rows demo_cats)) <= 2 ^ 22)%Z /\
  (forall j, (j < a_nc demo_cats)%nat -> discrete (column j (a_rows demo_cats))) /\
  In (CS "b") (column 0 (a_rows demo_cats)) /\ occurrences (CS "b") (column 0 (a_rows demo_cats)) = 1%nat.
Proof.
  split; [eexists; reflexivity|]. split; [reflexivity|]. split; [discriminate|]. split; [cbn; lia|].
  split; [exact demo_cats_discrete|]. split; [cbn; auto|reflexivity].
Qed.

Example C78_declared_met : (exists it, cat_init_new seq_sum 1 demo_values demo_freq = Ok it) /\
  (forall j v f, nth_error demo_values j = Some v -> nth_error demo_freq j = Some f -> category v f) /\
  NoDup [CS "a"; CS "b"; CS "c"] /\ Rabs (real_sum [half; half; Z2f 0] - 1) <= 0.
Proof.
  split; [eexists; reflexivity|]. split; [exact demo_category|]. split.
  - repeat constructor; cbn; intuition discriminate.
  - unfold real_sum, fold_right. rewrite (proj1 (lit_R 1 (-1) (1 / 2) ltac:(lia) ltac:(lia) ltac:(cbn; lra)) : B2R half = 1 / 2).
    rewrite B64More.Z2f_0_R. replace (1 / 2 + (1 / 2 + (0 + 0)) - 1) with 0 by lra. rewrite Rabs_R0. lra.
Qed.

(* ------------------------------ C79 ------------------------------ *)
Theorem C79_bits : forall n upper lower m d,
  unibin_made n upper lower m -> a_nc d = n -> Forall (bit_row n) (a_rows d) -> a_rows d <> [] ->
  (Z.of_nat (List.length (a_rows d)) <= 2 ^ 53)%Z -> isfin lower = true -> isfin upper = true ->
  exists m', unibin_learn d m = (Ok tt, m') /\
  forall j, (j < n)%nat -> exists p : R,
    Rabs (p - Rmin (B2R upper) (Rmax (B2R lower) (INR (ones_in j (a_rows d)) / INR (List.length (a_rows d))))) <= bpow radix2 (-53) /\
    forall W (g : rng W) size w a w', unif_ok g -> unibin_sample g m' size w = (Ok a, w') ->
    forall i, (i < Z.to_nat size)%nat ->
      let u := fst (g_unif g (Z.to_nat size) n w) i j in
      nth_error (nth i (a_rows a) []) j = Some (if Rlt_dec (B2R u) p then CI 1 else CI 0).
Proof. exact bits_as_learned. Qed.
Print Assumptions C79_bits.

Example C79_met : unibin_made 2 three_quarters quarter demo_unibin /\ a_nc demo_bits = 2%nat /\
  Forall (bit_row 2) (a_rows demo_bits) /\ a_rows demo_bits <> [] /\ isfin quarter = true /\ isfin three_quarters = true /\
  ones_in 0 (a_rows demo_bits) = 3%nat /\ ones_in 1 (a_rows demo_bits) = 1%nat.
Proof.
  split; [exact demo_unibin_made|]. split; [reflexivity|]. split; [exact demo_bits_ok|]. split; [discriminate|].
  split; [reflexivity|]. split; [reflexivity|]. split; reflexivity.
Qed.
