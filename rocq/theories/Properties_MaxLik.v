(** The univariate models learn maximum-likelihood parameters. *)
From Coq Require Import String List ZArith Bool Lia Reals Lra.
From Flocq Require Import Core IEEE754.BinarySingleNaN.
From Verif Require Import PyBase B64 NdArray Rand RandThms Models ModelThms ModelMore CatThms MaxLik Demo DemoModels DemoExt.
Import ListNotations.
Open Scope R_scope.

(* ------------------------------ C123 ------------------------------ *)
(** Bits: what is stored is within 2^-53 of the probability between the bounds under which the
    column of the selected individuals is likeliest; every other probability between the bounds
    makes it less likely. *)
Theorem C123_bits : forall n upper lower m d,
  unibin_made n upper lower m -> a_nc d = n -> Forall (bit_row n) (a_rows d) -> a_rows d <> [] ->
  (Z.of_nat (List.length (a_rows d)) <= 2 ^ 53)%Z -> prob lower -> prob upper ->
  exists m', unibin_learn d m = (Ok tt, m') /\
  forall j, (j < n)%nat -> exists p best, nth_error (ub_pm m') j = Some p /\ isfin p = true /\
    Rabs (B2R p - best) <= bpow radix2 (-53) /\ B2R lower <= best <= B2R upper /\
    forall q, B2R lower <= q <= B2R upper ->
      bits_likelihood j q (a_rows d) <= bits_likelihood j best (a_rows d) /\
      (q <> best -> bits_likelihood j q (a_rows d) < bits_likelihood j best (a_rows d)).
Proof. exact unibin_likely. Qed.
Print Assumptions C123_bits.

(** Categories: no distribution over the values of a column makes the column likelier than the
    frequencies, from which what is stored differs by at most 2^-53. *)
Theorem C123_categories : forall d t,
  List.length t = a_nc d -> a_rows d <> [] -> (forall j, (j < a_nc d)%nat -> discrete (column j (a_rows d))) ->
  (Z.of_nat (List.length (a_rows d)) <= 2 ^ 53)%Z ->
  exists t', cat_learn d t = (Ok tt, t') /\
    forall j, (j < a_nc d)%nat ->
      let col := column j (a_rows d) in
      exists p, nth_error t' j = Some (Some p) /\ NoDup (map fst p) /\ (forall x, In x (map fst p) <-> In x col) /\
        (forall x q, In (x, q) p -> Rabs (B2R q - frequency col x) <= bpow radix2 (-53)) /\
        forall q : cell -> R, (forall x, In x (map fst p) -> 0 <= q x) -> Rsum (map q (map fst p)) <= 1 ->
          cat_likelihood q col <= cat_likelihood (frequency col) col /\
          ((exists x, In x col /\ q x <> frequency col x) -> cat_likelihood q col < cat_likelihood (frequency col) col).
Proof. exact cat_likely. Qed.
Print Assumptions C123_categories.

(** Numbers, in exact arithmetic: no mean and no deviation from the bound upwards make the column
    likelier than what is stored. *)
Theorem C123_gauss : forall lower nc (d : list (list R)) pm pm', d <> [] ->
  unigauss_learn R_ops lower (real_col nc d) pm = (Ok tt, pm') ->
  forall i q, nth_error pm' i = Some q -> 0 < snd q ->
    let x := map (fun r => nth i r 0) d in
    lower <= snd q /\ forall mu sigma, lower <= sigma -> 0 < sigma ->
      normal_likelihood mu sigma x <= normal_likelihood (fst q) (snd q) x /\
      ((mu, sigma) <> q -> normal_likelihood mu sigma x < normal_likelihood (fst q) (snd q) x).
Proof. exact unigauss_likely. Qed.
Print Assumptions C123_gauss.

Example C123_met :
  (unibin_made 2 three_quarters quarter demo_unibin /\ a_nc demo_bits = 2%nat /\ Forall (bit_row 2) (a_rows demo_bits) /\
   a_rows demo_bits <> [] /\ prob quarter /\ prob three_quarters) /\
  (List.length (cat_new 2) = a_nc demo_cats /\ a_rows demo_cats <> [] /\
   (forall j, (j < a_nc demo_cats)%nat -> discrete (column j (a_rows demo_cats)))) /\
  exists pm' q, unigauss_learn R_ops 1 (real_col 1 [[2]; [4]]) [(0, 0)] = (Ok tt, pm') /\ nth_error pm' 0 = Some q /\ 0 < snd q.
Proof.
  split.
  - split; [exact demo_unibin_made|]. split; [reflexivity|]. split; [exact demo_bits_ok|]. split; [discriminate|]. split; split; reflexivity.
  - split; [split; [reflexivity|split; [discriminate|exact demo_cats_discrete]]|].
    assert (H : exists pm' q, unigauss_learn R_ops 1 (real_col 1 [[2]; [4]]) [(0, 0)] = (Ok tt, pm') /\ nth_error pm' 0 = Some q).
    { eexists. eexists. split; reflexivity. }
    destruct H as (pm' & q & H1 & H2). exists pm', q. split; [exact H1|]. split; [exact H2|].
    destruct (unigauss_real _ _ _ _ _ H1) as [_ H]. destruct (H 0%nat q H2) as (_ & -> & _).
    apply Rlt_le_trans with 1; [lra|apply Rmax_l].
Qed.
