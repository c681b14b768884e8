(** The counted probabilities of what the binary and categorical samplers return. *)
From Coq Require Import String List ZArith Bool Lia Reals Lra.
From Flocq Require Import Core IEEE754.BinarySingleNaN.
From Verif Require Import PyBase B64 B64More NdArray Rand RandThms Models Inits ModelThms Kahan CatThms ModelMore InitThms ChoiceInt ChoiceMore FloatSum Chance.
Import ListNotations.
Open Scope R_scope.

Lemma bits_chance (m : unibin) (j : nat) (p : f64) :
  List.length (ub_pm m) = ub_n m -> nth_error (ub_pm m) j = Some p -> prob p ->
  exists (one : f64 -> bool) q, chance (fun x => one x = true) q /\ B2R p <= q < B2R p + bpow radix2 (-53) /\
  forall W (g : rng W) size w a w', unibin_sample g m size w = (Ok a, w') -> forall i, (i < Z.to_nat size)%nat ->
    nth_error (nth i (a_rows a) []) j = Some (CI (if one (fst (g_unif g (Z.to_nat size) (ub_n m) w) i j) then 1 else 0)%Z).
Proof.
  intros Hl Hj Hp. destruct (chance_lt p Hp) as (q & Hq & Rq). exists (fun x => flt x p), q. split; [exact Hq|]. split; [exact Rq|].
  intros W g size w a w' Hs i Hi. apply unibin_sample_spec in Hs as (_ & _ & _ & S3 & _ & S5).
  assert (Hjn : (j < ub_n m)%nat) by (rewrite <- Hl; apply nth_error_Some; congruence).
  assert (Hw : a_nc a = ub_n m).
  { rewrite Hl in S3. unfold bres in S3. rewrite Nat.eqb_refl in S3. congruence. }
  rewrite S5 by lia. rewrite Hl.
  assert (Hbi : bidx (ub_n m) j = j) by (unfold bidx; destruct (Nat.eqb_spec (ub_n m) 1); [lia|reflexivity]).
  rewrite Hbi, (nth_error_nth _ _ fnan Hj). reflexivity.
Qed.

Lemma learned_bits_chance n upper lower m d :
  unibin_made n upper lower m -> a_nc d = n -> Forall (bit_row n) (a_rows d) -> a_rows d <> [] ->
  (Z.of_nat (List.length (a_rows d)) <= 2 ^ 53)%Z -> prob lower -> prob upper ->
  exists m', unibin_learn d m = (Ok tt, m') /\
  forall j, (j < n)%nat -> exists (one : f64 -> Prop) q,
    chance one q /\
    Rabs (q - Rmin (B2R upper) (Rmax (B2R lower) (INR (ones_in j (a_rows d)) / INR (List.length (a_rows d))))) <= bpow radix2 (-52) /\
    forall W (g : rng W) size w a w', unif_ok g -> unibin_sample g m' size w = (Ok a, w') ->
    forall i, (i < Z.to_nat size)%nat ->
      let x := fst (g_unif g (Z.to_nat size) n w) i j in
      let c := nth_error (nth i (a_rows a) []) j in
      (one x -> c = Some (CI 1)) /\ (~ one x -> c = Some (CI 0)).
Proof.
  intros Hm Hn Hr Hne Hlen Pl Pu. destruct (prob_R _ Pl) as [Fl Rl]. destruct (prob_R _ Pu) as [Fu Ru].
  destruct (unibin_bits_made n upper lower m d Hm Hn Hr Hne) as (m1 & Hl1 & Hlp & _).
  destruct (bits_as_learned n upper lower m d Hm Hn Hr Hne Hlen Fl Fu) as (m' & Hl & H). exists m'. split; [exact Hl|]. intros j Hj.
  assert (m1 = m') by congruence. subst m1.
  destruct (H j Hj) as (p & Hnear & Hcell). clear H.
  set (c := Rmin (B2R upper) (Rmax (B2R lower) (INR (ones_in j (a_rows d)) / INR (List.length (a_rows d))))) in *.
  assert (Hc : 0 <= c <= 1).
  { unfold c. split; [apply Rmin_glb; [lra|]; eapply Rle_trans; [|apply Rmax_l]; lra|]. eapply Rle_trans; [apply Rmin_l|]. lra. }
  set (p1 := Rmax 0 (Rmin 1 p)). assert (Hp1 : 0 <= p1 <= 1).
  { unfold p1. split; [apply Rmax_l|]. apply Rmax_lub; [lra|apply Rmin_l]. }
  assert (Hp1n : Rabs (p1 - c) <= bpow radix2 (-53)).
  { eapply Rle_trans; [|exact Hnear]. unfold p1, Rmax, Rmin. repeat destruct Rle_dec; unfold Rabs; repeat destruct Rcase_abs; lra. }
  destruct (chance_between (fun x => 0 <= B2R x < p1) 0 p1) as (q & Hq & Eq); [lra|lra|intros; tauto|].
  exists (fun x => 0 <= B2R x < p1), q. split; [exact Hq|]. split.
  - replace (q - c) with ((q - (p1 - 0)) + (p1 - c)) by ring. eapply Rle_trans; [apply Rabs_triang|].
    assert (E : bpow radix2 (-52) = 2 * u) by (unfold u; change 2 with (bpow radix2 1); rewrite <- bpow_plus; reflexivity). rewrite E. fold u in Hp1n. lra.
  - intros W g size w a w' Hg Hs i Hi. cbv zeta. specialize (Hcell W g size w a w' Hg Hs i Hi). cbv zeta in Hcell. rewrite Hcell.
    destruct (Hg (Z.to_nat size) n w i j) as [U0 U1]. destruct (unit_R _ U0 U1) as [_ Rx].
    set (x := B2R (fst (g_unif g (Z.to_nat size) n w) i j)) in *.
    assert (Hiff : x < p <-> x < p1).
    { unfold p1, Rmax, Rmin. repeat destruct Rle_dec; lra. }
    destruct (Rlt_dec x p) as [C|C]; split; intros K; try reflexivity; exfalso; rewrite Hiff in C; tauto || (apply K; lra) || (apply C; lra).
Qed.

Lemma choice_chance (p : list f64) :
  few (List.length p) -> Forall prob p -> probs_ok p = true ->
  forall k, (k < List.length p)%nat -> exists (hit : f64 -> Prop) q,
    chance hit q /\ Rabs (q - B2R (nth k p fnan) / Rtot p) <= INR (List.length p) * bpow radix2 (-48) /\
    forall A (a : list A) W (g : rng W) size w out w', NoDup a -> unif_ok g -> np_choice g a size p w = (Ok out, w') ->
    forall i, (i < Z.to_nat size)%nat ->
      (nth_error out i = nth_error a k <-> hit (fst (g_unif g (Z.to_nat size) 1 w) i 0%nat)).
Proof.
  intros Hf Hp Hok k Hk. assert (H53 : (Z.of_nat (List.length p) <= 2 ^ 53)%Z) by (unfold few in Hf; lia).
  pose proof (probs_ok_pos p Hp Hok) as Hpos.
  destruct (chance_lookup p Hf Hp Hpos k Hk) as (q & Hq & Eq). exists (fun x => searchsorted_right (cdf p) x = k), q. split; [exact Hq|]. split; [exact Eq|].
  intros A a W g size w out w' Hnd Hg Hc i Hi. unfold np_choice in Hc. destruct (size <? 0)%Z; [discriminate|].
  destruct (Nat.eqb (List.length a) 0 && negb (size =? 0)%Z); [discriminate|].
  destruct (Nat.eqb_spec (List.length p) (List.length a)) as [Hl|]; [|discriminate]. cbn [negb] in Hc. rewrite Hok in Hc. cbn [negb] in Hc.
  pose proof (Hg (Z.to_nat size) 1%nat w) as Hu. destruct (g_unif g (Z.to_nat size) 1 w) as [v w2]. cbn [fst] in *.
  assert (Hout : gather (tabulate (Z.to_nat size) (fun i => searchsorted_right (cdf p) (v i 0%nat))) a = Ok out) by congruence.
  apply gather_ok_Forall2 in Hout.
  assert (Ho : nth_error out i = nth_error a (searchsorted_right (cdf p) (v i 0%nat))).
  { pose proof (nth_error_tabulate (Z.to_nat size) (fun i => searchsorted_right (cdf p) (v i 0%nat)) i Hi) as Ht. cbv beta in Ht. clear - Hout Ht. revert i Ht.
    set (ks := tabulate _ _) in *. clearbody ks. intros i. generalize (searchsorted_right (cdf p) (v i 0%nat)) as k0. revert i.
    induction Hout as [|k1 x ks' xs Hkx Hrest IH]; intros i k0 Ht; destruct i as [|i]; cbn in *; try discriminate.
    - assert (k1 = k0) by congruence. subst k1. symmetry. exact Hkx.
    - apply (IH i), Ht. }
  rewrite Ho. destruct (Hu i 0%nat) as [U0 U1]. destruct (choice_pos p H53 Hp Hpos _ U0 U1) as [Hr _]. cbv zeta in Hr.
  split; [|intros ->; reflexivity]. intros E.
  apply (proj1 (NoDup_nth_error a) Hnd); [lia|exact E].
Qed.

Lemma learned_chance (d : arr) t t' :
  cat_learn d t = (Ok tt, t') -> List.length t = a_nc d ->
  a_rows d <> [] -> (Z.of_nat (List.length (a_rows d)) <= 2 ^ 22)%Z ->
  (forall j, (j < a_nc d)%nat -> discrete (column j (a_rows d))) ->
  forall j x, (j < a_nc d)%nat -> In x (column j (a_rows d)) ->
  exists (hit : f64 -> Prop) q,
    chance hit q /\ Rabs (q - INR (occurrences x (column j (a_rows d))) / INR (List.length (a_rows d))) <= bpow radix2 (-25) /\
    forall W (g : rng W) str_of size w a w', unif_ok g -> cat_sample g str_of t' size w = (Ok a, w') ->
    forall i, (i < Z.to_nat size)%nat ->
      (nth j (nth i (a_rows a) []) (CF fnan) = x <-> hit (fst (g_unif g (Z.to_nat size) 1 (world_at g size w j)) i 0%nat)).
Proof.
  intros H1 H2 H3 H4 H5 j x Hj Hx. destruct (sampled_as_learned d t t' H1 H2 H3 H4 H5 j x Hj Hx) as (lo & hi & P1 & P2 & P3 & P4).
  destruct (chance_between (fun v => lo <= B2R v < hi) lo hi P1 P2) as (q & Hq & Eq); [intros; tauto|].
  exists (fun v => lo <= B2R v < hi), q. split; [exact Hq|]. split; [|exact P4].
  set (f := INR (occurrences x (column j (a_rows d))) / INR (List.length (a_rows d))) in *.
  replace (q - f) with ((q - (hi - lo)) + (hi - lo - f)) by ring. eapply Rle_trans; [apply Rabs_triang|].
  assert (E : bpow radix2 (-25) = bpow radix2 (-26) + bpow radix2 (-26)).
  { replace (bpow radix2 (-26) + bpow radix2 (-26)) with (2 * bpow radix2 (-26)) by ring. change 2 with (bpow radix2 1). rewrite <- bpow_plus. reflexivity. }
  assert (u <= bpow radix2 (-26)) by (apply bpow_le; lia). lra.
Qed.

Lemma declared_chance s n values freq it :
  cat_init_new s n values freq = Ok it ->
  (forall j v f, nth_error values j = Some v -> nth_error freq j = Some f -> category v f) ->
  forall j v f k x q d, (j < Z.to_nat n)%nat -> nth_error values j = Some v -> nth_error freq j = Some f ->
  nth_error v k = Some x -> nth_error f k = Some q -> NoDup v -> (Z.of_nat (List.length f) <= 2 ^ 22)%Z ->
  Rabs (real_sum f - 1) <= d -> d <= / 4 ->
  exists (hit : f64 -> Prop) r,
    chance hit r /\ Rabs (r - B2R q) <= 2 * d + bpow radix2 (-25) /\
    forall W (g : rng W) str_of size w a w', unif_ok g -> cat_init_sample g str_of it size w = (Ok a, w') ->
    forall i, (i < Z.to_nat size)%nat ->
      (nth j (nth i (a_rows a) []) (CF fnan) = x <-> hit (fst (g_unif g (Z.to_nat size) 1 (world_at g size w j)) i 0%nat)).
Proof.
  intros H1 H2 j v f k x q d Hj Hv Hf Hx Hq Hn Hl Hs Hd. destruct (sampled_as_declared s n values freq it H1 H2 j v f k x q d Hj Hv Hf Hx Hq Hn Hl Hs Hd) as (lo & hi & P1 & P2 & P3 & P4).
  destruct (chance_between (fun v => lo <= B2R v < hi) lo hi P1 P2) as (r & Hr & Er); [intros; tauto|].
  exists (fun v => lo <= B2R v < hi), r. split; [exact Hr|]. split; [|exact P4].
  replace (r - B2R q) with ((r - (hi - lo)) + (hi - lo - B2R q)) by ring. eapply Rle_trans; [apply Rabs_triang|].
  assert (E : bpow radix2 (-25) = bpow radix2 (-26) + bpow radix2 (-26)).
  { replace (bpow radix2 (-26) + bpow radix2 (-26)) with (2 * bpow radix2 (-26)) by ring. change 2 with (bpow radix2 1). rewrite <- bpow_plus. reflexivity. }
  assert (u <= bpow radix2 (-26)) by (apply bpow_le; lia). lra.
Qed.
