(** The same for bits: what UniBin expects of a linear cost function. *)
From Coq Require Import List ZArith Bool Lia Permutation Reals Lra.
From Flocq Require Import Core IEEE754.BinarySingleNaN.
From Verif Require Import PyBase B64 B64More NdArray Eda Spec SelectAny LoopFail FailThms Rand RandThms Models ModelThms ModelMore Kahan Explore EmnaPsd FloatCov MaxLik Average Progress.
Import ListNotations.
Local Open Scope R_scope.

(** The expected linear sum under the probabilities of a one that a model holds. *)
Definition expected_bits (n : nat) (k k0 : nat -> R) (pm : list f64) : R :=
  Rsum (map (fun j => k j * match nth_error pm j with Some p => B2R p | None => 0 end + k0 j) (seq 0 n)).
(** How far the bounds can move a probability. *)
Definition gap (lower upper : f64) : R := Rmax (B2R lower) (1 - B2R upper).

Lemma value_bit v : bit v -> B2R (value v) = match v with CI 1 => 1 | _ => 0 end.
Proof. intros [->| ->]; unfold value; cbn [cell_num]; apply Z2f_exact; lia. Qed.

Lemma ones_sum n j rs : (j < n)%nat -> Forall (bit_row n) rs -> Rsum (map (fun r : row => B2R (value (nth j r (CF fnan)))) rs) = INR (ones_in j rs).
Proof.
  intros Hj. induction 1 as [|r rs [Hl Hb] _ IH]; [reflexivity|]. cbn [map ones_in]. rewrite Rsum_cons, IH, plus_INR. apply f_equal2; [|reflexivity].
  assert (Hlt : (j < List.length r)%nat) by (rewrite Hl; exact Hj).
  rewrite (nth_error_nth' r (CF fnan) Hlt). rewrite Forall_forall in Hb. pose proof (Hb _ (nth_In r (CF fnan) Hlt)) as H.
  rewrite (value_bit _ H). destruct H as [-> | ->]; reflexivity.
Qed.

Lemma clamp_real lo hi f q t g : 0 <= lo -> lo < hi -> hi <= 1 -> 0 <= f <= 1 -> Rabs (q - f) <= t -> lo <= g -> 1 - hi <= g ->
  Rabs (Rmin hi (Rmax lo q) - f) <= t + g.
Proof.
  intros H1 H2 H3 H4 H5 H6 H7. unfold Rmax, Rmin. repeat destruct Rle_dec; unfold Rabs in *; repeat destruct Rcase_abs; lra.
Qed.

Lemma bits_expected n upper lower m d k k0 K :
  unibin_made n upper lower m -> a_nc d = n -> Forall (bit_row n) (a_rows d) -> a_rows d <> [] ->
  (Z.of_nat (List.length (a_rows d)) <= 2 ^ 53)%Z -> prob lower -> prob upper -> (forall j, (j < n)%nat -> Rabs (k j) <= K) ->
  exists m', unibin_learn d m = (Ok tt, m') /\
    Rabs (expected_bits n k k0 (ub_pm m') - Rsum (map (additive n (linear k k0)) (a_rows d)) / INR (List.length (a_rows d)))
      <= INR n * (K * (bpow radix2 (-53) + gap lower upper)).
Proof.
  intros Hm Hn Hr Hne Hlen Pl Pu HK. destruct (prob_R _ Pl) as [Fl Rl]. destruct (prob_R _ Pu) as [Fu Ru].
  pose proof Hm as (Hlt & _). pose proof Hlt as Hlt'. apply (flt_fin _ _ Fl Fu) in Hlt.
  destruct (unibin_bits_made n upper lower m d Hm Hn Hr Hne) as (m' & Hl & _ & H). exists m'. split; [exact Hl|].
  assert (Hnr : (0 < List.length (a_rows d))%nat) by (destruct (a_rows d); [congruence|cbn; lia]).
  assert (P : 0 < INR (List.length (a_rows d))) by (apply lt_0_INR, Hnr).
  assert (E : Rsum (map (additive n (linear k k0)) (a_rows d)) / INR (List.length (a_rows d)) =
    Rsum (map (fun j => k j * (INR (ones_in j (a_rows d)) / INR (List.length (a_rows d))) + k0 j) (seq 0 n))).
  { unfold additive. rewrite (Rsum_swap (fun (r : row) j => linear k k0 j (nth j r (CF fnan)))). unfold Rdiv. rewrite Rmult_comm, <- Rsum_scale.
    apply Rsum_ext. intros j Hj. apply in_seq in Hj. unfold linear.
    rewrite (Rsum_plus (fun r : row => k j * B2R (value (nth j r (CF fnan)))) (fun _ => k0 j)), Rsum_const, (Rsum_scale (fun r : row => B2R (value (nth j r (CF fnan))))).
    rewrite (ones_sum n j (a_rows d)) by (try exact Hr; lia). field. lra. }
  rewrite E. unfold expected_bits. rewrite <- (seq_length n 0) at 3.
  apply (Rsum_const_dist (fun j => k j * match nth_error (ub_pm m') j with Some p => B2R p | None => 0 end + k0 j)
    (fun j => k j * (INR (ones_in j (a_rows d)) / INR (List.length (a_rows d))) + k0 j)).
  intros j Hj. apply in_seq in Hj. assert (Hj' : (j < n)%nat) by lia.
  destruct (H j Hj') as (p & Hp & Hc). rewrite Hp.
  destruct (freq_near (ones_in j (a_rows d)) (List.length (a_rows d)) Hnr (ones_in_le _ _) Hlen) as (Hpq & Hnear & _). cbv zeta in Hpq, Hnear.
  destruct (prob_R _ Hpq) as [Fq _]. destruct (clamped_R _ _ _ _ Hc Hlt' Fl Fu Fq) as [_ Ep].
  assert (Hf : 0 <= INR (ones_in j (a_rows d)) / INR (List.length (a_rows d)) <= 1).
  { assert (L : INR (ones_in j (a_rows d)) <= INR (List.length (a_rows d))) by apply le_INR, ones_in_le. pose proof (pos_INR (ones_in j (a_rows d))) as L0. split.
    - apply Rmult_le_pos; [exact L0|]. apply Rlt_le, Rinv_0_lt_compat, P.
    - apply (Rmult_le_reg_r (INR (List.length (a_rows d)))); [exact P|]. unfold Rdiv. rewrite Rmult_assoc, Rinv_l, Rmult_1_r, Rmult_1_l by lra. exact L. }
  set (f := INR (ones_in j (a_rows d)) / INR (List.length (a_rows d))) in *.
  replace (k j * B2R p + k0 j - (k j * f + k0 j)) with (k j * (B2R p - f)) by ring.
  rewrite Rabs_mult. apply Rmult_le_compat; [apply Rabs_pos|apply Rabs_pos|apply HK, Hj'|]. rewrite Ep.
  apply clamp_real; [exact (proj1 Rl)|exact Hlt|exact (proj2 Ru)|exact Hf|exact Hnear|apply Rmax_l|apply Rmax_r].
Qed.

Section Loop.
Context {S W : Type} (c : cfg) (h : hooks S W).
Hypothesis Hsort : argsort_ok (h_argsort h).
Hypothesis HT : (0 <= c_trunc_len c)%Z.
Hypothesis HE : (0 <= c_elite_len c)%Z.

(** What UniBin learns from the training sets of a run. *)
Lemma progress_bits ftol out (s : st S W) r tr : executes c h ftol out s r tr ->
  each_event (fun before e => match e with
    | EvSelect train elite => finite_costs (evaluated before) -> train <> [] ->
        exists gv, latest before = Some gv /\
        ((List.length train <= List.length (pairs gv))%nat -> (Z.of_nat (List.length train) <= 2 ^ 53)%Z ->
         forall n k k0 eps K upper lower dt m, additive_costs n (linear k k0) eps train ->
         unibin_made n upper lower m -> prob lower -> prob upper -> Forall (bit_row n) (map fst train) ->
         (forall j, (j < n)%nat -> Rabs (k j) <= K) ->
         exists m', unibin_learn (mkArr dt n (map fst train)) m = (Ok tt, m') /\
           expected_bits n k k0 (ub_pm m') <= average (pairs gv) + eps + INR n * (K * (bpow radix2 (-53) + gap lower upper)))
    | _ => True
    end) tr.
Proof.
  intros H tr1 e tr2 Etr. pose proof (average_every c h Hsort HT HE _ _ _ _ _ H tr1 e tr2 Etr) as Q. destruct e; try exact I. cbn in Q.
  intros Hfin Hne. destruct (Q Hfin Hne) as (gv & Hl & _ & Hg & _). exists gv. split; [exact Hl|].
  intros Hlen Hmax n k k0 eps K upper lower dt m Hadd Hm Pl Pu Hb HK.
  assert (Hml : List.length (map fst train) = List.length train) by apply map_length.
  destruct (bits_expected n upper lower m (mkArr dt n (map fst train)) k k0 K Hm) as (m' & Hlearn & D); cbn [a_nc a_rows]; [reflexivity|exact Hb| |rewrite Hml; exact Hmax|exact Pl|exact Pu|exact HK|].
  { intros E. apply Hne. destruct train; [reflexivity|discriminate]. }
  exists m'. split; [exact Hlearn|]. cbn [a_nc a_rows] in D. rewrite Hml in D.
  pose proof (additive_average n (linear k k0) eps train Hne Hadd) as A. pose proof (Hg Hlen) as G. apply abs_le in D as [D _].
  set (u := INR n * _) in *. clear - A G D.
  apply (Rplus_le_reg_r (- u)).
  apply (Rle_trans _ _ _ D). apply (Rle_trans _ _ _ A). lra.
Qed.
End Loop.
