(** The same for the means of MultiGauss. *)
From Coq Require Import List ZArith Bool Lia Permutation Reals Lra.
From Flocq Require Import Core IEEE754.BinarySingleNaN.
From Verif Require Import PyBase B64 B64More NdArray Eda Spec SelectAny LoopFail FailThms Models ModelThms EmnaPsd FloatSum FloatMean FloatCov MaxLik Average Progress.
Import ListNotations.
Local Open Scope R_scope.

(** The expected linear sum under a distribution with the means that the model holds. *)
Definition expected_multi (n : nat) (k k0 : nat -> R) (p : @mgauss f64) : R :=
  Rsum (map (fun j => k j * match nth_error (mg_means p) j with Some m => B2R m | None => 0 end + k0 j) (seq 0 n)).

Lemma multi_expected sum lower upper d p p' k k0 K B : adds sum ->
  multigauss_learn (b64_ops sum) lower upper (a_nc d) (num_col d) p = (Ok tt, p') -> List.length (mg_means p) = a_nc d -> a_rows d <> [] ->
  (Z.of_nat (List.length (a_rows d)) <= 2 ^ 40)%Z ->
  (forall j r, (j < a_nc d)%nat -> In r (a_rows d) -> isfin (value (nth j r (CF fnan))) = true /\ Rabs (B2R (value (nth j r (CF fnan)))) <= B) ->
  B <= bpow radix2 400 -> (forall j, (j < a_nc d)%nat -> Rabs (k j) <= K) ->
  Rabs (expected_multi (a_nc d) k k0 p' - Rsum (map (additive (a_nc d) (linear k k0)) (a_rows d)) / INR (List.length (a_rows d)))
    <= INR (a_nc d) * (K * (2 * INR (List.length (a_rows d)) * bpow radix2 (-53) * B + bpow radix2 (-1075))).
Proof.
  intros Hs H Hpm Hne Hlen Hv HB HK.
  assert (P : 0 < INR (List.length (a_rows d))) by (apply lt_0_INR; destruct (a_rows d); [congruence|cbn; lia]).
  assert (E : Rsum (map (additive (a_nc d) (linear k k0)) (a_rows d)) / INR (List.length (a_rows d)) =
    Rsum (map (fun j => k j * avg (map B2R (map (fun r : row => value (nth j r (CF fnan))) (a_rows d))) + k0 j) (seq 0 (a_nc d)))).
  { unfold additive. rewrite (Rsum_swap (fun (r : row) j => linear k k0 j (nth j r (CF fnan)))). unfold Rdiv. rewrite Rmult_comm, <- Rsum_scale.
    apply Rsum_ext. intros j _. unfold linear, avg. rewrite !map_length, map_map.
    rewrite (Rsum_plus (fun r : row => k j * B2R (value (nth j r (CF fnan)))) (fun _ => k0 j)), Rsum_const, (Rsum_scale (fun r : row => B2R (value (nth j r (CF fnan))))).
    field. lra. }
  rewrite E. unfold expected_multi. rewrite <- (seq_length (a_nc d) 0) at 3.
  apply (Rsum_const_dist (fun j => k j * match nth_error (mg_means p') j with Some m => B2R m | None => 0 end + k0 j)
    (fun j => k j * avg (map B2R (map (fun r : row => value (nth j r (CF fnan))) (a_rows d))) + k0 j)).
  intros j Hj. apply in_seq in Hj. assert (Hj' : (j < a_nc d)%nat) by lia.
  apply multigauss_ok in H as (_ & _ & Hk & _). destruct (Hk j) as (x & Hx & Hq); [rewrite Hpm; exact Hj'|].
  assert (Ex : x = map (fun r : row => value (nth j r (CF fnan))) (a_rows d)).
  { unfold num_col in Hx. destruct (Nat.ltb j (a_nc d)); [|discriminate]. exact (rmapM_values _ _ _ Hx). }
  assert (Lx : List.length x = List.length (a_rows d)) by (rewrite Ex; apply map_length).
  assert (Nx : x <> []) by (intros E0; rewrite E0 in Lx; destruct (a_rows d); [congruence|discriminate]).
  assert (Vx : forall v, In v x -> isfin v = true /\ Rabs (B2R v) <= B).
  { intros v Hin. rewrite Ex in Hin. apply in_map_iff in Hin as (r & <- & Hr). exact (Hv j r Hj' Hr). }
  assert (Zx : (Z.of_nat (List.length x) <= 2 ^ 40)%Z) by (rewrite Lx; exact Hlen).
  assert (H9 : B <= bpow radix2 900) by (apply (Rle_trans _ _ _ HB), bpow_le; lia).
  destruct (mean_err sum x B Hs Nx Zx Vx H9) as [_ D].
  rewrite Hq, <- Ex. rewrite Lx in D.
  replace (k j * B2R (mean (b64_ops sum) x) + k0 j - (k j * avg (map B2R x) + k0 j)) with (k j * (B2R (mean (b64_ops sum) x) - avg (map B2R x))) by ring.
  rewrite Rabs_mult. apply Rmult_le_compat; [apply Rabs_pos|apply Rabs_pos|apply HK, Hj'|exact D].
Qed.

Section Loop.
Context {S W : Type} (c : cfg) (h : hooks S W).
Hypothesis Hsort : argsort_ok (h_argsort h).
Hypothesis HT : (0 <= c_trunc_len c)%Z.
Hypothesis HE : (0 <= c_elite_len c)%Z.

(** What MultiGauss learns from the training sets of a run. *)
Lemma progress_multi ftol out (s : st S W) r tr : executes c h ftol out s r tr ->
  each_event (fun before e => match e with
    | EvSelect train elite => finite_costs (evaluated before) -> train <> [] ->
        exists gv, latest before = Some gv /\
        ((List.length train <= List.length (pairs gv))%nat -> (Z.of_nat (List.length train) <= 2 ^ 40)%Z ->
         forall n k k0 eps K B sum lower upper dt (p p' : @mgauss f64), additive_costs n (linear k k0) eps train ->
         adds sum -> List.length (mg_means p) = n ->
         multigauss_learn (b64_ops sum) lower upper n (num_col (mkArr dt n (map fst train))) p = (Ok tt, p') ->
         (forall j q, (j < n)%nat -> In q train -> isfin (value (nth j (fst q) (CF fnan))) = true /\ Rabs (B2R (value (nth j (fst q) (CF fnan)))) <= B) ->
         B <= bpow radix2 400 -> (forall j, (j < n)%nat -> Rabs (k j) <= K) ->
         expected_multi n k k0 p' <= average (pairs gv) + eps + INR n * (K * (2 * INR (List.length train) * bpow radix2 (-53) * B + bpow radix2 (-1075))))
    | _ => True
    end) tr.
Proof.
  intros H tr1 e tr2 Etr. pose proof (average_every c h Hsort HT HE _ _ _ _ _ H tr1 e tr2 Etr) as Q. destruct e; try exact I. cbn in Q.
  intros Hfin Hne. destruct (Q Hfin Hne) as (gv & Hl & _ & Hg & _). exists gv. split; [exact Hl|].
  intros Hlen Hmax n k k0 eps K B sum lower upper dt p p' Hadd Hs Hpm Hlearn Hv HB HK.
  assert (Hml : List.length (map fst train) = List.length train) by apply map_length.
  assert (D : Rabs (expected_multi n k k0 p' - Rsum (map (additive n (linear k k0)) (map fst train)) / INR (List.length train))
    <= INR n * (K * (2 * INR (List.length train) * bpow radix2 (-53) * B + bpow radix2 (-1075)))).
  { rewrite <- Hml. apply (multi_expected sum lower upper (mkArr dt n (map fst train)) p p' k k0 K B Hs Hlearn Hpm); cbn [a_nc a_rows].
    - intros E. apply Hne. destruct train; [reflexivity|discriminate].
    - rewrite Hml. exact Hmax.
    - intros j r0 Hj Hr. apply in_map_iff in Hr as (q & <- & Hq). exact (Hv j q Hj Hq).
    - exact HB.
    - exact HK. }
  pose proof (additive_average n (linear k k0) eps train Hne Hadd) as A. pose proof (Hg Hlen) as G. apply abs_le in D as [D _].
  set (u := INR n * _) in *. clear - A G D.
  apply (Rplus_le_reg_r (- u)).
  apply (Rle_trans _ _ _ D). apply (Rle_trans _ _ _ A). lra.
Qed.
End Loop.
