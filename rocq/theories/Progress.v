(** On additive cost functions the learned model is, on average, no dearer than the generation. *)
From Coq Require Import List ZArith Bool Lia Permutation Reals Lra.
From Flocq Require Import Core IEEE754.BinarySingleNaN.
From Verif Require Import PyBase B64 B64More NdArray Eda Spec SelectAny LoopFail FailThms Rand Models ModelThms CatThms EmnaPsd FloatSum FloatMean FloatCov MaxLik Average.
Import ListNotations.
Local Open Scope R_scope.

(** A sum of one term per variable; [w j v] is the contribution of value [v] of variable [j]. *)
Definition additive (n : nat) (w : nat -> cell -> R) (r : row) : R := Rsum (map (fun j => w j (nth j r (CF fnan))) (seq 0 n)).
(** The costs differ from such a sum by at most [eps]. *)
Definition additive_costs (n : nat) (w : nat -> cell -> R) (eps : R) (l : list (row * f64)) : Prop :=
  Forall (fun p => Rabs (B2R (snd p) - additive n w (fst p)) <= eps) l.
(** The expected sum under the probabilities that a categorical model holds. *)
Definition expected (n : nat) (w : nat -> cell -> R) (t : list (option (list (cell * f64)))) : R :=
  Rsum (map (fun j => match nth_error t j with
                      | Some (Some p) => Rsum (map (fun xq => B2R (snd xq) * w j (fst xq)) p)
                      | _ => 0
                      end) (seq 0 n)).

Lemma cost_sum_Rsum l : cost_sum l = Rsum (map (fun p => B2R (snd p)) l).
Proof. induction l as [|p l IH]; [reflexivity|]. cbn [map cost_sum]. rewrite Rsum_cons, IH. reflexivity. Qed.

Lemma abs_le x y e : Rabs (x - y) <= e -> x - e <= y <= x + e.
Proof. unfold Rabs. destruct (Rcase_abs (x - y)); lra. Qed.

(** Costs and sums have the same average up to [eps]. *)
Lemma additive_average n w eps l : l <> [] -> additive_costs n w eps l ->
  Rsum (map (additive n w) (map fst l)) / INR (List.length l) <= average l + eps.
Proof.
  intros Hne H. assert (P : 0 < INR (List.length l)) by (apply lt_0_INR; destruct l; [congruence|cbn; lia]).
  unfold average. rewrite cost_sum_Rsum, map_map.
  pose proof (Rsum_const_dist (fun p : row * f64 => B2R (snd p)) (fun p => additive n w (fst p)) eps l) as D.
  assert (D' : Rabs (Rsum (map (fun p : row * f64 => B2R (snd p)) l) - Rsum (map (fun p : row * f64 => additive n w (fst p)) l)) <= INR (List.length l) * eps).
  { apply D. intros v Hv. unfold additive_costs in H. rewrite Forall_forall in H. exact (H v Hv). }
  apply abs_le in D' as [_ D2].
  apply (Rmult_le_reg_r (INR (List.length l))); [exact P|].
  assert (E1 : forall u, u / INR (List.length l) * INR (List.length l) = u) by (intros; field; lra).
  rewrite E1, Rmult_plus_distr_r, E1, (Rmult_comm eps). exact D2.
Qed.

(** One variable. *)
Lemma column_expected (w : cell -> R) (B : R) col (p : list (cell * f64)) : discrete col -> col <> [] ->
  NoDup (map fst p) -> (forall x, In x (map fst p) <-> In x col) ->
  (forall x q, In (x, q) p -> Rabs (B2R q - frequency col x) <= bpow radix2 (-53)) ->
  (forall x, In x col -> Rabs (w x) <= B) ->
  Rabs (Rsum (map (fun xq => B2R (snd xq) * w (fst xq)) p) - Rsum (map w col) / INR (List.length col))
    <= INR (List.length col) * (bpow radix2 (-53) * B).
Proof.
  intros Hd Hne Hnd Hv Hq Hw.
  assert (P : 0 < INR (List.length col)) by (apply lt_0_INR; destruct col; [congruence|cbn; lia]).
  assert (HB : 0 <= B) by (destruct col as [|x l]; [congruence|]; apply (Rle_trans _ (Rabs (w x))); [apply Rabs_pos|apply Hw; left; reflexivity]).
  assert (HU : 0 <= bpow radix2 (-53) * B) by (apply Rmult_le_pos; [apply bpow_ge_0|exact HB]).
  assert (E : Rsum (map w col) / INR (List.length col) = Rsum (map (fun xq : cell * f64 => frequency col (fst xq) * w (fst xq)) p)).
  { rewrite (sum_by_category w (map fst p) col Hd Hnd (fun x Hx => proj1 (Hv x) Hx) col (fun x Hx => proj2 (Hv x) Hx)), map_map.
    unfold Rdiv. rewrite Rmult_comm, <- Rsum_scale. apply Rsum_ext. intros x _. unfold frequency. field. lra. }
  rewrite E. apply (Rle_trans _ (INR (List.length p) * (bpow radix2 (-53) * B))).
  - apply (Rsum_const_dist (fun xq : cell * f64 => B2R (snd xq) * w (fst xq)) (fun xq => frequency col (fst xq) * w (fst xq))).
    intros [x q] Hin. cbn [fst snd]. rewrite <- Rmult_minus_distr_r, Rabs_mult.
    apply Rmult_le_compat; [apply Rabs_pos|apply Rabs_pos|exact (Hq x q Hin)|]. apply Hw, Hv. exact (in_map fst p (x, q) Hin).
  - apply Rmult_le_compat_r; [exact HU|]. apply le_INR. rewrite <- (map_length fst p). apply NoDup_incl_length; [exact Hnd|].
    intros x Hx. apply Hv, Hx.
Qed.

(** All variables. *)
Lemma learned_expected d t w B :
  List.length t = a_nc d -> a_rows d <> [] -> (forall j, (j < a_nc d)%nat -> discrete (column j (a_rows d))) ->
  (Z.of_nat (List.length (a_rows d)) <= 2 ^ 53)%Z ->
  (forall j x, (j < a_nc d)%nat -> In x (column j (a_rows d)) -> Rabs (w j x) <= B) ->
  exists t', cat_learn d t = (Ok tt, t') /\
    Rabs (expected (a_nc d) w t' - Rsum (map (additive (a_nc d) w) (a_rows d)) / INR (List.length (a_rows d)))
      <= INR (a_nc d) * (INR (List.length (a_rows d)) * (bpow radix2 (-53) * B)).
Proof.
  intros Ht Hne Hd Hlen Hw. destruct (cat_likely d t Ht Hne Hd Hlen) as (t' & Hl & H). exists t'. split; [exact Hl|].
  assert (P : 0 < INR (List.length (a_rows d))) by (apply lt_0_INR; destruct (a_rows d); [congruence|cbn; lia]).
  assert (E : Rsum (map (additive (a_nc d) w) (a_rows d)) / INR (List.length (a_rows d)) =
    Rsum (map (fun j => Rsum (map (w j) (column j (a_rows d))) / INR (List.length (a_rows d))) (seq 0 (a_nc d)))).
  { unfold additive. rewrite (Rsum_swap (fun (r : row) j => w j (nth j r (CF fnan)))). unfold Rdiv. rewrite Rmult_comm, <- Rsum_scale.
    apply Rsum_ext. intros j _. unfold column. rewrite map_map. apply Rmult_comm. }
  rewrite E. unfold expected. rewrite <- (seq_length (a_nc d) 0) at 3.
  apply (Rsum_const_dist (fun j => match nth_error t' j with Some (Some p) => Rsum (map (fun xq : cell * f64 => B2R (snd xq) * w j (fst xq)) p) | _ => 0 end)
    (fun j => Rsum (map (w j) (column j (a_rows d))) / INR (List.length (a_rows d)))).
  intros j Hj. apply in_seq in Hj. assert (Hj' : (j < a_nc d)%nat) by lia.
  destruct (H j Hj') as (p & Hp & Hnd & Hv & Hq & _). rewrite Hp.
  assert (Hcl : List.length (column j (a_rows d)) = List.length (a_rows d)) by apply map_length.
  rewrite <- Hcl. apply column_expected; [apply Hd, Hj'| |exact Hnd|exact Hv|exact Hq|intros x Hx; apply Hw; assumption].
  intros E0. rewrite E0 in Hcl. destruct (a_rows d); [congruence|discriminate].
Qed.

(** The number in a cell. *)
Definition value (v : cell) : f64 := match cell_num v with Ok x => x | Raise _ => fnan end.
(** A linear contribution. *)
Definition linear (k k0 : nat -> R) (j : nat) (v : cell) : R := k j * B2R (value v) + k0 j.
(** The expected linear sum under Gaussians with the means that a model holds. *)
Definition expected_gauss (n : nat) (k k0 : nat -> R) (pm : list (f64 * f64)) : R :=
  Rsum (map (fun j => k j * match nth_error pm j with Some q => B2R (fst q) | None => 0 end + k0 j) (seq 0 n)).

Lemma rmapM_values j l x : rmapM (fun r : row => cell_num (nth j r (CF fnan))) l = Ok x -> x = map (fun r : row => value (nth j r (CF fnan))) l.
Proof.
  revert x. induction l as [|r l IH]; intros x; cbn [rmapM map]; [congruence|].
  destruct (cell_num (nth j r (CF fnan))) as [v|e] eqn:E; cbn [rbind]; [|discriminate].
  destruct (rmapM (fun r : row => cell_num (nth j r (CF fnan))) l) as [y|e]; cbn [rbind]; [|discriminate].
  intros [= <-]. f_equal; [unfold value; rewrite E; reflexivity|apply IH; reflexivity].
Qed.

Lemma gauss_expected sum lower d pm pm' k k0 K B : adds sum -> isfin lower = true ->
  unigauss_learn (b64_ops sum) lower (num_col d) pm = (Ok tt, pm') -> List.length pm = a_nc d -> a_rows d <> [] ->
  (Z.of_nat (List.length (a_rows d)) <= 2 ^ 40)%Z ->
  (forall j r, (j < a_nc d)%nat -> In r (a_rows d) -> isfin (value (nth j r (CF fnan))) = true /\ Rabs (B2R (value (nth j r (CF fnan)))) <= B) ->
  B <= bpow radix2 400 -> (forall j, (j < a_nc d)%nat -> Rabs (k j) <= K) ->
  Rabs (expected_gauss (a_nc d) k k0 pm' - Rsum (map (additive (a_nc d) (linear k k0)) (a_rows d)) / INR (List.length (a_rows d)))
    <= INR (a_nc d) * (K * (2 * INR (List.length (a_rows d)) * bpow radix2 (-53) * B + bpow radix2 (-1075))).
Proof.
  intros Hs Fl H Hpm Hne Hlen Hv HB HK.
  assert (P : 0 < INR (List.length (a_rows d))) by (apply lt_0_INR; destruct (a_rows d); [congruence|cbn; lia]).
  assert (E : Rsum (map (additive (a_nc d) (linear k k0)) (a_rows d)) / INR (List.length (a_rows d)) =
    Rsum (map (fun j => k j * avg (map B2R (map (fun r : row => value (nth j r (CF fnan))) (a_rows d))) + k0 j) (seq 0 (a_nc d)))).
  { unfold additive. rewrite (Rsum_swap (fun (r : row) j => linear k k0 j (nth j r (CF fnan)))). unfold Rdiv. rewrite Rmult_comm, <- Rsum_scale.
    apply Rsum_ext. intros j _. unfold linear, avg. rewrite !map_length, map_map.
    rewrite (Rsum_plus (fun r : row => k j * B2R (value (nth j r (CF fnan)))) (fun _ => k0 j)), Rsum_const, (Rsum_scale (fun r : row => B2R (value (nth j r (CF fnan))))).
    field. lra. }
  rewrite E. unfold expected_gauss. rewrite <- (seq_length (a_nc d) 0) at 3.
  apply (Rsum_const_dist (fun j => k j * match nth_error pm' j with Some q => B2R (fst q) | None => 0 end + k0 j)
    (fun j => k j * avg (map B2R (map (fun r : row => value (nth j r (CF fnan))) (a_rows d))) + k0 j)).
  intros j Hj. apply in_seq in Hj. assert (Hj' : (j < a_nc d)%nat) by lia.
  pose proof (learn_from_ok _ _ _ _ H) as [_ Hk]. destruct (Hk j) as (q & Hq & Hu); [rewrite Hpm; exact Hj'|]. cbn [plus] in Hu.
  unfold unigauss_upd in Hu. destruct (num_col d j) as [x|e] eqn:Hx; [|discriminate].
  assert (Ex : x = map (fun r : row => value (nth j r (CF fnan))) (a_rows d)).
  { unfold num_col in Hx. destruct (Nat.ltb j (a_nc d)); [|discriminate]. exact (rmapM_values _ _ _ Hx). }
  assert (Lx : List.length x = List.length (a_rows d)) by (rewrite Ex; apply map_length).
  assert (Nx : x <> []) by (intros E0; rewrite E0 in Lx; destruct (a_rows d); [congruence|discriminate]).
  assert (Vx : forall v, In v x -> isfin v = true /\ Rabs (B2R v) <= B).
  { intros v Hin. rewrite Ex in Hin. apply in_map_iff in Hin as (r & <- & Hr). exact (Hv j r Hj' Hr). }
  assert (Zx : (Z.of_nat (List.length x) <= 2 ^ 40)%Z) by (rewrite Lx; exact Hlen).
  destruct (unigauss_float sum lower (num_col d) pm pm' j x B q Hs Fl H Hq Hx Nx Zx Vx HB) as (_ & _ & D & _).
  rewrite Hq, <- Ex. rewrite Lx in D.
  replace (k j * B2R (fst q) + k0 j - (k j * avg (map B2R x) + k0 j)) with (k j * (B2R (fst q) - avg (map B2R x))) by ring.
  rewrite Rabs_mult. apply Rmult_le_compat; [apply Rabs_pos|apply Rabs_pos|apply HK, Hj'|exact D].
Qed.

Section Loop.
Context {S W : Type} (c : cfg) (h : hooks S W).
Hypothesis Hsort : argsort_ok (h_argsort h).
Hypothesis HT : (0 <= c_trunc_len c)%Z.
Hypothesis HE : (0 <= c_elite_len c)%Z.

(** What a categorical model learns from the training sets of a run. *)
Lemma progress_categories ftol out (s : st S W) r tr : executes c h ftol out s r tr ->
  each_event (fun before e => match e with
    | EvSelect train elite => finite_costs (evaluated before) -> train <> [] ->
        exists gv, latest before = Some gv /\
        ((List.length train <= List.length (pairs gv))%nat -> (Z.of_nat (List.length train) <= 2 ^ 53)%Z ->
         forall n w eps B dt t, additive_costs n w eps train -> List.length t = n ->
         (forall j, (j < n)%nat -> discrete (column j (map fst train))) ->
         (forall j x, (j < n)%nat -> In x (column j (map fst train)) -> Rabs (w j x) <= B) ->
         exists t', cat_learn (mkArr dt n (map fst train)) t = (Ok tt, t') /\
           expected n w t' <= average (pairs gv) + eps + INR n * (INR (List.length train) * (bpow radix2 (-53) * B)))
    | _ => True
    end) tr.
Proof.
  intros H tr1 e tr2 Etr. pose proof (average_every c h Hsort HT HE _ _ _ _ _ H tr1 e tr2 Etr) as K. destruct e; try exact I. cbn in K.
  intros Hfin Hne. destruct (K Hfin Hne) as (gv & Hl & _ & Hg & _). exists gv. split; [exact Hl|].
  intros Hlen Hmax n w eps B dt t Hadd Ht Hd Hw.
  assert (Hml : List.length (map fst train) = List.length train) by apply map_length.
  destruct (learned_expected (mkArr dt n (map fst train)) t w B) as (t' & Hlearn & D); cbn [a_nc a_rows]; [exact Ht| |exact Hd|rewrite Hml; exact Hmax|exact Hw|].
  { intros E. apply Hne. destruct train; [reflexivity|discriminate]. }
  exists t'. split; [exact Hlearn|]. cbn [a_nc a_rows] in D. rewrite Hml in D.
  pose proof (additive_average n w eps train Hne Hadd) as A. pose proof (Hg Hlen) as G. apply abs_le in D as [D _].
  clear - A G D.
  apply (Rplus_le_reg_r (- (INR n * (INR (List.length train) * (bpow radix2 (-53) * B))))).
  apply (Rle_trans _ _ _ D). apply (Rle_trans _ _ _ A). lra.
Qed.

(** What UniGauss learns from the training sets of a run. *)
Lemma progress_gauss ftol out (s : st S W) r tr : executes c h ftol out s r tr ->
  each_event (fun before e => match e with
    | EvSelect train elite => finite_costs (evaluated before) -> train <> [] ->
        exists gv, latest before = Some gv /\
        ((List.length train <= List.length (pairs gv))%nat -> (Z.of_nat (List.length train) <= 2 ^ 40)%Z ->
         forall n k k0 eps K B sum lower dt pm pm', additive_costs n (linear k k0) eps train ->
         adds sum -> isfin lower = true -> List.length pm = n ->
         unigauss_learn (b64_ops sum) lower (num_col (mkArr dt n (map fst train))) pm = (Ok tt, pm') ->
         (forall j p, (j < n)%nat -> In p train -> isfin (value (nth j (fst p) (CF fnan))) = true /\ Rabs (B2R (value (nth j (fst p) (CF fnan)))) <= B) ->
         B <= bpow radix2 400 -> (forall j, (j < n)%nat -> Rabs (k j) <= K) ->
         expected_gauss n k k0 pm' <= average (pairs gv) + eps + INR n * (K * (2 * INR (List.length train) * bpow radix2 (-53) * B + bpow radix2 (-1075))))
    | _ => True
    end) tr.
Proof.
  intros H tr1 e tr2 Etr. pose proof (average_every c h Hsort HT HE _ _ _ _ _ H tr1 e tr2 Etr) as Q. destruct e; try exact I. cbn in Q.
  intros Hfin Hne. destruct (Q Hfin Hne) as (gv & Hl & _ & Hg & _). exists gv. split; [exact Hl|].
  intros Hlen Hmax n k k0 eps K B sum lower dt pm pm' Hadd Hs Fl Hpm Hlearn Hv HB HK.
  assert (Hml : List.length (map fst train) = List.length train) by apply map_length.
  assert (D : Rabs (expected_gauss n k k0 pm' - Rsum (map (additive n (linear k k0)) (map fst train)) / INR (List.length train))
    <= INR n * (K * (2 * INR (List.length train) * bpow radix2 (-53) * B + bpow radix2 (-1075)))).
  { rewrite <- Hml. apply (gauss_expected sum lower (mkArr dt n (map fst train)) pm pm' k k0 K B Hs Fl Hlearn Hpm); cbn [a_nc a_rows].
    - intros E. apply Hne. destruct train; [reflexivity|discriminate].
    - rewrite Hml. exact Hmax.
    - intros j r0 Hj Hr. apply in_map_iff in Hr as (p & <- & Hp). exact (Hv j p Hj Hp).
    - exact HB.
    - exact HK. }
  pose proof (additive_average n (linear k k0) eps train Hne Hadd) as A. pose proof (Hg Hlen) as G. apply abs_le in D as [D _].
  set (u := INR n * _) in *. clear - A G D.
  apply (Rplus_le_reg_r (- u)).
  apply (Rle_trans _ _ _ D). apply (Rle_trans _ _ _ A). lra.
Qed.
End Loop.
