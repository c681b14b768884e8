(** Selection never raises the average cost. *)
From Coq Require Import List ZArith Bool Lia Permutation Sorted Reals Lra.
From Flocq Require Import IEEE754.BinarySingleNaN.
From Verif Require Import PyBase B64 B64More NdArray Eda Spec SelectAny LoopFail FailThms.
Import ListNotations.
Local Open Scope R_scope.

(** The sum and the average of the costs of some individuals, as real numbers. *)
Fixpoint cost_sum (l : list (row * f64)) : R := match l with [] => 0 | p :: l' => B2R (snd p) + cost_sum l' end.
Definition average (l : list (row * f64)) : R := cost_sum l / INR (List.length l).
(** All costs are finite. *)
Definition finite_costs (l : list (row * f64)) : Prop := Forall (fun p => isfin (snd p) = true) l.

Lemma cost_sum_app a b : cost_sum (a ++ b) = cost_sum a + cost_sum b.
Proof. induction a as [|p a IH]; cbn [app cost_sum]; [lra|]. rewrite IH. lra. Qed.
Lemma cost_sum_perm a b : Permutation a b -> cost_sum a = cost_sum b.
Proof. induction 1; cbn [cost_sum]; lra. Qed.
Lemma copied_sum a b : copied a b -> cost_sum a = cost_sum b.
Proof. induction 1 as [|p q a b [_ E] _ IH]; [reflexivity|]. cbn [cost_sum]. rewrite IH. apply f_equal2; [exact (f_equal (@B2R 53 1024) E)|reflexivity]. Qed.

Lemma Rle_0_sub x y : x <= y -> 0 <= y - x. Proof. lra. Qed.
(** How far the costs are below [m]. *)
Fixpoint below (m : R) (l : list (row * f64)) : R := match l with [] => 0 | p :: l' => Rmin (B2R (snd p) - m) 0 + below m l' end.
Lemma below_app m a b : below m (a ++ b) = below m a + below m b.
Proof. induction a as [|p a IH]; cbn [app cost_sum below]; [lra|]. rewrite IH. lra. Qed.
Lemma below_perm m a b : Permutation a b -> below m a = below m b.
Proof. induction 1; cbn [cost_sum below]; lra. Qed.
Lemma below_nonpos m l : below m l <= 0.
Proof. induction l as [|p l IH]; cbn [below]; [lra|]. pose proof (Rmin_r (B2R (snd p) - m) 0). lra. Qed.
Lemma below_le m l : below m l <= cost_sum l - INR (List.length l) * m.
Proof.
  induction l as [|p l IH]; [cbn; lra|]. cbn [List.length cost_sum below]. rewrite S_INR.
  pose proof (Rmin_l (B2R (snd p) - m) 0). lra.
Qed.
Lemma below_all m l : Forall (fun p => B2R (snd p) <= m) l -> below m l = cost_sum l - INR (List.length l) * m.
Proof.
  induction 1 as [|p l H _ IH]; [cbn; lra|]. cbn [List.length cost_sum below]. rewrite S_INR, IH, Rmin_left by exact (Rle_minus _ _ H). lra.
Qed.
Lemma below_none m l : Forall (fun p => m <= B2R (snd p)) l -> below m l = 0.
Proof. induction 1 as [|p l H _ IH]; [reflexivity|]. cbn [below]. rewrite Rmin_right by exact (Rle_0_sub _ _ H). rewrite IH. lra. Qed.

Lemma cheaper_R a b : isfin (snd a) = true -> isfin (snd b) = true -> cheaper a b -> B2R (snd a) <= B2R (snd b).
Proof.
  intros Ha Hb H. unfold cheaper in H. apply np_le_fle in H; [apply (fle_fin _ _ Ha Hb), H|]. destruct (snd b); try discriminate; reflexivity.
Qed.

(** A dearest member of a sorted list. *)
Lemma last_dearest l : l <> [] -> finite_costs l -> StronglySorted cheaper l ->
  exists p, In p l /\ Forall (fun q => B2R (snd q) <= B2R (snd p)) l.
Proof.
  intros Hne Hf Hs. induction Hs as [|p l Hs IH Hp]; [congruence|]. inversion Hf as [|? ? Fp Fl]; subst.
  destruct l as [|q l]; [exists p; split; [left; reflexivity|repeat constructor; lra]|].
  destruct IH as (x & Hx & Hm); [discriminate|exact Fl|]. exists x. split; [right; exact Hx|]. constructor; [|exact Hm].
  unfold finite_costs in Fl. rewrite Forall_forall in Hp, Fl. apply cheaper_R; [exact Fp|apply Fl, Hx|apply Hp, Hx].
Qed.

Lemma avg_real n N so sa m : 0 < n -> n <= N -> so - n * m <= sa - N * m -> so - n * m <= 0 -> so / n <= sa / N.
Proof.
  intros P Q H1 H0. apply (Rmult_le_reg_r (n * N)); [apply Rmult_lt_0_compat; lra|].
  replace (so / n * (n * N)) with (so * N) by (field; lra). replace (sa / N * (n * N)) with (sa * n) by (field; lra).
  assert (H2 : (so - n * m) * N <= (so - n * m) * n) by (apply Rmult_le_compat_neg_l; lra).
  assert (H3 : (so - n * m) * n <= (sa - N * m) * n) by (apply Rmult_le_compat_r; lra). lra.
Qed.
Lemma sum_real x y z w : x + y = z + 0 -> y <= 0 -> x <= w -> z <= w.
Proof. lra. Qed.

(** The cheapest members are on average no dearer than any group of at least as many. *)
Lemma cheapest_average k pool out a b : cheapest k pool out -> finite_costs pool -> out <> [] ->
  Permutation pool (a ++ b) -> (List.length out <= List.length a)%nat -> average out <= average a.
Proof.
  intros (rest & Hp & Hs & Hr & _) Hf Hne Ha Hl.
  assert (Hfo : finite_costs (out ++ rest)) by exact (Permutation_Forall Hp Hf). apply Forall_app in Hfo as [Fo Fr].
  destruct (last_dearest out Hne Fo Hs) as (p & Hpin & Hall). set (m := B2R (snd p)) in *.
  assert (Hge : Forall (fun q => m <= B2R (snd q)) rest).
  { rewrite Forall_forall in Fo, Fr |- *. intros q Hq. apply cheaper_R; [apply Fo, Hpin|apply Fr, Hq|exact (Hr p q Hpin Hq)]. }
  assert (E : below m (a ++ b) = below m (out ++ rest)).
  { apply below_perm. exact (Permutation_trans (Permutation_sym Ha) Hp). }
  rewrite !below_app, (below_all m out Hall), (below_none m rest Hge) in E.
  pose proof (below_nonpos m b) as Hb. pose proof (below_le m a) as Hla. pose proof (below_nonpos m out) as Ho. rewrite (below_all m out Hall) in Ho.
  assert (P : 0 < INR (List.length out)) by (apply lt_0_INR; destruct out; [congruence|cbn; lia]).
  assert (Q : INR (List.length out) <= INR (List.length a)) by (apply le_INR, Hl).
  unfold average. apply (avg_real _ _ _ _ m P Q); [|exact Ho]. exact (sum_real _ _ _ _ E Hb Hla).
Qed.

Section Loop.
Context {S W : Type} (c : cfg) (h : hooks S W).
Hypothesis Hsort : argsort_ok (h_argsort h).
Hypothesis HT : (0 <= c_trunc_len c)%Z.
Hypothesis HE : (0 <= c_elite_len c)%Z.

Lemma last_some {A} (l : list A) x : last (map Some l) None = Some x -> In x l.
Proof.
  induction l as [|y l IH]; [discriminate|]. destruct l as [|z l]; [cbn; intros [= ->]; left; reflexivity|].
  intros H. right. apply IH. exact H.
Qed.

(** What is selected from has finite costs. *)
Lemma pool_finite ftol out (s : st S W) r tr : executes c h ftol out s r tr ->
  each_event (fun before e => match e with
    | EvSelect train elite => finite_costs (evaluated before) ->
        exists gv train0 elite0, latest before = Some gv /\ finite_costs (pairs gv ++ elite_before before) /\
          cheapest (Z.to_nat (c_trunc_len c)) (pairs gv ++ elite_before before) train0 /\ copied train0 train /\
          cheapest (Z.to_nat (c_elite_len c)) (pairs gv ++ elite_before before) elite0 /\ copied elite0 elite
    | _ => True
    end) tr.
Proof.
  intros H. pose proof (selection_every c h Hsort HT HE ftol out s r tr H) as HS.
  intros tr1 e tr2 Etr. pose proof (HS tr1 e tr2 Etr) as K. destruct e; try exact I. cbn in K.
  intros Hfin. destruct K as ((gv & train0 & elite0 & Hl & Hc & Hcp & Hce & Hcpe) & _).
  exists gv, train0, elite0. split; [exact Hl|]. split; [|split; [exact Hc|split; [exact Hcp|split; [exact Hce|exact Hcpe]]]].
  assert (Fgv : finite_costs (pairs gv)).
  { apply Forall_forall. intros p Hp. unfold finite_costs in Hfin. rewrite Forall_forall in Hfin. apply Hfin. unfold evaluated. apply in_flat_map. exists gv.
    split; [exact (last_some _ _ Hl)|exact Hp]. }
  assert (Fel : finite_costs (elite_before tr1)).
  { unfold elite_before. destruct (last (map Some (selections tr1)) None) as [[t' el]|] eqn:El.
    - apply last_some in El. unfold selections in El. apply in_flat_map in El as (e & He & Hin). destruct e; try (destruct Hin; fail).
      destruct Hin as [Hin|[]]. injection Hin as <- <-. apply in_split in He as (u & v & Eu).
      assert (Etr' : tr = u ++ EvSelect train1 elite1 :: v ++ EvSelect train elite :: tr2) by (rewrite Etr, Eu, <- app_assoc; reflexivity).
      pose proof (HS _ _ _ Etr') as (_ & (e0 & _ & Hc0 & Hin0) & _).
      unfold finite_costs in *. rewrite Forall_forall in Hfin, Hin0.
      assert (F0 : Forall (fun p => isfin (snd p) = true) e0).
      { apply Forall_forall. intros p Hp. apply Hfin. rewrite Eu. unfold evaluated, gens. rewrite flat_map_app, flat_map_app. apply in_or_app. left. exact (Hin0 p Hp). }
      clear - F0 Hc0. induction Hc0 as [|p q l l' [_ E] _ IH]; [constructor|]. inversion F0 as [|? ? F1 F2]; subst. constructor; [exact (eq_trans (f_equal isfin (eq_sym E)) F1)|apply IH; assumption].
    - unfold finite_costs in *. destruct (evaluated tr1); [constructor|]. inversion Hfin; subst. repeat constructor. assumption. }
  apply Forall_app; split; assumption.
Qed.

Lemma copied_len a b : copied a b -> List.length a = List.length b.
Proof. induction 1 as [|? ? ? ? _ _ IH]; [reflexivity|cbn [List.length]; rewrite IH; reflexivity]. Qed.
Lemma copied_average a b : copied a b -> average a = average b.
Proof. intros H. unfold average. rewrite (copied_sum _ _ H), (copied_len _ _ H). reflexivity. Qed.
Lemma copied_ne a b : copied a b -> b <> [] -> a <> [].
Proof. intros H N ->. apply N. inversion H. reflexivity. Qed.

Lemma average_every ftol out (s : st S W) r tr : executes c h ftol out s r tr ->
  each_event (fun before e => match e with
    | EvSelect train elite => finite_costs (evaluated before) -> train <> [] ->
        exists gv, latest before = Some gv /\
          average train <= average (pairs gv ++ elite_before before) /\
          ((List.length train <= List.length (pairs gv))%nat -> average train <= average (pairs gv)) /\
          forall a b, Permutation (pairs gv ++ elite_before before) (a ++ b) -> (List.length train <= List.length a)%nat -> average train <= average a
    | _ => True
    end) tr.
Proof.
  intros H tr1 e tr2 Etr. pose proof (pool_finite _ _ _ _ _ H tr1 e tr2 Etr) as K. destruct e; try exact I. cbn in K.
  intros Hfin Hne. destruct (K Hfin) as (gv & train0 & elite0 & Hl & Fp & Hc & Hcp & _).
  pose proof (copied_len _ _ Hcp) as Hle. pose proof (copied_ne _ _ Hcp Hne) as Ht0. pose proof (copied_average _ _ Hcp) as Ha.
  assert (G : forall a b, Permutation (pairs gv ++ elite_before tr1) (a ++ b) -> (List.length train <= List.length a)%nat -> average train <= average a).
  { intros a b Hp Hlen. rewrite <- Ha. apply (cheapest_average _ _ _ a b Hc Fp Ht0 Hp). rewrite Hle. exact Hlen. }
  exists gv. split; [exact Hl|]. split; [|split; [|exact G]].
  - apply (G _ []); [rewrite app_nil_r; reflexivity|]. destruct Hc as (rest & _ & _ & _ & Hk). rewrite <- Hle, Hk. lia.
  - intros Hlen. apply (G _ (elite_before tr1)); [reflexivity|exact Hlen].
Qed.

(** The elite: no dearer on average than the elite before it, the training set and the generation. *)
Lemma elite_every ftol out (s : st S W) r tr : executes c h ftol out s r tr ->
  each_event (fun before e => match e with
    | EvSelect train elite => finite_costs (evaluated before) -> elite <> [] ->
        exists gv, latest before = Some gv /\
          ((List.length elite <= List.length (elite_before before))%nat -> average elite <= average (elite_before before)) /\
          ((List.length elite <= List.length (pairs gv))%nat -> average elite <= average (pairs gv)) /\
          ((List.length elite <= List.length train)%nat -> average elite <= average train)
    | _ => True
    end) tr.
Proof.
  intros H tr1 e tr2 Etr. pose proof (pool_finite _ _ _ _ _ H tr1 e tr2 Etr) as K. destruct e; try exact I. cbn in K.
  intros Hfin Hne. destruct (K Hfin) as (gv & train0 & elite0 & Hl & Fp & Hct & Hcpt & Hc & Hcp).
  pose proof (copied_len _ _ Hcp) as Hle. pose proof (copied_ne _ _ Hcp Hne) as Ht0. pose proof (copied_average _ _ Hcp) as Ha.
  assert (G : forall a b, Permutation (pairs gv ++ elite_before tr1) (a ++ b) -> (List.length elite <= List.length a)%nat -> average elite <= average a).
  { intros a b Hp Hlen. rewrite <- Ha. apply (cheapest_average _ _ _ a b Hc Fp Ht0 Hp). rewrite Hle. exact Hlen. }
  exists gv. split; [exact Hl|]. split; [|split].
  - intros Hlen. apply (G _ (pairs gv)); [apply Permutation_app_comm|exact Hlen].
  - intros Hlen. apply (G _ (elite_before tr1)); [reflexivity|exact Hlen].
  - intros Hlen. rewrite <- (copied_average _ _ Hcpt). destruct Hct as (rest & Hp & _).
    apply (G _ rest); [exact Hp|]. rewrite (copied_len _ _ Hcpt). exact Hlen.
Qed.
End Loop.
