(** How many of the selected individuals reach a given cost. *)
From Coq Require Import List ZArith Bool Lia Permutation Sorted.
From Verif Require Import PyBase B64 NdArray Eda Spec SelectAny LoopFail FailThms.
Import ListNotations.

(** The number of individuals of cost at most [v], NaN being the largest cost. *)
Definition reaching (v : f64) (l : list (row * f64)) : nat := List.length (filter (fun p => np_le (snd p) v) l).

Lemma reaching_app v a b : reaching v (a ++ b) = reaching v a + reaching v b.
Proof. unfold reaching. rewrite filter_app. apply app_length. Qed.
Lemma reaching_perm v a b : Permutation a b -> reaching v a = reaching v b.
Proof.
  induction 1 as [|p a b _ IH|p q a|a b d _ IH1 _ IH2]; [reflexivity| | |congruence]; unfold reaching in *; cbn.
  - destruct (np_le (snd p) v); cbn; congruence.
  - destruct (np_le (snd p) v), (np_le (snd q) v); reflexivity.
Qed.
Lemma reaching_le v l : reaching v l <= List.length l.
Proof. unfold reaching. induction l as [|p l IH]; [apply le_n|]. cbn. destruct (np_le (snd p) v); cbn; lia. Qed.
Lemma reaching_all v l : Forall (fun p : row * f64 => np_le (snd p) v = true) l -> reaching v l = List.length l.
Proof. unfold reaching. induction 1 as [|p l H _ IH]; [reflexivity|]. cbn. rewrite H. cbn. rewrite IH. reflexivity. Qed.
Lemma reaching_ex v l : 0 < reaching v l -> exists p, In p l /\ np_le (snd p) v = true.
Proof.
  unfold reaching. intros H. destruct (filter _ l) as [|p f] eqn:E; [inversion H|].
  exists p. apply (proj1 (filter_In (fun p => np_le (snd p) v) p l)). rewrite E. left. reflexivity.
Qed.
Lemma reaching_cons v p l : reaching v (p :: l) = (if np_le (snd p) v then 1 else 0) + reaching v l.
Proof. unfold reaching. cbn. destruct (np_le (snd p) v); reflexivity. Qed.
Lemma reaching_copied v a b : copied a b -> reaching v a = reaching v b.
Proof.
  induction 1 as [|p q a b [_ E] _ IH]; [reflexivity|]. rewrite !reaching_cons.
  exact (f_equal2 Nat.add (f_equal (fun x : f64 => if np_le x v then 1 else 0) E) IH).
Qed.

Lemma cheapest_reaching k pool out v : cheapest k pool out -> reaching v out = Nat.min k (reaching v pool).
Proof.
  intros (rest & Hp & _ & Hr & Hk). pose proof (reaching_le v pool) as Lp. pose proof (reaching_le v out) as Lo.
  pose proof (reaching_perm v _ _ Hp) as E. rewrite reaching_app in E.
  destruct (Nat.eq_dec (reaching v rest) 0) as [Z|N]; [lia|].
  destruct (reaching_ex v rest) as (q & Hq & Hv); [lia|].
  assert (A : reaching v out = List.length out).
  { apply reaching_all, Forall_forall. intros p Hin. exact (np_le_trans _ _ _ (Hr p q Hin Hq) Hv). }
  lia.
Qed.

Lemma reaching_one v l : reaching v (firstn 1 l) <= 1.
Proof. destruct l as [|p l]; [apply Nat.le_0_l|]. cbn [firstn]. rewrite reaching_cons. unfold reaching. cbn. destruct (np_le (snd p) v); lia. Qed.
Lemma min_between k a x : x <= 1 -> Nat.min k a <= Nat.min k (a + x) <= a + 1.
Proof. lia. Qed.
Lemma min_more k a b x y : x <= y -> Nat.min k (a + x) <= Nat.min k (a + b + y).
Proof. lia. Qed.

(** In sorted lists, ranks and counts say the same. *)
Lemma sorted_rank l : StronglySorted cheaper l -> forall i p, nth_error l i = Some p -> i < reaching (snd p) l.
Proof.
  induction 1 as [|a l _ IH F]; intros i p H; [destruct i; discriminate H|]. rewrite reaching_cons. destruct i as [|i].
  - injection H as ->. rewrite np_le_refl. lia.
  - cbn in H. rewrite Forall_forall in F. pose proof (F p (nth_error_In _ _ H)) as Ha. unfold cheaper in Ha. rewrite Ha.
    specialize (IH i p H). lia.
Qed.
Lemma rank_sorted v l : StronglySorted cheaper l -> forall i, i < reaching v l -> exists q, nth_error l i = Some q /\ np_le (snd q) v = true.
Proof.
  induction 1 as [|a l _ IH F]; intros i H; [inversion H|]. rewrite reaching_cons in H. destruct i as [|i].
  - exists a. split; [reflexivity|]. destruct (np_le (snd a) v) eqn:E; [reflexivity|]. destruct (reaching_ex v l H) as (q & Hq & Hv).
    rewrite Forall_forall in F. pose proof (np_le_trans _ _ _ (F q Hq) Hv) as K. rewrite E in K. discriminate K.
  - cbn [nth_error]. apply IH. destruct (np_le (snd a) v); lia.
Qed.
Lemma cheaper_copied p q (a b : f64) : snd p = a -> snd q = b -> cheaper p q -> np_le a b = true.
Proof. intros <- <- H. exact H. Qed.
Lemma sorted_copied a b : StronglySorted cheaper a -> copied a b -> StronglySorted cheaper b.
Proof.
  intros Hs H. revert Hs. induction H as [|p q a b [_ E] H IH]; intros Hs; [constructor|]. inversion Hs as [|? ? Hs' F]; subst.
  constructor; [apply IH, Hs'|]. clear - E F H. induction H as [|x y a b [_ E'] H IH]; [constructor|]. inversion F; subst.
  constructor; [|apply IH; assumption]. eapply cheaper_copied; eassumption.
Qed.

Section Loop.
Context {S W : Type} (c : cfg) (h : hooks S W).
Hypothesis Hsort : argsort_ok (h_argsort h).
Hypothesis HT : (0 <= c_trunc_len c)%Z.
Hypothesis HE : (0 <= c_elite_len c)%Z.

Lemma counts_every ftol out (s : st S W) r tr : executes c h ftol out s r tr ->
  each_event (fun before e => match e with
    | EvSelect train elite => exists gv, latest before = Some gv /\ forall v,
        reaching v train = Nat.min (Z.to_nat (c_trunc_len c)) (reaching v (pairs gv) + reaching v (elite_before before)) /\
        reaching v elite = Nat.min (Z.to_nat (c_elite_len c)) (reaching v (pairs gv) + reaching v (elite_before before)) /\
        Nat.min (Z.to_nat (c_elite_len c)) (reaching v (evaluated before)) <= reaching v elite <= reaching v (evaluated before) + 1
    | _ => True
    end) tr.
Proof.
  intros H tr1 e tr2 Etr. pose proof (selection_every c h Hsort HT HE ftol out s r tr H tr1 e tr2 Etr) as K. destruct e; try exact I. cbn in K.
  destruct K as ((gv & train0 & elite0 & Hl & Hc & Hcp & Hce & Hcpe) & (elite1 & Hc1 & Hcp1 & _) & _).
  exists gv. split; [exact Hl|]. intros v. rewrite <- (reaching_copied v _ _ Hcp), (cheapest_reaching _ _ _ v Hc), reaching_app.
  split; [reflexivity|]. split; [rewrite <- (reaching_copied v _ _ Hcpe), (cheapest_reaching _ _ _ v Hce), reaching_app; reflexivity|].
  rewrite <- (reaching_copied v _ _ Hcp1), (cheapest_reaching _ _ _ v Hc1), reaching_app.
  exact (min_between _ _ _ (reaching_one v (evaluated tr1))).
Qed.

Lemma reaching_first v (a b : list (row * f64)) : reaching v (firstn 1 a) <= reaching v (firstn 1 (a ++ b)).
Proof. destruct a as [|p a]; [apply Nat.le_0_l|]. cbn [app firstn]. apply le_n. Qed.

Lemma counts_rise ftol out (s : st S W) r tr : executes c h ftol out s r tr ->
  forall tr1 train elite tr2 train' elite' tr3, tr = tr1 ++ EvSelect train elite :: tr2 ++ EvSelect train' elite' :: tr3 ->
  forall v, reaching v elite <= reaching v elite'.
Proof.
  intros H tr1 train elite tr2 train' elite' tr3 E v. pose proof (selection_every c h Hsort HT HE ftol out s r tr H) as HS.
  pose proof (HS _ _ _ E) as K1.
  assert (E' : tr = (tr1 ++ EvSelect train elite :: tr2) ++ EvSelect train' elite' :: tr3) by (rewrite E, <- app_assoc; reflexivity).
  pose proof (HS _ _ _ E') as K2. cbn in K1, K2.
  destruct K1 as (_ & (e1 & Hc1 & Hcp1 & _) & _). destruct K2 as (_ & (e2 & Hc2 & Hcp2 & _) & _).
  rewrite <- (reaching_copied v _ _ Hcp1), (cheapest_reaching _ _ _ v Hc1), <- (reaching_copied v _ _ Hcp2), (cheapest_reaching _ _ _ v Hc2), !reaching_app.
  assert (X : exists b, evaluated (tr1 ++ EvSelect train elite :: tr2) = evaluated tr1 ++ b).
  { unfold evaluated, gens. rewrite flat_map_app, flat_map_app. eexists. reflexivity. }
  destruct X as [b ->]. rewrite (reaching_app v (evaluated tr1) b).
  exact (min_more _ _ _ _ _ (reaching_first v (evaluated tr1) b)).
Qed.

Lemma elite_sorted ftol out (s : st S W) r tr : executes c h ftol out s r tr ->
  each_event (fun before e => match e with EvSelect train elite => StronglySorted cheaper elite | _ => True end) tr.
Proof.
  intros H tr1 e tr2 E. pose proof (selection_every c h Hsort HT HE ftol out s r tr H tr1 e tr2 E) as K. destruct e; try exact I. cbn in K.
  destruct K as (_ & (e1 & (rest & _ & Hs & _) & Hcp & _) & _). exact (sorted_copied _ _ Hs Hcp).
Qed.

Lemma ranks_fall ftol out (s : st S W) r tr : executes c h ftol out s r tr ->
  forall tr1 train elite tr2 train' elite' tr3, tr = tr1 ++ EvSelect train elite :: tr2 ++ EvSelect train' elite' :: tr3 ->
  forall i p, nth_error elite i = Some p -> exists q, nth_error elite' i = Some q /\ cheaper q p.
Proof.
  intros H tr1 train elite tr2 train' elite' tr3 E i p Hp. pose proof (elite_sorted ftol out s r tr H) as HS.
  pose proof (HS _ _ _ E) as K1.
  assert (E' : tr = (tr1 ++ EvSelect train elite :: tr2) ++ EvSelect train' elite' :: tr3) by (rewrite E, <- app_assoc; reflexivity).
  pose proof (HS _ _ _ E') as K2. cbn in K1, K2.
  apply (rank_sorted (snd p) elite' K2 i). apply (Nat.lt_le_trans _ (reaching (snd p) elite)); [exact (sorted_rank elite K1 i p Hp)|].
  exact (counts_rise ftol out s r tr H _ _ _ _ _ _ _ E (snd p)).
Qed.
End Loop.
