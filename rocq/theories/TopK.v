(** Taking the k cheapest: facts about sorted prefixes. *)
From Coq Require Import String List ZArith Bool Lia Sorting.Permutation Sorting.Sorted.
From Verif Require Import PyBase B64 NdArray Eda Spec.
Import ListNotations.

(** Working form of [cheapest]: a prefix of a sorted permutation. *)
Definition topk (k : nat) (pool out : list (row * f64)) : Prop :=
  exists s, Permutation pool s /\ StronglySorted cheaper s /\ out = firstn k s.

Lemma StronglySorted_app_inv {A} (R : A -> A -> Prop) (l1 l2 : list A) :
  StronglySorted R (l1 ++ l2) ->
  StronglySorted R l1 /\ StronglySorted R l2 /\ (forall x y, In x l1 -> In y l2 -> R x y).
Proof.
  induction l1 as [|a l1 IH]; cbn; intros H.
  - split; [constructor|]. split; [exact H|]. intros x y [].
  - inversion H as [|? ? H1 H2]; subst. destruct (IH H1) as [Ha [Hb Hc]].
    apply Forall_app in H2 as [H2 H3]. split; [constructor; assumption|]. split; [exact Hb|].
    intros x y [<-|Hx] Hy; [|apply Hc; assumption].
    rewrite Forall_forall in H3. apply H3, Hy.
Qed.

Lemma StronglySorted_app {A} (R : A -> A -> Prop) (l1 l2 : list A) :
  StronglySorted R l1 -> StronglySorted R l2 -> (forall x y, In x l1 -> In y l2 -> R x y) ->
  StronglySorted R (l1 ++ l2).
Proof.
  induction l1 as [|a l1 IH]; cbn; intros H1 H2 H; [exact H2|].
  inversion H1 as [|? ? H3 H4]; subst. constructor.
  - apply IH; [exact H3|exact H2|]. intros x y Hx Hy. apply H; [right; exact Hx|exact Hy].
  - apply Forall_app. split; [exact H4|]. apply Forall_forall. intros y Hy. apply H; [left; reflexivity|exact Hy].
Qed.

Lemma topk_cheapest (k : nat) (pool out : list (row * f64)) : topk k pool out -> cheapest k pool out.
Proof.
  intros [s [Hp [Hs ->]]]. exists (skipn k s). rewrite firstn_skipn.
  rewrite <- (firstn_skipn k s) in Hs. apply StronglySorted_app_inv in Hs as [H1 [_ H2]].
  repeat split; [exact Hp|exact H1|exact H2|].
  rewrite firstn_length, (Permutation_length Hp). reflexivity.
Qed.

(** Sorting a list of individuals, to complete prefixes. *)
Fixpoint ins (x : row * f64) (l : list (row * f64)) : list (row * f64) :=
  match l with
  | [] => [x]
  | y :: l' => if np_le (snd x) (snd y) then x :: l else y :: ins x l'
  end.
Definition isort (l : list (row * f64)) := fold_right ins [] l.

Lemma ins_perm x l : Permutation (x :: l) (ins x l).
Proof.
  induction l as [|y l IH]; cbn; [apply Permutation_refl|].
  destruct (np_le _ _); [apply Permutation_refl|].
  eapply Permutation_trans; [apply perm_swap|]. apply perm_skip, IH.
Qed.

Lemma isort_perm l : Permutation l (isort l).
Proof.
  induction l as [|x l IH]; cbn; [constructor|].
  eapply Permutation_trans; [apply perm_skip, IH|apply ins_perm].
Qed.

Lemma cheaper_trans x y z : cheaper x y -> cheaper y z -> cheaper x z.
Proof. unfold cheaper. apply np_le_trans. Qed.

Lemma ins_sorted x l : StronglySorted cheaper l -> StronglySorted cheaper (ins x l).
Proof.
  induction l as [|y l IH]; intros Hs; cbn; [repeat constructor|].
  inversion Hs as [|? ? H1 H2]; subst. destruct (np_le (snd x) (snd y)) eqn:E.
  - constructor; [exact Hs|]. constructor; [exact E|].
    eapply Forall_impl; [|exact H2]. intros z Hz. eapply cheaper_trans; [exact E|exact Hz].
  - constructor; [apply IH, H1|].
    eapply Permutation_Forall; [apply ins_perm|]. constructor; [|exact H2].
    destruct (np_le_total (snd x) (snd y)); [congruence|assumption].
Qed.

Lemma isort_sorted l : StronglySorted cheaper (isort l).
Proof. induction l as [|x l IH]; cbn; [constructor|]. apply ins_sorted, IH. Qed.

Lemma cheapest_topk (k : nat) (pool out : list (row * f64)) : cheapest k pool out -> topk k pool out.
Proof.
  intros [rest [Hp [Hs [Hr Hl]]]]. exists (out ++ isort rest). split; [|split].
  - eapply Permutation_trans; [exact Hp|]. apply Permutation_app_head, isort_perm.
  - apply StronglySorted_app; [exact Hs|apply isort_sorted|].
    intros x y Hx Hy. apply Hr; [exact Hx|]. eapply Permutation_in; [apply Permutation_sym, isort_perm|exact Hy].
  - rewrite (Permutation_length Hp), app_length in Hl.
    destruct (le_lt_dec k (List.length out)) as [Hk|Hk].
    + rewrite firstn_app. replace (k - List.length out) with 0 by lia. cbn.
      rewrite app_nil_r. symmetry. apply firstn_all2. lia.
    + assert (Hrest : rest = []) by (destruct rest; [reflexivity|cbn in Hl; lia]).
      subst rest. cbn. rewrite app_nil_r. symmetry. apply firstn_all2. lia.
Qed.

Lemma topk_pool_perm (k : nat) (p1 p2 out : list (row * f64)) :
  Permutation p1 p2 -> topk k p1 out -> topk k p2 out.
Proof.
  intros Hp [s [H1 H2]]. exists s. split; [|exact H2].
  eapply Permutation_trans; [apply Permutation_sym, Hp|exact H1].
Qed.

Definition below (z x : row * f64) : bool := np_le (snd x) (snd z).

Lemma filter_perm_length {A} (p : A -> bool) (l1 l2 : list A) :
  Permutation l1 l2 -> List.length (filter p l1) = List.length (filter p l2).
Proof.
  induction 1 as [|x l1 l2 _ IH|x y l|l1 l2 l3 _ IH1 _ IH2]; cbn; try lia.
  - destruct (p x); cbn; lia.
  - destruct (p x); destruct (p y); reflexivity.
Qed.

(** In a sorted list, if at least [k] members are at most [z], the first [k] are. *)
Lemma sorted_prefix_below (z : row * f64) (k : nat) (s : list (row * f64)) :
  StronglySorted cheaper s -> k <= List.length (filter (below z) s) ->
  Forall (fun x => cheaper x z) (firstn k s).
Proof.
  revert k. induction s as [|x s IH]; intros k Hs Hk; [rewrite firstn_nil; constructor|].
  destruct k as [|k]; [constructor|]. cbn [firstn].
  inversion Hs as [|? ? H1 H2]; subst. cbn [filter] in Hk.
  destruct (below z x) eqn:E.
  - constructor; [exact E|]. apply IH; [exact H1|]. cbn in Hk. lia.
  - exfalso. assert (Hnil : filter (below z) s = []).
    { destruct (filter (below z) s) as [|y r] eqn:Ef; [reflexivity|exfalso].
      assert (Hy : In y (filter (below z) s)) by (rewrite Ef; left; reflexivity).
      apply filter_In in Hy as [Hy1 Hy2]. rewrite Forall_forall in H2.
      specialize (H2 y Hy1). unfold below in Hy2. assert (cheaper x z) by (eapply cheaper_trans; [exact H2|exact Hy2]).
      unfold cheaper in *. unfold below in E. congruence. }
    rewrite Hnil in Hk. cbn in Hk. lia.
Qed.

(** Merging: keeping the [k] cheapest of the kept and the new is keeping the [k] cheapest of all. *)
Lemma topk_merge (k : nat) (pool1 pool2 out1 out : list (row * f64)) :
  topk k pool1 out1 -> topk k (pool2 ++ out1) out -> topk k (pool2 ++ pool1) out.
Proof.
  intros [s1 [Hp1 [Hs1 ->]]] [s2 [Hp2 [Hs2 ->]]].
  exists (firstn k s2 ++ isort (skipn k s2 ++ skipn k s1)).
  assert (Hperm : Permutation (pool2 ++ pool1) (firstn k s2 ++ isort (skipn k s2 ++ skipn k s1))).
  { eapply Permutation_trans; [|apply Permutation_app_head, isort_perm].
    rewrite app_assoc, firstn_skipn.
    eapply Permutation_trans; [apply Permutation_app_head, Hp1|].
    rewrite <- (firstn_skipn k s1) at 1. rewrite app_assoc.
    apply Permutation_app_tail, Hp2. }
  assert (Hdec : StronglySorted cheaper (firstn k s2) /\
                 forall x y, In x (firstn k s2) -> In y (skipn k s2) -> cheaper x y).
  { rewrite <- (firstn_skipn k s2) in Hs2. apply StronglySorted_app_inv in Hs2 as [Ha [_ Hc]]. split; assumption. }
  assert (Hdec1 : forall x y, In x (firstn k s1) -> In y (skipn k s1) -> cheaper x y).
  { rewrite <- (firstn_skipn k s1) in Hs1. apply StronglySorted_app_inv in Hs1 as [_ [_ Hc]]. exact Hc. }
  split; [exact Hperm|]. split.
  - apply StronglySorted_app; [apply Hdec|apply isort_sorted|].
    intros x y Hx Hy.
    assert (Hy' : In y (skipn k s2 ++ skipn k s1))
      by (eapply Permutation_in; [apply Permutation_sym, isort_perm|exact Hy]).
    apply in_app_or in Hy' as [Hy'|Hy']; [apply Hdec; assumption|].
    (* y was dropped earlier *)
    assert (Hfull : List.length (firstn k s1) = k).
    { rewrite firstn_length. destruct (le_lt_dec k (List.length s1)) as [Hk|Hk]; [lia|].
      rewrite skipn_all2 in Hy' by lia. destruct Hy'. }
    assert (Hcount : k <= List.length (filter (below y) s2)).
    { rewrite <- (filter_perm_length (below y) _ _ Hp2), filter_app, app_length.
      assert (Hall : filter (below y) (firstn k s1) = firstn k s1).
      { assert (Hin : forall x, In x (firstn k s1) -> below y x = true) by (intros z Hz; apply Hdec1; assumption).
        clear - Hin. induction (firstn k s1) as [|z l IH]; cbn; [reflexivity|].
        rewrite (Hin z (or_introl eq_refl)). f_equal. apply IH. intros w Hw. apply Hin. right; exact Hw. }
      rewrite Hall, Hfull. lia. }
    pose proof (sorted_prefix_below y k s2 Hs2 Hcount) as Hf.
    rewrite Forall_forall in Hf. apply Hf, Hx.
  - destruct (le_lt_dec k (List.length s2)) as [Hk|Hk].
    + rewrite firstn_app, firstn_length.
      replace (k - Nat.min k (List.length s2)) with 0 by lia. cbn. rewrite app_nil_r.
      rewrite firstn_firstn, Nat.min_id. reflexivity.
    + assert (H2len : List.length (firstn k s1) < k).
      { rewrite <- (Permutation_length Hp2), app_length in Hk. lia. }
      rewrite firstn_length in H2len.
      rewrite (skipn_all2 s2) by lia. rewrite (skipn_all2 s1) by lia. cbn. rewrite app_nil_r.
      rewrite firstn_firstn, Nat.min_id. reflexivity.
Qed.

Lemma topk_head_min (k : nat) (pool : list (row * f64)) (x : row * f64) (out : list (row * f64)) :
  topk k pool (x :: out) -> In x pool /\ forall y, In y pool -> cheaper x y.
Proof.
  intros [s [Hp [Hs Hout]]]. destruct k as [|k]; [discriminate|].
  destruct s as [|z s]; [discriminate|]. cbn in Hout. injection Hout as <- _.
  inversion Hs as [|? ? _ Hz]; subst. split.
  - eapply Permutation_in; [apply Permutation_sym, Hp|left; reflexivity].
  - intros y Hy. eapply Permutation_in in Hy; [|exact Hp]. destruct Hy as [<-|Hy].
    + apply np_le_refl.
    + rewrite Forall_forall in Hz. apply Hz, Hy.
Qed.

(* ------------------------------------------------------------------ *)
(** ** Gathering along a sorted order *)

Lemma gather_combine (idx : list nat) (R R' : list row) (E E' : list f64) :
  gather idx R = Ok R' -> gather idx E = Ok E' -> gather idx (combine R E) = Ok (combine R' E').
Proof.
  rewrite !gather_ok_Forall2. intros HR HE. revert E' HE.
  induction HR as [|i r idx R' Hi _ IH]; intros E' HE; inversion HE as [|? e ? E'' He HE']; subst; cbn; constructor.
  - clear - Hi He. revert R E Hi He. induction i as [|i IH]; intros [|r' R] [|e' E] Hi He; cbn in *; try discriminate.
    + congruence.
    + apply IH; assumption.
  - apply IH, HE'.
Qed.

Lemma nth_snd_combine (R : list row) (E : list f64) (i : nat) (d : row * f64) :
  List.length R = List.length E -> i < List.length E -> snd (nth i (combine R E) d) = nth i E (snd d).
Proof.
  intros HRE Hi. destruct d as [d1 d2]. rewrite combine_nth by exact HRE. reflexivity.
Qed.

Lemma map_nth_seq {A} (d : A) (l : list A) : map (fun i => nth i l d) (seq 0 (List.length l)) = l.
Proof.
  induction l as [|x l IH]; cbn; [reflexivity|]. f_equal.
  rewrite <- seq_shift, map_map. exact IH.
Qed.

Lemma sorted_map_in {A B} (R : A -> A -> Prop) (Q : B -> B -> Prop) (f : A -> B) (l : list A) :
  (forall x y, In x l -> In y l -> R x y -> Q (f x) (f y)) ->
  StronglySorted R l -> StronglySorted Q (map f l).
Proof.
  intros Hf Hs. induction Hs as [|x l Hs IH Hx]; cbn; constructor.
  - apply IH. intros a b Ha Hb. apply Hf; right; assumption.
  - rewrite Forall_map. rewrite Forall_forall in Hx |- *. intros y Hy.
    apply Hf; [left; reflexivity|right; exact Hy|apply Hx, Hy].
Qed.

Lemma argsort_topk (f : list f64 -> list nat) (k : nat) (R R' : list row) (E E' : list f64) :
  argsort_ok f -> List.length R = List.length E ->
  gather (firstn k (f E)) R = Ok R' -> gather (firstn k (f E)) E = Ok E' ->
  topk k (combine R E) (combine R' E').
Proof.
  intros Hf HRE HR HE. destruct (Hf E) as [Hp Hs].
  pose proof (gather_combine _ _ _ _ _ HR HE) as HG.
  pose (d := ((@nil cell : row), fnan) : row * f64).
  assert (Hrange : Forall (fun i => i < List.length (combine R E)) (f E)).
  { rewrite Forall_forall. intros i Hi. eapply Permutation_in in Hi; [|exact Hp].
    apply in_seq in Hi. rewrite combine_length, HRE, Nat.min_id. lia. }
  assert (Hr' : Forall (fun i => i < List.length (combine R E)) (firstn k (f E))).
  { rewrite Forall_forall in *. intros i Hi. apply Hrange.
    rewrite <- (firstn_skipn k (f E)). apply in_or_app. left; exact Hi. }
  rewrite (gather_map d _ _ Hr') in HG. injection HG as HG.
  exists (map (fun i => nth i (combine R E) d) (f E)). split; [|split].
  - rewrite <- (map_nth_seq d (combine R E)) at 1. apply Permutation_map.
    apply Permutation_sym. rewrite combine_length, HRE, Nat.min_id. exact Hp.
  - eapply sorted_map_in; [|exact Hs]. intros i j Hi Hj Hij. unfold cheaper.
    rewrite Forall_forall in Hrange. apply Hrange in Hi, Hj.
    rewrite combine_length, HRE, Nat.min_id in Hi, Hj.
    rewrite !nth_snd_combine by assumption. exact Hij.
  - rewrite firstn_map. symmetry. exact HG.
Qed.
