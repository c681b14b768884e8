(** What a model learns does not depend on the order of the rows it learns from. *)
From Coq Require Import String List ZArith Bool Lia Reals Lra Permutation Sorted OrdersEx.
From Flocq Require Import Core IEEE754.BinarySingleNaN.
From Verif Require Import PyBase B64 B64More NdArray Rand Models ModelThms Kahan CatThms EmnaPsd FloatSum FloatMean.
Import ListNotations.
Open Scope nat_scope.

(* ------------------------------------------------------------------ *)
(** ** Exact arithmetic *)

Lemma Rsum_perm l l' : Permutation l l' -> Rsum l = Rsum l'.
Proof. induction 1; rewrite ?Rsum_cons; [reflexivity|lra|lra|lra]. Qed.

Lemma avg_perm l l' : Permutation l l' -> avg l = avg l'.
Proof. intros H. unfold avg. rewrite (Rsum_perm _ _ H), (Permutation_length H). reflexivity. Qed.

Lemma pop_var_perm l l' : Permutation l l' -> pop_var l = pop_var l'.
Proof.
  intros H. unfold pop_var. rewrite (avg_perm _ _ H), (Permutation_length H).
  rewrite (Rsum_perm _ _ (Permutation_map (fun v => (v - avg l') * (v - avg l'))%R H)). reflexivity.
Qed.

Lemma sample_cov_perm {A} (f g : A -> R) (d d' : list A) : Permutation d d' ->
  sample_cov (map f d) (map g d) = sample_cov (map f d') (map g d').
Proof.
  intros H. pose proof (Permutation_map f H) as Hf. pose proof (Permutation_map g H) as Hg. unfold sample_cov.
  rewrite (avg_perm _ _ Hf), (avg_perm _ _ Hg), !map_length, (Permutation_length H).
  assert (E : forall l : list A, combine (map f l) (map g l) = map (fun x => (f x, g x)) l).
  { induction l as [|x l IH]; [reflexivity|]. cbn. rewrite IH. reflexivity. }
  rewrite !E, !map_map. f_equal. apply Rsum_perm, Permutation_map, H.
Qed.

Lemma learn_from_ext {T} (u v : nat -> res (T * T)) pm : (forall i, u i = v i) -> forall i, learn_from u i pm = learn_from v i pm.
Proof.
  intros H. induction pm as [|p pm IH]; intros i; [reflexivity|]. cbn [learn_from]. rewrite (H i), (IH (S i)). reflexivity.
Qed.

Lemma unigauss_perm lower nc (d d' : list (list R)) pm : Permutation d d' ->
  unigauss_learn R_ops lower (real_col nc d) pm = unigauss_learn R_ops lower (real_col nc d') pm.
Proof.
  intros H. apply learn_from_ext. intros i. unfold unigauss_upd, real_col. destruct (Nat.ltb i nc); [|reflexivity].
  cbn [rmap]. rewrite !mean_avg, !std_pop.
  pose proof (Permutation_map (fun r : list R => nth i r 0%R) H) as Hc.
  rewrite (avg_perm _ _ Hc), (pop_var_perm _ _ Hc). reflexivity.
Qed.

Lemma means_from_perm nc (d d' : list (list R)) ms : Permutation d d' -> forall i,
  means_from R_ops (real_col nc d) i ms = means_from R_ops (real_col nc d') i ms.
Proof.
  intros H. induction ms as [|m ms IH]; intros i; [reflexivity|]. cbn [means_from].
  unfold real_col at 1 3. destruct (Nat.ltb i nc); [|reflexivity]. rewrite (IH (S i)), !mean_avg.
  rewrite (avg_perm _ _ (Permutation_map (fun r : list R => nth i r 0%R) H)). reflexivity.
Qed.

Lemma real_cols nc (d : list (list R)) m : forall s, s + m <= nc ->
  rmapM (real_col nc d) (seq s m) = Ok (map (fun i => map (fun r => nth i r 0%R) d) (seq s m)).
Proof.
  induction m as [|m IH]; intros s Hs; [reflexivity|]. cbn [seq rmapM map]. unfold real_col at 1.
  destruct (Nat.ltb_spec s nc); [|lia]. cbn [rbind]. rewrite IH by lia. reflexivity.
Qed.

Lemma clamped_cov_perm lower upper {A} (f g : A -> R) (d d' : list A) : Permutation d d' ->
  clamped_cov R_ops lower upper (map f d) (map g d) = clamped_cov R_ops lower upper (map f d') (map g d').
Proof.
  intros H. unfold clamped_cov. f_equal. f_equal.
  pose proof (Permutation_map f H) as Hf. pose proof (Permutation_map g H) as Hg.
  unfold cov_entry, dot, centred. rewrite !mean_avg, (avg_perm _ _ Hf), (avg_perm _ _ Hg), (Permutation_length Hf).
  assert (E : forall (F G : A -> R) (l : list A), combine (map F l) (map G l) = map (fun x => (F x, G x)) l).
  { intros F G. induction l as [|x l IH]; [reflexivity|]. cbn. rewrite IH. reflexivity. }
  rewrite !map_map, !E, !map_map. f_equal. apply Rsum_perm, Permutation_map, H.
Qed.

Lemma multigauss_perm lower upper nc (d d' : list (list R)) p : Permutation d d' ->
  multigauss_learn R_ops lower upper nc (real_col nc d) p = multigauss_learn R_ops lower upper nc (real_col nc d') p.
Proof.
  intros H. unfold multigauss_learn. rewrite (means_from_perm nc d d' _ H 0).
  destruct (means_from R_ops (real_col nc d') 0 (mg_means p)) as [[u|e] ms]; [|reflexivity].
  rewrite !real_cols by lia.
  destruct nc as [|[|n]]; [reflexivity| |].
  - cbn [seq map]. rewrite (clamped_cov_perm lower upper (fun r => nth 0 r 0%R) (fun r => nth 0 r 0%R) d d' H). reflexivity.
  - cbn [seq map].
    change ((@Ok unit tt, mkMG ms (CovMat (cov_matrix R_ops lower upper (map (fun i => map (fun r => nth i r 0%R) d) (seq 0 (S (S n)))))))
          = (Ok tt, mkMG ms (CovMat (cov_matrix R_ops lower upper (map (fun i => map (fun r => nth i r 0%R) d') (seq 0 (S (S n)))))))).
    do 3 f_equal. unfold cov_matrix. rewrite !map_length, seq_length. unfold tabulate.
    apply map_ext_in. intros i Hi. apply in_seq in Hi. apply map_ext_in. intros j Hj. apply in_seq in Hj.
    assert (N : forall (q : list (list R)) k, k < S (S n) ->
      nth k (map (fun i => map (fun r => nth i r 0%R) q) (seq 0 (S (S n)))) [] = map (fun r => nth k r 0%R) q).
    { intros q k Hk. rewrite (nth_indep _ [] (map (fun r => nth 0 r 0%R) q)) by (rewrite map_length, seq_length; exact Hk).
      rewrite (map_nth (fun i => map (fun r => nth i r 0%R) q)), seq_nth by exact Hk. reflexivity. }
    rewrite !N by lia. destruct (Nat.eqb i j).
    + rewrite !std_pop. f_equal. apply pop_var_perm, Permutation_map, H.
    + apply clamped_cov_perm, H.
Qed.

(* ------------------------------------------------------------------ *)
(** ** UniBin: integers are added exactly *)

Lemma row_add_CI (a b : row) : Forall is_CI a -> Forall is_CI b ->
  exists c, row_add a b = Ok c /\ Forall is_CI c.
Proof.
  intros Ha. revert b. induction Ha as [|x a Hx Ha IH]; intros b Hb; [exists []; split; [reflexivity|constructor]|].
  destruct Hb as [|y b Hy Hb]; [exists []; split; [reflexivity|constructor]|].
  destruct x, y; cbn in Hx, Hy; try contradiction. destruct (IH b Hb) as (c & Hc & Hcc).
  exists (CI (z + z0)%Z :: c). split; [cbn; rewrite Hc; reflexivity|constructor; [exact I|exact Hcc]].
Qed.

Lemma row_add_swap (acc a b : row) : Forall is_CI acc -> Forall is_CI a -> Forall is_CI b ->
  rbind (row_add acc a) (fun s => row_add s b) = rbind (row_add acc b) (fun s => row_add s a).
Proof.
  intros H. revert a b. induction H as [|x acc Hx Hacc IH]; intros a b Ha Hb; [reflexivity|].
  destruct Ha as [|y a Hy Ha], Hb as [|z b Hz Hb]; cbn [row_add rbind]; try reflexivity.
  - destruct x, z; cbn in Hx, Hz; try contradiction. cbn [cell_add rbind].
    destruct (row_add_CI acc b Hacc Hb) as (c & -> & _). reflexivity.
  - destruct x, y; cbn in Hx, Hy; try contradiction. cbn [cell_add rbind].
    destruct (row_add_CI acc a Hacc Ha) as (c & -> & _). reflexivity.
  - destruct x, y, z; cbn in Hx, Hy, Hz; try contradiction. cbn [cell_add rbind]. specialize (IH a b Ha Hb).
    destruct (row_add_CI acc a Hacc Ha) as (c & Ec & _). destruct (row_add_CI acc b Hacc Hb) as (c' & Ec' & _).
    rewrite Ec, Ec' in *. cbn [rbind row_add cell_add] in *. rewrite IH.
    match goal with |- context [CI (?p + ?q + ?r)%Z] => replace (p + q + r)%Z with (p + r + q)%Z by lia end. reflexivity.
Qed.

Lemma sum_rows_perm (rs rs' : list row) : Permutation rs rs' -> Forall (Forall is_CI) rs -> forall acc, Forall is_CI acc ->
  sum_rows acc rs = sum_rows acc rs'.
Proof.
  induction 1 as [|r rs rs' Hp IH|r1 r2 rs|rs rs' rs'' H1 IH1 H2 IH2]; intros Hr acc Hacc.
  - reflexivity.
  - inversion Hr as [|? ? Hr1 Hr2]; subst. cbn [sum_rows]. destruct (row_add_CI acc r Hacc Hr1) as (c & -> & Hc). cbn [rbind]. apply IH; assumption.
  - inversion Hr as [|? ? Hr1 Hr2]; subst. inversion Hr2 as [|? ? Hr3 Hr4]; subst. cbn [sum_rows].
    pose proof (row_add_swap acc r2 r1 Hacc Hr1 Hr3) as Hs.
    destruct (row_add_CI acc r1 Hacc Hr3) as (c & Ec & Hc). destruct (row_add_CI acc r2 Hacc Hr1) as (c' & Ec' & Hc').
    rewrite Ec, Ec' in *. cbn [rbind] in *. rewrite Hs. reflexivity.
  - rewrite IH1 by assumption. apply IH2; [|exact Hacc]. rewrite Forall_forall in *. intros r Hr'. apply Hr. apply (Permutation_in _ (Permutation_sym H1) Hr').
Qed.

Lemma unibin_perm dt dt' nc (rs rs' : list row) m : Permutation rs rs' -> Forall (Forall is_CI) rs ->
  unibin_learn (mkArr dt nc rs) m = unibin_learn (mkArr dt' nc rs') m.
Proof.
  intros Hp Hr. unfold unibin_learn, unibin_probs. cbn [a_rows a_nc].
  destruct rs as [|r rs0].
  - apply Permutation_nil in Hp. subst. reflexivity.
  - destruct rs' as [|r' rs0']; [apply Permutation_sym, Permutation_nil in Hp; discriminate|].
    assert (Hz : Forall is_CI (repeat (CI 0%Z) nc)) by (apply Forall_forall; intros c Hc; apply repeat_spec in Hc; subst; exact I).
    pose proof (sum_rows_perm _ _ Hp Hr (repeat (CI 0%Z) nc) Hz) as E. pose proof (Permutation_length Hp) as El.
    cbn beta iota. rewrite El. setoid_rewrite E. reflexivity.
Qed.

(* ------------------------------------------------------------------ *)
(** ** UniCategorical: the table is sorted *)

Definition below (p q : cell * nat) : Prop := cell_ltb (fst p) (fst q) = true.

Lemma str_ltb_spec x y : String.ltb x y = true <-> String_as_OT.lt x y.
Proof.
  change (String_as_OT.lt x y) with (String.compare x y = Lt). unfold String.ltb. destruct (String.compare x y); split; congruence.
Qed.

Lemma ltb_irrefl l x : discrete l -> In x l -> cell_ltb x x = false.
Proof.
  intros [H|H] Hx; rewrite Forall_forall in H; specialize (H x Hx); destruct x; cbn in H; try contradiction; cbn [cell_ltb].
  - apply not_true_is_false. rewrite str_ltb_spec. destruct String_as_OT.lt_strorder as [Hi _]. apply Hi.
  - apply Z.ltb_irrefl.
Qed.

Lemma ltb_trans l x y z : discrete l -> In x l -> In y l -> In z l ->
  cell_ltb x y = true -> cell_ltb y z = true -> cell_ltb x z = true.
Proof.
  intros [H|H] Hx Hy Hz; rewrite Forall_forall in H; pose proof (H x Hx) as Kx; pose proof (H y Hy) as Ky; pose proof (H z Hz) as Kz;
    destruct x, y, z; cbn in Kx, Ky, Kz; try contradiction; cbn [cell_ltb].
  - rewrite !str_ltb_spec. destruct String_as_OT.lt_strorder as [_ Ht]. apply Ht.
  - rewrite !Z.ltb_lt. lia.
Qed.

Lemma ltb_total l x y : discrete l -> In x l -> In y l -> x <> y -> cell_ltb x y = false -> cell_ltb y x = true.
Proof.
  intros [H|H] Hx Hy Hne; rewrite Forall_forall in H; pose proof (H x Hx) as Kx; pose proof (H y Hy) as Ky;
    destruct x, y; cbn in Kx, Ky; try contradiction; cbn [cell_ltb].
  - intros E. unfold String.ltb in *. rewrite String.compare_antisym. destruct (String.compare s s0) eqn:C; cbn; try congruence.
    apply String.compare_eq_iff in C. congruence.
  - rewrite Z.ltb_ge, Z.ltb_lt. intros E. assert (z <> z0) by congruence. lia.
Qed.

Lemma bump_sorted x t : StronglySorted below t -> StronglySorted below (bump x t).
Proof.
  assert (F : forall p t, Forall (below p) t -> Forall (below p) (bump x t)).
  { intros p u H. induction H as [|[y k] u Hy Hu IH]; cbn; [constructor|]. destruct (cell_eqb x y); constructor; auto. }
  induction 1 as [|[y k] t Ht IH Hy]; cbn; [constructor|]. destruct (cell_eqb x y).
  - constructor; [exact Ht|]. exact Hy.
  - constructor; [exact IH|]. apply F, Hy.
Qed.

Lemma insert_sorted l x t : discrete l -> In x l -> (forall y k, In (y, k) t -> In y l /\ y <> x) ->
  StronglySorted below t -> StronglySorted below (insert_new x t).
Proof.
  intros Hd Hx Hin Hs. induction Hs as [|[y k] t Ht IH Hy]; cbn; [repeat constructor|].
  destruct (Hin y k ltac:(left; reflexivity)) as [Hyl Hne].
  assert (Hin' : forall z m, In (z, m) t -> In z l /\ z <> x) by (intros z m Hz; apply (Hin z m); right; exact Hz).
  destruct (cell_ltb x y) eqn:E.
  - constructor; [constructor; assumption|]. constructor; [exact E|]. rewrite Forall_forall in *. intros [z m] Hz.
    apply (ltb_trans l x y z Hd Hx Hyl); [apply (Hin' z m Hz)|exact E|apply (Hy (z, m) Hz)].
  - constructor; [apply IH, Hin'|]. apply Forall_forall. intros [z m] Hz. apply insert_new_In in Hz as [[Ez _]|Hz].
    + subst z. apply (ltb_total l x y Hd Hx Hyl); [congruence|exact E].
    + rewrite Forall_forall in Hy. exact (Hy (z, m) Hz).
Qed.

(** Two tables in order with the same entries are the same. *)
Lemma sorted_unique l t t' : discrete l -> (forall p, In p t -> In (fst p) l) -> (forall p, In p t <-> In p t') ->
  StronglySorted below t -> StronglySorted below t' -> t = t'.
Proof.
  intros Hd Hl Heq Hs. revert t' Hl Heq. induction Hs as [|p t Ht IH Hp]; intros t' Hl Heq Hs'.
  - destruct t' as [|q t']; [reflexivity|]. destruct (proj2 (Heq q) ltac:(left; reflexivity)).
  - destruct Hs' as [|q t' Ht' Hq]; [destruct (proj1 (Heq p) ltac:(left; reflexivity))|].
    rewrite Forall_forall in Hp, Hq.
    assert (Hpq : p = q).
    { destruct (proj1 (Heq p) ltac:(left; reflexivity)) as [E|Hpt]; [congruence|].
      destruct (proj2 (Heq q) ltac:(left; reflexivity)) as [E|Hqt]; [congruence|].
      exfalso. pose proof (Hp q Hqt) as H1. pose proof (Hq p Hpt) as H2. unfold below in H1, H2.
      pose proof (Hl p ltac:(left; reflexivity)) as Lp. pose proof (Hl q ltac:(right; exact Hqt)) as Lq.
      pose proof (ltb_trans l _ _ _ Hd Lp Lq Lp H1 H2) as H3. rewrite (ltb_irrefl l _ Hd Lp) in H3. discriminate. }
    subst q. f_equal. apply IH; [intros z Hz; apply Hl; right; exact Hz| |exact Ht'].
    assert (Hne : forall z, In z t \/ In z t' -> z <> p).
    { intros z Hz E. subst z. assert (B : below p p) by (destruct Hz as [Hz|Hz]; [apply Hp, Hz|apply Hq, Hz]).
      unfold below in B. rewrite (ltb_irrefl l _ Hd (Hl p ltac:(left; reflexivity))) in B. discriminate. }
    intros z. specialize (Heq z). cbn [In] in Heq. split; intros Hz.
    + destruct (proj1 Heq (or_intror Hz)) as [E|H]; [|exact H]. destruct (Hne z (or_introl Hz)). congruence.
    + destruct (proj2 Heq (or_intror Hz)) as [E|H]; [|exact H]. destruct (Hne z (or_intror Hz)). congruence.
Qed.

Lemma np_unique_sorted col : discrete col -> exists t, np_unique col = Ok t /\ counts_of t col /\ StronglySorted below t.
Proof.
  intros Hd. destruct (np_unique_spec col Hd) as (t & Ht & Hc). exists t. split; [exact Ht|]. split; [exact Hc|].
  unfold np_unique in Ht. rewrite (discrete_not_mixed col Hd) in Ht.
  assert (E : t = fold_left count_in col []) by congruence. subst t. clear Ht Hc.
  assert (G : forall l u pre, discrete (pre ++ l) -> counts_of u pre -> StronglySorted below u -> StronglySorted below (fold_left count_in l u)).
  { induction l as [|x l IH]; intros u pre Hk Hu Hs; cbn [fold_left]; [exact Hs|].
    replace (pre ++ x :: l) with ((pre ++ [x]) ++ l) in * by (rewrite <- app_assoc; reflexivity).
    assert (Hk' : discrete (pre ++ [x])) by (eapply discrete_incl; [exact Hk|]; intros y Hy; apply in_app_iff; left; exact Hy).
    apply (IH _ (pre ++ [x])); [exact Hk|apply count_step; assumption|].
    unfold count_in. destruct (existsb (fun yk => cell_eqb x (fst yk)) u) eqn:Ex; [apply bump_sorted, Hs|].
    apply (insert_sorted (pre ++ [x])); [exact Hk'|apply in_app_iff; right; left; reflexivity| |exact Hs].
    intros y k Hy. destruct Hu as (_ & Hu & _). destruct (Hu y k Hy) as [Hyp _]. split; [apply in_app_iff; left; exact Hyp|].
    intros Ey. subst y. assert (existsb (fun yk => cell_eqb x (fst yk)) u = true); [|congruence].
    apply existsb_exists. exists (x, k). split; [exact Hy|]. cbn [fst].
    apply (discrete_eqb (pre ++ [x]) x x Hk'); [apply in_app_iff; left; exact Hyp|apply in_app_iff; left; exact Hyp|reflexivity]. }
  apply (G col [] [] Hd); [|constructor]. split; [constructor|]. split; [intros y k []|]. split; [intros x []|reflexivity].
Qed.

Lemma occurrences_perm x l l' : Permutation l l' -> occurrences x l = occurrences x l'.
Proof.
  unfold occurrences. induction 1 as [|y l l' Hp IH|y z l|l l' l'' H1 IH1 H2 IH2]; cbn.
  - reflexivity.
  - destruct (cell_eqb y x); cbn; congruence.
  - destruct (cell_eqb y x), (cell_eqb z x); reflexivity.
  - congruence.
Qed.

Lemma np_unique_perm l l' : Permutation l l' -> discrete l -> np_unique l = np_unique l'.
Proof.
  intros Hp Hd.
  assert (Hd' : discrete l') by (eapply discrete_incl; [exact Hd|]; intros x Hx; apply (Permutation_in _ (Permutation_sym Hp) Hx)).
  destruct (np_unique_sorted l Hd) as (t & Et & (_ & Hk & Hin & _) & Hs).
  destruct (np_unique_sorted l' Hd') as (t' & Et' & (_ & Hk' & Hin' & _) & Hs'). rewrite Et, Et'. f_equal.
  apply (sorted_unique l); [exact Hd|intros [y k] Hy; apply (Hk y k Hy)| |exact Hs|exact Hs'].
  intros [y k]. split; intros Hy.
  - destruct (Hk y k Hy) as [Hyl Ek]. pose proof (Hin' y (Permutation_in _ Hp Hyl)) as Hm. apply in_map_iff in Hm as ([y' k'] & Ey & Hm).
    cbn in Ey. subst y'. destruct (Hk' y k' Hm) as [_ Ek']. rewrite Ek, (occurrences_perm y l l' Hp), <- Ek'. exact Hm.
  - destruct (Hk' y k Hy) as [Hyl Ek]. pose proof (Hin y (Permutation_in _ (Permutation_sym Hp) Hyl)) as Hm. apply in_map_iff in Hm as ([y' k'] & Ey & Hm).
    cbn in Ey. subst y'. destruct (Hk y k' Hm) as [_ Ek']. rewrite Ek, <- (occurrences_perm y l l' Hp), <- Ek'. exact Hm.
Qed.

Lemma cat_perm dt dt' nc (rs rs' : list row) t : Permutation rs rs' -> (forall j, j < nc -> discrete (column j rs)) ->
  cat_learn (mkArr dt nc rs) t = cat_learn (mkArr dt' nc rs') t.
Proof.
  intros Hp Hd. unfold cat_learn. generalize 0. induction t as [|e t IH]; intros i; [reflexivity|]. cbn [cat_learn_from].
  unfold cell_col. cbn [a_nc a_rows]. destruct (Nat.ltb_spec i nc) as [Hi|Hi]; [|reflexivity]. cbn [rbind].
  assert (E : obtain_probabilities (column i rs) = obtain_probabilities (column i rs')).
  { pose proof (Permutation_map (fun r : row => nth i r (CF fnan)) Hp : Permutation (column i rs) (column i rs')) as Hc.
    unfold obtain_probabilities. rewrite (np_unique_perm _ _ Hc (Hd i Hi)), (Permutation_length Hc). reflexivity. }
  fold (column i rs) (column i rs'). rewrite E, (IH (S i)). reflexivity.
Qed.

(* ------------------------------------------------------------------ *)
(** ** Doubles: up to rounding *)

Lemma rmapM_perm {A B} (f : A -> res B) (l l' : list A) x : Permutation l l' ->
  rmapM f l = Ok x -> exists x', rmapM f l' = Ok x' /\ Permutation x x'.
Proof.
  intros Hp. revert x.
  induction Hp as [|r rs rs' Hp IH|r1 r2 rs|rs rs' rs'' H1 IH1 H2 IH2]; intros x; cbn [rmapM].
  - intros H. exists x. split; [exact H|apply Permutation_refl].
  - destruct (f r) as [v|]; cbn [rbind]; [|intros H; discriminate H].
    destruct (rmapM f rs) as [vs|]; cbn [rbind]; [|intros H; discriminate H].
    intros H. assert (E : x = v :: vs) by congruence. subst x. destruct (IH vs eq_refl) as (vs' & -> & Hv). cbn [rbind].
    exists (v :: vs'). split; [reflexivity|constructor; exact Hv].
  - destruct (f r2) as [v2|]; cbn [rbind]; [|intros H; discriminate H].
    destruct (f r1) as [v1|]; cbn [rbind]; [|intros H; discriminate H].
    destruct (rmapM f rs) as [vs|]; cbn [rbind]; [|intros H; discriminate H].
    intros H. assert (E : x = v2 :: v1 :: vs) by congruence. subst x. exists (v1 :: v2 :: vs). split; [reflexivity|constructor].
  - intros H. destruct (IH1 x H) as (y & Hy & Py). destruct (IH2 y Hy) as (z & Hz & Pz). exists z. split; [exact Hz|].
    apply (Permutation_trans Py Pz).
Qed.

Lemma num_col_perm dt dt' nc (rs rs' : list row) i x : Permutation rs rs' ->
  num_col (mkArr dt nc rs) i = Ok x -> exists x', num_col (mkArr dt' nc rs') i = Ok x' /\ Permutation x x'.
Proof.
  intros Hp. unfold num_col. cbn [a_nc a_rows]. destruct (Nat.ltb i nc); [|intros H; discriminate H]. apply rmapM_perm, Hp.
Qed.

Lemma unigauss_reordered (s s' : list f64 -> f64) lower dt dt' nc (rs rs' : list row) pm pm1 pm1' pm2 i (x : list f64) B q q' :
  (forall l, added l (s l)) -> (forall l, added l (s' l)) ->
  isfin lower = true -> Permutation rs rs' ->
  unigauss_learn (b64_ops s) lower (num_col (mkArr dt nc rs)) pm = (Ok tt, pm1) ->
  unigauss_learn (b64_ops s') lower (num_col (mkArr dt' nc rs')) pm2 = (Ok tt, pm1') ->
  nth_error pm1 i = Some q -> nth_error pm1' i = Some q' ->
  num_col (mkArr dt nc rs) i = Ok x -> x <> [] -> (Z.of_nat (List.length x) <= 2 ^ 40)%Z ->
  (forall v, In v x -> isfin v = true /\ (Rabs (B2R v) <= B)%R) -> (B <= bpow radix2 400)%R ->
  let n := INR (List.length x) in
  (Rabs (B2R (fst q) - B2R (fst q')) <= 4 * n * bpow radix2 (-53) * B + bpow radix2 (-1074))%R /\
  (Rabs (B2R (snd q) - B2R (snd q')) <= (12 * n + 14) * bpow radix2 (-53) * B + bpow radix2 (-529))%R.
Proof.
  intros Hs Hs' Hlo Hp L1 L2 Hq Hq' Hx Hne Hlen Hm HB n.
  destruct (num_col_perm dt dt' nc rs rs' i x Hp Hx) as (x' & Hx' & Px).
  assert (Hm' : forall v, In v x' -> isfin v = true /\ (Rabs (B2R v) <= B)%R)
    by (intros v Hv; apply Hm, (Permutation_in _ (Permutation_sym Px) Hv)).
  assert (Hne' : x' <> []) by (intros E; subst; apply Permutation_sym, Permutation_nil in Px; congruence).
  assert (Hl' : List.length x' = List.length x) by (symmetry; apply Permutation_length, Px).
  destruct (unigauss_float s lower _ pm pm1 i x B q Hs Hlo L1 Hq Hx Hne Hlen Hm HB) as (_ & _ & M1 & _ & D1).
  destruct (unigauss_float s' lower _ pm2 pm1' i x' B q' Hs' Hlo L2 Hq' Hx' Hne' ltac:(rewrite Hl'; exact Hlen) Hm' HB) as (_ & _ & M2 & _ & D2).
  rewrite Hl' in M2, D2. fold n in M1, M2, D1, D2.
  pose proof (Permutation_map (B2R (prec := 53) (emax := 1024)) Px) as Pr.
  rewrite <- (avg_perm _ _ Pr) in M2. rewrite <- (pop_var_perm _ _ Pr) in D2.
  assert (P1 : bpow radix2 (-1074) = (2 * bpow radix2 (-1075))%R) by (change 2%R with (bpow radix2 1); rewrite <- bpow_plus; reflexivity).
  assert (P2 : bpow radix2 (-529) = (2 * bpow radix2 (-530))%R) by (change 2%R with (bpow radix2 1); rewrite <- bpow_plus; reflexivity).
  rewrite P1, P2. clear P1 P2.
  set (e1 := bpow radix2 (-1075)) in *. set (e2 := bpow radix2 (-530)) in *. set (u := bpow radix2 (-53)) in *.
  split; [apply Rabs_le_inv in M1, M2|apply Rabs_le_inv in D1, D2]; apply Rabs_le; nra.
Qed.

(* ------------------------------------------------------------------ *)
(** ** Cases *)

Lemma reordered_mean : exists (rs rs' : list row) q q', Permutation rs rs' /\
  unigauss_learn (b64_ops seq_sum) (Z2f 0) (num_col (mkArr DFloat 1 rs)) [(Z2f 0, Z2f 0)] = (Ok tt, [q]) /\
  unigauss_learn (b64_ops seq_sum) (Z2f 0) (num_col (mkArr DFloat 1 rs')) [(Z2f 0, Z2f 0)] = (Ok tt, [q']) /\
  feq (fst q) (Z2f 0) = true /\ flt (Z2f 0) (fst q') = true.
Proof.
  set (big16 := Z2f 10000000000000000). set (small := Z2f (-10000000000000000)).
  exists [[CF big16]; [CF (Z2f 1)]; [CF small]], [[CF big16]; [CF small]; [CF (Z2f 1)]]. eexists. eexists.
  split; [apply perm_skip, perm_swap|]. split; [reflexivity|]. split; [reflexivity|]. split; vm_compute; reflexivity.
Qed.

Open Scope R_scope.

Lemma reordered_adapt : exists (d d' : list (list R)) m m' sd sd', Permutation d d' /\
  adapt_learn R_ops 0 (/ 2) (real_col 1 d) [(0, 0)] = (Ok tt, [(m, sd)]) /\
  adapt_learn R_ops 0 (/ 2) (real_col 1 d') [(0, 0)] = (Ok tt, [(m', sd')]) /\ m < m'.
Proof.
  exists [[0]; [0]; [6]], [[6]; [0]; [0]]. do 4 eexists.
  split; [apply (perm_trans (perm_skip _ (perm_swap _ _ _)) (perm_swap _ _ _))|].
  split; [reflexivity|]. split; [reflexivity|].
  unfold mean, len_T. cbn. unfold Rsum. cbn. lra.
Qed.

Lemma reordered_exact : exists (d d' : list (list R)), Permutation d d' /\ d <> d' /\
  exists pm, unigauss_learn R_ops 0 (real_col 2 d) [(0, 0); (0, 0)] = (Ok tt, pm).
Proof.
  exists [[0; 1]; [2; 3]], [[2; 3]; [0; 1]]. split; [apply perm_swap|]. split; [intros E; injection E; lra|]. eexists. reflexivity.
Qed.

Lemma reordered_bits : exists (rs rs' : list row) m m', Permutation rs rs' /\ rs <> rs' /\ Forall (Forall is_CI) rs /\
  unibin_learn (mkArr DInt 2 rs) m = (Ok tt, m').
Proof.
  exists [[CI 0; CI 1]; [CI 1; CI 1]]%Z, [[CI 1; CI 1]; [CI 0; CI 1]]%Z, (mkUB 2 (Z2f 0) fone [Z2f 0; Z2f 0]). eexists.
  split; [apply perm_swap|]. split; [discriminate|]. split; [repeat constructor|reflexivity].
Qed.

Lemma reordered_categories : exists (rs rs' : list row) t, Permutation rs rs' /\ rs <> rs' /\
  (forall j, (j < 2)%nat -> discrete (column j rs)) /\ cat_learn (mkArr DObj 2 rs) [None; None] = (Ok tt, t).
Proof.
  exists [[CS "b"; CI 1]; [CS "a"; CI 1]; [CS "b"; CI 0]]%Z, [[CS "a"; CI 1]; [CS "b"; CI 1]; [CS "b"; CI 0]]%Z. eexists.
  split; [apply perm_swap|]. split; [discriminate|]. split; [|reflexivity].
  intros j Hj. destruct j as [|[|j]]; [left|right|lia]; repeat constructor.
Qed.

Lemma reordered_floats : exists (rs rs' : list row) pm pm' x, Permutation rs rs' /\
  unigauss_learn (b64_ops seq_sum) fone (num_col (mkArr DFloat 1 rs)) [(Z2f 0, Z2f 0)] = (Ok tt, pm) /\
  unigauss_learn (b64_ops seq_sum) fone (num_col (mkArr DFloat 1 rs')) [(Z2f 0, Z2f 0)] = (Ok tt, pm') /\
  num_col (mkArr DFloat 1 rs) 0 = Ok x /\ (forall v, In v x -> isfin v = true /\ Rabs (B2R v) <= 4).
Proof.
  exists [[CF (Z2f 1)]; [CF (Z2f 4)]], [[CF (Z2f 4)]; [CF (Z2f 1)]]. do 3 eexists.
  split; [apply perm_swap|]. split; [reflexivity|]. split; [reflexivity|]. split; [reflexivity|].
  destruct (Z2f_exact 1) as [E1 F1]; [lia|]. destruct (Z2f_exact 4) as [E4 F4]; [lia|].
  intros v [<-|[<-|[]]]; (split; [assumption|]); [rewrite E1|rewrite E4]; rewrite Rabs_right; lra.
Qed.
