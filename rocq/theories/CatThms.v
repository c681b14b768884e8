(** Facts about UniCategorical and CategoricalSampling. *)
From Coq Require Import String List ZArith Bool Lia Reals Lra.
From Flocq Require Import Core IEEE754.BinarySingleNaN.
From Verif Require Import PyBase B64 B64More NdArray Rand RandThms Models Kahan Inits.
Import ListNotations.
Open Scope nat_scope.

(* ------------------------------------------------------------------ *)
(** ** Columns of one discrete kind *)

Definition is_CS (c : cell) : Prop := match c with CS _ => True | _ => False end.
Definition is_CI (c : cell) : Prop := match c with CI _ => True | _ => False end.

(** A column of strings, or a column of integers. *)
Definition discrete (l : list cell) : Prop := Forall is_CS l \/ Forall is_CI l.

Lemma discrete_incl l l' : discrete l -> incl l' l -> discrete l'.
Proof.
  intros [H|H] Hi; [left|right]; rewrite Forall_forall in *; intros x Hx; apply H, Hi, Hx.
Qed.

Lemma discrete_eqb l x y : discrete l -> In x l -> In y l -> (cell_eqb x y = true <-> x = y).
Proof.
  intros [H|H] Hx Hy; rewrite Forall_forall in H; pose proof (H x Hx) as Kx; pose proof (H y Hy) as Ky;
    destruct x, y; cbn in *; try contradiction.
  - rewrite String.eqb_eq. split; congruence.
  - rewrite Z.eqb_eq. split; congruence.
Qed.

Lemma discrete_not_mixed l : discrete l -> existsb is_str l && existsb (fun c => negb (is_str c)) l = false.
Proof.
  intros [H|H]; rewrite Forall_forall in H.
  - apply andb_false_iff. right. apply not_true_is_false. intros E. apply existsb_exists in E as (x & Hx & E).
    specialize (H x Hx). destruct x; cbn in *; try contradiction; discriminate.
  - apply andb_false_iff. left. apply not_true_is_false. intros E. apply existsb_exists in E as (x & Hx & E).
    specialize (H x Hx). destruct x; cbn in *; try contradiction; discriminate.
Qed.

Lemma homogenise_discrete str_of l : discrete l -> homogenise str_of l = l.
Proof.
  intros [H|H]; unfold homogenise; rewrite Forall_forall in H.
  - destruct (existsb is_str l) eqn:E.
    + rewrite <- (map_id l) at 2. apply map_ext_in. intros x Hx. specialize (H x Hx). destruct x; cbn in *; try contradiction; reflexivity.
    + assert (E' : existsb (fun c => match c with CF _ => true | _ => false end) l = false).
      { apply not_true_is_false. intros E2. apply existsb_exists in E2 as (x & Hx & E2). specialize (H x Hx). destruct x; cbn in *; try contradiction; discriminate. }
      rewrite E'. reflexivity.
  - assert (E : existsb is_str l = false).
    { apply not_true_is_false. intros E2. apply existsb_exists in E2 as (x & Hx & E2). specialize (H x Hx). destruct x; cbn in *; try contradiction; discriminate. }
    assert (E' : existsb (fun c => match c with CF _ => true | _ => false end) l = false).
    { apply not_true_is_false. intros E2. apply existsb_exists in E2 as (x & Hx & E2). specialize (H x Hx). destruct x; cbn in *; try contradiction; discriminate. }
    rewrite E, E'. reflexivity.
Qed.

(* ------------------------------------------------------------------ *)
(** ** np.unique *)

(** How often [x] occurs. *)
Definition occurrences (x : cell) (l : list cell) : nat := List.length (filter (fun y => cell_eqb y x) l).

Lemma occurrences_app x l l' : occurrences x (l ++ l') = occurrences x l + occurrences x l'.
Proof. unfold occurrences. rewrite filter_app, app_length. reflexivity. Qed.

Definition counts_of (t : list (cell * nat)) (l : list cell) : Prop :=
  NoDup (map fst t) /\
  (forall y k, In (y, k) t -> In y l /\ k = occurrences y l) /\
  (forall x, In x l -> In x (map fst t)) /\
  fold_right plus 0 (map snd t) = List.length l.

Lemma bump_fst x t : map fst (bump x t) = map fst t.
Proof. induction t as [|[y k] t IH]; cbn; [reflexivity|]. destruct (cell_eqb x y); cbn; congruence. Qed.

Lemma bump_sum x t : existsb (fun yk => cell_eqb x (fst yk)) t = true ->
  fold_right plus 0 (map snd (bump x t)) = S (fold_right plus 0 (map snd t)).
Proof.
  induction t as [|[y k] t IH]; cbn; [discriminate|]. destruct (cell_eqb x y); cbn; [lia|]. intros H. rewrite IH by exact H. lia.
Qed.

Lemma bump_In x t : NoDup (map fst t) -> (forall y, In y (map fst t) -> cell_eqb x y = true <-> x = y) ->
  forall y k, In (y, k) (bump x t) -> (y = x /\ exists k', k = S k' /\ In (y, k') t) \/ (y <> x /\ In (y, k) t).
Proof.
  induction t as [|[z m] t IH]; intros Hd He y k H; cbn in *; [destruct H|].
  inversion Hd as [|? ? Hz Hd']; subst.
  pose proof (He z ltac:(left; reflexivity)) as Hxz.
  destruct (cell_eqb x z) eqn:E.
  - assert (x = z) by (apply Hxz; reflexivity). subst z. destruct H as [H|H].
    + injection H as <- <-. left. split; [reflexivity|]. exists m. split; [reflexivity|]. left; reflexivity.
    + right. split; [|right; exact H]. intros ->. apply Hz. apply (in_map fst) in H. exact H.
  - destruct H as [H|H].
    + injection H as <- <-. right. split; [intros ->; assert (false = true) by (apply Hxz; reflexivity); discriminate|]. left; reflexivity.
    + destruct (IH Hd' ltac:(intros u Hu; apply He; right; exact Hu) y k H) as [(-> & k' & -> & Hk)|[Hne Hk]].
      * left. split; [reflexivity|]. exists k'. split; [reflexivity|]. right; exact Hk.
      * right. split; [exact Hne|]. right; exact Hk.
Qed.

Lemma insert_new_In x t y k : In (y, k) (insert_new x t) <-> (y = x /\ k = 1) \/ In (y, k) t.
Proof.
  induction t as [|[z m] t IH]; cbn.
  - split; [intros [H|[]]; injection H as <- <-; left; auto|intros [[-> ->]|[]]; left; reflexivity].
  - destruct (cell_ltb x z); cbn.
    + split; [intros [H|H]; [injection H as <- <-; left; auto|right; exact H]|intros [[-> ->]|H]; [left; reflexivity|right; exact H]].
    + rewrite IH. tauto.
Qed.

Lemma insert_new_fst x t : forall y, In y (map fst (insert_new x t)) <-> y = x \/ In y (map fst t).
Proof.
  intros y. split.
  - intros H. apply in_map_iff in H as ([y' k] & <- & H). apply insert_new_In in H as [[-> _]|H]; [left; reflexivity|].
    right. apply (in_map fst) in H. exact H.
  - intros [->|H].
    + apply in_map_iff. exists (x, 1). split; [reflexivity|]. apply insert_new_In. left. auto.
    + apply in_map_iff in H as ([y' k] & <- & H). apply in_map_iff. exists (y', k). split; [reflexivity|]. apply insert_new_In. right; exact H.
Qed.

Lemma insert_new_NoDup x t : NoDup (map fst t) -> ~ In x (map fst t) -> NoDup (map fst (insert_new x t)).
Proof.
  induction t as [|[z m] t IH]; intros Hd Hx; cbn; [repeat constructor; intros []|].
  inversion Hd as [|? ? Hz Hd']; subst. destruct (cell_ltb x z); cbn.
  - constructor; [exact Hx|exact Hd].
  - constructor; [|apply IH; [exact Hd'|intros H; apply Hx; right; exact H]].
    intros H. apply insert_new_fst in H as [->|H]; [apply Hx; left; reflexivity|exact (Hz H)].
Qed.

Lemma insert_new_sum x t : fold_right plus 0 (map snd (insert_new x t)) = S (fold_right plus 0 (map snd t)).
Proof. induction t as [|[z m] t IH]; cbn; [reflexivity|]. destruct (cell_ltb x z); cbn; [reflexivity|]. rewrite IH. lia. Qed.

Lemma count_step t l x : discrete (l ++ [x]) -> counts_of t l -> counts_of (count_in t x) (l ++ [x]).
Proof.
  intros Hk (Hd & Ht & Hin & Hs).
  assert (Hsub : forall y, In y (map fst t) -> In y l).
  { intros y Hy. apply in_map_iff in Hy as ([y' k] & <- & Hy). apply (Ht y' k), Hy. }
  assert (Hx : In x (l ++ [x])) by (apply in_app_iff; right; left; reflexivity).
  assert (He : forall y, In y l -> cell_eqb x y = true <-> x = y).
  { intros y Hy. apply (discrete_eqb (l ++ [x]) x y Hk Hx). apply in_app_iff; left; exact Hy. }
  assert (He' : forall y, In y l -> cell_eqb y x = true <-> y = x).
  { intros y Hy. apply (discrete_eqb (l ++ [x]) y x Hk); [|exact Hx]. apply in_app_iff; left; exact Hy. }
  assert (Hxx : cell_eqb x x = true) by (apply (discrete_eqb (l ++ [x]) x x Hk Hx Hx); reflexivity).
  assert (Hone : forall y, In y l -> occurrences y [x] = if cell_eqb x y then 1 else 0).
  { intros y _. unfold occurrences. cbn. destruct (cell_eqb x y); reflexivity. }
  unfold count_in. destruct (existsb (fun yk => cell_eqb x (fst yk)) t) eqn:E.
  - (* already counted *)
    assert (Hxl : In x l).
    { apply existsb_exists in E as ([y k] & Hy & E). cbn in E. destruct (Ht y k Hy) as [Hyl _]. apply (He y Hyl) in E. subst. exact Hyl. }
    split; [rewrite bump_fst; exact Hd|]. split; [|split].
    + intros y k H. apply bump_In in H; [|exact Hd|intros u Hu; apply He, Hsub, Hu].
      destruct H as [(-> & k' & -> & Hk')|[Hne Hyk]].
      * destruct (Ht x k' Hk') as [_ ->]. split; [apply in_app_iff; left; exact Hxl|]. rewrite occurrences_app, (Hone x Hxl), Hxx. lia.
      * destruct (Ht y k Hyk) as [Hyl ->]. split; [apply in_app_iff; left; exact Hyl|]. rewrite occurrences_app, (Hone y Hyl).
        destruct (cell_eqb x y) eqn:Exy; [|lia]. apply (He y Hyl) in Exy. congruence.
    + intros y Hy. rewrite bump_fst. apply in_app_iff in Hy as [Hy|[<-|[]]]; [apply Hin, Hy|apply Hin, Hxl].
    + rewrite bump_sum by exact E. rewrite app_length. cbn. lia.
  - assert (Hnx : ~ In x (map fst t)).
    { intros H. apply in_map_iff in H as ([y k] & Hy1 & Hy). cbn in Hy1. subst y.
      assert (existsb (fun yk => cell_eqb x (fst yk)) t = true) by (apply existsb_exists; exists (x, k); split; [exact Hy|exact Hxx]). congruence. }
    assert (Hnl : ~ In x l) by (intros H; apply Hnx, Hin, H).
    assert (H0 : occurrences x l = 0).
    { unfold occurrences. replace (filter (fun y => cell_eqb y x) l) with (@nil cell); [reflexivity|]. symmetry.
      assert (Hall : forall y, In y l -> cell_eqb y x = false).
      { intros y Hy. apply not_true_is_false. intros Ey. apply (He' y Hy) in Ey. subst. exact (Hnl Hy). }
      clear - Hall. induction l as [|y l IH]; [reflexivity|]. cbn. rewrite (Hall y ltac:(left; reflexivity)). apply IH. intros z Hz. apply Hall. right; exact Hz. }
    split; [apply insert_new_NoDup; assumption|]. split; [|split].
    + intros y k H. apply insert_new_In in H as [[-> ->]|H].
      * split; [exact Hx|]. rewrite occurrences_app, H0. unfold occurrences. cbn. rewrite Hxx. reflexivity.
      * destruct (Ht y k H) as [Hyl ->]. split; [apply in_app_iff; left; exact Hyl|]. rewrite occurrences_app, (Hone y Hyl).
        destruct (cell_eqb x y) eqn:Exy; [|lia]. apply (He y Hyl) in Exy. subst. destruct (Hnl Hyl).
    + intros y Hy. apply insert_new_fst. apply in_app_iff in Hy as [Hy|[<-|[]]]; [right; apply Hin, Hy|left; reflexivity].
    + rewrite insert_new_sum, app_length. cbn. lia.
Qed.

Lemma np_unique_spec col : discrete col -> exists t, np_unique col = Ok t /\ counts_of t col.
Proof.
  intros Hd. unfold np_unique. rewrite (discrete_not_mixed col Hd). eexists. split; [reflexivity|].
  assert (H : forall l t pre, discrete (pre ++ l) -> counts_of t pre -> counts_of (fold_left count_in l t) (pre ++ l)).
  { induction l as [|x l IH]; intros t pre Hk Ht; cbn [fold_left].
    - rewrite app_nil_r. exact Ht.
    - replace (pre ++ x :: l) with ((pre ++ [x]) ++ l) in * by (rewrite <- app_assoc; reflexivity).
      apply IH; [exact Hk|]. apply count_step; [|exact Ht]. eapply discrete_incl; [exact Hk|]. intros y Hy. apply in_app_iff; left; exact Hy. }
  apply (H col [] []); [exact Hd|]. split; [constructor|]. split; [intros y k []|]. split; [intros x []|]. reflexivity.
Qed.

(** The table learned from one column. *)
Definition freq_table (col : list cell) (p : list (cell * f64)) : Prop :=
  NoDup (map fst p) /\
  (forall x, In x (map fst p) <-> In x col) /\
  (forall x q, In (x, q) p -> q = fdiv (Z2f (Z.of_nat (occurrences x col))) (Z2f (Z.of_nat (List.length col)))) /\
  fold_right plus 0 (map (fun xq => occurrences (fst xq) col) p) = List.length col.

Lemma obtain_spec col : discrete col -> exists p, obtain_probabilities col = Ok p /\ freq_table col p.
Proof.
  intros Hd. destruct (np_unique_spec col Hd) as (t & Ht & Hdup & Hk & Hin & Hs).
  unfold obtain_probabilities. rewrite Ht. cbn [rmap]. eexists. split; [reflexivity|].
  assert (Hfst : map fst (map (fun yk => (fst yk, fdiv (Z2f (Z.of_nat (snd yk))) (Z2f (Z.of_nat (List.length col))))) t) = map fst t).
  { rewrite map_map. apply map_ext. reflexivity. }
  split; [rewrite Hfst; exact Hdup|]. split; [|split].
  - intros x. rewrite Hfst. split; [|apply Hin]. intros H. apply in_map_iff in H as ([y k] & <- & H). apply (Hk y k), H.
  - intros x q H. apply in_map_iff in H as ([y k] & H & Hy). cbn in H. injection H as <- <-. destruct (Hk y k Hy) as [_ ->]. reflexivity.
  - rewrite <- Hs. f_equal. rewrite map_map. apply map_ext_in. intros [y k] Hy. cbn. symmetry. apply (Hk y k Hy).
Qed.

(* ------------------------------------------------------------------ *)
(** ** UniCategorical.learn *)

(** Column [j] of the rows. *)
Definition column (j : nat) (rs : list row) : list cell := map (fun r => nth j r (CF fnan)) rs.

Lemma cat_learn_from_ok d t : forall i t',
  cat_learn_from d i t = (Ok tt, t') ->
  List.length t' = List.length t /\
  forall k, k < List.length t -> i + k < a_nc d /\ exists p, nth_error t' k = Some (Some p) /\ obtain_probabilities (column (i + k) (a_rows d)) = Ok p.
Proof.
  induction t as [|e t IH]; intros i t' H; cbn [cat_learn_from] in H.
  - injection H as <-. split; [reflexivity|]. cbn. lia.
  - unfold cell_col in H. destruct (Nat.ltb_spec i (a_nc d)) as [Hi|Hi]; cbn [rbind] in H; [|discriminate].
    fold (column i (a_rows d)) in H. destruct (obtain_probabilities (column i (a_rows d))) as [p|] eqn:E; [|discriminate].
    destruct (cat_learn_from d (S i) t) as [r t''] eqn:E'. injection H as -> <-.
    destruct (IH _ _ E') as [Hl Hk]. split; [cbn; congruence|]. intros [|k] Hk'.
    + rewrite Nat.add_0_r. split; [exact Hi|]. exists p. split; [reflexivity|exact E].
    + cbn in Hk'. destruct (Hk k ltac:(lia)) as (Hlt & p' & H1 & H2). replace (i + S k) with (S i + k) by lia. eauto.
Qed.

Lemma cat_learn_forgets d : forall t1 t2 i t1' t2',
  List.length t1 = List.length t2 ->
  cat_learn_from d i t1 = (Ok tt, t1') -> cat_learn_from d i t2 = (Ok tt, t2') -> t1' = t2'.
Proof.
  induction t1 as [|e1 t1 IH]; intros [|e2 t2] i t1' t2' Hl H1 H2; cbn in Hl; try discriminate; cbn [cat_learn_from] in *.
  - congruence.
  - destruct (rbind (cell_col d i) obtain_probabilities) as [p|]; [|discriminate].
    destruct (cat_learn_from d (S i) t1) as [r1 x1] eqn:E1, (cat_learn_from d (S i) t2) as [r2 x2] eqn:E2.
    injection H1 as -> <-. injection H2 as -> <-. f_equal. eapply IH; [|exact E1|exact E2]. congruence.
Qed.

Lemma cat_learn_outcome d : forall t1 t2 i,
  List.length t1 = List.length t2 -> fst (cat_learn_from d i t1) = fst (cat_learn_from d i t2).
Proof.
  induction t1 as [|e1 t1 IH]; intros [|e2 t2] i Hl; cbn in Hl; try discriminate; cbn [cat_learn_from]; [reflexivity|].
  destruct (rbind (cell_col d i) obtain_probabilities) as [p|]; [|reflexivity].
  specialize (IH t2 (S i) ltac:(congruence)). destruct (cat_learn_from d (S i) t1), (cat_learn_from d (S i) t2). exact IH.
Qed.

(** Learning from a data set of discrete columns succeeds with the frequencies of each column. *)
Lemma cat_learn_spec d t :
  List.length t = a_nc d -> (forall j, j < a_nc d -> discrete (column j (a_rows d))) ->
  exists t', cat_learn d t = (Ok tt, t') /\ List.length t' = a_nc d /\
    forall j, j < a_nc d -> exists p, nth_error t' j = Some (Some p) /\ freq_table (column j (a_rows d)) p.
Proof.
  intros Hl Hd.
  assert (H : forall t i, i + List.length t = a_nc d -> exists t', cat_learn_from d i t = (Ok tt, t')).
  { clear t Hl. induction t as [|e t IH]; intros i Hi; cbn [cat_learn_from]; [eexists; reflexivity|]. cbn in Hi.
    unfold cell_col. destruct (Nat.ltb_spec i (a_nc d)); [|lia]. cbn [rbind]. fold (column i (a_rows d)).
    destruct (obtain_spec _ (Hd i ltac:(lia))) as (p & -> & _). destruct (IH (S i) ltac:(lia)) as [t' ->]. eexists; reflexivity. }
  destruct (H t 0 ltac:(lia)) as [t' Ht']. exists t'. split; [exact Ht'|].
  destruct (cat_learn_from_ok d t 0 t' Ht') as [Hl' Hk]. split; [congruence|]. intros j Hj.
  destruct (Hk j ltac:(lia)) as (_ & p & Hp & Ho). exists p. split; [exact Hp|]. cbn in Ho.
  destruct (obtain_spec _ (Hd j Hj)) as (p' & Hp' & Hf). rewrite Ho in Hp'. injection Hp' as <-. exact Hf.
Qed.

(* ------------------------------------------------------------------ *)
(** ** Sampling columns *)

Lemma draw_columns_ok {W A} (draw : A -> W -> res (list cell) * W) l : forall w cols w',
  draw_columns draw l w = (Ok cols, w') ->
  Forall2 (fun x col => exists w1 w2, draw x w1 = (Ok col, w2)) l cols.
Proof.
  induction l as [|x l IH]; intros w cols w' H; cbn [draw_columns] in H.
  - injection H as <- <-. constructor.
  - destruct (draw x w) as [[col|e] w1] eqn:E; [|discriminate].
    destruct (draw_columns draw l w1) as [[cols'|e] w2] eqn:E'; [|discriminate]. injection H as <- <-.
    constructor; [eauto|eapply IH, E'].
Qed.

(** A draw that cannot fail on any element never makes the frame fail. *)
Lemma draw_columns_total {W A} (draw : A -> W -> res (list cell) * W) l :
  (forall x w, In x l -> exists col, fst (draw x w) = Ok col) -> forall w, exists cols, fst (draw_columns draw l w) = Ok cols.
Proof.
  induction l as [|x l IH]; intros H w; cbn [draw_columns]; [eexists; reflexivity|].
  destruct (H x w ltac:(left; reflexivity)) as [col Hc]. destruct (draw x w) as [r w1]. cbn in Hc. subst r.
  destruct (IH ltac:(intros y w2 Hy; apply H; right; exact Hy) w1) as [cols Hcs]. destruct (draw_columns draw l w1) as [r2 w2].
  cbn in Hcs. subst r2. eexists; reflexivity.
Qed.

(** Exceptions of a draw are those of its elements. *)
Lemma draw_columns_raise {W A} (draw : A -> W -> res (list cell) * W) l : forall w e w',
  draw_columns draw l w = (Raise e, w') -> exists x w1 w2, In x l /\ draw x w1 = (Raise e, w2).
Proof.
  induction l as [|x l IH]; intros w e w' H; cbn [draw_columns] in H; [discriminate|].
  destruct (draw x w) as [[col|e1] w1] eqn:E.
  - destruct (draw_columns draw l w1) as [[cols'|e2] w2] eqn:E'; [discriminate|]. injection H as <- <-.
    destruct (IH _ _ _ E') as (y & u1 & u2 & Hy & Hd). exists y, u1, u2. split; [right; exact Hy|exact Hd].
  - injection H as <- <-. exists x, w, w1. split; [left; reflexivity|exact E].
Qed.

Definition not_float (c : cell) : Prop := match c with CF _ => False | _ => True end.

Lemma frame_no_floats cols : Forall (Forall not_float) cols -> frame_dtype cols <> DFloat.
Proof.
  intros H. unfold frame_dtype. destruct (existsb (existsb is_str) cols); [discriminate|].
  destruct (existsb _ cols) eqn:E; [|discriminate]. apply existsb_exists in E as (col & Hcol & E).
  apply existsb_exists in E as (c & Hc & E). rewrite Forall_forall in H. specialize (H col Hcol). rewrite Forall_forall in H.
  specialize (H c Hc). destruct c; cbn in *; try contradiction; discriminate.
Qed.

Lemma cast_id d c : d <> DFloat -> cast_cell d c = c.
Proof. destruct d, c; cbn; congruence. Qed.

Lemma frame_wide size cols : cols <> [] -> frame size cols =
  mkArr (frame_dtype cols) (List.length cols)
        (tabulate size (fun i => map (fun col => cast_cell (frame_dtype cols) (nth i col (CF fnan))) cols)).
Proof. destruct cols; [congruence|reflexivity]. Qed.

Lemma frame_nc size cols : a_nc (frame size cols) = List.length cols.
Proof. destruct cols; reflexivity. Qed.

Lemma frame_len size cols : cols <> [] -> a_len (frame size cols) = size.
Proof. intros H. rewrite frame_wide by exact H. apply tabulate_length. Qed.

(** Cells of a frame without floats are the cells drawn. *)
Lemma frame_cells size cols : cols <> [] ->
  Forall (fun col => List.length col = size) cols -> Forall (Forall not_float) cols ->
  let a := frame size cols in
  a_nc a = List.length cols /\ a_len a = size /\ Forall (fun r => List.length r = a_nc a) (a_rows a) /\
  (forall i j, i < size -> j < List.length cols -> nth_error (nth i (a_rows a) []) j = Some (nth i (nth j cols []) (CF fnan))) /\
  forall j, column j (a_rows a) = if j <? List.length cols then nth j cols [] else repeat (CF fnan) size.
Proof.
  intros Hne Hl Hf. cbv zeta. pose proof (frame_no_floats cols Hf) as Hd. rewrite (frame_wide size cols Hne). unfold a_len. cbn [a_nc a_rows].
  split; [reflexivity|]. split; [apply tabulate_length|]. split; [|split].
  - apply Forall_tabulate. intros i _. apply map_length.
  - intros i j Hi Hj. rewrite nth_tabulate by exact Hi. rewrite nth_error_map, (nth_error_nth' cols []) by exact Hj. cbn.
    rewrite cast_id by exact Hd. reflexivity.
  - intros j. unfold column, tabulate. rewrite map_map. destruct (Nat.ltb_spec j (List.length cols)) as [Hj|Hj].
    + assert (Hlj : List.length (nth j cols []) = size) by (rewrite Forall_forall in Hl; apply Hl, nth_In, Hj).
      apply nth_ext with (d := CF fnan) (d' := CF fnan); [rewrite map_length, seq_length; symmetry; exact Hlj|].
      intros i Hi. rewrite map_length, seq_length in Hi.
      rewrite (nth_indep _ (CF fnan) ((fun x => nth j (map (fun col => cast_cell (frame_dtype cols) (nth x col (CF fnan))) cols) (CF fnan)) 0)) by (rewrite map_length, seq_length; exact Hi).
      rewrite (map_nth (fun x => nth j (map (fun col => cast_cell (frame_dtype cols) (nth x col (CF fnan))) cols) (CF fnan))). rewrite seq_nth by exact Hi. cbn [plus].
      rewrite (nth_indep _ (CF fnan) ((fun col => cast_cell (frame_dtype cols) (nth i col (CF fnan))) [])) by (rewrite map_length; exact Hj).
      rewrite (map_nth (fun col => cast_cell (frame_dtype cols) (nth i col (CF fnan)))). apply cast_id, Hd.
    + assert (Hs : size = List.length (seq 0 size)) by (symmetry; apply seq_length). rewrite Hs at 2. clear Hs.
      induction (seq 0 size) as [|i l IH]; [reflexivity|]. cbn. rewrite IH. f_equal. apply nth_overflow. rewrite map_length. exact Hj.
Qed.

(** A column drawn by [np.random.choice] from discrete values with probabilities. *)
Lemma choice_column {W} (g : rng W) str_of vals size p w col w' :
  unif_ok g -> Forall prob p -> (Z.of_nat (List.length p) <= 2 ^ 53)%Z -> discrete vals ->
  np_choice g (homogenise str_of vals) size p w = (Ok col, w') ->
  List.length col = Z.to_nat size /\
  Forall (fun c => exists k, nth_error vals k = Some c /\ (0 < B2R (nth k p fnan))%R) col /\ Forall not_float col.
Proof.
  intros Hg Hp Hlen Hd H. rewrite (homogenise_discrete str_of vals Hd) in H.
  destruct (np_choice_spec g vals size p w Hg Hp Hlen) as [(out & Ho & Hl & _ & _ & Hall)|Hr]; rewrite H in *; cbn [fst] in *; [|discriminate].
  injection Ho as <-. split; [exact Hl|]. split; [exact Hall|].
  eapply Forall_impl; [|exact Hall]. intros c (k & Hk & _). apply nth_error_In in Hk.
  destruct Hd as [Hd|Hd]; rewrite Forall_forall in Hd; specialize (Hd c Hk); destruct c; cbn in *; tauto.
Qed.

Lemma freq_table_probs col p :
  freq_table col p -> col <> [] -> (Z.of_nat (List.length col) <= 2 ^ 53)%Z ->
  Forall prob (map snd p) /\ (Z.of_nat (List.length (map snd p)) <= 2 ^ 53)%Z /\ List.length p <= List.length col.
Proof.
  intros (Hd & Hin & Hq & Hs) Hne Hb.
  assert (Hn : 0 < List.length col) by (destruct col; [congruence|cbn; lia]).
  assert (Hlp : List.length p <= List.length col).
  { rewrite <- (map_length fst p). apply NoDup_incl_length; [exact Hd|]. intros x Hx. apply Hin, Hx. }
  split; [|split; [rewrite map_length; lia|exact Hlp]].
  apply Forall_forall. intros q Hq'. apply in_map_iff in Hq' as ([x q'] & <- & Hx). cbn. rewrite (Hq x q' Hx).
  apply freq_near; [exact Hn| |exact Hb]. unfold occurrences. clear. induction col as [|c col IH]; cbn; [lia|]. destruct (cell_eqb c x); cbn; lia.
Qed.

Lemma occurrences_pos x col : In x col -> cell_eqb x x = true -> 0 < occurrences x col.
Proof.
  intros H E. unfold occurrences. induction col as [|c col IH]; [destruct H|]. cbn. destruct H as [->|H]; [rewrite E; cbn; lia|].
  destruct (cell_eqb c x); cbn; [lia|apply IH, H].
Qed.

(** Sampling from a learned table: every column of the sample consists of values of the
    training column. *)
Lemma cat_sample_spec {W} (g : rng W) str_of d t t' size w a w' :
  unif_ok g -> cat_learn d t = (Ok tt, t') -> List.length t = a_nc d ->
  a_rows d <> [] -> (Z.of_nat (List.length (a_rows d)) <= 2 ^ 53)%Z ->
  (forall j, j < a_nc d -> discrete (column j (a_rows d))) ->
  cat_sample g str_of t' size w = (Ok a, w') ->
  a_nc a = a_nc d /\ (0 < a_nc d -> a_len a = Z.to_nat size) /\ Forall (fun r => List.length r = a_nc a) (a_rows a) /\
  (0 < a_nc d -> a_dt a <> DFloat) /\
  forall j, j < a_nc d -> incl (column j (a_rows a)) (column j (a_rows d)).
Proof.
  intros Hg Hlearn Hl Hne Hb Hd H.
  destruct (cat_learn_spec d t Hl Hd) as (t2 & Ht2 & Hlt' & Hfreq). rewrite Hlearn in Ht2. injection Ht2 as <-.
  unfold cat_sample in H. destruct (draw_columns (cat_draw g str_of size) t' w) as [[cols|e] w1] eqn:E; [|discriminate].
  injection H as <- <-. apply draw_columns_ok in E.
  assert (Hcols : forall j col, nth_error cols j = Some col ->
            List.length col = Z.to_nat size /\ Forall not_float col /\ incl col (column j (a_rows d))).
  { intros j col Hcol.
    assert (Hj : exists e, nth_error t' j = Some e /\ exists w1 w2, cat_draw g str_of size e w1 = (Ok col, w2)).
    { clear - E Hcol. revert j Hcol. induction E as [|x c l cs Hxc _ IH]; intros [|j] Hcol; cbn in *; try discriminate.
      - injection Hcol as ->. eauto.
      - apply IH, Hcol. }
    destruct Hj as (e & He & w1' & w2' & Hdraw).
    assert (Hjn : j < a_nc d) by (rewrite <- Hlt'; apply nth_error_Some; congruence).
    destruct (Hfreq j Hjn) as (p & Hp & Hf). rewrite He in Hp. injection Hp as ->. cbn [cat_draw] in Hdraw.
    assert (Hcne : column j (a_rows d) <> []) by (unfold column; destruct (a_rows d); [congruence|discriminate]).
    assert (Hcl : List.length (column j (a_rows d)) = List.length (a_rows d)) by apply map_length.
    destruct (freq_table_probs _ p Hf Hcne) as (Hpr & Hpl & _); [lia|].
    destruct Hf as (_ & Hin & _ & _).
    assert (Hdisc : discrete (map fst p)) by (eapply discrete_incl; [apply (Hd j Hjn)|]; intros x Hx; apply Hin, Hx).
    destruct (choice_column g str_of _ size _ _ col _ Hg Hpr Hpl Hdisc Hdraw) as (Hc1 & Hc2 & Hc3).
    split; [exact Hc1|]. split; [exact Hc3|]. intros c Hc. rewrite Forall_forall in Hc2. destruct (Hc2 c Hc) as (k & Hk & _).
    apply Hin. eapply nth_error_In, Hk. }
  assert (Hlc : List.length cols = a_nc d) by (rewrite <- Hlt'; clear - E; induction E; cbn; congruence).
  assert (F1 : Forall (fun col => List.length col = Z.to_nat size) cols).
  { apply Forall_forall. intros col Hc. apply In_nth_error in Hc as [j Hj]. apply (Hcols j col Hj). }
  assert (F2 : Forall (Forall not_float) cols).
  { apply Forall_forall. intros col Hc. apply In_nth_error in Hc as [j Hj]. apply (Hcols j col Hj). }
  destruct cols as [|c0 cs] eqn:Ec.
  { cbn [List.length] in Hlc. cbn [frame a_nc a_len a_rows]. split; [exact Hlc|]. split; [lia|]. split; [constructor|]. split; [lia|]. intros j Hj. lia. }
  rewrite <- Ec in *.
  destruct (frame_cells (Z.to_nat size) cols ltac:(rewrite Ec; discriminate) F1 F2) as (A1 & A2 & A3 & _ & A5). cbv zeta in *.
  split; [congruence|]. split; [intros _; exact A2|]. split; [exact A3|]. split; [intros _; rewrite frame_wide by (rewrite Ec; discriminate); apply frame_no_floats, F2|].
  intros j Hj. rewrite A5. destruct (Nat.ltb_spec j (List.length cols)); [|lia].
  apply (Hcols j). apply nth_error_nth'. lia.
Qed.

(** Sampling from a learned table never fails (up to 2^22 distinct values per variable). *)
Lemma cat_sample_total {W} (g : rng W) str_of d t t' size w :
  unif_ok g -> cat_learn d t = (Ok tt, t') -> List.length t = a_nc d ->
  a_rows d <> [] -> (Z.of_nat (List.length (a_rows d)) <= 2 ^ 22)%Z ->
  (forall j, j < a_nc d -> discrete (column j (a_rows d))) -> (0 <= size)%Z ->
  exists a, fst (cat_sample g str_of t' size w) = Ok a.
Proof.
  intros Hg Hlearn Hl Hne Hb Hd Hsz.
  destruct (cat_learn_spec d t Hl Hd) as (t2 & Ht2 & Hlt' & Hfreq). rewrite Hlearn in Ht2. injection Ht2 as <-.
  unfold cat_sample.
  destruct (draw_columns_total (cat_draw g str_of size) t') with (w := w) as [cols Hcols].
  - intros e w1 He. apply In_nth_error in He as [j Hj].
    assert (Hjn : j < a_nc d) by (rewrite <- Hlt'; apply nth_error_Some; congruence).
    destruct (Hfreq j Hjn) as (p & Hp & Hf). rewrite Hj in Hp. injection Hp as ->. cbn [cat_draw].
    assert (Hcne : column j (a_rows d) <> []) by (unfold column; destruct (a_rows d); [congruence|discriminate]).
    assert (Hcl : List.length (column j (a_rows d)) = List.length (a_rows d)) by apply map_length.
    destruct (freq_table_probs _ p Hf Hcne) as (Hpr & Hpl & Hple); [lia|].
    destruct Hf as (Hnd & Hin & Hq & Hs).
    assert (Hdisc : discrete (map fst p)) by (eapply discrete_incl; [apply (Hd j Hjn)|]; intros x Hx; apply Hin, Hx).
    rewrite (homogenise_discrete str_of _ Hdisc).
    assert (Hpok : probs_ok (map snd p) = true).
    { assert (Hps : map snd p = map (fun k => fdiv (Z2f (Z.of_nat k)) (Z2f (Z.of_nat (List.length (column j (a_rows d)))))) (map (fun xq => occurrences (fst xq) (column j (a_rows d))) p)).
      { rewrite map_map. apply map_ext_in. intros [x q] Hx. cbn. apply Hq, Hx. }
      rewrite Hps. apply freqs_ok; [destruct (column j (a_rows d)); [congruence|cbn; lia]|lia|rewrite map_length; lia|exact Hs]. }
    destruct (np_choice_spec g (map fst p) size (map snd p) w1 Hg Hpr Hpl) as [(out & Ho & _)|Hr]; [eauto|exfalso].
    unfold np_choice in Hr. destruct (Z.ltb_spec size 0); [lia|].
    assert (Hp0 : 0 < List.length p).
    { destruct p as [|x p']; [|cbn; lia]. cbn in Hs. destruct (column j (a_rows d)); [congruence|discriminate]. }
    rewrite map_length in Hr. destruct (Nat.eqb_spec (List.length p) 0); [lia|]. cbn [andb] in Hr.
    rewrite map_length, Nat.eqb_refl in Hr. cbn [negb] in Hr. rewrite Hpok in Hr. cbn [negb] in Hr.
    destruct (g_unif g (Z.to_nat size) 1 w1) as [u w2] eqn:Eu. cbn [fst] in Hr.
    destruct (gather_in_range (tabulate (Z.to_nat size) (fun i => searchsorted_right (cdf (map snd p)) (u i 0))) (map fst p)) as [o Ho]; [|congruence].
    apply Forall_tabulate. intros i _. pose proof (Hg (Z.to_nat size) 1 w1 i 0) as Hu. rewrite Eu in Hu. cbn [fst] in Hu. destruct Hu as [U0 U1].
    rewrite map_length, <- (map_length snd p).
    apply (choice_pos (map snd p) Hpl Hpr (probs_ok_pos _ Hpr Hpok) _ U0 U1).
  - destruct (draw_columns (cat_draw g str_of size) t' w) as [r w1]. cbn in Hcols. subst r. eexists; reflexivity.
Qed.
