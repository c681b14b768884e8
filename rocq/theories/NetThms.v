(** Facts about the network wrappers. *)
From Coq Require Import String List ZArith Bool Lia Permutation Decimal DecimalString DecimalNat.
From Verif Require Import PyBase B64 NdArray Models Gbn GbnSample Stock Nets ModelProps.
Import ListNotations.
Open Scope nat_scope.

(** The value in row [i] of the column called [v]. *)
Definition value_at (t : table) (i : nat) (v : string) (c : cell) : Prop :=
  exists p r, nth_error (tb_cols t) p = Some v /\ nth_error (tb_rows t) i = Some r /\ nth_error r p = Some c.
(** Columns have different names and every row has one cell per column. *)
Definition table_ok (t : table) : Prop :=
  NoDup (tb_cols t) /\ Forall (fun r => List.length r = List.length (tb_cols t)) (tb_rows t).

Lemma filter_one {A} (f : A -> bool) l x : NoDup l -> In x l -> f x = true -> (forall y, In y l -> f y = true -> y = x) -> filter f l = [x].
Proof.
  induction 1 as [|a l Ha Hl IH]; intros Hx Hf Hu; [destruct Hx|]. cbn. destruct Hx as [->|Hx].
  - rewrite Hf. f_equal. clear IH Hl. assert (H : forall y, In y l -> f y = false).
    { intros y Hy. destruct (f y) eqn:E; [|reflexivity]. rewrite (Hu y (or_intror Hy) E) in Hy. contradiction. }
    clear Ha Hu. induction l as [|b l IH]; [reflexivity|]. cbn. rewrite (H b (or_introl eq_refl)). apply IH. intros y Hy. apply H. right. exact Hy.
  - destruct (f a) eqn:E.
    + exfalso. rewrite (Hu a (or_introl eq_refl) E) in Ha. contradiction.
    + apply IH; [exact Hx|exact Hf|]. intros y Hy. apply Hu. right. exact Hy.
Qed.

Lemma positions_one v cols p : NoDup cols -> nth_error cols p = Some v -> positions v cols = [p].
Proof.
  intros Hn Hp. assert (Hlt : p < List.length cols) by (apply nth_error_Some; congruence).
  apply filter_one; [apply seq_NoDup|apply in_seq; lia| |].
  - rewrite (nth_error_nth _ _ _ Hp). apply String.eqb_refl.
  - intros q Hq E. apply in_seq in Hq. apply String.eqb_eq in E.
    rewrite NoDup_nth_error in Hn. apply Hn; [lia|]. rewrite Hp. rewrite (nth_error_nth' _ ""%string) by lia. congruence.
Qed.

Lemma existsb_In v l : existsb (String.eqb v) l = true <-> In v l.
Proof.
  rewrite existsb_exists. split.
  - intros (x & Hx & E). apply String.eqb_eq in E. subst. exact Hx.
  - intros H. exists v. split; [exact H|apply String.eqb_refl].
Qed.

Lemma missing_nil vars cols : filter (fun v => negb (existsb (String.eqb v) cols)) vars = [] <-> incl vars cols.
Proof.
  split.
  - intros H v Hv. destruct (existsb (String.eqb v) cols) eqn:E; [apply existsb_In, E|].
    assert (In v (filter (fun v => negb (existsb (String.eqb v) cols)) vars)) by (apply filter_In; rewrite E; auto).
    rewrite H in H0. destruct H0.
  - intros H. induction vars as [|v vars IH]; [reflexivity|]. cbn.
    rewrite (proj2 (existsb_In v cols)) by (apply H; left; reflexivity). apply IH. intros x Hx. apply H. right. exact Hx.
Qed.

(** Where each variable is. *)
Lemma picked_positions vars cols : NoDup cols -> incl vars cols ->
  exists ps, flat_map (fun v => positions v cols) vars = ps /\ Forall2 (fun v p => nth_error cols p = Some v) vars ps.
Proof.
  intros Hn. induction vars as [|v vars IH]; intros Hi; [exists []; split; [reflexivity|constructor]|].
  destruct IH as (ps & E & F); [intros x Hx; apply Hi; right; exact Hx|].
  destruct (In_nth_error _ _ (Hi v (or_introl eq_refl))) as [p Hp].
  exists (p :: ps). split; [|constructor; assumption]. cbn [flat_map]. rewrite (positions_one v cols p Hn Hp), E. reflexivity.
Qed.

Lemma Forall2_nth_l {A B} (P : A -> B -> Prop) l l' : Forall2 P l l' -> forall i a, nth_error l i = Some a -> exists b, nth_error l' i = Some b /\ P a b.
Proof.
  induction 1 as [|a b l l' Hab _ IH]; intros [|i] x E; cbn in *; try discriminate; [|apply IH, E].
  injection E as <-. eauto.
Qed.

Lemma pick_ok vars t : table_ok t -> incl vars (tb_cols t) ->
  exists a, pick_columns vars t = Ok a /\ a_nc a = List.length vars /\ a_dt a = tb_dt t /\
    List.length (a_rows a) = List.length (tb_rows t) /\ Forall (fun r => List.length r = List.length vars) (a_rows a) /\
    forall i j v c, nth_error vars j = Some v ->
      ((exists r, nth_error (a_rows a) i = Some r /\ nth_error r j = Some c) <-> value_at t i v c).
Proof.
  intros [Hn Hw] Hi. unfold pick_columns. rewrite (proj2 (missing_nil vars (tb_cols t)) Hi).
  destruct (picked_positions vars (tb_cols t) Hn Hi) as (ps & -> & F).
  assert (Hl : List.length ps = List.length vars) by (clear - F; induction F; cbn; congruence).
  eexists. split; [reflexivity|]. cbn [a_nc a_dt a_rows]. split; [exact Hl|]. split; [reflexivity|].
  split; [apply map_length|]. split.
  { apply Forall_forall. intros r Hr. apply in_map_iff in Hr as (r0 & <- & _). rewrite map_length. exact Hl. }
  intros i j v c Hv. destruct (Forall2_nth_l _ _ _ F j v Hv) as (p & Hp & Hcol).
  assert (Hplt : p < List.length (tb_cols t)) by (apply nth_error_Some; congruence).
  unfold value_at, row in *. rewrite nth_error_map. split.
  - intros (r & Hr & Hc). revert Hr. destruct (@nth_error (list cell) (tb_rows t) i) as [r0|] eqn:E; intros Hr; cbn in Hr; [|discriminate Hr].
    assert (r = map (fun p => nth p r0 (CF fnan)) ps) by congruence. subst r. rewrite nth_error_map, Hp in Hc. cbn in Hc.
    exists p, r0. split; [exact Hcol|]. split; [reflexivity|].
    assert (Hr0 : List.length r0 = List.length (tb_cols t)) by (rewrite Forall_forall in Hw; apply Hw; eapply nth_error_In, E).
    rewrite (nth_error_nth' r0 (CF fnan)) by lia. congruence.
  - intros (p' & r0 & Hp' & Hr0 & Hc). rewrite Hr0. cbn.
    assert (p' = p) by (rewrite NoDup_nth_error in Hn; apply Hn; [apply nth_error_Some|]; congruence). subst p'.
    eexists. split; [reflexivity|]. rewrite nth_error_map, Hp. cbn. f_equal. apply nth_error_nth. exact Hc.
Qed.

Lemma pick_missing vars t : ~ incl vars (tb_cols t) -> exists v, In v vars /\ ~ In v (tb_cols t) /\ pick_columns vars t = Raise (KeyError v).
Proof.
  intros H. unfold pick_columns.
  destruct (filter (fun v => negb (existsb (String.eqb v) (tb_cols t))) vars) as [|v l] eqn:E.
  - exfalso. apply H, missing_nil, E.
  - exists v. assert (Hin : In v (filter (fun v => negb (existsb (String.eqb v) (tb_cols t))) vars)) by (rewrite E; left; reflexivity).
    apply filter_In in Hin as [H1 H2]. split; [exact H1|]. split; [|reflexivity]. intros Hc. apply existsb_In in Hc. rewrite Hc in H2. discriminate.
Qed.

Lemma incl_dec (vars cols : list string) : incl vars cols \/ ~ incl vars cols.
Proof.
  destruct (filter (fun v => negb (existsb (String.eqb v) cols)) vars) as [|v l] eqn:E.
  - left. apply missing_nil, E.
  - right. intros H. apply missing_nil in H. rewrite H in E. discriminate.
Qed.

(** Names. *)
Lemma str_nat_inj i j : str_nat i = str_nat j -> i = j.
Proof.
  unfold str_nat. intros H. assert (E : NilZero.uint_of_string (NilZero.string_of_uint (Nat.to_uint i)) = NilZero.uint_of_string (NilZero.string_of_uint (Nat.to_uint j))) by (rewrite H; reflexivity).
  rewrite !NilZero.usu in E.
  - injection E as E. apply DecimalNat.Unsigned.to_uint_inj, E.
  - intros N. pose proof (DecimalNat.Unsigned.of_to j) as O. rewrite N in O. cbn in O. subst j. discriminate N.
  - intros N. pose proof (DecimalNat.Unsigned.of_to i) as O. rewrite N in O. cbn in O. subst i. discriminate N.
Qed.
Lemma var_names_ok n : NoDup (var_names n) /\ List.length (var_names n) = n.
Proof.
  unfold var_names. split; [|rewrite map_length; apply seq_length].
  apply FinFun.Injective_map_NoDup; [exact str_nat_inj|apply seq_NoDup].
Qed.

(* ---------------- sampling ---------------- *)
Section Nets.
Context {W Net K : Type}.
Variable L : @library W Net K.

Lemma sample_labels (m : netm Net) size w t w' :
  l_draw L (nm_pm m) size w = (Ok t, w') -> table_ok t ->
  (incl (nm_vars m) (tb_cols t) ->
     exists a, net_sample L m size w = (Ok a, w') /\ a_nc a = List.length (nm_vars m) /\
       List.length (a_rows a) = List.length (tb_rows t) /\ Forall (fun r => List.length r = List.length (nm_vars m)) (a_rows a) /\
       forall i j v c, nth_error (nm_vars m) j = Some v ->
         ((exists r, nth_error (a_rows a) i = Some r /\ nth_error r j = Some c) <-> value_at t i v c)) /\
  (~ incl (nm_vars m) (tb_cols t) ->
     exists v, In v (nm_vars m) /\ ~ In v (tb_cols t) /\ net_sample L m size w = (Raise (KeyError v), w')).
Proof.
  intros Hd Ht. unfold net_sample. rewrite Hd. split; intros Hi.
  - destruct (pick_ok _ _ Ht Hi) as (a & Ha & H1 & _ & H2 & H3 & H4). rewrite Ha. exists a. auto.
  - destruct (pick_missing _ _ Hi) as (v & H1 & H2 & H3). rewrite H3. exists v. auto.
Qed.

(** The order of the library's columns is irrelevant. *)
Lemma rows_eq (r r' : row) : List.length r = List.length r' -> (forall j c, nth_error r j = Some c <-> nth_error r' j = Some c) -> r = r'.
Proof.
  revert r'. induction r as [|x r IH]; intros [|y r'] Hl H; cbn in Hl; try discriminate; [reflexivity|].
  f_equal.
  - specialize (proj1 (H 0 x) eq_refl). cbn. congruence.
  - apply IH; [lia|]. intros j c. exact (H (S j) c).
Qed.
Lemma all_rows_eq n (a a' : list row) : List.length a = List.length a' -> Forall (fun r => List.length r = n) a -> Forall (fun r => List.length r = n) a' ->
  (forall i j c, (j < n) -> (exists r, nth_error a i = Some r /\ nth_error r j = Some c) <-> (exists r, nth_error a' i = Some r /\ nth_error r j = Some c)) -> a = a'.
Proof.
  revert a'. induction a as [|x a IH]; intros [|y a'] Hl F F' H; cbn in Hl; try discriminate; [reflexivity|].
  inversion F; inversion F'; subst. f_equal.
  - apply rows_eq; [congruence|]. intros j c. destruct (Nat.lt_ge_cases j (List.length x)) as [Hj|Hj].
    + specialize (H 0 j c Hj). cbn in H. split; intros Hc.
      * destruct (proj1 H) as (r & Er & Hr); [eauto|]. congruence.
      * destruct (proj2 H) as (r & Er & Hr); [eauto|]. congruence.
    + rewrite (proj2 (nth_error_None x j) Hj), (proj2 (nth_error_None y j)) by lia. split; discriminate.
  - apply IH; [lia|assumption|congruence|]. intros i j c Hj. exact (H (S i) j c Hj).
Qed.

Lemma order_irrelevant vars t t' : table_ok t -> table_ok t' -> tb_dt t = tb_dt t' -> Permutation (tb_cols t) (tb_cols t') ->
  List.length (tb_rows t) = List.length (tb_rows t') -> (forall i v c, value_at t i v c <-> value_at t' i v c) -> incl vars (tb_cols t) ->
  pick_columns vars t = pick_columns vars t'.
Proof.
  intros Ht Ht' Hdt Hp Hl Hv Hi.
  destruct (pick_ok vars t Ht Hi) as (a & -> & N & D & R & F & V).
  destruct (pick_ok vars t' Ht') as (a' & -> & N' & D' & R' & F' & V'); [intros x Hx; eapply Permutation_in; [exact Hp|apply Hi, Hx]|].
  f_equal. destruct a as [dt nc rs], a' as [dt' nc' rs']. cbn in *. subst. f_equal; [exact Hdt|].
  apply (all_rows_eq (List.length vars)); [congruence|exact F|exact F'|].
  intros i j c Hj. destruct (nth_error vars j) as [v|] eqn:E; [|apply nth_error_None in E; lia].
  rewrite (V i j v c E), (V' i j v c E). apply Hv.
Qed.

Lemma sample_order (L' : @library W Net K) (m m' : netm Net) size w w' w1 w1' t t' :
  nm_vars m = nm_vars m' -> l_draw L (nm_pm m) size w = (Ok t, w1) -> l_draw L' (nm_pm m') size w' = (Ok t', w1') ->
  table_ok t -> table_ok t' -> tb_dt t = tb_dt t' -> Permutation (tb_cols t) (tb_cols t') ->
  List.length (tb_rows t) = List.length (tb_rows t') -> (forall i v c, value_at t i v c <-> value_at t' i v c) -> incl (nm_vars m) (tb_cols t) ->
  fst (net_sample L m size w) = fst (net_sample L' m' size w').
Proof.
  intros Ev Hd Hd' Ht Ht' Hdt Hp Hl Hv Hi. unfold net_sample. rewrite Hd, Hd'. cbn [fst]. rewrite <- Ev. apply order_irrelevant; assumption.
Qed.

(* ---------------- learning ---------------- *)

(** The table handed over shows every value of the data set under the name of its column. *)
Definition labelled (vars : list string) (d : arr) (t : table) : Prop :=
  table_ok t /\ (forall v, In v (tb_cols t) <-> In v vars) /\ List.length (tb_rows t) = List.length (a_rows d) /\
  forall i j v c, nth_error vars j = Some v ->
    (value_at t i v c <-> exists r, nth_error (a_rows d) i = Some r /\ nth_error r j = Some c).

Lemma to_table_labelled vars d t : NoDup vars -> Forall (fun r => List.length r = a_nc d) (a_rows d) ->
  to_table vars d = Ok t -> labelled vars d t.
Proof.
  intros Hn Hw. unfold to_table. destruct (Nat.eqb_spec (a_nc d) (List.length vars)) as [E|]; [|discriminate].
  intros H. assert (t = mkTable (a_dt d) vars (a_rows d)) by congruence. subst t. unfold labelled, table_ok, value_at. cbn [tb_cols tb_rows].
  split; [split; [exact Hn|rewrite <- E; exact Hw]|]. split; [tauto|]. split; [reflexivity|].
  intros i j v c Hv. split.
  - intros (p & r & Hp & Hr & Hc). assert (p = j) by (rewrite NoDup_nth_error in Hn; apply Hn; [apply nth_error_Some|]; congruence). subst. eauto.
  - intros (r & Hr & Hc). eauto.
Qed.

(** Libraries that write down the tables they are given. *)
Definition notes (log : W -> list table) : Prop :=
  (forall k t s wl bl f w r w', l_hc L k t s wl bl f w = (r, w') -> log w' = log w ++ [t]) /\
  (forall t s w r w', l_climb L t s w = (r, w') -> log w' = log w ++ [t]) /\
  (forall t x w r x' w', l_fit L t x w = (r, (x', w')) -> log w' = log w ++ [t]).

Lemma net_learn_tables log k folds d (m : netm Net) w r m' w' : notes log ->
  NoDup (nm_vars m) -> Forall (fun r => List.length r = a_nc d) (a_rows d) ->
  net_learn L k folds d m w = (r, (m', w')) ->
  exists ts, log w' = log w ++ ts /\ Forall (labelled (nm_vars m) d) ts /\
    (a_nc d = List.length (nm_vars m) -> ts <> []) /\ (a_nc d <> List.length (nm_vars m) -> r = Raise ValueError /\ m' = m /\ w' = w).
Proof.
  intros (Hhc & _ & Hfit) Hn Hw H. unfold net_learn in H.
  destruct (to_table (nm_vars m) d) as [t|e] eqn:E.
  - pose proof (to_table_labelled _ _ _ Hn Hw E) as Hl.
    assert (Ed : a_nc d = List.length (nm_vars m)) by (unfold to_table in E; destruct (Nat.eqb_spec (a_nc d) (List.length (nm_vars m))); [assumption|discriminate]).
    unfold search in H. destruct (l_hc L k t _ _ _ _ w) as [[net|e] w1] eqn:E1; apply Hhc in E1.
    + destruct (l_fit L t net w1) as [r2 [net' w2]] eqn:E2. apply Hfit in E2. assert (w' = w2) by congruence. subst w2.
      exists [t; t]. split; [rewrite E2, E1, <- app_assoc; reflexivity|]. split; [repeat (apply Forall_cons; [exact Hl|]); apply Forall_nil|]. split; [discriminate|contradiction].
    + assert (w' = w1) by congruence. subst w1. exists [t]. split; [exact E1|]. split; [repeat (apply Forall_cons; [exact Hl|]); apply Forall_nil|]. split; [discriminate|contradiction].
  - unfold to_table in E. destruct (Nat.eqb_spec (a_nc d) (List.length (nm_vars m))); [discriminate|].
    exists []. rewrite app_nil_r. assert (w' = w) by congruence. subst w'. split; [reflexivity|]. split; [constructor|]. split; [contradiction|].
    intros _. split; [congruence|]. split; [congruence|reflexivity].
Qed.

Lemma gbn_learn_tables log d (m : netm Net) w r m' w' : notes log ->
  NoDup (nm_vars m) -> Forall (fun r => List.length r = a_nc d) (a_rows d) ->
  gbn_learn L d m w = (r, (m', w')) ->
  exists ts, log w' = log w ++ ts /\ Forall (labelled (nm_vars m) d) ts /\
    (a_nc d = List.length (nm_vars m) -> ts <> []) /\ (a_nc d <> List.length (nm_vars m) -> r = Raise ValueError /\ m' = m /\ w' = w).
Proof.
  intros Hlog Hn Hw H. unfold gbn_learn in H. destruct (net_learn L KGBN 0 d m w) as [r1 [m1 w1]] eqn:E.
  destruct (net_learn_tables log KGBN 0%Z d m w r1 m1 w1 Hlog Hn Hw E) as (ts & A & B & C & D).
  assert (Ew : w' = w1) by (destruct r1; congruence). subst w1. exists ts. split; [exact A|]. split; [exact B|]. split; [exact C|].
  intros Hne. destruct (D Hne) as (-> & -> & ->). split; [congruence|]. split; [congruence|reflexivity].
Qed.

Lemma bn_learn_tables log score d (m : netm Net) w r m' w' : notes log ->
  NoDup (nm_vars m) -> Forall (fun r => List.length r = a_nc d) (a_rows d) ->
  bn_learn L score d m w = (r, (m', w')) ->
  exists ts, log w' = log w ++ ts /\ Forall (labelled (nm_vars m) d) ts /\
    (a_nc d = List.length (nm_vars m) -> ts <> []) /\ (a_nc d <> List.length (nm_vars m) -> r = Raise ValueError /\ m' = m /\ w' = w).
Proof.
  intros (_ & Hcl & Hfit) Hn Hw H. unfold bn_learn in H.
  destruct (to_table (nm_vars m) d) as [t|e] eqn:E.
  - pose proof (to_table_labelled _ _ _ Hn Hw E) as Hl.
    assert (Ed : a_nc d = List.length (nm_vars m)) by (unfold to_table in E; destruct (Nat.eqb_spec (a_nc d) (List.length (nm_vars m))); [assumption|discriminate]).
    destruct (l_climb L t score w) as [[es|e] w1] eqn:E1; apply Hcl in E1.
    + destruct (add_edges L es _) as [[u|e] x1].
      * destruct (l_fit L t x1 w1) as [r2 [net' w2]] eqn:E2. apply Hfit in E2. assert (w' = w2) by congruence. subst w2.
        exists [t; t]. split; [rewrite E2, E1, <- app_assoc; reflexivity|]. split; [repeat (apply Forall_cons; [exact Hl|]); apply Forall_nil|]. split; [discriminate|contradiction].
      * assert (w' = w1) by congruence. subst w1. exists [t]. split; [exact E1|]. split; [repeat (apply Forall_cons; [exact Hl|]); apply Forall_nil|]. split; [discriminate|contradiction].
    + assert (w' = w1) by congruence. subst w1. exists [t]. split; [exact E1|]. split; [repeat (apply Forall_cons; [exact Hl|]); apply Forall_nil|]. split; [discriminate|contradiction].
  - unfold to_table in E. destruct (Nat.eqb_spec (a_nc d) (List.length (nm_vars m))); [discriminate|].
    exists []. rewrite app_nil_r. assert (w' = w) by congruence. subst w'. split; [reflexivity|]. split; [constructor|]. split; [contradiction|].
    intros _. split; [congruence|]. split; [congruence|reflexivity].
Qed.

(** What is learned is what would be sampled back in the same places. *)
Lemma round_trip vars d t : NoDup vars -> Forall (fun r => List.length r = a_nc d) (a_rows d) ->
  to_table vars d = Ok t -> pick_columns vars t = Ok d.
Proof.
  intros Hn Hw Ht. destruct (to_table_labelled _ _ _ Hn Hw Ht) as (Hok & Hc & Hr & Hv).
  destruct (pick_ok vars t Hok) as (a & -> & N & D & R & F & V); [intros x Hx; apply Hc, Hx|]. f_equal.
  unfold to_table in Ht. destruct (Nat.eqb_spec (a_nc d) (List.length vars)) as [E|]; [|discriminate]. assert (Et : t = mkTable (a_dt d) vars (a_rows d)) by congruence. 
  destruct a as [dt nc rs], d as [dt' nc' rs']. rewrite Et in D. cbn in *. f_equal; [exact D|congruence|].
  apply (all_rows_eq (List.length vars)); [congruence|exact F|rewrite <- E; exact Hw|].
  intros i j c Hj. destruct (nth_error vars j) as [v|] eqn:E2; [|apply nth_error_None in E2; lia].
  rewrite (V i j v c E2), (Hv i j v c E2). tauto.
Qed.

(** Learning again forgets. *)
Definition same_model (m1 m2 : netm Net) : Prop := nm_vars m1 = nm_vars m2 /\ nm_white m1 = nm_white m2 /\ nm_black m1 = nm_black m2.

Lemma net_learn_forgets k folds d w (m1 m2 : netm Net) : same_model m1 m2 ->
  fst (net_learn L k folds d m1 w) = fst (net_learn L k folds d m2 w) /\
  (fst (net_learn L k folds d m1 w) = Ok tt ->
     nm_pm (fst (snd (net_learn L k folds d m1 w))) = nm_pm (fst (snd (net_learn L k folds d m2 w))) /\
     snd (snd (net_learn L k folds d m1 w)) = snd (snd (net_learn L k folds d m2 w))).
Proof.
  intros (Ev & Ew & Eb). unfold net_learn. rewrite Ev. destruct (to_table (nm_vars m2) d) as [t|e]; [|split; [reflexivity|discriminate]].
  unfold search, with_net. cbn [nm_pm nm_white nm_black nm_vars]. rewrite Ew, Eb.
  destruct (l_hc L k t _ _ _ _ w) as [[net|e] w1]; [|split; [reflexivity|discriminate]].
  destruct (l_fit L t net w1) as [r [net' w2]]. cbn [fst snd nm_pm]. auto.
Qed.

Lemma gbn_learn_forgets d w (m1 m2 : netm Net) : same_model m1 m2 -> forgets (fun s => gbn_learn L d (fst s) w) (m1, w) (m2, w).
Proof.
  intros Hs. pose proof (net_learn_forgets KGBN 0 d w m1 m2 Hs) as [H1 H2]. destruct Hs as (Ev & Ew & Eb).
  unfold forgets, gbn_learn. cbn [fst].
  assert (Hk : forall m r m' w', net_learn L KGBN 0 d m w = (r, (m', w')) -> same_model m' m).
  { intros m r m' w' H. unfold net_learn in H. destruct (to_table (nm_vars m) d) as [t|e0]; [|assert (m' = m) by congruence; subst; repeat split].
    destruct (search L KGBN 0 t _ w) as [[net|e] w1]; [|assert (Em : m' = with_net m (l_new L KGBN (nm_vars m))) by congruence; subst; repeat split].
    destruct (l_fit L t net w1) as [r2 [net' w2]]. assert (Em : m' = with_net (with_net m (l_new L KGBN (nm_vars m))) net') by congruence. subst m'. repeat split. }
  destruct (net_learn L KGBN 0 d m1 w) as [r1 [n1 w1]] eqn:E1. destruct (net_learn L KGBN 0 d m2 w) as [r2 [n2 w2]] eqn:E2.
  cbn [fst snd] in *. subst r2. apply Hk in E1 as (A1 & A2 & A3). apply Hk in E2 as (B1 & B2 & B3).
  destruct r1 as [[]|e]; cbn [fst snd]; [|split; [reflexivity|discriminate]].
  split; [reflexivity|]. intros _. destruct (H2 eq_refl) as [-> ->]. rewrite A1, A2, A3, B1, B2, B3, Ev, Ew, Eb. reflexivity.
Qed.

Lemma spbn_learn_forgets k folds d w (m1 m2 : netm Net) : same_model m1 m2 -> nm_top m1 = nm_top m2 -> nm_fitted m1 = nm_fitted m2 ->
  forgets (fun s => net_learn L k folds d (fst s) w) (m1, w) (m2, w).
Proof.
  intros (Ev & Ew & Eb) Et Ef. unfold forgets. cbn [fst]. unfold net_learn. rewrite Ev. destruct (to_table (nm_vars m2) d) as [t|e]; [|split; [reflexivity|discriminate]].
  unfold search, with_net. cbn [nm_pm nm_white nm_black nm_vars nm_top nm_fitted]. rewrite ?Ev, Ew, Eb, Et, Ef.
  destruct (l_hc L k t _ _ _ _ w) as [[net|e] w1]; split; reflexivity.
Qed.

Lemma bn_learn_forgets score d w (m1 m2 : netm Net) : same_model m1 m2 -> nm_top m1 = nm_top m2 -> nm_fitted m1 = nm_fitted m2 ->
  forgets (fun s => bn_learn L score d (fst s) w) (m1, w) (m2, w).
Proof.
  intros (Ev & Ew & Eb) Et Ef. unfold forgets. cbn [fst]. unfold bn_learn. rewrite Ev. destruct (to_table (nm_vars m2) d) as [t|e]; [|split; [reflexivity|discriminate]].
  unfold with_net. rewrite ?Ev, Ew, Eb, Et, Ef. split; reflexivity.
Qed.

Lemma kde_learn_forgets d (k1 k2 : option K) : forgets (kde_learn L d) k1 k2.
Proof. unfold forgets, kde_learn. destruct (l_kde L d); split; try reflexivity. discriminate. Qed.

(** ** Structures *)

(** A structure search that respects the lists it is given. *)
Definition obeys : Prop := forall k t s wl bl f w net w', l_hc L k t s wl bl f w = (Ok net, w') ->
  forall a, (listed wl a -> In a (l_arcs L net)) /\ (listed bl a -> ~ In a (l_arcs L net)).
(** New networks have no arcs, nodes bring none, an added arc comes last, fitting keeps them. *)
Definition shows : Prop :=
  (forall k vs, l_arcs L (l_new L k vs) = []) /\ (forall vs x, l_arcs L (l_nodes L vs x) = l_arcs L x) /\
  (forall a x x', l_edge L a x = (Ok tt, x') -> l_arcs L x' = l_arcs L x ++ [a]) /\
  (forall t x w r x' w', l_fit L t x w = (r, (x', w')) -> l_arcs L x' = l_arcs L x).

Lemma truthy_listed (l : option (list arc)) a : listed l a -> listed (if truthy l then l else None) a.
Proof. destruct l as [[|x l]|]; cbn; auto. Qed.

Lemma net_learn_lists k folds d (m : netm Net) w m' w' : obeys -> shows -> net_learn L k folds d m w = (Ok tt, (m', w')) ->
  nm_white m' = nm_white m /\ nm_black m' = nm_black m /\
  forall a, (listed (nm_white m) a -> In a (net_structure L m')) /\ (listed (nm_black m) a -> ~ In a (net_structure L m')).
Proof.
  intros Ho (_ & _ & _ & Hf) H. unfold net_learn in H. destruct (to_table (nm_vars m) d) as [t|]; [|discriminate].
  unfold search in H. destruct (l_hc L k t _ _ _ _ w) as [[net|e] w1] eqn:E1; [|discriminate]. cbn [with_net nm_white nm_black] in E1.
  destruct (l_fit L t net w1) as [r2 [net' w2]] eqn:E2. apply Hf in E2.
  assert (Em : m' = with_net (with_net m (l_new L k (nm_vars m))) net') by congruence. subst m'. cbn [with_net nm_white nm_black].
  split; [reflexivity|]. split; [reflexivity|]. intros a. unfold net_structure. cbn [with_net nm_pm]. rewrite E2.
  destruct (Ho _ _ _ _ _ _ _ _ _ E1 a) as [H1 H2]. split; intros Hl; [apply H1|apply H2]; apply truthy_listed, Hl.
Qed.
Lemma gbn_learn_lists d (m : netm Net) w m' w' : obeys -> shows -> gbn_learn L d m w = (Ok tt, (m', w')) ->
  nm_white m' = nm_white m /\ nm_black m' = nm_black m /\
  forall a, (listed (nm_white m) a -> In a (net_structure L m')) /\ (listed (nm_black m) a -> ~ In a (net_structure L m')).
Proof.
  intros Ho Hs H. unfold gbn_learn in H. destruct (net_learn L KGBN 0 d m w) as [[[]|e] [m1 w1]] eqn:E; [|discriminate].
  apply net_learn_lists in E; [|exact Ho|exact Hs]. 
  match type of H with (_, (?x, _)) = _ => assert (Em : m' = x) by congruence end. subst m'. exact E.
Qed.

Lemma add_edges_arcs es x x' : shows -> add_edges L es x = (Ok tt, x') -> l_arcs L x' = l_arcs L x ++ es.
Proof.
  intros (_ & _ & He & _). revert x. induction es as [|a es IH]; intros x H; cbn [add_edges] in H; [assert (x' = x) by congruence; subst; rewrite app_nil_r; reflexivity|].
  destruct (l_edge L a x) as [[[]|e] x1] eqn:E; [|discriminate]. apply He in E. apply IH in H. rewrite H, E, <- app_assoc. reflexivity.
Qed.

(** BN: the arcs the search found, in its order. *)
Lemma bn_learn_structure score d (m : netm Net) w m' w' : shows -> bn_learn L score d m w = (Ok tt, (m', w')) ->
  exists t es w1, to_table (nm_vars m) d = Ok t /\ l_climb L t score w = (Ok es, w1) /\ net_structure L m' = es.
Proof.
  intros Hs H. pose proof Hs as (Hn & Hv & _ & Hf). unfold bn_learn in H. destruct (to_table (nm_vars m) d) as [t|] eqn:Et; [|discriminate].
  destruct (l_climb L t score w) as [[es|e] w1] eqn:E1; [|discriminate].
  destruct (add_edges L es _) as [[[]|e] x1] eqn:E2; [|discriminate]. apply add_edges_arcs in E2; [|exact Hs].
  destruct (l_fit L t x1 w1) as [r2 [x2 w2]] eqn:E3. apply Hf in E3. assert (Em : m' = with_net m x2) by congruence. subst m'.
  exists t, es, w1. split; [reflexivity|]. split; [exact E1|]. unfold net_structure. cbn [with_net nm_pm]. rewrite E3, E2, Hv, Hn. reflexivity.
Qed.

(** [learn] of the class [k], and a model after any calls of it, successful or not. *)
Definition learn_call (k : pm_class) (folds : Z) (d : arr) (m : netm Net) (w : W) : res unit * (netm Net * W) :=
  match k with KGBN => gbn_learn L d m w | _ => net_learn L k folds d m w end.
Inductive relearned (k : pm_class) (m0 : netm Net) : netm Net -> Prop :=
| rl_new : relearned k m0 m0
| rl_again m m' folds d w r w' : relearned k m0 m -> learn_call k folds d m w = (r, (m', w')) -> relearned k m0 m'.

Lemma learn_call_keeps k folds d m w r m' w' : learn_call k folds d m w = (r, (m', w')) -> nm_white m' = nm_white m /\ nm_black m' = nm_black m /\ nm_vars m' = nm_vars m.
Proof.
  assert (G : forall k0 f0 r0 m1 w1, net_learn L k0 f0 d m w = (r0, (m1, w1)) -> nm_white m1 = nm_white m /\ nm_black m1 = nm_black m /\ nm_vars m1 = nm_vars m).
  { intros k0 f0 r0 m1 w1 H. unfold net_learn in H. destruct (to_table (nm_vars m) d) as [t|e]; [|assert (m1 = m) by congruence; subst; auto].
    destruct (search L k0 f0 t _ w) as [[net|e] w2]; [|match type of H with (_, (?x, _)) = _ => assert (Em : m1 = x) by congruence end; subst; auto].
    destruct (l_fit L t net w2) as [r2 [net' w3]]. match type of H with (_, (?x, _)) = _ => assert (Em : m1 = x) by congruence end. subst. auto. }
  unfold learn_call. destruct k; intros H; try (eapply G; exact H).
  unfold gbn_learn in H. destruct (net_learn L KGBN _ d m w) as [[[]|e] [m1 w1]] eqn:E; apply G in E;
    match type of H with (_, (?x, _)) = _ => assert (Em : m' = x) by congruence end; subst m'; exact E.
Qed.
Lemma relearned_keeps k m0 m : relearned k m0 m -> nm_white m = nm_white m0 /\ nm_black m = nm_black m0 /\ nm_vars m = nm_vars m0.
Proof.
  induction 1 as [|m m' folds d w r w' _ (I1 & I2 & I3) H]; [auto|]. apply learn_call_keeps in H as (A & B & C). repeat split; congruence.
Qed.

Lemma learned_lists k vs white black m folds d w m' w' : obeys -> shows ->
  relearned k (net_new L k vs white black) m -> learn_call k folds d m w = (Ok tt, (m', w')) ->
  forall a, (listed white a -> In a (net_structure L m')) /\ (listed black a -> ~ In a (net_structure L m')).
Proof.
  intros Ho Hs Hr H. apply relearned_keeps in Hr as (Hw & Hb & _). cbn [net_new nm_white nm_black] in Hw, Hb. rewrite <- Hw, <- Hb.
  unfold learn_call in H. destruct k; try (apply net_learn_lists in H; [apply H|exact Ho|exact Hs]). apply gbn_learn_lists in H; [apply H|exact Ho|exact Hs].
Qed.

Lemma learned_structure k vs white black m folds d w r m' w' : shows -> 
  relearned k (net_new L k vs white black) m -> learn_call k folds d m w = (r, (m', w')) ->
  net_structure L (net_new L k vs white black) = [] /\
  (a_nc d <> List.length vs -> r = Raise ValueError /\ net_structure L m' = net_structure L m) /\
  (a_nc d = List.length vs -> exists start folds' wl bl r1 w1,
     l_hc L k (mkTable (a_dt d) vs (a_rows d)) start wl bl folds' w = (r1, w1) /\
     (forall x, start = Some x -> x = l_new L k vs) /\
     match r1 with Ok net => net_structure L m' = l_arcs L net | Raise e => r = Raise e /\ net_structure L m' = [] end).
Proof.
  intros Hs Hr H. apply relearned_keeps in Hr as (_ & _ & Hv). cbn [net_new nm_vars] in Hv. split; [apply Hs|].
  assert (G : exists folds0 r0 m1 w1, net_learn L k folds0 d m w = (r0, (m1, w1)) /\ net_structure L m' = net_structure L m1 /\ r = r0).
  { unfold learn_call in H. destruct k; try (exists folds, r, m', w'; auto; fail). unfold gbn_learn in H.
    destruct (net_learn L KGBN 0 d m w) as [[[]|e] [m1 w1]] eqn:E; match type of H with (?a, (?x, _)) = _ => assert (Em : m' = x) by congruence; assert (Er : r = a) by congruence end; subst m' r;
      eexists _, _, _, _; (split; [exact E|]; split; reflexivity). }
  destruct G as (folds0 & r0 & m1 & w1 & G1 & -> & ->). unfold net_learn, to_table in G1. rewrite Hv in G1. destruct (Nat.eqb_spec (a_nc d) (List.length vs)) as [Ed|Ed].
  - split; [contradiction|]. intros _. unfold search in G1. cbn [with_net nm_pm nm_white nm_black] in G1.
    destruct (l_hc L k (mkTable (a_dt d) vs (a_rows d)) _ _ _ _ w) as [[net|e] w2] eqn:E1; (eexists _, _, _, _, _, w2; split; [exact E1|]; split; [destruct k; congruence|]).
    + destruct (l_fit L _ net w2) as [r2 [net' w3]] eqn:E2. apply Hs in E2. match type of G1 with (_, (?x, _)) = _ => assert (Em : m1 = x) by congruence end. subst m1. exact E2.
    + match type of G1 with (_, (?x, _)) = _ => assert (Em : m1 = x) by congruence end. subst m1. split; [congruence|]. apply Hs.
  - split; [|contradiction]. intros _. assert (m1 = m) by congruence. subst m1. split; [congruence|reflexivity].
Qed.
End Nets.
