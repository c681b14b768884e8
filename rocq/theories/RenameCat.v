(** Renaming the categories of UMDAcat. *)
From Coq Require Import String List ZArith Bool Lia OrdersEx.
From Verif Require Import PyBase B64 B64More NdArray Eda EdaInv Rand Models Inits Stock Spec LoopObs LoopRel OrderRel LoopMap VarOrder VarLearn OrderLearn.
Import ListNotations.
Open Scope nat_scope.

(** A category under the name [f] gives it; numbers are left alone. *)
Definition rename_cell (f : string -> string) (c : cell) : cell := match c with CS s => CS (f s) | _ => c end.
(** [h j] applied to entry [j]. *)
Fixpoint map_from {A B} (h : nat -> A -> B) (j : nat) (l : list A) : list B :=
  match l with [] => [] | x :: l' => h j x :: map_from h (S j) l' end.
(** An individual whose variable [j] is renamed by [f j]. *)
Definition rename_row (f : nat -> string -> string) : row -> row := map_from (fun j => rename_cell (f j)) 0.
(** The declared categories of every variable, renamed. *)
Definition rename_values (f : nat -> string -> string) : list (list cell) -> list (list cell) :=
  map_from (fun j => map (rename_cell (f j))) 0.
(** The arguments of an optimiser: only the given first generation mentions categories. *)
Definition rename_args (f : nat -> string -> string) (a : args) : args :=
  mkArgs (g_size_gen a) (g_max_iter a) (g_dead_iter a) (g_nvars a) (g_alpha a) (g_elite_factor a) (g_disp a)
         (g_parallelize a) (option_map (map_arr (rename_row f)) (g_init_data a)).
(** The names variable [j] can have: declared, or in the given first generation. *)
Definition names_of (values : list (list cell)) (data : option arr) (j : nat) (s : string) : Prop :=
  In (CS s) (nth j values []) \/ exists d r, data = Some d /\ In r (a_rows d) /\ nth_error r j = Some (CS s).
(** A given first generation is a matrix of strings. *)
Definition string_matrix (a : arr) : Prop :=
  Forall (fun r => List.length r = a_nc a /\ Forall (fun c => is_str c = true) r) (a_rows a).

Section Ren.
Variables (n : nat) (V : nat -> string -> Prop) (f : nat -> string -> string).
Hypothesis up : forall j a b, V j a -> V j b -> String.ltb a b = true -> String.ltb (f j a) (f j b) = true.

(** Cell [c] of variable [j] and its new name. *)
Definition cr (j : nat) (c c' : cell) : Prop := exists s, V j s /\ c = CS s /\ c' = CS (f j s).
Fixpoint rr (j : nat) (r r' : row) : Prop :=
  match r, r' with
  | [], [] => True
  | c :: r, c' :: r' => cr j c c' /\ rr (S j) r r'
  | _, _ => False
  end.
Definition Rn' (r r' : row) : Prop := List.length r = n /\ rr 0 r r'.
Definition wid' (k : nat) : Prop := k = n.

Lemma rr_len j r r' : rr j r r' -> List.length r = List.length r'.
Proof. revert j r'. induction r as [|c r IH]; intros j [|c' r'] H; try contradiction; [reflexivity|]. cbn. f_equal. exact (IH _ _ (proj2 H)). Qed.
Lemma rr_fun j r r' : rr j r r' -> r' = map_from (fun j => rename_cell (f j)) j r.
Proof.
  revert j r'. induction r as [|c r IH]; intros j [|c' r'] H; try contradiction; [reflexivity|].
  destruct H as [(s & _ & -> & ->) H]. cbn. f_equal. exact (IH _ _ H).
Qed.
Lemma rr_nth j r r' i d : rr j r r' -> i < List.length r -> cr (j + i) (nth i r d) (nth i r' d).
Proof.
  revert j r' i. induction r as [|c r IH]; intros j [|c' r'] i H Hi; try contradiction; [cbn in Hi; lia|].
  destruct H as [H1 H2], i as [|i]; cbn [nth].
  - rewrite Nat.add_0_r. exact H1.
  - replace (j + S i) with (S j + i) by lia. apply IH; [exact H2|cbn in Hi; lia].
Qed.
Lemma rr_cast d j r r' : rr j r r' -> rr j (map (cast_cell d) r) (map (cast_cell d) r').
Proof.
  revert j r'. induction r as [|c r IH]; intros j [|c' r'] H; try contradiction; [exact I|].
  destruct H as [(s & Hs & -> & ->) H]. cbn [map]. split; [|exact (IH _ _ H)]. exists s. destruct d; auto.
Qed.
Lemma Rn_fun r r' : Rn' r r' -> r' = rename_row f r.
Proof. intros [_ H]. apply rr_fun, H. Qed.
Lemma Rn_cast d r r' : Rn' r r' -> Rn' (map (cast_cell d) r) (map (cast_cell d) r').
Proof. intros [L H]. split; [rewrite map_length; exact L|apply rr_cast, H]. Qed.

(* ---------------- comparing names ---------------- *)
Lemma ltb_asym a b : String.ltb a b = true -> String.ltb b a = false.
Proof.
  intros H. apply not_true_is_false. intros H'. rewrite str_ltb_spec in H, H'.
  destruct String_as_OT.lt_strorder as [Hi Ht]. exact (Hi _ (Ht _ _ _ H H')).
Qed.
Lemma ltb_refl a : String.ltb a a = false.
Proof. apply not_true_is_false. rewrite str_ltb_spec. destruct String_as_OT.lt_strorder as [Hi _]. apply Hi. Qed.
Lemma str_cases a b : String.ltb a b = true \/ a = b \/ String.ltb b a = true.
Proof.
  unfold String.ltb. rewrite (String.compare_antisym b a). destruct (String.compare a b) eqn:C; cbn; auto; right.
  left. apply String.compare_eq_iff, C.
Qed.
Lemma up_ltb j a b : V j a -> V j b -> String.ltb (f j a) (f j b) = String.ltb a b.
Proof.
  intros Ha Hb. destruct (str_cases a b) as [H|[->|H]].
  - rewrite H. apply up; assumption.
  - rewrite !ltb_refl. reflexivity.
  - rewrite (ltb_asym _ _ H). apply ltb_asym, up; assumption.
Qed.
Lemma up_eqb j a b : V j a -> V j b -> String.eqb (f j a) (f j b) = String.eqb a b.
Proof.
  intros Ha Hb. destruct (String.eqb_spec a b) as [->|N]; [apply String.eqb_refl|]. apply String.eqb_neq. intros E.
  destruct (str_cases a b) as [H|[H|H]]; [|contradiction|]; pose proof H as H'; rewrite <- (up_ltb j) in H' by assumption; rewrite E, ltb_refl in H'; discriminate H'.
Qed.
Lemma cell_eqb_rel j a a' b b' : cr j a a' -> cr j b b' -> cell_eqb a' b' = cell_eqb a b.
Proof. intros (s & Hs & -> & ->) (t & Ht & -> & ->). cbn. apply up_eqb; assumption. Qed.
Lemma cell_ltb_rel j a a' b b' : cr j a a' -> cr j b b' -> cell_ltb a' b' = cell_ltb a b.
Proof. intros (s & Hs & -> & ->) (t & Ht & -> & ->). cbn. apply up_ltb; assumption. Qed.

(* ---------------- learning ---------------- *)
Definition er {K} (j : nat) (p p' : cell * K) : Prop := cr j (fst p) (fst p') /\ snd p = snd p'.
Lemma bump_rel j x x' l l' : cr j x x' -> Forall2 (er j) l l' -> Forall2 (er j) (bump x l) (bump x' l').
Proof.
  intros Hx. induction 1 as [|[y k] [y' k'] l l' [H1 H2] H IH]; cbn [bump]; [constructor|]. cbn [fst snd] in *. subst k'.
  rewrite (cell_eqb_rel j _ _ _ _ Hx H1). destruct (cell_eqb x y); constructor; try assumption; split; auto.
Qed.
Lemma insert_rel j x x' l l' : cr j x x' -> Forall2 (er j) l l' -> Forall2 (er j) (insert_new x l) (insert_new x' l').
Proof.
  intros Hx H. assert (Hn : er j (x, 1) (x', 1)) by (split; auto).
  induction H as [|[y k] [y' k'] l l' [H1 H2] H IH]; cbn [insert_new]; [constructor; [exact Hn|constructor]|]. cbn [fst snd] in *. subst k'.
  rewrite (cell_ltb_rel j _ _ _ _ Hx H1). destruct (cell_ltb x y); constructor; try assumption; try (split; auto).
  constructor; [split; auto|exact H].
Qed.
Lemma count_rel j x x' l l' : cr j x x' -> Forall2 (er j) l l' -> Forall2 (er j) (count_in l x) (count_in l' x').
Proof.
  intros Hx H. unfold count_in.
  assert (E : existsb (fun yk => cell_eqb x' (fst yk)) l' = existsb (fun yk => cell_eqb x (fst yk)) l).
  { clear - Hx H up. induction H as [|[y k] [y' k'] l l' [H1 H2] H IH]; cbn; [reflexivity|]. cbn [fst snd] in *.
    rewrite (cell_eqb_rel j _ _ _ _ Hx H1), IH. reflexivity. }
  rewrite E. destruct (existsb _ l); [apply bump_rel|apply insert_rel]; assumption.
Qed.
Lemma counts_rel j c c' : Forall2 (cr j) c c' -> forall l l', Forall2 (er j) l l' -> Forall2 (er j) (fold_left count_in c l) (fold_left count_in c' l').
Proof. induction 1 as [|x x' c c' Hx H IH]; intros l l' Hl; cbn; [exact Hl|]. apply IH, count_rel; assumption. Qed.
Lemma strings_rel j c c' : Forall2 (cr j) c c' -> existsb is_str c' = existsb is_str c /\ existsb (fun x => negb (is_str x)) c = false /\ existsb (fun x => negb (is_str x)) c' = false.
Proof.
  induction 1 as [|x x' c c' (s & _ & -> & ->) H IH]; cbn; [auto|]. destruct IH as (_ & H2 & H3). auto.
Qed.
Lemma probs_rel j c c' : Forall2 (cr j) c c' -> res_rel (Forall2 (er j)) (obtain_probabilities c) (obtain_probabilities c').
Proof.
  intros H. unfold obtain_probabilities, np_unique. destruct (strings_rel j c c' H) as (_ & -> & ->). rewrite !andb_false_r. cbn [rmap res_rel].
  rewrite <- (Forall2_length _ _ _ H). pose proof (counts_rel j c c' H [] [] (Forall2_nil _)) as K.
  induction K as [|p p' l l' [K1 K2] K IH]; cbn [map]; constructor; [|exact IH]. split; cbn; [exact K1|]. rewrite K2. reflexivity.
Qed.

Local Notation Ra := (arr_rel Rn' wid').
Lemma col_rel d d' i : Ra d d' -> res_rel (Forall2 (cr i)) (cell_col d i) (cell_col d' i).
Proof.
  intros (_ & (H2 & Hw) & H3). unfold cell_col. rewrite <- H2. destruct (Nat.ltb_spec i (a_nc d)) as [Hi|]; [|reflexivity]. cbn.
  unfold wid' in Hw. rewrite Hw in Hi. clear - Hi H3.
  induction H3 as [|r r' l l' [L Hr] H IH]; cbn [map]; constructor; [|exact IH]. apply (rr_nth 0 r r' i); [exact Hr|]. rewrite L. exact Hi.
Qed.

Definition tr_entry (j : nat) (e e' : option (list (cell * f64))) : Prop :=
  match e, e' with None, None => True | Some p, Some p' => Forall2 (er j) p p' | _, _ => False end.
Fixpoint tr_from (j : nat) (t t' : cat_table) : Prop :=
  match t, t' with
  | [], [] => True
  | e :: t, e' :: t' => tr_entry j e e' /\ tr_from (S j) t t'
  | _, _ => False
  end.
Lemma learn_from_rel d d' i t t' : Ra d d' -> tr_from i t t' ->
  fst (cat_learn_from d i t) = fst (cat_learn_from d' i t') /\ tr_from i (snd (cat_learn_from d i t)) (snd (cat_learn_from d' i t')) /\
  List.length (snd (cat_learn_from d i t)) = List.length t.
Proof.
  intros Hd. revert i t'. induction t as [|e t IH]; intros i [|e' t'] H; try contradiction; [cbn; auto|]. cbn [cat_learn_from].
  pose proof (col_rel d d' i Hd) as Hc.
  assert (Hp : res_rel (Forall2 (er i)) (rbind (cell_col d i) obtain_probabilities) (rbind (cell_col d' i) obtain_probabilities)).
  { destruct (cell_col d i) as [c|x], (cell_col d' i) as [c'|x']; cbn in Hc |- *; try contradiction; [apply probs_rel, Hc|exact Hc]. }
  destruct (rbind (cell_col d i) obtain_probabilities) as [p|x], (rbind (cell_col d' i) obtain_probabilities) as [p'|x']; cbn in Hp; try contradiction.
  - destruct (IH (S i) t' (proj2 H)) as (H1 & H2 & H3). destruct (cat_learn_from d (S i) t) as [r u], (cat_learn_from d' (S i) t') as [r' u'].
    cbn [fst snd] in *. split; [exact H1|]. split; [split; [exact Hp|exact H2]|]. cbn. rewrite H3. reflexivity.
  - subst x'. cbn [fst snd]. split; [reflexivity|]. split; [exact H|reflexivity].
Qed.

(* ---------------- sampling ---------------- *)
Context {W : Type}.
Variables (g : rng W) (str_of : cell -> string).
Lemma homog_rel j c c' : Forall2 (cr j) c c' -> Forall2 (cr j) (homogenise str_of c) (homogenise str_of c').
Proof.
  intros H. assert (K : forall l l', Forall2 (cr j) l l' -> map (fun c => match c with CS s => CS s | _ => CS (str_of c) end) l = l /\
    map (fun c => match c with CS s => CS s | _ => CS (str_of c) end) l' = l' /\
    existsb (fun c => match c with CF _ => true | _ => false end) l = false /\ existsb (fun c => match c with CF _ => true | _ => false end) l' = false).
  { induction 1 as [|x x' l l' (s & _ & -> & ->) K IH]; cbn; [auto|]. destruct IH as (-> & -> & I3 & I4). auto. }
  destruct (K c c' H) as (K1 & K2 & K3 & K4). unfold homogenise. rewrite K1, K2, K3, K4.
  destruct (existsb is_str c), (existsb is_str c'); exact H.
Qed.
Lemma choice_rel {A} (R : A -> A -> Prop) a a' size p w : Forall2 R a a' ->
  pair_rel (Forall2 R) (np_choice g a size p w) (np_choice g a' size p w).
Proof.
  intros H. unfold np_choice. rewrite <- (Forall2_length _ _ _ H). destruct (size <? 0)%Z; [split; reflexivity|].
  destruct (_ && _); [split; reflexivity|]. destruct (negb _); [split; reflexivity|]. destruct (negb _); [split; reflexivity|].
  destruct (g_unif g _ 1 w) as [u w']. split; [|reflexivity]. apply gather_rel, H.
Qed.
(** Columns [j], [j+1], ... *)
Fixpoint colsr (j : nat) (c c' : list (list cell)) : Prop :=
  match c, c' with
  | [], [] => True
  | x :: c, x' :: c' => Forall2 (cr j) x x' /\ colsr (S j) c c'
  | _, _ => False
  end.
Fixpoint allr {A} (R : nat -> A -> A -> Prop) (j : nat) (l l' : list A) : Prop :=
  match l, l' with
  | [], [] => True
  | x :: l, x' :: l' => R j x x' /\ allr R (S j) l l'
  | _, _ => False
  end.
Lemma columns_rel {A} (R : nat -> A -> A -> Prop) draw :
  (forall j x x' w, R j x x' -> pair_rel (Forall2 (cr j)) (draw x w) (draw x' w)) ->
  forall l l' j w, allr R j l l' -> pair_rel (colsr j) (draw_columns (W := W) draw l w) (draw_columns draw l' w).
Proof.
  intros Hd. induction l as [|x l IH]; intros [|x' l'] j w H; try contradiction; [split; [exact I|reflexivity]|]. cbn [draw_columns].
  destruct (Hd j x x' w (proj1 H)) as [H1 H2]. destruct (draw x w) as [[c|e] w1], (draw x' w) as [[c'|e'] w2]; cbn in H1, H2; try contradiction; subst w2; [|split; [exact H1|reflexivity]].
  destruct (IH l' (S j) w1 (proj2 H)) as [H3 H4]. destruct (draw_columns draw l w1) as [[cs|e] w2], (draw_columns draw l' w1) as [[cs'|e'] w3]; cbn in H3, H4; try contradiction; subst w3.
  - split; [|reflexivity]. split; assumption.
  - split; [exact H3|reflexivity].
Qed.
Lemma colsr_len j c c' : colsr j c c' -> List.length c = List.length c'.
Proof. revert j c'. induction c as [|x c IH]; intros j [|x' c'] H; try contradiction; [reflexivity|]. cbn. f_equal. exact (IH _ _ (proj2 H)). Qed.
Lemma colsr_str j c c' : colsr j c c' -> existsb (existsb is_str) c' = existsb (existsb is_str) c /\
  existsb (existsb (fun c => match c with CF _ => true | _ => false end)) c = false /\ existsb (existsb (fun c => match c with CF _ => true | _ => false end)) c' = false.
Proof.
  revert j c'. induction c as [|x c IH]; intros j [|x' c'] H; try contradiction; [auto|]. destruct H as [Hx H]. cbn.
  destruct (IH _ _ H) as (-> & -> & ->). destruct (strings_rel j x x' Hx) as (-> & _).
  assert (K : forall l l', Forall2 (cr j) l l' -> existsb (fun c => match c with CF _ => true | _ => false end) l = false /\ existsb (fun c => match c with CF _ => true | _ => false end) l' = false).
  { induction 1 as [|y y' l l' (s & _ & -> & ->) K IHK]; cbn; auto. }
  destruct (K _ _ Hx) as [-> ->]. auto.
Qed.
Lemma Forall2_nth {A B} (R : A -> B -> Prop) l l' i d d' : Forall2 R l l' -> i < List.length l -> R (nth i l d) (nth i l' d').
Proof. intros H. revert i. induction H as [|x y l l' Hx H IH]; intros [|i] Hi; cbn in *; try lia; [exact Hx|]. apply IH. lia. Qed.
Lemma frame_rel size cols cols' : List.length cols = n -> Forall (fun c => List.length c = size) cols -> colsr 0 cols cols' -> Ra (frame size cols) (frame size cols').
Proof.
  intros L Hl H. unfold frame, frame_dtype. destruct (colsr_str _ _ _ H) as (-> & -> & ->). set (dt := if existsb (existsb is_str) cols then _ else _).
  assert (Hrow : forall i, i < size -> forall j c c', Forall (fun c => List.length c = size) c -> colsr j c c' ->
     rr j (map (fun col => cast_cell dt (nth i col (CF fnan))) c) (map (fun col => cast_cell dt (nth i col (CF fnan))) c')).
  { intros i Hi j c. revert j. induction c as [|x c IH]; intros j [|x' c'] Hc K; try contradiction; [exact I|]. inversion Hc as [|? ? Hx Hc']; subst.
    split; [|apply IH; [exact Hc'|exact (proj2 K)]].
    destruct (Forall2_nth (cr j) x x' i (CF fnan) (CF fnan) (proj1 K)) as (s & Hs & -> & ->); [lia|]. exists s. destruct dt; auto. }
  destruct cols as [|x cols], cols' as [|x' cols']; try contradiction.
  - cbn in L. split; [reflexivity|]. split; [split; [reflexivity|exact L]|constructor].
  - split; [reflexivity|]. cbn [a_nc a_rows]. split; [split; [rewrite <- (colsr_len _ _ _ H); reflexivity|exact L]|].
    unfold tabulate. rewrite !(map_map) || idtac.
    assert (T : forall l, (forall i, In i l -> i < size) ->
      Forall2 Rn' (map (fun i => map (fun col => cast_cell dt (nth i col (CF fnan))) (x :: cols)) l) (map (fun i => map (fun col => cast_cell dt (nth i col (CF fnan))) (x' :: cols')) l)).
    { induction l as [|i l IH]; intros Hi; cbn [map]; constructor; [|apply IH; intros; apply Hi; right; assumption].
      split; [cbn; rewrite map_length; exact L|]. apply (Hrow i (Hi i (or_introl eq_refl)) 0 (x :: cols) (x' :: cols') Hl H). }
    apply T. intros i Hi. apply in_seq in Hi. lia.
Qed.
Lemma draw_columns_len {A} draw (l : list A) size w cols w' : (forall x w c w', In x l -> draw x w = (Ok c, w') -> List.length c = size) ->
  draw_columns (W := W) draw l w = (Ok cols, w') -> List.length cols = List.length l /\ Forall (fun c => List.length c = size) cols.
Proof.
  revert w cols w'. induction l as [|x l IH]; intros w cols w' Hd H; cbn [draw_columns] in H.
  - assert (cols = []) by congruence. subst. split; [reflexivity|constructor].
  - destruct (draw x w) as [[c|] w1] eqn:E1; [|discriminate H]. destruct (draw_columns draw l w1) as [[cs|] w2] eqn:E2; [|discriminate H].
    assert (cols = c :: cs) by congruence. subst. destruct (IH w1 cs w2) as [L F]; [intros; apply (Hd x0 w0 c0 w'0); [right; assumption|assumption]|exact E2|].
    split; [cbn; lia|]. constructor; [exact (Hd x w c w1 (or_introl eq_refl) E1)|exact F].
Qed.
Lemma gather_len {A} idx (l : list A) r : gather idx l = Ok r -> List.length r = List.length idx.
Proof.
  revert r. induction idx as [|i idx IH]; intros r H; cbn [gather] in H; [assert (r = []) by congruence; subst; reflexivity|].
  destruct (nth_error l i); [|discriminate H]. destruct (gather idx l) as [t|]; [|discriminate H]. assert (r = a :: t) by (cbn in H; congruence). subst. cbn. f_equal. apply IH. reflexivity.
Qed.
Lemma choice_len {A} (a : list A) size p w c w' : np_choice g a size p w = (Ok c, w') -> List.length c = Z.to_nat size.
Proof.
  unfold np_choice. destruct (size <? 0)%Z; [discriminate|]. destruct (_ && _); [discriminate|]. destruct (negb _); [discriminate|]. destruct (negb _); [discriminate|].
  destruct (g_unif g _ 1 w) as [u w1]. intros H. assert (K : gather (tabulate (Z.to_nat size) (fun i => searchsorted_right (cdf p) (u i 0))) a = Ok c) by congruence.
  rewrite (gather_len _ _ _ K). apply tabulate_length.
Qed.
Lemma drawn_frame {A} (R : nat -> A -> A -> Prop) draw size l l' w :
  (forall j x x' w, R j x x' -> pair_rel (Forall2 (cr j)) (draw x w) (draw x' w)) ->
  (forall x w c w', draw x w = (Ok c, w') -> List.length c = Z.to_nat size) -> List.length l = n -> allr R 0 l l' ->
  pair_rel Ra
    (match draw_columns (W := W) draw l w with (Ok cols, w') => (Ok (frame (Z.to_nat size) cols), w') | (Raise e, w') => (Raise e, w') end)
    (match draw_columns draw l' w with (Ok cols, w') => (Ok (frame (Z.to_nat size) cols), w') | (Raise e, w') => (Raise e, w') end).
Proof.
  intros Hd HL Hn H. destruct (columns_rel R draw Hd l l' 0 w H) as [H1 H2].
  destruct (draw_columns draw l w) as [[cs|e] w1] eqn:E1, (draw_columns draw l' w) as [[cs'|e'] w2]; cbn in H1, H2; try contradiction; subst w2.
  - destruct (draw_columns_len draw l (Z.to_nat size) w cs w1 (fun x w c w' _ => HL x w c w') E1) as [L F].
    split; [|reflexivity]. cbn. apply frame_rel; [lia|exact F|exact H1].
  - split; [exact H1|reflexivity].
Qed.
Lemma sample_ren t t' size w : List.length t = n -> tr_from 0 t t' ->
  pair_rel Ra (cat_sample g str_of t size w) (cat_sample g str_of t' size w).
Proof.
  intros L H. unfold cat_sample. apply (drawn_frame tr_entry); [| |exact L|].
  - intros j [p|] [p'|] v Hp; try contradiction; cbn [cat_draw]; [|split; reflexivity].
    assert (E : map snd p' = map snd p) by (cbn in Hp; induction Hp as [|a b p p' [_ K] Hp IH]; cbn; congruence). rewrite E.
    apply choice_rel, homog_rel. cbn in Hp. clear - Hp. induction Hp as [|a b p p' [K _] Hp IH]; cbn; constructor; assumption.
  - intros [p|] v c v'; cbn [cat_draw]; [apply choice_len|discriminate].
  - clear L. revert H. generalize 0. revert t'. induction t as [|e t IH]; intros [|e' t'] j H; try contradiction; [exact I|]. split; [apply H|apply IH, H].
Qed.
Definition vr (j : nat) (x x' : list cell * list f64) : Prop := Forall2 (cr j) (fst x) (fst x') /\ snd x = snd x'.
Lemma init_ren l l' size w : List.length l = n -> allr vr 0 l l' ->
  pair_rel Ra
    (match draw_columns (fun vf => np_choice g (homogenise str_of (fst vf)) size (snd vf)) l w with (Ok cols, w') => (Ok (frame (Z.to_nat size) cols), w') | (Raise e, w') => (Raise e, w') end)
    (match draw_columns (fun vf => np_choice g (homogenise str_of (fst vf)) size (snd vf)) l' w with (Ok cols, w') => (Ok (frame (Z.to_nat size) cols), w') | (Raise e, w') => (Raise e, w') end).
Proof.
  intros L H. apply (drawn_frame vr); [| |exact L|exact H].
  - intros j x x' v [H1 <-]. apply choice_rel, homog_rel, H1.
  - intros x v c v'. apply choice_len.
Qed.

(* ---------------- adding "" ---------------- *)
Definition Rs (x x' : noise) : Prop := x = NoiseStr /\ x' = NoiseStr.
Lemma append_nil s : (s ++ "")%string = s.
Proof. induction s as [|c s IH]; cbn; [reflexivity|]. rewrite IH. reflexivity. Qed.
Lemma iadd_ren a a' x x' : Ra a a' -> Rs x x' -> res_rel Ra (iadd a x) (iadd a' x').
Proof.
  intros (H1 & (H2 & Hw) & H3) [-> ->]. cbn [iadd]. rewrite <- H1, <- H2. destruct (a_dt a) eqn:Dt; try reflexivity.
  assert (K : forall j r r', rr j r r' -> rmapM add_str_cell r = Ok r /\ rmapM add_str_cell r' = Ok r').
  { intros j r. revert j. induction r as [|c r IH]; intros j [|c' r'] H; try contradiction; [auto|].
    destruct H as [(s & _ & -> & ->) H]. destruct (IH _ _ H) as [E1 E2]. cbn [rmapM add_str_cell]. rewrite !append_nil.
    cbn [rbind]. rewrite E1, E2. auto. }
  assert (Kr : rmapM (rmapM add_str_cell) (a_rows a) = Ok (a_rows a) /\ rmapM (rmapM add_str_cell) (a_rows a') = Ok (a_rows a')).
  { clear - H3 K. induction H3 as [|r r' l l' [_ Hr] H IH]; cbn [rmapM]; [auto|]. destruct (K 0 r r' Hr) as [-> ->]. destruct IH as [-> ->]. auto. }
  destruct Kr as [-> ->]. cbn. split; [reflexivity|]. split; [split; [reflexivity|exact Hw]|exact H3].
Qed.
End Ren.
