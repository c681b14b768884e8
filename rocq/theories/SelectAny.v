(** Selection and elite along a run whose arrays need not share one dtype.  Joining an int
    array and a float array (eda.py:98) copies the integers as floats; the rows chosen are
    copies of rows that were evaluated, with the costs they were given. *)
From Coq Require Import String List ZArith Bool Lia Sorting.Permutation Sorting.Sorted.
From Verif Require Import PyBase B64 NdArray Eda EdaInv Spec TopK LoopObs LoopThms Select LoopMore LoopFinal.
Import ListNotations.
Open Scope nat_scope.

(** A cell of an evaluated row, and the cell a later array holds for it: the same, or the
    nearest float of an integer (numpy's int64 to float64 conversion, eda.py:98). *)
Definition cell_copy (c c' : cell) : Prop := c' = c \/ exists z, c = CI z /\ c' = CF (Z2f z).

(** The same costs in the same order, with copies of the rows (eda.py:98-106). *)
Definition copied (l l' : list (row * f64)) : Prop :=
  Forall2 (fun p q => Forall2 cell_copy (fst p) (fst q) /\ snd p = snd q) l l'.

Lemma cell_copy_refl c : cell_copy c c.
Proof. left; reflexivity. Qed.
Lemma cell_copy_trans a b c : cell_copy a b -> cell_copy b c -> cell_copy a c.
Proof.
  intros [->|(z & -> & ->)] H; [exact H|]. right. exists z. split; [reflexivity|].
  destruct H as [->|(z' & H & _)]; [reflexivity|discriminate].
Qed.
Lemma row_copy_refl r : Forall2 cell_copy r r.
Proof. induction r; constructor; [apply cell_copy_refl|assumption]. Qed.
Lemma row_copy_trans a b c : Forall2 cell_copy a b -> Forall2 cell_copy b c -> Forall2 cell_copy a c.
Proof.
  intros H. revert c. induction H as [|x y a b Hxy _ IH]; intros c Hc; inversion Hc; subst; [constructor|].
  constructor; [eapply cell_copy_trans; eassumption|apply IH; assumption].
Qed.
Lemma copied_refl l : copied l l.
Proof. induction l; constructor; [split; [apply row_copy_refl|reflexivity]|assumption]. Qed.
Lemma copied_trans a b c : copied a b -> copied b c -> copied a c.
Proof.
  intros H. revert c. induction H as [|x y a b [H1 H2] _ IH]; intros c Hc; inversion Hc as [|? z ? ? [H3 H4]]; subst; [constructor|].
  constructor; [|apply IH; assumption]. split; [eapply row_copy_trans; eassumption|congruence].
Qed.
Lemma copied_app a a' b b' : copied a a' -> copied b b' -> copied (a ++ b) (a' ++ b').
Proof. intros H1 H2. apply Forall2_app; assumption. Qed.
Lemma copied_cons_inv l y l' : copied l (y :: l') -> exists x l0, l = x :: l0 /\ copied l0 l'.
Proof. intros H. inversion H; subst. eauto. Qed.

Lemma cast_copy d c : cell_copy c (cast_cell d c).
Proof. destruct d, c; cbn; try apply cell_copy_refl. right. eexists; split; reflexivity. Qed.

Lemma rows_as_copy d a : Forall2 (Forall2 cell_copy) (a_rows a) (rows_as d a).
Proof.
  unfold rows_as. destruct (dtype_eqb (a_dt a) d).
  - induction (a_rows a); constructor; [apply row_copy_refl|assumption].
  - induction (a_rows a) as [|r l IH]; cbn; constructor; [|exact IH].
    induction r; cbn; constructor; [apply cast_copy|assumption].
Qed.
Lemma copied_combine rs rs' vs :
  Forall2 (Forall2 cell_copy) rs rs' -> copied (combine rs vs) (combine rs' vs).
Proof.
  intros H. revert vs. induction H as [|r r' rs rs' Hr _ IH]; intros [|v vs]; cbn; try constructor.
  - split; [exact Hr|reflexivity].
  - apply IH.
Qed.

(** The best members of a copy are copies of best members. *)
Lemma Forall2_perm {A B} (R : A -> B -> Prop) (l : list A) (m m' : list B) :
  Forall2 R l m -> Permutation m m' -> exists l', Permutation l l' /\ Forall2 R l' m'.
Proof.
  intros H Hp. revert l H. induction Hp as [|x m m' _ IH|x y m|m1 m2 m3 _ IH1 _ IH2]; intros l H.
  - inversion H; subst. exists []. split; constructor.
  - inversion H as [|a ? l0 ? Ha Hl]; subst. destruct (IH _ Hl) as (l' & H1 & H2).
    exists (a :: l'). split; [constructor; exact H1|constructor; assumption].
  - inversion H as [|a ? l0 ? Ha Hl]; subst. inversion Hl as [|b ? l1 ? Hb Hl1]; subst.
    exists (b :: a :: l1). split; [constructor|]. constructor; [assumption|constructor; assumption].
  - destruct (IH1 _ H) as (l1 & H1 & H2). destruct (IH2 _ H2) as (l2 & H3 & H4).
    exists l2. split; [eapply perm_trans; eassumption|exact H4].
Qed.

Lemma copied_sorted l l' : copied l l' -> StronglySorted cheaper l' -> StronglySorted cheaper l.
Proof.
  intros H. induction H as [|x y l l' [_ Hc] Hl IH]; intros Hs; [constructor|].
  inversion Hs as [|? ? Hs' Hy]; subst. constructor; [apply IH, Hs'|].
  clear -Hc Hl Hy. induction Hl as [|a b l l' [_ Hab] _ IH]; [constructor|].
  inversion Hy as [|? ? Hb Hy']; subst. constructor; [|apply IH, Hy'].
  exact (eq_trans (f_equal2 np_le Hc Hab) Hb).
Qed.

Lemma copied_firstn k l l' : copied l l' -> copied (firstn k l) (firstn k l').
Proof.
  intros H. revert k. induction H as [|x y l l' Hxy _ IH]; intros [|k]; cbn; constructor; [exact Hxy|apply IH].
Qed.

Lemma topk_copied k pool pool' out' :
  copied pool pool' -> topk k pool' out' -> exists out, topk k pool out /\ copied out out'.
Proof.
  intros Hc (s' & Hp & Hs & ->). destruct (Forall2_perm _ _ _ _ Hc Hp) as (s & H1 & H2).
  exists (firstn k s). split; [|apply copied_firstn, H2].
  exists s. split; [exact H1|]. split; [|reflexivity]. eapply copied_sorted; eassumption.
Qed.

Section SelAny.
Context {S W : Type}.
Variable c : cfg.
Variable h : hooks S W.
Hypothesis Hsort : argsort_ok (h_argsort h).
Hypothesis HT : (0 <= c_trunc_len c)%Z.
Hypothesis HE : (0 <= c_elite_len c)%Z.

Let T := Z.to_nat (c_trunc_len c).
Let E := Z.to_nat (c_elite_len c).

Lemma selected_any (o : obj) gen' evals' elite' evel' :
  selected c h o gen' evals' elite' evel' ->
  List.length (a_rows (o_gen o)) = List.length (o_evals o) ->
  List.length (a_rows (o_elite o)) = List.length (o_evel o) ->
  exists pool,
  copied (combine (a_rows (o_gen o)) (o_evals o) ++ combine (a_rows (o_elite o)) (o_evel o)) pool /\
  topk T pool (combine (a_rows gen') evals') /\
  topk E pool (combine (a_rows elite') evel') /\
  List.length (a_rows elite') = List.length evel'.
Proof.
  intros [g Hc He Ht Hve Hvt] H1 H2.
  unfold np_concatenate in Hc. destruct (Nat.eqb _ _); [|discriminate].
  set (d := promote _ _) in Hc.
  assert (Hg : a_rows g = rows_as d (o_gen o) ++ rows_as d (o_elite o)) by (injection Hc as <-; reflexivity).
  clear Hc.
  rewrite slice_to_nonneg in He, Ht, Hve, Hvt by assumption.
  apply take_rows_ok in He as [_ [_ He]]. apply take_rows_ok in Ht as [_ [_ Ht]].
  assert (Hl1 : List.length (rows_as d (o_gen o)) = List.length (o_evals o)).
  { rewrite <- H1. symmetry. eapply Forall2_length. apply rows_as_copy. }
  assert (Hl2 : List.length (rows_as d (o_elite o)) = List.length (o_evel o)).
  { rewrite <- H2. symmetry. eapply Forall2_length. apply rows_as_copy. }
  assert (Hlen : List.length (a_rows g) = List.length (o_evals o ++ o_evel o))
    by (rewrite Hg, !app_length; lia).
  exists (combine (a_rows g) (o_evals o ++ o_evel o)). split; [|repeat split].
  - rewrite Hg, combine_app by exact Hl1. apply copied_app; apply copied_combine, rows_as_copy.
  - eapply argsort_topk; eassumption.
  - eapply argsort_topk; eassumption.
  - rewrite (gather_length _ _ _ He), (gather_length _ _ _ Hve). reflexivity.
Qed.

(** What a selection event must satisfy given the trace before it. *)
Definition sel_any (tr : list ev) (e : ev) : Prop :=
  match e with
  | EvSelect t el =>
      (exists gv t0 el0, latest tr = Some gv /\
         cheapest T (pairs gv ++ elite_before tr) t0 /\ copied t0 t /\
         cheapest E (pairs gv ++ elite_before tr) el0 /\ copied el0 el) /\
      (exists el0, cheapest E (evaluated tr ++ firstn 1 (evaluated tr)) el0 /\ copied el0 el /\
         Forall (fun p => In p (evaluated tr)) el0) /\
      (exists t0, copied t0 t /\ Forall (fun p => In p (evaluated tr)) t0) /\
      (1 <= T -> 1 <= E ->
         exists x t' y el', t = x :: t' /\ el = y :: el' /\
           forall z, In z (evaluated tr) -> cheaper x z /\ cheaper y z)
  | _ => True
  end.

Definition any_inv (s : st S W) : Prop :=
  List.length (a_rows (o_gen (s_obj s))) = List.length (o_evals (s_obj s)) /\
  List.length (a_rows (o_elite (s_obj s))) = List.length (o_evel (s_obj s)) /\
  a_rows (o_gen (s_obj s)) <> [] /\
  combine (a_rows (o_elite (s_obj s))) (o_evel (s_obj s)) = elite_before (s_tr s) /\
  (exists prev e0, gens (s_tr s) = prev ++ [(o_gen (s_obj s), o_evals (s_obj s))] /\
     copied e0 (elite_before (s_tr s)) /\
     ((prev = [] /\ e0 = firstn 1 (evaluated (s_tr s))) \/
      topk E (flat_map pairs prev ++ firstn 1 (evaluated (s_tr s))) e0)) /\
  each_event sel_any (s_tr s).

Lemma any_inv_printed (s s' : st S W) : printed_after s s' -> any_inv s -> any_inv s'.
Proof.
  intros Hp H. unfold any_inv, elite_before, evaluated in *.
  rewrite (printed_obj _ _ Hp), (printed_gens _ _ Hp), (printed_selections _ _ Hp).
  destruct H as (H3 & H4 & H5 & H6 & H7 & H8). repeat (split; [assumption|]).
  eapply printed_after_each; [|exact Hp|exact H8]. intros; exact I.
Qed.

Lemma any_step (s : st S W) gen' evals' elite' evel' :
  any_inv s -> selected c h (s_obj s) gen' evals' elite' evel' ->
  let el := combine (a_rows elite') evel' in
  sel_any (s_tr s) (EvSelect (combine (a_rows gen') evals') el) /\
  (exists e0, topk E (evaluated (s_tr s) ++ firstn 1 (evaluated (s_tr s))) e0 /\ copied e0 el) /\
  List.length (a_rows elite') = List.length evel'.
Proof.
  intros (H3 & H4 & Hne & H5 & (prev & e0 & Hg & Hc0 & Hel) & H6) Hsel el.
  destruct (selected_any _ _ _ _ _ Hsel) as (pool & Hpool & Ht & He & Hlen); [assumption|assumption|].
  rewrite H5 in Hpool. fold el in He.
  assert (Hev : evaluated (s_tr s) = flat_map pairs prev ++ pairs (o_gen (s_obj s), o_evals (s_obj s))).
  { unfold evaluated. rewrite Hg, flat_map_app. cbn. rewrite app_nil_r. reflexivity. }
  set (gv := (o_gen (s_obj s), o_evals (s_obj s))) in *.
  change (combine (a_rows (o_gen (s_obj s))) (o_evals (s_obj s))) with (pairs gv) in Hpool.
  assert (Hpn : pairs gv <> []) by (apply combine_nonempty; assumption).
  set (t := combine (a_rows gen') evals') in *.
  (* copies of the pool with the elite as recorded, and with the rows originally evaluated *)
  assert (Hpool0 : copied (pairs gv ++ e0) pool).
  { eapply copied_trans; [|exact Hpool]. apply copied_app; [apply copied_refl|exact Hc0]. }
  destruct (topk_copied _ _ _ _ Hpool Ht) as (t1 & Ht1 & Hct1).
  destruct (topk_copied _ _ _ _ Hpool He) as (el1 & Hel1 & Hcel1).
  destruct (topk_copied _ _ _ _ Hpool0 Ht) as (t0 & Ht0 & Hct0).
  destruct (topk_copied _ _ _ _ Hpool0 He) as (el0 & Hel0 & Hcel0).
  assert (Hall : topk E (evaluated (s_tr s) ++ firstn 1 (evaluated (s_tr s))) el0).
  { destruct Hel as [[Hp0 Heq]|Hprev].
    - rewrite Hp0 in Hev. cbn in Hev. rewrite Heq in Hel0. rewrite Hev in *. exact Hel0.
    - rewrite Hev. rewrite Hev in Hprev.
      eapply topk_pool_perm; [|eapply topk_merge; [exact Hprev|exact Hel0]].
      rewrite app_assoc. apply Permutation_app_tail. apply Permutation_app_comm. }
  assert (Hincl : incl el0 (evaluated (s_tr s))).
  { intros x Hx. apply topk_incl in Hall. apply Hall in Hx. apply in_app_or in Hx as [Hx|Hx]; [exact Hx|apply firstn1_in, Hx]. }
  assert (Heli : incl e0 (evaluated (s_tr s))).
  { intros x Hx. destruct Hel as [[_ Heq]|Hprev].
    - rewrite Heq in Hx. apply firstn1_in, Hx.
    - apply topk_incl in Hprev. apply Hprev in Hx. apply in_app_or in Hx as [Hx|Hx]; [|apply firstn1_in, Hx].
      rewrite Hev. apply in_or_app. left; exact Hx. }
  assert (Hpi : incl (pairs gv ++ e0) (evaluated (s_tr s))).
  { intros x Hx. apply in_app_or in Hx as [Hx|Hx]; [|apply Heli, Hx]. rewrite Hev. apply in_or_app. right; exact Hx. }
  split; [|split; [exists el0; split; assumption|exact Hlen]].
  cbn [sel_any]. split; [|split; [|split]].
  - exists gv, t1, el1. split; [|split; [apply topk_cheapest, Ht1|split; [exact Hct1|split; [apply topk_cheapest, Hel1|exact Hcel1]]]].
    unfold latest. rewrite Hg, map_app. cbn. apply last_snoc.
  - exists el0. split; [apply topk_cheapest, Hall|]. split; [exact Hcel0|]. apply Forall_forall. exact Hincl.
  - exists t0. split; [exact Hct0|]. apply Forall_forall. intros x Hx. apply Hpi. apply topk_incl in Ht0. apply Ht0, Hx.
  - intros HT1 HE1.
    destruct (topk_nonempty c _ _ _ Ht0 HT1) as (x & t' & Hx); [destruct (pairs gv); [congruence|discriminate]|].
    destruct (topk_nonempty c _ _ _ Hall HE1) as (y & el' & Hy).
    { rewrite Hev. intros Hnil. apply app_eq_nil in Hnil as [Hnil _]. apply app_eq_nil in Hnil as [_ Hnil].
      exact (Hpn Hnil). }
    rewrite Hx in Ht0, Hct0. rewrite Hy in Hel0, Hall, Hcel0.
    inversion Hct0 as [|? x' ? t'' [_ Hxc] _ E1 E2]. inversion Hcel0 as [|? y' ? el'' [_ Hyc] _ E3 E4].
    exists x', t'', y', el''.
    split; [reflexivity|]. split; [reflexivity|].
    destruct (topk_head_min _ _ _ _ Hall) as [Hyin Hymin].
    destruct (topk_head_min _ _ _ _ Hel0) as [Hyin2 _].
    destruct (topk_head_min _ _ _ _ Ht0) as [Hxin Hxmin].
    intros z Hz. assert (Hyz : cheaper y z) by (apply Hymin, in_or_app; left; exact Hz).
    assert (Hxz : cheaper x z) by (eapply cheaper_trans3; [apply Hxmin, Hyin2|exact Hyz]).
    split; [exact (eq_trans (f_equal2 np_le (eq_sym Hxc) eq_refl) Hxz)|
            exact (eq_trans (f_equal2 np_le (eq_sym Hyc) eq_refl) Hyz)].
Qed.

Lemma any_first (s s1 : st S W) w1 b : s_tr s = [] -> first_facts c h s s1 b ->
  any_inv (mkSt (s_obj s1) (s_pm s1) w1 (s_tr s1)).
Proof.
  intros Htr Hf.
    destruct Hf. subst s1. unfold any_inv. rewrite Htr. cbn [s_obj s_tr o_gen o_evals o_elite o_evel a_dt a_rows] in *.
    assert (Hg : gens (([] ++ calls_of (a_rows ff_g) ff_rets ++ [EvGen ff_g ff_rets ff_vals])) = [(ff_g, ff_vals)]).
    { cbn. rewrite gens_app, gens_calls_of. reflexivity. }
    assert (Hs : selections (([] ++ calls_of (a_rows ff_g) ff_rets ++ [EvGen ff_g ff_rets ff_vals])) = []).
    { cbn. rewrite selections_app, selections_calls_of. reflexivity. }
    set (tr0 := [] ++ _) in *.
    assert (Hev : evaluated tr0 = combine (a_rows ff_g) ff_vals).
    { unfold evaluated. rewrite Hg. cbn. apply app_nil_r. }
    assert (Heb : elite_before tr0 = firstn 1 (evaluated tr0)).
    { unfold elite_before. rewrite Hs. reflexivity. }
    split; [rewrite (Stored_length _ _ ff_stored); symmetry; exact ff_len|].
    split; [reflexivity|]. split; [rewrite ff_rows_eq; discriminate|].
    split; [rewrite Heb, Hev, ff_rows_eq, ff_vals_eq; reflexivity|].
    split; [exists [], (firstn 1 (evaluated tr0)); split; [exact Hg|split; [rewrite Heb; apply copied_refl|left; split; reflexivity]]|].
    unfold tr0. cbn. apply each_event_snoc; [|exact I].
    apply (each_event_extend _ []); [apply each_event_nil|].
    intros t e He. destruct e; try exact I. exfalso.
    apply calls_of_only in He as (x & v & He). discriminate.
Qed.

Lemma any_iter (ftol : f64) wn (s0 s1 : st S W) b acc : any_inv s0 -> iter_facts c h ftol wn s0 s1 b acc -> any_inv s1.
Proof.
  intros HI Hf.
    destruct Hf. subst s1. unfold any_inv. cbn [s_obj s_tr o_gen o_evals o_elite o_evel] in *.
    set (tail := [EvLearn if_data] ++ calls_of (a_rows if_g) if_rets ++ [EvGen if_g if_rets if_vals]).
    set (sel := EvSelect (combine (a_rows if_gen') if_evals') (combine (a_rows if_elite') if_evel')) in *.
    assert (Htr' : s_tr s0 ++ [sel; EvLearn if_data] ++ calls_of (a_rows if_g) if_rets ++ [EvGen if_g if_rets if_vals]
                   = (s_tr s0 ++ [sel]) ++ tail) by (unfold tail; rewrite <- app_assoc; reflexivity).
    rewrite Htr' in *.
    assert (Hgt : gens tail = [(if_g, if_vals)]).
    { unfold tail. rewrite !gens_app, gens_calls_of. reflexivity. }
    assert (Hst : selections tail = []).
    { unfold tail. rewrite !selections_app, selections_calls_of. reflexivity. }
    assert (Hg : gens ((s_tr s0 ++ [sel]) ++ tail) = gens (s_tr s0) ++ [(if_g, if_vals)]).
    { rewrite !gens_app, Hgt. cbn. rewrite app_nil_r. reflexivity. }
    destruct (any_step _ _ _ _ _ HI if_sel) as (Hok & (e0 & Htop & Hce0) & Hlen).
    destruct HI as (H3 & H4 & Hne & H5 & (prev & e1 & Hprev & _ & Hel) & H6).
    set (el := combine (a_rows if_elite') if_evel') in *.
    assert (Heb : elite_before ((s_tr s0 ++ [sel]) ++ tail) = el).
    { unfold elite_before. rewrite !selections_app, Hst, app_nil_r, map_app. cbn. rewrite last_snoc. reflexivity. }
    assert (Hev : evaluated ((s_tr s0 ++ [sel]) ++ tail) = evaluated (s_tr s0) ++ pairs (if_g, if_vals)).
    { unfold evaluated. rewrite Hg, flat_map_app. cbn. rewrite app_nil_r. reflexivity. }
    assert (Hf1 : firstn 1 (evaluated ((s_tr s0 ++ [sel]) ++ tail)) = firstn 1 (evaluated (s_tr s0))).
    { rewrite Hev. apply firstn1_app. unfold evaluated. rewrite Hprev, flat_map_app. cbn.
      assert (pairs (o_gen (s_obj s0), o_evals (s_obj s0)) <> []) by (apply combine_nonempty; assumption).
      destruct (flat_map pairs prev); [|discriminate]. cbn. rewrite app_nil_r. assumption. }
    rewrite Hf1.
    split; [rewrite (Stored_length _ _ if_stored); symmetry; exact if_len|].
    split; [exact Hlen|]. split; [exact if_nonempty|]. split; [symmetry; exact Heb|].
    split.
    + exists (gens (s_tr s0)), e0. split; [exact Hg|]. rewrite Heb. split; [exact Hce0|]. right. exact Htop.
    + apply each_event_extend.
      * apply each_event_snoc; [exact H6|exact Hok].
      * intros t e He. destruct e; try exact I. exfalso. unfold tail in He.
        apply in_app_or in He as [[He|[]]|He]; [discriminate|].
        apply in_app_or in He as [He|[He|[]]]; [|discriminate].
        apply calls_of_only in He as (x & v & He). discriminate.
Qed.

Lemma selection_any (ftol : f64) (out : bool) (s : st S W) (r : result) (tr : list ev) :
  completes c h ftol out s r tr -> each_event sel_any tr.
Proof.
  intros H.
  destruct (completes_rule c h ftol out (fun hist nb s => any_inv s) s r tr) as (nb & sf & HI & <- & _);
    try assumption; [| | |apply HI].
  - intros s0 sp Hp hist nb HI. eapply any_inv_printed; eassumption.
  - intros b s1 w1 s1' Htr Hf Hp. eapply any_inv_printed; [exact Hp|]. eapply any_first; eassumption.
  - intros wn hist nb' s0 b acc s1 s1' _ HI _ _ Hf Hp. eapply any_inv_printed; [exact Hp|]. eapply any_iter; eassumption.
Qed.

(** Elite members are copies of rows that were really evaluated, at the cost they carry. *)
Lemma noise_free_any (ftol : f64) (out : bool) (s : st S W) (r : result) (tr : list ev) :
  completes c h ftol out s r tr -> all_float_returns tr ->
  each_event (fun before e => match e with
    | EvSelect train elite =>
        Forall (fun p => exists x, Forall2 cell_copy x (fst p) /\ In (x, NF (snd p)) (calls tr)) elite
    | _ => True
    end) tr /\
  match r_best_ind r with
  | BRow x => exists v, In (x, NF v) (calls tr) /\ feq v (r_best_cost r) = true
  | BIdx _ => True
  end.
Proof.
  intros H Hf.
  pose proof (evaluated_called c h ftol out s r tr H Hf) as Hc.
  assert (Hin : forall p, In p (evaluated tr) -> In (fst p, NF (snd p)) (calls tr)).
  { intros p Hp. rewrite Hc. apply in_map_iff. exists p. split; [reflexivity|exact Hp]. }
  split.
  - pose proof (selection_any ftol out s r tr H) as Hs.
    intros tr1 e tr2 Etr. specialize (Hs tr1 e tr2 Etr). destruct e; try exact I.
    destruct Hs as (_ & (el0 & _ & Hce & He) & _).
    assert (Hin1 : forall p, In p (evaluated tr1) -> In (fst p, NF (snd p)) (calls tr)).
    { intros p Hp. apply Hin. rewrite Etr. unfold evaluated in *. rewrite gens_app, flat_map_app.
      apply in_or_app. left; exact Hp. }
    clear -Hce He Hin1. induction Hce as [|p q l l' [H1 H2] _ IH]; [constructor|].
    inversion He as [|? ? Hp He']; subst. constructor; [|apply IH, He'].
    exists (fst p). split; [exact H1|]. rewrite <- H2. apply Hin1, Hp.
  - pose proof (best_ind_lemma c h ftol out s r tr H) as Hb. destruct (r_best_ind r) as [i|x]; [exact I|].
    destruct Hb as [(v & Hv & He) _]. exists v. split; [|exact He]. apply (Hin (x, v)). exact Hv.
Qed.

End SelAny.
