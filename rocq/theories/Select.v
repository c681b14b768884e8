(** Selection, elite and noise along a run. *)
From Coq Require Import String List ZArith Bool Lia Sorting.Permutation Sorting.Sorted.
From Verif Require Import PyBase B64 NdArray Eda EdaInv Spec TopK LoopObs LoopThms.
Import ListNotations.
Open Scope nat_scope.

Lemma promote_same d : promote d d = d.
Proof. destruct d; reflexivity. Qed.
Lemma dtype_eqb_refl d : dtype_eqb d d = true.
Proof. destruct d; reflexivity. Qed.

Lemma concat_same_dtype (a b g : arr) :
  a_dt a = a_dt b -> np_concatenate a b = Ok g ->
  a_dt g = a_dt a /\ a_rows g = a_rows a ++ a_rows b.
Proof.
  intros Hd. unfold np_concatenate. destruct (Nat.eqb _ _); [|discriminate].
  intros H. injection H as <-. cbn. unfold rows_as. rewrite <- Hd, promote_same, dtype_eqb_refl. auto.
Qed.

Lemma take_rows_ok (idx : list nat) (a b : arr) :
  take_rows idx a = Ok b -> a_dt b = a_dt a /\ a_nc b = a_nc a /\ gather idx (a_rows a) = Ok (a_rows b).
Proof.
  unfold take_rows. destruct (gather idx (a_rows a)) as [rs|e]; cbn; [|discriminate].
  intros H. injection H as <-. auto.
Qed.

Lemma gather_length {A} (idx : list nat) (l r : list A) : gather idx l = Ok r -> List.length r = List.length idx.
Proof. rewrite gather_ok_Forall2. intros H. symmetry. eapply Forall2_length. exact H. Qed.

Lemma combine_app {A B} (l1 l1' : list A) (l2 l2' : list B) :
  List.length l1 = List.length l2 -> combine (l1 ++ l1') (l2 ++ l2') = combine l1 l2 ++ combine l1' l2'.
Proof.
  revert l2. induction l1 as [|x l1 IH]; intros [|y l2] H; cbn in *; try discriminate; [reflexivity|].
  f_equal. apply IH. lia.
Qed.

Lemma last_snoc {A} (l : list A) (x d : A) : last (l ++ [x]) d = x.
Proof. induction l as [|y l IH]; [reflexivity|]. cbn. destruct (l ++ [x]) eqn:E; [destruct l; discriminate|exact IH]. Qed.

Lemma calls_of_only (rs : list row) (vs : list num) (e : ev) :
  In e (calls_of rs vs) -> exists r v, e = EvCall r v.
Proof.
  revert vs. induction rs as [|r rs IH]; intros [|v vs]; cbn; try tauto.
  intros [<-|H]; [exists r, v; reflexivity|eapply IH; exact H].
Qed.

Section Sel.
Context {S W : Type}.
Variable c : cfg.
Variable h : hooks S W.
Hypothesis Hsort : argsort_ok (h_argsort h).
Hypothesis HT : (0 <= c_trunc_len c)%Z.
Hypothesis HE : (0 <= c_elite_len c)%Z.

Let T := Z.to_nat (c_trunc_len c).
Let E := Z.to_nat (c_elite_len c).

Lemma selected_topk (o : obj) gen' evals' elite' evel' :
  selected c h o gen' evals' elite' evel' ->
  a_dt (o_gen o) = a_dt (o_elite o) ->
  List.length (a_rows (o_gen o)) = List.length (o_evals o) ->
  List.length (a_rows (o_elite o)) = List.length (o_evel o) ->
  let pool := combine (a_rows (o_gen o)) (o_evals o) ++ combine (a_rows (o_elite o)) (o_evel o) in
  topk T pool (combine (a_rows gen') evals') /\
  topk E pool (combine (a_rows elite') evel') /\
  a_dt elite' = a_dt (o_elite o) /\ a_dt gen' = a_dt (o_gen o) /\
  List.length (a_rows elite') = List.length evel' /\
  List.length (a_rows gen') = List.length evals'.
Proof.
  intros [g Hc He Ht Hve Hvt] Hd H1 H2 pool.
  apply concat_same_dtype in Hc as [Hgd Hgr]; [|exact Hd].
  rewrite slice_to_nonneg in He, Ht, Hve, Hvt by assumption.
  apply take_rows_ok in He as [Hed [_ He]]. apply take_rows_ok in Ht as [Htd [_ Ht]].
  assert (Hlen : List.length (a_rows g) = List.length (o_evals o ++ o_evel o))
    by (rewrite Hgr, !app_length; lia).
  assert (Hpool : pool = combine (a_rows g) (o_evals o ++ o_evel o)).
  { unfold pool. rewrite Hgr. symmetry. apply combine_app. exact H1. }
  rewrite Hpool. repeat split.
  - eapply argsort_topk; eassumption.
  - eapply argsort_topk; eassumption.
  - congruence.
  - congruence.
  - rewrite (gather_length _ _ _ He), (gather_length _ _ _ Hve). reflexivity.
  - rewrite (gather_length _ _ _ Ht), (gather_length _ _ _ Hvt). reflexivity.
Qed.

(** What a selection event must satisfy given the trace before it. *)
Definition sel_ok (tr : list ev) (e : ev) : Prop :=
  match e with
  | EvSelect t el =>
      (exists gv, latest tr = Some gv /\
                  cheapest T (pairs gv ++ elite_before tr) t /\
                  cheapest E (pairs gv ++ elite_before tr) el) /\
      cheapest E (evaluated tr ++ firstn 1 (evaluated tr)) el /\
      Forall (fun p => In p (evaluated tr)) el /\ Forall (fun p => In p (evaluated tr)) t /\
      (1 <= T -> 1 <= E ->
         exists x t' y el', t = x :: t' /\ el = y :: el' /\ In x (evaluated tr) /\ In y (evaluated tr) /\
           forall z, In z (evaluated tr) -> cheaper x z /\ cheaper y z)
  | _ => True
  end.

Definition sel_inv (d : dtype) (s : st S W) : Prop :=
  one_dtype d (s_tr s) ->
  a_dt (o_gen (s_obj s)) = d /\ a_dt (o_elite (s_obj s)) = d /\
  List.length (a_rows (o_gen (s_obj s))) = List.length (o_evals (s_obj s)) /\
  List.length (a_rows (o_elite (s_obj s))) = List.length (o_evel (s_obj s)) /\
  a_rows (o_gen (s_obj s)) <> [] /\
  combine (a_rows (o_elite (s_obj s))) (o_evel (s_obj s)) = elite_before (s_tr s) /\
  (exists prev, gens (s_tr s) = prev ++ [(o_gen (s_obj s), o_evals (s_obj s))] /\
     ((prev = [] /\ elite_before (s_tr s) = firstn 1 (evaluated (s_tr s))) \/
      topk E (flat_map pairs prev ++ firstn 1 (evaluated (s_tr s))) (elite_before (s_tr s)))) /\
  each_event sel_ok (s_tr s).

Lemma printed_after_each (P : list ev -> ev -> Prop) (s s' : st S W) :
  (forall t p, P t (EvPrint p)) -> printed_after s s' -> each_event P (s_tr s) -> each_event P (s_tr s').
Proof.
  intros HP [ps [Hps ->]] H. cbn. apply each_event_extend; [exact H|].
  intros t e He. rewrite Forall_forall in Hps. specialize (Hps e He). destruct e; try destruct Hps. apply HP.
Qed.

Lemma sel_inv_printed d (s s' : st S W) : printed_after s s' -> sel_inv d s -> sel_inv d s'.
Proof.
  intros Hp H Hd. unfold one_dtype in Hd. rewrite (printed_gens _ _ Hp) in Hd. specialize (H Hd).
  unfold elite_before, evaluated in *.
  rewrite (printed_obj _ _ Hp), (printed_gens _ _ Hp), (printed_selections _ _ Hp).
  destruct H as (H1 & H2 & H3 & H4 & H5 & H6 & H7 & H8). repeat (split; [assumption|]).
  eapply printed_after_each; [|exact Hp|exact H8]. intros; exact I.
Qed.

Lemma firstn1_app {A} (l l' : list A) : l <> [] -> firstn 1 (l ++ l') = firstn 1 l.
Proof. destruct l; [congruence|reflexivity]. Qed.

Lemma combine_nonempty (rs : list row) (vs : list f64) :
  List.length rs = List.length vs -> rs <> [] -> combine rs vs <> [].
Proof. destruct rs; destruct vs; cbn; try discriminate; congruence. Qed.

Lemma firstn1_in {A} (l : list A) x : In x (firstn 1 l) -> In x l.
Proof. destruct l; cbn; tauto. Qed.

Lemma cheaper_trans3 x y z : cheaper x y -> cheaper y z -> cheaper x z.
Proof. unfold cheaper. apply np_le_trans. Qed.

Lemma topk_incl k pool o : topk k pool o -> incl o pool.
Proof.
  intros [s [Hp [_ ->]]] x Hx. eapply Permutation_in; [apply Permutation_sym, Hp|].
  rewrite <- (firstn_skipn k s). apply in_or_app. left; exact Hx.
Qed.

Lemma topk_nonempty k pool o : topk k pool o -> 1 <= k -> pool <> [] -> exists x o', o = x :: o'.
Proof.
  intros [s [Hp [_ ->]]] Hk Hne. destruct k; [lia|]. destruct s as [|x s]; [|exists x, (firstn k s); reflexivity].
  apply Permutation_length in Hp. destruct pool; [congruence|discriminate].
Qed.

(** One selection, given the invariant before it. *)
Lemma sel_step (d : dtype) (s : st S W) gen' evals' elite' evel' :
  sel_inv d s -> one_dtype d (s_tr s) ->
  selected c h (s_obj s) gen' evals' elite' evel' ->
  let el := combine (a_rows elite') evel' in
  sel_ok (s_tr s) (EvSelect (combine (a_rows gen') evals') el) /\
  topk E (evaluated (s_tr s) ++ firstn 1 (evaluated (s_tr s))) el /\
  a_dt elite' = d /\ List.length (a_rows elite') = List.length evel'.
Proof.
  intros HI Hd Hsel el. destruct (HI Hd) as (H1 & H2 & H3 & H4 & Hne & H5 & (prev & Hg & Hel) & H6).
  destruct (selected_topk _ _ _ _ _ Hsel) as (Ht & He & Hed & _ & Hel1 & Hel2); [congruence|assumption|assumption|].
  rewrite H5 in Ht, He.
  assert (Hev : evaluated (s_tr s) = flat_map pairs prev ++ pairs (o_gen (s_obj s), o_evals (s_obj s))).
  { unfold evaluated. rewrite Hg, flat_map_app. cbn. rewrite app_nil_r. reflexivity. }
  set (gv := (o_gen (s_obj s), o_evals (s_obj s))) in *.
  change (combine (a_rows (o_gen (s_obj s))) (o_evals (s_obj s))) with (pairs gv) in Ht, He.
  assert (Hpn : pairs gv <> []) by (apply combine_nonempty; assumption).
  assert (Hall : topk E (evaluated (s_tr s) ++ firstn 1 (evaluated (s_tr s))) el).
  { destruct Hel as [[Hp0 Heq]|Hprev].
    - rewrite Hp0 in Hev. cbn in Hev. rewrite Heq in He. rewrite Hev in *. exact He.
    - rewrite Hev. rewrite Hev in Hprev.
      eapply topk_pool_perm; [|eapply topk_merge; [exact Hprev|exact He]].
      rewrite app_assoc. apply Permutation_app_tail. apply Permutation_app_comm. }
  assert (Hincl : incl el (evaluated (s_tr s))).
  { intros x Hx. apply topk_incl in Hall. apply Hall in Hx. apply in_app_or in Hx as [Hx|Hx]; [exact Hx|apply firstn1_in, Hx]. }
  assert (Heli : incl (elite_before (s_tr s)) (evaluated (s_tr s))).
  { intros x Hx. destruct Hel as [[_ Heq]|Hprev].
    - rewrite Heq in Hx. apply firstn1_in, Hx.
    - apply topk_incl in Hprev. apply Hprev in Hx. apply in_app_or in Hx as [Hx|Hx]; [|apply firstn1_in, Hx].
      rewrite Hev. apply in_or_app. left; exact Hx. }
  assert (Hpool : incl (pairs gv ++ elite_before (s_tr s)) (evaluated (s_tr s))).
  { intros x Hx. apply in_app_or in Hx as [Hx|Hx]; [|apply Heli, Hx]. rewrite Hev. apply in_or_app. right; exact Hx. }
  assert (Htincl : incl (combine (a_rows gen') evals') (evaluated (s_tr s))).
  { intros x Hx. apply Hpool. apply topk_incl in Ht. apply Ht, Hx. }
  split; [|split; [exact Hall|split; [congruence|exact Hel1]]].
  cbn [sel_ok]. split; [|split; [|split; [|split]]].
  - exists gv. split; [|split; apply topk_cheapest; assumption].
    unfold latest. rewrite Hg, map_app. cbn. apply last_snoc.
  - apply topk_cheapest, Hall.
  - apply Forall_forall. exact Hincl.
  - apply Forall_forall. exact Htincl.
  - intros HT1 HE1.
    destruct (topk_nonempty _ _ _ Ht HT1) as (x & t' & Hx); [destruct (pairs gv); [congruence|discriminate]|].
    destruct (topk_nonempty _ _ _ Hall HE1) as (y & el' & Hy).
    { rewrite Hev. intros Hnil. apply app_eq_nil in Hnil as [Hnil _]. apply app_eq_nil in Hnil as [_ Hnil].
      exact (Hpn Hnil). }
    fold el. exists x, t', y, el'. rewrite Hx in Ht. fold el in He. rewrite Hy in He. rewrite Hy in Hall.
    destruct (topk_head_min _ _ _ _ Hall) as [Hyin Hymin].
    destruct (topk_head_min _ _ _ _ He) as [Hyin2 _].
    destruct (topk_head_min _ _ _ _ Ht) as [Hxin Hxmin].
    split; [exact Hx|]. split; [exact Hy|]. split; [apply Hpool, Hxin|].
    split; [apply Hpool, Hyin2|].
    intros z Hz. assert (Hyz : cheaper y z) by (apply Hymin, in_or_app; left; exact Hz).
    split; [|exact Hyz]. eapply cheaper_trans3; [apply Hxmin, Hyin2|exact Hyz].
Qed.

Lemma elite_before_app (tr tr' : list ev) :
  selections tr' = [] -> selections tr <> [] -> elite_before (tr ++ tr') = elite_before tr.
Proof.
  intros H1 H2. unfold elite_before. rewrite selections_app, H1, app_nil_r.
  destruct (selections tr) as [|x l] using rev_ind; [congruence|].
  rewrite map_app. cbn. rewrite last_snoc. reflexivity.
Qed.

Lemma selection_lemma (ftol : f64) (out : bool) (d : dtype) (s : st S W) (r : result) (tr : list ev) :
  completes c h ftol out s r tr -> one_dtype d tr -> each_event sel_ok tr.
Proof.
  intros H Hd.
  destruct (completes_rule c h ftol out (fun hist nb s => sel_inv d s) s r tr) as (nb & sf & HI & <- & _);
    try assumption; [| | |apply HI, Hd].
  - intros s0 sp Hp hist nb HI. eapply sel_inv_printed; eassumption.
  - intros b s1 w1 s1' Htr Hf Hp. eapply sel_inv_printed; [exact Hp|].
    destruct Hf. subst s1. rewrite Htr. intros Hd0. cbn [s_obj s_tr o_gen o_evals o_elite o_evel a_dt a_rows] in *.
    assert (Hg : gens (([] ++ calls_of (a_rows ff_g) ff_rets ++ [EvGen ff_g ff_rets ff_vals])) = [(ff_g, ff_vals)]).
    { cbn. rewrite gens_app, gens_calls_of. reflexivity. }
    assert (Hs : selections (([] ++ calls_of (a_rows ff_g) ff_rets ++ [EvGen ff_g ff_rets ff_vals])) = []).
    { cbn. rewrite selections_app, selections_calls_of. reflexivity. }
    set (tr0 := [] ++ _) in *.
    assert (Hdd : a_dt ff_g = d).
    { unfold one_dtype in Hd0. rewrite Hg in Hd0. inversion Hd0. assumption. }
    assert (Hev : evaluated tr0 = combine (a_rows ff_g) ff_vals).
    { unfold evaluated. rewrite Hg. cbn. apply app_nil_r. }
    assert (Heb : elite_before tr0 = firstn 1 (evaluated tr0)).
    { unfold elite_before. rewrite Hs. reflexivity. }
    split; [exact Hdd|]. split; [exact Hdd|].
    split; [rewrite (Stored_length _ _ ff_stored); symmetry; exact ff_len|].
    split; [reflexivity|]. split; [rewrite ff_rows_eq; discriminate|].
    split; [rewrite Heb, Hev, ff_rows_eq, ff_vals_eq; reflexivity|].
    split; [exists []; split; [exact Hg|left; split; [reflexivity|exact Heb]]|].
    unfold tr0. cbn. apply each_event_snoc; [|exact I].
    apply (each_event_extend _ []); [apply each_event_nil|].
    intros t e He. destruct e; try exact I. exfalso.
    apply calls_of_only in He as (x & v & He). discriminate.
  - intros wn hist nb' s0 b acc s1 s1' _ HI _ _ Hf Hp. eapply sel_inv_printed; [exact Hp|]. clear Hp.
    destruct Hf. subst s1. intros Hd1. cbn [s_obj s_tr o_gen o_evals o_elite o_evel] in *.
    set (tail := [EvLearn if_data] ++ calls_of (a_rows if_g) if_rets ++ [EvGen if_g if_rets if_vals]).
    set (sel := EvSelect (combine (a_rows if_gen') if_evals') (combine (a_rows if_elite') if_evel')) in *.
    assert (Htr' : s_tr s0 ++ [sel; EvLearn if_data] ++ calls_of (a_rows if_g) if_rets ++ [EvGen if_g if_rets if_vals]
                   = (s_tr s0 ++ [sel]) ++ tail) by (unfold tail; rewrite <- app_assoc; reflexivity).
    rewrite Htr' in *.
    assert (Hgt : gens tail = [(if_g, if_vals)]).
    { unfold tail. rewrite !gens_app, gens_calls_of. reflexivity. }
    assert (Hst : selections tail = []).
    { unfold tail. rewrite !selections_app, selections_calls_of. reflexivity. }
    assert (Hg : gens ((s_tr s0 ++ [sel]) ++ tail) = gens (s_tr s0) ++ [(if_g, if_vals)]).
    { rewrite !gens_app, Hgt. cbn. rewrite app_nil_r. reflexivity. }
    unfold one_dtype in Hd1. rewrite Hg in Hd1. apply Forall_app in Hd1 as [Hd0 Hd1].
    apply Forall_inv in Hd1 as Hdg. cbn in Hdg.
    destruct (sel_step _ _ _ _ _ _ HI Hd0 if_sel) as (Hok & Htop & Hed & Hlen).
    destruct (HI Hd0) as (H1 & H2 & H3 & H4 & Hne & H5 & (prev & Hprev & Hel) & H6).
    set (el := combine (a_rows if_elite') if_evel') in *.
    assert (Heb : elite_before ((s_tr s0 ++ [sel]) ++ tail) = el).
    { unfold elite_before. rewrite !selections_app, Hst, app_nil_r, map_app. cbn. rewrite last_snoc. reflexivity. }
    assert (Hev : evaluated ((s_tr s0 ++ [sel]) ++ tail) = evaluated (s_tr s0) ++ pairs (if_g, if_vals)).
    { unfold evaluated. rewrite Hg, flat_map_app. cbn. rewrite app_nil_r. reflexivity. }
    assert (Hf1 : firstn 1 (evaluated ((s_tr s0 ++ [sel]) ++ tail)) = firstn 1 (evaluated (s_tr s0))).
    { rewrite Hev. apply firstn1_app. unfold evaluated. rewrite Hprev, flat_map_app. cbn.
      assert (pairs (o_gen (s_obj s0), o_evals (s_obj s0)) <> []) by (apply combine_nonempty; assumption).
      destruct (flat_map pairs prev); [|discriminate]. cbn. rewrite app_nil_r. assumption. }
    rewrite Hf1. split; [exact Hdg|]. split; [congruence|].
    split; [rewrite (Stored_length _ _ if_stored); symmetry; exact if_len|].
    split; [exact Hlen|]. split; [exact if_nonempty|]. split; [symmetry; exact Heb|].
    split.
    + exists (gens (s_tr s0)). split; [exact Hg|]. right. rewrite Heb. exact Htop.
    + apply each_event_extend.
      * apply each_event_snoc; [exact H6|exact Hok].
      * intros t e He. destruct e; try exact I. exfalso. unfold tail in He.
        apply in_app_or in He as [[He|[]]|He]; [discriminate|].
        apply in_app_or in He as [He|[He|[]]]; [|discriminate].
        apply calls_of_only in He as (x & v & He). discriminate.
Qed.

End Sel.
