(** Runs that raise: what they left behind, and rules covering every execution. *)
From Coq Require Import String List ZArith Bool Lia.
From Verif Require Import PyBase B64 NdArray Eda EdaInv Spec LoopObs LoopThms.
Import ListNotations.
Open Scope nat_scope.

(** A recorded call on one of the rows [rs]. *)
Definition on_rows (rs : list row) (e : ev) : Prop := exists x v, e = EvCall x v /\ In x rs.

Lemma on_rows_incl rs rs' l : incl rs rs' -> Forall (on_rows rs) l -> Forall (on_rows rs') l.
Proof. intros Hi. apply Forall_impl. intros e (x & v & -> & Hx). exists x, v. split; [reflexivity|apply Hi, Hx]. Qed.

Section Fail.
Context {S W : Type}.
Variable c : cfg.
Variable h : hooks S W.

Local Notation st := (st S W).

Lemma mbind_raise {A B} (m : M S W A) (f : A -> M S W B) (s s' : st) e :
  mbind m f s = (Raise e, s') ->
  m s = (Raise e, s') \/ exists a s1, m s = (Ok a, s1) /\ f a s1 = (Raise e, s').
Proof.
  unfold mbind. destruct (m s) as [[a|e'] s1]; intros H; [right; exists a, s1; split; [reflexivity|exact H]|left; congruence].
Qed.

Lemma mlift_raise {A} (r : res A) (s s' : st) e : mlift r s = (Raise e, s') -> r = Raise e /\ s' = s.
Proof. unfold mlift. intros H. split; congruence. Qed.

(** Whatever happens, evaluating rows records calls on those rows only. *)
Lemma call_rows_any rs : forall (s : st), exists l, s_tr (snd (call_rows h rs s)) = s_tr s ++ l /\ Forall (on_rows rs) l.
Proof.
  induction rs as [|r rs IH]; intros s; cbn [call_rows].
  - exists []. rewrite app_nil_r. split; [reflexivity|constructor].
  - cbv [mbind call1 with_world log mret]. destruct (h_cost h r (s_w s)) as [[v|e] w']; cbn.
    + destruct (IH (mkSt (s_obj s) (s_pm s) w' (s_tr s ++ [EvCall r v]))) as (l & E & Hl). cbn [s_tr] in E.
      exists (EvCall r v :: l). rewrite <- app_assoc in E.
      destruct (call_rows h rs _) as [[vs|e] s2]; cbn [snd] in *; (split; [exact E|]);
        (constructor; [exists r, v; split; [reflexivity|left; reflexivity]|]);
        (eapply on_rows_incl; [|exact Hl]; apply incl_tl, incl_refl).
    + exists []. rewrite app_nil_r. split; [reflexivity|constructor].
Qed.

Lemma apply_rows_any rs (s : st) : exists l, s_tr (snd (apply_rows h rs s)) = s_tr s ++ l /\ Forall (on_rows rs) l.
Proof.
  unfold apply_rows. destruct rs as [|r rs]; [exists []; rewrite app_nil_r; split; [reflexivity|constructor]|].
  destruct (call_rows_any (r :: rs) s) as (l & E & Hl). unfold mbind.
  destruct (call_rows h (r :: rs) s) as [[vs|e] s2]; exists l; split; assumption.
Qed.

Lemma run_chunks_any chunks : forall i o p ws,
  Forall (on_rows (concat chunks)) (snd (run_chunks h i chunks o p ws)).
Proof.
  induction chunks as [|ch chunks IH]; intros i o p ws; cbn [run_chunks]; [constructor|]. unfold run_chunk.
  destruct (apply_rows_any ch (mkSt o p (ws (p_worker (h_pool h) i)) [])) as (l & E & Hl).
  destruct (apply_rows h ch _) as [r s1]. cbn [snd s_tr app] in E.
  match goal with |- context [run_chunks h ?j chunks o p ?w] => specialize (IH j o p w); destruct (run_chunks h j chunks o p w) as [rs trs] end.
  cbn [snd concat] in *. rewrite E. apply Forall_app. split.
  - eapply on_rows_incl; [|exact Hl]. apply incl_appl, incl_refl.
  - eapply on_rows_incl; [|exact IH]. apply incl_appr, incl_refl.
Qed.

Lemma parallel_rows_any rs (s : st) : exists l, s_tr (snd (parallel_rows h rs s)) = s_tr s ++ l /\ Forall (on_rows rs) l.
Proof.
  unfold parallel_rows. pose proof (run_chunks_any (array_split (cpu_count (h_pool h)) rs) 0 (s_obj s) (s_pm s) (fun _ => s_w s)) as H.
  rewrite array_split_concat in H by (unfold cpu_count; lia).
  destruct (run_chunks h 0 _ _ _ _) as [results tr]. cbn [snd] in H. exists tr.
  destruct (failures results); (split; [reflexivity|exact H]).
Qed.

Lemma check_generation_fail (s s' : st) e :
  check_generation c h s = (Raise e, s') ->
  exists l, s_tr s' = s_tr s ++ l /\ Forall (on_rows (a_rows (o_gen (s_obj s)))) l.
Proof.
  intros H. cbv [check_generation mbind get_obj put_obj log] in H. destruct (c_parallelize c).
  - destruct (parallel_rows_any (a_rows (o_gen (s_obj s))) s) as (l & E & Hl).
    destruct (parallel_rows h _ s) as [[rv|e'] s1]; [discriminate|]. cbn [snd] in E. exists l. split; [congruence|exact Hl].
  - destruct (apply_rows_any (a_rows (o_gen (s_obj s))) s) as (l & E & Hl).
    destruct (apply_rows h _ s) as [[rv|e'] s1]; [discriminate|]. cbn [snd] in E. exists l. split; [congruence|exact Hl].
Qed.

Lemma truncation_fail (s s' : st) e : truncation c h s = (Raise e, s') -> s' = s.
Proof.
  intros H. cbv [truncation mbind get_obj put_obj log mlift] in H.
  destruct (np_concatenate _ _) as [gen|e0] in H; [|congruence].
  destruct (take_rows _ gen) as [elite'|e0] in H; [|congruence].
  destruct (take_rows (slice_to (c_trunc_len c) _) gen) as [gen'|e0] in H; [|congruence].
  destruct (gather _ _) as [evel'|e0] in H; [|congruence].
  destruct (gather (slice_to (c_trunc_len c) _) _) as [evals'|e0] in H; congruence.
Qed.

Lemma update_pm_fail (s s' : st) e :
  update_pm h s = (Raise e, s') ->
  s_tr s' = s_tr s \/
  exists data p1, h_data h (o_gen (s_obj s)) (o_elite (s_obj s)) (s_pm s) = (Ok data, p1) /\
    s_tr s' = s_tr s ++ [EvLearn data].
Proof.
  intros H. cbv [update_pm mbind get_obj log] in H.
  destruct (h_data h _ _ (s_pm s)) as [[data|e'] p1] eqn:Hd in H.
  - right. exists data, p1. split; [exact Hd|]. cbn [s_obj s_pm s_w s_tr] in H.
    destruct (h_learn h data p1 (s_w s)) as [r [p2 w2]].
    match type of H with (_, ?x) = _ => assert (E : s' = x) by congruence end. rewrite E. reflexivity.
  - left. match type of H with (_, ?x) = _ => assert (E : s' = x) by congruence end. rewrite E. reflexivity.
Qed.

Lemma new_generation_fail (s s' : st) e : new_generation h s = (Raise e, s') -> s_tr s' = s_tr s.
Proof.
  intros H. cbv [new_generation mbind set_gen get_obj put_obj] in H.
  destruct (h_sample h (s_pm s) (s_w s)) as [[g|e'] w']; [discriminate|].
  match type of H with (_, ?x) = _ => assert (E : s' = x) by congruence end. rewrite E. reflexivity.
Qed.

(** What an iteration that raised left in the trace. *)
Variant iter_fail (wn : noise) (s s' : st) : Prop :=
| fail_unselected : s_tr s' = s_tr s -> iter_fail wn s s'
| fail_selected gen' evals' elite' evel' :
    selected c h (s_obj s) gen' evals' elite' evel' ->
    s_tr s' = s_tr s ++ [EvSelect (combine (a_rows gen') evals') (combine (a_rows elite') evel')] ->
    iter_fail wn s s'
| fail_learning gen' evals' elite' evel' noisy data p1 :
    selected c h (s_obj s) gen' evals' elite' evel' ->
    iadd gen' wn = Ok noisy ->
    h_data h noisy elite' (s_pm s) = (Ok data, p1) ->
    s_tr s' = s_tr s ++ [EvSelect (combine (a_rows gen') evals') (combine (a_rows elite') evel'); EvLearn data] ->
    iter_fail wn s s'
| fail_evaluating gen' evals' elite' evel' noisy data p1 p2 w2 g w3 l :
    selected c h (s_obj s) gen' evals' elite' evel' ->
    iadd gen' wn = Ok noisy ->
    h_data h noisy elite' (s_pm s) = (Ok data, p1) ->
    h_learn h data p1 (s_w s) = (Ok tt, (p2, w2)) ->
    h_sample h p2 w2 = (Ok g, w3) ->
    Forall (on_rows (a_rows g)) l ->
    s_tr s' = s_tr s ++ [EvSelect (combine (a_rows gen') evals') (combine (a_rows elite') evel'); EvLearn data] ++ l ->
    iter_fail wn s s'
| fail_evaluated gen' evals' elite' evel' noisy data p1 p2 w2 g w3 rets vals :
    selected c h (s_obj s) gen' evals' elite' evel' ->
    iadd gen' wn = Ok noisy ->
    h_data h noisy elite' (s_pm s) = (Ok data, p1) ->
    h_learn h data p1 (s_w s) = (Ok tt, (p2, w2)) ->
    h_sample h p2 w2 = (Ok g, w3) ->
    List.length rets = List.length (a_rows g) -> Stored rets vals ->
    s_tr s' = s_tr s ++ [EvSelect (combine (a_rows gen') evals') (combine (a_rows elite') evel'); EvLearn data]
                     ++ calls_of (a_rows g) rets ++ [EvGen g rets vals] ->
    iter_fail wn s s'.

Lemma iteration_fail ftol wn (s s' : st) e : iteration c h ftol wn s = (Raise e, s') -> iter_fail wn s s'.
Proof.
  intros H. unfold iteration in H.
  apply mbind_raise in H as [H|([] & s1 & Ht & H)]; [apply truncation_fail in H as ->; apply fail_unselected; reflexivity|].
  apply truncation_inv in Ht as [gen' [evals' [elite' [evel' [Hsel Hs1]]]]].
  apply mbind_raise in H as [H|(o1 & s1' & H1 & H)]; [discriminate|]. apply get_obj_ok in H1 as [-> ->].
  apply mbind_raise in H as [H|(noisy & s1' & H1 & H)].
  { apply mlift_raise in H as [_ ->]. subst s1. eapply fail_selected; [exact Hsel|reflexivity]. }
  apply mlift_ok in H1 as [Hi ->].
  apply mbind_raise in H as [H|(u1 & s2 & H1 & H)]; [discriminate|]. apply set_gen_ok in H1.
  apply mbind_raise in H as [H|(u2 & s3 & Hu & H)].
  { apply update_pm_fail in H as [H|(data & p1 & Hd & H)]; subst s2 s1; cbn [s_tr s_obj s_pm o_gen o_elite o_evals o_evel] in *.
    - eapply fail_selected; [exact Hsel|exact H].
    - rewrite <- app_assoc in H. eapply fail_learning; [exact Hsel|exact Hi|exact Hd|exact H]. }
  apply update_pm_ok in Hu as (data & p1 & p2 & w2 & Hd & Hl & Hs3).
  apply mbind_raise in H as [H|(u3 & s4 & Hn & H)].
  { apply new_generation_fail in H. subst s3 s2 s1. cbn [s_tr s_obj s_pm o_gen o_elite o_evals o_evel] in *.
    rewrite <- app_assoc in H. eapply fail_learning; [exact Hsel|exact Hi|exact Hd|exact H]. }
  apply new_generation_ok in Hn as (g & w3 & Hsm & Hs4).
  apply mbind_raise in H as [H|([] & s5 & Hck & H)].
  { apply check_generation_fail in H as (l & H & Hf). subst s4 s3 s2 s1. cbn [s_tr s_obj s_pm s_w o_gen o_elite o_evals o_evel] in *.
    rewrite <- !app_assoc in H. eapply fail_evaluating; [exact Hsel|exact Hi|exact Hd|exact Hl|exact Hsm|exact Hf|exact H]. }
  apply check_generation_inv in Hck as [rets [vals [w4 [Hne [Hlen [Hst [Hser Hs5]]]]]]].
  assert (Hs : s' = s5).
  { apply mbind_raise in H as [H|(o & s5' & H2 & H)]; [discriminate|]. apply get_obj_ok in H2 as [-> ->].
    apply mbind_raise in H as [H|(b' & s5' & H2 & H)]; [apply mlift_raise in H as [_ ->]; reflexivity|]. apply mlift_ok in H2 as [_ ->].
    apply mbind_raise in H as [H|(i & s5' & H2 & H)]; [apply mlift_raise in H as [_ ->]; reflexivity|]. apply mlift_ok in H2 as [_ ->].
    apply mbind_raise in H as [H|(r & s5' & H2 & H)]; [apply mlift_raise in H as [_ ->]; reflexivity|]. apply mlift_ok in H2 as [_ ->].
    destruct (accept _ _ _); discriminate H. }
  subst s' s5 s4 s3 s2 s1. cbn [s_tr s_obj s_pm s_w o_gen o_elite o_evals o_evel] in *.
  eapply fail_evaluated; try eassumption. cbn [s_tr]. rewrite <- !app_assoc. reflexivity.
Qed.

(** The first generation: drawn from the initial data or the initialiser. *)
Definition initial (g : arr) : Prop :=
  match c_init_data c with Some d => g = d | None => exists w w', h_init h w = (Ok g, w') end.

Variant first_fail (s s' : st) : Prop :=
| first_undrawn : s_tr s' = s_tr s -> first_fail s s'
| first_evaluating g l : initial g -> Forall (on_rows (a_rows g)) l -> s_tr s' = s_tr s ++ l -> first_fail s s'
| first_evaluated g rets vals : initial g -> List.length rets = List.length (a_rows g) -> Stored rets vals ->
    s_tr s' = s_tr s ++ calls_of (a_rows g) rets ++ [EvGen g rets vals] -> first_fail s s'.

Lemma first_generation_fail (s s' : st) e : first_generation c h s = (Raise e, s') -> first_fail s s'.
Proof.
  intros H. unfold first_generation in H.
  apply mbind_raise in H as [H|(g & s1 & Hi & H)].
  { apply first_undrawn. unfold initialize_generation in H. destruct (c_init_data c) as [d|]; [discriminate|].
    cbv [with_world] in H. destruct (h_init h (s_w s)) as [r w1].
    match type of H with (_, ?x) = _ => assert (E : s' = x) by congruence end. rewrite E. reflexivity. }
  assert (Hg : initial g /\ exists w1, s1 = mkSt (s_obj s) (s_pm s) w1 (s_tr s)).
  { unfold initialize_generation in Hi. unfold initial. destruct (c_init_data c) as [d|].
    - cbv [mret] in Hi. split; [congruence|]. exists (s_w s). assert (E : s1 = s) by congruence. rewrite E. destruct s; reflexivity.
    - cbv [with_world] in Hi. destruct (h_init h (s_w s)) as [r w1] eqn:E.
      assert (Er : r = Ok g) by congruence. rewrite Er in E. split; [eauto|]. exists w1. congruence. }
  destruct Hg as [Hg [w1 Hs1]].
  apply mbind_raise in H as [H|(u1 & s2 & H1 & H)]; [discriminate|]. apply set_gen_ok in H1.
  apply mbind_raise in H as [H|([] & s3 & Hck & H)].
  { apply check_generation_fail in H as (l & H & Hf). subst s2 s1. cbn [s_tr s_obj o_gen] in *. eapply first_evaluating; eassumption. }
  apply check_generation_inv in Hck as [rets [vals [w2 [Hne [Hlen [Hst [Hser Hs3]]]]]]].
  assert (Hs : s_tr s' = s_tr s3).
  { apply mbind_raise in H as [H|(o & s3' & H2 & H)]; [discriminate|]. apply get_obj_ok in H2 as [-> ->].
    apply mbind_raise in H as [H|(r0 & s3' & H2 & H)]; [apply mlift_raise in H as [_ ->]; reflexivity|]. apply mlift_ok in H2 as [_ ->].
    apply mbind_raise in H as [H|(e0 & s3' & H2 & H)]; [apply mlift_raise in H as [_ ->]; reflexivity|]. apply mlift_ok in H2 as [_ ->].
    apply mbind_raise in H as [H|(u4 & s4 & H2 & H)]; [discriminate|]. apply put_obj_ok in H2.
    apply mbind_raise in H as [H|(b' & s4' & H3 & H)]; [apply mlift_raise in H as [_ ->]; subst s4; reflexivity|]. apply mlift_ok in H3 as [_ ->].
    apply mbind_raise in H as [H|(o' & s4' & H3 & H)]; [discriminate|]. apply get_obj_ok in H3 as [-> ->].
    apply mbind_raise in H as [H|(u5 & s5 & H3 & H)]; [discriminate|]. apply put_obj_ok in H3.
    apply mbind_raise in H as [H|(i & s5' & H4 & H)]; [apply mlift_raise in H as [_ ->]; subst s5 s4; reflexivity|]. apply mlift_ok in H4 as [_ ->].
    apply mbind_raise in H as [H|(u6 & s6 & H4 & H)]; discriminate. }
  rewrite Hs3 in Hs. subst s2 s1. cbn [s_tr s_obj o_gen] in *. eapply first_evaluated; eassumption.
Qed.

Lemma draw_noise_fail (s s' : st) e : draw_noise c h s = (Raise e, s') -> s' = s.
Proof.
  unfold draw_noise. intros H. destruct (py_eq_int _ 0); [discriminate|]. destruct (py_eq_int _ (-1)); [discriminate|].
  destruct (_ || _ || _)%bool; [cbv [mraise] in H; congruence|]. cbv [mbind mret] in H. destruct (h_normal h _ _). discriminate.
Qed.

(** An invariant of the states at the head of the loop (and after it) holds where a raising
    iteration starts. *)
Lemma loop_fail_rule ftol out wn (I : st -> Prop) :
  (forall s s', I s -> printed_after s s' -> I s') ->
  (forall s b acc s', I s -> iter_facts c h ftol wn s s' b acc -> I s') ->
  forall n it hist nb s e s', I s -> loop c h ftol out wn n it hist nb s = (Raise e, s') ->
  exists s0, I s0 /\ iter_fail wn s0 s'.
Proof.
  intros Hprint Hstep. induction n as [|n IH]; intros it hist nb s e s' HI H; cbn [loop] in H; [discriminate|].
  apply mbind_raise in H as [H|([b acc] & s1 & H1 & H)].
  - exists s. split; [exact HI|]. eapply iteration_fail, H.
  - apply iteration_inv in H1. assert (HI1 : I s1) by (eapply Hstep; eassumption). cbn [fst snd] in H. cbv zeta in H.
    assert (Hcont : forall nb2, mbind (print_if out (fun o => PrIter it (o_best_cost o)))
              (fun _ => loop c h ftol out wn n (it + 1) (hist ++ [b]) nb2) s1 = (Raise e, s') ->
              exists s0, I s0 /\ iter_fail wn s0 s').
    { intros nb2 H2. apply mbind_raise in H2 as [H2|(u & s2 & Hp & H2)].
      - apply print_if_inv in H2 as [Hr _]. discriminate.
      - apply print_if_inv in Hp as [_ Hp]. eapply IH; [|exact H2]. eapply Hprint; eassumption. }
    destruct acc; [eapply Hcont, H|]. destruct (Z.eqb _ _); [discriminate|eapply Hcont, H].
Qed.

(** A rule for every execution, whether it ends normally or raises: an invariant that holds after
    the first generation and is kept by every completed iteration, and that says [Q] of the
    trace, also when one more iteration is cut short. *)
Lemma every_run_rule ftol out (I : noise -> st -> Prop) (Q0 : list ev -> Prop) (Q : noise -> list ev -> Prop) (s s' : st) r :
  (forall wn s s', I wn s -> printed_after s s' -> I wn s') ->
  (forall b s1 w1 wn, first_facts c h s s1 b -> noise_cfg c wn -> I wn (mkSt (s_obj s1) (s_pm s1) w1 (s_tr s1))) ->
  (forall b s1, first_facts c h s s1 b -> Q0 (s_tr s1)) ->
  (forall s1, first_fail s s1 -> Q0 (s_tr s1)) ->
  (forall wn s0 b acc s1, noise_cfg c wn -> I wn s0 -> iter_facts c h ftol wn s0 s1 b acc -> I wn s1) ->
  (forall wn s0, I wn s0 -> Q wn (s_tr s0)) ->
  (forall wn s0 s1, noise_cfg c wn -> I wn s0 -> iter_fail wn s0 s1 -> Q wn (s_tr s1)) ->
  minimize c h ftol out s = (r, s') ->
  Q0 (s_tr s') \/ exists wn, noise_cfg c wn /\ Q wn (s_tr s').
Proof.
  intros Hprint Hfirst Hf0 Hff Hstep HQ HQf H. destruct r as [r|e].
  - right. unfold minimize in H.
    apply mbind_ok in H as (b0 & s1 & H1 & H). apply first_generation_inv in H1.
    apply mbind_ok in H as (wn & s2 & H2 & H). apply draw_noise_inv in H2 as [Hwn [w2 Hs2]].
    apply mbind_ok in H as (u & s3 & H3 & H). apply print_if_inv in H3 as [_ H3].
    apply mbind_ok in H as (hist & s4 & H4 & H).
    apply mbind_ok in H as (u2 & s5 & H5 & H). apply print_if_inv in H5 as [_ H5].
    apply mbind_ok in H as (o & s6 & H6 & H). apply get_obj_ok in H6 as [-> ->].
    apply mret_ok in H as [_ ->]. exists wn. split; [exact Hwn|]. apply HQ.
    assert (HI : I wn s3) by (eapply Hprint; [eapply Hfirst; eassumption|rewrite Hs2 in H3; exact H3]).
    destruct (loop_rule c h ftol out wn (fun _ _ s => I wn s)) with (3 := Z.le_refl 0) (5 := H4) as [nb [HI' _]].
    + intros hist0 nb0 t b acc t' t'' Ht _ _ Hit Hp. eapply Hprint; [|exact Hp]. eapply Hstep; eassumption.
    + exact HI.
    + left; reflexivity.
    + eapply Hprint; [exact HI'|exact H5].
  - unfold minimize in H.
    apply mbind_raise in H as [H|(b0 & s1 & H1 & H)]; [left; apply Hff; eapply first_generation_fail, H|].
    apply first_generation_inv in H1.
    apply mbind_raise in H as [H|(wn & s2 & H2 & H)]; [left; apply draw_noise_fail in H as ->; eapply Hf0, H1|].
    apply draw_noise_inv in H2 as [Hwn [w2 Hs2]].
    apply mbind_raise in H as [H|(u & s3 & H3 & H)]; [apply print_if_inv in H as [? _]; discriminate|].
    apply print_if_inv in H3 as [_ H3].
    assert (HI : I wn s3) by (eapply Hprint; [eapply Hfirst; eassumption|rewrite Hs2 in H3; exact H3]).
    apply mbind_raise in H as [H|(hist & s4 & H4 & H)].
    + right. exists wn. split; [exact Hwn|].
      destruct (loop_fail_rule ftol out wn (I wn)) with (4 := H) as (s0 & HI0 & Hs0); [apply Hprint| |exact HI|eapply HQf; eassumption].
      intros s0 b acc s0' HI0 Hit. eapply Hstep; eassumption.
    + apply mbind_raise in H as [H|(u2 & s5 & H5 & H)]; [apply print_if_inv in H as [? _]; discriminate|]. discriminate.
Qed.

(** The trace of a run from a fresh record: [r] is what it returned or raised. *)
Definition executes ftol out (s : st) (r : res result) (tr : list ev) : Prop :=
  s_tr s = [] /\ exists s', minimize c h ftol out s = (r, s') /\ s_tr s' = tr.

End Fail.
