(** What sharing means for the caller. *)
From Coq Require Import List ZArith Bool String Lia.
From Verif Require Import PyBase B64 NdArray Eda EdaInv Alias AliasThms Demo.
Import ListNotations.
Open Scope nat_scope.

(* ---------------- every evaluated generation is on the list ---------------- *)

Section Told.
Context {S W : Type}.
Variable c : cfg.
Variable h : hooks S W.
Variable hcost : row -> W -> res num * row * W.
Variable data : option nat.
Local Notation hst := (hst S W).
Local Notation HM := (@HM S W).

Definition told (s : hst) : Prop :=
  forall g rets vals, In (EvGen g rets vals) (hs_tr s) -> exists a, In (a, g) (hs_seen s).
Definition keeps {A} (mh : HM A) : Prop :=
  forall s, told s -> told (snd (mh s)) /\ exists l, hs_seen (snd (mh s)) = hs_seen s ++ l.
Definition is_gen (e : ev) : Prop := match e with EvGen _ _ _ => True | _ => False end.
(** A step of the value model that evaluates no generation. *)
Definition no_gen {A} (m : M S W A) : Prop :=
  forall t, exists l, s_tr (snd (m t)) = s_tr t ++ l /\ Forall (fun e => ~ is_gen e) l.

Lemma keeps_same {A} (mh : HM A) : (forall s, hs_tr (snd (mh s)) = hs_tr s /\ hs_seen (snd (mh s)) = hs_seen s) -> keeps mh.
Proof.
  intros H s Ht. destruct (H s) as [E1 E2]. split; [|exists []; rewrite app_nil_r; exact E2].
  intros g rets vals. rewrite E1, E2. apply Ht.
Qed.

Lemma keeps_bind {A B} (mh : HM A) (f : A -> HM B) : keeps mh -> (forall a, keeps (f a)) -> keeps (hbind_ mh f).
Proof.
  intros Hm Hf s Ht. unfold hbind_. specialize (Hm s Ht). destruct (mh s) as [[a|e] s1]; cbn [snd] in *; [|exact Hm].
  destruct Hm as [Ht1 [l1 E1]]. destruct (Hf a s1 Ht1) as [Ht2 [l2 E2]]. split; [exact Ht2|].
  exists (l1 ++ l2). rewrite E2, E1, app_assoc. reflexivity.
Qed.

Lemma keeps_ret {A} (a : A) : keeps (hret a).
Proof. apply keeps_same. intros s. split; reflexivity. Qed.
Lemma keeps_lift {A} (r : res A) : keeps (hlift r).
Proof. apply keeps_same. intros s. split; reflexivity. Qed.
Lemma keeps_gets {A} (f : hst -> A) : keeps (gets f).
Proof. apply keeps_same. intros s. split; reflexivity. Qed.
Lemma keeps_alloc x : keeps (alloc x).
Proof. apply keeps_same. intros s. split; reflexivity. Qed.
Lemma keeps_write a x : keeps (write a x).
Proof. apply keeps_same. intros s. split; reflexivity. Qed.
Lemma keeps_assign_gen a : keeps (assign_gen a).
Proof. apply keeps_same. intros s. split; reflexivity. Qed.
Lemma keeps_assign_evals l : keeps (assign_evals l).
Proof. apply keeps_same. intros s. split; reflexivity. Qed.
Lemma keeps_assign_elite a l : keeps (assign_elite a l).
Proof. apply keeps_same. intros s. split; reflexivity. Qed.
Lemma keeps_assign_best x b : keeps (assign_best x b).
Proof. apply keeps_same. intros s. split; reflexivity. Qed.

Lemma keeps_hlog e : ~ is_gen e -> keeps (hlog e).
Proof.
  intros He s Ht. split; [|exists []; rewrite app_nil_r; reflexivity].
  intros g rets vals Hin. cbn in Hin. apply in_app_or in Hin. destruct Hin as [Hin|[E|[]]]; [exact (Ht _ _ _ Hin)|].
  subst e. destruct (He I).
Qed.

Lemma keeps_pure {A} (m : M S W A) : no_gen m -> keeps (pure_step m).
Proof.
  intros H s Ht. unfold pure_step. destruct (H (abs s)) as (l & El & Hl). destruct (m (abs s)) as [r t]. cbn [snd] in El.
  split; [|exists []; rewrite app_nil_r; reflexivity]. intros g rets vals. cbn [snd hs_tr hs_seen]. rewrite El.
  intros Hin. apply in_app_or in Hin. destruct Hin as [Hin|Hin]; [exact (Ht _ _ _ Hin)|].
  rewrite Forall_forall in Hl. destruct (Hl _ Hin I).
Qed.

Lemma keeps_hand_out : keeps hand_out.
Proof.
  intros s Ht. split; [|eexists; reflexivity]. intros g rets vals Hin. destruct (Ht g rets vals Hin) as [a Ha].
  exists a. apply in_or_app. left. exact Ha.
Qed.

Lemma no_gen_same {A} (m : M S W A) : (forall t, s_tr (snd (m t)) = s_tr t) -> no_gen m.
Proof. intros H t. exists []. rewrite app_nil_r. split; [apply H|constructor]. Qed.

Lemma no_gen_draw : no_gen (draw_noise c h).
Proof.
  apply no_gen_same. intros t. unfold draw_noise. destruct (py_eq_int _ _); [reflexivity|]. destruct (py_eq_int _ _); [reflexivity|].
  destruct (_ || _)%bool; [reflexivity|]. unfold mbind. destruct (h_normal h _ _). reflexivity.
Qed.

Lemma no_gen_world {A} (f : W -> res A * W) : no_gen (with_world f).
Proof. apply no_gen_same. intros t. unfold with_world. destruct (f _). reflexivity. Qed.

Lemma no_gen_print b p : no_gen (print_if b p).
Proof.
  intros t. destruct b; unfold print_if.
  - eexists. split; [reflexivity|]. constructor; [exact (fun x => x)|constructor].
  - exists []. rewrite app_nil_r. split; [reflexivity|constructor].
Qed.

Lemma no_gen_update : no_gen (update_pm h).
Proof.
  intros t. unfold update_pm, mbind, get_obj, log. destruct (h_data h _ _ _) as [[d|e] p].
  - cbn [s_pm s_w s_obj s_tr]. destruct (h_learn h _ _ _) as [r [p' w']]. cbn [snd s_tr].
    eexists. split; [reflexivity|]. constructor; [exact (fun x => x)|constructor].
  - exists []. rewrite app_nil_r. split; [reflexivity|constructor].
Qed.

Lemma call_rows_no_gen rs (t : st S W) : exists l, s_tr (snd (call_rows h rs t)) = s_tr t ++ l /\ Forall (fun e => ~ is_gen e) l.
Proof.
  revert t. induction rs as [|r rs IH]; intros t; cbn [call_rows].
  - exists []. rewrite app_nil_r. split; [reflexivity|constructor].
  - unfold mbind at 1. unfold call1, with_world, log, mbind at 1. destruct (h_cost h r (s_w t)) as [[v|e] w'].
    + cbn [mbind mret s_obj s_pm s_w s_tr]. unfold mbind, mret.
      match goal with |- context [call_rows h rs ?x] => destruct (IH x) as (l & El & Hl); destruct (call_rows h rs x) as [[vs|e] t2] end;
        cbn [snd s_tr] in *; exists (EvCall r v :: l); (split; [rewrite El, <- app_assoc; reflexivity|constructor; [exact (fun x => x)|exact Hl]]).
    + exists []. rewrite app_nil_r. split; [reflexivity|constructor].
Qed.

Lemma chunk_no_gen rs (t : st S W) : exists l, s_tr (snd (apply_rows h rs t)) = s_tr t ++ l /\ Forall (fun e => ~ is_gen e) l.
Proof.
  unfold apply_rows. destruct rs as [|r rs]; [exists []; rewrite app_nil_r; split; [reflexivity|constructor]|].
  destruct (call_rows_no_gen (r :: rs) t) as (l & El & Hl). unfold mbind. destruct (call_rows h (r :: rs) t) as [[vs|e] t2]; exists l; split; assumption.
Qed.

Lemma chunks_no_gen chunks : forall i o p ws, Forall (fun e => ~ is_gen e) (snd (run_chunks h i chunks o p ws)).
Proof.
  induction chunks as [|ch chunks IH]; intros i o p ws; cbn [run_chunks]; [constructor|].
  unfold run_chunk. destruct (chunk_no_gen ch (mkSt o p (ws (p_worker (h_pool h) i)) [])) as (l & El & Hl).
  destruct (apply_rows h ch _) as [r t2]. cbn [snd s_tr List.app] in El.
  match goal with |- context [run_chunks h ?a ?b ?d ?e ?f] => specialize (IH a d e f); destruct (run_chunks h a b d e f) as [rs trs] end.
  cbn [snd] in *. apply Forall_app. split; [rewrite El; exact Hl|exact IH].
Qed.

Lemma no_gen_parallel rs : no_gen (parallel_rows h rs).
Proof.
  intros t. unfold parallel_rows. pose proof (chunks_no_gen (array_split (cpu_count (h_pool h)) rs) 0 (s_obj t) (s_pm t) (fun _ => s_w t)) as H.
  destruct (run_chunks h 0 _ _ _ _) as [l tr]. cbn [snd] in H. exists tr. destruct (failures l); split; try reflexivity; exact H.
Qed.

Lemma keeps_call1 i : keeps (hcall1 hcost i).
Proof.
  intros s Ht. unfold hcall1. destruct (hcost _ _) as [[v r'] w']. split; [|exists []; rewrite app_nil_r; reflexivity].
  intros g rets vals. cbn [snd hs_tr hs_seen]. destruct v as [v|e]; [|apply Ht].
  intros Hin. apply in_app_or in Hin. destruct Hin as [Hin|[E|[]]]; [exact (Ht _ _ _ Hin)|discriminate E].
Qed.

Lemma keeps_call_rows n : forall i, keeps (hcall_rows hcost i n).
Proof.
  induction n as [|n IH]; intros i; cbn [hcall_rows]; [apply keeps_ret|].
  apply keeps_bind; [apply keeps_call1|]. intros v. apply keeps_bind; [apply IH|]. intros vs. apply keeps_ret.
Qed.

Lemma keeps_apply : keeps (happly_rows hcost).
Proof.
  apply keeps_bind; [apply keeps_gets|]. intros [|n]; [apply keeps_lift|].
  apply keeps_bind; [apply keeps_call_rows|]. intros vs. apply keeps_ret.
Qed.

Lemma keeps_check : keeps (hcheck_generation c h hcost).
Proof.
  intros s Ht. unfold hcheck_generation.
  destruct (keeps_hand_out s Ht) as [Ht1 [l1 E1]].
  set (s1 := snd (hand_out s)) in *. set (g := deref (hs_mem s) (hs_gen s)).
  assert (Hg : In (hs_gen s, g) (hs_seen s1)) by (apply in_or_app; right; left; reflexivity).
  set (m := if c_parallelize c then pure_step (parallel_rows h (a_rows g)) else happly_rows hcost).
  assert (Hm : keeps m) by (unfold m; destruct (c_parallelize c); [apply keeps_pure, no_gen_parallel|apply keeps_apply]).
  change (told (snd (hbind_ m (fun rv => hbind_ (assign_evals (snd rv)) (fun _ => hlog (EvGen g (fst rv) (snd rv)))) s1)) /\
          exists l, hs_seen (snd (hbind_ m (fun rv => hbind_ (assign_evals (snd rv)) (fun _ => hlog (EvGen g (fst rv) (snd rv)))) s1)) = hs_seen s ++ l).
  destruct (Hm s1 Ht1) as [Ht2 [l2 E2]]. unfold hbind_. destruct (m s1) as [[rv|e] s2]; cbn [snd] in Ht2, E2.
  - split.
    + intros g' rets vals. cbn [assign_evals hlog snd hs_tr hs_seen]. intros Hin. apply in_app_or in Hin.
      destruct Hin as [Hin|[E|[]]]; [exact (Ht2 _ _ _ Hin)|]. exists (hs_gen s).
      assert (Eg : g' = g) by congruence. rewrite Eg, E2. apply in_or_app. left. exact Hg.
    + exists (l1 ++ l2). cbn [assign_evals hlog snd hs_seen]. rewrite E2, E1, app_assoc. reflexivity.
  - split; [exact Ht2|]. exists (l1 ++ l2). cbn [snd]. rewrite E2, E1, app_assoc. reflexivity.
Qed.

Lemma keeps_truncation : keeps (htruncation c h).
Proof.
  unfold htruncation. apply keeps_bind; [apply keeps_gets|]. intros s. apply keeps_bind; [apply keeps_lift|]. intros gen. cbv zeta.
  do 4 (apply keeps_bind; [apply keeps_lift|]; intros ?).
  apply keeps_bind; [apply keeps_alloc|]; intros ?. apply keeps_bind; [apply keeps_alloc|]; intros ?.
  apply keeps_bind; [apply keeps_assign_elite|]; intros ?. apply keeps_bind; [apply keeps_alloc|]; intros ?.
  apply keeps_bind; [apply keeps_assign_gen|]; intros ?. apply keeps_bind; [apply keeps_assign_evals|]; intros ?.
  apply keeps_hlog. exact (fun x => x).
Qed.

Lemma keeps_noise wn : keeps (hadd_noise wn).
Proof.
  apply keeps_bind; [apply keeps_gets|]; intros ?. apply keeps_bind; [apply keeps_gets|]; intros ?.
  apply keeps_bind; [apply keeps_lift|]; intros ?. apply keeps_write.
Qed.

Lemma keeps_new : keeps (hnew_generation h).
Proof.
  apply keeps_bind.
  - apply keeps_pure, no_gen_same. intros t. destruct (h_sample h _ _). reflexivity.
  - intros g. apply keeps_bind; [apply keeps_alloc|]; intros ?. apply keeps_assign_gen.
Qed.

Lemma keeps_iteration ftol wn : keeps (hiteration c h hcost ftol wn).
Proof.
  unfold hiteration. apply keeps_bind; [apply keeps_truncation|]; intros ?. apply keeps_bind; [apply keeps_noise|]; intros ?.
  apply keeps_bind; [apply keeps_hand_out|]; intros ?. apply keeps_bind; [apply keeps_pure, no_gen_update|]; intros ?.
  apply keeps_bind; [apply keeps_new|]; intros ?. apply keeps_bind; [apply keeps_check|]; intros ?.
  apply keeps_bind; [apply keeps_gets|]; intros ?. do 3 (apply keeps_bind; [apply keeps_lift|]; intros ?).
  destruct (accept _ _ _); [|apply keeps_ret]. apply keeps_bind; [apply keeps_assign_best|]; intros ?. apply keeps_ret.
Qed.

Lemma keeps_loop ftol out wn n : forall it hist nb, keeps (hloop c h hcost ftol out wn n it hist nb).
Proof.
  induction n as [|n IH]; intros it hist nb; cbn [hloop]; [apply keeps_ret|].
  apply keeps_bind; [apply keeps_iteration|]. intros [b ok]. cbn [fst snd]. destruct ok.
  - apply keeps_bind; [apply keeps_pure, no_gen_print|]; intros ?. apply IH.
  - destruct (Z.eqb _ _); [apply keeps_ret|]. apply keeps_bind; [apply keeps_pure, no_gen_print|]; intros ?. apply IH.
Qed.

Lemma keeps_first : keeps (hfirst_generation c h hcost data).
Proof.
  unfold hfirst_generation. apply keeps_bind.
  { unfold hinitialize_generation. destruct data; [apply keeps_assign_gen|].
    apply keeps_bind; [apply keeps_pure, no_gen_world|]; intros ?. apply keeps_bind; [apply keeps_alloc|]; intros ?. apply keeps_assign_gen. }
  intros ?. apply keeps_bind; [apply keeps_check|]; intros ?. apply keeps_bind; [apply keeps_gets|]; intros ?. cbv zeta.
  do 2 (apply keeps_bind; [apply keeps_lift|]; intros ?). apply keeps_bind; [apply keeps_alloc|]; intros ?.
  apply keeps_bind; [apply keeps_assign_elite|]; intros ?. apply keeps_bind; [apply keeps_lift|]; intros ?.
  apply keeps_bind; [apply keeps_assign_best|]; intros ?. apply keeps_bind; [apply keeps_lift|]; intros ?.
  apply keeps_bind; [apply keeps_assign_best|]; intros ?. apply keeps_ret.
Qed.

Lemma keeps_minimize ftol out : keeps (hminimize c h hcost data ftol out).
Proof.
  unfold hminimize. apply keeps_bind; [apply keeps_first|]; intros ?. apply keeps_bind; [apply keeps_pure, no_gen_draw|]; intros ?.
  apply keeps_bind; [apply keeps_pure, no_gen_print|]; intros ?. apply keeps_bind; [apply keeps_loop|]; intros ?. cbv zeta.
  apply keeps_bind; [apply keeps_pure, no_gen_print|]; intros ?. apply keeps_bind; [apply keeps_gets|]; intros ?. apply keeps_ret.
Qed.

End Told.

(* ---------------- statements ---------------- *)

(** Called with the same arguments, [hcost] returns or raises what the cost function does ... *)
Definition same_calls {S W} (h : hooks S W) (hcost : row -> W -> res num * row * W) : Prop :=
  forall r w, fst (fst (hcost r w)) = fst (h_cost h r w) /\ snd (hcost r w) = snd (h_cost h r w).
(** ... and leaves the row it was given as it was. *)
Definition leaves_argument {W} (hcost : row -> W -> res num * row * W) : Prop := forall r w, snd (fst (hcost r w)) = r.

(** The addresses held by the optimiser exist. *)
Definition heap_ok {S W} (s : hst S W) : Prop :=
  hs_gen s < List.length (hs_mem s) /\ hs_elite s < List.length (hs_mem s) /\ view_in (hs_mem s) (hs_best_ind s).
(** The initial data of the optimiser, if any, is what buffer [data] contains. *)
Definition data_is (c : cfg) (data : option nat) (m : heap) : Prop :=
  match data with
  | Some a => a < List.length m /\ c_init_data c = Some (deref m a)
  | None => c_init_data c = None
  end.

Lemma quiet_cost {S W} c (h : hooks S W) hcost : same_calls h hcost -> c_parallelize c = true \/ leaves_argument hcost ->
  c_parallelize c = true \/ forall r w, hcost r w = (fst (h_cost h r w), r, snd (h_cost h r w)).
Proof.
  intros Hs [H|H]; [left; exact H|right]. intros r w. destruct (Hs r w) as [E1 E2]. specialize (H r w).
  destruct (hcost r w) as [[v r'] w']. cbn [fst snd] in *. subst. reflexivity.
Qed.

Theorem sharing_is_safe {S W} c (h : hooks S W) hcost data ftol out s r s' :
  same_calls h hcost -> c_parallelize c = true \/ leaves_argument hcost ->
  heap_ok s -> data_is c data (hs_mem s) -> hs_tr s = [] -> hs_seen s = [] ->
  hminimize c h hcost data ftol out s = (r, s') ->
  (forall a, a < List.length (hs_mem s) -> deref (hs_mem s') a = deref (hs_mem s) a) /\
  (forall a x, In (a, x) (hs_seen s') -> deref (hs_mem s') a = x) /\
  (forall g rets vals, In (EvGen g rets vals) (hs_tr s') -> exists a, In (a, g) (hs_seen s')).
Proof.
  intros Hs Hq (H1 & H2 & H3) Hd Ht Hn E.
  assert (Hw : wf s) by (split; [exact H1|split; [exact H2|split; [exact H3|rewrite Hn; constructor]]]).
  pose proof (minimize_sim c h hcost data (quiet_cost c h hcost Hs Hq) ftol out s Hw Hd) as H. unfold sim_res in H. rewrite E in H.
  destruct H as (_ & He & Hw' & _). split; [|split].
  - intros a Ha. apply extends_deref; assumption.
  - intros a x Hin. destruct Hw' as (_ & _ & _ & Hall). rewrite Forall_forall in Hall. exact (proj2 (Hall _ Hin)).
  - assert (Told : told s) by (intros g rets vals; rewrite Ht; intros []).
    destruct (keeps_minimize c h hcost data ftol out s Told) as [Hk _]. rewrite E in Hk. exact Hk.
Qed.

Theorem same_as_values {S W} c (h : hooks S W) hcost data ftol out s r s' :
  same_calls h hcost -> c_parallelize c = true \/ leaves_argument hcost ->
  heap_ok s -> data_is c data (hs_mem s) -> hs_seen s = [] ->
  hminimize c h hcost data ftol out s = (r, s') ->
  minimize c h ftol out (abs s) = (match r with Ok x => Ok (see_result (hs_mem s') x) | Raise e => Raise e end, abs s').
Proof.
  intros Hs Hq (H1 & H2 & H3) Hd Hn E.
  assert (Hw : wf s) by (split; [exact H1|split; [exact H2|split; [exact H3|rewrite Hn; constructor]]]).
  pose proof (minimize_sim c h hcost data (quiet_cost c h hcost Hs Hq) ftol out s Hw Hd) as H. unfold sim_res in H. rewrite E in H.
  exact (proj1 H).
Qed.

Theorem workers_write_copies {S W} c (h : hooks S W) hcost data ftol out s r s' :
  same_calls h hcost -> c_parallelize c = true ->
  heap_ok s -> data_is c data (hs_mem s) -> hs_seen s = [] ->
  hminimize c h hcost data ftol out s = (r, s') ->
  (forall a, a < List.length (hs_mem s) -> deref (hs_mem s') a = deref (hs_mem s) a) /\
  minimize c h ftol out (abs s) = (match r with Ok x => Ok (see_result (hs_mem s') x) | Raise e => Raise e end, abs s').
Proof.
  intros Hs Hp (H1 & H2 & H3) Hd Hn E.
  assert (Hw : wf s) by (split; [exact H1|split; [exact H2|split; [exact H3|rewrite Hn; constructor]]]).
  pose proof (minimize_sim c h hcost data (quiet_cost c h hcost Hs (or_introl Hp)) ftol out s Hw Hd) as H. unfold sim_res in H. rewrite E in H.
  destruct H as (Ev & He & _). split; [|exact Ev]. intros a Ha. apply extends_deref; assumption.
Qed.

(** The state in which the caller's next call of [minimize] starts: same attributes and memory. *)
Definition again {S W} (s : hst S W) : hst S W :=
  mkHst (hs_mem s) (hs_gen s) (hs_evals s) (hs_elite s) (hs_evel s) (hs_best_cost s) (hs_best_ind s) (hs_pm s) (hs_w s) [] [].

Theorem earlier_result_kept {S W} c (h : hooks S W) hcost data ftol out hcost2 data2 c2 (h2 : hooks S W) ftol2 out2 s x s' r2 s'' :
  same_calls h hcost -> c_parallelize c = true \/ leaves_argument hcost ->
  heap_ok s -> data_is c data (hs_mem s) -> hs_seen s = [] ->
  hminimize c h hcost data ftol out s = (Ok x, s') ->
  same_calls h2 hcost2 -> c_parallelize c2 = true \/ leaves_argument hcost2 -> data_is c2 data2 (hs_mem s') ->
  hminimize c2 h2 hcost2 data2 ftol2 out2 (again s') = (r2, s'') ->
  see_result (hs_mem s'') x = see_result (hs_mem s') x.
Proof.
  intros Hs Hq (H1 & H2 & H3) Hd Hn E Hs2 Hq2 Hd2 E2.
  assert (Hw : wf s) by (split; [exact H1|split; [exact H2|split; [exact H3|rewrite Hn; constructor]]]).
  pose proof (minimize_sim c h hcost data (quiet_cost c h hcost Hs Hq) ftol out s Hw Hd) as H. unfold sim_res in H. rewrite E in H.
  destruct H as (_ & _ & Hw' & _ & Hv).
  assert (Hw2 : wf (again s')) by (destruct Hw' as (A & B & C & _); split; [exact A|split; [exact B|split; [exact C|constructor]]]).
  pose proof (minimize_sim c2 h2 hcost2 data2 (quiet_cost c2 h2 hcost2 Hs2 Hq2) ftol2 out2 (again s') Hw2 Hd2) as H. unfold sim_res in H. rewrite E2 in H.
  destruct H as (_ & He & _). unfold see_result. f_equal. apply extends_see; assumption.
Qed.

(* ---------------- a cost function that writes ---------------- *)

(** Answers with the first coordinate of its argument, which it then sets to 2. *)
Definition overwriting (r : row) (w : list arr) : res num * row * list arr := (Ok (first_cell r), [CF (Z2f 2)], w).
Definition given : arr := col (ints [3; 5]%Z).
Definition hstart (w : list arr) : hst unit (list arr) :=
  mkHst [given] 0 [] 0 [] (Z2f 0) (HIdx 0) tt w [] [].
Definition writing_conf (par : bool) : cfg := conf 2 2 2 par (Some given) None.
Definition next_gen : list arr := [col (ints [1; 4]%Z)].

Definition row_is (z : Z) (r : row) : bool := match r with [CF x] => feq x (Z2f z) | _ => false end.
Definition not_called_on (z : Z) (tr : list ev) : bool :=
  forallb (fun e => match e with EvCall r _ => negb (row_is z r) | _ => true end) tr.

(** The caller's data, the best individual and the rows evaluated. *)
Definition judge (run : res hresult * hst unit (list arr)) : bool * bool * bool * bool :=
  match run with
  | (Ok x, s') =>
      (row_is 3 (nth 0 (a_rows (deref (hs_mem s') 0)) []),
       match see (hs_mem s') (hr_best_ind x) with BRow r => row_is 1 r | BIdx _ => false end,
       match see (hs_mem s') (hr_best_ind x) with BRow r => row_is 2 r | BIdx _ => false end,
       not_called_on 2 (hs_tr s'))
  | (Raise _, _) => (false, false, false, false)
  end.
Local Notation writing_run par :=
  (hminimize (writing_conf par) (scripted first_cell 2) overwriting (Some 0) ftol_default false (hstart next_gen)).

Lemma outcome_sequential : judge (writing_run false) = (false, false, true, true).
Proof. vm_compute. reflexivity. Qed.
(** With workers, the data is as it was and the best individual is the one evaluated. *)
Lemma outcome_parallel : judge (writing_run true) = (true, true, false, true).
Proof. vm_compute. reflexivity. Qed.

Lemma given_first : row_is 3 (nth 0 (a_rows given) []) = true.
Proof. vm_compute. reflexivity. Qed.

Lemma writing_data par : data_is (writing_conf par) (Some 0) [given].
Proof.
  split; [constructor|]. unfold writing_conf, conf, eda_init.
  destruct (int_times 2 (PyF (lit 1 (-1)))) as [t|e] eqn:E; [|exfalso; vm_compute in E; discriminate E].
  reflexivity.
Qed.

Lemma judged run : judge run = (false, false, true, true) ->
  exists x s' r, run = (Ok x, s') /\ deref (hs_mem s') 0 <> given /\
    see (hs_mem s') (hr_best_ind x) = BRow r /\ (forall v, ~ In (EvCall r v) (hs_tr s')).
Proof.
  unfold judge. destruct run as [[x|e] s']; [|discriminate].
  destruct (see (hs_mem s') (hr_best_ind x)) as [i|r] eqn:Er; [discriminate|].
  intros H. injection H as H1 _ H3 H4. exists x, s', r. split; [reflexivity|]. split; [|split; [exact Er|]].
  - intros Ed. rewrite Ed, given_first in H1. discriminate H1.
  - intros v Hin. unfold not_called_on in H4. rewrite forallb_forall in H4. specialize (H4 _ Hin). cbn beta iota in H4.
    rewrite H3 in H4. discriminate H4.
Qed.

Lemma writing_cost_seen : exists c (h : hooks unit (list arr)) hcost data ftol out s x s' r,
  same_calls h hcost /\ heap_ok s /\ data_is c (Some data) (hs_mem s) /\ hs_tr s = [] /\ hs_seen s = [] /\
  hminimize c h hcost (Some data) ftol out s = (Ok x, s') /\
  deref (hs_mem s') data <> deref (hs_mem s) data /\
  see (hs_mem s') (hr_best_ind x) = BRow r /\ (forall v, ~ In (EvCall r v) (hs_tr s')).
Proof.
  destruct (judged _ outcome_sequential) as (x & s' & r & E & Hd & Hr & Hn).
  exists (writing_conf false), (scripted first_cell 2), overwriting, 0, ftol_default, false, (hstart next_gen), x, s', r.
  split; [intros r0 w; split; reflexivity|].
  split; [split; [constructor|split; [constructor|exact I]]|].
  split; [exact (writing_data false)|]. split; [reflexivity|]. split; [reflexivity|]. split; [exact E|].
  split; [exact Hd|]. split; [exact Hr|exact Hn].
Qed.
