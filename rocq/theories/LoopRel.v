(** Comparing two executions of the optimiser, whatever their outcome. *)
From Coq Require Import String List ZArith Bool Lia.
From Verif Require Import PyBase B64 NdArray Eda EdaInv Spec TopK LoopObs LoopThms.
Import ListNotations.
Open Scope nat_scope.

Section Rel.
Context {S W : Type}.
Local Notation st := (st S W).
Local Notation M := (M S W).

(** Two computations started in [P]-related states end the same way: both return, in
    states related by [Q], or both raise the same exception, in states related by [X]. *)
Definition rel {A} (P : st -> st -> Prop) (X : st -> st -> Prop) (m m' : M A)
           (Q : A -> A -> st -> st -> Prop) : Prop :=
  forall s s', P s s' ->
    match m s, m' s' with
    | (Ok a, t), (Ok a', t') => Q a a' t t'
    | (Raise e, t), (Raise e', t') => e = e' /\ X t t'
    | _, _ => False
    end.

Lemma rel_bind {A B} P X Q Q' (m m' : M A) (f f' : A -> M B) :
  rel P X m m' Q -> (forall a a', rel (Q a a') X (f a) (f' a') Q') ->
  rel P X (mbind m f) (mbind m' f') Q'.
Proof.
  intros Hm Hf s s' HP. unfold mbind. specialize (Hm s s' HP).
  destruct (m s) as [[a|e] t]; destruct (m' s') as [[a'|e'] t']; try contradiction.
  - apply Hf, Hm.
  - exact Hm.
Qed.

Lemma rel_weaken {A} (P P' X : st -> st -> Prop) (Q Q' : A -> A -> st -> st -> Prop) m m' :
  (forall s s', P' s s' -> P s s') -> (forall a a' s s', Q a a' s s' -> Q' a a' s s') ->
  rel P X m m' Q -> rel P' X m m' Q'.
Proof.
  intros HP HQ H s s' Hs. specialize (H s s' (HP _ _ Hs)).
  destruct (m s) as [[a|e] t]; destruct (m' s') as [[a'|e'] t']; auto.
Qed.

(** The same value and related states. *)
Definition same {A} (R : st -> st -> Prop) : A -> A -> st -> st -> Prop :=
  fun a a' t t' => a = a' /\ R t t'.

Lemma rel_bind_same {A B} R R' X Q (m m' : M A) (f f' : A -> M B) :
  rel R X m m' (same R') -> (forall a, rel R' X (f a) (f' a) Q) ->
  rel R X (mbind m f) (mbind m' f') Q.
Proof.
  intros Hm Hf. eapply rel_bind; [exact Hm|]. intros a a' s s' [-> Hs]. apply Hf, Hs.
Qed.

Lemma rel_ret {A} R X (a : A) : rel R X (mret a) (mret a) (same R).
Proof. intros s s' H. cbn. split; [reflexivity|exact H]. Qed.

Lemma rel_lift {A} (R X : st -> st -> Prop) (r : res A) :
  (forall s s', R s s' -> X s s') -> rel R X (mlift r) (mlift r) (same R).
Proof. intros HX s s' H. unfold mlift. destruct r; split; auto. Qed.

Lemma rel_raise {A} (R X : st -> st -> Prop) (e : exn) Q :
  (forall s s', R s s' -> X s s') -> rel (A:=A) R X (mraise e) (mraise e) Q.
Proof. intros HX s s' H. cbn. auto. Qed.

(* ------------------------------------------------------------------ *)
(** ** Executions that differ only in what was printed *)

Definition not_print (e : ev) : bool := match e with EvPrint _ => false | _ => true end.
Definition unprinted (tr : list ev) : list ev := filter not_print tr.

Definition sim (s s' : st) : Prop :=
  s_obj s = s_obj s' /\ s_pm s = s_pm s' /\ s_w s = s_w s' /\ unprinted (s_tr s) = unprinted (s_tr s').

Lemma unprinted_app a b : unprinted (a ++ b) = unprinted a ++ unprinted b.
Proof. apply filter_app. Qed.

Lemma sim_get : rel sim sim get_obj get_obj (same sim).
Proof. intros s s' H. cbn. destruct H as [H1 H2]. split; [exact H1|split; assumption]. Qed.
Lemma sim_put o : rel sim sim (put_obj o) (put_obj o) (same sim).
Proof. intros s s' (H1 & H2 & H3 & H4). cbn. repeat split; assumption. Qed.
Lemma sim_log e : rel sim sim (log e) (log e) (same sim).
Proof. intros s s' (H1 & H2 & H3 & H4). cbn. repeat split; try assumption. cbn. rewrite !unprinted_app, H4. reflexivity. Qed.
Lemma sim_world {A} (f : W -> res A * W) : rel sim sim (with_world f) (with_world f) (same sim).
Proof.
  intros s s' (H1 & H2 & H3 & H4). unfold with_world. rewrite <- H3. destruct (f (s_w s)) as [[a|e] w];
    repeat split; assumption.
Qed.
Lemma sim_lift {A} (r : res A) : rel sim sim (mlift r) (mlift r) (same sim).
Proof. apply rel_lift. auto. Qed.

(** Configurations that differ only in [disp], hooks only in the exported settings. *)
Definition same_but_disp (c c' : cfg) : Prop :=
  c_size_gen c = c_size_gen c' /\ c_max_iter c = c_max_iter c' /\ c_dead_iter c = c_dead_iter c' /\
  c_nvars c = c_nvars c' /\ c_parallelize c = c_parallelize c' /\ c_init_data c = c_init_data c' /\
  c_w_noise c = c_w_noise c' /\ c_trunc_len c = c_trunc_len c' /\ c_elite_len c = c_elite_len c'.
Definition same_but_settings (h h' : hooks S W) : Prop :=
  h_argsort h = h_argsort h' /\ h_cost h = h_cost h' /\ h_pool h = h_pool h' /\ h_normal h = h_normal h' /\
  h_init h = h_init h' /\ h_data h = h_data h' /\ h_learn h = h_learn h' /\ h_sample h = h_sample h'.

Section Disp.
Variables (c c' : cfg) (h h' : hooks S W).
Hypothesis Hc : same_but_disp c c'.
Hypothesis Hh : same_but_settings h h'.

Lemma sim_call_rows rs : rel sim sim (call_rows h rs) (call_rows h' rs) (same sim).
Proof.
  destruct Hh as (_ & H2 & _). induction rs as [|r rs IH]; cbn [call_rows]; [apply rel_ret|].
  unfold call1. rewrite H2.
  eapply rel_bind_same; [eapply rel_bind_same; [apply sim_world|intros v; eapply rel_bind_same; [apply sim_log|intros u; apply rel_ret]]|].
  intros v. eapply rel_bind_same; [exact IH|]. intros vs. apply rel_ret.
Qed.

Lemma sim_apply_rows rs : rel sim sim (apply_rows h rs) (apply_rows h' rs) (same sim).
Proof.
  unfold apply_rows. destruct rs as [|r rs]; [apply rel_raise; auto|].
  eapply rel_bind_same; [apply sim_call_rows|]. intros vs. apply rel_ret.
Qed.

Lemma call_rows_eq rs s : call_rows h rs s = call_rows h' rs s.
Proof.
  destruct Hh as (_ & H2 & _). revert s. induction rs as [|r rs IH]; intros s; cbn [call_rows]; [reflexivity|].
  unfold mbind, call1, mbind, with_world. rewrite H2. destruct (h_cost h' r (s_w s)) as [[v|e] w]; [|reflexivity].
  cbn. rewrite IH. reflexivity.
Qed.

Lemma run_chunks_eq i chs o p ws : run_chunks h i chs o p ws = run_chunks h' i chs o p ws.
Proof.
  destruct Hh as (_ & _ & H3 & _). revert i ws. induction chs as [|ch chs IH]; intros i ws; cbn [run_chunks]; [reflexivity|].
  rewrite H3. unfold run_chunk.
  assert (Ha : apply_rows h ch (mkSt o p (ws (p_worker (h_pool h') i)) []) =
               apply_rows h' ch (mkSt o p (ws (p_worker (h_pool h') i)) [])).
  { unfold apply_rows. destruct ch as [|r ch]; [reflexivity|]. unfold mbind. rewrite call_rows_eq. reflexivity. }
  rewrite Ha. destruct (apply_rows h' ch _) as [r s']. rewrite IH. reflexivity.
Qed.

Lemma sim_parallel_rows rs : rel sim sim (parallel_rows h rs) (parallel_rows h' rs) (same sim).
Proof.
  intros s s' (H1 & H2 & H3 & H4). unfold parallel_rows. rewrite run_chunks_eq.
  destruct Hh as (_ & _ & Hp & _). rewrite Hp, <- H1, <- H2, <- H3.
  destruct (run_chunks h' 0 _ _ _ _) as [results tr].
  destruct (failures results); repeat split; cbn; try assumption; rewrite !unprinted_app, H4; reflexivity.
Qed.

Lemma sim_check_generation : rel sim sim (check_generation c h) (check_generation c' h') (same sim).
Proof.
  unfold check_generation. eapply rel_bind_same; [apply sim_get|]. intros o.
  destruct Hc as (_ & _ & _ & _ & H5 & _). rewrite <- H5.
  eapply rel_bind_same; [destruct (c_parallelize c); [apply sim_parallel_rows|apply sim_apply_rows]|].
  intros rv. eapply rel_bind_same; [apply sim_put|]. intros _. apply sim_log.
Qed.

Lemma sim_truncation : rel sim sim (truncation c h) (truncation c' h') (same sim).
Proof.
  unfold truncation. destruct Hc as (_ & _ & _ & _ & _ & _ & _ & HT & HE). destruct Hh as (Hs & _).
  rewrite <- HT, <- HE, <- Hs.
  eapply rel_bind_same; [apply sim_get|]. intros o.
  eapply rel_bind_same; [apply sim_lift|]. intros g. cbv zeta.
  eapply rel_bind_same; [apply sim_lift|]. intros e'.
  eapply rel_bind_same; [apply sim_lift|]. intros g'.
  eapply rel_bind_same; [apply sim_lift|]. intros ve.
  eapply rel_bind_same; [apply sim_lift|]. intros vg.
  eapply rel_bind_same; [apply sim_put|]. intros _. apply sim_log.
Qed.

Lemma sim_set_gen g : rel sim sim (set_gen g) (set_gen g) (same sim).
Proof. unfold set_gen. eapply rel_bind_same; [apply sim_get|]. intros o. apply sim_put. Qed.

Lemma sim_update_pm : rel sim sim (update_pm h) (update_pm h') (same sim).
Proof.
  unfold update_pm. destruct Hh as (_ & _ & _ & _ & _ & Hd & Hl & _). rewrite <- Hd, <- Hl.
  eapply rel_bind_same; [apply sim_get|]. intros o.
  eapply rel_bind_same with (R' := sim).
  { intros s s' (H1 & H2 & H3 & H4). rewrite <- H2. destruct (h_data h (o_gen o) (o_elite o) (s_pm s)) as [[a|e] p];
      repeat split; assumption. }
  intros d. eapply rel_bind_same; [apply sim_log|]. intros _ s s' (H1 & H2 & H3 & H4).
  rewrite <- H2, <- H3. destruct (h_learn h d (s_pm s) (s_w s)) as [[a|e] [p w]]; repeat split; assumption.
Qed.

Lemma sim_new_generation : rel sim sim (new_generation h) (new_generation h') (same sim).
Proof.
  unfold new_generation. destruct Hh as (_ & _ & _ & _ & _ & _ & _ & Hs). rewrite <- Hs.
  eapply rel_bind_same with (R' := sim); [|intros g; apply sim_set_gen].
  intros s s' (H1 & H2 & H3 & H4). rewrite <- H2, <- H3.
  destruct (h_sample h (s_pm s) (s_w s)) as [[a|e] w]; repeat split; assumption.
Qed.

Lemma sim_draw_noise : rel sim sim (draw_noise c h) (draw_noise c' h') (same sim).
Proof.
  unfold draw_noise. destruct Hc as (_ & _ & _ & Hn & _ & _ & Hw & HT & _). destruct Hh as (_ & _ & _ & Hnm & _).
  rewrite <- Hn, <- Hw, <- HT, <- Hnm.
  destruct (py_eq_int (c_w_noise c) 0); [apply rel_ret|].
  destruct (py_eq_int (c_w_noise c) (-1)); [apply rel_ret|].
  destruct (_ || _ || _)%bool; [apply rel_raise; auto|].
  eapply rel_bind_same with (R' := sim); [|intros d; apply rel_ret].
  intros s s' (H1 & H2 & H3 & H4). rewrite <- H3. destruct (h_normal h _ (s_w s)) as [d w]. repeat split; assumption.
Qed.

Lemma sim_iteration ftol wn : rel sim sim (iteration c h ftol wn) (iteration c' h' ftol wn) (same sim).
Proof.
  unfold iteration.
  eapply rel_bind_same; [apply sim_truncation|]. intros _.
  eapply rel_bind_same; [apply sim_get|]. intros o1.
  eapply rel_bind_same; [apply sim_lift|]. intros g1.
  eapply rel_bind_same; [apply sim_set_gen|]. intros _.
  eapply rel_bind_same; [apply sim_update_pm|]. intros _.
  eapply rel_bind_same; [apply sim_new_generation|]. intros _.
  eapply rel_bind_same; [apply sim_check_generation|]. intros _.
  eapply rel_bind_same; [apply sim_get|]. intros o.
  eapply rel_bind_same; [apply sim_lift|]. intros b.
  eapply rel_bind_same; [apply sim_lift|]. intros i.
  eapply rel_bind_same; [apply sim_lift|]. intros r.
  destruct (accept ftol b (o_best_cost o)).
  - eapply rel_bind_same; [apply sim_put|]. intros _. apply rel_ret.
  - apply rel_ret.
Qed.

Lemma sim_print out out' p p' : rel sim sim (print_if out p) (print_if out' p') (same sim).
Proof.
  intros s s' (H1 & H2 & H3 & H4). unfold print_if.
  destruct out; destruct out'; cbn; repeat split; try assumption; cbn;
    rewrite ?unprinted_app; cbn; rewrite ?app_nil_r; assumption.
Qed.

Lemma sim_loop ftol out out' wn n : forall it hist nb,
  rel sim sim (loop c h ftol out wn n it hist nb) (loop c' h' ftol out' wn n it hist nb) (same sim).
Proof.
  induction n as [|n IH]; intros it hist nb; cbn [loop]; [apply rel_ret|].
  destruct Hc as (_ & _ & Hd & _). rewrite <- Hd.
  eapply rel_bind_same; [apply sim_iteration|]. intros [b acc]. cbn [fst snd]. cbv zeta.
  destruct acc.
  - eapply rel_bind_same; [apply sim_print|]. intros _. apply IH.
  - destruct (Z.eqb _ _); [apply rel_ret|]. eapply rel_bind_same; [apply sim_print|]. intros _. apply IH.
Qed.

Lemma sim_first_generation : rel sim sim (first_generation c h) (first_generation c' h') (same sim).
Proof.
  unfold first_generation.
  eapply rel_bind_same.
  { unfold initialize_generation. destruct Hc as (_ & _ & _ & _ & _ & Hi & _). destruct Hh as (_ & _ & _ & _ & Hin & _).
    rewrite <- Hi, <- Hin. destruct (c_init_data c); [apply rel_ret|apply sim_world]. }
  intros g. eapply rel_bind_same; [apply sim_set_gen|]. intros _.
  eapply rel_bind_same; [apply sim_check_generation|]. intros _.
  eapply rel_bind_same; [apply sim_get|]. intros o.
  eapply rel_bind_same; [apply sim_lift|]. intros r0.
  eapply rel_bind_same; [apply sim_lift|]. intros e0.
  eapply rel_bind_same; [apply sim_put|]. intros _.
  eapply rel_bind_same; [apply sim_lift|]. intros b.
  eapply rel_bind_same; [apply sim_get|]. intros o'.
  eapply rel_bind_same; [apply sim_put|]. intros _.
  eapply rel_bind_same; [apply sim_lift|]. intros i.
  eapply rel_bind_same; [apply sim_put|]. intros _. apply rel_ret.
Qed.

Definition same_result (r r' : result) : Prop :=
  r_best_ind r = r_best_ind r' /\ r_best_cost r = r_best_cost r' /\ r_nfev r = r_nfev r' /\
  r_history r = r_history r'.

Lemma sim_minimize ftol out out' :
  rel sim sim (minimize c h ftol out) (minimize c' h' ftol out')
      (fun r r' s s' => same_result r r' /\ sim s s').
Proof.
  unfold minimize.
  eapply rel_bind_same; [apply sim_first_generation|]. intros b0.
  eapply rel_bind_same; [apply sim_draw_noise|]. intros wn.
  eapply rel_bind_same; [apply sim_print|]. intros _.
  destruct Hc as (Hs & Hm & _). rewrite <- Hm, <- Hs.
  eapply rel_bind_same; [apply sim_loop|]. intros hist. cbv zeta.
  eapply rel_bind_same; [apply sim_print|]. intros _.
  eapply rel_bind_same; [apply sim_get|]. intros o s s' H. cbn. split; [|exact H]. repeat split.
Qed.

End Disp.

(* ------------------------------------------------------------------ *)
(** ** Executions from different optimiser states *)

(** The same world and trace, whatever the attributes and the model. *)
Definition fresh (s s' : st) : Prop := s_w s = s_w s' /\ s_tr s = s_tr s'.
(** The same attributes as well. *)
Definition fresh_pm (s s' : st) : Prop := s_obj s = s_obj s' /\ s_w s = s_w s' /\ s_tr s = s_tr s'.

Section Prior.
Variables (c : cfg) (h : hooks S W).

Lemma fresh_call_rows rs : rel fresh fresh (call_rows h rs) (call_rows h rs)
   (fun a a' t t' => a = a' /\ fresh t t').
Proof.
  induction rs as [|r rs IH]; cbn [call_rows]; [apply rel_ret|].
  unfold call1. eapply rel_bind_same.
  - eapply rel_bind_same with (R' := fresh).
    + intros s s' [H1 H2]. unfold with_world. rewrite <- H1. destruct (h_cost h r (s_w s)) as [[v|e] w]; repeat split; assumption.
    + intros v. eapply rel_bind_same with (R' := fresh); [|intros _; apply rel_ret].
      intros s s' [H1 H2]. cbn. repeat split; cbn; congruence.
  - intros v. eapply rel_bind_same; [exact IH|]. intros vs. apply rel_ret.
Qed.

Lemma call_rows_frame rs (s : st) : s_obj (snd (call_rows h rs s)) = s_obj s /\ s_pm (snd (call_rows h rs s)) = s_pm s.
Proof.
  revert s. induction rs as [|r rs IH]; intros s; cbn [call_rows]; [auto|].
  unfold mbind, call1, mbind, with_world. destruct (h_cost h r (s_w s)) as [[v|e] w]; [|auto]. cbn.
  match goal with |- context [call_rows h rs ?s0] => specialize (IH s0); destruct (call_rows h rs s0) as [[vs|e] s1] end;
    cbn in *; exact IH.
Qed.

Lemma apply_rows_frame rs (s : st) : s_obj (snd (apply_rows h rs s)) = s_obj s /\ s_pm (snd (apply_rows h rs s)) = s_pm s.
Proof.
  unfold apply_rows. destruct rs as [|r rs]; [auto|]. unfold mbind.
  pose proof (call_rows_frame (r :: rs) s) as H. destruct (call_rows h (r :: rs) s) as [[vs|e] s1]; exact H.
Qed.

Lemma fresh_apply_rows rs : rel fresh fresh (apply_rows h rs) (apply_rows h rs) (same fresh).
Proof.
  unfold apply_rows. destruct rs as [|r rs]; [apply rel_raise; auto|].
  eapply rel_bind_same; [apply fresh_call_rows|]. intros vs. apply rel_ret.
Qed.

Lemma run_chunks_indep i chs o p o' p' ws : run_chunks h i chs o p ws = run_chunks h i chs o' p' ws.
Proof.
  revert i ws. induction chs as [|ch chs IH]; intros i ws; cbn [run_chunks]; [reflexivity|].
  unfold run_chunk.
  pose proof (fresh_apply_rows ch (mkSt o p (ws (p_worker (h_pool h) i)) []) (mkSt o' p' (ws (p_worker (h_pool h) i)) [])) as Ha.
  specialize (Ha (conj eq_refl eq_refl)).
  destruct (apply_rows h ch (mkSt o p _ [])) as [[a|e] t]; destruct (apply_rows h ch (mkSt o' p' _ [])) as [[a'|e'] t'];
    try contradiction; destruct Ha as [Ha [Hw Ht]]; subst; rewrite Hw, Ht, IH; reflexivity.
Qed.

Lemma fresh_evaluate rs :
  rel fresh fresh (if c_parallelize c then parallel_rows h rs else apply_rows h rs)
                  (if c_parallelize c then parallel_rows h rs else apply_rows h rs) (same fresh).
Proof.
  destruct (c_parallelize c); [|apply fresh_apply_rows].
  intros s s' [H1 H2]. unfold parallel_rows. rewrite (run_chunks_indep 0 _ (s_obj s) (s_pm s) (s_obj s') (s_pm s')), <- H1.
  destruct (run_chunks h 0 _ _ _ _) as [results tr]. destruct (failures results); repeat split; cbn; congruence.
Qed.

Lemma evaluate_frame rs (s : st) :
  let s' := snd ((if c_parallelize c then parallel_rows h rs else apply_rows h rs) s) in
  s_obj s' = s_obj s /\ s_pm s' = s_pm s.
Proof.
  destruct (c_parallelize c); [|apply apply_rows_frame].
  unfold parallel_rows. destruct (run_chunks h 0 _ _ _ _) as [results tr].
  destruct (failures results); split; reflexivity.
Qed.

Definition fresh2 (s s' : st) : Prop :=
  fresh s s' /\ o_gen (s_obj s) = o_gen (s_obj s') /\ o_evals (s_obj s) = o_evals (s_obj s').
Definition fresh3 (s s' : st) : Prop :=
  fresh2 s s' /\ o_elite (s_obj s) = o_elite (s_obj s') /\ o_evel (s_obj s) = o_evel (s_obj s').

Lemma fresh_lift {A} (R : st -> st -> Prop) (r : res A) :
  (forall s s', R s s' -> fresh s s') -> rel R fresh (mlift r) (mlift r) (same R).
Proof. apply rel_lift. Qed.

Lemma fresh_check_generation :
  rel (fun s s' => fresh s s' /\ o_gen (s_obj s) = o_gen (s_obj s')) fresh
      (check_generation c h) (check_generation c h) (same fresh2).
Proof.
  intros s s' [Hf Hg]. unfold check_generation, mbind, get_obj, put_obj, log. rewrite <- Hg.
  pose proof (fresh_evaluate (a_rows (o_gen (s_obj s))) s s' Hf) as He.
  pose proof (evaluate_frame (a_rows (o_gen (s_obj s))) s) as F1.
  pose proof (evaluate_frame (a_rows (o_gen (s_obj s))) s') as F2.
  destruct ((if c_parallelize c then parallel_rows h (a_rows (o_gen (s_obj s))) else apply_rows h (a_rows (o_gen (s_obj s)))) s) as [[a|e] t];
  destruct ((if c_parallelize c then parallel_rows h (a_rows (o_gen (s_obj s))) else apply_rows h (a_rows (o_gen (s_obj s)))) s') as [[a'|e'] t'];
    try contradiction; [|exact He].
  destruct He as [<- [Hw Ht]]. cbn. split; [reflexivity|]. repeat split; cbn; congruence.
Qed.

(** The first generation overwrites everything an earlier use left in the attributes. *)
Lemma fresh_first_generation :
  rel fresh fresh (first_generation c h) (first_generation c h)
      (fun b b' t t' => b = b' /\ fresh_pm t t').
Proof.
  unfold first_generation.
  eapply rel_bind_same with (R' := fresh).
  { intros s s' [Hw Ht]. unfold initialize_generation. destruct (c_init_data c) as [d|]; [repeat split; assumption|].
    unfold with_world. rewrite <- Hw. destruct (h_init h (s_w s)) as [[g|e] w]; repeat split; assumption. }
  intros g. eapply rel_bind_same with (R' := fun s s' => fresh s s' /\ o_gen (s_obj s) = o_gen (s_obj s')).
  { intros s s' [Hw Ht]. cbn. repeat split; assumption. }
  intros _. eapply rel_bind_same; [apply fresh_check_generation|]. intros _.
  eapply rel_bind with (Q := fun o o' t t' => fresh2 t t' /\ o = s_obj t /\ o' = s_obj t').
  { intros s s' H. cbn. auto. }
  intros o o' s s' (H & -> & ->). revert s s' H.
  intros s s' ((Hw & Ht) & Hg & He).
  unfold mbind, mlift, get_obj, put_obj, mret. cbn [s_obj s_pm s_w s_tr o_gen o_evals o_elite o_evel o_best_cost o_best_ind].
  rewrite <- Hg, <- He.
  destruct (a_rows (o_gen (s_obj s))) as [|r0 rs]; [repeat split; assumption|].
  destruct (o_evals (s_obj s)) as [|e0 es]; [repeat split; assumption|].
  destruct (py_min (e0 :: es)) as [b|e]; cbn [s_obj s_pm s_w s_tr o_gen o_evals o_elite o_evel o_best_cost o_best_ind];
    [|repeat split; assumption].
  destruct (first_or_IndexError _) as [i|e]; cbn; repeat split; cbn; try assumption; congruence.
Qed.

(** Algorithms without an archive train on the selected generation itself. *)
Definition trains_on_selection : Prop := forall g e p, h_data h g e p = (Ok g, p).

(** Learning from two states of the model, on any data set, raises the same exception or
    leaves the same model. *)
Definition forgetful (p p' : S) : Prop :=
  forall d w, match h_learn h d p w, h_learn h d p' w with
              | (Ok _, (q, w1)), (Ok _, (q', w2)) => q = q' /\ w1 = w2
              | (Raise e, (_, w1)), (Raise e', (_, w2)) => e = e' /\ w1 = w2
              | _, _ => False
              end.

(** From two states, choosing the training data and learning from it raises the same
    exception or leaves the same model. *)
Definition retrains (p p' : S) : Prop :=
  forall g e, match h_data h g e p, h_data h g e p' with
              | (Ok d, q), (Ok d', q') => d = d' /\ forgetful q q'
              | (Raise x, _), (Raise x', _) => x = x'
              | _, _ => False
              end.

Lemma selection_retrains p p' : trains_on_selection -> forgetful p p' -> retrains p p'.
Proof. intros Hd Hl g e. rewrite !Hd. auto. Qed.

Definition mem_eq (s s' : st) : Prop := s = s'.

Lemma rel_eq_refl {A} (X : st -> st -> Prop) (m : M A) :
  (forall s, X s s) -> rel mem_eq X m m (same mem_eq).
Proof. intros HX s s' <-. destruct (m s) as [[a|e] t]; [split; reflexivity|auto]. Qed.

Lemma fresh_refl (s : st) : fresh s s. Proof. split; reflexivity. Qed.

(** The two models stay as they were until the first learning. *)
Variables (p0 p0' : S).
Definition fresh_at (s s' : st) : Prop := fresh_pm s s' /\ s_pm s = p0 /\ s_pm s' = p0'.

Definition keeps_pm {A} (m : M A) : Prop := forall s, s_pm (snd (m s)) = s_pm s.

Lemma rel_at {A} (R X : st -> st -> Prop) (m : M A) R' :
  keeps_pm m -> rel R X m m (same R') ->
  rel (fun s s' => R s s' /\ s_pm s = p0 /\ s_pm s' = p0') X m m (same (fun s s' => R' s s' /\ s_pm s = p0 /\ s_pm s' = p0')).
Proof.
  intros K H s s' (HR & H1 & H2). specialize (H s s' HR). pose proof (K s) as K1. pose proof (K s') as K2.
  destruct (m s) as [[a|e] t]; destruct (m s') as [[a'|e'] t']; try contradiction; [|exact H].
  cbn in K1, K2. destruct H as [Ha Hr]. split; [exact Ha|]. split; [exact Hr|]. split; congruence.
Qed.

Lemma keeps_pm_bind {A B} (m : M A) (f : A -> M B) : keeps_pm m -> (forall a, keeps_pm (f a)) -> keeps_pm (mbind m f).
Proof.
  intros Hm Hf s. unfold mbind. specialize (Hm s). destruct (m s) as [[a|e] t]; [|exact Hm].
  rewrite (Hf a t). exact Hm.
Qed.
Lemma keeps_pm_lift {A} (r : res A) : keeps_pm (mlift r). Proof. intros s. reflexivity. Qed.
Lemma keeps_pm_get : keeps_pm get_obj. Proof. intros s. reflexivity. Qed.
Lemma keeps_pm_put o : keeps_pm (put_obj o). Proof. intros s. reflexivity. Qed.
Lemma keeps_pm_log e : keeps_pm (log e). Proof. intros s. reflexivity. Qed.
Lemma keeps_pm_ret {A} (a : A) : keeps_pm (mret a). Proof. intros s. reflexivity. Qed.
Lemma keeps_pm_set_gen g : keeps_pm (set_gen g). Proof. intros s. reflexivity. Qed.
Lemma keeps_pm_print b p : keeps_pm (print_if b p).
Proof. intros s. unfold print_if. destruct b; reflexivity. Qed.
Lemma keeps_pm_check : keeps_pm (check_generation c h).
Proof.
  intros s. unfold check_generation, mbind, get_obj, put_obj, log.
  pose proof (evaluate_frame (a_rows (o_gen (s_obj s))) s) as [_ F].
  destruct ((if c_parallelize c then parallel_rows h (a_rows (o_gen (s_obj s))) else apply_rows h (a_rows (o_gen (s_obj s)))) s) as [[a|e] t]; exact F.
Qed.
Lemma keeps_pm_truncation : keeps_pm (truncation c h).
Proof.
  unfold truncation. apply keeps_pm_bind; [apply keeps_pm_get|intros o].
  repeat (apply keeps_pm_bind; [apply keeps_pm_lift|intros ?]; cbv zeta).
  apply keeps_pm_bind; [apply keeps_pm_put|intros ?]. apply keeps_pm_log.
Qed.
Lemma keeps_pm_first : keeps_pm (first_generation c h).
Proof.
  unfold first_generation. apply keeps_pm_bind.
  { intros s. unfold initialize_generation. destruct (c_init_data c); [reflexivity|]. unfold with_world. destruct (h_init h (s_w s)). reflexivity. }
  intros g. apply keeps_pm_bind; [apply keeps_pm_set_gen|intros _].
  apply keeps_pm_bind; [apply keeps_pm_check|intros _].
  repeat first [apply keeps_pm_bind; [first [apply keeps_pm_get|apply keeps_pm_lift|apply keeps_pm_put]|intros ?] | apply keeps_pm_ret].
Qed.
Lemma keeps_pm_noise : keeps_pm (draw_noise c h).
Proof.
  intros s. unfold draw_noise. destruct (py_eq_int _ 0); [reflexivity|]. destruct (py_eq_int _ (-1)); [reflexivity|].
  destruct (_ || _ || _)%bool; [reflexivity|]. unfold mbind. destruct (h_normal h _ _). reflexivity.
Qed.

Lemma truncation_fresh_pm :
  rel fresh_pm fresh (truncation c h) (truncation c h) (same fresh_pm).
Proof.
  assert (HX : forall s s', fresh_pm s s' -> fresh s s') by (intros s s' (H1 & H2 & H3); split; assumption).
  assert (Hl : forall A (r : res A), rel fresh_pm fresh (mlift r) (mlift r) (same fresh_pm)) by (intros; apply rel_lift; exact HX).
  unfold truncation. eapply rel_bind_same with (R' := fresh_pm).
  { intros s s' (H1 & H2 & H3). cbn. repeat split; assumption. }
  intros o. eapply rel_bind_same; [apply Hl|]. intros g. cbv zeta.
  eapply rel_bind_same; [apply Hl|]. intros e'.
  eapply rel_bind_same; [apply Hl|]. intros g'.
  eapply rel_bind_same; [apply Hl|]. intros ve.
  eapply rel_bind_same; [apply Hl|]. intros vg.
  eapply rel_bind_same with (R' := fresh_pm).
  { intros s s' (H1 & H2 & H3). cbn. repeat split; assumption. }
  intros _ s s' (H1 & H2 & H3). cbn. repeat split; cbn; congruence.
Qed.

Lemma update_pm_fresh : retrains p0 p0' -> rel fresh_at fresh (update_pm h) (update_pm h) (same mem_eq).
Proof.
  intros Hr s s' ((H1 & H2 & H3) & E & E'). unfold update_pm, mbind, get_obj, log.
  rewrite <- H1, E, E'. specialize (Hr (o_gen (s_obj s)) (o_elite (s_obj s))).
  destruct (h_data h (o_gen (s_obj s)) (o_elite (s_obj s)) p0) as [[d|x] q];
    destruct (h_data h (o_gen (s_obj s)) (o_elite (s_obj s)) p0') as [[d'|x'] q']; try contradiction;
    cbn [s_obj s_pm s_w s_tr]; rewrite <- ?H1, <- H2, <- H3; [|subst x'; repeat split].
  destruct Hr as [<- Hl]. specialize (Hl d (s_w s)).
  destruct (h_learn h d q (s_w s)) as [[u|e] [q1 w1]];
    destruct (h_learn h d q' (s_w s)) as [[u'|e'] [q2 w2]]; try contradiction;
    destruct Hl as [<- <-].
  - split; [destruct u, u'; reflexivity|]. unfold mem_eq. reflexivity.
  - repeat split.
Qed.

Lemma iteration_fresh ftol wn :
  retrains p0 p0' -> rel fresh_at fresh (iteration c h ftol wn) (iteration c h ftol wn) (same mem_eq).
Proof.
  intros Hl.
  assert (HX : forall s s', fresh_at s s' -> fresh s s') by (intros s s' ((H1 & H2 & H3) & _); split; assumption).
  unfold iteration. eapply rel_bind_same; [apply rel_at; [apply keeps_pm_truncation|apply truncation_fresh_pm]|]. intros _.
  eapply rel_bind_same with (R' := fresh_at).
  { intros s s' ((H1 & H2 & H3) & E & E'). cbn. repeat split; assumption. }
  intros o1. eapply rel_bind_same; [apply rel_lift; exact HX|]. intros g1.
  eapply rel_bind_same with (R' := fresh_at).
  { intros s s' ((H1 & H2 & H3) & E & E'). cbn. repeat split; cbn; congruence. }
  intros _. eapply rel_bind_same; [apply update_pm_fresh; assumption|]. intros _.
  apply rel_eq_refl. intros s. apply fresh_refl.
Qed.

Lemma fresh_pm_print out p : rel fresh_pm fresh (print_if out p) (print_if out p) (same fresh_pm).
Proof.
  intros s s' (H1 & H2 & H3). unfold print_if. destruct out; cbn; repeat split; cbn; congruence.
Qed.

Lemma fresh_draw_noise : rel fresh_pm fresh (draw_noise c h) (draw_noise c h) (same fresh_pm).
Proof.
  unfold draw_noise. intros s s' (H1 & H2 & H3).
  destruct (py_eq_int (c_w_noise c) 0); [repeat split; assumption|].
  destruct (py_eq_int (c_w_noise c) (-1)); [repeat split; assumption|].
  destruct (_ || _ || _)%bool; [repeat split; assumption|].
  unfold mbind. rewrite <- H2. destruct (h_normal h _ (s_w s)) as [d w]. repeat split; assumption.
Qed.

Lemma fresh_loop ftol out wn n it hist nb : retrains p0 p0' ->
  rel fresh_at fresh (loop c h ftol out wn n it hist nb) (loop c h ftol out wn n it hist nb) (same fresh_pm).
Proof.
  intros Hl. destruct n as [|n]; cbn [loop].
  { intros s s' [H _]. split; [reflexivity|exact H]. }
  eapply rel_bind_same; [apply iteration_fresh; assumption|]. intros ba.
  eapply rel_weaken; [intros s s' H; exact H| |apply rel_eq_refl; intros s; apply fresh_refl].
  intros a a' s s' [-> ->]. split; [reflexivity|]. repeat split.
Qed.

Lemma prior_state_retrains ftol out :
  retrains p0 p0' ->
  rel (fun s s' => fresh s s' /\ s_pm s = p0 /\ s_pm s' = p0') fresh (minimize c h ftol out) (minimize c h ftol out) (same fresh_pm).
Proof.
  intros Hl. unfold minimize.
  eapply rel_bind_same; [apply rel_at; [apply keeps_pm_first|apply fresh_first_generation]|]. intros b0.
  eapply rel_bind_same; [apply (rel_at fresh_pm); [apply keeps_pm_noise|apply fresh_draw_noise]|]. intros wn.
  eapply rel_bind_same; [apply (rel_at fresh_pm); [apply keeps_pm_print|apply fresh_pm_print]|]. intros _.
  eapply rel_bind_same; [apply fresh_loop; assumption|]. intros hist. cbv zeta.
  eapply rel_bind_same; [apply fresh_pm_print|]. intros _.
  intros s s' (H1 & H2 & H3). cbn. rewrite H1. repeat split; assumption.
Qed.

Lemma prior_state_lemma ftol out :
  trains_on_selection -> forgetful p0 p0' ->
  rel (fun s s' => fresh s s' /\ s_pm s = p0 /\ s_pm s' = p0') fresh (minimize c h ftol out) (minimize c h ftol out) (same fresh_pm).
Proof. intros Hd Hl. apply prior_state_retrains, selection_retrains; assumption. Qed.

End Prior.
End Rel.
