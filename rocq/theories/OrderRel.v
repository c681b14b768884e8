(** Runs whose cost functions rank solutions alike. *)
From Coq Require Import String List ZArith Bool Lia Reals Lra.
From Verif Require Import PyBase B64 B64More NdArray Eda EdaInv Spec TopK LoopObs LoopThms BestCost LoopRel.
Import ListNotations.
Open Scope nat_scope.

(* ---------------- comparisons ---------------- *)
(** Pairs of costs: comparing two first components gives the same answer as comparing the
    two second components, and both or neither are NaN. *)
Definition same_order (R : f64 -> f64 -> Prop) : Prop :=
  forall x x' y y', R x x' -> R y y' -> flt x y = flt x' y' /\ isnan x = isnan x'.
(** A sort that looks at its input through comparisons and NaN tests only. *)
Definition sorts_by_comparison (f : list f64 -> list nat) : Prop :=
  forall l l', List.length l = List.length l' ->
    (forall i j x y x' y', nth_error l i = Some x -> nth_error l j = Some y ->
                           nth_error l' i = Some x' -> nth_error l' j = Some y' ->
       flt x y = flt x' y' /\ isnan x = isnan x') ->
    f l = f l'.

Lemma feq_by_flt x y : feq x y = negb (isnan x) && negb (isnan y) && negb (flt x y) && negb (flt y x).
Proof.
  destruct (isnan x) eqn:Nx; [cbn [negb andb]; apply feq_nan_l, Nx|].
  destruct (isnan y) eqn:Ny; [cbn [negb andb]; apply feq_nan_r, Ny|]. cbn [negb andb].
  destruct (feq x y) eqn:F.
  - pose proof (fle_flt_false _ _ (feq_fle _ _ F)) as H1. rewrite feq_sym in F.
    pose proof (fle_flt_false _ _ (feq_fle _ _ F)) as H2. rewrite H1, H2. reflexivity.
  - destruct (flt x y) eqn:L1; [reflexivity|]. destruct (flt y x) eqn:L2; [reflexivity|].
    assert (feq x y = true) by (apply fle_antisym_feq; apply flt_false_fle; assumption). congruence.
Qed.
Lemma fle_by_flt x y : fle x y = negb (isnan x) && negb (isnan y) && negb (flt y x).
Proof.
  destruct (isnan x) eqn:Nx; [cbn [negb andb]; apply fle_nan_l, Nx|].
  destruct (isnan y) eqn:Ny; [cbn [negb andb]; apply fle_nan_r, Ny|]. cbn [negb andb].
  destruct (flt y x) eqn:L; cbn [negb].
  - destruct (fle x y) eqn:F; [|reflexivity]. apply fle_flt_false in F. congruence.
  - apply flt_false_fle; assumption.
Qed.

(** With a zero tolerance a generation is accepted exactly when it is strictly better. *)
Lemma accept_zero ftol v b : feq ftol (Z2f 0) = true -> accept ftol v b = flt v b.
Proof.
  intros H0. destruct (one_plus_zero ftol H0) as [Ht H1]. destruct (one_plus_tol ftol Ht) as [Hfin _].
  unfold accept. destruct (isnan v) eqn:Nv; [rewrite !flt_nan_l by exact Nv; reflexivity|].
  destruct (isnan b) eqn:Nb.
  { rewrite (flt_nan_r v b Nb). apply flt_nan_r. destruct b; try discriminate Nb. reflexivity. }
  assert (Hm : isnan (fmul b (fadd fone ftol)) = false) by (apply fmul_pos_not_nan; [exact Nb|exact Hfin|lra]).
  pose proof (flt_ext v _ Nv Hm) as E1. pose proof (flt_ext v b Nv Nb) as E2.
  rewrite (fmul_by_one b _ Nb Hfin H1) in E1.
  destruct (flt v (fmul b (fadd fone ftol))); destruct (flt v b); try reflexivity.
  - symmetry. apply E2, E1. reflexivity.
  - apply E1, E2. reflexivity.
Qed.

(** A comparison sort: insertion sort. *)
Lemma insert_by_same l l' i s :
  (forall a b, np_le (nth a l fnan) (nth b l fnan) = np_le (nth a l' fnan) (nth b l' fnan)) ->
  insert_by l i s = insert_by l' i s.
Proof. intros H. induction s as [|j s IH]; cbn [insert_by]; [reflexivity|]. rewrite H, IH. reflexivity. Qed.
Lemma argsort_ref_by_comparison : sorts_by_comparison argsort_ref.
Proof.
  intros l l' HL H. unfold argsort_ref. rewrite <- HL.
  assert (E : forall a b, np_le (nth a l fnan) (nth b l fnan) = np_le (nth a l' fnan) (nth b l' fnan)).
  { assert (N : forall a, isnan (nth a l fnan) = isnan (nth a l' fnan)).
    { intros a. destruct (Nat.lt_ge_cases a (List.length l)) as [Ha|Ha].
      - refine (proj2 (H a a _ (nth a l fnan) _ (nth a l' fnan) _ _ _ _)); apply nth_error_nth'; lia.
      - rewrite !nth_overflow by lia. reflexivity. }
    intros a b. unfold np_le. rewrite !fle_by_flt, !N.
    destruct (isnan (nth b l' fnan)) eqn:Nb; [reflexivity|]. destruct (isnan (nth a l' fnan)) eqn:Na; [reflexivity|].
    cbn [orb negb andb]. f_equal.
    destruct (Nat.lt_ge_cases a (List.length l)) as [Ha|Ha]; [|rewrite nth_overflow in Na by lia; discriminate Na].
    destruct (Nat.lt_ge_cases b (List.length l)) as [Hb|Hb]; [|rewrite nth_overflow in Nb by lia; discriminate Nb].
    refine (proj1 (H b a _ _ _ _ _ _ _ _)); apply nth_error_nth'; lia. }
  generalize (seq 0 (List.length l)). intros s. induction s as [|i s IH]; cbn [fold_right]; [reflexivity|].
  rewrite IH. apply insert_by_same, E.
Qed.

(* ---------------- lists ---------------- *)
Definition res_rel {A B} (V : A -> B -> Prop) (r : res A) (r' : res B) : Prop :=
  match r, r' with Ok a, Ok a' => V a a' | Raise e, Raise e' => e = e' | _, _ => False end.

Lemma Forall2_nth_error {A B} (V : A -> B -> Prop) l l' : Forall2 V l l' -> forall i,
  match nth_error l i, nth_error l' i with Some a, Some b => V a b | None, None => True | _, _ => False end.
Proof.
  intros H. induction H as [|a b l l' Hab H IH]; intros i; destruct i as [|i]; cbn [nth_error]; auto. apply IH.
Qed.
Lemma gather_rel {A B} (V : A -> B -> Prop) idx l l' :
  Forall2 V l l' -> res_rel (Forall2 V) (gather idx l) (gather idx l').
Proof.
  intros H. induction idx as [|i idx IH]; cbn [gather]; [constructor|].
  pose proof (Forall2_nth_error V l l' H i) as Hi.
  destruct (nth_error l i) as [a|]; destruct (nth_error l' i) as [b|]; try contradiction; [|reflexivity].
  destruct (gather idx l); destruct (gather idx l'); try contradiction; cbn in *; [constructor; assumption|exact IH].
Qed.

Section Order.
Variable R : f64 -> f64 -> Prop.
Hypothesis HR : same_order R.

Lemma order_flt x x' y y' : R x x' -> R y y' -> flt x y = flt x' y'.
Proof. intros H1 H2. apply (HR x x' y y' H1 H2). Qed.
Lemma order_nan x x' : R x x' -> isnan x = isnan x'.
Proof. intros H. apply (HR x x' x x' H H). Qed.
Lemma order_feq x x' y y' : R x x' -> R y y' -> feq x y = feq x' y'.
Proof.
  intros H1 H2. rewrite !feq_by_flt, (order_nan x x' H1), (order_nan y y' H2), (order_flt x x' y y' H1 H2), (order_flt y y' x x' H2 H1).
  reflexivity.
Qed.
Lemma order_min l l' : Forall2 R l l' -> res_rel R (py_min l) (py_min l').
Proof.
  intros H. destruct H as [|x x' l l' Hx H]; cbn [py_min]; [reflexivity|]. cbn [res_rel].
  revert x x' Hx. induction H as [|y y' l l' Hy H IH]; intros x x' Hx; cbn [fold_left]; [exact Hx|].
  apply IH. rewrite (order_flt y y' x x' Hy Hx). destruct (flt y' x'); assumption.
Qed.
Lemma order_where b b' l l' : R b b' -> Forall2 R l l' ->
  np_where (fun x => feq x b) l = np_where (fun x => feq x b') l'.
Proof.
  intros Hb H. unfold np_where. generalize 0. induction H as [|x x' l l' Hx H IH]; intros i; cbn [where_from]; [reflexivity|].
  rewrite (order_feq x x' b b' Hx Hb), IH. reflexivity.
Qed.
Lemma order_sort f l l' : sorts_by_comparison f -> Forall2 R l l' -> f l = f l'.
Proof.
  intros Hf H. apply Hf; [exact (Forall2_length _ _ _ H)|]. intros i j x y x' y' H1 H2 H3 H4.
  pose proof (Forall2_nth_error R l l' H i) as Hi. rewrite H1, H3 in Hi.
  pose proof (Forall2_nth_error R l l' H j) as Hj. rewrite H2, H4 in Hj. apply HR; assumption.
Qed.

(* ---------------- what is related ---------------- *)
(** Values returned by the two cost functions: each function always returns the same kind
    of number ([k], [k']: floats rather than ints). *)
Definition is_float (v : num) : bool := match v with NI _ => false | NF _ => true end.
Definition value (v : num) : f64 := match v with NI z => Z2f z | NF x => x end.
Variables k k' : bool.
Definition ret_rel (v v' : num) : Prop := is_float v = k /\ is_float v' = k' /\ R (value v) (value v').

Lemma store_uniform j vs : Forall (fun v => is_float v = j) vs -> store_all vs = map value vs.
Proof.
  intros H. destruct vs as [|v0 vs]; [reflexivity|]. cbn [store_all]. apply map_ext_in. intros v Hv.
  pose proof (proj1 (Forall_forall _ _) H v Hv) as H1. pose proof (Forall_inv H) as H0.
  destruct v0; destruct v; cbn in *; congruence.
Qed.
Lemma store_rel vs vs' : Forall2 ret_rel vs vs' -> Forall2 R (store_all vs) (store_all vs').
Proof.
  intros H. rewrite (store_uniform k vs), (store_uniform k' vs').
  - induction H as [|v v' vs vs' (_ & _ & Hv) H IH]; cbn [map]; constructor; assumption.
  - induction H as [|v v' vs vs' (_ & Hv & _) H IH]; constructor; assumption.
  - induction H as [|v v' vs vs' (Hv & _ & _) H IH]; constructor; assumption.
Qed.

Definition scored (a a' : row * f64) : Prop := fst a = fst a' /\ R (snd a) (snd a').
Definition printed_rel (p p' : printed) : Prop :=
  match p, p' with
  | PrIter i b, PrIter i' b' => i = i' /\ R b b'
  | PrFinal n b x, PrFinal n' b' x' => n = n' /\ R b b' /\ x = x'
  | _, _ => False
  end.
(** The same calls, generations, selections, training sets and lines, costs apart. *)
Definition ev_rel (e e' : ev) : Prop :=
  match e, e' with
  | EvCall r v, EvCall r' v' => r = r' /\ ret_rel v v'
  | EvGen g vs xs, EvGen g' vs' xs' => g = g' /\ Forall2 ret_rel vs vs' /\ Forall2 R xs xs'
  | EvSelect a b, EvSelect a' b' => Forall2 scored a a' /\ Forall2 scored b b'
  | EvLearn d, EvLearn d' => d = d'
  | EvPrint p, EvPrint p' => printed_rel p p'
  | _, _ => False
  end.

Context {S W : Type}.
Local Notation st := (st S W).
Local Notation M := (M S W).

Definition rx (s s' : st) : Prop := s_pm s = s_pm s' /\ s_w s = s_w s' /\ Forall2 ev_rel (s_tr s) (s_tr s').
(** [full]: the attributes describing the best solution and the elite are set. *)
Definition ro (full : bool) (o o' : obj) : Prop :=
  o_gen o = o_gen o' /\
  (full = true -> o_elite o = o_elite o' /\ Forall2 R (o_evel o) (o_evel o') /\
                  R (o_best_cost o) (o_best_cost o') /\ o_best_ind o = o_best_ind o').
Definition roe full (o o' : obj) : Prop := ro full o o' /\ Forall2 R (o_evals o) (o_evals o').
Definition rs_ (full : bool) (s s' : st) : Prop := rx s s' /\ ro full (s_obj s) (s_obj s').
Definition rse full (s s' : st) : Prop := rx s s' /\ roe full (s_obj s) (s_obj s').

Definition both {A} (V : A -> A -> Prop) (P : st -> st -> Prop) (a a' : A) (s s' : st) : Prop := V a a' /\ P s s'.

Lemma rel_bind_both {A B} (V : A -> A -> Prop) P P' X Q (m m' : M A) (f f' : A -> M B) :
  rel P X m m' (both V P') -> (forall a a', V a a' -> rel P' X (f a) (f' a') Q) ->
  rel P X (mbind m f) (mbind m' f') Q.
Proof. intros Hm Hf. eapply rel_bind; [exact Hm|]. intros a a' s s' [HV Hs]. apply Hf; assumption. Qed.
Lemma rel_both_ret {A} (V : A -> A -> Prop) P X a a' : V a a' -> rel P X (mret a) (mret a') (both V P).
Proof. intros HV s s' H. split; assumption. Qed.
Lemma rel_both_lift {A} (V : A -> A -> Prop) (P X : st -> st -> Prop) r r' :
  (forall s s', P s s' -> X s s') -> res_rel V r r' -> rel P X (mlift r) (mlift r') (both V P).
Proof.
  intros HX HV s s' H. unfold mlift. destruct r; destruct r'; try contradiction; [split; assumption|].
  split; [exact HV|apply HX, H].
Qed.
Lemma rs_rx full s s' : rs_ full s s' -> rx s s'. Proof. intros [H _]. exact H. Qed.
Lemma rse_rx full s s' : rse full s s' -> rx s s'. Proof. intros [H _]. exact H. Qed.
Lemma rse_rs full s s' : rse full s s' -> rs_ full s s'. Proof. intros [H [H1 _]]. split; assumption. Qed.
Hint Resolve rs_rx rse_rx rse_rs : core.

Lemma get_rs full : rel (rs_ full) rx get_obj get_obj (both (ro full) (rs_ full)).
Proof. intros s s' H. cbn. split; [apply H|exact H]. Qed.
Lemma get_rse full : rel (rse full) rx get_obj get_obj (both (roe full) (rse full)).
Proof. intros s s' H. cbn. split; [apply H|exact H]. Qed.
Lemma put_any (P : st -> st -> Prop) full o o' : (forall s s', P s s' -> rx s s') -> ro full o o' ->
  rel P rx (put_obj o) (put_obj o') (same (rs_ full)).
Proof. intros HP H s s' Hs. cbn. split; [reflexivity|]. split; [apply (HP _ _ Hs)|exact H]. Qed.
Lemma put_anye (P : st -> st -> Prop) full o o' : (forall s s', P s s' -> rx s s') -> roe full o o' ->
  rel P rx (put_obj o) (put_obj o') (same (rse full)).
Proof. intros HP H s s' Hs. cbn. split; [reflexivity|]. split; [apply (HP _ _ Hs)|exact H]. Qed.
Lemma rx_log s s' e e' : rx s s' -> ev_rel e e' ->
  rx (mkSt (s_obj s) (s_pm s) (s_w s) (s_tr s ++ [e])) (mkSt (s_obj s') (s_pm s') (s_w s') (s_tr s' ++ [e'])).
Proof.
  intros (H1 & H2 & H3) He. split; [exact H1|]. split; [exact H2|]. cbn [s_tr]. apply Forall2_app; [exact H3|].
  constructor; [exact He|constructor].
Qed.
Lemma log_rs full e e' : ev_rel e e' -> rel (rs_ full) rx (log e) (log e') (same (rs_ full)).
Proof. intros He s s' [Hx Ho]. cbn. split; [reflexivity|]. split; [apply rx_log; assumption|exact Ho]. Qed.
Lemma log_rse full e e' : ev_rel e e' -> rel (rse full) rx (log e) (log e') (same (rse full)).
Proof. intros He s s' [Hx Ho]. cbn. split; [reflexivity|]. split; [apply rx_log; assumption|exact Ho]. Qed.

(* ---------------- the two programs ---------------- *)
Variables (c : cfg) (h h' : hooks S W) (ftol : f64).
Hypothesis Hacc : forall x x' y y', R x x' -> R y y' -> accept ftol x y = accept ftol x' y'.
(** Same hooks, except the cost function. *)
Definition same_but_cost : Prop :=
  h_argsort h = h_argsort h' /\ h_pool h = h_pool h' /\ h_normal h = h_normal h' /\
  h_init h = h_init h' /\ h_data h = h_data h' /\ h_learn h = h_learn h' /\ h_sample h = h_sample h'.
Definition costs_rel : Prop :=
  forall r w, res_rel ret_rel (fst (h_cost h r w)) (fst (h_cost h' r w)) /\
              snd (h_cost h r w) = snd (h_cost h' r w).
Hypothesis Hh : same_but_cost.
Hypothesis Hcost : costs_rel.
Hypothesis Hsort : sorts_by_comparison (h_argsort h).

Lemma rel_call_rows full rs :
  rel (rs_ full) rx (call_rows h rs) (call_rows h' rs) (both (Forall2 ret_rel) (rs_ full)).
Proof.
  induction rs as [|r rs IH]; cbn [call_rows]; [apply rel_both_ret; constructor|].
  eapply rel_bind_both with (V := ret_rel) (P' := rs_ full).
  - unfold call1. eapply rel_bind_both with (V := ret_rel) (P' := rs_ full).
    + intros s s' [(Hx1 & Hx2 & Hx3) Ho]. unfold with_world. rewrite <- Hx2. destruct (Hcost r (s_w s)) as [H1 H2].
      destruct (h_cost h r (s_w s)) as [[v|e] w]; destruct (h_cost h' r (s_w s)) as [[v'|e'] w'];
        cbn [fst snd res_rel] in H1, H2; try contradiction; subst w'.
      * split; [exact H1|]. split; [split; [exact Hx1|split; [reflexivity|exact Hx3]]|exact Ho].
      * split; [exact H1|]. split; [exact Hx1|split; [reflexivity|exact Hx3]].
    + intros v v' Hv. eapply rel_bind_same; [apply log_rs; split; [reflexivity|exact Hv]|]. intros _. apply rel_both_ret, Hv.
  - intros v v' Hv. eapply rel_bind_both; [exact IH|]. intros vs vs' Hvs. apply rel_both_ret. constructor; assumption.
Qed.

Definition rets_rel (a a' : list num * list f64) : Prop := Forall2 ret_rel (fst a) (fst a') /\ Forall2 R (snd a) (snd a').
Lemma rel_apply_rows full rs :
  rel (rs_ full) rx (apply_rows h rs) (apply_rows h' rs) (both rets_rel (rs_ full)).
Proof.
  unfold apply_rows. destruct rs as [|r rs]; [apply rel_raise; apply rs_rx|].
  eapply rel_bind_both; [apply rel_call_rows|]. intros vs vs' H. apply rel_both_ret. split; [exact H|apply store_rel, H].
Qed.

Lemma rel_run_chunks full chs o o' p : ro full o o' -> forall i ws ws', (forall j, ws j = ws' j) ->
  Forall2 (res_rel rets_rel) (fst (run_chunks h i chs o p ws)) (fst (run_chunks h' i chs o' p ws')) /\
  Forall2 ev_rel (snd (run_chunks h i chs o p ws)) (snd (run_chunks h' i chs o' p ws')).
Proof.
  intros Ho. induction chs as [|ch chs IH]; intros i ws ws' Hw; cbn [run_chunks]; [split; constructor|].
  destruct Hh as (_ & Hp & _). rewrite <- Hp. unfold run_chunk.
  pose proof (rel_apply_rows full ch (mkSt o p (ws (p_worker (h_pool h) i)) []) (mkSt o' p (ws' (p_worker (h_pool h) i)) [])) as H.
  assert (Hs : rs_ full (mkSt o p (ws (p_worker (h_pool h) i)) []) (mkSt o' p (ws' (p_worker (h_pool h) i)) [])).
  { split; [|exact Ho]. split; [reflexivity|]. split; [apply Hw|constructor]. }
  specialize (H Hs). clear Hs.
  destruct (apply_rows h ch _) as [r t]; destruct (apply_rows h' ch _) as [r' t'].
  assert (HX : res_rel rets_rel r r' /\ rx t t').
  { destruct r; destruct r'; try contradiction; destruct H as [H1 H2]; split; try assumption. apply (rs_rx full), H2. }
  destruct HX as [Hr (_ & Hw2 & Ht)].
  specialize (IH (Datatypes.S i) (fun j => if Nat.eqb j (p_worker (h_pool h) i) then s_w t else ws j)
                 (fun j => if Nat.eqb j (p_worker (h_pool h) i) then s_w t' else ws' j)).
  destruct IH as [IH1 IH2]; [intros j; rewrite Hw2, Hw; reflexivity|].
  destruct (run_chunks h _ chs o p _) as [rs1 tr1]; destruct (run_chunks h' _ chs o' p _) as [rs2 tr2]. cbn [fst snd] in *.
  split; [constructor; assumption|apply Forall2_app; assumption].
Qed.

Lemma rel_failures rs rs' : Forall2 (res_rel rets_rel) rs rs' -> failures rs = failures rs'.
Proof.
  intros H. induction H as [|r r' rs rs' Hr H IH]; [reflexivity|].
  destruct r; destruct r'; cbn in *; try contradiction; [exact IH|]. subst. rewrite IH. reflexivity.
Qed.
Lemma rel_successes rs rs' : Forall2 (res_rel rets_rel) rs rs' -> Forall2 rets_rel (successes rs) (successes rs').
Proof.
  intros H. induction H as [|r r' rs rs' Hr H IH]; [constructor|].
  destruct r; destruct r'; cbn [successes res_rel] in *; try contradiction; [constructor; assumption|exact IH].
Qed.
Lemma rel_concat l l' : Forall2 rets_rel l l' ->
  rets_rel (List.concat (map fst l), List.concat (map snd l)) (List.concat (map fst l'), List.concat (map snd l')).
Proof.
  intros H. induction H as [|a a' l l' [H1 H2] H [IH1 IH2]]; [split; constructor|]. cbn [map List.concat].
  split; cbn [fst snd]; apply Forall2_app; assumption.
Qed.

Lemma rel_parallel_rows full rs :
  rel (rs_ full) rx (parallel_rows h rs) (parallel_rows h' rs) (both rets_rel (rs_ full)).
Proof.
  intros s s' [(Hx1 & Hx2 & Hx3) Ho]. unfold parallel_rows.
  pose proof (proj1 (proj2 Hh)) as Hp. rewrite <- Hp, <- Hx1.
  destruct (rel_run_chunks full (array_split (cpu_count (h_pool h)) rs) (s_obj s) (s_obj s') (s_pm s) Ho 0
              (fun _ => s_w s) (fun _ => s_w s') (fun _ => Hx2)) as [H1 H2].
  destruct (run_chunks h 0 _ _ _ _) as [r1 t1]; destruct (run_chunks h' 0 _ _ _ _) as [r2 t2]. cbn [fst snd] in H1, H2.
  rewrite (rel_failures _ _ H1).
  assert (HX : rx (mkSt (s_obj s) (s_pm s) (s_w s) (s_tr s ++ t1)) (mkSt (s_obj s') (s_pm s) (s_w s') (s_tr s' ++ t2))).
  { split; [reflexivity|]. split; [exact Hx2|]. apply Forall2_app; assumption. }
  destruct (failures r2).
  - split; [apply rel_concat, rel_successes, H1|]. split; [exact HX|exact Ho].
  - split; [reflexivity|exact HX].
Qed.

Lemma rel_check_generation full :
  rel (rs_ full) rx (check_generation c h) (check_generation c h') (same (rse full)).
Proof.
  unfold check_generation. eapply rel_bind_both; [apply get_rs|]. intros o o' Ho.
  assert (Hg : o_gen o = o_gen o') by apply Ho. rewrite <- Hg.
  eapply rel_bind_both with (V := rets_rel) (P' := rs_ full);
    [destruct (c_parallelize c); [apply rel_parallel_rows|apply rel_apply_rows]|].
  intros rv rv' [H1 H2]. eapply rel_bind_same.
  - apply (put_anye (rs_ full) full); [apply rs_rx|]. split; [split; [reflexivity|apply Ho]|exact H2].
  - intros _. apply log_rse. split; [reflexivity|split; assumption].
Qed.

Lemma rel_truncation :
  rel (rse true) rx (truncation c h) (truncation c h') (same (rse true)).
Proof.
  unfold truncation. destruct Hh as (Hs & _). rewrite <- Hs.
  eapply rel_bind_both; [apply get_rse|]. intros o o' [[Hg Ho] He]. destruct (Ho eq_refl) as (H1 & H2 & H3 & H4).
  rewrite <- Hg, <- H1. cbv zeta.
  eapply rel_bind_same; [apply rel_lift; apply rse_rx|]. intros g.
  assert (Hall : Forall2 R (o_evals o ++ o_evel o) (o_evals o' ++ o_evel o')) by (apply Forall2_app; assumption).
  rewrite <- (order_sort (h_argsort h) _ _ Hsort Hall).
  eapply rel_bind_same; [apply rel_lift; apply rse_rx|]. intros e1.
  eapply rel_bind_same; [apply rel_lift; apply rse_rx|]. intros g1.
  eapply rel_bind_both; [apply rel_both_lift; [apply rse_rx|apply gather_rel, Hall]|]. intros ve ve' Hve.
  eapply rel_bind_both; [apply rel_both_lift; [apply rse_rx|apply gather_rel, Hall]|]. intros vg vg' Hvg.
  eapply rel_bind_same.
  - apply (put_anye (rse true) true); [apply rse_rx|]. split; [|exact Hvg]. split; [reflexivity|]. intros _. cbn. auto.
  - intros _. apply log_rse. split; [clear - Hvg; generalize (a_rows g1)|clear - Hve; generalize (a_rows e1)]; intros rows.
    + revert rows. induction Hvg as [|x x' l l' Hx H IH]; intros rows; destruct rows as [|r rows]; cbn [combine]; constructor;
        [split; [reflexivity|exact Hx]|apply IH].
    + revert rows. induction Hve as [|x x' l l' Hx H IH]; intros rows; destruct rows as [|r rows]; cbn [combine]; constructor;
        [split; [reflexivity|exact Hx]|apply IH].
Qed.

Lemma rel_set_gen (P : st -> st -> Prop) full g :
  (forall s s', P s s' -> rs_ full s s') -> rel P rx (set_gen g) (set_gen g) (same (rs_ full)).
Proof.
  intros HP. unfold set_gen. eapply rel_bind_both with (V := ro full) (P' := rs_ full).
  - intros s s' H. cbn. pose proof (HP _ _ H) as [Hx Ho]. split; [exact Ho|split; assumption].
  - intros o o' Ho. apply put_any; [apply rs_rx|]. split; [reflexivity|]. intros E. apply Ho, E.
Qed.

Lemma rel_update_pm : rel (rs_ true) rx (update_pm h) (update_pm h') (same (rs_ true)).
Proof.
  unfold update_pm. destruct Hh as (_ & _ & _ & _ & Hd & Hl & _). rewrite <- Hd, <- Hl.
  eapply rel_bind_both; [apply get_rs|]. intros o o' [Hg Ho]. destruct (Ho eq_refl) as (H1 & _). rewrite <- Hg, <- H1.
  eapply rel_bind_same with (R' := rs_ true).
  { intros s s' [(Hx1 & Hx2 & Hx3) Hob]. rewrite <- Hx1. destruct (h_data h (o_gen o) (o_elite o) (s_pm s)) as [[a|e] p].
    - split; [reflexivity|]. split; [split; [reflexivity|split; assumption]|exact Hob].
    - split; [reflexivity|]. split; [reflexivity|split; assumption]. }
  intros d. eapply rel_bind_same; [apply log_rs; reflexivity|]. intros _ s s' [(Hx1 & Hx2 & Hx3) Hob].
  rewrite <- Hx1, <- Hx2. destruct (h_learn h d (s_pm s) (s_w s)) as [[a|e] [p w]].
  - split; [destruct a; reflexivity|]. split; [split; [reflexivity|split; [reflexivity|assumption]]|exact Hob].
  - split; [reflexivity|]. split; [reflexivity|split; [reflexivity|assumption]].
Qed.

Lemma rel_new_generation : rel (rs_ true) rx (new_generation h) (new_generation h') (same (rs_ true)).
Proof.
  unfold new_generation. destruct Hh as (_ & _ & _ & _ & _ & _ & Hs). rewrite <- Hs.
  eapply rel_bind_same with (R' := rs_ true); [|intros g; apply rel_set_gen; auto].
  intros s s' [(Hx1 & Hx2 & Hx3) Hob]. rewrite <- Hx1, <- Hx2. destruct (h_sample h (s_pm s) (s_w s)) as [[a|e] w].
  - split; [reflexivity|]. split; [split; [first [assumption|reflexivity]|split; [reflexivity|assumption]]|exact Hob].
  - split; [reflexivity|]. split; [first [assumption|reflexivity]|split; [reflexivity|assumption]].
Qed.

Lemma rel_draw_noise : rel (rse true) rx (draw_noise c h) (draw_noise c h') (same (rse true)).
Proof.
  unfold draw_noise. destruct Hh as (_ & _ & Hn & _). rewrite <- Hn.
  destruct (py_eq_int (c_w_noise c) 0); [apply rel_ret|]. destruct (py_eq_int (c_w_noise c) (-1)); [apply rel_ret|].
  destruct (_ || _ || _)%bool; [apply rel_raise; apply rse_rx|].
  eapply rel_bind_same with (R' := rse true); [|intros d; apply rel_ret].
  intros s s' [(Hx1 & Hx2 & Hx3) Hob]. rewrite <- Hx2. destruct (h_normal h _ (s_w s)) as [d w].
  split; [reflexivity|]. split; [split; [first [assumption|reflexivity]|split; [reflexivity|assumption]]|exact Hob].
Qed.

Definition step_rel (a a' : f64 * bool) : Prop := R (fst a) (fst a') /\ snd a = snd a'.
Lemma rel_iteration wn :
  rel (rse true) rx (iteration c h ftol wn) (iteration c h' ftol wn) (both step_rel (rse true)).
Proof.
  unfold iteration.
  eapply rel_bind_same; [apply rel_truncation|]. intros _.
  eapply rel_bind_both; [apply get_rse|]. intros o1 o1' [[Hg1 _] _]. rewrite <- Hg1.
  eapply rel_bind_same; [apply rel_lift; apply rse_rx|]. intros g1.
  eapply rel_bind_same; [apply rel_set_gen; apply rse_rs|]. intros _.
  eapply rel_bind_same; [apply rel_update_pm|]. intros _.
  eapply rel_bind_same; [apply rel_new_generation|]. intros _.
  eapply rel_bind_same; [apply rel_check_generation|]. intros _.
  eapply rel_bind_both; [apply get_rse|]. intros o o' [[Hg Ho] He]. destruct (Ho eq_refl) as (H1 & H2 & H3 & H4).
  eapply rel_bind_both; [apply rel_both_lift; [apply rse_rx|apply order_min, He]|]. intros b b' Hb.
  rewrite (order_where b b' _ _ Hb He), <- Hg.
  eapply rel_bind_same; [apply rel_lift; apply rse_rx|]. intros i.
  eapply rel_bind_same; [apply rel_lift; apply rse_rx|]. intros r.
  rewrite (Hacc b b' _ _ Hb H3). destruct (accept ftol b' (o_best_cost o')).
  - eapply rel_bind_same.
    + apply (put_anye (rse true) true); [apply rse_rx|]. split; [|exact He]. split; [reflexivity|]. intros _. cbn. auto.
    + intros _. apply rel_both_ret. split; [exact Hb|reflexivity].
  - apply rel_both_ret. split; [exact Hb|reflexivity].
Qed.

Lemma rel_print out (p p' : obj -> printed) :
  (forall o o', roe true o o' -> printed_rel (p o) (p' o')) ->
  rel (rse true) rx (print_if out p) (print_if out p') (same (rse true)).
Proof.
  intros H. unfold print_if. destruct out; [|apply rel_ret].
  eapply rel_bind_both; [apply get_rse|]. intros o o' Ho. apply log_rse. apply H, Ho.
Qed.
Lemma printed_iter it o o' : roe true o o' -> printed_rel (PrIter it (o_best_cost o)) (PrIter it (o_best_cost o')).
Proof. intros [[_ H] _]. destruct (H eq_refl) as (_ & _ & H3 & _). split; [reflexivity|exact H3]. Qed.

Lemma rel_loop out wn n : forall it hist hist' nb, Forall2 R hist hist' ->
  rel (rse true) rx (loop c h ftol out wn n it hist nb) (loop c h' ftol out wn n it hist' nb)
      (both (Forall2 R) (rse true)).
Proof.
  induction n as [|n IH]; intros it hist hist' nb Hh0; cbn [loop]; [apply rel_both_ret, Hh0|].
  eapply rel_bind_both; [apply rel_iteration|]. intros [b acc] [b' acc'] [Hb E]. cbn [fst snd] in *. subst acc'. cbv zeta.
  assert (Hh1 : Forall2 R (hist ++ [b]) (hist' ++ [b'])) by (apply Forall2_app; [exact Hh0|constructor; [exact Hb|constructor]]).
  destruct acc.
  - eapply rel_bind_same; [apply rel_print; intros; apply printed_iter; assumption|]. intros _. apply IH, Hh1.
  - destruct (Z.eqb _ _); [apply rel_both_ret, Hh1|].
    eapply rel_bind_same; [apply rel_print; intros; apply printed_iter; assumption|]. intros _. apply IH, Hh1.
Qed.

(** What two optimisers with the same elite, best solution, model and world have in common before a run: nothing about costs is needed. *)
Lemma rel_first_generation :
  rel rx rx (first_generation c h) (first_generation c h') (both R (rse true)).
Proof.
  unfold first_generation.
  eapply rel_bind_same with (R' := rx).
  { unfold initialize_generation. destruct Hh as (_ & _ & _ & Hi & _). rewrite <- Hi.
    destruct (c_init_data c); [apply rel_ret|]. intros s s' (Hx1 & Hx2 & Hx3). unfold with_world. rewrite <- Hx2.
    destruct (h_init h (s_w s)) as [[a|e] w]; (split; [reflexivity|]); (split; [assumption|split; [reflexivity|assumption]]). }
  intros g. eapply rel_bind_same with (R' := rs_ false).
  { intros s s' Hx. cbn. split; [reflexivity|]. split; [exact Hx|]. split; [reflexivity|discriminate]. }
  intros _. eapply rel_bind_same; [apply rel_check_generation|]. intros _.
  eapply rel_bind_both; [apply get_rse|]. intros o o' [[Hg _] He]. rewrite <- Hg.
  eapply rel_bind_same; [apply rel_lift; apply rse_rx|]. intros r0.
  eapply rel_bind_both with (V := R); [apply rel_both_lift; [apply rse_rx|]; destruct He as [|x x' l l' Hx He]; [reflexivity|exact Hx]|]. intros e0 e0' H0.
  eapply rel_bind_same with (R' := fun s s' : st => rse false s s' /\
     o_elite (s_obj s) = o_elite (s_obj s') /\ Forall2 R (o_evel (s_obj s)) (o_evel (s_obj s'))).
  { intros s s' Hs. cbn. split; [reflexivity|]. split; [|split; [reflexivity|constructor; [exact H0|constructor]]].
    split; [apply (rse_rx _ _ _ Hs)|]. split; [split; [reflexivity|discriminate]|exact He]. }
  intros _. eapply rel_bind_both with (V := R); [apply rel_both_lift; [intros s s' [Hs _]; apply (rse_rx _ _ _ Hs)|apply order_min, He]|].
  intros b b' Hb. rewrite (order_where b b' _ _ Hb He).
  eapply rel_bind_both with (V := fun o o' => roe false o o' /\ o_elite o = o_elite o' /\ Forall2 R (o_evel o) (o_evel o')) (P' := rse false).
  { intros s s' [Hs1 Hs2]. cbn. split; [|exact Hs1]. split; [apply Hs1|exact Hs2]. }
  intros o1 o1' [[[Hg1 _] He1] [Hel Hev]].
  eapply rel_bind_same with (R' := rx).
  { intros s s' Hs. cbn. split; [reflexivity|]. exact (rse_rx _ _ _ Hs). }
  intros _. eapply rel_bind_same; [apply rel_lift; auto|]. intros i.
  eapply rel_bind_same.
  - apply (put_anye rx true); [auto|]. split; [|exact He1]. split; [exact Hg1|]. intros _. cbn. auto.
  - intros _. apply rel_both_ret. exact Hb.
Qed.

Definition result_rel (r r' : result) : Prop :=
  r_best_ind r = r_best_ind r' /\ R (r_best_cost r) (r_best_cost r') /\ r_nfev r = r_nfev r' /\
  Forall2 R (r_history r) (r_history r').

Lemma rel_minimize out : rel rx rx (minimize c h ftol out) (minimize c h' ftol out) (both result_rel rx).
Proof.
  unfold minimize.
  eapply rel_bind_both; [apply rel_first_generation|]. intros b0 b0' Hb0.
  eapply rel_bind_same; [apply rel_draw_noise|]. intros wn.
  eapply rel_bind_same; [apply rel_print; intros; apply printed_iter; assumption|]. intros _.
  eapply rel_bind_both; [apply rel_loop; constructor; [exact Hb0|constructor]|]. intros hist hist' Hhist. cbv zeta.
  rewrite <- (Forall2_length _ _ _ Hhist).
  eapply rel_bind_same.
  { apply rel_print. intros o o' [[_ H] _]. destruct (H eq_refl) as (_ & _ & H3 & H4). split; [reflexivity|]. split; assumption. }
  intros _. eapply rel_bind_both; [apply get_rse|]. intros o o' [[_ H] _]. destruct (H eq_refl) as (_ & _ & H3 & H4).
  intros s s' Hs. cbn. split; [|apply (rse_rx _ _ _ Hs)]. split; [exact H4|]. split; [exact H3|]. split; [reflexivity|exact Hhist].
Qed.

End Order.

(* ---------------- observers ---------------- *)
Section Observe.
Variables (R : f64 -> f64 -> Prop) (k k' : bool).
Lemma rel_gens tr tr' : Forall2 (ev_rel R k k') tr tr' -> map fst (gens tr) = map fst (gens tr').
Proof.
  intros H. unfold gens. induction H as [|e e' tr tr' He H IH]; [reflexivity|].
  destruct e; destruct e'; cbn [ev_rel] in He; try contradiction; cbn [flat_map map app]; try exact IH.
  destruct He as [-> _]. cbn [fst]. rewrite IH. reflexivity.
Qed.
Lemma rel_learns tr tr' : Forall2 (ev_rel R k k') tr tr' -> learns tr = learns tr'.
Proof.
  intros H. unfold learns. induction H as [|e e' tr tr' He H IH]; [reflexivity|].
  destruct e; destruct e'; cbn [ev_rel] in He; try contradiction; cbn [flat_map map app]; try exact IH.
  subst. rewrite IH. reflexivity.
Qed.
Lemma rel_calls tr tr' : Forall2 (ev_rel R k k') tr tr' ->
  Forall2 (fun a a' => fst a = fst a' /\ ret_rel R k k' (snd a) (snd a')) (calls tr) (calls tr').
Proof.
  intros H. unfold calls. induction H as [|e e' tr tr' He H IH]; [constructor|].
  destruct e; destruct e'; cbn [ev_rel] in He; try contradiction; cbn [flat_map map app]; try exact IH.
  constructor; [exact He|exact IH].
Qed.
End Observe.

(** The two outcomes: the same exception, or results that agree apart from the costs. *)
Definition same_search {S W} (m m' : res result * st S W) : Prop :=
  match fst m, fst m' with
  | Ok r, Ok r' => r_best_ind r = r_best_ind r' /\ r_nfev r = r_nfev r' /\
                   List.length (r_history r) = List.length (r_history r')
  | Raise e, Raise e' => e = e'
  | _, _ => False
  end /\
  map fst (gens (s_tr (snd m))) = map fst (gens (s_tr (snd m'))) /\
  map fst (calls (s_tr (snd m))) = map fst (calls (s_tr (snd m'))) /\
  learns (s_tr (snd m)) = learns (s_tr (snd m')) /\
  s_pm (snd m) = s_pm (snd m') /\ s_w (snd m) = s_w (snd m').

Lemma ranked_run {S W} R k k' (c : cfg) (h h' : hooks S W) ftol out s :
  same_order R -> (forall x x' y y', R x x' -> R y y' -> accept ftol x y = accept ftol x' y') ->
  same_but_cost h h' -> costs_rel R k k' h h' -> sorts_by_comparison (h_argsort h) -> s_tr s = [] ->
  same_search (minimize c h ftol out s) (minimize c h' ftol out s) /\
  (forall r r', fst (minimize c h ftol out s) = Ok r -> fst (minimize c h' ftol out s) = Ok r' ->
     R (r_best_cost r) (r_best_cost r') /\ Forall2 R (r_history r) (r_history r')) /\
  Forall2 (ev_rel R k k') (s_tr (snd (minimize c h ftol out s))) (s_tr (snd (minimize c h' ftol out s))).
Proof.
  intros HR Ha Hh Hc Hs Ht.
  pose proof (rel_minimize R HR k k' c h h' ftol Ha Hh Hc Hs out s s) as H.
  assert (HX : rx R k k' s s) by (split; [reflexivity|split; [reflexivity|rewrite Ht; constructor]]).
  specialize (H HX). clear HX.
  destruct (minimize c h ftol out s) as [res1 t]; destruct (minimize c h' ftol out s) as [res2 t'].
  unfold same_search. cbn [fst snd].
  assert (Hx : rx R k k' t t') by (destruct res1; destruct res2; try contradiction; apply H).
  destruct Hx as (Hp & Hw & Htr). split; [|split].
  - split.
    + destruct res1 as [r|e]; destruct res2 as [r'|e']; try contradiction; [|apply H].
      destruct H as [(H1 & H2 & H3 & H4) _]. split; [exact H1|]. split; [exact H3|]. apply (Forall2_length _ _ _ H4).
    + split; [apply (rel_gens _ _ _ _ _ Htr)|]. split.
      * pose proof (rel_calls _ _ _ _ _ Htr) as HC. induction HC as [|a a' l l' [Ea _] HC IH]; [reflexivity|]. cbn [map]. rewrite Ea, IH. reflexivity.
      * split; [apply (rel_learns _ _ _ _ _ Htr)|]. split; assumption.
  - intros r r' -> ->. destruct H as [(H1 & H2 & H3 & H4) _]. split; assumption.
  - exact Htr.
Qed.

(** Two deterministic cost functions that rank all solutions alike. *)
Definition ranks_alike (f f' : row -> f64) : Prop :=
  (forall r1 r2, flt (f r1) (f r2) = flt (f' r1) (f' r2)) /\ (forall r, isnan (f r) = isnan (f' r)).
Lemma ranks_alike_run {S W} (c : cfg) (h h' : hooks S W) f f' ftol out s :
  feq ftol (Z2f 0) = true -> sorts_by_comparison (h_argsort h) -> same_but_cost h h' -> s_tr s = [] ->
  (forall r w, h_cost h r w = (Ok (NF (f r)), w)) -> (forall r w, h_cost h' r w = (Ok (NF (f' r)), w)) ->
  ranks_alike f f' ->
  same_search (minimize c h ftol out s) (minimize c h' ftol out s) /\
  (forall r r', fst (minimize c h ftol out s) = Ok r -> fst (minimize c h' ftol out s) = Ok r' ->
     exists x xs, r_best_cost r = f x /\ r_best_cost r' = f' x /\
                  r_history r = map f xs /\ r_history r' = map f' xs).
Proof.
  intros H0 Hs Hh Ht Hf Hf' [Hr Hn].
  destruct (ranked_run (fun a b => exists x, a = f x /\ b = f' x) true true c h h' ftol out s) as [H1 [H2 _]]; try assumption.
  - intros x x' y y' [a [-> ->]] [b [-> ->]]. split; [apply Hr|apply Hn].
  - intros x x' y y' [a [-> ->]] [b [-> ->]]. rewrite !accept_zero by exact H0. apply Hr.
  - intros r w. rewrite Hf, Hf'. cbn [fst snd res_rel]. split; [|reflexivity]. split; [reflexivity|]. split; [reflexivity|].
    exists r. split; reflexivity.
  - split; [exact H1|]. intros r r' E E'. destruct (H2 r r' E E') as [[x [Hx Hx']] HL].
    exists x. assert (HM : exists xs, r_history r = map f xs /\ r_history r' = map f' xs).
    { induction HL as [|a b l l' [y [-> ->]] HL [ys [-> ->]]]; [exists []; split; reflexivity|].
      exists (y :: ys). split; reflexivity. }
    destruct HM as [xs [M1 M2]]. exists xs. auto.
Qed.

(** A cost function, which may be stateful, random or raise, followed by a transformation
    that preserves the order of the costs it can return. *)
Definition order_preserving (D : f64 -> Prop) (phi : f64 -> f64) : Prop :=
  forall x y, D x -> D y -> flt (phi x) (phi y) = flt x y /\ isnan (phi x) = isnan x.
Definition returns_in {S W} (D : f64 -> Prop) (h : hooks S W) : Prop :=
  forall r w, match fst (h_cost h r w) with Ok (NF x) => D x | Ok (NI _) => False | Raise _ => True end.
Definition after (phi : f64 -> f64) {W} (m : res num * W) : res num * W :=
  (match fst m with Ok (NF x) => Ok (NF (phi x)) | other => other end, snd m).
Lemma transformed_run {S W} (c : cfg) (h h' : hooks S W) D phi ftol out s :
  feq ftol (Z2f 0) = true -> sorts_by_comparison (h_argsort h) -> same_but_cost h h' -> s_tr s = [] ->
  order_preserving D phi -> returns_in D h -> (forall r w, h_cost h' r w = after phi (h_cost h r w)) ->
  same_search (minimize c h ftol out s) (minimize c h' ftol out s) /\
  (forall r r', fst (minimize c h ftol out s) = Ok r -> fst (minimize c h' ftol out s) = Ok r' ->
     r_best_cost r' = phi (r_best_cost r) /\ r_history r' = map phi (r_history r)).
Proof.
  intros H0 Hs Hh Ht HP HD Hc'.
  destruct (ranked_run (fun a b => D a /\ b = phi a) true true c h h' ftol out s) as [H1 [H2 _]]; try assumption.
  - intros x x' y y' [Dx ->] [Dy ->]. destruct (HP x y Dx Dy) as [E1 E2]. split; symmetry; assumption.
  - intros x x' y y' [Dx ->] [Dy ->]. rewrite !accept_zero by exact H0. symmetry. apply (HP x y Dx Dy).
  - intros r w. rewrite Hc'. pose proof (HD r w) as HDr. unfold after.
    destruct (h_cost h r w) as [[[z|x]|e] w']; cbn [fst snd res_rel] in *; [contradiction| |split; reflexivity].
    split; [|reflexivity]. split; [reflexivity|]. split; [reflexivity|]. split; [exact HDr|reflexivity].
  - split; [exact H1|]. intros r r' E E'. destruct (H2 r r' E E') as [[_ Hb] HL]. split; [exact Hb|].
    induction HL as [|a b l l' [_ ->] HL IH]; [reflexivity|]. cbn [map]. rewrite IH. reflexivity.
Qed.
