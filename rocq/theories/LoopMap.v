(** Two runs whose individuals correspond to each other under a change of representation. *)
From Coq Require Import String List ZArith Bool Lia.
From Verif Require Import PyBase B64 B64More NdArray Eda EdaInv Spec TopK LoopObs LoopThms LoopRel OrderRel.
Import ListNotations.
Open Scope nat_scope.

Section Map.
(** How a row of the one run corresponds to a row of the other. *)
Variable Rr : row -> row -> Prop.
Hypothesis Rcast : forall d r r', Rr r r' -> Rr (map (cast_cell d) r) (map (cast_cell d) r').

(** The widths that occur. *)
Variable width : nat -> Prop.
Definition arr_rel (a a' : arr) : Prop :=
  a_dt a = a_dt a' /\ (a_nc a = a_nc a' /\ width (a_nc a)) /\ Forall2 Rr (a_rows a) (a_rows a').
Definition bind_rel (b b' : bind) : Prop :=
  match b, b' with BIdx i, BIdx i' => i = i' | BRow r, BRow r' => Rr r r' | _, _ => False end.
Definition scored_rows (a a' : row * f64) : Prop := Rr (fst a) (fst a') /\ snd a = snd a'.
Definition line_rel (p p' : printed) : Prop :=
  match p, p' with
  | PrIter i b, PrIter i' b' => i = i' /\ b = b'
  | PrFinal n b x, PrFinal n' b' x' => n = n' /\ b = b' /\ bind_rel x x'
  | _, _ => False
  end.
(** The same costs, corresponding individuals. *)
Definition event_rel (e e' : ev) : Prop :=
  match e, e' with
  | EvCall r v, EvCall r' v' => Rr r r' /\ v = v'
  | EvGen g vs xs, EvGen g' vs' xs' => arr_rel g g' /\ vs = vs' /\ xs = xs'
  | EvSelect a b, EvSelect a' b' => Forall2 scored_rows a a' /\ Forall2 scored_rows b b'
  | EvLearn d, EvLearn d' => arr_rel d d'
  | EvPrint p, EvPrint p' => line_rel p p'
  | _, _ => False
  end.

Lemma rows_as_rel d a a' : arr_rel a a' -> Forall2 Rr (rows_as d a) (rows_as d a').
Proof.
  intros (H1 & H2 & H3). unfold rows_as. rewrite <- H1. destruct (dtype_eqb (a_dt a) d); [exact H3|].
  clear - H3 Rcast. induction H3 as [|r r' l l' Hr H IH]; cbn [map]; constructor; [apply Rcast, Hr|exact IH].
Qed.
Lemma concat_rel a a' b b' : arr_rel a a' -> arr_rel b b' -> res_rel arr_rel (np_concatenate a b) (np_concatenate a' b').
Proof.
  intros Ha Hb. pose proof Ha as (H1 & (H2 & H2') & H3). pose proof Hb as (K1 & (K2 & _) & K3). unfold np_concatenate. rewrite <- H2, <- K2, <- H1, <- K1.
  destruct (Nat.eqb (a_nc a) (a_nc b)); [|reflexivity]. cbn [res_rel]. split; [reflexivity|]. split; [split; [reflexivity|exact H2']|].
  apply Forall2_app; apply rows_as_rel; assumption.
Qed.
Lemma take_rel idx a a' : arr_rel a a' -> res_rel arr_rel (take_rows idx a) (take_rows idx a').
Proof.
  intros (H1 & H2 & H3). unfold take_rows. pose proof (gather_rel Rr idx _ _ H3) as H.
  destruct (gather idx (a_rows a)) as [g|e], (gather idx (a_rows a')) as [g'|e']; cbn in H |- *; try contradiction; [|exact H].
  split; [exact H1|]. split; [exact H2|exact H].
Qed.
Lemma combine_rel l l' (v : list f64) : Forall2 Rr l l' -> Forall2 scored_rows (combine l v) (combine l' v).
Proof.
  intros H. revert v. induction H as [|r r' l l' Hr H IH]; intros [|x v]; cbn [combine]; constructor; [split; [exact Hr|reflexivity]|apply IH].
Qed.

Context {S W : Type}.
Local Notation st := (st S W).
Local Notation M := (M S W).
Variable Rp : S -> S -> Prop.
Variable Rn : noise -> noise -> Prop.

Definition mx (s s' : st) : Prop := Rp (s_pm s) (s_pm s') /\ s_w s = s_w s' /\ Forall2 event_rel (s_tr s) (s_tr s').
Definition mo (full : bool) (o o' : obj) : Prop :=
  arr_rel (o_gen o) (o_gen o') /\
  (full = true -> arr_rel (o_elite o) (o_elite o') /\ o_evel o = o_evel o' /\
                  o_best_cost o = o_best_cost o' /\ bind_rel (o_best_ind o) (o_best_ind o')).
Definition moe full (o o' : obj) : Prop := mo full o o' /\ o_evals o = o_evals o'.
Definition ms (full : bool) (s s' : st) : Prop := mx s s' /\ mo full (s_obj s) (s_obj s').
Definition mse full (s s' : st) : Prop := mx s s' /\ moe full (s_obj s) (s_obj s').

Lemma ms_mx full s s' : ms full s s' -> mx s s'. Proof. intros [H _]. exact H. Qed.
Lemma mse_mx full s s' : mse full s s' -> mx s s'. Proof. intros [H _]. exact H. Qed.
Lemma mse_ms full s s' : mse full s s' -> ms full s s'. Proof. intros [H [H1 _]]. split; assumption. Qed.
Hint Resolve ms_mx mse_mx mse_ms : core.

Lemma get_ms full : rel (ms full) mx get_obj get_obj (both (mo full) (ms full)).
Proof. intros s s' H. cbn. split; [apply H|exact H]. Qed.
Lemma get_mse full : rel (mse full) mx get_obj get_obj (both (moe full) (mse full)).
Proof. intros s s' H. cbn. split; [apply H|exact H]. Qed.
Lemma put_m (P : st -> st -> Prop) full o o' : (forall s s', P s s' -> mx s s') -> mo full o o' ->
  rel P mx (put_obj o) (put_obj o') (same (ms full)).
Proof. intros HP H s s' Hs. cbn. split; [reflexivity|]. split; [apply (HP _ _ Hs)|exact H]. Qed.
Lemma put_me (P : st -> st -> Prop) full o o' : (forall s s', P s s' -> mx s s') -> moe full o o' ->
  rel P mx (put_obj o) (put_obj o') (same (mse full)).
Proof. intros HP H s s' Hs. cbn. split; [reflexivity|]. split; [apply (HP _ _ Hs)|exact H]. Qed.
Lemma mx_log s s' e e' : mx s s' -> event_rel e e' ->
  mx (mkSt (s_obj s) (s_pm s) (s_w s) (s_tr s ++ [e])) (mkSt (s_obj s') (s_pm s') (s_w s') (s_tr s' ++ [e'])).
Proof.
  intros (H1 & H2 & H3) He. split; [exact H1|]. split; [exact H2|]. cbn [s_tr]. apply Forall2_app; [exact H3|].
  constructor; [exact He|constructor].
Qed.
Lemma log_ms full e e' : event_rel e e' -> rel (ms full) mx (log e) (log e') (same (ms full)).
Proof. intros He s s' [Hx Ho]. cbn. split; [reflexivity|]. split; [apply mx_log; assumption|exact Ho]. Qed.
Lemma log_mse full e e' : event_rel e e' -> rel (mse full) mx (log e) (log e') (same (mse full)).
Proof. intros He s s' [Hx Ho]. cbn. split; [reflexivity|]. split; [apply mx_log; assumption|exact Ho]. Qed.

(* ---------------- the two programs ---------------- *)
Variables (c c' : cfg) (h h' : hooks S W) (ftol : f64).

(** The settings agree, except for the given first generation. *)
Definition same_but_data : Prop :=
  c_size_gen c = c_size_gen c' /\ c_max_iter c = c_max_iter c' /\ c_dead_iter c = c_dead_iter c' /\ c_nvars c = c_nvars c' /\
  c_disp c = c_disp c' /\ c_parallelize c = c_parallelize c' /\ c_w_noise c = c_w_noise c' /\
  c_trunc_len c = c_trunc_len c' /\ c_elite_len c = c_elite_len c' /\
  match c_init_data c, c_init_data c' with Some d, Some d' => arr_rel d d' | None, None => True | _, _ => False end.

(** What is plugged in corresponds. *)
Record hooks_map : Prop := mkHM {
  hm_sort : h_argsort h = h_argsort h';
  hm_pool : h_pool h = h_pool h';
  hm_settings : h_settings h = h_settings h';
  hm_cost : forall r r' w, Rr r r' -> h_cost h r w = h_cost h' r' w;
  hm_init : forall w, res_rel arr_rel (fst (h_init h w)) (fst (h_init h' w)) /\ snd (h_init h w) = snd (h_init h' w);
  hm_data : forall g g' e e' p p', arr_rel g g' -> arr_rel e e' -> Rp p p' ->
    res_rel arr_rel (fst (h_data h g e p)) (fst (h_data h' g' e' p')) /\ Rp (snd (h_data h g e p)) (snd (h_data h' g' e' p'));
  hm_learn : forall d d' p p' w, arr_rel d d' -> Rp p p' ->
    fst (h_learn h d p w) = fst (h_learn h' d' p' w) /\ Rp (fst (snd (h_learn h d p w))) (fst (snd (h_learn h' d' p' w))) /\
    snd (snd (h_learn h d p w)) = snd (snd (h_learn h' d' p' w));
  hm_sample : forall p p' w, Rp p p' ->
    res_rel arr_rel (fst (h_sample h p w)) (fst (h_sample h' p' w)) /\ snd (h_sample h p w) = snd (h_sample h' p' w);
  hm_normal : py_eq_int (c_w_noise c) 0 = false -> py_eq_int (c_w_noise c) (-1) = false ->
    forall x w nr nc, snd (h_normal h x w) = snd (h_normal h' x w) /\
    (nc = Z.to_nat (c_nvars c) -> Rn (NoiseMat nr nc (fst (h_normal h x w))) (NoiseMat nr nc (fst (h_normal h' x w))));
  hm_zero : py_eq_int (c_w_noise c) 0 = true -> Rn NoiseZero NoiseZero;
  hm_str : py_eq_int (c_w_noise c) (-1) = true -> Rn NoiseStr NoiseStr;
  hm_iadd : forall a a' n n', arr_rel a a' -> Rn n n' -> res_rel arr_rel (iadd a n) (iadd a' n')
}.
Hypothesis Hc : same_but_data.
Hypothesis Hm : hooks_map.

Lemma map_call_rows full rs rs' : Forall2 Rr rs rs' ->
  rel (ms full) mx (call_rows h rs) (call_rows h' rs') (same (ms full)).
Proof.
  induction 1 as [|r r' rs rs' Hr H IH]; cbn [call_rows]; [apply rel_ret|].
  eapply rel_bind_same with (R' := ms full).
  - unfold call1. eapply rel_bind_same with (R' := ms full).
    + intros s s' [(Hx1 & Hx2 & Hx3) Ho]. unfold with_world. rewrite <- Hx2, <- (hm_cost Hm r r' (s_w s) Hr).
      destruct (h_cost h r (s_w s)) as [[v|e] w].
      * split; [reflexivity|]. split; [split; [exact Hx1|split; [reflexivity|exact Hx3]]|exact Ho].
      * split; [reflexivity|]. split; [exact Hx1|split; [reflexivity|exact Hx3]].
    + intros v. eapply rel_bind_same; [apply log_ms; split; [exact Hr|reflexivity]|]. intros _. apply rel_ret.
  - intros v. eapply rel_bind_same; [exact IH|]. intros vs. apply rel_ret.
Qed.

Lemma map_apply_rows full rs rs' : Forall2 Rr rs rs' ->
  rel (ms full) mx (apply_rows h rs) (apply_rows h' rs') (same (ms full)).
Proof.
  intros H. pose proof (map_call_rows full rs rs' H) as HC. unfold apply_rows.
  destruct H as [|r r' rs rs' Hr H]; [apply rel_raise; apply ms_mx|].
  eapply rel_bind_same; [exact HC|]. intros vs. apply rel_ret.
Qed.

Lemma map_split_sizes sizes : forall l l', Forall2 Rr l l' -> Forall2 (Forall2 Rr) (split_sizes sizes l) (split_sizes sizes l').
Proof.
  induction sizes as [|n sizes IH]; intros l l' H; cbn [split_sizes]; constructor.
  - clear IH. revert l l' H. induction n as [|n IH]; intros l l' H; [constructor|]. destruct H; cbn [firstn]; constructor; auto.
  - apply IH. clear IH. revert l l' H. induction n as [|n IH]; intros l l' H; [exact H|]. destruct H; cbn [skipn]; [constructor|auto].
Qed.

Lemma map_run_chunks full chs chs' o o' p p' : Forall2 (Forall2 Rr) chs chs' -> mo full o o' -> Rp p p' -> forall i ws ws', (forall j, ws j = ws' j) ->
  fst (run_chunks h i chs o p ws) = fst (run_chunks h' i chs' o' p' ws') /\
  Forall2 event_rel (snd (run_chunks h i chs o p ws)) (snd (run_chunks h' i chs' o' p' ws')).
Proof.
  intros Hch Ho Hp. induction Hch as [|ch ch' chs chs' Hr Hch IH]; intros i ws ws' Hw; cbn [run_chunks]; [split; [reflexivity|constructor]|].
  rewrite <- (hm_pool Hm). unfold run_chunk.
  pose proof (map_apply_rows full ch ch' Hr (mkSt o p (ws (p_worker (h_pool h) i)) []) (mkSt o' p' (ws' (p_worker (h_pool h) i)) [])) as H.
  assert (Hs : ms full (mkSt o p (ws (p_worker (h_pool h) i)) []) (mkSt o' p' (ws' (p_worker (h_pool h) i)) [])).
  { split; [|exact Ho]. split; [exact Hp|]. split; [apply Hw|constructor]. }
  specialize (H Hs). clear Hs.
  destruct (apply_rows h ch _) as [r t]; destruct (apply_rows h' ch' _) as [r' t'].
  assert (HX : r = r' /\ mx t t').
  { destruct r; destruct r'; try contradiction; destruct H as [H1 H2]; (split; [congruence|]); [apply (ms_mx full), H2|exact H2]. }
  destruct HX as [Er (_ & Hw2 & Ht)]. subst r'.
  specialize (IH (Datatypes.S i) (fun j => if Nat.eqb j (p_worker (h_pool h) i) then s_w t else ws j)
                 (fun j => if Nat.eqb j (p_worker (h_pool h) i) then s_w t' else ws' j)).
  destruct IH as [IH1 IH2]; [intros j; rewrite Hw2, Hw; reflexivity|].
  destruct (run_chunks h _ chs o p _) as [rs1 tr1]; destruct (run_chunks h' _ chs' o' p' _) as [rs2 tr2]. cbn [fst snd] in *.
  split; [congruence|apply Forall2_app; assumption].
Qed.

Lemma map_parallel_rows full rs rs' : Forall2 Rr rs rs' ->
  rel (ms full) mx (parallel_rows h rs) (parallel_rows h' rs') (same (ms full)).
Proof.
  intros Hr s s' [(Hx1 & Hx2 & Hx3) Ho]. unfold parallel_rows. rewrite <- (hm_pool Hm).
  assert (Hsp : Forall2 (Forall2 Rr) (array_split (cpu_count (h_pool h)) rs) (array_split (cpu_count (h_pool h)) rs')).
  { unfold array_split. rewrite (Forall2_length _ _ _ Hr). apply map_split_sizes, Hr. }
  destruct (map_run_chunks full _ _ (s_obj s) (s_obj s') (s_pm s) (s_pm s') Hsp Ho Hx1 0
              (fun _ => s_w s) (fun _ => s_w s') (fun _ => Hx2)) as [H1 H2].
  destruct (run_chunks h 0 _ _ _ _) as [r1 t1]; destruct (run_chunks h' 0 _ _ _ _) as [r2 t2]. cbn [fst snd] in H1, H2. subst r2.
  assert (HX : mx (mkSt (s_obj s) (s_pm s) (s_w s) (s_tr s ++ t1)) (mkSt (s_obj s') (s_pm s') (s_w s') (s_tr s' ++ t2))).
  { split; [exact Hx1|]. split; [exact Hx2|]. apply Forall2_app; assumption. }
  destruct (failures r1); (split; [reflexivity|]); [split; [exact HX|exact Ho]|exact HX].
Qed.

Lemma map_check_generation full :
  rel (ms full) mx (check_generation c h) (check_generation c' h') (same (mse full)).
Proof.
  unfold check_generation. eapply rel_bind_both; [apply get_ms|]. intros o o' Ho.
  pose proof Ho as [Hg _]. destruct Hc as (_ & _ & _ & _ & _ & Hpar & _). rewrite <- Hpar.
  eapply rel_bind_same with (R' := ms full);
    [destruct (c_parallelize c); [apply map_parallel_rows|apply map_apply_rows]; apply Hg|].
  intros rv. eapply rel_bind_same.
  - apply (put_me (ms full) full); [apply ms_mx|]. split; [|reflexivity]. split; [exact Hg|]. exact (proj2 Ho).
  - intros _. apply log_mse. split; [exact Hg|split; reflexivity].
Qed.

Lemma map_truncation :
  rel (mse true) mx (truncation c h) (truncation c' h') (same (mse true)).
Proof.
  unfold truncation. rewrite <- (hm_sort Hm). destruct Hc as (_ & _ & _ & _ & _ & _ & _ & Ht & Hl & _). rewrite <- Ht, <- Hl.
  eapply rel_bind_both; [apply get_mse|]. intros o o' [[Hg Ho] He]. destruct (Ho eq_refl) as (H1 & H2 & H3 & H4).
  rewrite <- He, <- H2. cbv zeta.
  eapply rel_bind_both; [apply rel_both_lift; [apply mse_mx|apply concat_rel; eassumption]|]. intros g g' Hgg.
  eapply rel_bind_both; [apply rel_both_lift; [apply mse_mx|apply take_rel, Hgg]|]. intros e1 e1' He1.
  eapply rel_bind_both; [apply rel_both_lift; [apply mse_mx|apply take_rel, Hgg]|]. intros g1 g1' Hg1.
  eapply rel_bind_same; [apply rel_lift; apply mse_mx|]. intros ve.
  eapply rel_bind_same; [apply rel_lift; apply mse_mx|]. intros vg.
  eapply rel_bind_same.
  - apply (put_me (mse true) true); [apply mse_mx|]. split; [|reflexivity]. split; [exact Hg1|]. intros _. cbn. auto.
  - intros _. apply log_mse. split; apply combine_rel; [apply Hg1|apply He1].
Qed.

Lemma map_set_gen (P : st -> st -> Prop) full g g' : arr_rel g g' ->
  (forall s s', P s s' -> ms full s s') -> rel P mx (set_gen g) (set_gen g') (same (ms full)).
Proof.
  intros Hg HP. unfold set_gen. eapply rel_bind_both with (V := mo full) (P' := ms full).
  - intros s s' H. cbn. pose proof (HP _ _ H) as [Hx Ho]. split; [exact Ho|split; assumption].
  - intros o o' Ho. apply put_m; [apply ms_mx|]. split; [exact Hg|]. intros E. apply Ho, E.
Qed.

Lemma map_update_pm : rel (ms true) mx (update_pm h) (update_pm h') (same (ms true)).
Proof.
  unfold update_pm.
  eapply rel_bind_both; [apply get_ms|]. intros o o' [Hg Ho]. destruct (Ho eq_refl) as (H1 & _).
  eapply rel_bind_both with (V := arr_rel) (P' := ms true).
  { intros s s' [(Hx1 & Hx2 & Hx3) Hob]. destruct (hm_data Hm _ _ _ _ _ _ Hg H1 Hx1) as [D1 D2].
    destruct (h_data h (o_gen o) (o_elite o) (s_pm s)) as [[a|e] p], (h_data h' (o_gen o') (o_elite o') (s_pm s')) as [[a'|e'] p'];
      cbn [fst snd res_rel] in D1, D2; try contradiction.
    - split; [exact D1|]. split; [split; [exact D2|split; assumption]|exact Hob].
    - split; [exact D1|]. split; [exact D2|split; assumption]. }
  intros d d' Hd. eapply rel_bind_same; [apply log_ms; exact Hd|]. intros _ s s' [(Hx1 & Hx2 & Hx3) Hob].
  rewrite <- Hx2. destruct (hm_learn Hm d d' (s_pm s) (s_pm s') (s_w s) Hd Hx1) as (L1 & L2 & L3).
  destruct (h_learn h d (s_pm s) (s_w s)) as [[a|e] [p w]], (h_learn h' d' (s_pm s') (s_w s)) as [[a'|e'] [p' w']];
    cbn [fst snd] in L1, L2, L3; try discriminate.
  - split; [destruct a, a'; reflexivity|]. split; [split; [exact L2|split; [exact L3|assumption]]|exact Hob].
  - split; [congruence|]. split; [exact L2|split; [exact L3|assumption]].
Qed.

Lemma map_new_generation : rel (ms true) mx (new_generation h) (new_generation h') (same (ms true)).
Proof.
  unfold new_generation.
  eapply rel_bind_both with (V := arr_rel) (P' := ms true); [|intros g g' Hg; apply map_set_gen; auto].
  intros s s' [(Hx1 & Hx2 & Hx3) Hob]. rewrite <- Hx2. destruct (hm_sample Hm _ _ (s_w s) Hx1) as [D1 D2].
  destruct (h_sample h (s_pm s) (s_w s)) as [[a|e] w], (h_sample h' (s_pm s') (s_w s)) as [[a'|e'] w'];
    cbn [fst snd res_rel] in D1, D2; try contradiction.
  - split; [exact D1|]. split; [split; [exact Hx1|split; [exact D2|assumption]]|exact Hob].
  - split; [exact D1|]. split; [exact Hx1|split; [exact D2|assumption]].
Qed.

Lemma map_draw_noise : rel (mse true) mx (draw_noise c h) (draw_noise c' h') (both Rn (mse true)).
Proof.
  unfold draw_noise. destruct Hc as (_ & _ & _ & Hn & _ & _ & Hw & Ht & _). rewrite <- Hn, <- Hw, <- Ht.
  destruct (py_eq_int (c_w_noise c) 0) eqn:E0; [apply rel_both_ret, (hm_zero Hm), E0|].
  destruct (py_eq_int (c_w_noise c) (-1)) eqn:E1; [apply rel_both_ret, (hm_str Hm), E1|].
  destruct (_ || _ || _)%bool; [apply rel_raise; apply mse_mx|].
  eapply rel_bind_both with (V := fun d d' => Rn (NoiseMat (Z.to_nat (c_trunc_len c)) (Z.to_nat (c_nvars c)) d) (NoiseMat (Z.to_nat (c_trunc_len c)) (Z.to_nat (c_nvars c)) d'))
    (P' := mse true); [|intros d d' Hd; apply rel_both_ret, Hd].
  intros s s' [(Hx1 & Hx2 & Hx3) Hob]. rewrite <- Hx2.
  destruct (hm_normal Hm E0 E1 (num_to_f (c_w_noise c)) (s_w s) (Z.to_nat (c_trunc_len c)) (Z.to_nat (c_nvars c))) as [D1 D2]. specialize (D2 eq_refl).
  destruct (h_normal h _ (s_w s)) as [d w], (h_normal h' _ (s_w s)) as [d' w']. cbn [fst snd] in D1, D2.
  split; [exact D2|]. split; [split; [exact Hx1|split; [exact D1|assumption]]|exact Hob].
Qed.

Lemma nth_rel l l' i : Forall2 Rr l l' ->
  res_rel Rr (match nth_error l i with Some r => Ok r | None => Raise IndexError end)
             (match nth_error l' i with Some r => Ok r | None => Raise IndexError end).
Proof.
  intros H. revert i. induction H as [|r r' l l' Hr H IH]; intros [|i]; cbn; [reflexivity|reflexivity|exact Hr|apply IH].
Qed.

Lemma map_iteration wn wn' : Rn wn wn' ->
  rel (mse true) mx (iteration c h ftol wn) (iteration c' h' ftol wn') (same (mse true)).
Proof.
  intros Hwn. unfold iteration.
  eapply rel_bind_same; [apply map_truncation|]. intros _.
  eapply rel_bind_both; [apply get_mse|]. intros o1 o1' [[Hg1 _] _].
  eapply rel_bind_both; [apply rel_both_lift; [apply mse_mx|apply (hm_iadd Hm); eassumption]|]. intros g1 g1' Hgg.
  eapply rel_bind_same; [apply map_set_gen; [exact Hgg|apply mse_ms]|]. intros _.
  eapply rel_bind_same; [apply map_update_pm|]. intros _.
  eapply rel_bind_same; [apply map_new_generation|]. intros _.
  eapply rel_bind_same; [apply map_check_generation|]. intros _.
  eapply rel_bind_both; [apply get_mse|]. intros o o' [[Hg Ho] He]. destruct (Ho eq_refl) as (H1 & H2 & H3 & H4).
  rewrite <- He, <- H3.
  eapply rel_bind_same; [apply rel_lift; apply mse_mx|]. intros b.
  eapply rel_bind_same; [apply rel_lift; apply mse_mx|]. intros i.
  eapply rel_bind_both; [apply rel_both_lift; [apply mse_mx|apply nth_rel, Hg]|]. intros r r' Hr.
  destruct (accept ftol b (o_best_cost o)).
  - eapply rel_bind_same.
    + apply (put_me (mse true) true); [apply mse_mx|]. split; [|reflexivity]. split; [exact Hg|]. intros _. cbn. auto.
    + intros _. apply rel_ret.
  - apply rel_ret.
Qed.

Lemma map_print out (p p' : obj -> printed) :
  (forall o o', moe true o o' -> line_rel (p o) (p' o')) ->
  rel (mse true) mx (print_if out p) (print_if out p') (same (mse true)).
Proof.
  intros H. unfold print_if. destruct out; [|apply rel_ret].
  eapply rel_bind_both; [apply get_mse|]. intros o o' Ho. apply log_mse. apply H, Ho.
Qed.
Lemma line_iter it o o' : moe true o o' -> line_rel (PrIter it (o_best_cost o)) (PrIter it (o_best_cost o')).
Proof. intros [[_ H] _]. destruct (H eq_refl) as (_ & _ & H3 & _). split; [reflexivity|exact H3]. Qed.

Lemma map_loop out wn wn' n : Rn wn wn' -> forall it hist nb,
  rel (mse true) mx (loop c h ftol out wn n it hist nb) (loop c' h' ftol out wn' n it hist nb) (same (mse true)).
Proof.
  intros Hwn. induction n as [|n IH]; intros it hist nb; cbn [loop]; [apply rel_ret|].
  eapply rel_bind_same; [apply map_iteration, Hwn|]. intros [b acc]. cbn [fst snd]. cbv zeta.
  destruct Hc as (_ & _ & Hd & _). rewrite <- Hd.
  destruct acc.
  - eapply rel_bind_same; [apply map_print; intros; apply line_iter; assumption|]. intros _. apply IH.
  - destruct (Z.eqb _ _); [apply rel_ret|].
    eapply rel_bind_same; [apply map_print; intros; apply line_iter; assumption|]. intros _. apply IH.
Qed.

Lemma map_first_generation :
  rel mx mx (first_generation c h) (first_generation c' h') (same (mse true)).
Proof.
  unfold first_generation.
  eapply rel_bind_both with (V := arr_rel) (P' := mx).
  { unfold initialize_generation. destruct Hc as (_ & _ & _ & _ & _ & _ & _ & _ & _ & Hi).
    destruct (c_init_data c) as [d|], (c_init_data c') as [d'|]; try contradiction; [apply rel_both_ret, Hi|].
    intros s s' (Hx1 & Hx2 & Hx3). unfold with_world. rewrite <- Hx2. destruct (hm_init Hm (s_w s)) as [D1 D2].
    destruct (h_init h (s_w s)) as [[a|e] w], (h_init h' (s_w s)) as [[a'|e'] w']; cbn [fst snd res_rel] in D1, D2; try contradiction;
      (split; [exact D1|]); (split; [assumption|split; [exact D2|assumption]]). }
  intros g g' Hg. eapply rel_bind_same with (R' := ms false).
  { intros s s' Hx. cbn. split; [reflexivity|]. split; [exact Hx|]. split; [exact Hg|discriminate]. }
  intros _. eapply rel_bind_same; [apply map_check_generation|]. intros _.
  eapply rel_bind_both; [apply get_mse|]. intros o o' [[Hgg _] He]. rewrite <- He.
  eapply rel_bind_both with (V := Rr).
  { apply rel_both_lift; [apply mse_mx|]. destruct Hgg as (_ & _ & H3). destruct H3 as [|r r' l l' Hr H3]; [reflexivity|exact Hr]. }
  intros r0 r0' Hr0.
  eapply rel_bind_same; [apply rel_lift; apply mse_mx|]. intros e0.
  assert (Hone : arr_rel (mkArr (a_dt (o_gen o)) (a_nc (o_gen o)) [r0]) (mkArr (a_dt (o_gen o')) (a_nc (o_gen o')) [r0'])).
  { destruct Hgg as (G1 & G2 & _). split; [exact G1|]. split; [exact G2|]. constructor; [exact Hr0|constructor]. }
  eapply rel_bind_same with (R' := fun s s' : st => mse false s s' /\
     arr_rel (o_elite (s_obj s)) (o_elite (s_obj s')) /\ o_evel (s_obj s) = o_evel (s_obj s')).
  { intros s s' Hs. cbn. split; [reflexivity|]. split; [|split; [exact Hone|reflexivity]].
    split; [apply (mse_mx _ _ _ Hs)|]. split; [split; [exact Hgg|discriminate]|reflexivity]. }
  intros _. eapply rel_bind_same; [apply rel_lift; intros s s' [Hs _]; apply (mse_mx _ _ _ Hs)|].
  intros b.
  eapply rel_bind_both with (V := fun o o' => moe false o o' /\ arr_rel (o_elite o) (o_elite o') /\ o_evel o = o_evel o') (P' := mse false).
  { intros s s' [Hs1 Hs2]. cbn. split; [|exact Hs1]. split; [apply Hs1|exact Hs2]. }
  intros o1 o1' [[[Hg1 _] He1] [Hel Hev]].
  eapply rel_bind_same with (R' := mx).
  { intros s s' Hs. cbn. split; [reflexivity|]. exact (mse_mx _ _ _ Hs). }
  intros _. eapply rel_bind_same; [apply rel_lift; auto|]. intros i.
  eapply rel_bind_same.
  - apply (put_me mx true); [auto|]. split; [|exact He1]. split; [exact Hg1|]. intros _. cbn. auto.
  - intros _. apply rel_ret.
Qed.

Definition results_map (r r' : result) : Prop :=
  bind_rel (r_best_ind r) (r_best_ind r') /\ r_best_cost r = r_best_cost r' /\ r_nfev r = r_nfev r' /\ r_history r = r_history r' /\
  r_settings r = r_settings r'.

Lemma map_minimize out : rel mx mx (minimize c h ftol out) (minimize c' h' ftol out) (both results_map mx).
Proof.
  unfold minimize. destruct Hc as (Hsz & Hmi & _ & _ & Hdi & _). rewrite <- Hsz, <- Hmi, <- Hdi.
  eapply rel_bind_same; [apply map_first_generation|]. intros b0.
  eapply rel_bind_both; [apply map_draw_noise|]. intros wn wn' Hwn.
  eapply rel_bind_same; [apply map_print; intros; apply line_iter; assumption|]. intros _.
  eapply rel_bind_same; [apply map_loop, Hwn|]. intros hist. cbv zeta.
  eapply rel_bind_same.
  { apply map_print. intros o o' [[_ H] _]. destruct (H eq_refl) as (_ & _ & H3 & H4). split; [reflexivity|]. split; assumption. }
  intros _. eapply rel_bind_both; [apply get_mse|]. intros o o' [[_ H] _]. destruct (H eq_refl) as (_ & _ & H3 & H4).
  intros s s' Hs. cbn. split; [|apply (mse_mx _ _ _ Hs)]. split; [exact H4|]. split; [exact H3|]. split; [reflexivity|]. split; [reflexivity|apply (hm_settings Hm)].
Qed.

End Map.

(* ---------------- a correspondence given by a function ---------------- *)
(** The array with every row changed. *)
Definition map_arr (f : row -> row) (a : arr) : arr := mkArr (a_dt a) (a_nc a) (map f (a_rows a)).
(** The best individual: an index of the first generation stays the same. *)
Definition map_bind (f : row -> row) (b : bind) : bind := match b with BIdx i => BIdx i | BRow r => BRow (f r) end.
(** What happened, with every individual changed and every cost left as it is. *)
Definition map_event (f : row -> row) (e : ev) : ev :=
  match e with
  | EvCall r v => EvCall (f r) v
  | EvGen g vs xs => EvGen (map_arr f g) vs xs
  | EvSelect a b => EvSelect (map (fun p => (f (fst p), snd p)) a) (map (fun p => (f (fst p), snd p)) b)
  | EvLearn d => EvLearn (map_arr f d)
  | EvPrint (PrIter i b) => EvPrint (PrIter i b)
  | EvPrint (PrFinal n b x) => EvPrint (PrFinal n b (map_bind f x))
  end.
(** The result with the best individual changed. *)
Definition map_result (f : row -> row) (r : result) : result :=
  mkResult (map_bind f (r_best_ind r)) (r_best_cost r) (r_nfev r) (r_history r) (r_settings r).

Section Fun.
Variables (Rr : row -> row -> Prop) (width : nat -> Prop) (f : row -> row).
Hypothesis Hf : forall r r', Rr r r' -> r' = f r.

Lemma rows_rel_map l l' : Forall2 Rr l l' -> l' = map f l.
Proof. induction 1 as [|r r' l l' Hr H IH]; cbn [map]; [reflexivity|]. rewrite (Hf _ _ Hr), IH. reflexivity. Qed.
Lemma arr_rel_map a a' : arr_rel Rr width a a' -> a' = map_arr f a.
Proof.
  intros (H1 & (H2 & _) & H3). unfold map_arr. rewrite <- (rows_rel_map _ _ H3), H1, H2. destruct a'; reflexivity.
Qed.
Lemma bind_rel_map b b' : bind_rel Rr b b' -> b' = map_bind f b.
Proof. destruct b, b'; cbn; try contradiction; [congruence|]. intros H. rewrite (Hf _ _ H). reflexivity. Qed.
Lemma scored_rel_map l l' : Forall2 (scored_rows Rr) l l' -> l' = map (fun p => (f (fst p), snd p)) l.
Proof.
  induction 1 as [|[r v] [r' v'] l l' [Hr Hv] H IH]; cbn [map]; [reflexivity|]. cbn [fst snd] in *. rewrite (Hf _ _ Hr), IH, Hv. reflexivity.
Qed.
Lemma event_rel_map e e' : event_rel Rr width e e' -> e' = map_event f e.
Proof.
  destruct e as [r v|g vs xs|a b|d|[i b|n b x]], e' as [r' v'|g' vs' xs'|a' b'|d'|[i' b'|n' b' x']]; cbn [event_rel line_rel map_event]; try contradiction.
  - intros [H ->]. rewrite (Hf _ _ H). reflexivity.
  - intros (H & -> & ->). rewrite (arr_rel_map _ _ H). reflexivity.
  - intros [H1 H2]. rewrite (scored_rel_map _ _ H1), (scored_rel_map _ _ H2). reflexivity.
  - intros H. rewrite (arr_rel_map _ _ H). reflexivity.
  - intros (-> & ->). reflexivity.
  - intros (-> & -> & H). rewrite (bind_rel_map _ _ H). reflexivity.
Qed.
Lemma trace_rel_map l l' : Forall2 (event_rel Rr width) l l' -> l' = map (map_event f) l.
Proof. induction 1 as [|e e' l l' He H IH]; cbn [map]; [reflexivity|]. rewrite (event_rel_map _ _ He), IH. reflexivity. Qed.
Lemma result_rel_map r r' : results_map Rr r r' -> r' = map_result f r.
Proof.
  intros (H1 & H2 & H3 & H4 & H5). unfold map_result. rewrite <- (bind_rel_map _ _ H1), H2, H3, H4, H5. destruct r'; reflexivity.
Qed.
End Fun.

(** The second call of [minimize] does what the first does with every individual changed by
    [f]: same exception, or same costs, history and settings and the changed best individual;
    and the cost function, the model and stdout see the changed individuals. *)
Definition mapped_run {S W} (f : row -> row) (m m' : res result * st S W) : Prop :=
  fst m' = rmap (map_result f) (fst m) /\ s_w (snd m') = s_w (snd m) /\
  s_tr (snd m') = map (map_event f) (s_tr (snd m)).

Lemma mapped_minimize {S W} (Rr : row -> row -> Prop) width f (Rp : S -> S -> Prop) Rn c c' (h h' : hooks S W) ftol out o o' p p' w :
  (forall d r r', Rr r r' -> Rr (map (cast_cell d) r) (map (cast_cell d) r')) ->
  (forall r r', Rr r r' -> r' = f r) ->
  same_but_data Rr width c c' -> hooks_map Rr width Rp Rn c h h' -> Rp p p' ->
  mapped_run f (minimize c h ftol out (mkSt o p w [])) (minimize c' h' ftol out (mkSt o' p' w [])).
Proof.
  intros Hcast Hf Hc Hm Hp.
  pose proof (map_minimize Rr Hcast width Rp Rn c c' h h' ftol Hc Hm out (mkSt o p w []) (mkSt o' p' w [])) as H.
  specialize (H (conj Hp (conj eq_refl (Forall2_nil _)))).
  unfold mapped_run. destruct (minimize c h ftol out _) as [[r|e] s], (minimize c' h' ftol out _) as [[r'|e'] s']; try contradiction; cbn [fst snd rmap].
  - destruct H as [H1 (_ & H2 & H3)]. split; [rewrite (result_rel_map Rr f Hf _ _ H1); reflexivity|].
    split; [symmetry; exact H2|exact (trace_rel_map Rr width f Hf _ _ H3)].
  - destruct H as [H1 (_ & H2 & H3)]. split; [congruence|].
    split; [symmetry; exact H2|exact (trace_rel_map Rr width f Hf _ _ H3)].
Qed.
