(** Two runs of different width whose individuals correspond to each other, when the first succeeds. *)
From Coq Require Import String List ZArith Bool Lia.
From Verif Require Import PyBase B64 B64More NdArray Eda EdaInv Spec TopK LoopObs LoopThms LoopRel OrderRel LoopMap.
Import ListNotations.
Open Scope nat_scope.

(** If the first returns, so does the second, something related. *)
Definition res_le {A B} (V : A -> B -> Prop) (r : res A) (r' : res B) : Prop :=
  match r, r' with Ok a, Ok a' => V a a' | Raise _, _ => True | _, _ => False end.
Lemma res_rel_le {A B} (V : A -> B -> Prop) r r' : res_rel V r r' -> res_le V r r'.
Proof. destruct r, r'; cbn; auto. Qed.

Section Krel.
Context {S W : Type}.
Local Notation st := (st S W).
Local Notation M := (M S W).
(** If the first computation returns, so does the second. *)
Definition krel {A} (P : st -> st -> Prop) (m m' : M A) (Q : A -> A -> st -> st -> Prop) : Prop :=
  forall s s', P s s' ->
    match m s, m' s' with
    | (Ok a, t), (Ok a', t') => Q a a' t t'
    | (Raise _, _), _ => True
    | _, _ => False
    end.
Lemma rel_krel {A} P X (m m' : M A) Q : rel P X m m' Q -> krel P m m' Q.
Proof. intros H s s' Hs. specialize (H s s' Hs). destruct (m s) as [[a|e] t], (m' s') as [[a'|e'] t']; auto. Qed.
Lemma krel_bind {A B} P Q Q' (m m' : M A) (f f' : A -> M B) :
  krel P m m' Q -> (forall a a', krel (Q a a') (f a) (f' a') Q') -> krel P (mbind m f) (mbind m' f') Q'.
Proof.
  intros Hm Hf s s' HP. unfold mbind. specialize (Hm s s' HP).
  destruct (m s) as [[a|e] t]; [|exact I]. destruct (m' s') as [[a'|e'] t']; [apply Hf, Hm|contradiction].
Qed.
Lemma krel_bind_same {A B} R R' Q (m m' : M A) (f f' : A -> M B) :
  krel R m m' (same R') -> (forall a, krel R' (f a) (f' a) Q) -> krel R (mbind m f) (mbind m' f') Q.
Proof. intros Hm Hf. eapply krel_bind; [exact Hm|]. intros a a' s s' [-> Hs]. apply Hf, Hs. Qed.
Lemma krel_bind_both {A B} (V : A -> A -> Prop) P P' Q (m m' : M A) (f f' : A -> M B) :
  krel P m m' (both V P') -> (forall a a', V a a' -> krel P' (f a) (f' a') Q) -> krel P (mbind m f) (mbind m' f') Q.
Proof. intros Hm Hf. eapply krel_bind; [exact Hm|]. intros a a' s s' [HV Hs]. apply Hf; assumption. Qed.
Lemma krel_ret {A} R (a : A) : krel R (mret a) (mret a) (same R).
Proof. intros s s' H. cbn. split; [reflexivity|exact H]. Qed.
Lemma krel_lift {A} (R : st -> st -> Prop) (r : res A) : krel R (mlift r) (mlift r) (same R).
Proof. intros s s' H. unfold mlift. destruct r; [split; auto|exact I]. Qed.
Lemma krel_raise {A} (R : st -> st -> Prop) (e : exn) m Q : krel (A:=A) R (mraise e) m Q.
Proof. intros s s' H. cbn. exact I. Qed.
Lemma krel_both_ret {A} (V : A -> A -> Prop) P a a' : V a a' -> krel P (mret a) (mret a') (both V P).
Proof. intros HV s s' H. split; assumption. Qed.
Lemma krel_both_lift {A} (V : A -> A -> Prop) (P : st -> st -> Prop) r r' :
  res_le V r r' -> krel P (mlift r) (mlift r') (both V P).
Proof. intros HV s s' H. unfold mlift. destruct r; [|exact I]. destruct r'; [split; assumption|contradiction]. Qed.
End Krel.

Section Map.
(** How a row of the one run corresponds to a row of the other. *)
Variable Rr : row -> row -> Prop.
Hypothesis Rcast : forall d r r', Rr r r' -> Rr (map (cast_cell d) r) (map (cast_cell d) r').

(** The widths that occur. *)
Variable width : nat -> nat -> Prop.
Hypothesis Hwid : forall x x' y y', width x x' -> width y y' -> x = y -> x' = y'.
Definition arr_keep (a a' : arr) : Prop :=
  a_dt a = a_dt a' /\ width (a_nc a) (a_nc a') /\ Forall2 Rr (a_rows a) (a_rows a').
Local Notation bind_rel := (LoopMap.bind_rel Rr).
Local Notation scored_rows := (LoopMap.scored_rows Rr).
Local Notation line_rel := (LoopMap.line_rel Rr).
(** The same costs, corresponding individuals. *)
Definition event_keep (e e' : ev) : Prop :=
  match e, e' with
  | EvCall r v, EvCall r' v' => Rr r r' /\ v = v'
  | EvGen g vs xs, EvGen g' vs' xs' => arr_keep g g' /\ vs = vs' /\ xs = xs'
  | EvSelect a b, EvSelect a' b' => Forall2 scored_rows a a' /\ Forall2 scored_rows b b'
  | EvLearn d, EvLearn d' => arr_keep d d'
  | EvPrint p, EvPrint p' => line_rel p p'
  | _, _ => False
  end.

Lemma rows_as_rel d a a' : arr_keep a a' -> Forall2 Rr (rows_as d a) (rows_as d a').
Proof.
  intros (H1 & H2 & H3). unfold rows_as. rewrite <- H1. destruct (dtype_eqb (a_dt a) d); [exact H3|].
  clear - H3 Rcast. induction H3 as [|r r' l l' Hr H IH]; cbn [map]; constructor; [apply Rcast, Hr|exact IH].
Qed.
Lemma concat_rel a a' b b' : arr_keep a a' -> arr_keep b b' -> res_le arr_keep (np_concatenate a b) (np_concatenate a' b').
Proof.
  intros Ha Hb. pose proof Ha as (H1 & H2 & H3). pose proof Hb as (K1 & K2 & K3). unfold np_concatenate. rewrite <- H1, <- K1.
  destruct (Nat.eqb_spec (a_nc a) (a_nc b)) as [E|E]; [|exact I]. rewrite (Hwid _ _ _ _ H2 K2 E), Nat.eqb_refl. cbn [res_le].
  split; [reflexivity|]. split; [rewrite <- (Hwid _ _ _ _ H2 K2 E); exact H2|].
  apply Forall2_app; apply rows_as_rel; assumption.
Qed.
Lemma take_rel idx a a' : arr_keep a a' -> res_le arr_keep (take_rows idx a) (take_rows idx a').
Proof.
  intros (H1 & H2 & H3). unfold take_rows. pose proof (gather_rel Rr idx _ _ H3) as H.
  destruct (gather idx (a_rows a)) as [g|e], (gather idx (a_rows a')) as [g'|e']; cbn in H |- *; try contradiction; [|exact I].
  split; [exact H1|]. split; [exact H2|exact H].
Qed.
Lemma combine_rel l l' (v : list f64) : Forall2 Rr l l' -> Forall2 scored_rows (combine l v) (combine l' v).
Proof.
  intros H. revert v. induction H as [|r r' l l' Hr H IH]; intros [|x v]; cbn [combine]; constructor; [split; [exact Hr|reflexivity]|apply IH].
Qed.

Context {S W : Type}.
Local Notation st := (st S W).
Local Notation M := (M S W).
Variable Rp : S -> S -> Prop.
Variable Rn : noise -> noise -> Prop.
(** How the selected individuals correspond after the noise was added. *)
Variable Rw : arr -> arr -> Prop.

Definition mx (s s' : st) : Prop := Rp (s_pm s) (s_pm s') /\ s_w s = s_w s' /\ Forall2 event_keep (s_tr s) (s_tr s').
Definition mo (full : bool) (o o' : obj) : Prop :=
  arr_keep (o_gen o) (o_gen o') /\
  (full = true -> arr_keep (o_elite o) (o_elite o') /\ o_evel o = o_evel o' /\
                  o_best_cost o = o_best_cost o' /\ bind_rel (o_best_ind o) (o_best_ind o')).
Definition moe full (o o' : obj) : Prop := mo full o o' /\ o_evals o = o_evals o'.
Definition ms (full : bool) (s s' : st) : Prop := mx s s' /\ mo full (s_obj s) (s_obj s').
Definition mse full (s s' : st) : Prop := mx s s' /\ moe full (s_obj s) (s_obj s').

Lemma ms_mx full s s' : ms full s s' -> mx s s'. Proof. intros [H _]. exact H. Qed.
Lemma mse_mx full s s' : mse full s s' -> mx s s'. Proof. intros [H _]. exact H. Qed.
Lemma mse_ms full s s' : mse full s s' -> ms full s s'. Proof. intros [H [H1 _]]. split; assumption. Qed.
Hint Resolve ms_mx mse_mx mse_ms : core.

Lemma get_ms full : krel (ms full) get_obj get_obj (both (mo full) (ms full)).
Proof. intros s s' H. cbn. split; [apply H|exact H]. Qed.
Lemma get_mse full : krel (mse full) get_obj get_obj (both (moe full) (mse full)).
Proof. intros s s' H. cbn. split; [apply H|exact H]. Qed.
Lemma put_m (P : st -> st -> Prop) full o o' : (forall s s', P s s' -> mx s s') -> mo full o o' ->
  krel P (put_obj o) (put_obj o') (same (ms full)).
Proof. intros HP H s s' Hs. cbn. split; [reflexivity|]. split; [apply (HP _ _ Hs)|exact H]. Qed.
Lemma put_me (P : st -> st -> Prop) full o o' : (forall s s', P s s' -> mx s s') -> moe full o o' ->
  krel P (put_obj o) (put_obj o') (same (mse full)).
Proof. intros HP H s s' Hs. cbn. split; [reflexivity|]. split; [apply (HP _ _ Hs)|exact H]. Qed.
Lemma mx_log s s' e e' : mx s s' -> event_keep e e' ->
  mx (mkSt (s_obj s) (s_pm s) (s_w s) (s_tr s ++ [e])) (mkSt (s_obj s') (s_pm s') (s_w s') (s_tr s' ++ [e'])).
Proof.
  intros (H1 & H2 & H3) He. split; [exact H1|]. split; [exact H2|]. cbn [s_tr]. apply Forall2_app; [exact H3|].
  constructor; [exact He|constructor].
Qed.
Lemma log_ms full e e' : event_keep e e' -> rel (ms full) mx (log e) (log e') (same (ms full)).
Proof. intros He s s' [Hx Ho]. cbn. split; [reflexivity|]. split; [apply mx_log; assumption|exact Ho]. Qed.
Lemma klog_ms full e e' : event_keep e e' -> krel (ms full) (log e) (log e') (same (ms full)).
Proof. intros He s s' [Hx Ho]. cbn. split; [reflexivity|]. split; [apply mx_log; assumption|exact Ho]. Qed.
Lemma klog_mse full e e' : event_keep e e' -> krel (mse full) (log e) (log e') (same (mse full)).
Proof. intros He s s' [Hx Ho]. cbn. split; [reflexivity|]. split; [apply mx_log; assumption|exact Ho]. Qed.

(* ---------------- the two programs ---------------- *)
Variables (c c' : cfg) (h h' : hooks S W) (ftol : f64).

(** The settings agree, except for the number of variables and the given first generation. *)
Definition same_but_width : Prop :=
  c_size_gen c = c_size_gen c' /\ c_max_iter c = c_max_iter c' /\ c_dead_iter c = c_dead_iter c' /\ (0 <= c_nvars c')%Z /\
  c_disp c = c_disp c' /\ c_parallelize c = c_parallelize c' /\ c_w_noise c = c_w_noise c' /\
  c_trunc_len c = c_trunc_len c' /\ c_elite_len c = c_elite_len c' /\
  match c_init_data c, c_init_data c' with Some d, Some d' => arr_keep d d' | None, None => True | _, _ => False end.

(** The same, but the noise may be of another size. *)
Definition noise_like (p p' : pynum) : Prop :=
  py_eq_int p 0 = py_eq_int p' 0 /\ py_eq_int p (-1) = py_eq_int p' (-1) /\ flt (num_to_f p) (Z2f 0) = flt (num_to_f p') (Z2f 0).
Definition same_but_unit : Prop :=
  c_size_gen c = c_size_gen c' /\ c_max_iter c = c_max_iter c' /\ c_dead_iter c = c_dead_iter c' /\ (0 <= c_nvars c')%Z /\
  c_disp c = c_disp c' /\ c_parallelize c = c_parallelize c' /\ noise_like (c_w_noise c) (c_w_noise c') /\
  c_trunc_len c = c_trunc_len c' /\ c_elite_len c = c_elite_len c' /\
  match c_init_data c, c_init_data c' with Some d, Some d' => arr_keep d d' | None, None => True | _, _ => False end.
Lemma width_unit : same_but_width -> same_but_unit.
Proof.
  intros (H1 & H2 & H3 & H4 & H5 & H6 & H7 & H8). do 6 (split; [assumption|]). split; [|exact H8]. rewrite H7. repeat split.
Qed.

(** What is plugged in corresponds. *)
Record hooks_keep : Prop := mkHK {
  hk_sort : h_argsort h = h_argsort h';
  hk_pool : h_pool h = h_pool h';
  hk_cost : forall r r' w, Rr r r' -> h_cost h r w = h_cost h' r' w;
  hk_init : forall w, res_le (fun x x' => arr_keep x x' /\ snd (h_init h w) = snd (h_init h' w)) (fst (h_init h w)) (fst (h_init h' w));
  hk_data : forall g g' e e' p p', Rw g g' -> arr_keep e e' -> Rp p p' ->
    res_le (fun x x' => Rw x x' /\ Rp (snd (h_data h g e p)) (snd (h_data h' g' e' p'))) (fst (h_data h g e p)) (fst (h_data h' g' e' p'));
  hk_learn : forall d d' p p' w, Rw d d' -> Rp p p' ->
    res_le (fun _ _ => arr_keep d d' /\ Rp (fst (snd (h_learn h d p w))) (fst (snd (h_learn h' d' p' w))) /\
                       snd (snd (h_learn h d p w)) = snd (snd (h_learn h' d' p' w)))
      (fst (h_learn h d p w)) (fst (h_learn h' d' p' w));
  hk_sample : forall p p' w, Rp p p' ->
    res_le (fun x x' => arr_keep x x' /\ snd (h_sample h p w) = snd (h_sample h' p' w)) (fst (h_sample h p w)) (fst (h_sample h' p' w));
  hk_normal : py_eq_int (c_w_noise c) 0 = false -> py_eq_int (c_w_noise c) (-1) = false ->
    let x := num_to_f (c_w_noise c) in let x' := num_to_f (c_w_noise c') in
    forall w nr, snd (h_normal h x w) = snd (h_normal h' x' w) /\
    Rn (NoiseMat nr (Z.to_nat (c_nvars c)) (fst (h_normal h x w))) (NoiseMat nr (Z.to_nat (c_nvars c')) (fst (h_normal h' x' w)));
  hk_zero : py_eq_int (c_w_noise c) 0 = true -> Rn NoiseZero NoiseZero;
  hk_str : py_eq_int (c_w_noise c) (-1) = true -> Rn NoiseStr NoiseStr;
  hk_iadd : forall a a' n n', arr_keep a a' -> Rn n n' -> res_le Rw (iadd a n) (iadd a' n')
}.
Hypothesis Hc : same_but_unit.
Hypothesis Hm : hooks_keep.

Lemma keep_call_rows full rs rs' : Forall2 Rr rs rs' ->
  rel (ms full) mx (call_rows h rs) (call_rows h' rs') (same (ms full)).
Proof.
  induction 1 as [|r r' rs rs' Hr H IH]; cbn [call_rows]; [apply rel_ret|].
  eapply rel_bind_same with (R' := ms full).
  - unfold call1. eapply rel_bind_same with (R' := ms full).
    + intros s s' [(Hx1 & Hx2 & Hx3) Ho]. unfold with_world. rewrite <- Hx2, <- (hk_cost Hm r r' (s_w s) Hr).
      destruct (h_cost h r (s_w s)) as [[v|e] w].
      * split; [reflexivity|]. split; [split; [exact Hx1|split; [reflexivity|exact Hx3]]|exact Ho].
      * split; [reflexivity|]. split; [exact Hx1|split; [reflexivity|exact Hx3]].
    + intros v. eapply rel_bind_same; [apply log_ms; split; [exact Hr|reflexivity]|]. intros _. apply rel_ret.
  - intros v. eapply rel_bind_same; [exact IH|]. intros vs. apply rel_ret.
Qed.

Lemma keep_apply_rows full rs rs' : Forall2 Rr rs rs' ->
  rel (ms full) mx (apply_rows h rs) (apply_rows h' rs') (same (ms full)).
Proof.
  intros H. pose proof (keep_call_rows full rs rs' H) as HC. unfold apply_rows.
  destruct H as [|r r' rs rs' Hr H]; [apply rel_raise; apply ms_mx|].
  eapply rel_bind_same; [exact HC|]. intros vs. apply rel_ret.
Qed.

Lemma keep_split_sizes sizes : forall l l', Forall2 Rr l l' -> Forall2 (Forall2 Rr) (split_sizes sizes l) (split_sizes sizes l').
Proof.
  induction sizes as [|n sizes IH]; intros l l' H; cbn [split_sizes]; constructor.
  - clear IH. revert l l' H. induction n as [|n IH]; intros l l' H; [constructor|]. destruct H; cbn [firstn]; constructor; auto.
  - apply IH. clear IH. revert l l' H. induction n as [|n IH]; intros l l' H; [exact H|]. destruct H; cbn [skipn]; [constructor|auto].
Qed.

Lemma keep_run_chunks full chs chs' o o' p p' : Forall2 (Forall2 Rr) chs chs' -> mo full o o' -> Rp p p' -> forall i ws ws', (forall j, ws j = ws' j) ->
  fst (run_chunks h i chs o p ws) = fst (run_chunks h' i chs' o' p' ws') /\
  Forall2 event_keep (snd (run_chunks h i chs o p ws)) (snd (run_chunks h' i chs' o' p' ws')).
Proof.
  intros Hch Ho Hp. induction Hch as [|ch ch' chs chs' Hr Hch IH]; intros i ws ws' Hw; cbn [run_chunks]; [split; [reflexivity|constructor]|].
  rewrite <- (hk_pool Hm). unfold run_chunk.
  pose proof (keep_apply_rows full ch ch' Hr (mkSt o p (ws (p_worker (h_pool h) i)) []) (mkSt o' p' (ws' (p_worker (h_pool h) i)) [])) as H.
  assert (Hs : ms full (mkSt o p (ws (p_worker (h_pool h) i)) []) (mkSt o' p' (ws' (p_worker (h_pool h) i)) [])).
  { split; [|exact Ho]. split; [exact Hp|]. split; [apply Hw|constructor]. }
  specialize (H Hs). clear Hs.
  destruct (apply_rows h ch _) as [r t]; destruct (apply_rows h' ch' _) as [r' t'].
  assert (HX : r = r' /\ mx t t').
  { destruct r; destruct r'; try contradiction; destruct H as [H1 H2]; (split; [congruence|]); [apply (ms_mx full), H2|exact H2]. }
  destruct HX as [Er (_ & Hw2 & Ht)]. subst r'.
  specialize (IH (Datatypes.S i) (fun j => if Nat.eqb j (p_worker (h_pool h) i) then s_w t else ws j)
                 (fun j => if Nat.eqb j (p_worker (h_pool h) i) then s_w t' else ws' j)).
  destruct IH as [IH1 IH2]; [intros j; rewrite Hw2, Hw; reflexivity|].
  destruct (run_chunks h _ chs o p _) as [rs1 tr1]; destruct (run_chunks h' _ chs' o' p' _) as [rs2 tr2]. cbn [fst snd] in *.
  split; [congruence|apply Forall2_app; assumption].
Qed.

Lemma keep_parallel_rows full rs rs' : Forall2 Rr rs rs' ->
  rel (ms full) mx (parallel_rows h rs) (parallel_rows h' rs') (same (ms full)).
Proof.
  intros Hr s s' [(Hx1 & Hx2 & Hx3) Ho]. unfold parallel_rows. rewrite <- (hk_pool Hm).
  assert (Hsp : Forall2 (Forall2 Rr) (array_split (cpu_count (h_pool h)) rs) (array_split (cpu_count (h_pool h)) rs')).
  { unfold array_split. rewrite (Forall2_length _ _ _ Hr). apply keep_split_sizes, Hr. }
  destruct (keep_run_chunks full _ _ (s_obj s) (s_obj s') (s_pm s) (s_pm s') Hsp Ho Hx1 0
              (fun _ => s_w s) (fun _ => s_w s') (fun _ => Hx2)) as [H1 H2].
  destruct (run_chunks h 0 _ _ _ _) as [r1 t1]; destruct (run_chunks h' 0 _ _ _ _) as [r2 t2]. cbn [fst snd] in H1, H2. subst r2.
  assert (HX : mx (mkSt (s_obj s) (s_pm s) (s_w s) (s_tr s ++ t1)) (mkSt (s_obj s') (s_pm s') (s_w s') (s_tr s' ++ t2))).
  { split; [exact Hx1|]. split; [exact Hx2|]. apply Forall2_app; assumption. }
  destruct (failures r1); (split; [reflexivity|]); [split; [exact HX|exact Ho]|exact HX].
Qed.

Lemma keep_check_generation full :
  krel (ms full) (check_generation c h) (check_generation c' h') (same (mse full)).
Proof.
  unfold check_generation. eapply krel_bind_both; [apply get_ms|]. intros o o' Ho.
  pose proof Ho as [Hg _]. destruct Hc as (_ & _ & _ & _ & _ & Hpar & _). rewrite <- Hpar.
  eapply krel_bind_same with (R' := ms full);
    [destruct (c_parallelize c); (eapply rel_krel; [first [apply keep_parallel_rows|apply keep_apply_rows]; apply Hg])|].
  intros rv. eapply krel_bind_same.
  - apply (put_me (ms full) full); [apply ms_mx|]. split; [|reflexivity]. split; [exact Hg|]. exact (proj2 Ho).
  - intros _. apply klog_mse. split; [exact Hg|split; reflexivity].
Qed.

Lemma keep_truncation :
  krel (mse true) (truncation c h) (truncation c' h') (same (mse true)).
Proof.
  unfold truncation. rewrite <- (hk_sort Hm). destruct Hc as (_ & _ & _ & _ & _ & _ & _ & Ht & Hl & _). rewrite <- Ht, <- Hl.
  eapply krel_bind_both; [apply get_mse|]. intros o o' [[Hg Ho] He]. destruct (Ho eq_refl) as (H1 & H2 & H3 & H4).
  rewrite <- He, <- H2. cbv zeta.
  eapply krel_bind_both; [apply krel_both_lift, concat_rel; eassumption|]. intros g g' Hgg.
  eapply krel_bind_both; [apply krel_both_lift; apply take_rel, Hgg|]. intros e1 e1' He1.
  eapply krel_bind_both; [apply krel_both_lift; apply take_rel, Hgg|]. intros g1 g1' Hg1.
  eapply krel_bind_same; [apply krel_lift|]. intros ve.
  eapply krel_bind_same; [apply krel_lift|]. intros vg.
  eapply krel_bind_same.
  - apply (put_me (mse true) true); [apply mse_mx|]. split; [|reflexivity]. split; [exact Hg1|]. intros _. cbn. auto.
  - intros _. apply klog_mse. split; apply combine_rel; [apply Hg1|apply He1].
Qed.

Lemma keep_set_gen (P : st -> st -> Prop) full g g' : arr_keep g g' ->
  (forall s s', P s s' -> ms full s s') -> krel P (set_gen g) (set_gen g') (same (ms full)).
Proof.
  intros Hg HP. unfold set_gen. eapply krel_bind_both with (V := mo full) (P' := ms full).
  - intros s s' H. cbn. pose proof (HP _ _ H) as [Hx Ho]. split; [exact Ho|split; assumption].
  - intros o o' Ho. apply put_m; [apply ms_mx|]. split; [exact Hg|]. intros E. apply Ho, E.
Qed.

(** Between the addition of the noise and the next generation. *)
Definition mow (o o' : obj) : Prop :=
  Rw (o_gen o) (o_gen o') /\ arr_keep (o_elite o) (o_elite o') /\ o_evel o = o_evel o' /\
  o_best_cost o = o_best_cost o' /\ bind_rel (o_best_ind o) (o_best_ind o').
Definition msw (s s' : st) : Prop := mx s s' /\ mow (s_obj s) (s_obj s').
Lemma keep_noisy g g' : Rw g g' -> krel (mse true) (set_gen g) (set_gen g') (same msw).
Proof.
  intros Hg s s' [Hx [[_ Ho] _]]. cbn. split; [reflexivity|]. split; [exact Hx|]. split; [exact Hg|]. exact (Ho eq_refl).
Qed.
Lemma keep_update_pm : krel msw (update_pm h) (update_pm h') (same msw).
Proof.
  intros s s' [(Hx1 & Hx2 & Hx3) Hob]. pose proof Hob as (Hg & H1 & _).
  unfold update_pm, mbind, get_obj, log. pose proof (hk_data Hm _ _ _ _ _ _ Hg H1 Hx1) as D.
  destruct (h_data h (o_gen (s_obj s)) (o_elite (s_obj s)) (s_pm s)) as [[d|e] p]; [|exact I].
  destruct (h_data h' (o_gen (s_obj s')) (o_elite (s_obj s')) (s_pm s')) as [[d'|e'] p']; [|contradiction].
  cbn [fst snd res_le s_obj s_pm s_w s_tr] in D |- *. destruct D as [D1 D2].
  rewrite <- Hx2. pose proof (hk_learn Hm d d' p p' (s_w s) D1 D2) as L.
  destruct (h_learn h d p (s_w s)) as [[a|e] [q w]]; [|exact I].
  destruct (h_learn h' d' p' (s_w s)) as [[a'|e'] [q' w']]; [|contradiction].
  cbn [fst snd res_le] in L. destruct L as [L1 [L2 L3]].
  split; [destruct a, a'; reflexivity|]. split; [|exact Hob].
  split; [exact L2|]. split; [exact L3|]. cbn [s_tr]. apply Forall2_app; [exact Hx3|]. constructor; [exact L1|constructor].
Qed.

Lemma keep_new_generation : krel msw (new_generation h) (new_generation h') (same (ms true)).
Proof.
  intros s s' [(Hx1 & Hx2 & Hx3) (_ & Hob)]. unfold new_generation, mbind, set_gen, get_obj, put_obj, mbind.
  rewrite <- Hx2. pose proof (hk_sample Hm _ _ (s_w s) Hx1) as D.
  destruct (h_sample h (s_pm s) (s_w s)) as [[a|e] w]; [|exact I].
  destruct (h_sample h' (s_pm s') (s_w s)) as [[a'|e'] w']; [|contradiction].
  cbn [fst snd res_le] in D. destruct D as [D1 D2]. cbn.
  split; [reflexivity|]. split; [split; [exact Hx1|split; [exact D2|assumption]]|]. split; [exact D1|]. intros _. exact Hob.
Qed.

Lemma keep_draw_noise : krel (mse true) (draw_noise c h) (draw_noise c' h') (both Rn (mse true)).
Proof.
  unfold draw_noise. destruct Hc as (_ & _ & _ & Hn & _ & _ & (Hw0 & Hw1 & Hw2) & Ht & _). rewrite <- Hw0, <- Hw1, <- Hw2, <- Ht.
  destruct (py_eq_int (c_w_noise c) 0) eqn:E0; [apply krel_both_ret, (hk_zero Hm), E0|].
  destruct (py_eq_int (c_w_noise c) (-1)) eqn:E1; [apply krel_both_ret, (hk_str Hm), E1|].
  destruct (Z.ltb_spec (c_nvars c') 0) as [Z|_]; [lia|].
  destruct (flt _ _); [apply krel_raise|]. destruct (c_trunc_len c <? 0)%Z; [apply krel_raise|].
  destruct (c_nvars c <? 0)%Z; [apply krel_raise|]. cbn [orb].
  eapply krel_bind_both with (V := fun d d' => Rn (NoiseMat (Z.to_nat (c_trunc_len c)) (Z.to_nat (c_nvars c)) d) (NoiseMat (Z.to_nat (c_trunc_len c)) (Z.to_nat (c_nvars c')) d'))
    (P' := mse true); [|intros d d' Hd; apply krel_both_ret, Hd].
  intros s s' [(Hx1 & Hx2 & Hx3) Hob]. rewrite <- Hx2.
  destruct (hk_normal Hm E0 E1 (s_w s) (Z.to_nat (c_trunc_len c))) as [D1 D2].
  destruct (h_normal h _ (s_w s)) as [d w], (h_normal h' _ (s_w s)) as [d' w']. cbn [fst snd] in D1, D2.
  split; [exact D2|]. split; [split; [exact Hx1|split; [exact D1|assumption]]|exact Hob].
Qed.

Lemma nth_rel l l' i : Forall2 Rr l l' ->
  res_le Rr (match nth_error l i with Some r => Ok r | None => Raise IndexError end)
             (match nth_error l' i with Some r => Ok r | None => Raise IndexError end).
Proof.
  intros H. revert i. induction H as [|r r' l l' Hr H IH]; intros [|i]; cbn; [exact I|exact I|exact Hr|apply IH].
Qed.

Lemma keep_iteration wn wn' : Rn wn wn' ->
  krel (mse true) (iteration c h ftol wn) (iteration c' h' ftol wn') (same (mse true)).
Proof.
  intros Hwn. unfold iteration.
  eapply krel_bind_same; [apply keep_truncation|]. intros _.
  eapply krel_bind_both; [apply get_mse|]. intros o1 o1' [[Hg1 _] _].
  eapply krel_bind_both; [apply krel_both_lift; apply (hk_iadd Hm); eassumption|]. intros g1 g1' Hgg.
  eapply krel_bind_same; [apply keep_noisy; exact Hgg|]. intros _.
  eapply krel_bind_same; [apply keep_update_pm|]. intros _.
  eapply krel_bind_same; [apply keep_new_generation|]. intros _.
  eapply krel_bind_same; [apply keep_check_generation|]. intros _.
  eapply krel_bind_both; [apply get_mse|]. intros o o' [[Hg Ho] He]. destruct (Ho eq_refl) as (H1 & H2 & H3 & H4).
  rewrite <- He, <- H3.
  eapply krel_bind_same; [apply krel_lift|]. intros b.
  eapply krel_bind_same; [apply krel_lift|]. intros i.
  eapply krel_bind_both; [apply krel_both_lift; apply nth_rel, Hg|]. intros r r' Hr.
  destruct (accept ftol b (o_best_cost o)).
  - eapply krel_bind_same.
    + apply (put_me (mse true) true); [apply mse_mx|]. split; [|reflexivity]. split; [exact Hg|]. intros _. cbn. auto.
    + intros _. apply krel_ret.
  - apply krel_ret.
Qed.

Lemma keep_print out (p p' : obj -> printed) :
  (forall o o', moe true o o' -> line_rel (p o) (p' o')) ->
  krel (mse true) (print_if out p) (print_if out p') (same (mse true)).
Proof.
  intros H. unfold print_if. destruct out; [|apply krel_ret].
  eapply krel_bind_both; [apply get_mse|]. intros o o' Ho. apply klog_mse. apply H, Ho.
Qed.
Lemma line_iter it o o' : moe true o o' -> line_rel (PrIter it (o_best_cost o)) (PrIter it (o_best_cost o')).
Proof. intros [[_ H] _]. destruct (H eq_refl) as (_ & _ & H3 & _). split; [reflexivity|exact H3]. Qed.

Lemma keep_loop out wn wn' n : Rn wn wn' -> forall it hist nb,
  krel (mse true) (loop c h ftol out wn n it hist nb) (loop c' h' ftol out wn' n it hist nb) (same (mse true)).
Proof.
  intros Hwn. induction n as [|n IH]; intros it hist nb; cbn [loop]; [apply krel_ret|].
  eapply krel_bind_same; [apply keep_iteration, Hwn|]. intros [b acc]. cbn [fst snd]. cbv zeta.
  destruct Hc as (_ & _ & Hd & _). rewrite <- Hd.
  destruct acc.
  - eapply krel_bind_same; [apply keep_print; intros; apply line_iter; assumption|]. intros _. apply IH.
  - destruct (Z.eqb _ _); [apply krel_ret|].
    eapply krel_bind_same; [apply keep_print; intros; apply line_iter; assumption|]. intros _. apply IH.
Qed.

Lemma keep_first_generation :
  krel mx (first_generation c h) (first_generation c' h') (same (mse true)).
Proof.
  unfold first_generation.
  eapply krel_bind_both with (V := arr_keep) (P' := mx).
  { unfold initialize_generation. destruct Hc as (_ & _ & _ & _ & _ & _ & _ & _ & _ & Hi).
    destruct (c_init_data c) as [d|], (c_init_data c') as [d'|]; try contradiction; [apply krel_both_ret, Hi|].
    intros s s' (Hx1 & Hx2 & Hx3). unfold with_world. rewrite <- Hx2. pose proof (hk_init Hm (s_w s)) as D.
    destruct (h_init h (s_w s)) as [[a|e] w]; [|exact I]. destruct (h_init h' (s_w s)) as [[a'|e'] w']; [|contradiction].
    cbn [fst snd res_le] in D. destruct D as [D1 D2]. split; [exact D1|]. split; [assumption|split; [exact D2|assumption]]. }
  intros g g' Hg. eapply krel_bind_same with (R' := ms false).
  { intros s s' Hx. cbn. split; [reflexivity|]. split; [exact Hx|]. split; [exact Hg|discriminate]. }
  intros _. eapply krel_bind_same; [apply keep_check_generation|]. intros _.
  eapply krel_bind_both; [apply get_mse|]. intros o o' [[Hgg _] He]. rewrite <- He.
  eapply krel_bind_both with (V := Rr).
  { apply krel_both_lift; []. destruct Hgg as (_ & _ & H3). destruct H3 as [|r r' l l' Hr H3]; [exact I|exact Hr]. }
  intros r0 r0' Hr0.
  eapply krel_bind_same; [apply krel_lift|]. intros e0.
  assert (Hone : arr_keep (mkArr (a_dt (o_gen o)) (a_nc (o_gen o)) [r0]) (mkArr (a_dt (o_gen o')) (a_nc (o_gen o')) [r0'])).
  { destruct Hgg as (G1 & G2 & _). split; [exact G1|]. split; [exact G2|]. constructor; [exact Hr0|constructor]. }
  eapply krel_bind_same with (R' := fun s s' : st => mse false s s' /\
     arr_keep (o_elite (s_obj s)) (o_elite (s_obj s')) /\ o_evel (s_obj s) = o_evel (s_obj s')).
  { intros s s' Hs. cbn. split; [reflexivity|]. split; [|split; [exact Hone|reflexivity]].
    split; [apply (mse_mx _ _ _ Hs)|]. split; [split; [exact Hgg|discriminate]|reflexivity]. }
  intros _. eapply krel_bind_same; [apply krel_lift|].
  intros b.
  eapply krel_bind_both with (V := fun o o' => moe false o o' /\ arr_keep (o_elite o) (o_elite o') /\ o_evel o = o_evel o') (P' := mse false).
  { intros s s' [Hs1 Hs2]. cbn. split; [|exact Hs1]. split; [apply Hs1|exact Hs2]. }
  intros o1 o1' [[[Hg1 _] He1] [Hel Hev]].
  eapply krel_bind_same with (R' := mx).
  { intros s s' Hs. cbn. split; [reflexivity|]. exact (mse_mx _ _ _ Hs). }
  intros _. eapply krel_bind_same; [apply krel_lift|]. intros i.
  eapply krel_bind_same.
  - apply (put_me mx true); [auto|]. split; [|exact He1]. split; [exact Hg1|]. intros _. cbn. auto.
  - intros _. apply krel_ret.
Qed.

Definition results_keep (r r' : result) : Prop :=
  bind_rel (r_best_ind r) (r_best_ind r') /\ r_best_cost r = r_best_cost r' /\ r_nfev r = r_nfev r' /\ r_history r = r_history r'.

Lemma keep_minimize out : krel mx (minimize c h ftol out) (minimize c' h' ftol out) (both results_keep mx).
Proof.
  unfold minimize. destruct Hc as (Hsz & Hmi & _ & _ & Hdi & _). rewrite <- Hsz, <- Hmi, <- Hdi.
  eapply krel_bind_same; [apply keep_first_generation|]. intros b0.
  eapply krel_bind_both; [apply keep_draw_noise|]. intros wn wn' Hwn.
  eapply krel_bind_same; [apply keep_print; intros; apply line_iter; assumption|]. intros _.
  eapply krel_bind_same; [apply keep_loop, Hwn|]. intros hist. cbv zeta.
  eapply krel_bind_same.
  { apply keep_print. intros o o' [[_ H] _]. destruct (H eq_refl) as (_ & _ & H3 & H4). split; [reflexivity|]. split; assumption. }
  intros _. eapply krel_bind_both; [apply get_mse|]. intros o o' [[_ H] _]. destruct (H eq_refl) as (_ & _ & H3 & H4).
  intros s s' Hs. cbn. split; [|apply (mse_mx _ _ _ Hs)]. split; [exact H4|]. split; [exact H3|]. split; reflexivity.
Qed.

End Map.

(* ---------------- a correspondence given by a function ---------------- *)
(** The array with every row changed to one of [m] cells. *)
Definition keep_arr (f : row -> row) (m : nat) (a : arr) : arr := mkArr (a_dt a) m (map f (a_rows a)).
(** What happened, with every individual changed and every cost left as it is. *)
Definition keep_event (f : row -> row) (m : nat) (e : ev) : ev :=
  match e with
  | EvCall r v => EvCall (f r) v
  | EvGen g vs xs => EvGen (keep_arr f m g) vs xs
  | EvSelect a b => EvSelect (map (fun p => (f (fst p), snd p)) a) (map (fun p => (f (fst p), snd p)) b)
  | EvLearn d => EvLearn (keep_arr f m d)
  | EvPrint (PrIter i b) => EvPrint (PrIter i b)
  | EvPrint (PrFinal n b x) => EvPrint (PrFinal n b (map_bind f x))
  end.
(** If the first call of [minimize] returns, so does the second, with the same best cost, count
    and history and the changed best individual; the generator is left in the same state, and
    the cost function, the model and stdout saw the changed individuals. *)
Definition kept_run {S W} (f : row -> row) (m : nat) (x x' : res result * st S W) : Prop :=
  forall r s, x = (Ok r, s) -> exists r' s', x' = (Ok r', s') /\
    r_best_ind r' = map_bind f (r_best_ind r) /\ r_best_cost r' = r_best_cost r /\ r_nfev r' = r_nfev r /\ r_history r' = r_history r /\
    s_w s' = s_w s /\ s_tr s' = map (keep_event f m) (s_tr s).

Section Fun.
Variables (Rr : row -> row -> Prop) (width : nat -> nat -> Prop) (f : row -> row) (m : nat).
Hypothesis Hf : forall r r', Rr r r' -> r' = f r.
Hypothesis Hw : forall x x', width x x' -> x' = m.
Lemma arr_keep_fun a a' : arr_keep Rr width a a' -> a' = keep_arr f m a.
Proof.
  intros (H1 & H2 & H3). unfold keep_arr. rewrite <- (rows_rel_map Rr f Hf _ _ H3), <- (Hw _ _ H2), H1. destruct a'; reflexivity.
Qed.
Lemma event_keep_fun e e' : event_keep Rr width e e' -> e' = keep_event f m e.
Proof.
  destruct e as [r v|g vs xs|a b|d|[i b|n b x]], e' as [r' v'|g' vs' xs'|a' b'|d'|[i' b'|n' b' x']]; cbn [event_keep line_rel keep_event]; try contradiction.
  - intros [H ->]. rewrite (Hf _ _ H). reflexivity.
  - intros (H & -> & ->). rewrite (arr_keep_fun _ _ H). reflexivity.
  - intros [H1 H2]. rewrite (scored_rel_map Rr f Hf _ _ H1), (scored_rel_map Rr f Hf _ _ H2). reflexivity.
  - intros H. rewrite (arr_keep_fun _ _ H). reflexivity.
  - intros (-> & ->). reflexivity.
  - intros (-> & -> & H). rewrite (bind_rel_map Rr f Hf _ _ H). reflexivity.
Qed.
Lemma trace_keep_fun l l' : Forall2 (event_keep Rr width) l l' -> l' = map (keep_event f m) l.
Proof. induction 1 as [|e e' l l' He H IH]; cbn [map]; [reflexivity|]. rewrite (event_keep_fun _ _ He), IH. reflexivity. Qed.
End Fun.

Lemma kept_minimize {S W} (Rr : row -> row -> Prop) (width : nat -> nat -> Prop) f m (Rp : S -> S -> Prop) Rn Rw c c' (h h' : hooks S W) ftol out o o' p p' w :
  (forall d r r', Rr r r' -> Rr (map (cast_cell d) r) (map (cast_cell d) r')) ->
  (forall r r', Rr r r' -> r' = f r) -> (forall x x', width x x' -> x' = m) ->
  same_but_unit Rr width c c' -> hooks_keep Rr width Rp Rn Rw c c' h h' -> Rp p p' ->
  kept_run f m (minimize c h ftol out (mkSt o p w [])) (minimize c' h' ftol out (mkSt o' p' w [])).
Proof.
  intros Hcast Hf Hw Hc Hm Hp.
  assert (Hww : forall x x' y y', width x x' -> width y y' -> x = y -> x' = y') by (intros x x' y y' H1 H2 _; rewrite (Hw _ _ H1), (Hw _ _ H2); reflexivity).
  pose proof (keep_minimize Rr Hcast width Hww Rp Rn Rw c c' h h' ftol Hc Hm out (mkSt o p w []) (mkSt o' p' w [])) as H.
  specialize (H (conj Hp (conj eq_refl (Forall2_nil _)))).
  intros r s E. rewrite E in H. destruct (minimize c' h' ftol out _) as [[r'|e'] s']; [|contradiction].
  destruct H as [(H1 & H2 & H3 & H4) (_ & H5 & H6)]. exists r', s'. split; [reflexivity|].
  rewrite (bind_rel_map Rr f Hf _ _ H1). repeat (split; [first [reflexivity|symmetry; assumption]|]).
  exact (trace_keep_fun Rr width f m Hf Hw _ _ H6).
Qed.
