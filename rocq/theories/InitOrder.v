(** Runs started from the same individuals in another order. *)
From Coq Require Import String List ZArith Bool Lia Permutation Sorting.Sorted.
From Verif Require Import PyBase B64 NdArray Eda EdaInv Spec TopK LoopObs LoopRel LoopAny.
Import ListNotations.
Open Scope nat_scope.

(* ---------------- lists ---------------- *)
Lemma sorted_unique {A} (le : A -> A -> Prop) l : forall l', StronglySorted le l -> StronglySorted le l' -> Permutation l l' ->
  (forall x y, In x l -> In y l -> le x y -> le y x -> x = y) -> l = l'.
Proof.
  induction l as [|x l IH]; intros l' Hs Hs' Hp Ha.
  { apply Permutation_nil in Hp. symmetry. exact Hp. }
  destruct l' as [|y l']; [apply Permutation_sym, Permutation_nil in Hp; discriminate|].
  inversion Hs as [|? ? Hs1 Hx]; subst. inversion Hs' as [|? ? Hs1' Hy]; subst. rewrite Forall_forall in Hx, Hy.
  assert (Hyin : In y (x :: l)) by (eapply Permutation_in; [apply Permutation_sym, Hp|left; reflexivity]).
  assert (Hxin : In x (y :: l')) by (eapply Permutation_in; [exact Hp|left; reflexivity]).
  assert (x = y) as <-.
  { destruct Hyin as [->|Hyl]; [reflexivity|]. destruct Hxin as [->|Hxl]; [reflexivity|].
    apply Ha; [left; reflexivity|right; exact Hyl|apply Hx, Hyl|apply Hy, Hxl]. }
  f_equal. apply IH; [exact Hs1|exact Hs1'|eapply Permutation_cons_inv; exact Hp|].
  intros a b Hain Hbin. apply Ha; right; assumption.
Qed.

Lemma gather_fmap {A B} (g : A -> B) idx l : gather idx (map g l) = rmap (map g) (gather idx l).
Proof.
  induction idx as [|i idx IH]; cbn [gather]; [reflexivity|]. rewrite nth_error_map, IH.
  destruct (nth_error l i) as [a|]; cbn [option_map]; [|reflexivity]. destruct (gather idx l); reflexivity.
Qed.
Lemma gather_length {A} idx (l v : list A) : gather idx l = Ok v -> List.length v = List.length idx.
Proof. intros H. apply gather_ok_Forall2 in H. symmetry. exact (Forall2_length _ _ _ H). Qed.
Lemma gather_firstn {A} n idx (l v : list A) : gather idx l = Ok v -> gather (firstn n idx) l = Ok (firstn n v).
Proof.
  rewrite !gather_ok_Forall2. intros H. revert n. induction H as [|i a idx v Hi _ IH]; intros [|n]; cbn [firstn]; constructor; auto.
Qed.
Lemma gather_slice {A} k idx (l v : list A) : gather idx l = Ok v -> gather (slice_to k idx) l = Ok (slice_to k v).
Proof.
  intros H. unfold slice_to. rewrite (gather_length _ _ _ H). destruct (0 <=? k)%Z; apply gather_firstn, H.
Qed.

(** Sorting two orders of the same individuals: the same list when individuals of the same cost are the same. *)
Lemma argsort_gathers (srt : list f64 -> list nat) {A} (f : A -> f64) (l : list A) : argsort_ok srt ->
  exists v, gather (srt (map f l)) l = Ok v /\ Permutation l v /\ StronglySorted (fun a b => np_le (f a) (f b) = true) v.
Proof.
  intros Hs. destruct (Hs (map f l)) as [Hp Ho]. rewrite map_length in Hp.
  destruct l as [|a0 l0].
  { exists []. cbn in Hp |- *. apply Permutation_sym, Permutation_nil in Hp. rewrite Hp. repeat split; constructor. }
  remember (a0 :: l0) as l eqn:El. clear El l0.
  assert (Hr : Forall (fun i => i < List.length l) (srt (map f l))).
  { apply Forall_forall. intros i Hi. eapply Permutation_in in Hi; [|exact Hp]. apply in_seq in Hi. lia. }
  exists (map (fun i => nth i l a0) (srt (map f l))). split; [apply gather_map, Hr|]. split.
  - rewrite <- (map_nth_seq a0 l) at 1. apply Permutation_map, Permutation_sym, Hp.
  - eapply sorted_map_in; [|exact Ho]. cbv beta. intros i j Hi Hj H. rewrite Forall_forall in Hr.
    rewrite !(nth_indep (map f l) fnan (f a0)), !map_nth in H by (rewrite map_length; apply Hr; assumption). exact H.
Qed.

Lemma argsort_same (srt : list f64 -> list nat) {A} (f : A -> f64) (l l' : list A) : argsort_ok srt -> Permutation l l' ->
  (forall a b, In a l -> In b l -> np_le (f a) (f b) = true -> np_le (f b) (f a) = true -> a = b) ->
  exists v, gather (srt (map f l)) l = Ok v /\ gather (srt (map f l')) l' = Ok v.
Proof.
  intros Hs Hp Ha. destruct (argsort_gathers srt f l Hs) as [v [E [Hv Ho]]]. destruct (argsort_gathers srt f l' Hs) as [v' [E' [Hv' Ho']]].
  assert (v = v') as <-; [|eauto].
  eapply sorted_unique; [exact Ho|exact Ho'| |].
  - eapply Permutation_trans; [apply Permutation_sym, Hv|]. eapply Permutation_trans; [exact Hp|exact Hv'].
  - intros x y Hx Hy. apply Ha; eapply Permutation_in; [apply Permutation_sym, Hv|assumption|apply Permutation_sym, Hv|assumption].
Qed.

(* ---------------- the two runs ---------------- *)
(** The same configuration with other init_data. *)
Definition with_data (d : arr) (c : cfg) : cfg :=
  mkCfg (c_size_gen c) (c_max_iter c) (c_dead_iter c) (c_nvars c) (c_alpha c) (c_elite_factor c) (c_disp c) (c_parallelize c)
        (Some d) (c_w_noise c) (c_trunc_len c) (c_elite_len c).

Section Order.
Context {S W : Type}.
Local Notation st := (st S W).
Local Notation M := (M S W).
Variable c : cfg.
Variable h : hooks S W.
Variables t0 t0' : list ev.
Variables b0 b0' : bind.

(** The same model, world and events after the first generation. *)
Definition beside (s s' : st) : Prop :=
  s_pm s = s_pm s' /\ s_w s = s_w s' /\ exists u, s_tr s = t0 ++ u /\ s_tr s' = t0' ++ u.
(** The same attributes, but for the position of the best initial individual. *)
Definition alike_obj (o o' : obj) : Prop :=
  o_gen o = o_gen o' /\ o_evals o = o_evals o' /\ o_elite o = o_elite o' /\ o_evel o = o_evel o' /\ o_best_cost o = o_best_cost o' /\
  (o_best_ind o = o_best_ind o' \/ o_best_ind o = b0 /\ o_best_ind o' = b0').
Definition near (s s' : st) : Prop := beside s s' /\ alike_obj (s_obj s) (s_obj s').

Lemma near_beside s s' : near s s' -> beside s s'. Proof. intros [H _]. exact H. Qed.
Hint Resolve near_beside : core.

Lemma beside_log s s' o o' e : beside s s' -> beside (mkSt o (s_pm s) (s_w s) (s_tr s ++ [e])) (mkSt o' (s_pm s') (s_w s') (s_tr s' ++ [e])).
Proof.
  intros (H1 & H2 & u & H3 & H4). split; [exact H1|]. split; [exact H2|]. exists (u ++ [e]). cbn. rewrite H3, H4, <- !app_assoc. auto.
Qed.

(** Reading the attributes: two states at a time. *)
Lemma near_get {B} Q (k k' : obj -> M B) :
  (forall o o', alike_obj o o' -> rel near beside (k o) (k' o') Q) -> rel near beside (mbind get_obj k) (mbind get_obj k') Q.
Proof. intros H s s' Hs. unfold mbind, get_obj. apply H; [apply Hs|exact Hs]. Qed.
Lemma near_put o o' : alike_obj o o' -> rel near beside (put_obj o) (put_obj o') (same near).
Proof. intros H s s' [Hb _]. cbn. split; [reflexivity|]. split; [exact Hb|exact H]. Qed.
Lemma near_log e : rel near beside (log e) (log e) (same near).
Proof. intros s s' [Hb Ho]. cbn. split; [reflexivity|]. split; [apply beside_log, Hb|exact Ho]. Qed.
Lemma near_world {A} (f : W -> res A * W) : rel near beside (with_world f) (with_world f) (same near).
Proof.
  intros s s' [(H1 & H2 & H3) Ho]. unfold with_world. rewrite <- H2. destruct (f (s_w s)) as [[a|e] w]; (split; [reflexivity|]).
  - split; [split; [exact H1|split; [reflexivity|exact H3]]|exact Ho].
  - split; [exact H1|split; [reflexivity|exact H3]].
Qed.
Lemma near_lift {A} (r : res A) : rel near beside (mlift r) (mlift r) (same near).
Proof. apply rel_lift. auto. Qed.

Lemma near_call_rows rs : rel near beside (call_rows h rs) (call_rows h rs) (same near).
Proof.
  induction rs as [|r rs IH]; cbn [call_rows]; [apply rel_ret|]. unfold call1.
  eapply rel_bind_same; [eapply rel_bind_same; [apply near_world|intros v; eapply rel_bind_same; [apply near_log|intros u; apply rel_ret]]|].
  intros v. eapply rel_bind_same; [exact IH|]. intros vs. apply rel_ret.
Qed.
Lemma near_apply_rows rs : rel near beside (apply_rows h rs) (apply_rows h rs) (same near).
Proof.
  unfold apply_rows. destruct rs as [|r rs]; [apply rel_raise; auto|].
  eapply rel_bind_same; [apply near_call_rows|]. intros vs. apply rel_ret.
Qed.
Lemma near_parallel_rows rs : rel near beside (parallel_rows h rs) (parallel_rows h rs) (same near).
Proof.
  intros s s' [(H1 & H2 & u & H3 & H4) Ho]. unfold parallel_rows.
  rewrite (run_chunks_indep h 0 _ (s_obj s) (s_pm s) (s_obj s') (s_pm s')), <- H2.
  destruct (run_chunks h 0 _ (s_obj s') (s_pm s') (fun _ => s_w s)) as [results tr].
  assert (Hb : beside (mkSt (s_obj s) (s_pm s) (s_w s) (s_tr s ++ tr)) (mkSt (s_obj s') (s_pm s') (s_w s) (s_tr s' ++ tr))).
  { split; [exact H1|]. split; [reflexivity|]. exists (u ++ tr). cbn. rewrite H3, H4, <- !app_assoc. auto. }
  destruct (failures results) as [|e es]; split; try reflexivity; [split; [exact Hb|exact Ho]|exact Hb].
Qed.

Lemma near_check : rel near beside (check_generation c h) (check_generation c h) (same near).
Proof.
  unfold check_generation. apply near_get. intros o o' (H1 & H2 & H3 & H4 & H5 & H6). rewrite <- H1.
  eapply rel_bind_same; [destruct (c_parallelize c); [apply near_parallel_rows|apply near_apply_rows]|].
  intros rv. eapply rel_bind_same; [apply near_put|intros _; apply near_log]. repeat split; assumption.
Qed.

Lemma near_truncation : rel near beside (truncation c h) (truncation c h) (same near).
Proof.
  unfold truncation. apply near_get. intros o o' (H1 & H2 & H3 & H4 & H5 & H6). rewrite <- H1, <- H2, <- H3, <- H4. cbv zeta.
  eapply rel_bind_same; [apply near_lift|]. intros g. eapply rel_bind_same; [apply near_lift|]. intros e1.
  eapply rel_bind_same; [apply near_lift|]. intros g1. eapply rel_bind_same; [apply near_lift|]. intros ve.
  eapply rel_bind_same; [apply near_lift|]. intros vg. eapply rel_bind_same; [apply near_put|intros _; apply near_log].
  repeat split; assumption.
Qed.

Lemma near_set g : rel near beside (set_gen g) (set_gen g) (same near).
Proof.
  unfold set_gen. apply near_get. intros o o' (H1 & H2 & H3 & H4 & H5 & H6). apply near_put. repeat split; assumption.
Qed.

Lemma near_update : rel near beside (update_pm h) (update_pm h) (same near).
Proof.
  unfold update_pm. apply near_get. intros o o' (H1 & H2 & H3 & H4 & H5 & H6). rewrite <- H1, <- H3.
  eapply rel_bind_same with (R' := near).
  { intros s s' [(Hx1 & Hx2 & Hx3) Hob]. rewrite <- Hx1. destruct (h_data h (o_gen o) (o_elite o) (s_pm s)) as [[a|e] p]; (split; [reflexivity|]).
    - split; [split; [reflexivity|split; assumption]|exact Hob].
    - split; [reflexivity|split; assumption]. }
  intros d. eapply rel_bind_same; [apply near_log|]. intros _ s s' [(Hx1 & Hx2 & Hx3) Hob].
  rewrite <- Hx1, <- Hx2. destruct (h_learn h d (s_pm s) (s_w s)) as [[a|e] [p w]].
  - split; [destruct a; reflexivity|]. split; [split; [reflexivity|split; [reflexivity|assumption]]|exact Hob].
  - split; [reflexivity|]. split; [reflexivity|split; [reflexivity|assumption]].
Qed.

Lemma near_new : rel near beside (new_generation h) (new_generation h) (same near).
Proof.
  unfold new_generation. eapply rel_bind_same with (R' := near); [|intros g; apply near_set].
  intros s s' [(Hx1 & Hx2 & Hx3) Hob]. rewrite <- Hx1, <- Hx2. destruct (h_sample h (s_pm s) (s_w s)) as [[a|e] w]; (split; [reflexivity|]).
  - split; [split; [reflexivity|split; [reflexivity|assumption]]|exact Hob].
  - split; [reflexivity|split; [reflexivity|assumption]].
Qed.

(** An iteration whose selections agree. *)
Lemma near_iteration ftol wn P : rel P beside (truncation c h) (truncation c h) (same near) ->
  rel P beside (iteration c h ftol wn) (iteration c h ftol wn) (same near).
Proof.
  intros Ht. unfold iteration. eapply rel_bind_same; [exact Ht|]. intros _.
  apply near_get. intros o1 o1' (E1 & _). rewrite <- E1. clear E1.
  eapply rel_bind_same; [apply near_lift|]. intros g1. eapply rel_bind_same; [apply near_set|]. intros _.
  eapply rel_bind_same; [apply near_update|]. intros _. eapply rel_bind_same; [apply near_new|]. intros _.
  eapply rel_bind_same; [apply near_check|]. intros _.
  apply near_get. intros o o' (H1 & H2 & H3 & H4 & H5 & H6). rewrite <- H1, <- H2, <- H3, <- H4, <- H5.
  eapply rel_bind_same; [apply near_lift|]. intros b. eapply rel_bind_same; [apply near_lift|]. intros i.
  eapply rel_bind_same; [apply near_lift|]. intros r. destruct (accept ftol b (o_best_cost o)); [|apply rel_ret].
  eapply rel_bind_same; [apply near_put|intros _; apply rel_ret]. repeat split. left. reflexivity.
Qed.

Lemma near_print out (p : obj -> printed) : (forall o o', alike_obj o o' -> p o = p o') ->
  rel near beside (print_if out p) (print_if out p) (same near).
Proof.
  intros H. unfold print_if. destruct out; [|apply rel_ret]. apply near_get. intros o o' Ho. rewrite (H o o' Ho). apply near_log.
Qed.

Lemma near_loop ftol out wn n : forall it hist nb,
  rel near beside (loop c h ftol out wn n it hist nb) (loop c h ftol out wn n it hist nb) (same near).
Proof.
  induction n as [|n IH]; intros it hist nb; cbn [loop]; [apply rel_ret|].
  eapply rel_bind_same; [apply near_iteration, near_truncation|]. intros [x a]. cbn [fst snd]. cbv zeta.
  assert (Hp : rel near beside (print_if out (fun o => PrIter it (o_best_cost o))) (print_if out (fun o => PrIter it (o_best_cost o))) (same near)).
  { apply near_print. intros o o' (_ & _ & _ & _ & -> & _). reflexivity. }
  destruct a; [eapply rel_bind_same; [exact Hp|intros _; apply IH]|].
  destruct (Z.eqb (nb + 1) (c_dead_iter c)); [apply rel_ret|]. eapply rel_bind_same; [exact Hp|intros _; apply IH].
Qed.

(* ---------------- the first generation ---------------- *)
Variable f : row -> f64.
Hypothesis pure : forall r w, h_cost h r w = (Ok (NF (f r)), w).
Hypothesis sorts : argsort_ok (h_argsort h).
Variables d d' : arr.
Variable r0 : row.
Variables rs rs' : list row.
Hypothesis dt_eq : a_dt d' = a_dt d.
Hypothesis nc_eq : a_nc d' = a_nc d.
Hypothesis rows_d : a_rows d = r0 :: rs.
Hypothesis rows_d' : a_rows d' = r0 :: rs'.
Hypothesis reorder : Permutation rs rs'.
Hypothesis no_nan : forall r, In r (r0 :: rs) -> isnan (f r) = false.
Hypothesis distinct : forall r r', In r (r0 :: rs) -> In r' (r0 :: rs) -> feq (f r) (f r') = true -> r = r'.

(** States after the first generation. *)
Definition begun (s s' : st) : Prop :=
  beside s s' /\
  o_gen (s_obj s) = d /\ o_gen (s_obj s') = d' /\ o_evals (s_obj s) = map f (a_rows d) /\ o_evals (s_obj s') = map f (a_rows d') /\
  o_elite (s_obj s) = mkArr (a_dt d) (a_nc d) [r0] /\ o_elite (s_obj s') = mkArr (a_dt d) (a_nc d) [r0] /\
  o_evel (s_obj s) = [f r0] /\ o_evel (s_obj s') = [f r0] /\ o_best_cost (s_obj s) = o_best_cost (s_obj s') /\
  o_best_ind (s_obj s) = b0 /\ o_best_ind (s_obj s') = b0'.

Lemma same_row r r' : In r (r0 :: rs) -> In r' (r0 :: rs) -> np_le (f r) (f r') = true -> np_le (f r') (f r) = true -> r = r'.
Proof.
  intros Hr Hr' H1 H2. apply (distinct r r' Hr Hr'). apply fle_antisym_feq; apply np_le_fle; auto.
Qed.

Lemma promote_same (x : dtype) : promote x x = x.
Proof. destruct x; reflexivity. Qed.
Lemma concat_own (a : arr) l : np_concatenate a (mkArr (a_dt a) (a_nc a) l) = Ok (mkArr (a_dt a) (a_nc a) (a_rows a ++ l)).
Proof.
  unfold np_concatenate. cbn [a_nc a_dt]. rewrite Nat.eqb_refl, promote_same. unfold rows_as. cbn [a_dt a_rows].
  destruct (a_dt a); reflexivity.
Qed.

(** What selecting from individuals and the first of them does. *)
Lemma trunc_run (s : st) g l v : o_gen (s_obj s) = g -> o_elite (s_obj s) = mkArr (a_dt g) (a_nc g) l ->
  o_evals (s_obj s) = map f (a_rows g) -> o_evel (s_obj s) = map f l ->
  gather (h_argsort h (map f (a_rows g ++ l))) (a_rows g ++ l) = Ok v ->
  truncation c h s =
  (Ok tt, mkSt (mkObj (mkArr (a_dt g) (a_nc g) (slice_to (c_trunc_len c) v)) (map f (slice_to (c_trunc_len c) v))
                      (mkArr (a_dt g) (a_nc g) (slice_to (c_elite_len c) v)) (map f (slice_to (c_elite_len c) v))
                      (o_best_cost (s_obj s)) (o_best_ind (s_obj s))) (s_pm s) (s_w s)
               (s_tr s ++ [EvSelect (combine (slice_to (c_trunc_len c) v) (map f (slice_to (c_trunc_len c) v)))
                                    (combine (slice_to (c_elite_len c) v) (map f (slice_to (c_elite_len c) v)))])).
Proof.
  intros G E V L Hg. unfold truncation, mbind, get_obj, mlift, put_obj, log. cbn [s_obj s_pm s_w s_tr].
  rewrite G, E, V, L, concat_own, <- map_app. unfold take_rows. cbn [a_rows a_dt a_nc].
  rewrite (gather_slice _ _ _ _ Hg). cbn [rmap]. rewrite (gather_slice _ _ _ _ Hg). cbn [rmap].
  rewrite !gather_fmap, !(gather_slice _ _ _ _ Hg). cbn [rmap]. reflexivity.
Qed.

Lemma begun_truncation : rel begun beside (truncation c h) (truncation c h) (same near).
Proof.
  intros s s' (Hb & G & G' & V & V' & E & E' & L & L' & Bc & Bi & Bi').
  assert (Hp : Permutation (a_rows d ++ [r0]) (a_rows d' ++ [r0])).
  { rewrite rows_d, rows_d'. apply Permutation_app_tail, perm_skip, reorder. }
  destruct (argsort_same (h_argsort h) f _ _ sorts Hp) as [v [Hv Hv']].
  { intros x y Hx Hy. apply same_row; rewrite rows_d in *.
    - apply in_app_or in Hx as [Hx|[<-|[]]]; [exact Hx|left; reflexivity].
    - apply in_app_or in Hy as [Hy|[<-|[]]]; [exact Hy|left; reflexivity]. }
  rewrite (trunc_run s d [r0] v G E V L Hv).
  rewrite <- dt_eq, <- nc_eq in E'. rewrite (trunc_run s' d' [r0] v G' E' V' L' Hv').
  split; [reflexivity|]. split; [apply beside_log, Hb|]. cbn [s_obj]. rewrite dt_eq, nc_eq. repeat split; [exact Bc|]. right. auto.
Qed.

Lemma begun_loop ftol out wn n it hist nb :
  rel begun beside (loop c h ftol out wn n it hist nb) (loop c h ftol out wn n it hist nb)
      (fun a a' s s' => a = a' /\ (begun s s' \/ near s s')).
Proof.
  destruct n as [|n]; cbn [loop]; [intros s s' H; split; [reflexivity|left; exact H]|].
  eapply rel_bind_same; [apply near_iteration, begun_truncation|]. intros [x a]. cbn [fst snd]. cbv zeta.
  assert (Hp : rel near beside (print_if out (fun o => PrIter it (o_best_cost o))) (print_if out (fun o => PrIter it (o_best_cost o))) (same near)).
  { apply near_print. intros o o' (_ & _ & _ & _ & -> & _). reflexivity. }
  assert (Hw : forall m m' : M (list f64), rel near beside m m' (same near) ->
    rel near beside m m' (fun a a' s s' => a = a' /\ (begun s s' \/ near s s'))).
  { intros m m' H s s' Hs. specialize (H s s' Hs). destruct (m s) as [[?|?] ?], (m' s') as [[?|?] ?]; auto.
    destruct H as [H1 H2]. split; [exact H1|right; exact H2]. }
  destruct a; [eapply rel_bind_same; [exact Hp|intros _; apply Hw, near_loop]|].
  destruct (Z.eqb (nb + 1) (c_dead_iter c)); [apply Hw, rel_ret|]. eapply rel_bind_same; [exact Hp|intros _; apply Hw, near_loop].
Qed.

Lemma begun_print out (p : obj -> printed) : (forall o o', o_best_cost o = o_best_cost o' -> p o = p o') ->
  rel begun beside (print_if out p) (print_if out p) (same begun).
Proof.
  intros H s s' (Hb & G & G' & V & V' & E & E' & L & L' & Bc & Bi & Bi'). unfold print_if, mbind, get_obj, log, mret.
  destruct out; (split; [reflexivity|]).
  - rewrite (H _ _ Bc). split; [apply beside_log, Hb|]. cbn. repeat split; assumption.
  - repeat split; assumption || apply Hb.
Qed.

Lemma begun_noise : rel begun beside (draw_noise c h) (draw_noise c h) (same begun).
Proof.
  intros s s' H. pose proof H as ((X1 & X2 & X3) & Hrest). unfold draw_noise.
  destruct (py_eq_int (c_w_noise c) 0); [split; [reflexivity|exact H]|].
  destruct (py_eq_int (c_w_noise c) (-1)); [split; [reflexivity|exact H]|].
  destruct (_ || _ || _)%bool; [split; [reflexivity|apply H]|].
  unfold mbind, mret. rewrite <- X2. destruct (h_normal h _ (s_w s)) as [x w]. split; [reflexivity|].
  split; [split; [exact X1|split; [reflexivity|exact X3]]|exact Hrest].
Qed.

End Order.

Section Runs.
Context {S W : Type}.
Local Notation st := (st S W).
Variable h : hooks S W.
Variable f : row -> f64.
Hypothesis pure : forall r w, h_cost h r w = (Ok (NF (f r)), w).

(** What the first generation leaves behind when the cost function is a function of the individual. *)
Lemma first_run (c : cfg) (s : st) g r0 rs : c_init_data c = Some g -> a_rows g = r0 :: rs -> isnan (f r0) = false ->
  (c_parallelize c = false \/ cpu_count (h_pool h) <= List.length (a_rows g)) ->
  exists m i r, first_generation c h s =
    (Ok m, mkSt (mkObj g (map f (a_rows g)) (mkArr (a_dt g) (a_nc g) [r0]) [f r0] m (BIdx i)) (s_pm s) (s_w s)
                (s_tr s ++ calls_of (a_rows g) (map (fun x => NF (f x)) (a_rows g)) ++ [EvGen g (map (fun x => NF (f x)) (a_rows g)) (map f (a_rows g))])) /\
    py_min (map f (a_rows g)) = Ok m /\ isnan m = false /\ nth_error (a_rows g) i = Some r /\ feq (f r) m = true.
Proof.
  intros Hd Hr Hn Hp.
  destruct (py_min (map f (a_rows g))) as [m|e] eqn:Em; [|rewrite Hr in Em; discriminate].
  assert (Hm : isnan m = false) by (rewrite Hr in Em; exact (py_min_num_head _ _ _ Em Hn)).
  destruct (py_min_spec _ _ Em) as [Hin _].
  destruct (np_where_some (fun x => feq x m) _ m Hin) as [i Hi]; [apply feq_refl; exact Hm|].
  destruct (np_where_first _ _ _ Hi) as [x [Hx Hfe]]. rewrite nth_error_map in Hx.
  destruct (nth_error (a_rows g) i) as [r|] eqn:Er; [|discriminate]. cbn [option_map] in Hx. injection Hx as <-.
  exists m, i, r. split; [|auto].
  assert (Hst : store_all (map (fun x => NF (f x)) (a_rows g)) = map f (a_rows g)).
  { rewrite Hr. cbn [map store_all]. f_equal. rewrite map_map. reflexivity. }
  unfold first_generation, initialize_generation. rewrite Hd. unfold mbind at 1, mret at 1.
  unfold mbind at 1, set_gen at 1, mbind at 1, get_obj at 1, put_obj at 1.
  unfold mbind at 1. unfold check_generation at 1, mbind at 1, get_obj at 1. unfold mbind at 1. cbn [s_obj o_gen].
  match goal with |- context[(if c_parallelize c then _ else _) ?s0] =>
    assert (Hev : (if c_parallelize c then parallel_rows h (a_rows g) else apply_rows h (a_rows g)) s0
      = (Ok (map (fun x => NF (f x)) (a_rows g), map f (a_rows g)),
         mkSt (s_obj s0) (s_pm s0) (s_w s0) (s_tr s0 ++ calls_of (a_rows g) (map (fun x => NF (f x)) (a_rows g))))) end.
  { assert (Ha : forall s0 : st, apply_rows h (a_rows g) s0 = (Ok (map (fun x => NF (f x)) (a_rows g), map f (a_rows g)),
         mkSt (s_obj s0) (s_pm s0) (s_w s0) (s_tr s0 ++ calls_of (a_rows g) (map (fun x => NF (f x)) (a_rows g))))).
    { intros s0. rewrite (apply_rows_pure h (fun x => NF (f x)) pure) by (rewrite Hr; discriminate). rewrite Hst. reflexivity. }
    destruct (c_parallelize c); [|apply Ha]. destruct Hp as [Hp|Hp]; [discriminate|].
    rewrite (parallel_serial_lemma h (fun x => NF (f x)) pure); [apply Ha| |exact Hp]. left. intros x _. eexists. reflexivity. }
  rewrite Hev. clear Hev. cbn [fst snd s_obj s_pm s_w s_tr].
  unfold mbind, put_obj, log, get_obj, mlift, mret. cbn [s_obj s_pm s_w s_tr o_gen o_evals o_elite o_evel o_best_cost o_best_ind].
  rewrite Em, Hi. rewrite Hr at 2. cbn [map]. rewrite Hr. cbn [map]. cbn [s_obj s_pm s_w s_tr o_gen o_evals o_elite o_evel o_best_cost o_best_ind].
  rewrite <- app_assoc. reflexivity.
Qed.

Hypothesis sorts : argsort_ok (h_argsort h).

Lemma run_on {A B} (m : M S W A) (k : A -> M S W B) (s : st) a (t : st) : m s = (Ok a, t) -> mbind m k s = k a t.
Proof. intros H. unfold mbind. rewrite H. reflexivity. Qed.

(** What minimize does between the first generation and the end of the loop. *)
Definition middle (c : cfg) ftol out (m : f64) : M S W (list f64) :=
  mbind (draw_noise c h) (fun wn => mbind (print_if out (fun o => PrIter 0 (o_best_cost o))) (fun _ =>
    loop c h ftol out wn (Z.to_nat (c_max_iter c - 1)) 1%Z [m] 0%Z)).
(** What it does after the loop. *)
Definition closing (c : cfg) (hist : list f64) : M S W result :=
  let nfev := (Z.of_nat (List.length hist) * c_size_gen c)%Z in
  mbind (print_if (c_disp c) (fun o => PrFinal nfev (o_best_cost o) (o_best_ind o))) (fun _ =>
  mbind get_obj (fun o => mret (mkResult (o_best_ind o) (o_best_cost o) nfev hist (h_settings h)))).
Lemma minimize_parts c ftol out (s : st) :
  minimize c h ftol out s = mbind (first_generation c h) (fun m => mbind (middle c ftol out m) (closing c)) s.
Proof.
  unfold minimize, middle, closing, mbind. destruct (first_generation c h s) as [[m|e] s1]; [|reflexivity].
  destruct (draw_noise c h s1) as [[wn|e] s2]; [|reflexivity].
  destruct (print_if out _ s2) as [[u|e] s3]; reflexivity.
Qed.

(** The events of the first generation. *)
Definition begins (g : arr) : list ev :=
  calls_of (a_rows g) (map (fun x => NF (f x)) (a_rows g)) ++ [EvGen g (map (fun x => NF (f x)) (a_rows g)) (map f (a_rows g))].

(** The results of two runs: the same, but for the position of the best initial individual. *)
Definition same_result (d d' : arr) (r r' : result) : Prop :=
  r_history r = r_history r' /\ r_best_cost r = r_best_cost r' /\ r_nfev r = r_nfev r' /\ r_settings r = r_settings r' /\
  (r_best_ind r = r_best_ind r' \/
   exists i i' x, r_best_ind r = BIdx i /\ r_best_ind r' = BIdx i' /\ nth_error (a_rows d) i = Some x /\ nth_error (a_rows d') i' = Some x).

Lemma reordered_trace (c : cfg) ftol out (s s' : st) (d d' : arr) (r0 : row) (rs rs' : list row) :
  c_init_data c = Some d -> a_dt d' = a_dt d -> a_nc d' = a_nc d -> a_rows d = r0 :: rs -> a_rows d' = r0 :: rs' -> Permutation rs rs' ->
  (forall r, In r (a_rows d) -> isnan (f r) = false) ->
  (forall r r', In r (a_rows d) -> In r' (a_rows d) -> feq (f r) (f r') = true -> r = r') ->
  (c_parallelize c = false \/ cpu_count (h_pool h) <= List.length (a_rows d)) ->
  s_pm s = s_pm s' -> s_w s = s_w s' ->
  match minimize c h ftol out s, minimize (with_data d' c) h ftol out s' with
  | (Ok r, t), (Ok r', t') => same_result d d' r r' /\ s_pm t = s_pm t' /\ s_w t = s_w t' /\
      exists u p p', s_tr t = (s_tr s ++ begins d) ++ u ++ p /\ s_tr t' = (s_tr s' ++ begins d') ++ u ++ p' /\
                     Forall (fun e => match e with EvPrint (PrFinal _ _ _) => True | _ => False end) (p ++ p')
  | (Raise e, t), (Raise e', t') => e = e' /\ s_pm t = s_pm t' /\ s_w t = s_w t' /\
      exists u, s_tr t = (s_tr s ++ begins d) ++ u /\ s_tr t' = (s_tr s' ++ begins d') ++ u
  | _, _ => False
  end.
Proof.
  intros Hd Hdt Hnc Hr Hr' Hp Hn Hdis Hcores Hpm Hw.
  assert (Hlen : List.length (a_rows d') = List.length (a_rows d)).
  { rewrite Hr, Hr'. cbn. rewrite (Permutation_length Hp). reflexivity. }
  assert (Hin' : forall x, In x (a_rows d') -> In x (a_rows d)).
  { intros x. rewrite Hr, Hr'. apply Permutation_in, perm_skip, Permutation_sym, Hp. }
  assert (Hin : forall x, In x (a_rows d) -> In x (a_rows d')).
  { intros x. rewrite Hr, Hr'. apply Permutation_in, perm_skip, Hp. }
  assert (Hn0 : isnan (f r0) = false) by (apply Hn; rewrite Hr; left; reflexivity).
  destruct (first_run c s d r0 rs Hd Hr Hn0 Hcores) as [m [i [x [E1 [Hm [Nm [Hi Hx]]]]]]].
  destruct (first_run (with_data d' c) s' d' r0 rs' eq_refl Hr' Hn0) as [m' [i' [x' [E2 [Hm' [Nm' [Hi' Hx']]]]]]].
  { rewrite Hlen. exact Hcores. }
  (* the smallest cost is that of the same individual *)
  assert (Hxx : x = x' /\ m = m').
  { destruct (py_min_spec _ _ Hm) as [Mi Ml]. destruct (py_min_spec _ _ Hm') as [Mi' Ml'].
    apply in_map_iff in Mi as [y [<- Hy]]. apply in_map_iff in Mi' as [y' [<- Hy']].
    assert (Hyy : y = y').
    { apply Hdis; [exact Hy|apply Hin', Hy'|]. apply fle_antisym_feq; apply flt_false_fle; auto.
      - apply (Ml Nm). apply in_map, Hin', Hy'.
      - apply (Ml' Nm'). apply in_map, Hin, Hy. }
    assert (x = y) by (apply Hdis; [apply (nth_error_In _ _ Hi)|exact Hy|exact Hx]).
    assert (x' = y') by (apply Hdis; [apply Hin', (nth_error_In _ _ Hi')|apply Hin', Hy'|exact Hx']).
    split; congruence. }
  destruct Hxx as [<- <-].
  pose (N := begun (S:=S) (W:=W) (s_tr s ++ begins d) (s_tr s' ++ begins d') (BIdx i) (BIdx i') f d d' r0).
  pose (B := beside (S:=S) (W:=W) (s_tr s ++ begins d) (s_tr s' ++ begins d')).
  assert (Hbody : rel N B (middle c ftol out m) (middle c ftol out m)
    (fun a a' t t' => a = a' /\ (N t t' \/ near (s_tr s ++ begins d) (s_tr s' ++ begins d') (BIdx i) (BIdx i') t t'))).
  { unfold middle. eapply rel_bind_same; [apply begun_noise|]. intros wn.
    eapply rel_bind_same; [apply begun_print; intros o o' ->; reflexivity|]. intros _.
    apply (begun_loop c h _ _ _ _ f sorts d d' r0 rs rs'); try assumption.
    - rewrite <- Hr. exact Hn.
    - rewrite <- Hr. exact Hdis. }
  rewrite !minimize_parts, (run_on _ _ _ _ _ E1), (run_on _ _ _ _ _ E2). clear E1 E2.
  match goal with |- match (mbind _ _ ?a) with _ => _ end => pose (sa := a) end.
  match goal with |- context[mbind (middle (with_data d' c) ftol out m) _ ?a] => pose (sb := a) end.
  assert (HN : N sa sb).
  { subst sa sb. unfold N, begun, beside. cbn [s_obj s_pm s_w s_tr o_gen o_evals o_elite o_evel o_best_cost o_best_ind].
    rewrite Hdt, Hnc. repeat split; try assumption. exists []. unfold begins. rewrite !app_nil_r. auto. }
  specialize (Hbody sa sb HN). fold sa. fold sb. clearbody sa sb.
  change (middle (with_data d' c)) with (middle c). change (closing (with_data d' c)) with (closing c).
  unfold mbind.
  destruct (middle c ftol out m sa) as [[hist|e] t]; destruct (middle c ftol out m sb) as [[hist'|e'] t']; try contradiction.
  2:{ destruct Hbody as [<- (K1 & K2 & u & K3 & K4)]. cbv beta iota. split; [reflexivity|]. split; [exact K1|]. split; [exact K2|]. exists u. auto. }
  destruct Hbody as [<- Hs].
  assert (HB : B t t' /\ o_best_cost (s_obj t) = o_best_cost (s_obj t') /\
    (o_best_ind (s_obj t) = o_best_ind (s_obj t') \/ o_best_ind (s_obj t) = BIdx i /\ o_best_ind (s_obj t') = BIdx i')).
  { destruct Hs as [Hs|[Hb (_ & _ & _ & _ & K1 & K2)]]; [|auto].
    unfold N, begun in Hs. destruct Hs as (Hb & _ & _ & _ & _ & _ & _ & _ & _ & K1 & K2 & K3). auto. }
  clear Hs HN. destruct HB as [HB [Kc Ki]]. unfold B, beside in HB. destruct HB as (K1 & K2 & u & K3 & K4).
  unfold closing, print_if, mbind, get_obj, log, mret. cbv zeta.
  destruct (c_disp c); cbn [s_obj s_pm s_w s_tr].
  - split.
    + repeat split; [exact Kc|]. destruct Ki as [Ki|[Ki Ki']]; [left; exact Ki|right; exists i, i', x; auto].
    + split; [exact K1|]. split; [exact K2|].
      exists u. eexists [_]. eexists [_]. rewrite K3, K4, <- !app_assoc. split; [reflexivity|]. split; [reflexivity|]. repeat constructor.
  - split.
    + repeat split; [exact Kc|]. destruct Ki as [Ki|[Ki Ki']]; [left; exact Ki|right; exists i, i', x; auto].
    + split; [exact K1|]. split; [exact K2|].
      exists u, [], []. rewrite K3, K4, !app_nil_r. auto.
Qed.

(** ... in terms of what can be observed of the runs. *)
Lemma reordered_run : forall (c : cfg) ftol out (s s' : st) (d d' : arr) (r0 : row) (rs rs' : list row),
  c_init_data c = Some d -> a_dt d' = a_dt d -> a_nc d' = a_nc d -> a_rows d = r0 :: rs -> a_rows d' = r0 :: rs' -> Permutation rs rs' ->
  (forall r, In r (a_rows d) -> isnan (f r) = false) ->
  (forall r r', In r (a_rows d) -> In r' (a_rows d) -> feq (f r) (f r') = true -> r = r') ->
  (c_parallelize c = false \/ cpu_count (h_pool h) <= List.length (a_rows d)) ->
  s_pm s = s_pm s' -> s_w s = s_w s' -> s_tr s = [] -> s_tr s' = [] ->
  let x := minimize c h ftol out s in
  let x' := minimize (with_data d' c) h ftol out s' in
  match fst x, fst x' with Ok r, Ok r' => same_result d d' r r' | Raise e, Raise e' => e = e' | _, _ => False end /\
  s_pm (snd x) = s_pm (snd x') /\ s_w (snd x) = s_w (snd x') /\
  (exists G, gens (s_tr (snd x)) = (d, map f (a_rows d)) :: G /\ gens (s_tr (snd x')) = (d', map f (a_rows d')) :: G) /\
  selections (s_tr (snd x)) = selections (s_tr (snd x')) /\ learns (s_tr (snd x)) = learns (s_tr (snd x')) /\
  progress (s_tr (snd x)) = progress (s_tr (snd x')).
Proof.
  intros c ftol out s s' d d' r0 rs rs' Hd Hdt Hnc Hr Hr' Hp Hn Hdis Hcores Hpm Hw Ht Ht' x x'.
  pose proof (reordered_trace c ftol out s s' d d' r0 rs rs' Hd Hdt Hnc Hr Hr' Hp Hn Hdis Hcores Hpm Hw) as H.
  fold x x' in H. rewrite Ht, Ht' in H. cbn [app] in H. clearbody x x'.
  assert (Hobs : forall g u p p', Forall (fun e => match e with EvPrint (PrFinal _ _ _) => True | _ => False end) (p ++ p') ->
    gens (begins g ++ u ++ p) = (g, map f (a_rows g)) :: gens u /\ selections (begins g ++ u ++ p) = selections u /\
    learns (begins g ++ u ++ p) = learns u /\ progress (begins g ++ u ++ p) = progress u).
  { intros g u p p' Hpp. apply Forall_app in Hpp as [Hpp _].
    assert (Hq : gens p = [] /\ selections p = [] /\ learns p = [] /\ progress p = []).
    { clear - Hpp. induction Hpp as [|e p He _ (I1 & I2 & I3 & I4)]; [repeat split; reflexivity|].
      destruct e as [| | | |[| ]]; try contradiction. repeat split; assumption. }
    destruct Hq as (Q1 & Q2 & Q3 & Q4). unfold begins, gens, selections, learns, progress, prints in *.
    rewrite !flat_map_app, Q1, Q2, Q3.
    pose proof (gens_calls_of (a_rows g) (map (fun x => NF (f x)) (a_rows g))) as Z1.
    pose proof (selections_calls_of (a_rows g) (map (fun x => NF (f x)) (a_rows g))) as Z2.
    pose proof (learns_calls_of (a_rows g) (map (fun x => NF (f x)) (a_rows g))) as Z3.
    pose proof (prints_calls_of (a_rows g) (map (fun x => NF (f x)) (a_rows g))) as Z4.
    unfold gens, selections, learns, prints in Z1, Z2, Z3, Z4. rewrite Z1, Z2, Z3, Z4. cbn [flat_map app]. rewrite ?flat_map_app, ?Q4, ?app_nil_r. cbn [flat_map app]. repeat split. }
  destruct x as [[r|e] t]; destruct x' as [[r'|e'] t']; try contradiction; cbn [fst snd] in *.
  - destruct H as (H1 & H2 & H3 & u & p & p' & H4 & H5 & H6). split; [exact H1|]. split; [exact H2|]. split; [exact H3|].
    destruct (Hobs d u p p' H6) as (O1 & O2 & O3 & O4).
    assert (H6' : Forall (fun e => match e with EvPrint (PrFinal _ _ _) => True | _ => False end) (p' ++ p)).
    { apply Forall_app in H6 as [A1 A2]. apply Forall_app. auto. }
    destruct (Hobs d' u p' p H6') as (O1' & O2' & O3' & O4').
    rewrite H4, H5, O1, O2, O3, O4, O1', O2', O3', O4'. split; [exists (gens u); auto|auto].
  - destruct H as (H1 & H2 & H3 & u & H4 & H5). split; [exact H1|]. split; [exact H2|]. split; [exact H3|].
    destruct (Hobs d u [] [] (Forall_nil _)) as (O1 & O2 & O3 & O4). destruct (Hobs d' u [] [] (Forall_nil _)) as (O1' & O2' & O3' & O4').
    rewrite app_nil_r in O1, O2, O3, O4, O1', O2', O3', O4'.
    rewrite H4, H5, O1, O2, O3, O4, O1', O2', O3', O4'. split; [exists (gens u); auto|auto].
Qed.
End Runs.
