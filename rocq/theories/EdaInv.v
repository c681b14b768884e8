(** Inversion lemmas and induction rules for successful runs of the modelled optimiser. *)
From Coq Require Import String List ZArith Bool Lia.
From Verif Require Import PyBase B64 NdArray Eda.
Import ListNotations.

(* ------------------------------------------------------------------ *)
(** ** array_split *)

Lemma split_sizes_concat {A} (sizes : list nat) (l : list A) :
  list_sum sizes = List.length l -> concat (split_sizes sizes l) = l.
Proof.
  revert l. induction sizes as [|s sizes IH]; intros l Hs; cbn [split_sizes concat].
  - cbn in Hs. destruct l; [reflexivity|discriminate].
  - change (list_sum (s :: sizes)) with (s + list_sum sizes) in Hs.
    rewrite IH.
    + apply firstn_skipn.
    + rewrite skipn_length. lia.
Qed.

Lemma list_sum_repeat (x n : nat) : list_sum (repeat x n) = n * x.
Proof.
  induction n as [|n IH]; cbn [repeat]; [reflexivity|].
  change (list_sum (x :: repeat x n)) with (x + list_sum (repeat x n)). lia.
Qed.

Lemma array_split_concat {A} (k : nat) (l : list A) : k <> 0 -> concat (array_split k l) = l.
Proof.
  intros Hk. unfold array_split. apply split_sizes_concat.
  rewrite list_sum_app, !list_sum_repeat.
  pose proof (Nat.div_mod (List.length l) k Hk) as Hd.
  pose proof (Nat.mod_upper_bound (List.length l) k Hk) as Hm.
  remember (List.length l / k) as q. remember (List.length l mod k) as r. nia.
Qed.

Lemma split_sizes_length {A} (sizes : list nat) (l : list A) :
  List.length (split_sizes sizes l) = List.length sizes.
Proof. revert l; induction sizes as [|s sizes IH]; intros l; cbn; [reflexivity|rewrite IH; reflexivity]. Qed.

Lemma array_split_length {A} (k : nat) (l : list A) :
  k <> 0 -> List.length (array_split k l) = k.
Proof.
  intros Hk. unfold array_split. rewrite split_sizes_length, app_length, !repeat_length.
  pose proof (Nat.mod_upper_bound (List.length l) k Hk). lia.
Qed.

Lemma split_sizes_nonempty {A} (sizes : list nat) (l : list A) :
  Forall (fun s => 1 <= s) sizes -> list_sum sizes <= List.length l ->
  Forall (fun ch => ch <> []) (split_sizes sizes l).
Proof.
  revert l. induction sizes as [|s sizes IH]; intros l Hf Hs; cbn [split_sizes]; constructor.
  - inversion Hf as [|? ? H1 H2]; subst.
    change (list_sum (s :: sizes)) with (s + list_sum sizes) in Hs.
    destruct l as [|x l]; cbn in Hs; [lia|]. destruct s; [lia|]. cbn. discriminate.
  - inversion Hf as [|? ? H1 H2]; subst.
    change (list_sum (s :: sizes)) with (s + list_sum sizes) in Hs.
    apply IH; [exact H2|]. rewrite skipn_length. lia.
Qed.

Lemma array_split_nonempty {A} (k : nat) (l : list A) :
  k <> 0 -> k <= List.length l -> Forall (fun ch => ch <> []) (array_split k l).
Proof.
  intros Hk Hl. unfold array_split. apply split_sizes_nonempty.
  - apply Forall_app. split; apply Forall_forall; intros s Hs; apply repeat_spec in Hs; subst.
    + lia.
    + apply Nat.div_le_lower_bound; lia.
  - rewrite list_sum_app, !list_sum_repeat.
    pose proof (Nat.div_mod (List.length l) k Hk) as Hd.
    pose proof (Nat.mod_upper_bound (List.length l) k Hk) as Hm.
    remember (List.length l / k) as q. remember (List.length l mod k) as r. nia.
Qed.

(* ------------------------------------------------------------------ *)
(** ** Vocabulary *)

(** The trace left by calling the cost function on rows [rs] with results [vs]. *)
Fixpoint calls_of (rs : list row) (vs : list num) : list ev :=
  match rs, vs with
  | r :: rs', v :: vs' => EvCall r v :: calls_of rs' vs'
  | _, _ => []
  end.

(** How returned values are stored: per evaluated batch, with the type of its first value. *)
Definition Stored (rets : list num) (vals : list f64) : Prop :=
  exists chs, rets = concat chs /\ vals = concat (map store_all chs).

Definition is_print (e : ev) : Prop := match e with EvPrint _ => True | _ => False end.

Lemma store_all_length (vs : list num) : List.length (store_all vs) = List.length vs.
Proof. destruct vs as [|v vs]; cbn; [reflexivity|]. rewrite map_length. reflexivity. Qed.

Lemma Stored_length (rets : list num) (vals : list f64) :
  Stored rets vals -> List.length vals = List.length rets.
Proof.
  intros [chs [-> ->]]. induction chs as [|ch chs IH]; cbn; [reflexivity|].
  rewrite !app_length, store_all_length, IH. reflexivity.
Qed.

Lemma calls_of_app (r1 r2 : list row) (v1 v2 : list num) :
  List.length r1 = List.length v1 ->
  calls_of (r1 ++ r2) (v1 ++ v2) = calls_of r1 v1 ++ calls_of r2 v2.
Proof.
  revert v1. induction r1 as [|r r1 IH]; intros [|v v1] H; cbn in *; try discriminate; [reflexivity|].
  rewrite IH by lia. reflexivity.
Qed.

Section Inv.
Context {S W : Type}.
Variable c : cfg.
Variable h : hooks S W.

Local Notation st := (st S W).

(** [s'] is [s] with some prints appended to the trace. *)
Definition printed_after (s s' : st) : Prop :=
  exists ps, Forall is_print ps /\
             s' = mkSt (s_obj s) (s_pm s) (s_w s) (s_tr s ++ ps).

Lemma printed_after_refl (s : st) : printed_after s s.
Proof. exists []. split; [constructor|]. rewrite app_nil_r. destruct s; reflexivity. Qed.

Lemma mbind_ok {A B} (m : M S W A) (f : A -> M S W B) (s s' : st) (b : B) :
  mbind m f s = (Ok b, s') -> exists a s1, m s = (Ok a, s1) /\ f a s1 = (Ok b, s').
Proof. unfold mbind. destruct (m s) as [[a|e] s1]; [|discriminate]. intros H. exists a, s1. split; [reflexivity|exact H]. Qed.

Lemma get_obj_ok (s s' : st) o : get_obj s = (Ok o, s') -> o = s_obj s /\ s' = s.
Proof. intros H. injection H as <- <-. split; reflexivity. Qed.

Lemma put_obj_ok (s s' : st) o u : put_obj o s = (Ok u, s') -> s' = mkSt o (s_pm s) (s_w s) (s_tr s).
Proof. intros H. injection H as <- <-. reflexivity. Qed.

Lemma log_ok (s s' : st) e u : log e s = (Ok u, s') -> s' = mkSt (s_obj s) (s_pm s) (s_w s) (s_tr s ++ [e]).
Proof. intros H. injection H as <- <-. reflexivity. Qed.

Lemma mlift_ok {A} (r : res A) (s s' : st) (a : A) : mlift r s = (Ok a, s') -> r = Ok a /\ s' = s.
Proof. intros H. injection H as -> <-. split; reflexivity. Qed.

Lemma mret_ok {A} (a b : A) (s s' : st) : mret a s = (Ok b, s') -> b = a /\ s' = s.
Proof. intros H. injection H as <- <-. split; reflexivity. Qed.

Lemma set_gen_ok (s s' : st) g u :
  set_gen g s = (Ok u, s') ->
  s' = mkSt (mkObj g (o_evals (s_obj s)) (o_elite (s_obj s)) (o_evel (s_obj s))
                   (o_best_cost (s_obj s)) (o_best_ind (s_obj s))) (s_pm s) (s_w s) (s_tr s).
Proof. intros H. injection H as <- <-. reflexivity. Qed.

Lemma update_pm_ok (s s' : st) u :
  update_pm h s = (Ok u, s') ->
  exists data p1 p2 w2,
    h_data h (o_gen (s_obj s)) (o_elite (s_obj s)) (s_pm s) = (Ok data, p1) /\
    h_learn h data p1 (s_w s) = (Ok tt, (p2, w2)) /\
    s' = mkSt (s_obj s) p2 w2 (s_tr s ++ [EvLearn data]).
Proof.
  intros H. unfold update_pm in H.
  apply mbind_ok in H as (o & s1 & H1 & H). apply get_obj_ok in H1 as [-> ->].
  apply mbind_ok in H as (data & s2 & H2 & H).
  destruct (h_data h _ _ (s_pm s)) as [r p1] eqn:Hd in H2. injection H2 as -> <-.
  apply mbind_ok in H as (u2 & s3 & H3 & H). apply log_ok in H3 as ->.
  cbn [s_obj s_pm s_w s_tr] in H.
  destruct (h_learn h data p1 (s_w s)) as [r [p2 w2]] eqn:Hl. injection H as -> <-.
  destruct u. exists data, p1, p2, w2. repeat split; assumption.
Qed.

Lemma new_generation_ok (s s' : st) u :
  new_generation h s = (Ok u, s') ->
  exists g w', h_sample h (s_pm s) (s_w s) = (Ok g, w') /\
    s' = mkSt (mkObj g (o_evals (s_obj s)) (o_elite (s_obj s)) (o_evel (s_obj s))
                   (o_best_cost (s_obj s)) (o_best_ind (s_obj s))) (s_pm s) w' (s_tr s).
Proof.
  intros H. unfold new_generation in H. apply mbind_ok in H as (g & s1 & H1 & H).
  destruct (h_sample h (s_pm s) (s_w s)) as [r w'] eqn:E. injection H1 as -> <-.
  apply set_gen_ok in H. exists g, w'. split; [reflexivity|exact H].
Qed.

(* ---------------- evaluation ---------------- *)

Lemma call_rows_inv (rs : list row) (s s' : st) (vs : list num) :
  call_rows h rs s = (Ok vs, s') ->
  List.length vs = List.length rs /\
  exists w', s' = mkSt (s_obj s) (s_pm s) w' (s_tr s ++ calls_of rs vs).
Proof.
  revert s vs. induction rs as [|r rs IH]; intros s vs H; cbn [call_rows] in H.
  - cbv [mret] in H. injection H as <- <-. split; [reflexivity|].
    exists (s_w s). cbn. rewrite app_nil_r. destruct s; reflexivity.
  - cbv [mbind call1 with_world log mret] in H.
    destruct (h_cost h r (s_w s)) as [[v|e] w'] eqn:Hc; cbn in H; [|discriminate].
    destruct (call_rows h rs _) as [[vs'|e] s1] eqn:Hr in H; [|discriminate].
    injection H as <- <-. apply IH in Hr as [Hlen [w1 Hs1]]. split; [cbn; lia|].
    exists w1. rewrite Hs1. cbn. rewrite <- app_assoc. reflexivity.
Qed.

Lemma apply_rows_inv (rs : list row) (s s' : st) (vs : list num) (vals : list f64) :
  apply_rows h rs s = (Ok (vs, vals), s') ->
  rs <> [] /\ List.length vs = List.length rs /\ vals = store_all vs /\
  exists w', s' = mkSt (s_obj s) (s_pm s) w' (s_tr s ++ calls_of rs vs).
Proof.
  intros H. unfold apply_rows in H. destruct rs as [|r rs]; [discriminate|].
  cbv [mbind mret] in H.
  destruct (call_rows h (r :: rs) s) as [[vs'|e] s1] eqn:Hr; [|discriminate].
  injection H as <- <- <-. apply call_rows_inv in Hr as [Hlen [w' Hs]].
  repeat split; [discriminate|exact Hlen|]. exists w'. exact Hs.
Qed.

Lemma run_chunks_inv (i : nat) (chunks : list (list row)) (o : obj) (p : S) (ws : nat -> W)
      results tr :
  run_chunks h i chunks o p ws = (results, tr) -> failures results = [] ->
  Forall (fun ch => ch <> []) chunks /\
  exists rets, map fst (successes results) = rets /\
               map snd (successes results) = map store_all rets /\
               Forall2 (fun ch vs => List.length vs = List.length ch) chunks rets /\
               tr = calls_of (concat chunks) (concat rets).
Proof.
  revert i ws results tr. induction chunks as [|ch chunks IH]; intros i ws results tr H Hf.
  - cbn in H. injection H as <- <-. split; [constructor|]. exists []. repeat split; constructor.
  - cbn [run_chunks] in H. unfold run_chunk in H.
    destruct (apply_rows h ch _) as [r s1] eqn:Ha in H.
    destruct (run_chunks h (Datatypes.S i) chunks o p _) as [rs trs] eqn:Hr in H.
    injection H as <- <-. cbn [failures] in Hf.
    destruct r as [[vs vals]|e]; [|discriminate].
    apply apply_rows_inv in Ha as [Hne [Hlen [Hvals [w' Hs1]]]].
    destruct (IH _ _ _ _ Hr Hf) as [Hne' [rets [H1 [H2 [H3 H4]]]]].
    split; [constructor; assumption|]. exists (vs :: rets).
    cbn [successes map fst snd concat]. rewrite H1, H2. repeat split.
    + subst vals. reflexivity.
    + constructor; assumption.
    + rewrite Hs1. cbn [s_tr app]. rewrite calls_of_app by (symmetry; exact Hlen).
      rewrite H4. reflexivity.
Qed.

Lemma parallel_rows_inv (rs : list row) (s s' : st) (vs : list num) (vals : list f64) :
  parallel_rows h rs s = (Ok (vs, vals), s') ->
  rs <> [] /\ List.length vs = List.length rs /\ Stored vs vals /\
  s' = mkSt (s_obj s) (s_pm s) (s_w s) (s_tr s ++ calls_of rs vs).
Proof.
  intros H. unfold parallel_rows in H.
  destruct (run_chunks h 0 _ (s_obj s) (s_pm s) (fun _ => s_w s)) as [results tr] eqn:Hr.
  destruct (failures results) as [|e es] eqn:Hf; [|discriminate].
  injection H as <- <- <-.
  destruct (run_chunks_inv _ _ _ _ _ _ _ Hr Hf) as [Hne [rets [H1 [H2 [H3 H4]]]]].
  assert (Hcat : concat (array_split (cpu_count (h_pool h)) rs) = rs)
    by (apply array_split_concat; unfold cpu_count; lia).
  rewrite Hcat in H4.
  repeat split.
  - intros ->. pose proof (array_split_length (cpu_count (h_pool h)) (@nil row)) as Hl.
    destruct (array_split (cpu_count (h_pool h)) (@nil row)) as [|ch chs] eqn:E.
    + unfold cpu_count in Hl. cbn in Hl. specialize (Hl ltac:(lia)). discriminate.
    + inversion Hne as [|? ? Hch ?]; subst. cbn in Hcat. destruct ch; [congruence|discriminate].
  - rewrite H1. rewrite <- Hcat at 1. clear - H3. induction H3 as [|ch v chs vs Hlen _ IH]; cbn; [reflexivity|].
    rewrite !app_length, Hlen, IH. reflexivity.
  - exists (map fst (successes results)). split; [reflexivity|]. rewrite H1, H2. reflexivity.
  - rewrite H4, H1. reflexivity.
Qed.

(** What a successful [_check_generation] does. *)
Lemma check_generation_inv (s s' : st) :
  check_generation c h s = (Ok tt, s') ->
  exists rets vals w',
    a_rows (o_gen (s_obj s)) <> [] /\
    List.length rets = List.length (a_rows (o_gen (s_obj s))) /\
    Stored rets vals /\
    (c_parallelize c = false -> vals = store_all rets) /\
    s' = mkSt (mkObj (o_gen (s_obj s)) vals (o_elite (s_obj s)) (o_evel (s_obj s))
                     (o_best_cost (s_obj s)) (o_best_ind (s_obj s)))
              (s_pm s) w'
              (s_tr s ++ calls_of (a_rows (o_gen (s_obj s))) rets
                      ++ [EvGen (o_gen (s_obj s)) rets vals]).
Proof.
  intros H. cbv [check_generation mbind get_obj put_obj log] in H.
  destruct (c_parallelize c) eqn:Hp.
  - destruct (parallel_rows h _ s) as [[[rets vals]|e] s1] eqn:Hr in H; [|discriminate].
    apply parallel_rows_inv in Hr as [Hne [Hlen [Hst Hs1]]].
    injection H as <-. exists rets, vals, (s_w s).
    repeat split; [exact Hne|exact Hlen|exact Hst|discriminate|].
    rewrite Hs1. cbn. rewrite <- app_assoc. reflexivity.
  - destruct (apply_rows h _ s) as [[[rets vals]|e] s1] eqn:Hr in H; [|discriminate].
    apply apply_rows_inv in Hr as [Hne [Hlen [Hst [w' Hs1]]]].
    injection H as <-. exists rets, vals, w'.
    repeat split; [exact Hne|exact Hlen| |intros _; exact Hst|].
    + exists [rets]. cbn. rewrite !app_nil_r. split; [reflexivity|exact Hst].
    + rewrite Hs1. cbn. rewrite <- app_assoc. reflexivity.
Qed.

(* ---------------- selection ---------------- *)

(** The result of a successful selection step. *)
Variant selected (o : obj) (gen' : arr) (evals' : list f64) (elite' : arr) (evel' : list f64) : Prop :=
| mk_selected :
    forall (sel_gen : arr),
    forall (sel_concat : np_concatenate (o_gen o) (o_elite o) = Ok sel_gen),
    forall (sel_elite : take_rows (slice_to (c_elite_len c) (h_argsort h (o_evals o ++ o_evel o))) sel_gen = Ok elite'),
    forall (sel_train : take_rows (slice_to (c_trunc_len c) (h_argsort h (o_evals o ++ o_evel o))) sel_gen = Ok gen'),
    forall (sel_evel : gather (slice_to (c_elite_len c) (h_argsort h (o_evals o ++ o_evel o))) (o_evals o ++ o_evel o) = Ok evel'),
    forall (sel_evals : gather (slice_to (c_trunc_len c) (h_argsort h (o_evals o ++ o_evel o))) (o_evals o ++ o_evel o) = Ok evals'),
    selected o gen' evals' elite' evel'.

Lemma truncation_inv (s s' : st) :
  truncation c h s = (Ok tt, s') ->
  exists gen' evals' elite' evel',
    selected (s_obj s) gen' evals' elite' evel' /\
    s' = mkSt (mkObj gen' evals' elite' evel' (o_best_cost (s_obj s)) (o_best_ind (s_obj s)))
              (s_pm s) (s_w s)
              (s_tr s ++ [EvSelect (combine (a_rows gen') evals') (combine (a_rows elite') evel')]).
Proof.
  intros H. cbv [truncation mbind get_obj put_obj log mlift] in H.
  destruct (np_concatenate _ _) as [gen|e] eqn:Hc in H; [|discriminate].
  destruct (take_rows _ gen) as [elite'|e] eqn:He in H; [|discriminate].
  destruct (take_rows (slice_to (c_trunc_len c) _) gen) as [gen'|e] eqn:Hg in H; [|discriminate].
  destruct (gather _ _) as [evel'|e] eqn:Hve in H; [|discriminate].
  destruct (gather (slice_to (c_trunc_len c) _) _) as [evals'|e] eqn:Hvg in H; [|discriminate].
  injection H as <-. exists gen', evals', elite', evel'. split; [|reflexivity].
  econstructor; eassumption.
Qed.

(* ---------------- one iteration ---------------- *)

(** Everything that happened in a successful iteration. *)
Variant iter_facts (ftol : f64) (wn : noise) (s s' : st) (b : f64) (acc : bool) : Prop :=
| mk_iter_facts :
    forall (if_gen' : arr),
    forall (if_evals' : list f64),
    forall (if_elite' : arr),
    forall (if_evel' : list f64),
    forall (if_sel : selected (s_obj s) if_gen' if_evals' if_elite' if_evel'),
    forall (if_noisy : arr),
    forall (if_iadd : iadd if_gen' wn = Ok if_noisy),
    forall (if_data : arr),
    forall (if_p1 : S),
    forall (if_hdata : h_data h if_noisy if_elite' (s_pm s) = (Ok if_data, if_p1)),
    forall (if_p2 : S),
    forall (if_w2 : W),
    forall (if_learn : h_learn h if_data if_p1 (s_w s) = (Ok tt, (if_p2, if_w2))),
    forall (if_g : arr),
    forall (if_w3 : W),
    forall (if_sample : h_sample h if_p2 if_w2 = (Ok if_g, if_w3)),
    forall (if_rets : list num),
    forall (if_vals : list f64),
    forall (if_w4 : W),
    forall (if_nonempty : a_rows if_g <> []),
    forall (if_len : List.length if_rets = List.length (a_rows if_g)),
    forall (if_stored : Stored if_rets if_vals),
    forall (if_serial : c_parallelize c = false -> if_vals = store_all if_rets),
    forall (if_min : py_min if_vals = Ok b),
    forall (if_i : nat),
    forall (if_row : row),
    forall (if_val : f64),
    forall (if_where : first_or_IndexError (np_where (fun x => feq x b) if_vals) = Ok if_i),
    forall (if_nth_val : nth_error if_vals if_i = Some if_val),
    forall (if_val_eq : feq if_val b = true),
    forall (if_nth_row : nth_error (a_rows if_g) if_i = Some if_row),
    forall (if_acc : acc = accept ftol b (o_best_cost (s_obj s))),
    forall (if_s' : s' = mkSt (mkObj if_g if_vals if_elite' if_evel'
                           (if acc then b else o_best_cost (s_obj s))
                           (if acc then BRow if_row else o_best_ind (s_obj s)))
                    if_p2 if_w4
                    (s_tr s ++ [EvSelect (combine (a_rows if_gen') if_evals') (combine (a_rows if_elite') if_evel');
                                EvLearn if_data]
                            ++ calls_of (a_rows if_g) if_rets
                            ++ [EvGen if_g if_rets if_vals])),
    iter_facts ftol wn s s' b acc.

Lemma iteration_inv (ftol : f64) (wn : noise) (s s' : st) (b : f64) (acc : bool) :
  iteration c h ftol wn s = (Ok (b, acc), s') -> iter_facts ftol wn s s' b acc.
Proof.
  intros H. unfold iteration in H.
  apply mbind_ok in H as ([] & s1 & Ht & H).
  apply truncation_inv in Ht as [gen' [evals' [elite' [evel' [Hsel Hs1]]]]].
  apply mbind_ok in H as (o1 & s1' & H1 & H). apply get_obj_ok in H1 as [-> ->].
  apply mbind_ok in H as (noisy & s1' & H1 & H). apply mlift_ok in H1 as [Hi ->].
  apply mbind_ok in H as (u1 & s2 & H1 & H). apply set_gen_ok in H1.
  apply mbind_ok in H as (u2 & s3 & Hu & H). apply update_pm_ok in Hu as (data & p1 & p2 & w2 & Hd & Hl & Hs3).
  apply mbind_ok in H as (u3 & s4 & Hn & H). apply new_generation_ok in Hn as (g & w3 & Hsm & Hs4).
  apply mbind_ok in H as ([] & s5 & Hck & H).
  apply check_generation_inv in Hck as [rets [vals [w4 [Hne [Hlen [Hst [Hser Hs5]]]]]]].
  apply mbind_ok in H as (o & s5' & H2 & H). apply get_obj_ok in H2 as [-> ->].
  apply mbind_ok in H as (b' & s5' & H2 & H). apply mlift_ok in H2 as [Hmin ->].
  apply mbind_ok in H as (i & s5' & H2 & H). apply mlift_ok in H2 as [Hw ->].
  apply mbind_ok in H as (r & s5' & H2 & H). apply mlift_ok in H2 as [Hr ->].
  subst s5 s4 s3 s2 s1.
  cbn [s_pm s_obj o_gen o_elite s_w s_tr o_evals o_evel o_best_cost o_best_ind] in *.
  destruct (nth_error (a_rows g) i) as [r'|] eqn:Hr'; [|discriminate]. injection Hr as ->.
  destruct (np_where_first _ _ _ Hw) as [x [Hx Hxb]].
  destruct (accept ftol b' (o_best_cost (s_obj s))) eqn:Hacc.
  - cbv [mbind put_obj mret] in H. injection H as <- <- <-.
    econstructor; try eassumption; [symmetry; exact Hacc|].
    cbn. rewrite <- !app_assoc. reflexivity.
  - cbv [mret] in H. injection H as <- <- <-.
    econstructor; try eassumption; [symmetry; exact Hacc|].
    cbn. rewrite <- !app_assoc. reflexivity.
Qed.

(* ---------------- first generation ---------------- *)

Variant first_facts (s s' : st) (b : f64) : Prop :=
| mk_first_facts :
    forall (ff_g : arr),
    forall (ff_w1 : W),
    forall (ff_init : match c_init_data c with
            | Some d => ff_g = d /\ ff_w1 = s_w s
            | None => h_init h (s_w s) = (Ok ff_g, ff_w1)
            end),
    forall (ff_rets : list num),
    forall (ff_vals : list f64),
    forall (ff_w2 : W),
    forall (ff_row0 : row),
    forall (ff_rows : list row),
    forall (ff_val0 : f64),
    forall (ff_tl : list f64),
    forall (ff_rows_eq : a_rows ff_g = ff_row0 :: ff_rows),
    forall (ff_vals_eq : ff_vals = ff_val0 :: ff_tl),
    forall (ff_len : List.length ff_rets = List.length (a_rows ff_g)),
    forall (ff_stored : Stored ff_rets ff_vals),
    forall (ff_serial : c_parallelize c = false -> ff_vals = store_all ff_rets),
    forall (ff_min : py_min ff_vals = Ok b),
    forall (ff_i : nat),
    forall (ff_val : f64),
    forall (ff_where : first_or_IndexError (np_where (fun x => feq x b) ff_vals) = Ok ff_i),
    forall (ff_nth_val : nth_error ff_vals ff_i = Some ff_val),
    forall (ff_val_eq : feq ff_val b = true),
    forall (ff_s' : s' = mkSt (mkObj ff_g ff_vals (mkArr (a_dt ff_g) (a_nc ff_g) [ff_row0]) [ff_val0] b (BIdx ff_i))
                    (s_pm s) ff_w2
                    (s_tr s ++ calls_of (a_rows ff_g) ff_rets ++ [EvGen ff_g ff_rets ff_vals])),
    first_facts s s' b.

Lemma first_generation_inv (s s' : st) (b : f64) :
  first_generation c h s = (Ok b, s') -> first_facts s s' b.
Proof.
  intros H. unfold first_generation in H.
  apply mbind_ok in H as (g & s1 & Hi & H).
  assert (Hg : exists w1, match c_init_data c with
                          | Some d => g = d /\ w1 = s_w s
                          | None => h_init h (s_w s) = (Ok g, w1)
                          end /\ s1 = mkSt (s_obj s) (s_pm s) w1 (s_tr s)).
  { unfold initialize_generation in Hi. destruct (c_init_data c) as [d|].
    - cbv [mret] in Hi. injection Hi as <- <-. exists (s_w s). split; [split; reflexivity|].
      destruct s; reflexivity.
    - cbv [with_world] in Hi. destruct (h_init h (s_w s)) as [r w1]. injection Hi as -> <-.
      exists w1. split; reflexivity. }
  destruct Hg as [w1 [Hg Hs1]].
  apply mbind_ok in H as (u1 & s2 & H1 & H). apply set_gen_ok in H1.
  apply mbind_ok in H as ([] & s3 & Hck & H).
  apply check_generation_inv in Hck as [rets [vals [w2 [Hne [Hlen [Hst [Hser Hs3]]]]]]].
  apply mbind_ok in H as (o & s3' & H2 & H). apply get_obj_ok in H2 as [-> ->].
  apply mbind_ok in H as (r0 & s3' & H2 & H). apply mlift_ok in H2 as [Hr0 ->].
  apply mbind_ok in H as (e0 & s3' & H2 & H). apply mlift_ok in H2 as [He0 ->].
  apply mbind_ok in H as (u4 & s4 & H2 & H). apply put_obj_ok in H2.
  apply mbind_ok in H as (b' & s4' & H3 & H). apply mlift_ok in H3 as [Hmin ->].
  apply mbind_ok in H as (o' & s4' & H3 & H). apply get_obj_ok in H3 as [-> ->].
  apply mbind_ok in H as (u5 & s5 & H3 & H). apply put_obj_ok in H3.
  apply mbind_ok in H as (i & s5' & H4 & H). apply mlift_ok in H4 as [Hw ->].
  apply mbind_ok in H as (u6 & s6 & H4 & H). apply put_obj_ok in H4.
  apply mret_ok in H as [-> ->].
  subst s6 s5 s4 s3 s2 s1.
  cbn [s_pm s_obj o_gen o_elite s_w s_tr o_evals o_evel o_best_cost o_best_ind] in *.
  destruct (a_rows g) as [|r0' rs] eqn:Hrows; [discriminate|]. injection Hr0 as ->.
  destruct vals as [|v0 vals]; [discriminate|]. injection He0 as ->.
  destruct (np_where_first _ _ _ Hw) as [x [Hx Hxb]].
  econstructor; try eassumption; try reflexivity; rewrite ?Hrows; try eassumption; reflexivity.
Qed.

(* ---------------- loop and minimize ---------------- *)

Lemma print_if_inv (b : bool) p (s s' : st) r :
  print_if b p s = (r, s') -> r = Ok tt /\ printed_after s s'.
Proof.
  unfold print_if. destruct b; cbv [mbind get_obj log mret]; intros H; injection H as <- <-.
  - split; [reflexivity|]. exists [EvPrint (p (s_obj s))]. split; [repeat constructor|reflexivity].
  - split; [reflexivity|apply printed_after_refl].
Qed.

(** The white noise drawn has the configured shape. *)
Definition noise_cfg (wn : noise) : Prop :=
  match wn with
  | NoiseZero => py_eq_int (c_w_noise c) 0 = true
  | NoiseStr => py_eq_int (c_w_noise c) 0 = false /\ py_eq_int (c_w_noise c) (-1) = true
  | NoiseMat nr nc d =>
      py_eq_int (c_w_noise c) 0 = false /\ py_eq_int (c_w_noise c) (-1) = false /\
      (0 <= c_trunc_len c)%Z /\ (0 <= c_nvars c)%Z /\
      nr = Z.to_nat (c_trunc_len c) /\ nc = Z.to_nat (c_nvars c)
  end.

Lemma draw_noise_inv (s s' : st) (wn : noise) :
  draw_noise c h s = (Ok wn, s') ->
  noise_cfg wn /\ exists w', s' = mkSt (s_obj s) (s_pm s) w' (s_tr s).
Proof.
  unfold draw_noise. intros H.
  destruct (py_eq_int (c_w_noise c) 0) eqn:E0.
  - cbv [mret] in H. injection H as <- <-. split; [exact E0|]. exists (s_w s). destruct s; reflexivity.
  - destruct (py_eq_int (c_w_noise c) (-1)) eqn:E1.
    + cbv [mret] in H. injection H as <- <-. split; [split; assumption|]. exists (s_w s). destruct s; reflexivity.
    + destruct (flt (num_to_f (c_w_noise c)) (Z2f 0) || (c_trunc_len c <? 0)%Z || (c_nvars c <? 0)%Z) eqn:Eb.
      * discriminate.
      * apply orb_false_iff in Eb as [Eb E3]. apply orb_false_iff in Eb as [_ E2].
        cbv [mbind mret] in H. destruct (h_normal h (num_to_f (c_w_noise c)) (s_w s)) as [d w'].
        injection H as <- <-. split; [|exists w'; reflexivity].
        cbn. repeat split; try assumption; lia.
Qed.

(** Induction rule for the loop. *)
Lemma loop_rule (ftol : f64) (out : bool) (wn : noise) (I : list f64 -> Z -> st -> Prop) :
  (forall hist nb s b acc s' s'',
      I hist nb s -> (0 <= nb)%Z -> (nb = 0 \/ nb <> c_dead_iter c)%Z ->
      iter_facts ftol wn s s' b acc -> printed_after s' s'' ->
      I (hist ++ [b]) (if acc then 0 else nb + 1)%Z s'') ->
  forall n it hist nb s hist' s',
    I hist nb s -> (0 <= nb)%Z -> (nb = 0 \/ nb <> c_dead_iter c)%Z ->
    loop c h ftol out wn n it hist nb s = (Ok hist', s') ->
    exists nb', I hist' nb' s' /\
                ((List.length hist' = List.length hist + n) \/
                 (nb' = c_dead_iter c /\ nb' <> 0%Z)) /\
                List.length hist <= List.length hist' <= List.length hist + n.
Proof.
  intros Hstep. induction n as [|n IH]; intros it hist nb s hist' s' HI Hge Hnb H; cbn [loop] in H.
  - cbv [mret] in H. injection H as <- <-. exists nb. split; [exact HI|]. split; lia.
  - unfold mbind at 1 in H.
    destruct (iteration c h ftol wn s) as [[[b acc]|e] s1] eqn:Hit; [|discriminate].
    apply iteration_inv in Hit. cbn [fst snd] in H.
    assert (Hcont : forall nb2, nb2 = (if acc then 0 else nb + 1)%Z -> (0 <= nb2)%Z -> (nb2 = 0 \/ nb2 <> c_dead_iter c)%Z ->
        mbind (print_if out (fun o => PrIter it (o_best_cost o)))
              (fun _ => loop c h ftol out wn n (it + 1) (hist ++ [b]) nb2) s1 = (Ok hist', s') ->
        exists nb', I hist' nb' s' /\
                ((List.length hist' = List.length hist + Datatypes.S n) \/
                 (nb' = c_dead_iter c /\ nb' <> 0%Z)) /\
                List.length hist <= List.length hist' <= List.length hist + Datatypes.S n).
    { intros nb2 Hnb2 Hge2 Hok H2. unfold mbind in H2.
      destruct (print_if out _ s1) as [r s2] eqn:Hp in H2.
      apply print_if_inv in Hp as [-> Hp].
      pose proof (Hstep _ _ _ _ _ _ _ HI Hge Hnb Hit Hp) as HI'. rewrite <- Hnb2 in HI'.
      destruct (IH _ _ _ _ _ _ HI' Hge2 Hok H2) as [nb' [H1 [H3 H4]]].
      rewrite app_length in H3, H4. cbn in H3, H4.
      exists nb'. split; [exact H1|]. split; [|lia]. destruct H3 as [H3|H3]; [left; lia|right; exact H3]. }
    destruct acc.
    + apply (Hcont 0%Z); [reflexivity|lia|left; reflexivity|exact H].
    + destruct (Z.eqb_spec (nb + 1) (c_dead_iter c)) as [Heq|Hne].
      * cbv [mret] in H. injection H as <- <-.
        pose proof (Hstep _ _ _ _ _ _ _ HI Hge Hnb Hit (printed_after_refl s1)) as HI'. cbn in HI'.
        exists (nb + 1)%Z. split; [exact HI'|]. rewrite app_length. cbn. split; [right; split; [exact Heq|lia]|lia].
      * apply (Hcont (nb + 1)%Z); [reflexivity|lia|right; exact Hne|exact H].
Qed.

(** Induction rule for [minimize]: an invariant of (history, not_better, state) that holds
    after the first generation and is kept by every iteration holds at the end. *)
Lemma minimize_rule (ftol : f64) (out : bool) (I : list f64 -> Z -> st -> Prop) (s s' : st) (r : result) :
  (forall b s1 w1 s1', first_facts s s1 b ->
      printed_after (mkSt (s_obj s1) (s_pm s1) w1 (s_tr s1)) s1' -> I [b] 0%Z s1') ->
  (forall wn hist nb s0 b acc s1 s1',
      noise_cfg wn -> I hist nb s0 -> (0 <= nb)%Z -> (nb = 0 \/ nb <> c_dead_iter c)%Z ->
      iter_facts ftol wn s0 s1 b acc -> printed_after s1 s1' ->
      I (hist ++ [b]) (if acc then 0 else nb + 1)%Z s1') ->
  minimize c h ftol out s = (Ok r, s') ->
  exists nb sf,
    I (r_history r) nb sf /\ printed_after sf s' /\
    r = mkResult (o_best_ind (s_obj sf)) (o_best_cost (s_obj sf))
                 (Z.of_nat (List.length (r_history r)) * c_size_gen c)%Z (r_history r) (h_settings h) /\
    (List.length (r_history r) = 1 + Z.to_nat (c_max_iter c - 1) \/
     (nb = c_dead_iter c /\ nb <> 0%Z)) /\
    1 <= List.length (r_history r) <= 1 + Z.to_nat (c_max_iter c - 1).
Proof.
  intros Hfirst Hstep H. unfold minimize in H.
  apply mbind_ok in H as (b0 & s1 & H1 & H). apply first_generation_inv in H1.
  apply mbind_ok in H as (wn & s2 & H2 & H). apply draw_noise_inv in H2 as [Hwn [w2 Hs2]].
  apply mbind_ok in H as (u & s3 & H3 & H). apply print_if_inv in H3 as [_ H3].
  apply mbind_ok in H as (hist & s4 & H4 & H).
  apply mbind_ok in H as (u2 & s5 & H5 & H). apply print_if_inv in H5 as [_ H5].
  apply mbind_ok in H as (o & s6 & H6 & H). apply get_obj_ok in H6 as [-> ->].
  apply mret_ok in H as [Hr ->].
  assert (HI : I [b0] 0%Z s3) by (eapply Hfirst; [exact H1|rewrite Hs2 in H3; exact H3]).
  destruct (loop_rule ftol out wn I) with (3 := Z.le_refl 0) (5 := H4) as [nb [HI' [Hstop Hlen]]].
  - intros. eapply Hstep; eassumption.
  - exact HI.
  - left; reflexivity.
  - exists nb, s4. rewrite Hr. cbn [r_history].
    destruct H5 as [ps [Hps Hs']].
    split; [exact HI'|]. split; [exists ps; split; assumption|].
    split; [rewrite Hs'; reflexivity|]. cbn [List.length] in *. split; [|lia].
    destruct Hstop as [Hstop|Hstop]; [left; lia|right; exact Hstop].
Qed.

End Inv.
