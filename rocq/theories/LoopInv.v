(** A rule for reasoning about every execution of [minimize], whether it returns or raises:
    what all generations, training sets and evaluated individuals satisfy, and which
    exceptions can come out.  With [Exc] everywhere false it is a termination-without-error
    rule. *)
From Coq Require Import String List ZArith Bool Lia Sorting.Permutation Sorting.Sorted.
From Verif Require Import PyBase B64 NdArray Eda EdaInv Spec TopK LoopObs LoopThms Select LoopMore.
Import ListNotations.
Open Scope nat_scope.

(** [np.random.normal(0, w_noise, size)] refuses these arguments. *)
Definition noise_refused (c : cfg) : bool :=
  negb (py_eq_int (c_w_noise c) 0) && negb (py_eq_int (c_w_noise c) (-1)) &&
  (flt (num_to_f (c_w_noise c)) (Z2f 0) || (c_trunc_len c <? 0)%Z || (c_nvars c <? 0)%Z).

Definition not_nan (v : num) : Prop := match v with NI _ => True | NF x => isnan x = false end.

Lemma stored_not_nan rets vals :
  Stored rets vals -> Forall not_nan rets -> Forall (fun x => isnan x = false) vals.
Proof.
  intros (chs & -> & ->) H. induction chs as [|ch chs IH]; cbn in *; [constructor|].
  apply Forall_app in H as [H1 H2]. apply Forall_app. split; [|apply IH, H2].
  destruct ch as [|v0 ch]; [constructor|]. unfold store_all. apply Forall_map.
  eapply Forall_impl; [|exact H1]. intros v Hv. destruct v0, v; cbn in *; try apply Z2f_not_nan. exact Hv.
Qed.

Local Arguments gens : simpl never.
Local Arguments learns : simpl never.
Local Arguments calls : simpl never.

(** What one event contributes. *)
Lemma gens1 e : gens [e] = match e with EvGen g _ vals => [(g, vals)] | _ => [] end.
Proof. destruct e; reflexivity. Qed.
Lemma learns1 e : learns [e] = match e with EvLearn d => [d] | _ => [] end.
Proof. destruct e; reflexivity. Qed.
Lemma calls1 e : calls [e] = match e with EvCall r v => [(r, v)] | _ => [] end.
Proof. destruct e; reflexivity. Qed.
Local Ltac obs := rewrite ?gens_app, ?learns_app, ?calls_app, ?gens1, ?learns1, ?calls1, ?app_nil_r in *.

Section Inv.
Context {S W : Type}.
Local Notation st := (st S W).
Variable c : cfg.
Variable h : hooks S W.

Variables (PG0 PG PA TA DA : arr -> Prop) (QA : S -> Prop) (QL : arr -> S -> Prop)
          (Rel : arr -> arr -> Prop) (RowP : row -> Prop) (VP : num -> Prop) (Exc : exn -> Prop).

(** [PG0]: the first generation; [PG]: generations; [PA]: sets of individuals, such as the elite; [TA]: the selection plus
    noise; [DA]: data sets the model is trained on; [QA]: model states; [QL d]: model states
    just trained on [d]; [Rel d g]: generation [g] sampled from a model trained on [d];
    [VP]: values the cost function returns; [Exc]: exceptions. *)
Record start_spec : Prop := {
  ls_init : match c_init_data c with
            | Some d => PG0 d
            | None => forall w, match fst (h_init h w) with Ok g => PG0 g | Raise e => Exc e end
            end;
  ls_first : forall g, PG0 g -> PG g;
  ls_rows : forall g, PG g -> Forall RowP (a_rows g);
  ls_nonempty : Exc ValueError \/ forall g, PG g -> a_rows g <> [];
  ls_pool : Exc ValueError \/ c_parallelize c = false \/ forall g, PG g -> cpu_count (h_pool h) <= a_len g;
  ls_cost : forall r w, RowP r -> match fst (h_cost h r w) with Ok v => VP v | Raise e => Exc e end;
  ls_vals : Exc IndexError \/ forall v, VP v -> not_nan v;
  ls_head : forall g r rs, PG0 g -> a_rows g = r :: rs -> PA (mkArr (a_dt g) (a_nc g) [r]);
  ls_concat : forall a b, PG a -> PA b -> match np_concatenate a b with Ok x => PA x | Raise e => Exc e end;
  ls_take : forall idx a b, PA a -> take_rows idx a = Ok b -> PA b;
  ls_sort : Exc IndexError \/ argsort_ok (h_argsort h);
  ls_noise : Exc ValueError \/ noise_refused c = false;
  ls_iadd : forall g sel wn, PG g -> PA sel -> noise_cfg c wn ->
     (argsort_ok (h_argsort h) -> (0 <= c_trunc_len c)%Z -> exists k, a_len sel = Nat.min (Z.to_nat (c_trunc_len c)) (a_len g + k)) ->
     match iadd sel wn with Ok t => TA t | Raise e => Exc e end;
  ls_data : forall t e p, TA t -> PA e -> QA p ->
     (argsort_ok (h_argsort h) -> (0 <= c_elite_len c)%Z -> exists g k, PG g /\ a_len e = Nat.min (Z.to_nat (c_elite_len c)) (a_len g + k)) ->
     let (r, p') := h_data h t e p in QA p' /\ match r with Ok d => DA d | Raise e => Exc e end;
  ls_learn : forall d p w, DA d -> QA p ->
     let '(r, (p', w')) := h_learn h d p w in QA p' /\ match r with Ok _ => QL d p' | Raise e => Exc e end;
  ls_sample : forall d p w, DA d -> QA p -> QL d p ->
     match fst (h_sample h p w) with Ok g => PG g /\ Rel d g | Raise e => Exc e end
}.
Hypothesis L : start_spec.

(* ---------------- evaluation ---------------- *)

Definition call_ok (e : ev) : Prop := match e with EvCall r v => RowP r /\ VP v | _ => False end.

Lemma call_rows_any rs : Forall RowP rs -> forall s : st,
  let (r, s') := call_rows h rs s in
  exists w' cs, s' = mkSt (s_obj s) (s_pm s) w' (s_tr s ++ cs) /\ Forall call_ok cs /\
    match r with Ok vs => Forall VP vs | Raise e => Exc e end.
Proof.
  induction 1 as [|r rs Hr _ IH]; intros s; cbn [call_rows].
  - cbn. exists (s_w s), []. rewrite app_nil_r. destruct s; repeat split; constructor.
  - cbv [mbind call1 with_world log mret].
    pose proof (ls_cost L r (s_w s) Hr) as Hc. destruct (h_cost h r (s_w s)) as [[v|e] w']; cbn [fst s_obj s_pm s_w s_tr] in *.
    + specialize (IH (mkSt (s_obj s) (s_pm s) w' (s_tr s ++ [EvCall r v]))).
      destruct (call_rows h rs _) as [[vs|e] s1]; destruct IH as (w1 & cs & -> & Hcs & Hv); cbn [s_obj s_pm s_w s_tr];
        exists w1, (EvCall r v :: cs); rewrite <- app_assoc; (split; [reflexivity|]); split; try constructor; auto; constructor; auto.
    + exists w', []. rewrite app_nil_r. repeat split; [constructor|exact Hc].
Qed.

Lemma apply_rows_any rs : Forall RowP rs -> Exc ValueError \/ rs <> [] -> forall s : st,
  let (r, s') := apply_rows h rs s in
  exists w' cs, s' = mkSt (s_obj s) (s_pm s) w' (s_tr s ++ cs) /\ Forall call_ok cs /\
    match r with Ok rv => Forall VP (fst rv) | Raise e => Exc e end.
Proof.
  intros Hrs Hne s. unfold apply_rows. destruct rs as [|r rs].
  - cbn. exists (s_w s), []. rewrite app_nil_r. destruct s. repeat split; [constructor|]. destruct Hne; [assumption|congruence].
  - pose proof (call_rows_any _ Hrs s) as H. unfold mbind, mret.
    destruct (call_rows h (r :: rs) s) as [[vs|e] s1]; exact H.
Qed.

Lemma run_chunks_any chs : Forall (Forall RowP) chs -> Exc ValueError \/ Forall (fun ch => ch <> []) chs ->
  forall i o p ws, let (results, tr) := run_chunks h i chs o p ws in
  Forall call_ok tr /\ Forall Exc (failures results) /\ Forall (fun rv => Forall VP (fst rv)) (successes results).
Proof.
  induction 1 as [|ch chs Hch _ IH]; intros Hne i o p ws; cbn [run_chunks].
  - repeat split; constructor.
  - unfold run_chunk.
    assert (Hn1 : Exc ValueError \/ ch <> []) by (destruct Hne as [H|H]; [left; exact H|inversion H; auto]).
    assert (Hn2 : Exc ValueError \/ Forall (fun ch => ch <> []) chs) by (destruct Hne as [H|H]; [left; exact H|inversion H; auto]).
    pose proof (apply_rows_any _ Hch Hn1 (mkSt o p (ws (p_worker (h_pool h) i)) [])) as H1.
    destruct (apply_rows h ch _) as [r s1]. destruct H1 as (w1 & cs & -> & Hcs & Hr). cbn [s_w s_tr s_obj s_pm app].
    specialize (IH Hn2 (Datatypes.S i) o p (fun k' => if Nat.eqb k' (p_worker (h_pool h) i) then w1 else ws k')).
    destruct (run_chunks h (Datatypes.S i) chs o p _) as [rs trs]. destruct IH as (IH1 & IH2 & IH3).
    split; [apply Forall_app; split; assumption|]. destruct r; cbn; split; try assumption; constructor; assumption.
Qed.

Lemma array_split_Forall {A} (P : A -> Prop) k l : k <> 0 -> Forall P l -> Forall (Forall P) (array_split k l).
Proof.
  intros Hk Hl. apply Forall_forall. intros ch Hch. apply Forall_forall. intros x Hx.
  rewrite Forall_forall in Hl. apply Hl. rewrite <- (array_split_concat k l Hk). apply in_concat. eauto.
Qed.

Lemma parallel_rows_any rs : Forall RowP rs -> Exc ValueError \/ cpu_count (h_pool h) <= List.length rs -> forall s : st,
  let (r, s') := parallel_rows h rs s in
  exists w' cs, s' = mkSt (s_obj s) (s_pm s) w' (s_tr s ++ cs) /\ Forall call_ok cs /\
    match r with Ok rv => Forall VP (fst rv) | Raise e => Exc e end.
Proof.
  intros Hrs Hne s. unfold parallel_rows.
  assert (Hk : cpu_count (h_pool h) <> 0) by (unfold cpu_count; lia).
  assert (Hn : Exc ValueError \/ Forall (fun ch => ch <> []) (array_split (cpu_count (h_pool h)) rs))
    by (destruct Hne as [H|H]; [left; exact H|right; apply array_split_nonempty; assumption]).
  pose proof (run_chunks_any _ (array_split_Forall _ _ _ Hk Hrs) Hn 0 (s_obj s) (s_pm s) (fun _ => s_w s)) as H.
  destruct (run_chunks h 0 _ _ _ _) as [results tr]. destruct H as (H1 & H2 & H3).
  destruct (failures results) as [|e0 es] eqn:Ef; exists (s_w s), tr; (split; [reflexivity|]); (split; [exact H1|]).
  - cbn [fst]. clear - H3. induction (successes results) as [|x l IH]; cbn; [constructor|].
    inversion H3; subst. apply Forall_app. split; auto.
  - rewrite Forall_forall in H2. apply H2. destruct (nth_in_or_default (p_first_failure (h_pool h) (e0 :: es)) (e0 :: es) e0) as [H| ->];
      [exact H|left; reflexivity].
Qed.

(* ---------------- traces ---------------- *)

(** What holds of a trace at any moment. *)
Definition follows (tr : list ev) : Prop :=
  forall k d g, nth_error (learns tr) k = Some d -> nth_error (map fst (gens tr)) (Datatypes.S k) = Some g -> Rel d g.
Definition trace_ok (tr : list ev) : Prop :=
  Forall PG (map fst (gens tr)) /\ Forall DA (learns tr) /\
  Forall (fun rv => RowP (fst rv) /\ VP (snd rv)) (calls tr) /\ follows tr.

Lemma calls_ok_obs cs : Forall call_ok cs -> gens cs = [] /\ learns cs = [] /\ Forall (fun rv => RowP (fst rv) /\ VP (snd rv)) (calls cs).
Proof.
  induction 1 as [|e cs He _ (IH1 & IH2 & IH3)]; [repeat split; constructor|].
  destruct e as [rw v| | | |]; try destruct He. change (gens (EvCall rw v :: cs)) with (gens cs).
  change (learns (EvCall rw v :: cs)) with (learns cs). change (calls (EvCall rw v :: cs)) with ((rw, v) :: calls cs).
  rewrite IH1, IH2. repeat split. constructor; [split; assumption|exact IH3].
Qed.

Lemma trace_ok_calls tr cs : trace_ok tr -> Forall call_ok cs -> trace_ok (tr ++ cs).
Proof.
  intros (H1 & H2 & H3 & H4) Hcs. destruct (calls_ok_obs _ Hcs) as (E1 & E2 & E3).
  unfold trace_ok, follows. rewrite gens_app, learns_app, calls_app, E1, E2, !app_nil_r.
  repeat split; try assumption. apply Forall_app. split; assumption.
Qed.

Lemma trace_ok_silent tr e : trace_ok tr -> (match e with EvGen _ _ _ | EvLearn _ | EvCall _ _ => False | _ => True end) -> trace_ok (tr ++ [e]).
Proof.
  intros (H1 & H2 & H3 & H4) He. unfold trace_ok, follows.
  destruct e; try destruct He; obs; repeat split; assumption.
Qed.

Lemma trace_ok_learn tr d : trace_ok tr -> DA d -> List.length (gens tr) = Datatypes.S (List.length (learns tr)) -> trace_ok (tr ++ [EvLearn d]).
Proof.
  intros (H1 & H2 & H3 & H4) Hd Hl. unfold trace_ok, follows.
  obs. repeat split; try assumption.
  - apply Forall_app. split; [assumption|repeat constructor; exact Hd].
  - intros k d' g Hk Hg. apply (H4 k); [|exact Hg].
    assert (Hlt : Datatypes.S k < List.length (map fst (gens tr))) by (apply nth_error_Some; congruence).
    rewrite map_length in Hlt. rewrite nth_error_app1 in Hk by lia. exact Hk.
Qed.

Lemma trace_ok_gen tr g rets vals : trace_ok tr -> PG g ->
  (forall k d, nth_error (learns tr) k = Some d -> Datatypes.S k = List.length (gens tr) -> Rel d g) ->
  trace_ok (tr ++ [EvGen g rets vals]).
Proof.
  intros (H1 & H2 & H3 & H4) Hg Hrel. unfold trace_ok, follows.
  obs. repeat split; try assumption.
  - rewrite map_app. apply Forall_app. split; [assumption|repeat constructor; exact Hg].
  - intros k d g' Hk Hn. rewrite map_app in Hn.
    destruct (Nat.lt_ge_cases (Datatypes.S k) (List.length (map fst (gens tr)))) as [Hlt|Hge].
    + rewrite nth_error_app1 in Hn by exact Hlt. exact (H4 k d g' Hk Hn).
    + rewrite nth_error_app2 in Hn by exact Hge.
      destruct (Datatypes.S k - List.length (map fst (gens tr))) as [|m] eqn:Em; [|destruct m; discriminate].
      injection Hn as <-. apply (Hrel k d Hk). rewrite map_length in *. lia.
Qed.

(* ---------------- state invariants ---------------- *)

Definition best_ok (b : bind) : Prop := match b with BRow r => RowP r | BIdx _ => True end.

(** At the head of the loop. *)
Definition ready (s : st) : Prop :=
  PG (o_gen (s_obj s)) /\ List.length (o_evals (s_obj s)) = a_len (o_gen (s_obj s)) /\
  PA (o_elite (s_obj s)) /\ List.length (o_evel (s_obj s)) = a_len (o_elite (s_obj s)) /\
  QA (s_pm s) /\ trace_ok (s_tr s) /\ List.length (gens (s_tr s)) = Datatypes.S (List.length (learns (s_tr s))) /\
  best_ok (o_best_ind (s_obj s)).

(** After an exception. *)
Definition stopped (s : st) : Prop := QA (s_pm s) /\ trace_ok (s_tr s).

(** After evaluating: the costs are one per row, and usable unless IndexError is allowed. *)
Lemma check_any (s : st) :
  PG (o_gen (s_obj s)) -> QA (s_pm s) -> trace_ok (s_tr s) ->
  (forall k d, nth_error (learns (s_tr s)) k = Some d -> Datatypes.S k = List.length (gens (s_tr s)) -> Rel d (o_gen (s_obj s))) ->
  let (r, s') := check_generation c h s in
  match r with
  | Raise e => Exc e /\ stopped s'
  | Ok _ => QA (s_pm s') /\ trace_ok (s_tr s') /\
      List.length (gens (s_tr s')) = Datatypes.S (List.length (gens (s_tr s))) /\ learns (s_tr s') = learns (s_tr s) /\
      List.length (o_evals (s_obj s')) = a_len (o_gen (s_obj s)) /\
      a_rows (o_gen (s_obj s)) <> [] /\
      (Exc IndexError \/ Forall (fun x => isnan x = false) (o_evals (s_obj s'))) /\
      o_gen (s_obj s') = o_gen (s_obj s) /\ o_elite (s_obj s') = o_elite (s_obj s) /\ o_evel (s_obj s') = o_evel (s_obj s) /\
      o_best_ind (s_obj s') = o_best_ind (s_obj s) /\ o_best_cost (s_obj s') = o_best_cost (s_obj s)
  end.
Proof.
  intros Hg Hq Htr Hrel.
  pose proof (check_generation_inv c h s) as Hinv.
  assert (Hany : let (r, s') := (if c_parallelize c then parallel_rows h (a_rows (o_gen (s_obj s))) else apply_rows h (a_rows (o_gen (s_obj s)))) s in
      exists w' cs, s' = mkSt (s_obj s) (s_pm s) w' (s_tr s ++ cs) /\ Forall call_ok cs /\
      match r with Ok rv => Forall VP (fst rv) | Raise e => Exc e end).
  { destruct (c_parallelize c) eqn:Hp.
    - apply parallel_rows_any; [apply (ls_rows L), Hg|]. destruct (ls_pool L) as [H|[H|H]]; [left; exact H|congruence|right; apply H, Hg].
    - apply apply_rows_any; [apply (ls_rows L), Hg|]. destruct (ls_nonempty L) as [H|H]; [left; exact H|right; apply H, Hg]. }
  unfold check_generation in *. unfold mbind, get_obj in *.
  set (m := if c_parallelize c then parallel_rows h (a_rows (o_gen (s_obj s))) else apply_rows h (a_rows (o_gen (s_obj s)))) in *.
  destruct (m s) as [[rv|e] s1]; destruct Hany as (w1 & cs & -> & Hcs & Hv).
  - cbn [put_obj log s_obj s_pm s_w s_tr o_gen o_evals o_elite o_evel o_best_cost o_best_ind] in *.
    destruct (Hinv _ eq_refl) as (rets & vals & w' & Hne & Hlen & Hst & _ & Heq).
    cbv [put_obj log] in *. cbn [s_obj s_pm s_w s_tr o_gen o_evals o_elite o_evel o_best_cost o_best_ind] in *.
    injection Heq as Hvals _ Htr'.
    assert (Hrets : fst rv = rets).
    { rewrite <- app_assoc in Htr'. apply app_inv_head in Htr'.
      apply (f_equal gen_returns) in Htr'. rewrite !gen_returns_app in Htr'.
      assert (E1 : gen_returns cs = []) by (clear - Hcs; induction Hcs as [|e l He Hl IH]; cbn; [reflexivity|]; destruct e; try destruct He; exact IH).
      rewrite E1, gen_returns_calls_of in Htr'. cbn in Htr'. congruence. }
    rewrite Hrets in *. rewrite Hvals in *.
    destruct (calls_ok_obs _ Hcs) as (E1 & E2 & _).
    assert (Eg : gens (s_tr s ++ cs) = gens (s_tr s)) by (rewrite gens_app, E1, app_nil_r; reflexivity).
    assert (El : learns (s_tr s ++ cs) = learns (s_tr s)) by (rewrite learns_app, E2, app_nil_r; reflexivity).
    split; [exact Hq|]. split; [|split; [|split; [|split; [|split; [|split]]]]].
    + apply trace_ok_gen; [apply trace_ok_calls; assumption|exact Hg|]. rewrite Eg, El. exact Hrel.
    + rewrite gens_app, Eg, app_length, gens1. cbn. lia.
    + rewrite learns_app, El, learns1. apply app_nil_r.
    + rewrite (Stored_length _ _ Hst), Hlen. reflexivity.
    + exact Hne.
    + destruct (ls_vals L) as [H|H]; [left; exact H|right].
      eapply stored_not_nan; [exact Hst|]. eapply Forall_impl; [|exact Hv]. exact H.
    + repeat split.
  - split; [exact Hv|]. split; cbn; [exact Hq|apply trace_ok_calls; assumption].
Qed.

(** The minimum of the costs is found at some position. *)
Lemma min_found (vals : list f64) : vals <> [] -> Forall (fun x => isnan x = false) vals ->
  exists b i, py_min vals = Ok b /\ first_or_IndexError (np_where (fun x => feq x b) vals) = Ok i.
Proof.
  intros Hne Hnn. destruct vals as [|x l]; [congruence|].
  exists (fold_left (fun m y => if flt y m then y else m) l x). 
  assert (Hm : py_min (x :: l) = Ok (fold_left (fun m y => if flt y m then y else m) l x)) by reflexivity.
  destruct (py_min_spec _ _ Hm) as [Hin _].
  inversion Hnn as [|? ? Hx _]; subst.
  pose proof (py_min_num_head _ _ _ Hm Hx) as Hb.
  destruct (np_where_some (fun y => feq y (fold_left (fun m y => if flt y m then y else m) l x)) (x :: l) _ Hin (feq_refl _ Hb)) as [i Hi].
  exists i. split; [exact Hm|exact Hi].
Qed.

Lemma argsort_range (l : list f64) n : argsort_ok (h_argsort h) -> n = List.length l ->
  forall k, Forall (fun i => i < n) (slice_to k (h_argsort h l)).
Proof.
  intros Hs -> k. destruct (slice_to_firstn k (h_argsort h l)) as [m ->].
  apply Forall_forall. intros i Hi. apply firstn_In in Hi || idtac.
  assert (Hin : In i (h_argsort h l)) by (rewrite <- (firstn_skipn m); apply in_or_app; left; exact Hi).
  destruct (Hs l) as [Hp _]. apply (Permutation_in _ Hp) in Hin. apply in_seq in Hin. lia.
Qed.

Lemma concat_len (a b x : arr) : np_concatenate a b = Ok x -> List.length (a_rows x) = a_len a + a_len b.
Proof.
  unfold np_concatenate. destruct (Nat.eqb _ _); [|discriminate]. intros H.
  assert (E : x = mkArr (promote (a_dt a) (a_dt b)) (a_nc a) (rows_as (promote (a_dt a) (a_dt b)) a ++ rows_as (promote (a_dt a) (a_dt b)) b)) by congruence.
  subst x. cbn [a_rows]. rewrite app_length. unfold rows_as, a_len.
  destruct (dtype_eqb _ _), (dtype_eqb _ _); rewrite ?map_length; reflexivity.
Qed.

Lemma gather_exn {A} idx (l : list A) e : gather idx l = Raise e -> e = IndexError.
Proof.
  induction idx as [|i idx IH]; cbn [gather]; [discriminate|]. destruct (nth_error l i); [|congruence].
  destruct (gather idx l) as [r|e']; cbn; [discriminate|]. intros H. injection H as <-. apply IH. reflexivity.
Qed.

Lemma gather_any {A} idx (l : list A) : Exc IndexError \/ Forall (fun i => i < List.length l) idx ->
  forall e, gather idx l = Raise e -> Exc e.
Proof.
  intros [H|H] e He; [rewrite (gather_exn _ _ _ He); exact H|].
  destruct (gather_in_range _ _ H) as [o Ho]. congruence.
Qed.

(** Selection. *)
Lemma truncation_any (s : st) : ready s ->
  let (r, s') := truncation c h s in
  match r with
  | Raise e => Exc e /\ stopped s'
  | Ok _ => PA (o_gen (s_obj s')) /\ PA (o_elite (s_obj s')) /\
      List.length (o_evel (s_obj s')) = a_len (o_elite (s_obj s')) /\
      (argsort_ok (h_argsort h) -> (0 <= c_trunc_len c)%Z ->
         exists k, a_len (o_gen (s_obj s')) = Nat.min (Z.to_nat (c_trunc_len c)) (a_len (o_gen (s_obj s)) + k)) /\
      (argsort_ok (h_argsort h) -> (0 <= c_elite_len c)%Z ->
         exists g k, PG g /\ a_len (o_elite (s_obj s')) = Nat.min (Z.to_nat (c_elite_len c)) (a_len g + k)) /\
      QA (s_pm s') /\ trace_ok (s_tr s') /\
      List.length (gens (s_tr s')) = Datatypes.S (List.length (learns (s_tr s'))) /\
      o_best_ind (s_obj s') = o_best_ind (s_obj s) /\ o_best_cost (s_obj s') = o_best_cost (s_obj s)
  end.
Proof.
  intros (Hg & Hev & He & Hel & Hq & Htr & Hlen & Hb).
  assert (Hstop : stopped s) by (split; assumption).
  cbv [truncation mbind get_obj put_obj log mlift].
  pose proof (ls_concat L _ _ Hg He) as Hc.
  destruct (np_concatenate _ _) as [g|e] eqn:Hcat; [|split; assumption].
  apply concat_len in Hcat.
  set (ev := o_evals (s_obj s) ++ o_evel (s_obj s)).
  assert (Hsz : List.length (a_rows g) = List.length ev) by (unfold ev; rewrite app_length, Hev, Hel; exact Hcat).
  assert (Hrng : forall k, Exc IndexError \/ Forall (fun i => i < List.length ev) (slice_to k (h_argsort h ev))).
  { intros k. destruct (ls_sort L) as [H|H]; [left; exact H|right]. apply argsort_range; [exact H|reflexivity]. }
  assert (Htake : forall k e, take_rows (slice_to k (h_argsort h ev)) g = Raise e -> Exc e).
  { intros k e H. unfold take_rows in H. destruct (gather _ _) as [x|e'] eqn:E in H; cbn in H; [discriminate|].
    injection H as <-. eapply gather_any; [|exact E]. rewrite Hsz. apply Hrng. }
  destruct (take_rows (slice_to (c_elite_len c) _) g) as [el|e] eqn:E1; [|split; [eapply Htake; exact E1|assumption]].
  destruct (take_rows (slice_to (c_trunc_len c) _) g) as [tr'|e] eqn:E2; [|split; [eapply Htake; exact E2|assumption]].
  destruct (gather (slice_to (c_elite_len c) _) _) as [x1|e] eqn:E3; [|split; [eapply gather_any; [apply Hrng|exact E3]|assumption]].
  destruct (gather (slice_to (c_trunc_len c) _) _) as [x2|e] eqn:E4; [|split; [eapply gather_any; [apply Hrng|exact E4]|assumption]].
  cbn [s_obj s_pm s_w s_tr o_gen o_evals o_elite o_evel o_best_cost o_best_ind].
  split; [eapply (ls_take L); eassumption|]. split; [eapply (ls_take L); eassumption|].
  split; [|split; [|split]].
  - apply take_rows_ok in E1 as (_ & _ & E1). unfold a_len. rewrite (gather_length _ _ _ E1), (gather_length _ _ _ E3). reflexivity.
  - intros Hs H0. exists (a_len (o_elite (s_obj s))). apply take_rows_ok in E2 as (_ & _ & E2). unfold a_len at 1. rewrite (gather_length _ _ _ E2).
    rewrite slice_to_nonneg by exact H0. rewrite firstn_length.
    destruct (Hs ev) as [Hp _]. apply Permutation_length in Hp. rewrite seq_length in Hp. rewrite Hp.
    unfold ev. rewrite app_length, Hev, Hel. reflexivity.
  - intros Hs H0. exists (o_gen (s_obj s)), (a_len (o_elite (s_obj s))). split; [exact Hg|].
    apply take_rows_ok in E1 as (_ & _ & E1). unfold a_len at 1. rewrite (gather_length _ _ _ E1).
    rewrite slice_to_nonneg by exact H0. rewrite firstn_length.
    destruct (Hs ev) as [Hp _]. apply Permutation_length in Hp. rewrite seq_length in Hp. rewrite Hp.
    unfold ev. rewrite app_length, Hev, Hel. reflexivity.
  - split; [exact Hq|]. split; [apply trace_ok_silent; [exact Htr|exact I]|].
    obs. split; [exact Hlen|]. split; reflexivity.
Qed.

Lemma iteration_any ftol wn (s : st) : ready s -> noise_cfg c wn ->
  let (r, s') := iteration c h ftol wn s in
  match r with Raise e => Exc e /\ stopped s' | Ok _ => ready s' end.
Proof.
  intros Hs Hwn. pose proof (truncation_any s Hs) as Ht. destruct Hs as (Hg & _ & _ & _ & _ & _ & _ & Hb).
  unfold iteration. unfold mbind at 1. destruct (truncation c h s) as [[u|e] s1]; [|exact Ht].
  destruct Ht as (T1 & T2 & T3 & T4 & TE & T5 & T6 & T7 & T8 & T9).
  cbv beta iota zeta. unfold mbind at 1, get_obj at 1. unfold mbind at 1, mlift at 1.
  pose proof (ls_iadd L _ _ _ Hg T1 Hwn T4) as Hi.
  destruct (iadd (o_gen (s_obj s1)) wn) as [t|e]; [|split; [exact Hi|split; assumption]].
  unfold mbind at 1, set_gen at 1, mbind at 1, get_obj at 1, put_obj at 1.
  unfold mbind at 1, update_pm, mbind at 1, get_obj at 1. cbn [s_obj s_pm s_w s_tr o_gen o_elite].
  unfold mbind at 1. cbn [s_obj s_pm s_w s_tr o_gen o_elite].
  pose proof (ls_data L t (o_elite (s_obj s1)) (s_pm s1) Hi T2 T5 TE) as Hd.
  destruct (h_data h t (o_elite (s_obj s1)) (s_pm s1)) as [[d|e] p1]; destruct Hd as [Hq1 Hd];
    [|split; [exact Hd|split; [exact Hq1|exact T6]]].
  unfold mbind at 1, log at 1. cbn [s_obj s_pm s_w s_tr].
  pose proof (trace_ok_learn _ _ T6 Hd T7) as Htr1.
  pose proof (ls_learn L d p1 (s_w s1) Hd Hq1) as Hl.
  destruct (h_learn h d p1 (s_w s1)) as [[u2|e] [p2 w2]]; destruct Hl as [Hq2 Hl];
    [|split; [exact Hl|split; [exact Hq2|exact Htr1]]].
  unfold mbind at 1, new_generation, mbind at 1. cbn [s_obj s_pm s_w s_tr].
  pose proof (ls_sample L d p2 w2 Hd Hq2 Hl) as Hsm.
  destruct (h_sample h p2 w2) as [[g|e] w3]; cbn [fst] in Hsm;
    [|split; [exact Hsm|split; [exact Hq2|exact Htr1]]].
  destruct Hsm as [Hg' Hrel].
  unfold set_gen at 1, mbind at 1, get_obj at 1, put_obj at 1. cbn [s_obj s_pm s_w s_tr o_gen o_evals o_elite o_evel o_best_cost o_best_ind].
  unfold mbind at 1.
  match goal with |- context [check_generation c h ?s0] => pose proof (check_any s0) as Hck; set (s2 := s0) in * end.
  assert (Hlast : forall k d', nth_error (learns (s_tr s2)) k = Some d' -> Datatypes.S k = List.length (gens (s_tr s2)) -> Rel d' (o_gen (s_obj s2))).
  { intros k d' Hk Hlen. unfold s2 in Hk, Hlen |- *. cbn [s_tr s_obj o_gen] in *. obs. rewrite T7 in Hlen.
    injection Hlen as ->. rewrite nth_error_app2, Nat.sub_diag in Hk by lia. assert (Ed : d = d') by (cbn in Hk; congruence). rewrite <- Ed. exact Hrel. }
  specialize (Hck Hg' Hq2 Htr1 Hlast).
  destruct (check_generation c h s2) as [[u3|e] s3]; [|exact Hck].
  destruct Hck as (C1 & C2 & C3 & C4 & C5 & C6 & C7 & C8 & C9 & C10 & C11 & C12).
  unfold mbind at 1, get_obj at 1. unfold mbind at 1, mlift at 1.
  assert (Hne : o_evals (s_obj s3) <> []).
  { intros E0. rewrite E0 in C5. unfold a_len in C5. apply C6. destruct (a_rows (o_gen (s_obj s2))) as [|r0 rs0]; [reflexivity|discriminate]. }
  assert (Hstop : stopped s3) by (split; assumption).
  assert (Hlens : List.length (gens (s_tr s3)) = Datatypes.S (List.length (learns (s_tr s3)))).
  { rewrite C3, C4. unfold s2. cbn [s_tr]. obs. rewrite app_length. cbn. lia. }
  assert (Hmin : exists b, py_min (o_evals (s_obj s3)) = Ok b)
    by (destruct (o_evals (s_obj s3)) as [|x l]; [congruence|eexists; reflexivity]).
  destruct Hmin as [b Hmin]. rewrite Hmin. unfold mbind at 1, mlift at 1.
  destruct (first_or_IndexError (np_where (fun x => feq x b) (o_evals (s_obj s3)))) as [i|e] eqn:Ei.
  2:{ split; [|exact Hstop]. destruct C7 as [H|H].
      - unfold first_or_IndexError in Ei. destruct (np_where _ _); [|discriminate]. injection Ei as <-. exact H.
      - destruct (min_found _ Hne H) as (b' & i & Hb' & Hi'). rewrite Hmin in Hb'. assert (Eb : b' = b) by congruence. rewrite Eb in Hi'. congruence. }
  unfold mbind at 1, mlift at 1.
  destruct (np_where_first _ _ _ Ei) as (x & Hx & _).
  rewrite C8. cbn [s_obj o_gen s2].
  destruct (nth_error (a_rows g) i) as [rw|] eqn:Er.
  2:{ exfalso. apply nth_error_None in Er. assert (i < List.length (o_evals (s_obj s3))) by (apply nth_error_Some; congruence).
      rewrite C5 in H. cbn in H. unfold a_len in H. lia. }
  assert (Hrw : RowP rw).
  { pose proof (ls_rows L _ Hg') as HR. rewrite Forall_forall in HR. apply HR. eapply nth_error_In. exact Er. }
  assert (Hr3 : ready s3).
  { split; [rewrite C8; exact Hg'|]. split; [rewrite C8; exact C5|]. split; [rewrite C9; exact T2|].
    split; [rewrite C10, C9; exact T3|]. split; [exact C1|]. split; [exact C2|]. split; [exact Hlens|].
    rewrite C11. cbn. rewrite T8. exact Hb. }
  destruct (accept ftol b (o_best_cost (s_obj s3))).
  - unfold mbind at 1, put_obj, mret.
    destruct Hr3 as (R1 & R2 & R3 & R4 & R5 & R6 & R7 & R8).
    repeat split; cbn [s_obj s_pm s_w s_tr o_gen o_evals o_elite o_evel o_best_cost o_best_ind]; try assumption.
    all: try (rewrite C8 in *; assumption). all: try apply R6.
  - exact Hr3.
Qed.

Lemma print_if_any b p (s : st) : ready s ->
  let (r, s') := print_if b p s in r = Ok tt /\ ready s'.
Proof.
  intros (R1 & R2 & R3 & R4 & R5 & R6 & R7 & R8). unfold print_if. destruct b; cbn.
  - split; [reflexivity|]. repeat split; cbn; try assumption.
    5:{ obs. exact R7. }
    all: apply (trace_ok_silent _ (EvPrint (p (s_obj s)))); [exact R6|exact I].
  - split; [reflexivity|]. repeat split; try assumption; apply R6.
Qed.

Lemma loop_any ftol out wn n : noise_cfg c wn -> forall it hist nb (s : st), ready s ->
  let (r, s') := loop c h ftol out wn n it hist nb s in
  match r with Raise e => Exc e /\ stopped s' | Ok _ => ready s' end.
Proof.
  intros Hwn. induction n as [|n IH]; intros it hist nb s Hs; cbn [loop]; [exact Hs|].
  unfold mbind at 1. pose proof (iteration_any ftol wn s Hs Hwn) as Hi.
  destruct (iteration c h ftol wn s) as [[[b acc]|e] s1]; [|exact Hi]. cbn [fst snd]. cbv zeta.
  destruct acc.
  - unfold mbind at 1. pose proof (print_if_any out (fun o => PrIter it (o_best_cost o)) s1 Hi) as Hp.
    destruct (print_if out _ s1) as [r s2]. destruct Hp as [-> Hp]. apply IH, Hp.
  - destruct (Z.eqb _ _); [exact Hi|].
    unfold mbind at 1. pose proof (print_if_any out (fun o => PrIter it (o_best_cost o)) s1 Hi) as Hp.
    destruct (print_if out _ s1) as [r s2]. destruct Hp as [-> Hp]. apply IH, Hp.
Qed.

Lemma first_any (s : st) : QA (s_pm s) -> s_tr s = [] ->
  let (r, s') := first_generation c h s in
  match r with Raise e => Exc e /\ stopped s' | Ok _ => ready s' end.
Proof.
  intros Hq Htr. unfold first_generation. unfold mbind at 1.
  assert (Hnil : trace_ok (s_tr s)).
  { rewrite Htr. repeat split; try constructor. intros k d g Hk. destruct k; discriminate. }
  assert (Hi : let (r, s') := initialize_generation c h s in
     s_pm s' = s_pm s /\ s_tr s' = s_tr s /\ match r with Ok g => PG0 g | Raise e => Exc e end).
  { pose proof (ls_init L) as Hin. unfold initialize_generation. destruct (c_init_data c) as [d|].
    - repeat split. exact Hin.
    - unfold with_world. specialize (Hin (s_w s)). destruct (h_init h (s_w s)) as [r w']. repeat split. exact Hin. }
  destruct (initialize_generation c h s) as [[g|e] s1]; destruct Hi as (H1 & H2 & Hg0).
  2:{ split; [exact Hg0|]. split; [rewrite H1; exact Hq|rewrite H2; exact Hnil]. }
  assert (Hg := ls_first L _ Hg0).
  unfold mbind at 1, set_gen, mbind at 1, get_obj at 1, put_obj at 1.
  unfold mbind at 1.
  match goal with |- context [check_generation c h ?s0] => pose proof (check_any s0) as Hck; set (s2 := s0) in * end.
  assert (Hck' := Hck Hg ltac:(cbn; rewrite H1; exact Hq) ltac:(cbn; rewrite H2; exact Hnil)
     ltac:(cbn; rewrite H2, Htr; intros k d Hk; destruct k; discriminate)). clear Hck.
  destruct (check_generation c h s2) as [[u3|e] s3]; [|exact Hck'].
  destruct Hck' as (C1 & C2 & C3 & C4 & C5 & C6 & C7 & C8 & C9 & C10 & C11 & C12).
  unfold mbind at 1, get_obj at 1. unfold mbind at 1, mlift at 1. rewrite C8 in *. cbn [s_obj o_gen s2] in *.
  assert (Hstop : stopped s3) by (split; assumption).
  destruct (a_rows g) as [|r0 rs] eqn:Erows; [congruence|].
  unfold mbind at 1, mlift at 1.
  destruct (o_evals (s_obj s3)) as [|v0 vs] eqn:Ev; [exfalso; unfold a_len in C5; rewrite Erows in C5; discriminate|].
  unfold mbind at 1, put_obj at 1. unfold mbind at 1, mlift at 1.
  assert (Hmin : exists b, py_min (v0 :: vs) = Ok b) by (eexists; reflexivity).
  destruct Hmin as [b Hmin]. rewrite Hmin. unfold mbind at 1, get_obj at 1. unfold mbind at 1, put_obj at 1.
  unfold mbind at 1, mlift at 1.
  cbn [s_obj s_pm s_w s_tr o_gen o_evals o_elite o_evel o_best_cost o_best_ind].
  destruct (first_or_IndexError (np_where (fun x => feq x b) (v0 :: vs))) as [i|e] eqn:Ei.
  2:{ split; [|exact Hstop]. destruct C7 as [H|H].
      - unfold first_or_IndexError in Ei. destruct (np_where _ _); [|discriminate]. injection Ei as <-. exact H.
      - destruct (min_found (v0 :: vs) ltac:(discriminate) H) as (b' & i & Hb' & Hi'). rewrite Hmin in Hb'. assert (Eb : b' = b) by congruence. rewrite Eb in Hi'. congruence. }
  unfold mbind at 1, put_obj, mret.
  cbn [s_obj s_pm s_w s_tr o_gen o_evals o_elite o_evel o_best_cost o_best_ind].
  assert (Hlens : List.length (gens (s_tr s3)) = Datatypes.S (List.length (learns (s_tr s3)))).
  { rewrite C3, C4. unfold s2. cbn [s_tr]. rewrite H2, Htr. reflexivity. }
  split; [exact Hg|]. split; [exact C5|].
  split; [exact (ls_head L _ _ _ Hg0 Erows)|]. split; [reflexivity|].
  split; [exact C1|]. split; [exact C2|]. split; [exact Hlens|exact I].
Qed.

(** The rule. *)
Lemma minimize_from ftol out (s : st) : QA (s_pm s) -> s_tr s = [] ->
  let (r, s') := minimize c h ftol out s in
  match r with Raise e => Exc e | Ok res => best_ok (r_best_ind res) end /\ QA (s_pm s') /\ trace_ok (s_tr s').
Proof.
  intros Hq Htr. unfold minimize. unfold mbind at 1.
  pose proof (first_any s Hq Htr) as Hf. destruct (first_generation c h s) as [[b0|e] s1]; [|exact Hf].
  unfold mbind at 1.
  assert (Hn : let (r, s') := draw_noise c h s1 in
     match r with Raise e => Exc e /\ stopped s' | Ok wn => noise_cfg c wn /\ ready s' end).
  { pose proof (draw_noise_inv c h s1) as Hinv. pose proof (ls_noise L) as Hno.
    destruct (draw_noise c h s1) as [[wn|e] s2] eqn:Ed.
    - destruct (Hinv _ _ eq_refl) as [Hwn [w' ->]]. split; [exact Hwn|exact Hf].
    - unfold draw_noise in Ed. unfold noise_refused in Hno.
      destruct (py_eq_int (c_w_noise c) 0); [discriminate|]. destruct (py_eq_int (c_w_noise c) (-1)); [discriminate|].
      destruct (flt _ _ || _ || _)%bool.
      + cbv [mraise] in Ed. injection Ed as <- <-. cbn in Hno. destruct Hno as [H|H]; [|discriminate].
        split; [exact H|]. split; apply Hf.
      + exfalso. cbv [mbind mret] in Ed. destruct (h_normal h _ _); discriminate. }
  destruct (draw_noise c h s1) as [[wn|e] s2]; [|exact Hn]. destruct Hn as [Hwn H2].
  unfold mbind at 1. pose proof (print_if_any out (fun o => PrIter 0 (o_best_cost o)) s2 H2) as Hp.
  destruct (print_if out _ s2) as [r s3]. destruct Hp as [-> H3].
  unfold mbind at 1. pose proof (loop_any ftol out wn (Z.to_nat (c_max_iter c - 1)) Hwn 1%Z [b0] 0%Z s3 H3) as Hl.
  destruct (loop c h ftol out wn _ _ _ _ s3) as [[hist|e] s4]; [|exact Hl].
  unfold mbind at 1.
  match goal with |- context [print_if ?b ?p s4] => pose proof (print_if_any b p s4 Hl) as Hp; destruct (print_if b p s4) as [r s5] end.
  destruct Hp as [-> H5]. unfold mbind, get_obj, mret.
  destruct H5 as (R1 & R2 & R3 & R4 & R5 & R6 & R7 & R8). split; [exact R8|]. split; [exact R5|exact R6].
Qed.

End Inv.

(** The rule when all generations satisfy the same predicate. *)
Section Uniform.
Context {S W : Type}.
Variable c : cfg.
Variable h : hooks S W.
Variables (PG PA TA DA : arr -> Prop) (QA : S -> Prop) (QL : arr -> S -> Prop)
          (Rel : arr -> arr -> Prop) (RowP : row -> Prop) (VP : num -> Prop) (Exc : exn -> Prop).
Record loop_spec : Prop := {
  lp_init : match c_init_data c with
            | Some d => PG d
            | None => forall w, match fst (h_init h w) with Ok g => PG g | Raise e => Exc e end
            end;
  lp_weak : forall g, PG g -> PA g;
  lp_rows : forall g, PG g -> Forall RowP (a_rows g);
  lp_nonempty : Exc ValueError \/ forall g, PG g -> a_rows g <> [];
  lp_pool : Exc ValueError \/ c_parallelize c = false \/ forall g, PG g -> cpu_count (h_pool h) <= a_len g;
  lp_cost : forall r w, RowP r -> match fst (h_cost h r w) with Ok v => VP v | Raise e => Exc e end;
  lp_vals : Exc IndexError \/ forall v, VP v -> not_nan v;
  lp_head : forall g r rs, PG g -> a_rows g = r :: rs -> PA (mkArr (a_dt g) (a_nc g) [r]);
  lp_concat : forall a b, PG a -> PA b -> match np_concatenate a b with Ok x => PA x | Raise e => Exc e end;
  lp_take : forall idx a b, PA a -> take_rows idx a = Ok b -> PA b;
  lp_sort : Exc IndexError \/ argsort_ok (h_argsort h);
  lp_noise : Exc ValueError \/ noise_refused c = false;
  lp_iadd : forall g sel wn, PG g -> PA sel -> noise_cfg c wn ->
     (argsort_ok (h_argsort h) -> (0 <= c_trunc_len c)%Z -> exists k, a_len sel = Nat.min (Z.to_nat (c_trunc_len c)) (a_len g + k)) ->
     match iadd sel wn with Ok t => TA t | Raise e => Exc e end;
  lp_data : forall t e p, TA t -> PA e -> QA p ->
     (argsort_ok (h_argsort h) -> (0 <= c_elite_len c)%Z -> exists g k, PG g /\ a_len e = Nat.min (Z.to_nat (c_elite_len c)) (a_len g + k)) ->
     let (r, p') := h_data h t e p in QA p' /\ match r with Ok d => DA d | Raise e => Exc e end;
  lp_learn : forall d p w, DA d -> QA p ->
     let '(r, (p', w')) := h_learn h d p w in QA p' /\ match r with Ok _ => QL d p' | Raise e => Exc e end;
  lp_sample : forall d p w, DA d -> QA p -> QL d p ->
     match fst (h_sample h p w) with Ok g => PG g /\ Rel d g | Raise e => Exc e end
}.
Lemma loop_start : loop_spec -> start_spec c h PG PG PA TA DA QA QL Rel RowP VP Exc.
Proof. intros []. split; auto. Qed.
Lemma minimize_any (L : loop_spec) ftol out (s : st S W) : QA (s_pm s) -> s_tr s = [] ->
  let (r, s') := minimize c h ftol out s in
  match r with Raise e => Exc e | Ok res => best_ok RowP (r_best_ind res) end /\ QA (s_pm s') /\ trace_ok PG DA Rel RowP VP (s_tr s').
Proof. apply (minimize_from _ _ _ _ _ _ _ _ _ _ _ _ _ (loop_start L)). Qed.
End Uniform.
