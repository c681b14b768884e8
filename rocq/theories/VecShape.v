(** Arrays with more than one entry do not survive [minimize] (model in [VecEda.v]). *)
From Coq Require Import List ZArith Bool String Lia.
From Verif Require Import PyBase B64 NdArray Eda EdaInv VecEda.
Import ListNotations.
Open Scope nat_scope.

(** The event is not a call of the cost function that returned several entries. *)
Definition one_entry (e : vev) : Prop := match e with VCall _ v => vlen v = 1 | _ => True end.
(** The event is a call of the cost function or an evaluated generation. *)
Definition evaluation (e : vev) : Prop := match e with VCall _ _ | VGen _ _ _ => True | _ => False end.

Section Shape.
Context {S W : Type}.
Variable c : cfg.
Variable h : hooks S W.
Variable cost : row -> W -> res (vec num) * W.

Lemma bind_ok {A B} (m : VM S W A) (f : A -> VM S W B) s b s' :
  vbind m f s = (Ok b, s') -> exists a s1, m s = (Ok a, s1) /\ f a s1 = (Ok b, s').
Proof. unfold vbind. destruct (m s) as [[a|e] s1]; [eauto|discriminate]. Qed.

Lemma lift_ok {A} (r : res A) s a s' : vlift (S:=S) (W:=W) r s = (Ok a, s') -> r = Ok a /\ s' = s.
Proof. unfold vlift. intros H. injection H as -> ->. auto. Qed.

Lemma vlen_one {A} (v : vec A) : vlen v = 1 -> snd v = [].
Proof. unfold vlen, entries. destruct (snd v); cbn; [reflexivity|lia]. Qed.
Lemma vlen_map {A B} (f : A -> B) (v : vec A) : vlen (vmap f v) = vlen v.
Proof. unfold vlen, entries, vmap. cbn. rewrite map_length. reflexivity. Qed.

Lemma fit_len {A} m (v x : vec A) : 1 <= m -> fit m v = Ok x -> vlen x = m /\ (vlen v = m \/ vlen v = 1).
Proof.
  intros Hm. unfold fit. destruct (Nat.eqb_spec (vlen v) m) as [E|E]; [intros H; injection H as <-; auto|].
  destruct v as [a [|b l]]; cbn [fst snd]; [|discriminate]. intros H; injection H as <-.
  split; [unfold vlen, entries; cbn; rewrite repeat_length; lia|right; reflexivity].
Qed.

(** A call of the cost function changes the world and the trace only. *)
Lemma call_spec r (s : vst S W) x s' : vcall cost r s = (x, s') ->
  vs_obj s' = vs_obj s /\ vs_pm s' = vs_pm s /\
  match x with
  | Ok v => fst (cost r (vs_w s)) = Ok v /\ vs_tr s' = vs_tr s ++ [VCall r v]
  | Raise e => fst (cost r (vs_w s)) = Raise e /\ vs_tr s' = vs_tr s
  end.
Proof.
  unfold vcall, vbind, vworld, vlog, vret. destruct (cost r (vs_w s)) as [[v|e] w'] eqn:E; intros H; injection H as <- <-; cbn; auto.
Qed.

(** The rows after the first. *)
Lemma rows_spec (v0 : vec num) rs : forall (s : vst S W) x s', vcall_rows cost v0 rs s = (x, s') ->
  vs_obj s' = vs_obj s /\ vs_pm s' = vs_pm s /\
  exists t, vs_tr s' = vs_tr s ++ t /\ Forall evaluation t /\
  match x with
  | Ok (rets, vals) => (vlen v0 = 1 -> Forall one_entry t) /\ List.length vals = List.length rs /\ Forall (fun v => vlen v = vlen v0) vals /\
      t = map (fun p => VCall (fst p) (snd p)) (combine rs rets) /\ List.length rets = List.length rs
  | Raise e => e = ValueError \/ exists r w, fst (cost r w) = Raise e
  end.
Proof.
  assert (Hpos : 1 <= vlen v0) by (unfold vlen, entries; cbn; lia).
  induction rs as [|r rs IH]; intros s x s'; cbn [vcall_rows].
  - unfold vret. intros H. injection H as <- <-. split; [reflexivity|]. split; [reflexivity|]. exists []. rewrite app_nil_r.
    cbn. repeat split; auto.
  - unfold vbind at 1. destruct (vcall cost r s) as [[v|e] s1] eqn:E1; pose proof (call_spec _ _ _ _ E1) as [Ho1 [Hp1 [Hc1 Ht1]]].
    2:{ intros H. injection H as <- <-. split; [exact Ho1|]. split; [exact Hp1|]. exists []. rewrite app_nil_r. split; [exact Ht1|]. split; [constructor|]. right. eauto. }
    unfold vbind at 1, vlift. destruct (fit (vlen v0) v) as [y|e] eqn:Ef.
    2:{ intros H. injection H as <- <-. split; [exact Ho1|]. split; [exact Hp1|]. exists [VCall r v]. split; [exact Ht1|].
        split; [repeat constructor|]. left. unfold fit in Ef. destruct (vlen v =? vlen v0); [discriminate|]. destruct (snd v); congruence. }
    destruct (fit_len _ _ _ Hpos Ef) as [Hy Hv].
    unfold vbind at 1. destruct (vcall_rows cost v0 rs s1) as [[[rets vals]|e] s2] eqn:E2;
      destruct (IH _ _ _ E2) as [Ho2 [Hp2 [t [Ht2 [Hev Hx]]]]].
    + unfold vret. intros H. injection H as <- <-. split; [congruence|]. split; [congruence|].
      destruct Hx as [H1 [H2 [H3 [H4 H5]]]]. exists (VCall r v :: t). rewrite Ht2, Ht1, <- app_assoc. cbn [fst snd app].
      split; [reflexivity|]. split; [constructor; [exact I|exact Hev]|]. split; [|split; [|split; [|split]]].
      * intros E. constructor; [change (vlen v = 1); lia|auto].
      * cbn. lia.
      * constructor; [rewrite vlen_map; exact Hy|exact H3].
      * cbn. rewrite H4. reflexivity.
      * cbn. lia.
    + intros H. injection H as <- <-. split; [congruence|]. split; [congruence|]. exists (VCall r v :: t). rewrite Ht2, Ht1, <- app_assoc.
      split; [reflexivity|]. split; [constructor; [exact I|exact Hev]|]. exact Hx.
Qed.

(** What evaluating the rows [rs] does, serially or in parallel. *)
Definition evaluates (rs : list row) (x : res (list (vec num) * list (vec f64))) (t : list vev) : Prop :=
  Forall evaluation t /\
  match x with
  | Ok (rets, vals) => exists m, (m = 1 -> Forall one_entry t) /\ List.length vals = List.length rs /\ Forall (fun v => vlen v = m) vals /\
      (exists r0 v0 w, fst (cost r0 w) = Ok v0 /\ vlen v0 = m) /\
      t = map (fun p => VCall (fst p) (snd p)) (combine rs rets) /\ List.length rets = List.length rs /\ rs <> []
  | Raise e => e = ValueError \/ exists r w, fst (cost r w) = Raise e
  end.

Lemma apply_spec rs (s : vst S W) x s' : vapply_rows cost rs s = (x, s') ->
  vs_obj s' = vs_obj s /\ vs_pm s' = vs_pm s /\ exists t, vs_tr s' = vs_tr s ++ t /\ evaluates rs x t.
Proof.
  unfold vapply_rows, evaluates. destruct rs as [|r rs].
  { unfold vraise. intros H. injection H as <- <-. split; [reflexivity|]. split; [reflexivity|]. exists []. rewrite app_nil_r. repeat split; auto. }
  unfold vbind at 1. destruct (vcall cost r s) as [[v|e] s1] eqn:E1; pose proof (call_spec _ _ _ _ E1) as [Ho1 [Hp1 [Hc1 Ht1]]].
  2:{ intros H. injection H as <- <-. split; [exact Ho1|]. split; [exact Hp1|]. exists []. rewrite app_nil_r. split; [exact Ht1|]. split; [constructor|]. right. eauto. }
  unfold vbind at 1. destruct (vcall_rows cost v rs s1) as [[[rets vals]|e] s2] eqn:E2;
    destruct (rows_spec _ _ _ _ _ E2) as [Ho2 [Hp2 [t [Ht2 [Hev Hx]]]]].
  2:{ intros H. injection H as <- <-. split; [congruence|]. split; [congruence|]. exists (VCall r v :: t). rewrite Ht2, Ht1, <- app_assoc.
      split; [reflexivity|]. split; [constructor; [exact I|exact Hev]|]. exact Hx. }
  destruct Hx as [H1 [H2 [H3 [H4 H5]]]].
  unfold vret. cbn [fst snd]. intros H. injection H as <- <-.
  split; [congruence|]. split; [congruence|]. exists (VCall r v :: t).
  rewrite Ht2, Ht1, <- !app_assoc. split; [reflexivity|]. split; [constructor; [exact I|exact Hev]|].
  exists (vlen v). split.
  { intros E. constructor; [exact E|auto]. }
  split; [cbn; lia|]. split; [constructor; [apply vlen_map|exact H3]|]. split; [exists r, v, (vs_w s); auto|].
  split; [rewrite H4; reflexivity|]. split; [cbn; lia|discriminate].
Qed.

(** The chunks of a parallel evaluation. *)
Lemma chunks_spec o p chs : forall i ws results tr, vrun_chunks h cost i chs o p ws = (results, tr) ->
  Forall evaluation tr /\
  Forall (fun e => e = ValueError \/ exists r w, fst (cost r w) = Raise e) (failures results) /\
  (failures results = [] ->
     Forall (fun ch => ch <> []) chs /\
     tr = map (fun p => VCall (fst p) (snd p)) (combine (List.concat chs) (List.concat (map fst (successes results)))) /\
     List.length (List.concat (map fst (successes results))) = List.length (List.concat chs) /\
     List.length (List.concat (map snd (successes results))) = List.length (List.concat chs) /\
     (Forall (fun v => vlen v = 1) (List.concat (map snd (successes results))) -> Forall one_entry tr) /\
     Forall (fun x => exists r0 v0 w, fst (cost r0 w) = Ok v0 /\ vlen v0 = vlen x) (List.concat (map snd (successes results)))).
Proof.
  induction chs as [|ch chs IH]; intros i ws results tr; cbn [vrun_chunks].
  { intros H. injection H as <- <-. repeat split; try constructor. }
  unfold vrun_chunk. destruct (vapply_rows cost ch _) as [r s1] eqn:E1. destruct (apply_spec _ _ _ _ E1) as [_ [_ [t [Ht [Hev Hx]]]]].
  destruct (vrun_chunks h cost (Datatypes.S i) chs o p _) as [rs trs] eqn:E2. destruct (IH _ _ _ _ E2) as [Hev2 [Hf2 Hok2]].
  intros H. injection H as <- <-. cbn [vs_tr app] in Ht. rewrite Ht.
  split; [apply Forall_app; auto|]. destruct r as [[rets vals]|e]; cbn [failures successes].
  2:{ split; [constructor; assumption|]. discriminate. }
  split; [exact Hf2|]. intros Hf. destruct (Hok2 Hf) as [H1 [H2 [H3 [H4 [H5 H6]]]]].
  destruct Hx as [m [X1 [X2 [X3 [X4 [X5 [X6 X7]]]]]]]. cbn [map fst snd List.concat].
  split; [constructor; assumption|]. split.
  { rewrite X5, H2, <- map_app. f_equal. symmetry. clear - X6. revert rets X6. induction ch as [|a ch IHc]; intros [|b rets] E; cbn in *; try discriminate; [reflexivity|].
    f_equal. apply IHc. lia. }
  split; [rewrite !app_length; lia|]. split; [rewrite !app_length; lia|]. split.
  - intros Hall. apply Forall_app in Hall as [Ha Hb]. apply Forall_app. split; [|exact (H5 Hb)]. apply X1.
    destruct vals as [|v vals]; [destruct ch; [congruence|discriminate]|]. inversion Ha; inversion X3; congruence.
  - apply Forall_app. split; [|exact H6]. apply Forall_forall. intros v Hv. rewrite Forall_forall in X3. rewrite (X3 _ Hv). exact X4.
Qed.

Lemma vconcat_ok l v : vconcat l = Ok v -> v = List.concat l /\ exists m, Forall (fun y => vlen y = m) v.
Proof.
  unfold vconcat. destruct (List.concat l) as [|x xs].
  { intros H. injection H as <-. split; [reflexivity|]. exists 0. constructor. }
  destruct (forallb (fun y => Nat.eqb (vlen y) (vlen x)) xs) eqn:E; [|discriminate]. intros H. injection H as <-.
  split; [reflexivity|]. exists (vlen x). constructor; [reflexivity|]. apply Forall_forall. intros y Hy.
  rewrite forallb_forall in E. apply Nat.eqb_eq. exact (E _ Hy).
Qed.
Lemma vconcat_raise l e : vconcat l = Raise e -> e = ValueError.
Proof. unfold vconcat. destruct (List.concat l); [discriminate|]. destruct (forallb _ _); congruence. Qed.

Lemma parallel_spec rs (s : vst S W) x s' : vparallel_rows h cost rs s = (x, s') ->
  vs_obj s' = vs_obj s /\ vs_pm s' = vs_pm s /\ exists t, vs_tr s' = vs_tr s ++ t /\ evaluates rs x t.
Proof.
  unfold vparallel_rows. cbv zeta.
  assert (Hcat : List.concat (array_split (cpu_count (h_pool h)) rs) = rs) by (apply array_split_concat; unfold cpu_count; lia).
  assert (Hlen : List.length (array_split (cpu_count (h_pool h)) rs) = cpu_count (h_pool h)) by (apply array_split_length; unfold cpu_count; lia).
  destruct (vrun_chunks h cost 0 (array_split (cpu_count (h_pool h)) rs) (vs_obj s) (vs_pm s) (fun _ => vs_w s)) as [results tr] eqn:E.
  destruct (chunks_spec _ _ _ _ _ _ _ E) as [Hev [Hf Hok]]. rewrite Hcat in Hok.
  destruct (failures results) as [|e0 es] eqn:Ef.
  2:{ assert (Hin : In (nth (p_first_failure (h_pool h) (e0 :: es)) (e0 :: es) e0) (e0 :: es)).
      { destruct (Nat.lt_ge_cases (p_first_failure (h_pool h) (e0 :: es)) (List.length (e0 :: es))) as [Hl|Hl];
          [exact (nth_In _ _ Hl)|rewrite (nth_overflow _ _ Hl); left; reflexivity]. }
      intros H. injection H as <- <-. split; [reflexivity|]. split; [reflexivity|]. exists tr. split; [reflexivity|]. split; [exact Hev|].
      rewrite Forall_forall in Hf. exact (Hf _ Hin). }
  destruct (Hok eq_refl) as [H1 [H2 [H3 [H4 [H5 H6]]]]].
  destruct (vconcat (map snd (successes results))) as [vals|e] eqn:Ec; cbn [rbind]; intros H; injection H as <- <-;
    (split; [reflexivity|]); (split; [reflexivity|]); exists tr; (split; [reflexivity|]); (split; [exact Hev|]).
  2:{ left. exact (vconcat_raise _ _ Ec). }
  destruct (vconcat_ok _ _ Ec) as [Hv [m Hm]].
  assert (Hne : rs <> []).
  { intros ->. destruct (array_split (cpu_count (h_pool h)) (@nil row)) as [|ch chs]; [unfold cpu_count in Hlen; discriminate|].
    inversion H1 as [|? ? Hch ?]. cbn in Hcat. destruct ch; [congruence|discriminate]. }
  rewrite <- Hv in H4, H5, H6.
  exists m. split; [intros ->; apply H5; exact Hm|]. split; [exact H4|]. split; [exact Hm|]. split.
  { destruct vals as [|v vals]; [destruct rs; [congruence|discriminate]|]. inversion H6 as [|? ? Hv0 _]. inversion Hm as [|? ? Hmv _]. rewrite Hmv in Hv0. exact Hv0. }
  split; [exact H2|]. split; [exact H3|exact Hne].
Qed.

(** Evaluating a generation. *)
Lemma check_spec (s : vst S W) x s' : vcheck_generation c h cost s = (x, s') ->
  vs_pm s' = vs_pm s /\ exists t, vs_tr s' = vs_tr s ++ t /\ Forall evaluation t /\
  match x with
  | Ok _ => exists evals m, vs_obj s' = mkVObj (v_gen (vs_obj s)) evals (v_elite (vs_obj s)) (v_evel (vs_obj s)) (v_best_cost (vs_obj s)) (v_best_ind (vs_obj s)) /\
      (m = 1 -> Forall one_entry t) /\ List.length evals = List.length (a_rows (v_gen (vs_obj s))) /\ Forall (fun v => vlen v = m) evals /\
      (exists r0 v0 w, fst (cost r0 w) = Ok v0 /\ vlen v0 = m) /\
      exists rets, t = map (fun p => VCall (fst p) (snd p)) (combine (a_rows (v_gen (vs_obj s))) rets) ++ [VGen (v_gen (vs_obj s)) rets evals] /\
        List.length rets = List.length evals
  | Raise e => e = ValueError \/ exists r w, fst (cost r w) = Raise e
  end.
Proof.
  unfold vcheck_generation, vbind at 1, vget. unfold vbind at 1.
  destruct ((if c_parallelize c then vparallel_rows h cost (a_rows (v_gen (vs_obj s))) else vapply_rows cost (a_rows (v_gen (vs_obj s)))) s) as [y s1] eqn:E1.
  assert (Hy : vs_obj s1 = vs_obj s /\ vs_pm s1 = vs_pm s /\ exists t, vs_tr s1 = vs_tr s ++ t /\ evaluates (a_rows (v_gen (vs_obj s))) y t).
  { destruct (c_parallelize c); [exact (parallel_spec _ _ _ _ E1)|exact (apply_spec _ _ _ _ E1)]. }
  destruct Hy as [Ho1 [Hp1 [t [Ht1 [Hev Hx]]]]].
  destruct y as [[rets vals]|e].
  2:{ intros H. injection H as <- <-. split; [exact Hp1|]. exists t. auto. }
  destruct Hx as [m [H1 [H2 [H3 [H4 [H5 [H6 _]]]]]]].
  unfold vbind, vput, vlog. cbn [fst snd vs_obj vs_pm vs_w vs_tr]. intros H. injection H as <- <-. cbn [vs_obj vs_pm vs_w vs_tr].
  split; [exact Hp1|]. exists (t ++ [VGen (v_gen (vs_obj s)) rets vals]). rewrite Ht1, <- app_assoc. split; [reflexivity|]. split.
  { apply Forall_app. split; [exact Hev|repeat constructor]. }
  exists vals, m. split; [reflexivity|]. split.
  { intros E. apply Forall_app. split; [auto|repeat constructor]. }
  split; [exact H2|]. split; [exact H3|]. split; [exact H4|]. exists rets. split; [rewrite <- H5; reflexivity|congruence].
Qed.

(** Comparing arrays: possible with one entry on each side only. *)
Lemma lt_true_one a b t : vlt_true a b = Ok t -> vlen a = 1 /\ vlen b = 1.
Proof.
  unfold vlt_true, vlt, truth, vlen, entries. destruct a as [x [|x' a]], b as [y [|y' b]]; cbn [fst snd List.length Nat.eqb]; cbn; auto; try discriminate.
  destruct (Nat.eqb (List.length a) (List.length b)); cbn; discriminate.
Qed.
Lemma lt_true_raise a b e : vlt_true a b = Raise e -> e = ValueError.
Proof.
  unfold vlt_true. destruct (vlt a b) as [t|e'] eqn:E; cbn [rbind].
  - unfold truth. destruct (snd t); congruence.
  - unfold vlt in E. destruct (vlen a =? vlen b); [discriminate|]. destruct (snd a); [discriminate|]. destruct (snd b); congruence.
Qed.

Lemma min_in l : forall b m, vmin_from b l = Ok m -> m = b \/ In m l.
Proof.
  induction l as [|y l IH]; intros b m; cbn [vmin_from]; [intros H; injection H as <-; auto|].
  destruct (vlt_true y b) as [t|e]; cbn [rbind]; [|discriminate]. intros H. destruct (IH _ _ H) as [->|Hin]; [|right; right; exact Hin].
  destruct t; [right; left; reflexivity|left; reflexivity].
Qed.
Lemma vmin_in l m : vmin l = Ok m -> In m l.
Proof.
  destruct l as [|x l]; [discriminate|]. cbn [vmin]. intros H. destruct (min_in _ _ _ H) as [->|Hin]; [left; reflexivity|right; exact Hin].
Qed.

Lemma truncation_tr (s : vst S W) s' : vtruncation c h s = (Ok tt, s') ->
  (exists t, vs_tr s' = vs_tr s ++ t /\ Forall one_entry t) /\ v_best_cost (vs_obj s') = v_best_cost (vs_obj s).
Proof.
  unfold vtruncation. intros H.
  apply bind_ok in H as [o [s1 [H1 H]]]. unfold vget in H1. injection H1 as <- <-.
  apply bind_ok in H as [gen [s1 [H1 H]]]. apply lift_ok in H1 as [_ ->]. cbv zeta in H.
  apply bind_ok in H as [a1 [s1 [H1 H]]]. apply lift_ok in H1 as [_ ->].
  apply bind_ok in H as [a2 [s1 [H1 H]]]. apply lift_ok in H1 as [_ ->].
  apply bind_ok in H as [a3 [s1 [H1 H]]]. apply lift_ok in H1 as [_ ->].
  apply bind_ok in H as [a4 [s1 [H1 H]]]. apply lift_ok in H1 as [_ ->].
  unfold vbind, vput, vlog in H. cbn in H. injection H as <-. cbn. split; [|reflexivity].
  eexists. split; [reflexivity|]. repeat constructor.
Qed.

Lemma update_tr (s : vst S W) x s' : vupdate_pm h s = (x, s') ->
  (exists t, vs_tr s' = vs_tr s ++ t /\ Forall one_entry t) /\ vs_obj s' = vs_obj s.
Proof.
  unfold vupdate_pm, vbind, vget, vlog. destruct (h_data h (v_gen (vs_obj s)) (v_elite (vs_obj s)) (vs_pm s)) as [[d|e] p'] eqn:Ed; cbn [vs_pm vs_w vs_tr vs_obj].
  - destruct (h_learn h d p' (vs_w s)) as [r [p'' w']]. intros H. injection H as <- <-. cbn. split; [|reflexivity]. exists [VLearn d]. split; [reflexivity|repeat constructor].
  - intros H. injection H as <- <-. cbn. split; [|reflexivity]. exists []. rewrite app_nil_r. split; [reflexivity|constructor].
Qed.

Lemma new_tr (s : vst S W) x s' : vnew_generation h s = (x, s') -> vs_tr s' = vs_tr s /\ v_best_cost (vs_obj s') = v_best_cost (vs_obj s).
Proof.
  unfold vnew_generation, vset_gen, vbind, vget, vput. destruct (h_sample h (vs_pm s) (vs_w s)) as [[g|e] w']; intros H; injection H as <- <-; auto.
Qed.

(** A pass through the loop that ends without an exception compared costs of one entry. *)
Lemma iteration_one ftol noise (s : vst S W) ba s' : viteration c h cost ftol noise s = (Ok ba, s') ->
  vlen (v_best_cost (vs_obj s)) = 1 /\ exists t, vs_tr s' = vs_tr s ++ t /\ Forall one_entry t.
Proof.
  unfold viteration. intros H.
  apply bind_ok in H as [[] [s1 [H1 H]]]. destruct (truncation_tr _ _ H1) as [[t1 [Ht1 Hf1]] Hb1].
  apply bind_ok in H as [o1 [s2 [H2 H]]]. unfold vget in H2. injection H2 as <- <-.
  apply bind_ok in H as [gen1 [s2 [H2 H]]]. apply lift_ok in H2 as [_ ->].
  apply bind_ok in H as [[] [s2 [H2 H]]]. unfold vset_gen, vbind, vget, vput in H2. injection H2 as <-.
  apply bind_ok in H as [[] [s3 [H3 H]]]. destruct (update_tr _ _ _ H3) as [[t3 [Ht3 Hf3]] Ho3]. cbn [vs_tr vs_obj] in Ht3, Ho3.
  apply bind_ok in H as [[] [s4 [H4 H]]]. destruct (new_tr _ _ _ H4) as [Ht4 Hb4].
  apply bind_ok in H as [[] [s5 [H5 H]]]. destruct (check_spec _ _ _ H5) as [_ [t5 [Ht5 [_ [evals [m [Ho5 [Hone [Hlen [Hw _]]]]]]]]]].
  apply bind_ok in H as [o [s6 [H6 H]]]. unfold vget in H6. injection H6 as <- <-.
  apply bind_ok in H as [best [s6 [H6 H]]]. apply lift_ok in H6 as [Hmin ->].
  apply bind_ok in H as [i [s6 [H6 H]]]. apply lift_ok in H6 as [_ ->].
  apply bind_ok in H as [ind [s6 [H6 H]]]. apply lift_ok in H6 as [_ ->].
  apply bind_ok in H as [better [s6 [H6 H]]]. apply lift_ok in H6 as [Hacc ->].
  unfold vaccept in Hacc. apply lt_true_one in Hacc as [Hl Hg]. rewrite vlen_map in Hg.
  rewrite Ho5 in Hg, Hmin. cbn [v_best_cost v_evals] in Hg, Hmin.
  assert (Hm : m = 1).
  { apply vmin_in in Hmin. rewrite Forall_forall in Hw. rewrite <- (Hw _ Hmin). exact Hl. }
  split.
  - rewrite Hb4, Ho3 in Hg. cbn [v_best_cost] in Hg. rewrite <- Hb1. exact Hg.
  - exists (t1 ++ t3 ++ t5). split.
    + assert (vs_tr s' = vs_tr s5) as ->.
      { destruct better; unfold vbind, vput, vret in H; injection H as <- <-; reflexivity. }
      rewrite Ht5, Ht4, Ht3, Ht1, <- !app_assoc. reflexivity.
    + apply Forall_app. split; [exact Hf1|]. apply Forall_app. split; [exact Hf3|]. exact (Hone Hm).
Qed.

Lemma print_tr b p (s : vst S W) x s' : vprint_if b p s = (x, s') -> (exists t, vs_tr s' = vs_tr s ++ t /\ Forall one_entry t) /\ vs_obj s' = vs_obj s.
Proof.
  unfold vprint_if. destruct b; unfold vbind, vget, vlog, vret; intros H; injection H as <- <-; cbn; (split; [|reflexivity]).
  - eexists. split; [reflexivity|repeat constructor].
  - exists []. rewrite app_nil_r. split; [reflexivity|constructor].
Qed.

Lemma loop_one ftol out noise n : forall it hist nb (s : vst S W) r s', vloop c h cost ftol out noise n it hist nb s = (Ok r, s') ->
  (1 <= n -> vlen (v_best_cost (vs_obj s)) = 1) /\ exists t, vs_tr s' = vs_tr s ++ t /\ Forall one_entry t.
Proof.
  induction n as [|n IH]; intros it hist nb s r s' H; cbn [vloop] in H.
  - unfold vret in H. injection H as <- <-. split; [lia|]. exists []. rewrite app_nil_r. split; [reflexivity|constructor].
  - apply bind_ok in H as [ba [s1 [H1 H]]]. destruct (iteration_one _ _ _ _ _ H1) as [Hb [t1 [Ht1 Hf1]]].
    split; [intros _; exact Hb|]. cbv zeta in H.
    assert (Hgo : forall nb', vbind (vprint_if out (fun o => VPrIter it (v_best_cost o))) (fun _ => vloop c h cost ftol out noise n (it + 1)%Z (hist ++ [fst ba]) nb') s1 = (Ok r, s') ->
      exists t, vs_tr s' = vs_tr s ++ t /\ Forall one_entry t).
    { intros nb' H'. apply bind_ok in H' as [u [s2 [H2 H3]]]. destruct (print_tr _ _ _ _ _ H2) as [[t2 [Ht2 Hf2]] _].
      destruct (IH _ _ _ _ _ _ H3) as [_ [t3 [Ht3 Hf3]]]. exists (t1 ++ t2 ++ t3). split; [rewrite Ht3, Ht2, Ht1, <- !app_assoc; reflexivity|].
      apply Forall_app. split; [exact Hf1|]. apply Forall_app. auto. }
    destruct (snd ba); [exact (Hgo _ H)|]. destruct ((nb + 1 =? c_dead_iter c)%Z); [|exact (Hgo _ H)].
    unfold vret in H. injection H as <- <-. eauto.
Qed.

Lemma init_tr (s : vst S W) x s' : vinitialize_generation c h s = (x, s') -> vs_tr s' = vs_tr s /\ vs_pm s' = vs_pm s /\ vs_obj s' = vs_obj s.
Proof.
  unfold vinitialize_generation, vret, vworld. destruct (c_init_data c); [|destruct (h_init h (vs_w s))]; intros H; injection H as <- <-; auto.
Qed.

Lemma first_one (s : vst S W) b s' : vfirst_generation c h cost s = (Ok b, s') ->
  v_best_cost (vs_obj s') = b /\ exists t, vs_tr s' = vs_tr s ++ t /\ (vlen b = 1 -> Forall one_entry t).
Proof.
  unfold vfirst_generation. intros H.
  apply bind_ok in H as [g [s1 [H1 H]]]. destruct (init_tr _ _ _ H1) as [Ht1 _].
  apply bind_ok in H as [[] [s2 [H2 H]]]. unfold vset_gen, vbind, vget, vput in H2. injection H2 as <-.
  apply bind_ok in H as [[] [s5 [H5 H]]]. destruct (check_spec _ _ _ H5) as [_ [t5 [Ht5 [_ [evals [m [Ho5 [Hone [Hlen [Hw _]]]]]]]]]].
  apply bind_ok in H as [o [s6 [H6 H]]]. unfold vget in H6. injection H6 as <- <-.
  apply bind_ok in H as [r0 [s6 [H6 H]]]. apply lift_ok in H6 as [_ ->].
  apply bind_ok in H as [e0 [s6 [H6 H]]]. apply lift_ok in H6 as [_ ->].
  apply bind_ok in H as [u [s6 [H6 H]]]. unfold vput in H6. injection H6 as <- <-.
  apply bind_ok in H as [best [s6 [H6 H]]]. apply lift_ok in H6 as [Hmin ->].
  apply bind_ok in H as [o' [s6 [H6 H]]]. unfold vget in H6. injection H6 as <- <-.
  apply bind_ok in H as [u [s6 [H6 H]]]. unfold vput in H6. injection H6 as <- <-.
  apply bind_ok in H as [i [s6 [H6 H]]]. apply lift_ok in H6 as [_ ->].
  unfold vbind, vput, vret in H. injection H as <- <-. cbn. split; [reflexivity|].
  exists t5. split; [rewrite Ht5; cbn; rewrite Ht1; reflexivity|]. intros Hb. apply Hone.
  apply vmin_in in Hmin. rewrite Ho5 in Hmin. cbn in Hmin. rewrite Forall_forall in Hw. rewrite <- (Hw _ Hmin). exact Hb.
Qed.

Lemma noise_tr (s : vst S W) x s' : vdraw_noise c h s = (x, s') -> vs_tr s' = vs_tr s /\ vs_obj s' = vs_obj s.
Proof.
  unfold vdraw_noise. destruct (py_eq_int (c_w_noise c) 0); [intros H; injection H as <- <-; auto|].
  destruct (py_eq_int (c_w_noise c) (-1)); [intros H; injection H as <- <-; auto|]. cbv zeta.
  destruct (flt (num_to_f (c_w_noise c)) (Z2f 0) || (c_trunc_len c <? 0)%Z || (c_nvars c <? 0)%Z)%bool; [intros H; injection H as <- <-; auto|].
  unfold vbind. destruct (h_normal h (num_to_f (c_w_noise c)) (vs_w s)) as [d w']. intros H; injection H as <- <-; auto.
Qed.

(** A run with an iteration that returns never saw an array with several entries. *)
Lemma returns_one_entry : forall ftol out (s : vst S W) r s', vminimize c h cost ftol out s = (Ok r, s') -> (2 <= c_max_iter c)%Z ->
  exists t, vs_tr s' = vs_tr s ++ t /\ forall x v, In (VCall x v) t -> vlen v = 1.
Proof.
  intros ftol out s r s' H Hmax. unfold vminimize in H.
  apply bind_ok in H as [b0 [s1 [H1 H]]]. destruct (first_one _ _ _ H1) as [Hb [t1 [Ht1 Hf1]]].
  apply bind_ok in H as [noise [s2 [H2 H]]]. destruct (noise_tr _ _ _ H2) as [Ht2 Ho2].
  apply bind_ok in H as [u [s3 [H3 H]]]. destruct (print_tr _ _ _ _ _ H3) as [[t3 [Ht3 Hf3]] Ho3].
  apply bind_ok in H as [hist [s4 [H4 H]]]. destruct (loop_one _ _ _ _ _ _ _ _ _ _ H4) as [Hg [t4 [Ht4 Hf4]]].
  cbv zeta in H. apply bind_ok in H as [u' [s5 [H5 H]]]. destruct (print_tr _ _ _ _ _ H5) as [[t5 [Ht5 Hf5]] _].
  unfold vbind, vget, vret in H. injection H as <- <-.
  exists (t1 ++ t3 ++ t4 ++ t5). split; [rewrite Ht5, Ht4, Ht3, Ht2, Ht1, <- !app_assoc; reflexivity|].
  assert (Hall : Forall one_entry (t1 ++ t3 ++ t4 ++ t5)).
  { apply Forall_app. split; [apply Hf1; rewrite <- Hb, <- Ho2, <- Ho3; apply Hg; lia|].
    apply Forall_app. split; [exact Hf3|]. apply Forall_app. auto. }
  intros x v Hin. rewrite Forall_forall in Hall. exact (Hall _ Hin).
Qed.

(** The first generation, with two rows or more. *)
Lemma several_entries : forall ftol out (s : vst S W) r s' g w,
  (match c_init_data c with Some d => Ok d = Ok g /\ vs_w s = w | None => h_init h (vs_w s) = (Ok g, w) end) ->
  2 <= List.length (a_rows g) -> (forall x w v, fst (cost x w) = Ok v -> 2 <= vlen v) ->
  vminimize c h cost ftol out s = (r, s') ->
  vs_pm s' = vs_pm s /\
  (r = Raise ValueError \/ exists e, r = Raise e /\ exists x w, fst (cost x w) = Raise e) /\
  exists t, vs_tr s' = vs_tr s ++ t /\ forall e, In e t -> evaluation e.
Proof.
  intros ftol out s r s' g w Hinit Hrows Hcost H. unfold vminimize, vfirst_generation in H. unfold vbind at 1 in H. unfold vbind at 1 in H.
  assert (Hi : vinitialize_generation c h s = (Ok g, mkVSt (vs_obj s) (vs_pm s) w (vs_tr s))).
  { unfold vinitialize_generation, vret, vworld. destruct (c_init_data c).
    - destruct Hinit as [-> <-]. destruct s; reflexivity.
    - rewrite Hinit. reflexivity. }
  rewrite Hi in H. clear Hi Hinit.
  unfold vbind at 1 in H. unfold vset_gen in H. unfold vbind at 1 in H. unfold vget at 1 in H. unfold vput at 1 in H. cbn [vs_obj vs_pm vs_w vs_tr] in H.
  unfold vbind at 1 in H.
  match type of H with context[vcheck_generation c h cost ?s0] => destruct (vcheck_generation c h cost s0) as [[[]|e] s5] eqn:E5 end;
    destruct (check_spec _ _ _ E5) as [Hp5 [t5 [Ht5 [Hev Hx]]]]; cbn [vs_pm vs_tr vs_obj v_gen] in *.
  2:{ injection H as <- <-. split; [exact Hp5|]. split.
      - destruct Hx as [->|Hx]; [left; reflexivity|right; eauto].
      - exists t5. split; [exact Ht5|]. apply Forall_forall. exact Hev. }
  destruct Hx as [evals [m [Ho5 [_ [Hlen [Hw [[r0 [v0 [w0 [Hc0 Hm]]]] _]]]]]]].
  assert (Hm2 : 2 <= m) by (rewrite <- Hm; exact (Hcost _ _ _ Hc0)).
  unfold vbind at 1 in H. unfold vget at 1 in H. unfold vbind at 1 in H. unfold vlift at 1 in H.
  rewrite Ho5 in H. cbn [v_gen v_evals v_elite v_evel v_best_cost v_best_ind] in H.
  destruct (a_rows g) as [|ra [|rb rs]]; cbn [List.length] in Hrows; try lia.
  unfold vbind at 1 in H. unfold vlift at 1 in H.
  destruct evals as [|ea [|eb evs]]; cbn [List.length] in Hlen; try lia.
  unfold vbind at 1 in H. unfold vput at 1 in H. unfold vbind at 1 in H. unfold vlift at 1 in H.
  assert (Hmin : vmin (ea :: eb :: evs) = Raise ValueError).
  { cbn [vmin vmin_from]. destruct (vlt_true eb ea) as [t|e] eqn:El.
    - apply lt_true_one in El as [El _]. inversion Hw as [|a b _ Hw']. inversion Hw'. lia.
    - rewrite (lt_true_raise _ _ _ El). reflexivity. }
  rewrite Hmin in H. injection H as <- <-. cbn [vs_pm vs_tr].
  split; [exact Hp5|]. split; [left; reflexivity|]. exists t5. split; [exact Ht5|]. apply Forall_forall. exact Hev.
Qed.

(** A cost function that never raises and always returns [m] entries: no evaluation of rows raises. *)
Lemma apply_always m : (forall x w, exists v, fst (cost x w) = Ok v /\ vlen v = m) ->
  forall rs (s0 : vst S W), rs <> [] -> exists rets vals s1, vapply_rows cost rs s0 = (Ok (rets, vals), s1) /\ Forall (fun v => vlen v = m) vals.
Proof.
  intros Hcost.
  assert (Hcall : forall x (s0 : vst S W), exists v s1, vcall cost x s0 = (Ok v, s1) /\ vlen v = m).
  { intros x s0. destruct (Hcost x (vs_w s0)) as [v [E1 E2]]. unfold vcall, vbind, vworld. destruct (cost x (vs_w s0)) as [rr w']. cbn in E1. subst rr.
    unfold vlog, vret. eauto. }
  assert (Hall : forall v0 rs (s0 : vst S W), vlen v0 = m -> exists p s1, vcall_rows cost v0 rs s0 = (Ok p, s1)).
  { intros v0 rs. induction rs as [|x rs IH]; intros s0 Hv0; cbn [vcall_rows]; [unfold vret; eauto|].
    unfold vbind at 1. destruct (Hcall x s0) as [v [s1 [-> Hv]]]. unfold vbind at 1, vlift, fit. rewrite Hv, Hv0, Nat.eqb_refl.
    unfold vbind at 1. destruct (IH s1 Hv0) as [p [s2 ->]]. unfold vret. eauto. }
  intros [|ra rs] s0 Hne; [congruence|].
  destruct (vapply_rows cost (ra :: rs) s0) as [[[rets vals]|e] s1] eqn:E.
  - exists rets, vals, s1. split; [reflexivity|]. destruct (apply_spec _ _ _ _ E) as [_ [_ [t [_ [_ [m' [_ [_ [Hw [[r0 [v0 [w0 [Hc0 Hm']]]] _]]]]]]]]]].
    destruct (Hcost r0 w0) as [v' [E1 E2]]. rewrite Hc0 in E1. injection E1 as <-. rewrite <- Hm', E2 in Hw. exact Hw.
  - exfalso. unfold vapply_rows in E. unfold vbind at 1 in E. destruct (Hcall ra s0) as [v [s2 [E1 Hv]]]. rewrite E1 in E.
    unfold vbind at 1 in E. destruct (Hall v rs s2 Hv) as [p [s3 E2]]. rewrite E2 in E. unfold vret in E. discriminate.
Qed.

Lemma chunks_always m : (forall x w, exists v, fst (cost x w) = Ok v /\ vlen v = m) -> forall o p chs, Forall (fun ch => ch <> []) chs -> forall i ws,
  failures (fst (vrun_chunks h cost i chs o p ws)) = [] /\
  Forall (fun v => vlen v = m) (List.concat (map snd (successes (fst (vrun_chunks h cost i chs o p ws))))).
Proof.
  intros Hcost o p chs Hne. induction Hne as [|ch chs Hch _ IH]; intros i ws; cbn [vrun_chunks]; [split; [reflexivity|constructor]|].
  unfold vrun_chunk. destruct (apply_always m Hcost ch (mkVSt o p (ws (p_worker (h_pool h) i)) []) Hch) as [rets [vals [s1 [-> Hv]]]].
  match goal with |- context[vrun_chunks h cost (Datatypes.S i) chs o p ?w] => pose proof (IH (Datatypes.S i) w) as Hi; destruct (vrun_chunks h cost (Datatypes.S i) chs o p w) as [rs trs] end.
  cbn [fst snd failures successes map List.concat] in *. destruct Hi as [Hi1 Hi2]. split; [exact Hi1|]. apply Forall_app. auto.
Qed.

Lemma parallel_always m : (forall x w, exists v, fst (cost x w) = Ok v /\ vlen v = m) -> forall rs (s0 : vst S W), cpu_count (h_pool h) <= List.length rs ->
  exists p s1, vparallel_rows h cost rs s0 = (Ok p, s1).
Proof.
  intros Hcost rs s0 Hrs. unfold vparallel_rows. cbv zeta.
  pose proof (chunks_always m Hcost (vs_obj s0) (vs_pm s0) (array_split (cpu_count (h_pool h)) rs)
    (array_split_nonempty _ _ (Nat.neq_succ_0 _) Hrs) 0 (fun _ => vs_w s0)) as [Hf Hw].
  destruct (vrun_chunks h cost 0 _ (vs_obj s0) (vs_pm s0) (fun _ => vs_w s0)) as [results tr]. cbn [fst] in Hf, Hw. rewrite Hf.
  unfold vconcat. destruct (List.concat (map snd (successes results))) as [|x xs]; [cbn [rbind]; eauto|].
  inversion Hw as [|? ? Hx Hxs]; subst.
  assert (Hb : forallb (fun y => Nat.eqb (vlen y) (vlen x)) xs = true).
  { apply forallb_forall. intros y Hy. rewrite Forall_forall in Hxs. apply Nat.eqb_eq. exact (Hxs _ Hy). }
  rewrite Hb. cbn [rbind]. eauto.
Qed.

(** When the cost function never raises and always returns [m] entries, every row of the first generation is called, in order. *)
Lemma several_calls : forall ftol out (s : vst S W) r s' g w m,
  (match c_init_data c with Some d => Ok d = Ok g /\ vs_w s = w | None => h_init h (vs_w s) = (Ok g, w) end) ->
  2 <= List.length (a_rows g) -> (c_parallelize c = false \/ cpu_count (h_pool h) <= List.length (a_rows g)) -> 2 <= m -> (forall x w, exists v, fst (cost x w) = Ok v /\ vlen v = m) ->
  vminimize c h cost ftol out s = (r, s') ->
  r = Raise ValueError /\ exists rets vals, List.length rets = List.length (a_rows g) /\
    vs_tr s' = vs_tr s ++ map (fun p => VCall (fst p) (snd p)) (combine (a_rows g) rets) ++ [VGen g rets vals].
Proof.
  intros ftol out s r s' g w m Hinit Hrows Hcores Hm Hcost H.
  assert (Hr : r = Raise ValueError).
  { destruct (several_entries ftol out s r s' g w Hinit Hrows) with (2 := H) as [_ [[->|[e [-> [x [w' He]]]]] _]]; [|reflexivity|].
    - intros x w' v Hv. destruct (Hcost x w') as [v' [E1 E2]]. rewrite Hv in E1. injection E1 as ->. lia.
    - destruct (Hcost x w') as [v' [E1 _]]. congruence. }
  split; [exact Hr|]. subst r. unfold vminimize, vfirst_generation in H. unfold vbind at 1 in H. unfold vbind at 1 in H.
  assert (Hi : vinitialize_generation c h s = (Ok g, mkVSt (vs_obj s) (vs_pm s) w (vs_tr s))).
  { unfold vinitialize_generation, vret, vworld. destruct (c_init_data c).
    - destruct Hinit as [-> <-]. destruct s; reflexivity.
    - rewrite Hinit. reflexivity. }
  rewrite Hi in H. clear Hi Hinit.
  unfold vbind at 1 in H. unfold vset_gen in H. unfold vbind at 1 in H. unfold vget at 1 in H. unfold vput at 1 in H. cbn [vs_obj vs_pm vs_w vs_tr] in H.
  unfold vbind at 1 in H.
  match type of H with context[vcheck_generation c h cost ?s0] => destruct (vcheck_generation c h cost s0) as [[[]|e] s5] eqn:E5 end;
    pose proof E5 as E5'.
  2:{ exfalso. (* no call raises and every result fits *)
      clear H. unfold vcheck_generation, vbind at 1, vget in E5'. unfold vbind at 1 in E5'. cbn [vs_obj v_gen] in E5'.
      match type of E5' with context[(if c_parallelize c then _ else _) ?s0] =>
        assert (Hev : exists p s1, (if c_parallelize c then vparallel_rows h cost (a_rows g) else vapply_rows cost (a_rows g)) s0 = (Ok p, s1)) end.
      { destruct (c_parallelize c); [destruct Hcores as [Hn|Hcores]; [discriminate|apply (parallel_always m Hcost); exact Hcores]|].
        match goal with |- context[vapply_rows cost (a_rows g) ?s0] => destruct (apply_always m Hcost (a_rows g) s0) as [rets [vals [s1 [E _]]]] end.
        - destruct (a_rows g); [cbn in Hrows; lia|discriminate].
        - eauto. }
      destruct Hev as [p [s1 E1]]. rewrite E1 in E5'. unfold vbind, vput, vlog in E5'. discriminate. }
  destruct (check_spec _ _ _ E5) as [Hp5 [t5 [Ht5 [Hev Hx]]]]; cbn [vs_pm vs_tr vs_obj v_gen] in *.
  destruct Hx as [evals [m' [Ho5 [_ [Hlen [Hw [[r0 [v0 [w0 [Hc0 Hm']]]] [rets [Ht Hlr]]]]]]]]].
  assert (Hmm : 2 <= m') by (destruct (Hcost r0 w0) as [v' [E1 E2]]; rewrite Hc0 in E1; injection E1 as <-; lia).
  unfold vbind at 1 in H. unfold vget at 1 in H. unfold vbind at 1 in H. unfold vlift at 1 in H.
  rewrite Ho5 in H. cbn [v_gen v_evals v_elite v_evel v_best_cost v_best_ind] in H.
  exists rets, evals. split; [congruence|].
  rewrite Ht in Ht5. rewrite <- Ht5.
  destruct (a_rows g) as [|ra [|rb rs]]; cbn [List.length] in Hrows; try lia.
  unfold vbind at 1 in H. unfold vlift at 1 in H.
  destruct evals as [|ea [|eb evs]]; cbn [List.length] in Hlen; try lia.
  unfold vbind at 1 in H. unfold vput at 1 in H. unfold vbind at 1 in H. unfold vlift at 1 in H.
  assert (Hmin : vmin (ea :: eb :: evs) = Raise ValueError).
  { cbn [vmin vmin_from]. destruct (vlt_true eb ea) as [t|e] eqn:El.
    - apply lt_true_one in El as [El _]. inversion Hw as [|a b _ Hw']. inversion Hw'. lia.
    - rewrite (lt_true_raise _ _ _ El). reflexivity. }
  rewrite Hmin in H. injection H as <-. reflexivity.
Qed.

End Shape.
