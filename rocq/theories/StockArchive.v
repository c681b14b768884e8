(** SPEDA and MultivariateKEDA: what the archive holds and what the model is learned from. *)
From Coq Require Import String List ZArith Bool Lia Sorting.Permutation.
From Verif Require Import PyBase B64 NdArray Eda EdaInv Spec TopK LoopObs LoopThms Select LoopTrain LoopRel LoopInv LoopFinal Rand Models Inits InitThms Stock StockInv StockGauss StockPrior.
Import ListNotations.
Open Scope nat_scope.

(** The last [k] elements. *)
Definition lastn {A} (k : nat) (l : list A) : list A := skipn (List.length l - k) l.

Lemma skipn_skipn' {A} (l : list A) : forall i j, skipn i (skipn j l) = skipn (j + i) l.
Proof. induction l as [|x l IH]; intros i [|j]; cbn [skipn Nat.add]; auto using skipn_nil. Qed.

Lemma lastn_snoc {A} k (l : list A) x : 1 <= k -> lastn k (l ++ [x]) = lastn (k - 1) l ++ [x].
Proof.
  intros Hk. unfold lastn. rewrite app_length, skipn_app. cbn [List.length].
  replace (List.length l + 1 - k - List.length l) with 0 by lia. cbn [skipn].
  replace (List.length l + 1 - k) with (List.length l - (k - 1)) by lia. reflexivity.
Qed.
Lemma lastn_length {A} k (l : list A) : List.length (lastn k l) = Nat.min k (List.length l).
Proof. unfold lastn. rewrite skipn_length. lia. Qed.
Lemma lastn_incl {A} k (l : list A) : incl (lastn k l) l.
Proof. intros x Hx. unfold lastn in Hx. rewrite <- (firstn_skipn (List.length l - k) l). apply in_or_app. right; exact Hx. Qed.
Lemma lastn_Forall {A} (P : A -> Prop) k l : Forall P l -> Forall P (lastn k l).
Proof. intros H. apply Forall_forall. intros x Hx. rewrite Forall_forall in H. apply H, (lastn_incl k), Hx. Qed.

Lemma concat_length_const {A} t (ls : list (list A)) : Forall (fun l => List.length l = t) ls -> List.length (concat ls) = List.length ls * t.
Proof. induction 1 as [|l ls H _ IH]; cbn; [reflexivity|]. rewrite app_length, H, IH. lia. Qed.

Lemma skipn_concat_const {A} t (ls : list (list A)) : Forall (fun l => List.length l = t) ls ->
  forall j, skipn (j * t) (concat ls) = concat (skipn j ls).
Proof.
  induction 1 as [|l ls H _ IH]; intros [|j]; cbn [concat skipn Nat.mul]; try reflexivity.
  - apply skipn_nil.
  - rewrite skipn_app, H. replace (t + j * t - t) with (j * t) by lia. rewrite (skipn_all2 (n := t + j * t) l) by lia. apply IH.
Qed.

(** Appending a block and keeping the slice [-l*t:] keeps the last [l] blocks. *)
Lemma slice_blocks {A} (l t : nat) (els : list (list A)) e :
  1 <= l -> Forall (fun x => List.length x = t) els -> List.length e = t ->
  slice_from (- (Z.of_nat l * Z.of_nat t)) (concat (lastn l els) ++ e) = concat (lastn l (els ++ [e])).
Proof.
  intros Hl Hels He. unfold slice_from.
  assert (Hc : concat (lastn l els) ++ e = concat (lastn l els ++ [e])) by (rewrite concat_app; cbn; rewrite app_nil_r; reflexivity).
  rewrite Hc. set (bs := lastn l els ++ [e]).
  assert (Hbs : Forall (fun x => List.length x = t) bs) by (apply Forall_app; split; [apply lastn_Forall, Hels|repeat constructor; exact He]).
  assert (Hlast : lastn l (els ++ [e]) = skipn (List.length bs - l) bs).
  { rewrite lastn_snoc by lia. unfold bs. rewrite app_length, lastn_length, skipn_app, lastn_length. cbn [List.length].
    replace (Nat.min l (List.length els) + 1 - l - Nat.min l (List.length els)) with 0 by lia. cbn [skipn]. f_equal.
    unfold lastn. rewrite skipn_skipn'. f_equal. lia. }
  assert (Hlen : List.length (concat bs) = List.length bs * t) by (apply concat_length_const, Hbs).
  rewrite Hlast, <- (skipn_concat_const t bs Hbs).
  destruct (Z.leb_spec 0 (- (Z.of_nat l * Z.of_nat t))) as [Hz|Hz].
  - assert (H : t = 0) by nia. replace (Z.to_nat _) with 0 by nia. rewrite H, Nat.mul_0_r. reflexivity.
  - f_equal. rewrite Hlen. nia.
Qed.

Section Archive.
Context {X W : Type}.
Variable E : env X W.

Lemma archive_inv k g lo hi l wn (o : optimiser X) : archive_new E k g lo hi l wn = Ok o ->
  exists t c u, int_times (g_size_gen g) (g_alpha g) = Ok t /\
    eda_init (g_size_gen g) (g_max_iter g) (g_dead_iter g) (g_nvars g) (g_alpha g) (g_alpha g) (g_disp g) (g_parallelize g) (g_init_data g) wn = Ok c /\
    uniform_new (g_nvars g) lo hi = Ok u /\ (0 <= g_nvars g)%Z /\
    o = mkOpt c (mkPS (Some (MExt k (names (g_nvars g)) (e_xnew E k (names (g_nvars g))))) (mkArr DFloat (Z.to_nat (g_nvars g)) []))
              (Some (IUniform u)) (FromArchive (times_int l t)) Plain.
Proof.
  unfold archive_new, base. destruct (eda_init _ _ _ _ _ _ _ _ _ _) as [c|e] eqn:Ec; cbn [rmap rbind]; [|discriminate].
  unfold assign_pm at 1, set_pm. cbn [model_width op_cfg with_pm op_st op_init op_upd op_exp ps_archive].
  destruct (Z.eqb _ _); cbn [rmap rbind]; [|discriminate].
  destruct (int_times _ _) as [t|e] eqn:Et; cbn [rbind]; [|discriminate].
  destruct (Z.ltb_spec (g_nvars g) 0) as [Hn|Hn]; [discriminate|].
  destruct (uniform_new _ _ _) as [u|e] eqn:Eu; cbn [rbind]; [|discriminate].
  unfold assign_init, set_init. cbn [op_cfg]. destruct (Z.eqb _ _); cbn [rmap rbind]; [|discriminate].
  intros H. exists t, c, u. split; [reflexivity|]. split; [reflexivity|]. split; [reflexivity|]. split; [exact Hn|]. symmetry. apply (f_equal (fun r => match r with Ok x => x | Raise _ => o end)) in H. exact H.
Qed.

(** The external sampler returns a float matrix with the number of rows asked for. *)
Definition samples_floats (k : pm_class) (size : Z) : Prop :=
  forall x w a w', e_xsample E k x size w = (Ok a, w') -> a_dt a = DFloat /\ a_len a = Z.to_nat size.

Definition elites (tr : list ev) : list (list row) := map (fun te => map fst (snd te)) (selections tr).

Definition archive_state (k : pm_class) (l t : nat) (s : st (pmstate X) W) : Prop :=
  a_dt (o_gen (s_obj s)) = DFloat /\ a_dt (o_elite (s_obj s)) = DFloat /\
  List.length (o_evals (s_obj s)) = a_len (o_gen (s_obj s)) /\ List.length (o_evel (s_obj s)) = a_len (o_elite (s_obj s)) /\
  t <= a_len (o_gen (s_obj s)) /\
  (exists n x, ps_pm (s_pm s) = Some (MExt k n x)) /\
  a_dt (ps_archive (s_pm s)) = DFloat /\
  a_rows (ps_archive (s_pm s)) = concat (lastn l (elites (s_tr s))) /\
  Forall (fun e => List.length e = t) (elites (s_tr s)) /\
  List.length (learns (s_tr s)) = List.length (elites (s_tr s)) /\
  Forall (fun gv => a_dt (fst gv) = DFloat) (gens (s_tr s)) /\
  forall j d, nth_error (learns (s_tr s)) j = Some d -> a_rows d = concat (lastn l (firstn (S j) (elites (s_tr s)))).

(** Where the algorithms starts: no archive, the elite as large as the selection. *)
Record archive_setup (k : pm_class) (l t : nat) (o : optimiser X) : Prop := {
  as_upd : op_upd o = FromArchive (PyI (Z.of_nat l * Z.of_nat t));
  as_elite : c_elite_len (op_cfg o) = Z.of_nat t;
  as_pm : exists n x, ps_pm (op_st o) = Some (MExt k n x);
  as_dt : a_dt (ps_archive (op_st o)) = DFloat;
  as_empty : a_rows (ps_archive (op_st o)) = [];
  as_size : t <= Z.to_nat (c_size_gen (op_cfg o));
  as_init : match c_init_data (op_cfg o) with
            | Some d => a_dt d = DFloat /\ t <= a_len d
            | None => exists u, op_init o = Some (IUniform u)
            end;
  as_sample : samples_floats k (c_size_gen (op_cfg o))
}.

Lemma elites_app a b : elites (a ++ b) = elites a ++ elites b.
Proof. unfold elites. rewrite selections_app, map_app. reflexivity. Qed.

Lemma first_state k l t o cost a w b s1 w1 s1' :
  archive_setup k l t o -> first_facts (op_cfg o) (hooks_of E o cost) (mkSt a (op_st o) w []) s1 b ->
  printed_after (mkSt (s_obj s1) (s_pm s1) w1 (s_tr s1)) s1' -> archive_state k l t s1'.
Proof.
  intros A F Hp. destruct A. destruct as_pm0 as (n & x & Hm).
  pose proof (first_obs _ _ (mkSt a (op_st o) w []) _ _ _ _ eq_refl F Hp) as (rets & Ho & Hpm & Hg & _ & _ & Hl & Hs & Hr & Hv). cbv zeta in *.
  destruct F. subst s1. cbn [s_obj s_pm s_tr s_w] in *. unfold archive_state, elites. rewrite Hs, Hl, Hg, Hpm.
  assert (G : a_dt ff_g = DFloat /\ t <= a_len ff_g).
  { destruct (c_init_data (op_cfg o)) as [d|]; [destruct ff_init as [-> _]; exact as_init0|]. destruct as_init0 as [u Hu].
    cbn [hooks_of h_init] in ff_init. rewrite Hu in ff_init. cbn [initr_sample] in ff_init. apply uniform_float in ff_init as M.
    destruct (matrix_rows _ _ _ M) as [(G1 & _) G2]. split; [exact G1|]. lia. }
  rewrite Ho in *. cbn [o_gen o_evals o_elite o_evel a_dt a_rows a_len List.length] in *. destruct G as [G1 G2].
  split; [exact G1|]. split; [exact G1|]. split; [exact Hv|]. split; [reflexivity|]. split; [exact G2|]. split; [eauto|].
  split; [exact as_dt0|]. split; [rewrite as_empty0; unfold lastn; cbn; reflexivity|].
  split; [constructor|]. split; [reflexivity|]. split; [repeat constructor; exact G1|]. intros [|j] d; discriminate.
Qed.

Lemma iter_trace tr0 a b d rs rets g rets' vals ps : Forall is_print ps ->
  let tr := (tr0 ++ [EvSelect a b; EvLearn d] ++ calls_of rs rets ++ [EvGen g rets' vals]) ++ ps in
  elites tr = elites tr0 ++ [map fst b] /\ learns tr = learns tr0 ++ [d] /\ gens tr = gens tr0 ++ [(g, vals)].
Proof.
  intros Hps. cbv zeta. unfold elites.
  rewrite !selections_app, !learns_app, !gens_app, gens_calls_of, learns_calls_of, selections_calls_of,
    (gens_prints ps Hps), (learns_prints ps Hps), (selections_prints ps Hps).
  cbn. rewrite !app_nil_r, map_app. repeat split.
Qed.

Lemma step_state k l t o cost ftol wn s0 b acc s1 s1' :
  archive_setup k l t o -> 1 <= l -> argsort_ok (e_argsort E) ->
  archive_state k l t s0 -> iter_facts (op_cfg o) (hooks_of E o cost) ftol wn s0 s1 b acc -> printed_after s1 s1' ->
  archive_state k l t s1'.
Proof.
  intros A Hl Hsort (S1 & S2 & S3 & S4 & S5 & (n & x & Sm) & S6 & S7 & S8 & S9 & S10 & S11) F [ps [Hps ->]]. destruct A. clear as_pm0.
  destruct F. subst s1. cbn [s_obj s_pm s_tr s_w] in *. unfold archive_state. cbn [s_obj s_pm s_tr o_gen o_evals o_elite o_evel].
  destruct (iter_trace (s_tr s0) (combine (a_rows if_gen') if_evals') (combine (a_rows if_elite') if_evel') if_data
              (a_rows if_g) if_rets if_g if_rets if_vals ps Hps) as (T1 & T2 & T3). cbv zeta in *. rewrite T1, T2, T3. clear T1 T2 T3.
  destruct if_sel as [gen Hc He Ht Hve Hvt].
  apply concat_same_dtype in Hc as [Hgd Hgr]; [|congruence].
  apply take_rows_ok in He as (Hed & _ & He).
  assert (Hle : List.length (a_rows if_elite') = t).
  { rewrite (gather_length _ _ _ He). rewrite as_elite0, slice_to_nonneg, firstn_length by lia. cbn [hooks_of h_argsort].
    destruct (Hsort (o_evals (s_obj s0) ++ o_evel (s_obj s0))) as [P _]. apply Permutation_length in P. rewrite seq_length, app_length in P.
    rewrite P, Nat2Z.id. unfold a_len in *. lia. }
  assert (Hlv : List.length if_evel' = List.length (a_rows if_elite')) by (rewrite (gather_length _ _ _ He), (gather_length _ _ _ Hve); reflexivity).
  rewrite map_fst_combine by congruence.
  cbn [hooks_of h_data h_learn h_sample] in *. rewrite as_upd0 in if_hdata. cbn [data_of] in if_hdata.
  unfold update_archive in if_hdata.
  destruct (np_concatenate (ps_archive (s_pm s0)) if_elite') as [ar|e] eqn:Hca; [|discriminate].
  apply concat_same_dtype in Hca as [Had Har]; [|congruence].
  cbn [archive_slice] in if_hdata. rewrite Har, S7, slice_blocks in if_hdata by assumption.
  assert (Ed : if_data = mkArr (a_dt ar) (a_nc ar) (concat (lastn l (elites (s_tr s0) ++ [a_rows if_elite'])))) by congruence.
  assert (Ep : if_p1 = mkPS (ps_pm (s_pm s0)) if_data) by congruence.
  rewrite Ep in if_learn. cbn [ps_pm ps_archive] in if_learn. rewrite Sm in if_learn. cbn [model_learn] in if_learn.
  destruct (e_xlearn E k if_data x (s_w s0)) as [r0 [x' w']].
  assert (E2 : if_p2 = mkPS (Some (MExt k n x')) if_data) by congruence.
  rewrite E2 in if_sample |- *. cbn [ps_pm ps_archive] in *. cbn [model_sample] in if_sample.
  destruct (as_sample0 _ _ _ _ if_sample) as [Gd Gl].
  split; [exact Gd|]. split; [congruence|]. split; [rewrite (Stored_length _ _ if_stored); exact if_len|].
  split; [exact Hlv|]. split; [lia|]. split; [eauto|]. split; [rewrite Ed; cbn; congruence|]. split; [rewrite Ed; reflexivity|].
  split; [apply Forall_app; split; [exact S8|repeat constructor; exact Hle]|].
  split; [rewrite !app_length; cbn; lia|].
  split; [apply Forall_app; split; [exact S10|repeat constructor; exact Gd]|].
  intros j d Hj. destruct (Nat.lt_ge_cases j (List.length (learns (s_tr s0)))) as [Hlt|Hge].
  - rewrite nth_error_app1 in Hj by exact Hlt. rewrite (S11 _ _ Hj). f_equal. f_equal. rewrite firstn_app.
    replace (S j - List.length (elites (s_tr s0))) with 0 by lia. cbn. rewrite app_nil_r. reflexivity.
  - rewrite nth_error_app2 in Hj by exact Hge. destruct (j - List.length (learns (s_tr s0))) as [|i] eqn:Ej; [|destruct i; discriminate].
    cbn in Hj. assert (Edd : d = if_data) by congruence. rewrite Edd, Ed. cbn [a_rows]. f_equal. f_equal.
    rewrite firstn_all2; [reflexivity|]. rewrite app_length. cbn. lia.
Qed.

(** The training sets of a run on a fresh optimiser, and the archive it leaves. *)
Lemma archive_run k l t (o : optimiser X) cost a ftol out w r s :
  archive_setup k l t o -> 1 <= l -> argsort_ok (e_argsort E) ->
  run_in E a o cost ftol out w = (Ok r, s) -> archive_state k l t s.
Proof.
  intros A Hl Hsort H.
  destruct (minimize_rule _ _ ftol out (fun _ _ s => archive_state k l t s) _ _ _
    (fun b s1 w1 s1' F P => first_state k l t o cost a w b s1 w1 s1' A F P)
    (fun wn hist nb s0 b acc s1 s1' _ I _ _ F P => step_state k l t o cost ftol wn s0 b acc s1 s1' A Hl Hsort I F P) H)
    as (nb & sf & I & [ps [Hps ->]] & _).
  unfold archive_state, elites in *. cbn [s_obj s_pm s_tr].
  rewrite selections_app, learns_app, gens_app, (gens_prints ps Hps), (learns_prints ps Hps), (selections_prints ps Hps), !app_nil_r.
  exact I.
Qed.

End Archive.
