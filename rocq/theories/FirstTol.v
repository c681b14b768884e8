(** How far the cost a run returns may lie above that of an individual it evaluated, for any
    tolerance [ftol], and what follows for the chances of C124, C130 and C131. *)
From Coq Require Import String List ZArith Bool Lia Reals Lra.
From Flocq Require Import Core IEEE754.BinarySingleNaN.
From Verif Require Import PyBase B64 B64More NdArray Eda EdaInv Spec TopK LoopObs LoopThms LoopMore LoopInv LoopDrawn LoopFail FailThms Rand RandThms Models ModelThms BestCost FloatSum Chance
  Inits InitThms Stock StockInv StockAll StockCat StockMore MaxLik Mean Found FoundBest Answers UniformChance BoxChance LostBits LostCat FirstChance.
Import ListNotations.
Open Scope R_scope.

(** The cost returned lies above [v] by more than the tolerance explains, in a run of at most [k + 1] generations. *)
Definition above_tol (ftol : f64) (k : nat) (v best : f64) : bool :=
  if fle (Z2f 0) v then flt (inflated ftol k v) best else flt v (fmul best (fadd fone ftol)).

Lemma inflated_S ftol k x : inflated ftol (S k) x = fmul (inflated ftol k x) (fadd fone ftol).
Proof. reflexivity. Qed.
Lemma inflated_mono ftol x y k : tol_ok ftol -> fle x y = true -> fle (inflated ftol k x) (inflated ftol k y) = true.
Proof.
  intros Ht H. destruct (one_plus_tol ftol Ht) as (H1 & H2 & _). induction k as [|k IH]; [exact H|]. rewrite !inflated_S. apply fmul_pos_mono; [exact H1|lra|exact IH].
Qed.
Lemma inflated_up ftol x k k' : tol_ok ftol -> fle (Z2f 0) x = true -> (k <= k')%nat -> fle (inflated ftol k x) (inflated ftol k' x) = true.
Proof.
  intros Ht H Hk. destruct (one_plus_tol ftol Ht) as (H1 & H2 & _).
  assert (Hs : forall j, fle (Z2f 0) (inflated ftol j x) = true /\ fle (inflated ftol j x) (inflated ftol (S j) x) = true).
  { assert (Hst : forall y, fle (Z2f 0) y = true -> fle y (fmul y (fadd fone ftol)) = true).
    { intros y Hy. destruct (fle0_ext y Hy) as [Hn H0]. apply fmul_ge1_nonneg; assumption. }
    intros j. induction j as [|j [IH1 IH2]]; [split; [exact H|exact (Hst x H)]|].
    assert (Hj : fle (Z2f 0) (inflated ftol (S j) x) = true) by (eapply fle_trans; [exact IH1|exact IH2]). split; [exact Hj|]. rewrite (inflated_S ftol (S j)). exact (Hst _ Hj). }
  induction Hk as [|k' _ IH]; [|eapply fle_trans; [exact IH|apply Hs]].
  destruct (fle_not_nan _ _ (proj2 (Hs k))) as [Hn _]. apply (fle_ext _ _ Hn Hn). apply Rle_refl.
Qed.

Lemma nonneg_or (x : f64) : isnan x = false -> fle (Z2f 0) x = true \/ fle x (Z2f 0) = true.
Proof.
  intros Hx. destruct (fle (Z2f 0) x) eqn:Hc; [left; reflexivity|right]. apply flt_false_fle; [reflexivity|exact Hx|].
  destruct (flt (Z2f 0) x) eqn:H; [|reflexivity]. rewrite (flt_fle _ _ H) in Hc. discriminate Hc.
Qed.

(** Costs of both signs: the best cost is within one inflation per later generation of each
    non-negative entry, and within one factor of each non-positive one. *)
Lemma run_best_any ftol (hist : list f64) : tol_ok ftol -> hist <> [] -> Forall (fun v => isnan v = false) hist ->
  isnan (run_best ftol hist) = false /\
  forall k v, nth_error hist k = Some v ->
    (fle (Z2f 0) v = true -> fle (run_best ftol hist) (inflated ftol (List.length hist - 1 - k) v) = true) /\
    (fle v (Z2f 0) = true -> fle (run_best ftol hist) (Z2f 0) = true /\ fle (fmul (run_best ftol hist) (fadd fone ftol)) v = true).
Proof.
  intros Ht Hne Hall. destruct (one_plus_tol ftol Ht) as [Hfin [Hge _]]. set (c1 := fadd fone ftol) in *.
  assert (Hup : forall x, fle (Z2f 0) x = true -> fle x (fmul x c1) = true) by (intros x Hx; apply fle0_ext in Hx as [Hn Hx]; apply fmul_ge1_nonneg; assumption).
  assert (Hdown : forall x, fle x (Z2f 0) = true -> fle (fmul x c1) x = true) by (intros x Hx; apply fle_0_ext in Hx as [Hn Hx]; apply fmul_ge1_nonpos; assumption).
  induction hist as [|v l IH] using rev_ind; [congruence|].
  apply Forall_app in Hall as [Hall Hv]. inversion Hv as [|? ? Hv0 _]; subst. destruct l as [|b l].
  - cbn [app run_best fold_left List.length]. split; [exact Hv0|]. intros [|k] u Hu; [|destruct k; discriminate Hu]. cbn [nth_error] in Hu. assert (v = u) by congruence. subst u. split.
    + intros _. apply fle_refl. exact Hv0.
    + intros H. split; [exact H|exact (Hdown v H)].
  - rewrite run_best_snoc by discriminate. destruct (IH ltac:(discriminate) Hall) as [Hb Hm]. set (best := run_best ftol (b :: l)) in *. clear IH.
    assert (Hbn : isnan (fmul best c1) = false) by (apply fmul_pos_not_nan; [exact Hb|exact Hfin|lra]).
    assert (Hstep : (best_step ftol best v = v /\ flt v (fmul best c1) = true) \/ (best_step ftol best v = best /\ fle (fmul best c1) v = true)).
    { destruct (best_step_cases ftol best v) as [[-> H]|[-> H]]; unfold accept in H; fold c1 in H; [left; split; [reflexivity|exact H]|right; split; [reflexivity|]].
      apply flt_false_fle; assumption. }
    split; [destruct Hstep as [[-> _]|[-> _]]; assumption|]. intros k u Hu. rewrite app_length. cbn [List.length].
    destruct (Nat.lt_ge_cases k (List.length (b :: l))) as [Hk|Hk].
    + rewrite nth_error_app1 in Hu by exact Hk. destruct (Hm k u Hu) as [M1 M2].
      replace (Datatypes.S (List.length l) + 1 - 1 - k)%nat with (Datatypes.S (List.length (b :: l) - 1 - k)) by (cbn [List.length] in *; lia).
      set (n := (List.length (b :: l) - 1 - k)%nat) in *. rewrite inflated_S. fold c1. split; intros Hs.
      * specialize (M1 Hs). destruct Hstep as [[-> H]|[-> H]].
        -- eapply fle_trans; [apply flt_fle, H|]. apply fmul_pos_mono; [exact Hfin|lra|exact M1].
        -- eapply fle_trans; [exact M1|]. change (fmul (inflated ftol n u) c1) with (inflated ftol (S n) u). apply (inflated_up ftol u n (S n) Ht Hs). lia.
      * destruct (M2 Hs) as [B0 B1]. destruct Hstep as [[-> H]|[-> H]]; [|split; assumption].
        assert (Hvu : fle v u = true) by (eapply fle_trans; [apply flt_fle, H|exact B1]). assert (Hv00 : fle v (Z2f 0) = true) by (eapply fle_trans; [exact Hvu|exact Hs]).
        split; [exact Hv00|]. eapply fle_trans; [exact (Hdown v Hv00)|exact Hvu].
    + rewrite nth_error_app2 in Hu by exact Hk. destruct (k - List.length (b :: l))%nat as [|d] eqn:Ed; [|destruct d; discriminate Hu].
      cbn [nth_error] in Hu. assert (v = u) by congruence. subst u. replace (Datatypes.S (List.length l) + 1 - 1 - k)%nat with 0%nat by (cbn [List.length] in *; lia).
      change (inflated ftol 0 v) with v. split; intros Hs.
      * destruct Hstep as [[-> H]|[-> H]]; [apply fle_refl; exact Hv0|]. destruct (nonneg_or best Hb) as [H0|H0].
        -- eapply fle_trans; [exact (Hup best H0)|exact H].
        -- eapply fle_trans; [exact H0|exact Hs].
      * destruct Hstep as [[-> H]|[-> H]]; [split; [exact Hs|exact (Hdown v Hs)]|]. split; [|exact H]. destruct (nonneg_or best Hb) as [H0|H0]; [|exact H0].
        eapply fle_trans; [exact (Hup best H0)|]. eapply fle_trans; [exact H|exact Hs].
Qed.

(** Any completed run of the loop. *)
Lemma drift_any (S W : Type) (c : cfg) (h : hooks S W) ftol out (s : st S W) r tr : completes c h ftol out s r tr -> tol_ok ftol ->
  forall k gen vals v, nth_error (gens tr) k = Some (gen, vals) -> In v vals -> isnan v = false ->
    (fle (Z2f 0) v = true -> fle (r_best_cost r) (inflated ftol (List.length (gens tr) - 1 - k) v) = true) /\
    (fle v (Z2f 0) = true -> fle (r_best_cost r) (Z2f 0) = true /\ fle (fmul (r_best_cost r) (fadd fone ftol)) v = true).
Proof.
  intros Hc Ht k gen vals v Hk Hv Hn. pose proof (history_lemma _ _ _ _ _ _ _ Hc) as Hh. destruct (counts_lemma _ _ _ _ _ _ _ Hc) as (K1 & _ & _ & K2).
  assert (Hm : exists m, nth_error (r_history r) k = Some m /\ is_min m vals).
  { clear -Hh Hk. revert k Hk. induction Hh as [|m gv l G I _ IH]; intros [|k] Hk; try discriminate Hk; cbn [nth_error] in *.
    - assert (gv = (gen, vals)) by congruence. subst gv. exists m. split; [reflexivity|exact I].
    - exact (IH k Hk). }
  destruct Hm as (m & Hm & _ & Hmn & Hml).
  assert (Hmv : fle m v = true) by (apply flt_false_fle; [exact Hn|exact Hmn|exact (Hml v Hv)]).
  pose proof (best_cost_lemma _ _ _ _ _ _ _ Hc) as Eb.
  assert (Hne : r_history r <> []) by (intros E0; rewrite E0 in Hm; destruct k; discriminate Hm).
  destruct (run_best_any ftol (r_history r) Ht Hne (history_not_nan _ _ _ _ _ _ _ Hc)) as (Hbn & Hb). rewrite <- Eb in Hbn, Hb. destruct (Hb k m Hm) as [B1 B2]. rewrite <- K1. split; intros Hs.
  - destruct (nonneg_or m Hmn) as [H0|H0].
    + eapply fle_trans; [exact (B1 H0)|]. apply inflated_mono; assumption.
    + eapply fle_trans; [exact (proj1 (B2 H0))|]. eapply fle_trans; [exact Hs|]. change v with (inflated ftol 0 v) at 1. apply inflated_up; [exact Ht|exact Hs|lia].
  - destruct (B2 (fle_trans _ _ _ Hmv Hs)) as [C1 C2]. split; [exact C1|]. eapply fle_trans; [exact C2|exact Hmv].
Qed.

Section Run.
Context {X W : Type}.
Variables (E : env X W) (o : optimiser X) (F : row -> f64) (a : obj) (ftol : f64) (out : bool) (w : W) (res : result) (s : st (pmstate X) W).
Let cost := fun (r : row) (w : W) => (Ok (NF (F r)), w).
Hypothesis ran : run_in E a o cost ftol out w = (Ok res, s).
Let s0 := mkSt a (op_st o) w [].
Let h := hooks_of E o cost.

Lemma ran_completes : completes (op_cfg o) h ftol out s0 res (s_tr s).
Proof. split; [reflexivity|]. exists s. split; [exact ran|reflexivity]. Qed.
Lemma ran_answers : Forall (fun xv => exists w1 w2, h_cost h (fst xv) w1 = (Ok (snd xv), w2)) (calls (s_tr s)).
Proof.
  pose proof (run_answers (op_cfg o) h ftol out s0 eq_refl) as Ha. change (minimize (op_cfg o) h ftol out s0) with (run_in E a o cost ftol out w) in Ha.
  rewrite ran in Ha. cbn [snd] in Ha. exact Ha.
Qed.
Lemma ran_floats : all_float_returns (s_tr s).
Proof.
  unfold all_float_returns. eapply Forall_impl; [|exact ran_answers]. intros [x' y] (w1 & w2 & Hx). cbn [fst snd] in *. unfold h, cost in Hx. cbn [hooks_of h_cost] in Hx. exists (F x'). congruence.
Qed.
(** The costs recorded are those of the cost function. *)
Lemma ran_cost x v : In (x, v) (evaluated (s_tr s)) -> v = F x.
Proof.
  intros Hin. assert (Hin' : In (x, NF v) (calls (s_tr s))).
  { rewrite (evaluated_called _ _ _ _ _ _ _ ran_completes ran_floats). apply in_map_iff. exists (x, v). split; [reflexivity|exact Hin]. }
  pose proof ran_answers as Ha. rewrite Forall_forall in Ha. destruct (Ha _ Hin') as (w1 & w2 & Hx). unfold h, cost in Hx. cbn [hooks_of h_cost fst snd] in Hx. congruence.
Qed.
Lemma ran_row g0 v0 x : In (g0, v0) (gens (s_tr s)) -> In x (a_rows g0) -> In (x, F x) (evaluated (s_tr s)).
Proof.
  intros Hg Hx. destruct (calls_lemma _ _ _ _ _ _ _ ran_completes) as (_ & Hlens).
  assert (Hlen : List.length v0 = List.length (a_rows g0)).
  { clear - Hlens Hg. induction Hlens as [|gv rets G Rs Hx _ IH]; [destruct Hg|]. destruct Hg as [->|Hg]; [apply Hx|exact (IH Hg)]. }
  apply In_nth_error in Hx as [i Hi]. assert (Hi' : (i < List.length v0)%nat) by (rewrite Hlen; apply nth_error_Some; congruence).
  destruct (nth_error v0 i) as [y|] eqn:Ey; [|apply nth_error_None in Ey; lia].
  assert (Hin : In (x, y) (evaluated (s_tr s))).
  { unfold evaluated. apply in_flat_map. exists (g0, v0). split; [exact Hg|]. unfold pairs. cbn [fst snd]. eapply combine_in; eassumption. }
  rewrite <- (ran_cost x y Hin). exact Hin.
Qed.

(** The cost returned lies above that of no individual evaluated by more than the tolerance explains. *)
Lemma ran_tol x v top : tol_ok ftol -> In (x, v) (evaluated (s_tr s)) -> fle (F x) top = true ->
  above_tol ftol (Z.to_nat (c_max_iter (op_cfg o) - 1)) top (r_best_cost res) = false.
Proof.
  intros Ht Hin Hx. pose proof (ran_cost x v Hin) as Ev. subst v. unfold evaluated in Hin. apply in_flat_map in Hin as ([g0 v0] & Hg & Hp). unfold pairs in Hp. cbn [fst snd] in Hp.
  apply in_combine_r in Hp. apply In_nth_error in Hg as [k Hk]. destruct (fle_not_nan _ _ Hx) as [Hn Hn'].
  destruct (drift_any _ _ _ _ _ _ _ _ _ ran_completes Ht k g0 v0 (F x) Hk Hp Hn) as [D1 D2]. destruct (counts_lemma _ _ _ _ _ _ _ ran_completes) as (_ & _ & _ & K).
  unfold above_tol. destruct (fle (Z2f 0) top) eqn:Hs.
  - apply fle_flt_false. destruct (nonneg_or _ Hn) as [H0|H0].
    + eapply fle_trans; [exact (D1 H0)|]. eapply fle_trans; [apply (inflated_up ftol (F x) _ (Z.to_nat (c_max_iter (op_cfg o) - 1)) Ht H0); lia|]. apply inflated_mono; assumption.
    + eapply fle_trans; [exact (proj1 (D2 H0))|]. eapply fle_trans; [exact Hs|]. change top with (inflated ftol 0 top) at 1. apply inflated_up; [exact Ht|exact Hs|lia].
  - apply fle_flt_false. destruct (nonneg_or _ Hn) as [H0|H0]; [rewrite (fle_trans _ _ _ H0 Hx) in Hs; discriminate Hs|].
    eapply fle_trans; [exact (proj2 (D2 H0))|exact Hx].
Qed.
Lemma first_tol x top : tol_ok ftol -> fle (F x) top = true ->
  above_tol ftol (Z.to_nat (c_max_iter (op_cfg o) - 1)) top (r_best_cost res) = true ->
  exists g0 v0 G, gens (s_tr s) = (g0, v0) :: G /\ ~ In x (a_rows g0).
Proof.
  intros Ht Hx Hv. destruct (counts_lemma _ _ _ _ _ _ _ ran_completes) as (_ & _ & _ & K).
  destruct (gens (s_tr s)) as [|[g0 v0] G] eqn:Eg; [cbn in K; lia|]. exists g0, v0, G. split; [reflexivity|]. intros Hin.
  assert (Hi : In (x, F x) (evaluated (s_tr s))) by (apply (ran_row g0 v0 x); [rewrite Eg; left; reflexivity|exact Hin]).
  rewrite (ran_tol x (F x) top Ht Hi Hx) in Hv. discriminate Hv.
Qed.
End Run.

Lemma max_iter_of {X W} (E : env X W) A g (o0 o : optimiser X) : construct E A g = Ok o0 -> used E o0 o -> c_max_iter (op_cfg o) = g_max_iter g.
Proof.
  intros Hm U. destruct (used_setup E _ _ U) as (Ecfg & _). rewrite Ecfg. pose proof (construct_built E _ _ _ Hm) as B. destruct B as [Hcfg _ _ _ _]. unfold base_of in Hcfg.
  apply eda_init_inv in Hcfg. decompose [and] Hcfg. congruence.
Qed.

(** Any completed run of any optimiser. *)
Lemma run_tol X W (E : env X W) A g (o0 o : optimiser X) (F : row -> f64) a ftol out w res s x v :
  construct E A g = Ok o0 -> used E o0 o -> tol_ok ftol ->
  run_in E a o (fun r w => (Ok (NF (F r)), w)) ftol out w = (Ok res, s) -> In (x, v) (evaluated (s_tr s)) -> isnan (F x) = false ->
  above_tol ftol (Z.to_nat (g_max_iter g - 1)) (F x) (r_best_cost res) = false.
Proof.
  intros Hm U Ht Hr Hin Hn. rewrite <- (max_iter_of E A g o0 o Hm U). apply (ran_tol E o F a ftol out w res s Hr x v (F x) Ht Hin). apply fle_refl. exact Hn.
Qed.

(** Boxes. *)
Lemma best_rare_tol X (E : env X (list Z)) A g lo hi (o0 o : optimiser X) M bx sides (F : row -> f64) (top : f64) a ftol out t :
  tape_rng (e_rng E) -> construct E A g = Ok o0 -> used E o0 o -> start_bounds A = Some (lo, hi) -> g_init_data g = None ->
  full_bound (Z.to_nat (g_nvars g)) lo -> full_bound (Z.to_nat (g_nvars g)) hi ->
  List.length bx = Z.to_nat (g_nvars g) -> List.length sides = Z.to_nat (g_nvars g) ->
  (forall j l h a b s, bound_of lo j l -> bound_of hi j h -> nth_error bx j = Some (a, b) -> nth_error sides j = Some s -> side_fits M l h a b s) ->
  tol_ok ftol -> (forall r, in_box bx r = true -> fle (F r) top = true) ->
  likelihood (Z.to_nat (g_size_gen g) * Z.to_nat (g_nvars g)) (fun v =>
    match fst (run_in E a o (fun r w => (Ok (NF (F r)), w)) ftol out (v ++ t)) with
    | Ok r => above_tol ftol (Z.to_nat (g_max_iter g - 1)) top (r_best_cost r)
    | Raise _ => false
    end) <= (1 - Rprod sides) ^ Z.to_nat (g_size_gen g).
Proof.
  intros Ht Hm Hu Hs Hd Fl Fh L1 L2 Hf Htol HF. set (cost := fun (r : row) (w : list Z) => (Ok (NF (F r)), w)).
  eapply Rle_trans; [|exact (first_rare E Ht A g lo hi o0 o Hm Hu Hs Hd Fl Fh M bx sides L1 L2 Hf cost a ftol out t)].
  apply likelihood_le. intros v _ Hv. destruct (run_in E a o cost ftol out (v ++ t)) as [[res|e] s] eqn:Hr; cbn [fst snd] in *; [|discriminate Hv].
  rewrite <- (max_iter_of E A g o0 o Hm Hu) in Hv. unfold first_outside.
  destruct (counts_lemma _ _ _ _ _ _ _ (ran_completes E o F a ftol out (v ++ t) res s Hr)) as (_ & _ & _ & K).
  destruct (gens (s_tr s)) as [|[g0 v0] G] eqn:Eg; [cbn in K; lia|].
  apply negb_true_iff. apply not_true_is_false. intros Hex. apply existsb_exists in Hex as (x & Hx & Hbx).
  destruct (first_tol E o F a ftol out (v ++ t) res s Hr x top Htol (HF x Hbx) Hv) as (g1 & v1 & G1 & Eg1 & Hno).
  rewrite Eg in Eg1. assert (g1 = g0) by congruence. subst g1. exact (Hno Hx).
Qed.

(** Bit strings. *)
Lemma bits_rare_tol X (E : env X (list Z)) g vector lo hi (o0 o : optimiser X) qs bs (F : row -> f64) a ftol out t :
  tape_rng (e_rng E) -> construct E (UMDAd vector lo hi) g = Ok o0 -> used E o0 o ->
  (forall v, vector = Some v -> List.length v = Z.to_nat (g_nvars g)) -> g_init_data g = None ->
  Forall2 (fun p q => chance (fun x => flt x p = true) q) (match vector with None => repeat (lit 1 (-1)) (Z.to_nat (g_nvars g)) | Some v => v end) qs ->
  List.length bs = Z.to_nat (g_nvars g) -> tol_ok ftol -> isnan (F (bits bs)) = false ->
  likelihood (Z.to_nat (g_size_gen g) * Z.to_nat (g_nvars g)) (fun v =>
    match fst (run_in E a o (fun r w => (Ok (NF (F r)), w)) ftol out (v ++ t)) with
    | Ok r => above_tol ftol (Z.to_nat (g_max_iter g - 1)) (F (bits bs)) (r_best_cost r)
    | Raise _ => false
    end) <= (1 - Rprod (map (fun bq : bool * R => if fst bq then snd bq else 1 - snd bq) (combine bs qs))) ^ Z.to_nat (g_size_gen g).
Proof.
  intros Ht Hm Hu Hv Hi Hq Hb Htol Hs.
  apply (bits_first_misses E Ht g vector lo hi o0 o Hm Hu Hv Hi qs Hq bs Hb (fun r w => (Ok (NF (F r)), w)) a ftol out t). intros v Hx.
  destruct (run_in E a o (fun r w => (Ok (NF (F r)), w)) ftol out (v ++ t)) as [[res|e] s] eqn:Hr; cbn [fst snd] in *; [|discriminate Hx].
  rewrite <- (max_iter_of E _ g o0 o Hm Hu) in Hx. exact (first_tol E o F a ftol out (v ++ t) res s Hr (bits bs) _ Htol (fle_refl _ Hs) Hx).
Qed.

(** Categories. *)
Lemma cats_rare_tol X (E : env X (list Z)) A g values freq (o0 : optimiser X) d x ps :
  cyclic_rng (e_rng E) -> construct E A g = Ok o0 -> declared_values A = Some (values, freq) -> (1 <= g_nvars g)%Z -> cats_ok values freq -> g_init_data g = None ->
  d <= / 4 -> List.length x = Z.to_nat (g_nvars g) -> LostCat.declared values freq d x ps ->
  exists qs, Forall2 (fun p q => 0 <= q <= 1 /\ Rabs (q - B2R p) <= 2 * d + bpow radix2 (-25)) ps qs /\
  forall o (F : row -> f64) a ftol out t, used E o0 o -> tol_ok ftol -> isnan (F x) = false ->
    likelihood (Z.to_nat (g_size_gen g) * Z.to_nat (g_nvars g)) (fun v =>
      match fst (run_in E a o (fun r w => (Ok (NF (F r)), w)) ftol out (v ++ t)) with
      | Ok r => above_tol ftol (Z.to_nat (g_max_iter g - 1)) (F x) (r_best_cost r)
      | Raise _ => false
      end) <= (1 - Rprod qs) ^ Z.to_nat (g_size_gen g).
Proof.
  intros Hcy Hm Hdv Hn Hc Hi Hd Hx Hp. destruct (cat_first_misses E Hcy A g values freq o0 Hm Hdv Hn Hc Hi d x ps Hd Hx Hp) as (qs & Hq & H).
  exists qs. split; [exact Hq|]. intros o F a ftol out t U Htol Hs. apply (H o (fun r w => (Ok (NF (F r)), w)) a ftol out t _ U). intros v Hv.
  destruct (run_in E a o (fun r w => (Ok (NF (F r)), w)) ftol out (v ++ t)) as [[res|e] s] eqn:Hr; cbn [fst snd] in *; [|discriminate Hv].
  rewrite <- (max_iter_of E _ g o0 o Hm U) in Hv. exact (first_tol E o F a ftol out (v ++ t) res s Hr x _ Htol (fle_refl _ Hs) Hv).
Qed.

Lemma bits_row bs : bit_row (List.length bs) (bits bs).
Proof.
  split; [apply map_length|]. unfold bits. induction bs as [|b bs IH]; constructor; [|exact IH]. destruct b; unfold bit; [right|left]; reflexivity.
Qed.

(** All generations of UMDAd. *)
Lemma umdad_optimum_tol X (E : env X (list Z)) g vector lo hi o0 o t ql qh bs (F : row -> f64) a ftol out :
  tape_rng (e_rng E) -> argsort_ok (e_argsort E) -> construct E (UMDAd vector lo hi) g = Ok o0 -> used E o0 o ->
  (forall v, vector = Some v -> List.length v = Z.to_nat (g_nvars g)) ->
  (forall d, g_init_data g = Some d -> bit_arr (Z.to_nat (g_nvars g)) d) -> (forall d, g_init_data g = Some d -> a_rows d <> []) ->
  (g_parallelize g = false \/ ((cpu_count (e_pool E) <= Z.to_nat (g_size_gen g))%nat /\
                               forall d, g_init_data g = Some d -> (cpu_count (e_pool E) <= a_len d)%nat)) ->
  prob lo -> prob hi -> (1 <= g_size_gen g)%Z -> int_times (g_size_gen g) (g_alpha g) = Ok t -> (1 <= t <= 2 ^ 53)%Z ->
  chance (fun x => flt x lo = true) ql -> chance (fun x => flt x hi = true) qh -> List.length bs = Z.to_nat (g_nvars g) ->
  tol_ok ftol -> (forall r, bit_row (Z.to_nat (g_nvars g)) r -> isnan (F r) = false) ->
  (g_dead_iter g <= 0)%Z \/ (g_max_iter g <= g_dead_iter g)%Z ->
  1 - (1 - Rprod (map (fun b : bool => if b then ql else 1 - qh) bs)) ^ (Z.to_nat (g_size_gen g) * Z.to_nat (g_max_iter g - 1))
  <= likelihood (all_draws g) (fun v => match fst (run_in E a o (fun r w => (Ok (NF (F r)), w)) ftol out v) with
                                        | Ok r => negb (above_tol ftol (Z.to_nat (g_max_iter g - 1)) (F (bits bs)) (r_best_cost r))
                                        | Raise _ => false
                                        end).
Proof.
  intros Ht Hso Hm Hu Hv Hi Hj Hc Pl Ph Hz Hs Hr Cl Ch Hb Htol Hsign Hd. set (f := fun r : row => Ok (NF (F r)) : res NdArray.num).
  assert (Hans : forall r, bit_row (Z.to_nat (g_nvars g)) r -> exists v, f r = Ok v /\ not_nan v).
  { intros r Hr0. exists (NF (F r)). split; [reflexivity|]. exact (Hsign r Hr0). }
  eapply Rle_trans; [exact (umdad_finds E Ht g vector lo hi o0 o Hm Hu Hv Hi Pl Ph t Hs ql qh Cl Ch bs Hb f Hso Hans Hz Hj Hc Hr Hd a ftol out)|].
  apply likelihood_le. intros w _ Hev.
  destruct (umdad_completes E g vector lo hi o0 o Hm Hu Hv Hi t Hs bs Hb f Hso Hans Hz Hj Hc Hr a ftol out w) as (res & s & Hrun & _).
  change (run_in E a o (fun r w => (Ok (NF (F r)), w)) ftol out w = (Ok res, s)) in Hrun. unfold f in Hev. rewrite Hrun in Hev |- *. cbn [fst snd] in *.
  apply evaluates_spec in Hev as (gen & vals & Hg & Hrow).
  rewrite (run_tol X (list Z) E _ g o0 o F a ftol out w res s (bits bs) (F (bits bs)) Hm Hu Htol Hrun); [reflexivity| |apply Hsign; rewrite <- Hb; apply bits_row].
  exact (ran_row E o F a ftol out w res s Hrun gen vals (bits bs) Hg Hrow).
Qed.
