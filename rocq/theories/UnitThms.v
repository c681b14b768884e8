(** Runs of UMDAc and PBIL in another unit. *)
From Coq Require Import String List ZArith Bool Lia Reals Lra.
From Flocq Require Import Core IEEE754.BinarySingleNaN.
From Verif Require Import PyBase B64 B64More NdArray Eda EdaInv Rand Models Inits Stock Spec LoopObs LoopRel OrderRel LoopMap LoopKeep VarOrder Scale Guard UnitFloat UnitStat UnitRun.
Import ListNotations.
Open Scope nat_scope.

(** If the first call of [minimize] returns and its numbers were ordinary throughout, the second
    returns too: the same best cost, count and history, the best individual in the new unit; the
    generator is left in the same state, and the cost function, the model and stdout saw the
    individuals in the new unit. *)
Definition unit_run {S W} (e : Z) (n : nat) (x x' : res result * st S W) : Prop :=
  forall r s, x = (Ok r, s) -> ordinary (s_tr s) -> exists r' s', x' = (Ok r', s') /\
    r_best_ind r' = map_bind (scaled_row e) (r_best_ind r) /\ r_best_cost r' = r_best_cost r /\ r_nfev r' = r_nfev r /\ r_history r' = r_history r /\
    s_w s' = s_w s /\ s_tr s' = map (keep_event (scaled_row e) n) (s_tr s).
(** If the first optimiser can be built, so can the second, and its runs are the first one's in
    the new unit. *)
Definition unit_outcome {X W} (e : Z) (n : nat) (r r' : res (optimiser X)) (m m' : optimiser X -> res result * st (pmstate X) W) : Prop :=
  forall o, r = Ok o -> exists o', r' = Ok o' /\ unit_run e n (m o) (m' o').
(** The random numbers are ordinary. *)
Definition ordinary_draws {W} (g : rng W) : Prop :=
  forall r c w i j, moderate (fst (g_unif g r c w) i j) = true /\ moderate (fst (g_gauss g r c w) i j) = true.
(** No noise, or of an ordinary size. *)
Definition ordinary_noise (w : option pynum) : Prop :=
  match w with
  | None => True
  | Some p => moderate (num_to_f p) = true /\ match p with PyI z => (0 <= z <= 2 ^ 53)%Z | PyF x => flt x (Z2f 0) = false end
  end.
Definition scaled_noise (e : Z) (w : option pynum) : option pynum := option_map (fun p => PyF (scaled e (num_to_f p))) w.
(** What the constructor stores (eda.py:48-51). *)
Definition stored_noise (w : option pynum) : pynum := match w with Some p => if py_eq_int p 0 then PyI 0 else p | None => PyI 0 end.
Definition ordinary_matrix (d : arr) : Prop :=
  Forall (fun r => List.length r = a_nc d) (a_rows d) /\ moderate_rows d = true.
Definition scaled_vector (e : Z) (v : option (list (list f64))) : option (list (list f64)) := option_map (map (map (scaled e))) v.
Definition moderate_vector (v : option (list (list f64))) : bool :=
  match v with Some l => forallb (forallb moderate) l | None => true end.

Section Run.
Variables (n : nat) (e : Z).
Hypothesis He : (-50 <= e <= 50)%Z.
Context {X W : Type}.
Variable E : env X W.
Hypothesis Hg : ordinary_draws (e_rng E).
Hypothesis Hs : fixed_order (e_sum E).
Local Notation Ru := (Ru n e).
Local Notation wu := (wu n).
Local Notation Ra := (arr_keep Ru wu).
Local Notation sc := (scaled e).

Definition model_unit (m m' : model X) : Prop :=
  match m, m' with
  | MUniGauss lo pm, MUniGauss lo' pm' => moderate lo = true /\ lo' = sc lo /\ List.length pm = n /\ Forall mid_pair pm /\ pm' = map (pair_scaled e) pm
  | MAdapt lo al pm, MAdapt lo' al' pm' => moderate lo = true /\ lo' = sc lo /\ al' = al /\ moderate al = true /\
      List.length pm = n /\ Forall mid_pair pm /\ pm' = map (pair_scaled e) pm
  | _, _ => False
  end.
Definition pms_unit (p p' : pmstate X) : Prop :=
  match ps_pm p, ps_pm p' with Some m, Some m' => model_unit m m' | _, _ => False end.
Definition init_unit (i i' : initr) : Prop :=
  match i, i' with
  | IUniGauss j, IUniGauss j' => Z.to_nat (gi_n j) = n /\ gi_n j' = gi_n j /\ List.length (gi_means j) = n /\ List.length (gi_stds j) = n /\
      forallb moderate (gi_means j) = true /\ forallb moderate (gi_stds j) = true /\
      gi_means j' = map sc (gi_means j) /\ gi_stds j' = map sc (gi_stds j)
  | IUniform u, IUniform u' => Z.to_nat (ui_n u) = n /\ ui_n u' = ui_n u /\ moderate_bound (ui_lo u) = true /\ moderate_bound (ui_hi u) = true /\
      ui_lo u' = scaled_bound e (ui_lo u) /\ ui_hi u' = scaled_bound e (ui_hi u)
  | _, _ => False
  end.
Record opt_unit (o o' : optimiser X) : Prop := mkOU {
  ou_cfg : same_but_unit Ru wu (op_cfg o) (op_cfg o');
  ou_width : Z.to_nat (c_nvars (op_cfg o)) = n /\ Z.to_nat (c_nvars (op_cfg o')) = n;
  ou_noise : moderate (num_to_f (c_w_noise (op_cfg o))) = true /\ num_to_f (c_w_noise (op_cfg o')) = sc (num_to_f (c_w_noise (op_cfg o))) /\
             py_eq_int (c_w_noise (op_cfg o)) (-1) = false;
  ou_pm : pms_unit (op_st o) (op_st o');
  ou_init : match op_init o, op_init o' with Some i, Some i' => init_unit i i' | _, _ => False end;
  ou_upd : op_upd o = FromSelection /\ op_upd o' = FromSelection
}.

Lemma moderate_mid l : forallb moderate l = true -> Forall mid l.
Proof.
  intros H. rewrite forallb_forall in H. apply Forall_forall. intros x Hx. apply (grid_up 153 100); [lia|lia|]. apply moderate_grid, H, Hx.
Qed.
Lemma mid_fst pm : Forall mid_pair pm -> Forall mid (map fst pm) /\ Forall mid (map snd pm).
Proof. intros H. split; apply Forall_map; (eapply Forall_impl; [|exact H]); intros p [H1 H2]; assumption. Qed.
Lemma map_fst_unit pm : map fst (map (pair_scaled e) pm) = map sc (map fst pm) /\ map snd (map (pair_scaled e) pm) = map sc (map snd pm).
Proof. rewrite !map_map. split; reflexivity. Qed.

Lemma learn_model d d' m m' w : Ra d d' -> some_rows d = true -> model_unit m m' ->
  res_le (fun _ _ => model_unit (fst (snd (model_learn E d m w))) (fst (snd (model_learn E d' m' w))) /\
                     snd (snd (model_learn E d m w)) = snd (snd (model_learn E d' m' w)))
    (fst (model_learn E d m w)) (fst (model_learn E d' m' w)).
Proof.
  intros Hd Hn Hm. destruct m as [lo pm|lo al pm| | | |], m' as [lo' pm'|lo' al' pm'| | | |]; try contradiction; cbn [model_learn].
  - destruct Hm as (Ml & -> & L & Hp & ->).
    assert (L' : List.length (map (pair_scaled e) pm) = n) by (rewrite map_length; exact L).
    destruct (unigauss_unit n e He (e_sum E) Hs lo d d' pm (map (pair_scaled e) pm) Hd Hn L L' Ml) as (q & Lq & Hq & E1 & E2).
    rewrite E1, E2. cbn. auto 10.
  - destruct Hm as (Ml & -> & -> & Mal & L & Hp & ->).
    assert (L' : List.length (map (pair_scaled e) pm) = n) by (rewrite map_length; exact L).
    destruct (adapt_learn (b64_ops (e_sum E)) lo al (num_col d) pm) as [[[]|x] q0] eqn:EA; [|exact I].
    destruct (adapt_unit n e He (e_sum E) Hs lo al d d' pm (map (pair_scaled e) pm) Hd Hn L L' Ml Mal) as (q & Lq & Hq & E1 & E2).
    { rewrite EA. reflexivity. }
    assert (Q : q0 = q) by congruence. rewrite E2, Q. cbn. auto 10.
Qed.
Lemma sample_model m m' size w : model_unit m m' ->
  draw_unit n e (guard moderate_rows (model_sample E m size w)) (model_sample E m' size w).
Proof.
  intros Hm. destruct m as [lo pm|lo al pm| | | |], m' as [lo' pm'|lo' al' pm'| | | |]; try contradiction; cbn [model_sample].
  - destruct Hm as (_ & _ & L & Hp & ->). unfold gauss_sample. destruct (map_fst_unit pm) as [-> ->]. destruct (mid_fst pm Hp). rewrite map_length, L.
    apply (normal_unit n e He (e_rng E) Hg); try assumption; rewrite map_length; exact L.
  - destruct Hm as (_ & _ & _ & _ & L & Hp & ->). unfold gauss_sample. destruct (map_fst_unit pm) as [-> ->]. destruct (mid_fst pm Hp). rewrite map_length, L.
    apply (normal_unit n e He (e_rng E) Hg); try assumption; rewrite map_length; exact L.
Qed.
Lemma sample_init i i' size w : init_unit i i' -> draw_unit n e (guard moderate_rows (initr_sample E i size w)) (initr_sample E i' size w).
Proof.
  intros Hi. destruct i as [j| | |u|], i' as [j'| | |u'|]; try contradiction; cbn [initr_sample].
  - destruct Hi as (N & N' & L1 & L2 & M1 & M2 & E1 & E2). unfold unigauss_init_sample. rewrite N', N, E1, E2.
    apply (normal_unit n e He (e_rng E) Hg); try assumption; apply moderate_mid; assumption.
  - destruct Hi as (N & N' & M1 & M2 & E1 & E2). unfold uniform_sample. rewrite N', N, E1, E2. destruct (ui_n u <? 0)%Z; [exact I|].
    apply (uniform_unit n e He (e_rng E) Hg); assumption.
Qed.

Lemma hooks_unit o o' cost cost' : opt_unit o o' ->
  (forall r w, List.length r = n -> forallb moderate_cell r = true -> cost' (scaled_row e r) w = cost r w) ->
  hooks_keep Ru wu pms_unit (Rnu n e) (Rwu n e) (op_cfg o) (op_cfg o') (guarded moderate_rows usual (hooks_of E o cost)) (hooks_of E o' cost').
Proof.
  intros Ho Hcost. destruct (ou_cfg _ _ Ho) as (C1 & C2 & C3 & C4 & C5 & C6 & C7 & C8 & C9 & C10).
  destruct (ou_upd _ _ Ho) as [U1 U2]. destruct (ou_noise _ _ Ho) as (N1 & N2 & N3). destruct (ou_width _ _ Ho) as [W1 W2].
  constructor; cbn [guarded hooks_of h_argsort h_pool h_settings h_cost h_init h_data h_learn h_sample h_normal].
  - reflexivity.
  - reflexivity.
  - intros r r' w Hr. rewrite (Ru_fun n e _ _ Hr). symmetry. apply Hcost; apply Hr.
  - intros w. pose proof (ou_init _ _ Ho) as Hi. destruct (op_init o) as [i|], (op_init o') as [i'|]; try contradiction.
    rewrite <- C1. exact (sample_init i i' (c_size_gen (op_cfg o)) w Hi).
  - intros a a' x x' p p' Ha _ Hp. rewrite U1, U2. cbn. split; assumption.
  - intros d d' p p' w Hd Hp. destruct (usual d) eqn:Hu; [|exact I]. unfold usual in Hu. apply andb_true_iff in Hu. destruct Hu as [Hn Hmod]. apply (fun H => Rw_Ra n e d d' H Hmod) in Hd.
    unfold pms_unit in Hp. destruct (ps_pm p) as [m|] eqn:Em, (ps_pm p') as [m'|] eqn:Em'; try contradiction.
    pose proof (learn_model d d' m m' w Hd Hn Hp) as HL.
    destruct (model_learn E d m w) as [r [m1 w1]], (model_learn E d' m' w) as [r' [m1' w1']]. cbn [fst snd] in *.
    destruct r; [|exact I]. destruct r'; [|contradiction]. cbn in HL |- *. split; [exact Hd|exact HL].
  - intros p p' w Hp. unfold pms_unit in Hp. destruct (ps_pm p) as [m|] eqn:Em, (ps_pm p') as [m'|] eqn:Em'; try contradiction.
    rewrite <- C1. exact (sample_model m m' (c_size_gen (op_cfg o)) w Hp).
  - intros _ _. cbv zeta. intros w nr. rewrite N2, W1, W2, <- C8.
    pose proof (fun i j => proj2 (Hg (Z.to_nat (c_trunc_len (op_cfg o))) n w i j)) as Hz.
    destruct (g_gauss (e_rng E) (Z.to_nat (c_trunc_len (op_cfg o))) n w) as [z w1]. cbn [fst snd] in *. split; [reflexivity|].
    cbn [Rnu]. do 3 (split; [reflexivity|]). intros i j. apply (noise_unit e He); [exact N1|apply Hz].
  - intros _. exact I.
  - intros Z. rewrite N3 in Z. discriminate Z.
  - intros a a' x x' Ha Hx. apply (iadd_unit n e He); assumption.
Qed.
Lemma run_unit o o' cost cost' ftol out w : opt_unit o o' ->
  (forall r w, List.length r = n -> forallb moderate_cell r = true -> cost' (scaled_row e r) w = cost r w) ->
  unit_run e n (run E o cost ftol out w) (run E o' cost' ftol out w).
Proof.
  intros Ho Hcost r s HR Hord. unfold run, run_in in *. apply (guard_run moderate_rows usual) in HR; [|exact Hord].
  refine (kept_minimize Ru wu (scaled_row e) n pms_unit (Rnu n e) (Rwu n e) (op_cfg o) (op_cfg o') _ _ ftol out _ _ _ _ w _ _ _ _ _ _ r s HR).
  - apply Ru_cast.
  - apply Ru_fun.
  - intros x x' [_ Hx]. exact Hx.
  - apply Ho.
  - apply hooks_unit; assumption.
  - apply Ho.
Qed.

(* ---------------- constructors ---------------- *)
Variable a : args.
Hypothesis Hn : n = Z.to_nat (g_nvars a).
Hypothesis H0 : (0 <= g_nvars a)%Z.
Hypothesis Hdata : forall d, g_init_data a = Some d -> ordinary_matrix d.
Local Notation a' := (unit_args e a).

Definition base_unit (o o' : optimiser X) : Prop :=
  same_but_unit Ru wu (op_cfg o) (op_cfg o') /\
  c_nvars (op_cfg o) = g_nvars a /\ c_nvars (op_cfg o') = g_nvars a /\
  (moderate (num_to_f (c_w_noise (op_cfg o))) = true /\ num_to_f (c_w_noise (op_cfg o')) = sc (num_to_f (c_w_noise (op_cfg o))) /\
   py_eq_int (c_w_noise (op_cfg o)) (-1) = false) /\
  (op_upd o = FromSelection /\ op_upd o' = FromSelection).

Lemma stored_unit wn : ordinary_noise wn ->
  noise_like (stored_noise wn) (stored_noise (scaled_noise e wn)) /\ moderate (num_to_f (stored_noise wn)) = true /\
  num_to_f (stored_noise (scaled_noise e wn)) = sc (num_to_f (stored_noise wn)) /\ py_eq_int (stored_noise wn) (-1) = false.
Proof.
  assert (He' : (-100 <= e <= 100)%Z) by lia.
  assert (Z0 : sc (Z2f 0) = Z2f 0) by exact (scaled_zero e He' (Z2f 0) Z2f_0_fin Z2f_0_R).
  assert (M0 : moderate (Z2f 0) = true) by (vm_compute; reflexivity).
  assert (None_case : noise_like (PyI 0) (PyI 0) /\ moderate (num_to_f (PyI 0)) = true /\ num_to_f (PyI 0) = sc (num_to_f (PyI 0)) /\ py_eq_int (PyI 0) (-1) = false).
  { cbn [num_to_f]. rewrite Z0. repeat split; assumption. }
  destruct wn as [p|]; [|intros _; exact None_case]. intros [Mp Hp]. set (x := num_to_f p) in *.
  pose proof (moderate_grid x Mp) as G. pose proof G as (F & _ & _).
  destruct (scaled_all e 153 100 x He' ltac:(lia) ltac:(lia) G) as (Fs & Es & _).
  destruct (Z2f_exact (-1)) as [R1 F1]; [cbn; lia|].
  assert (Pos : (0 <= B2R x)%R).
  { destruct p as [z|y]; cbn [num_to_f] in x; subst x.
    - destruct (Z2f_exact z) as [R _]; [lia|]. rewrite R. apply IZR_le. lia.
    - destruct (Rle_or_lt 0 (B2R y)) as [|C]; [assumption|]. exfalso. rewrite <- Z2f_0_R in C. apply (flt_fin _ _ F Z2f_0_fin) in C. congruence. }
  pose proof (bpow_gt_0 radix2 e) as Pe.
  assert (E0 : py_eq_int p 0 = feq x (Z2f 0)).
  { destruct p as [z|y]; [|reflexivity]. cbn [num_to_f] in x. subst x. cbn [py_eq_int]. apply bool_iff. rewrite feq_fin by (assumption || apply Z2f_0_fin).
    destruct (Z2f_exact z) as [R _]; [lia|]. rewrite R, Z2f_0_R, Z.eqb_eq. split; [intros ->; reflexivity|apply eq_IZR]. }
  assert (E1 : py_eq_int p (-1) = false).
  { destruct p as [z|y]; cbn [py_eq_int]; [apply Z.eqb_neq; lia|]. apply not_true_is_false. intros C. cbn [num_to_f] in x. subst x.
    apply (feq_fin _ _ F F1) in C. rewrite C, R1 in Pos. lra. }
  assert (E2 : feq (sc x) (Z2f 0) = feq x (Z2f 0)).
  { apply bool_iff. rewrite !feq_fin by (assumption || apply Z2f_0_fin). rewrite Es, Z2f_0_R. split; [intros H; apply Rmult_integral in H; lra|intros ->; ring]. }
  assert (E3 : feq (sc x) (Z2f (-1)) = false).
  { apply not_true_is_false. intros C. apply (feq_fin _ _ Fs F1) in C. rewrite Es, R1 in C. pose proof (Rmult_le_pos _ _ Pos (Rlt_le _ _ Pe)). lra. }
  assert (E4 : flt x (Z2f 0) = flt (sc x) (Z2f 0)).
  { rewrite <- Z0 at 2. symmetry. apply (grid_flt e He' 153 100); [lia|lia|exact G|apply grid_zero; [apply Z2f_0_fin|apply Z2f_0_R]]. }
  change (feq (sc x) (Z2f 0)) with (py_eq_int (PyF (sc x)) 0) in E2. change (feq (sc x) (Z2f (-1))) with (py_eq_int (PyF (sc x)) (-1)) in E3.
  cbn [scaled_noise option_map stored_noise]. change (num_to_f p) with x. rewrite E2, E0. destruct (feq x (Z2f 0)) eqn:Ez; [exact None_case|].
  unfold noise_like. rewrite E0, E1, E2, E3. cbn [num_to_f]. change (num_to_f p) with x. auto 10.
Qed.
Lemma base_unit_ok alpha elite wn : ordinary_noise wn -> res_le base_unit (base (X := X) a alpha elite wn) (base a' alpha elite (scaled_noise e wn)).
Proof.
  intros Hw. destruct (stored_unit wn Hw) as (S1 & S2).
  unfold base, eda_init. cbn [unit_args g_size_gen g_max_iter g_dead_iter g_nvars g_alpha g_elite_factor g_disp g_parallelize g_init_data].
  destruct (int_times (g_size_gen a) alpha) as [t|x]; [|exact I]. destruct (int_times (g_size_gen a) elite) as [l|x]; [|exact I].
  cbn [rbind]. fold (stored_noise wn). fold (stored_noise (scaled_noise e wn)).
  cbv zeta. destruct (g_dead_iter a <=? g_max_iter a)%Z; [|exact I].
  destruct (g_init_data a) as [d|] eqn:Ed; cbn [option_map].
  - cbn [a_nc]. destruct (Z.eqb_spec (Z.of_nat (a_nc d)) (g_nvars a)) as [Ez|]; [|exact I]. cbn [rmap res_le].
    split; [|split; [reflexivity|split; [reflexivity|split; [exact S2|split; reflexivity]]]].
    unfold same_but_unit. cbn [op_cfg c_size_gen c_max_iter c_dead_iter c_nvars c_disp c_parallelize c_w_noise c_trunc_len c_elite_len c_init_data].
    do 3 (split; [reflexivity|]). split; [exact H0|]. do 2 (split; [reflexivity|]). split; [exact S1|]. do 2 (split; [reflexivity|]).
    assert (Dn : a_nc d = n) by lia. split; [reflexivity|]. split; [split; [exact Dn|exact Dn]|]. cbn [a_rows].
    destruct (Hdata d eq_refl) as [D1 D2]. unfold moderate_rows in D2. rewrite Dn in D1.
    induction (a_rows d) as [|r rs IH]; cbn [map forallb] in *; [constructor|]. apply andb_true_iff in D2. inversion D1; subst. constructor; [|apply IH; [assumption|apply D2]].
    split; [assumption|]. split; [apply D2|reflexivity].
  - cbn [rmap res_le].
    split; [|split; [reflexivity|split; [reflexivity|split; [exact S2|split; reflexivity]]]].
    unfold same_but_unit. cbn [op_cfg c_size_gen c_max_iter c_dead_iter c_nvars c_disp c_parallelize c_w_noise c_trunc_len c_elite_len c_init_data].
    do 3 (split; [reflexivity|]). split; [exact H0|]. do 2 (split; [reflexivity|]). split; [exact S1|]. do 2 (split; [reflexivity|]). exact I.
Qed.
Lemma assign_init_unit i i' o o' : base_unit o o' -> init_unit i i' -> initr_width i' = initr_width i ->
  res_le (fun o o' => base_unit o o' /\ op_init o = Some i /\ op_init o' = Some i') (assign_init i o) (assign_init i' o').
Proof.
  intros Ho Hi Hw. pose proof Ho as (_ & C3 & C4 & _). unfold assign_init, set_init. rewrite Hw, C3, C4.
  destruct (Z.eqb (initr_width i) (g_nvars a)); [|exact I]. cbn. split; [exact Ho|split; reflexivity].
Qed.
Lemma assign_pm_unit m m' o o' : base_unit o o' -> model_width m' = model_width m ->
  res_le (fun p p' => base_unit p p' /\ ps_pm (op_st p) = Some m /\ ps_pm (op_st p') = Some m' /\ op_init p = op_init o /\ op_init p' = op_init o')
    (assign_pm m o) (assign_pm m' o').
Proof.
  intros Ho Hw. pose proof Ho as (_ & C3 & C4 & _). unfold assign_pm, set_pm. rewrite Hw, C3, C4.
  destruct (Z.eqb (Z.of_nat (model_width m)) (g_nvars a)); [|exact I]. cbn. auto.
Qed.
Lemma start_unit v lo hi : moderate_vector v = true -> moderate_bound lo = true -> moderate_bound hi = true ->
  res_le (fun i i' => init_unit i i' /\ initr_width i' = initr_width i)
    (vector_or_bounds (g_nvars a) v lo hi)
    (vector_or_bounds (g_nvars a) (scaled_vector e v) (scaled_bound e lo) (scaled_bound e hi)).
Proof.
  intros Mv Ml Mh. destruct v as [[|ms [|ss [|x v]]]|]; cbn [vector_or_bounds scaled_vector option_map map]; try exact I.
  - cbn [moderate_vector forallb] in Mv. rewrite andb_true_r in Mv. apply andb_true_iff in Mv. destruct Mv as [M1 M2].
    rewrite !map_length. destruct (Z.eqb_spec (Z.of_nat (List.length ms)) (g_nvars a)) as [L1|]; [|exact I].
    destruct (Z.eqb_spec (Z.of_nat (List.length ss)) (g_nvars a)) as [L2|]; [|exact I]. cbn.
    split; [|reflexivity]. repeat (split; [first [assumption|reflexivity|lia]|]). reflexivity.
  - unfold uniform_new.
    assert (B : forall b, bound_len_ok (g_nvars a) (scaled_bound e b) = bound_len_ok (g_nvars a) b).
    { intros [|p|[|] l]; try reflexivity. cbn. rewrite map_length. reflexivity. }
    rewrite !B. destruct (bound_len_ok (g_nvars a) lo && bound_len_ok (g_nvars a) hi); [|exact I]. cbn.
    split; [|reflexivity]. repeat (split; [first [assumption|reflexivity|lia]|]). reflexivity.
Qed.
Lemma gauss_new_unit : List.length (gauss_new (names (g_nvars a))) = n /\ Forall mid_pair (gauss_new (names (g_nvars a))) /\
  gauss_new (names (g_nvars a)) = map (pair_scaled e) (gauss_new (names (g_nvars a))).
Proof.
  unfold gauss_new, names. rewrite repeat_length. split; [symmetry; exact Hn|]. split.
  - apply Forall_forall. intros p Hp. apply repeat_spec in Hp. subst p. split; cbn [fst snd]; (apply grid_zero; [apply Z2f_0_fin|apply Z2f_0_R]).
  - assert (P : pair_scaled e (Z2f 0, Z2f 0) = (Z2f 0, Z2f 0)).
    { assert (He' : (-100 <= e <= 100)%Z) by lia. unfold pair_scaled. cbn [fst snd].
      rewrite (scaled_zero e He' (Z2f 0) Z2f_0_fin Z2f_0_R). reflexivity. }
    clear - P. induction (Z.to_nat (g_nvars a)) as [|k IH]; cbn [repeat map]; [reflexivity|]. rewrite <- IH, P. reflexivity.
Qed.
Lemma gauss_unit m m' alpha elite wn v lo hi : ordinary_noise wn -> moderate_vector v = true -> moderate_bound lo = true -> moderate_bound hi = true ->
  model_unit m m' -> model_width m' = model_width m ->
  res_le opt_unit
        (rbind (base a alpha elite wn) (fun o => rbind (vector_or_bounds (g_nvars a) v lo hi) (fun i => rbind (assign_init i o) (fun o => assign_pm m o))))
        (rbind (base a' alpha elite (scaled_noise e wn)) (fun o => rbind (vector_or_bounds (g_nvars a') (scaled_vector e v) (scaled_bound e lo) (scaled_bound e hi))
           (fun i => rbind (assign_init i o) (fun o => assign_pm m' o)))).
Proof.
  intros Hw Mv Ml Mh Hm Hk. pose proof (base_unit_ok alpha elite wn Hw) as HB.
  destruct (base a alpha elite wn) as [o|x]; [|exact I]. destruct (base a' alpha elite (scaled_noise e wn)) as [o'|x']; [|contradiction].
  cbn [rbind unit_args g_nvars]. pose proof (start_unit v lo hi Mv Ml Mh) as HS.
  destruct (vector_or_bounds (g_nvars a) v lo hi) as [i|x]; [|exact I]. destruct (vector_or_bounds _ (scaled_vector e v) _ _) as [i'|x']; [|contradiction].
  destruct HS as [HS1 HS2]. cbn [rbind]. pose proof (assign_init_unit i i' o o' HB HS1 HS2) as HI.
  destruct (assign_init i o) as [o1|x]; [|exact I]. destruct (assign_init i' o') as [o1'|x']; [|contradiction].
  destruct HI as (HI1 & HI2 & HI3). cbn [rbind]. pose proof (assign_pm_unit m m' o1 o1' HI1 Hk) as HP.
  destruct (assign_pm m o1) as [o2|x]; [|exact I]. destruct (assign_pm m' o1') as [o2'|x']; [|contradiction].
  destruct HP as ((P1 & P2 & P3 & P4 & P5) & P6 & P7 & P8 & P9). cbn [res_le].
  constructor; auto.
  - rewrite P2, P3. split; symmetry; exact Hn.
  - unfold pms_unit. rewrite P6, P7. exact Hm.
  - rewrite P8, P9, HI2, HI3. exact HS1.
Qed.
Lemma umdac_built lo hi v lf wn : ordinary_noise wn -> moderate_vector v = true -> moderate_bound lo = true -> moderate_bound hi = true -> moderate lf = true ->
  res_le opt_unit (umdac_new a lo hi v lf wn) (umdac_new a' (scaled_bound e lo) (scaled_bound e hi) (scaled_vector e v) (sc lf) (scaled_noise e wn)).
Proof.
  intros Hw Mv Ml Mh Mf. destruct gauss_new_unit as (G1 & G2 & G3). unfold umdac_new. cbn [unit_args g_nvars g_alpha g_elite_factor].
  apply (gauss_unit (MUniGauss lf (gauss_new (names (g_nvars a)))) (MUniGauss (sc lf) (gauss_new (names (g_nvars a)))) (g_alpha a) (g_elite_factor a) wn v lo hi);
    try assumption; [|reflexivity].
  cbn [model_unit]. auto.
Qed.
Lemma pbil_built lo hi v lf wn : ordinary_noise wn -> moderate_vector v = true -> moderate_bound lo = true -> moderate_bound hi = true -> moderate lf = true ->
  moderate (num_to_f (g_alpha a)) = true ->
  res_le opt_unit (pbil_new a lo hi v lf wn) (pbil_new a' (scaled_bound e lo) (scaled_bound e hi) (scaled_vector e v) (sc lf) (scaled_noise e wn)).
Proof.
  intros Hw Mv Ml Mh Mf Ma. destruct gauss_new_unit as (G1 & G2 & G3). unfold pbil_new. cbn [unit_args g_nvars g_alpha g_elite_factor].
  apply (gauss_unit (MAdapt lf (num_to_f (g_alpha a)) (gauss_new (names (g_nvars a)))) (MAdapt (sc lf) (num_to_f (g_alpha a)) (gauss_new (names (g_nvars a)))) (PyI 1) (g_elite_factor a) wn v lo hi);
    try assumption; [|reflexivity].
  cbn [model_unit]. auto 10.
Qed.
End Run.

Section All.
Context {X W : Type}.
Variables (E : env X W) (e : Z) (a : args) (cost cost' : row -> W -> res num * W).
Let n := Z.to_nat (g_nvars a).
Hypothesis He : (-50 <= e <= 50)%Z.
Hypothesis H0 : (0 <= g_nvars a)%Z.
Hypothesis Hg : ordinary_draws (e_rng E).
Hypothesis Hs : fixed_order (e_sum E).
Hypothesis Hd : forall d, g_init_data a = Some d -> ordinary_matrix d.
Hypothesis Hc : forall r w, List.length r = n -> forallb moderate_cell r = true -> cost' (scaled_row e r) w = cost r w.

Lemma unit_outcome_of r r' ftol out w : res_le (opt_unit n e) r r' ->
  unit_outcome e n r r' (fun o => run E o cost ftol out w) (fun o => run E o cost' ftol out w).
Proof.
  intros H o ->. cbn in H. destruct r' as [o'|x]; [|contradiction]. exists o'. split; [reflexivity|].
  exact (run_unit n e He E Hg Hs o o' cost cost' ftol out w H Hc).
Qed.
Lemma umdac_unit lo hi v lf wn ftol out w : ordinary_noise wn -> moderate_vector v = true -> moderate_bound lo = true -> moderate_bound hi = true -> moderate lf = true ->
  unit_outcome e n (umdac_new a lo hi v lf wn) (umdac_new (unit_args e a) (scaled_bound e lo) (scaled_bound e hi) (scaled_vector e v) (scaled e lf) (scaled_noise e wn))
    (fun o => run E o cost ftol out w) (fun o => run E o cost' ftol out w).
Proof. intros. apply unit_outcome_of. apply (umdac_built n e He a eq_refl H0 Hd); assumption. Qed.
Lemma pbil_unit lo hi v lf wn ftol out w : ordinary_noise wn -> moderate_vector v = true -> moderate_bound lo = true -> moderate_bound hi = true -> moderate lf = true ->
  moderate (num_to_f (g_alpha a)) = true ->
  unit_outcome e n (pbil_new a lo hi v lf wn) (pbil_new (unit_args e a) (scaled_bound e lo) (scaled_bound e hi) (scaled_vector e v) (scaled e lf) (scaled_noise e wn))
    (fun o => run E o cost ftol out w) (fun o => run E o cost' ftol out w).
Proof. intros. apply unit_outcome_of. apply (pbil_built n e He a eq_refl H0 Hd); assumption. Qed.
End All.
