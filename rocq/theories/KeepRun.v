(** UMDAc, PBIL and UMDAd with only some of their variables. *)
From Coq Require Import String List ZArith Bool Lia.
From Verif Require Import PyBase B64 B64More NdArray Eda EdaInv Rand Models Inits Stock Spec LoopObs LoopRel OrderRel LoopMap LoopKeep VarOrder VarKeep.
Import ListNotations.
Open Scope nat_scope.

(** If the first optimiser can be built and its run returns, the second can be built and its run
    is the first one's with every individual changed by [f]. *)
Definition kept_outcome {X W} (f : row -> row) (k : nat) (r r' : res (optimiser X)) (m m' : optimiser X -> res result * st (pmstate X) W) : Prop :=
  forall o, r = Ok o -> exists o', r' = Ok o' /\ kept_run f k (m o) (m' o').

Section Run.
Variables (n : nat) (sigma : list nat).
Local Notation k := (List.length sigma).
Hypothesis Hs : Forall (fun j => j < n) sigma.
Hypothesis H0 : sigma <> [].
Context {X W : Type}.
Variables (E : env X W) (g' : rng W).
Hypothesis Hg : draws_of n sigma (e_rng E) g'.
Local Notation E' := (with_rng E g').
Local Notation Ro := (Ro n sigma).
Local Notation wo := (wo n sigma).
Local Notation Rno := (Rno n sigma).
Local Notation Ra := (arr_keep Ro wo).
Local Notation sel := (VarOrder.sel sigma).

Definition model_only (m m' : model X) : Prop :=
  match m, m' with
  | MUniGauss lo pm, MUniGauss lo' pm' => lo = lo' /\ List.length pm = n /\ pm' = sel pair0 pm
  | MAdapt lo al pm, MAdapt lo' al' pm' => lo = lo' /\ al = al' /\ List.length pm = n /\ pm' = sel pair0 pm
  | MUniBin b, MUniBin b' => exists lo hi pm, List.length pm = n /\ b = mkUB n lo hi pm /\ b' = mkUB k lo hi (sel fnan pm)
  | _, _ => False
  end.
Definition pms_only (p p' : pmstate X) : Prop :=
  match ps_pm p, ps_pm p' with Some m, Some m' => model_only m m' | _, _ => False end.
Definition init_only (i i' : initr) : Prop :=
  match i, i' with
  | IUniGauss j, IUniGauss j' => Z.to_nat (gi_n j) = n /\ gi_n j' = Z.of_nat k /\ List.length (gi_means j) = n /\ List.length (gi_stds j) = n /\
      gi_means j' = sel fnan (gi_means j) /\ gi_stds j' = sel fnan (gi_stds j)
  | IUniBin b, IUniBin b' => exists lo hi pm, List.length pm = n /\ bi_pm b = mkUB n lo hi pm /\ bi_pm b' = mkUB k lo hi (sel fnan pm)
  | IUniform u, IUniform u' => Z.to_nat (ui_n u) = n /\ ui_n u' = Z.of_nat k /\ ui_lo u' = only_bound n sigma (ui_lo u) /\
      ui_hi u' = only_bound n sigma (ui_hi u)
  | _, _ => False
  end.
Record opt_only (o o' : optimiser X) : Prop := mkOO {
  oo_cfg : same_but_width Ro wo (op_cfg o) (op_cfg o');
  oo_width : Z.to_nat (c_nvars (op_cfg o)) = n /\ Z.to_nat (c_nvars (op_cfg o')) = k;
  oo_pm : pms_only (op_st o) (op_st o');
  oo_init : match op_init o, op_init o' with Some i, Some i' => init_only i i' | _, _ => False end;
  oo_upd : op_upd o = FromSelection /\ op_upd o' = FromSelection
}.

Lemma learn_only d d' m m' w : Ra d d' -> model_only m m' ->
  fst (model_learn E d m w) = fst (model_learn E' d' m' w) /\
  model_only (fst (snd (model_learn E d m w))) (fst (snd (model_learn E' d' m' w))) /\
  snd (snd (model_learn E d m w)) = snd (snd (model_learn E' d' m' w)).
Proof.
  intros Hd Hm. destruct m as [lo pm|lo al pm| |b| |], m' as [lo' pm'|lo' al' pm'| |b'| |]; try contradiction; cbn [model_learn with_rng e_sum].
  - destruct Hm as (<- & L & ->). destruct (unigauss_only n sigma Hs (b64_ops (e_sum E)) lo d d' pm Hd L) as (q & Lq & E1 & E2).
    rewrite E1, E2. cbn. repeat (split; [first [reflexivity|assumption]|]); try reflexivity. split; [|reflexivity]. repeat (split; [first [reflexivity|assumption]|]); reflexivity.
  - destruct Hm as (<- & <- & L & ->). destruct (adapt_only n sigma Hs H0 (b64_ops (e_sum E)) lo al d d' pm Hd L) as (r & q & Lq & E1 & E2).
    rewrite E1, E2. cbn. repeat (split; [first [reflexivity|assumption]|]); try reflexivity. split; [|reflexivity]. repeat (split; [first [reflexivity|assumption]|]); reflexivity.
  - destruct Hm as (lo & hi & pm & L & -> & ->). destruct (unibin_only n sigma Hs d d' lo hi pm Hd L) as (r & q & Lq & E1 & E2).
    rewrite E1, E2. cbn. split; [reflexivity|]. split; [|reflexivity]. exists lo, hi, q. auto.
Qed.
Lemma sample_only m m' size w : model_only m m' -> draw_le n sigma (model_sample E m size w) (model_sample E' m' size w).
Proof.
  intros Hm. destruct m as [lo pm|lo al pm| |b| |], m' as [lo' pm'|lo' al' pm'| |b'| |]; try contradiction; cbn [model_sample with_rng e_rng].
  - destruct Hm as (_ & L & ->). apply gauss_draw_only; assumption.
  - destruct Hm as (_ & _ & L & ->). apply gauss_draw_only; assumption.
  - destruct Hm as (lo & hi & pm & L & -> & ->). apply unibin_draw_only; assumption.
Qed.
Lemma initr_only i i' size w : init_only i i' -> draw_le n sigma (initr_sample E i size w) (initr_sample E' i' size w).
Proof.
  intros Hi. destruct i as [j|b| |u|], i' as [j'|b'| |u'|]; try contradiction; cbn [initr_sample with_rng e_rng].
  - destruct Hi as (N & N' & L1 & L2 & M1 & M2). unfold unigauss_init_sample. rewrite N', N, Nat2Z.id, M1, M2. apply normal_only; assumption.
  - destruct Hi as (lo & hi & pm & L & M1 & M2). unfold unibin_init_sample. rewrite M1, M2. apply unibin_draw_only; assumption.
  - destruct Hi as (N & N' & M1 & M2). unfold uniform_sample. rewrite N', N, Nat2Z.id, M1, M2. destruct (ui_n u <? 0)%Z; [exact I|].
    destruct (Z.ltb_spec (Z.of_nat k) 0); [lia|]. apply uniform_only; assumption.
Qed.

Lemma hooks_only o o' cost cost' : opt_only o o' ->
  (forall r w, List.length r = n -> cost' (only_row n sigma r) w = cost r w) ->
  hooks_keep Ro wo pms_only Rno Ra (op_cfg o) (op_cfg o') (hooks_of E o cost) (hooks_of E' o' cost').
Proof.
  intros Ho Hcost. destruct (oo_cfg _ _ Ho) as (C1 & C2 & C3 & C4 & C5 & C6 & C7 & C8 & C9 & C10).
  destruct (oo_upd _ _ Ho) as [U1 U2]. destruct (oo_width _ _ Ho) as [W1 W2].
  constructor; cbn [hooks_of h_argsort h_pool h_settings h_cost h_init h_data h_learn h_sample h_normal].
  - reflexivity.
  - reflexivity.
  - intros r r' w Hr. rewrite (Ro_fun n sigma _ _ Hr). symmetry. apply Hcost. apply Hr.
  - intros w. pose proof (oo_init _ _ Ho) as Hi. destruct (op_init o) as [i|], (op_init o') as [i'|]; try contradiction.
    rewrite <- C1. apply initr_only, Hi.
  - intros a a' e e' p p' Ha _ Hp. rewrite U1, U2. cbn. split; assumption.
  - intros d d' p p' w Hd Hp. unfold pms_only in Hp. destruct (ps_pm p) as [m|] eqn:Em, (ps_pm p') as [m'|] eqn:Em'; try contradiction.
    destruct (learn_only d d' m m' w Hd Hp) as (L1 & L2 & L3).
    destruct (model_learn E d m w) as [r [m1 w1]], (model_learn E' d' m' w) as [r' [m1' w1']]. cbn [fst snd] in *. subst r'.
    destruct r; [|exact I]. cbn. split; [exact Hd|]. split; assumption.
  - intros p p' w Hp. unfold pms_only in Hp. destruct (ps_pm p) as [m|] eqn:Em, (ps_pm p') as [m'|] eqn:Em'; try contradiction.
    rewrite <- C1. apply sample_only, Hp.
  - intros _ _. rewrite <- C7. cbv zeta. intros w nr. rewrite <- C8. rewrite W1, W2. cbn [with_rng e_rng].
    destruct (gauss_of n sigma _ _ Hg (Z.to_nat (c_trunc_len (op_cfg o))) w) as [G1 G2].
    destruct (g_gauss (e_rng E) _ n w) as [z w1], (g_gauss g' _ k w) as [z' w2]. cbn [fst snd] in *.
    split; [congruence|]. cbn. split; [reflexivity|]. split; [reflexivity|]. split; [reflexivity|].
    intros i j Hj. rewrite G2 by exact Hj. reflexivity.
  - intros _. exact I.
  - intros _. exact I.
  - intros a a' x x' Ha Hx. apply (iadd_only n sigma Hs H0); assumption.
Qed.

Lemma run_only o o' cost cost' ftol out w : opt_only o o' ->
  (forall r w, List.length r = n -> cost' (only_row n sigma r) w = cost r w) ->
  kept_run (only_row n sigma) k (run E o cost ftol out w) (run E' o' cost' ftol out w).
Proof.
  intros Ho Hcost. unfold run, run_in.
  apply (kept_minimize Ro wo (only_row n sigma) k pms_only Rno Ra);
    [apply Ro_cast, Hs|apply Ro_fun|intros x x' [_ Hx]; exact Hx|apply width_unit, Ho|apply hooks_only; assumption|apply Ho].
Qed.

(* ---------------- constructors ---------------- *)
Variable a : args.
Hypothesis Hn : n = Z.to_nat (g_nvars a).
Hypothesis Hdata : forall d, g_init_data a = Some d -> number_matrix d.
Local Notation a' := (only_args sigma a).

Definition base_only (o o' : optimiser X) : Prop :=
  same_but_width Ro wo (op_cfg o) (op_cfg o') /\
  c_nvars (op_cfg o) = g_nvars a /\ c_nvars (op_cfg o') = Z.of_nat k /\
  (op_upd o = FromSelection /\ op_upd o' = FromSelection).

Lemma base_keep alpha elite wn : res_le base_only (base a alpha elite wn) (base a' alpha elite wn).
Proof.
  pose proof (only_pos n sigma Hs H0) as [P1 P2].
  unfold base, eda_init. cbn [only_args g_size_gen g_max_iter g_dead_iter g_nvars g_alpha g_elite_factor g_disp g_parallelize g_init_data].
  destruct (int_times (g_size_gen a) alpha) as [t|e]; [|exact I]. destruct (int_times (g_size_gen a) elite) as [l|e]; [|exact I].
  cbn [rbind]. destruct (g_dead_iter a <=? g_max_iter a)%Z; [|exact I].
  destruct (g_init_data a) as [d|] eqn:Ed; cbn [option_map].
  - cbn [keep_arr a_nc]. destruct (Z.eqb_spec (Z.of_nat (a_nc d)) (g_nvars a)) as [Ez|]; [|exact I]. rewrite Z.eqb_refl. cbn [rmap res_le].
    split; [|split; [reflexivity|split; [reflexivity|split; reflexivity]]].
    unfold same_but_width. cbn [op_cfg c_size_gen c_max_iter c_dead_iter c_nvars c_disp c_parallelize c_w_noise c_trunc_len c_elite_len c_init_data].
    do 3 (split; [reflexivity|]). split; [lia|]. do 5 (split; [reflexivity|]).
    assert (Dn : a_nc d = n) by lia. split; [reflexivity|]. split; [split; [exact Dn|reflexivity]|]. cbn [keep_arr a_rows]. rewrite <- Hn.
    specialize (Hdata d eq_refl). unfold number_matrix in Hdata. rewrite Dn in Hdata.
    induction Hdata as [|r rs [R1 R2] Hrs IH]; cbn [map]; [constructor|]. constructor; [|exact (IH Hrs)].
    split; [exact R1|]. split; [exact R2|]. exact (only_sel n sigma (CF fnan) r R1).
  - cbn [rmap res_le].
    split; [|split; [reflexivity|split; [reflexivity|split; reflexivity]]].
    unfold same_but_width. cbn [op_cfg c_size_gen c_max_iter c_dead_iter c_nvars c_disp c_parallelize c_w_noise c_trunc_len c_elite_len c_init_data].
    do 3 (split; [reflexivity|]). split; [lia|]. do 5 (split; [reflexivity|]). exact I.
Qed.

Lemma assign_init_only i i' o o' : base_only o o' -> init_only i i' -> initr_width i' = Z.of_nat k ->
  res_le (fun o o' => base_only o o' /\ op_init o = Some i /\ op_init o' = Some i') (assign_init i o) (assign_init i' o').
Proof.
  intros Ho Hi Hw. pose proof Ho as (_ & _ & C4 & _). unfold assign_init, set_init. rewrite Hw, C4, Z.eqb_refl.
  destruct (Z.eqb (initr_width i) (c_nvars (op_cfg o))); [|exact I]. cbn. split; [exact Ho|split; reflexivity].
Qed.
Lemma assign_pm_only m m' o o' : base_only o o' -> model_width m' = k ->
  res_le (fun p p' => base_only p p' /\ ps_pm (op_st p) = Some m /\ ps_pm (op_st p') = Some m' /\ op_init p = op_init o /\ op_init p' = op_init o')
    (assign_pm m o) (assign_pm m' o').
Proof.
  intros Ho Hw. pose proof Ho as (_ & _ & C4 & _). unfold assign_pm, set_pm. rewrite Hw, C4, Z.eqb_refl.
  destruct (Z.eqb (Z.of_nat (model_width m)) (c_nvars (op_cfg o))); [|exact I]. cbn. auto.
Qed.

Definition only_vector (v : option (list (list f64))) : option (list (list f64)) := option_map (map (only n sigma fnan)) v.
Lemma start_only v lo hi :
  res_le (fun i i' => init_only i i' /\ initr_width i' = Z.of_nat k)
    (vector_or_bounds (g_nvars a) v lo hi)
    (vector_or_bounds (Z.of_nat k) (only_vector v) (only_bound n sigma lo) (only_bound n sigma hi)).
Proof.
  pose proof (only_pos n sigma Hs H0) as [P1 P2].
  destruct v as [[|ms [|ss [|x v]]]|]; cbn [vector_or_bounds only_vector option_map map]; try exact I.
  - destruct (Z.eqb_spec (Z.of_nat (List.length ms)) (g_nvars a)) as [L1|]; [|exact I].
    destruct (Z.eqb_spec (Z.of_nat (List.length ss)) (g_nvars a)) as [L2|]; [|exact I].
    rewrite !(only_sel n sigma) by lia. rewrite !sel_len, Z.eqb_refl. cbn.
    split; [|reflexivity]. repeat split; lia.
  - unfold uniform_new.
    assert (B : forall b, bound_len_ok (g_nvars a) b = true -> bound_len_ok (Z.of_nat k) (only_bound n sigma b) = true).
    { intros [|p|[|] l]; try reflexivity. cbn. intros L. apply Z.eqb_eq in L. rewrite (only_sel n sigma) by lia. rewrite sel_len. apply Z.eqb_refl. }
    destruct (bound_len_ok (g_nvars a) lo) eqn:B1; [|exact I]. destruct (bound_len_ok (g_nvars a) hi) eqn:B2; [|exact I].
    rewrite !B by assumption. cbn. repeat split. symmetry. exact Hn.
Qed.

Lemma gauss_new_only : gauss_new (names (Z.of_nat k)) = sel pair0 (gauss_new (names (g_nvars a))).
Proof. unfold gauss_new, names. rewrite <- Hn, Nat2Z.id. symmetry. apply (sel_const n), Hs. Qed.
Lemma gauss_new_wide : List.length (gauss_new (names (g_nvars a))) = n.
Proof. unfold gauss_new, names. rewrite repeat_length. symmetry. exact Hn. Qed.

Lemma gauss_only m m' alpha elite wn v lo hi : model_only m m' -> model_width m' = k ->
  res_le opt_only
        (rbind (base a alpha elite wn) (fun o => rbind (vector_or_bounds (g_nvars a) v lo hi) (fun i => rbind (assign_init i o) (fun o => assign_pm m o))))
        (rbind (base a' alpha elite wn) (fun o => rbind (vector_or_bounds (g_nvars a') (only_vector v) (only_bound n sigma lo) (only_bound n sigma hi))
           (fun i => rbind (assign_init i o) (fun o => assign_pm m' o)))).
Proof.
  intros Hm Hk. pose proof (base_keep alpha elite wn) as HB.
  destruct (base a alpha elite wn) as [o|e]; [|exact I]. destruct (base a' alpha elite wn) as [o'|e']; [|contradiction].
  cbn [rbind only_args g_nvars]. pose proof (start_only v lo hi) as HS.
  destruct (vector_or_bounds (g_nvars a) v lo hi) as [i|e]; [|exact I]. destruct (vector_or_bounds _ (only_vector v) _ _) as [i'|e']; [|contradiction].
  destruct HS as [HS1 HS2]. cbn [rbind]. pose proof (assign_init_only i i' o o' HB HS1 HS2) as HI.
  destruct (assign_init i o) as [o1|e]; [|exact I]. destruct (assign_init i' o') as [o1'|e']; [|contradiction].
  destruct HI as (HI1 & HI2 & HI3). cbn [rbind]. pose proof (assign_pm_only m m' o1 o1' HI1 Hk) as HP.
  destruct (assign_pm m o1) as [o2|e]; [|exact I]. destruct (assign_pm m' o1') as [o2'|e']; [|contradiction].
  destruct HP as ((P1 & P2 & P3 & P4) & P6 & P7 & P8 & P9). cbn [res_le].
  constructor; auto.
  - rewrite P2, P3, Nat2Z.id. split; [symmetry; exact Hn|reflexivity].
  - unfold pms_only. rewrite P6, P7. exact Hm.
  - rewrite P8, P9, HI2, HI3. exact HS1.
Qed.
Lemma umdac_only lo hi v lf wn :
  res_le opt_only (umdac_new a lo hi v lf wn) (umdac_new a' (only_bound n sigma lo) (only_bound n sigma hi) (only_vector v) lf wn).
Proof.
  unfold umdac_new. cbn [only_args g_nvars g_alpha g_elite_factor].
  apply (gauss_only (MUniGauss lf (gauss_new (names (g_nvars a)))) (MUniGauss lf (gauss_new (names (Z.of_nat k)))) (g_alpha a) (g_elite_factor a) wn v lo hi).
  - cbn. split; [reflexivity|]. split; [apply gauss_new_wide|apply gauss_new_only].
  - cbn. unfold gauss_new, names. rewrite repeat_length. apply Nat2Z.id.
Qed.
Lemma pbil_only lo hi v lf wn :
  res_le opt_only (pbil_new a lo hi v lf wn) (pbil_new a' (only_bound n sigma lo) (only_bound n sigma hi) (only_vector v) lf wn).
Proof.
  unfold pbil_new. cbn [only_args g_nvars g_alpha g_elite_factor].
  apply (gauss_only (MAdapt lf (num_to_f (g_alpha a)) (gauss_new (names (g_nvars a)))) (MAdapt lf (num_to_f (g_alpha a)) (gauss_new (names (Z.of_nat k)))) (PyI 1) (g_elite_factor a) wn v lo hi).
  - cbn. split; [reflexivity|]. split; [reflexivity|]. split; [apply gauss_new_wide|apply gauss_new_only].
  - cbn. unfold gauss_new, names. rewrite repeat_length. apply Nat2Z.id.
Qed.
Lemma umdad_only v lo hi : (forall p, v = Some p -> List.length p = n) ->
  res_le opt_only (umdad_new a v lo hi) (umdad_new a' (option_map (only n sigma fnan) v) lo hi).
Proof.
  intros Hv. unfold umdad_new. cbn [only_args g_nvars g_alpha g_elite_factor]. pose proof (only_pos n sigma Hs H0) as [K1 K2].
  pose proof (base_keep (g_alpha a) (g_elite_factor a) (Some (PyI 0))) as HB.
  destruct (base a (g_alpha a) (g_elite_factor a) (Some (PyI 0))) as [o|e]; [|exact I].
  destruct (base a' (g_alpha a) (g_elite_factor a) (Some (PyI 0))) as [o'|e']; [|contradiction].
  cbn [rbind]. unfold unibin_new. destruct (flt lo hi); [|exact I]. cbn [rbind].
  set (m := MUniBin (mkUB (names (g_nvars a)) lo hi (repeat (Z2f 0) (names (g_nvars a))))).
  set (m' := MUniBin (mkUB (names (Z.of_nat k)) lo hi (repeat (Z2f 0) (names (Z.of_nat k))))).
  assert (Wm : @model_width X m' = k) by (unfold m', names; cbn; apply Nat2Z.id).
  pose proof (assign_pm_only m m' o o' HB Wm) as HP.
  destruct (assign_pm m o) as [o1|e]; [|exact I]. destruct (assign_pm m' o') as [o1'|e']; [|contradiction].
  destruct HP as (HP & P6 & P7 & _). cbn [rbind].
  set (i := IUniBin _). set (i' := IUniBin _).
  assert (Hi : init_only i i').
  { unfold i, i'. cbn [init_only]. unfold unibin_init_new. cbn [bi_pm].
    set (u := match v with None => _ | Some p => p end).
    assert (Lu : List.length u = n) by (unfold u; destruct v as [p|]; [apply Hv; reflexivity|rewrite repeat_length; symmetry; exact Hn]).
    assert (Eu : match option_map (only n sigma fnan) v with None => repeat (lit 1 (-1)) (Z.to_nat (Z.of_nat k)) | Some p => p end = sel fnan u).
    { unfold u. destruct v as [p|]; cbn [option_map]; [exact (only_sel n sigma fnan p (Hv p eq_refl))|].
      rewrite <- Hn, Nat2Z.id. symmetry. apply (sel_const n), Hs. }
    rewrite Eu. pose proof (sel_len sigma fnan u) as Ls.
    exists (Z2f 0), (Z2f 1), u.
    rewrite <- Hn, Nat2Z.id. split; [exact Lu|]. split.
    - destruct u as [|x u]; [cbn in Lu; lia|reflexivity].
    - destruct (sel fnan u) as [|y l]; [cbn in Ls; lia|reflexivity]. }
  pose proof (assign_init_only i i' o1 o1' HP Hi eq_refl) as HI.
  unfold assign_init, set_init in HI |- *. cbn [value] in HI |- *.
  destruct (Z.eqb (initr_width i) (c_nvars (op_cfg o1))); [|exact I]. destruct (Z.eqb (initr_width i') (c_nvars (op_cfg o1'))); [|contradiction].
  cbn in HI |- *. destruct HI as ((Q1 & Q2 & Q3 & Q4) & _). constructor; auto.
  - cbn [with_init op_cfg] in *. rewrite Q2, Q3, Nat2Z.id. split; [symmetry; exact Hn|reflexivity].
  - unfold pms_only. cbn [with_init op_st]. rewrite P6, P7. cbn. exists lo, hi, (repeat (Z2f 0) n). unfold m, m', names. rewrite <- Hn, Nat2Z.id.
    split; [apply repeat_length|]. split; [reflexivity|]. rewrite (sel_const n sigma Hs). reflexivity.
Qed.

End Run.

Section All.
Context {X W : Type}.
Variables (E : env X W) (g' : rng W) (sigma : list nat) (a : args) (cost cost' : row -> W -> res num * W).
Let n := Z.to_nat (g_nvars a).
Hypothesis Hs : Forall (fun j => j < n) sigma.
Hypothesis H0 : sigma <> [].
Hypothesis Hg : draws_of n sigma (e_rng E) g'.
Hypothesis Hd : forall d, g_init_data a = Some d -> number_matrix d.
Hypothesis Hc : forall r w, List.length r = n -> cost' (only_row n sigma r) w = cost r w.

Lemma only_outcome r r' ftol out w : res_le (opt_only n sigma) r r' ->
  kept_outcome (only_row n sigma) (List.length sigma) r r' (fun o => run E o cost ftol out w) (fun o => run (with_rng E g') o cost' ftol out w).
Proof.
  intros H o ->. cbn in H. destruct r' as [o'|e']; [|contradiction]. exists o'. split; [reflexivity|].
  exact (run_only n sigma Hs H0 E g' Hg o o' cost cost' ftol out w H Hc).
Qed.
Lemma umdac_kept lo hi v lf wn ftol out w :
  kept_outcome (only_row n sigma) (List.length sigma) (umdac_new a lo hi v lf wn)
    (umdac_new (only_args sigma a) (only_bound n sigma lo) (only_bound n sigma hi) (option_map (map (only n sigma fnan)) v) lf wn)
    (fun o => run E o cost ftol out w) (fun o => run (with_rng E g') o cost' ftol out w).
Proof. apply only_outcome. apply (umdac_only n sigma Hs H0 a eq_refl Hd). Qed.
Lemma pbil_kept lo hi v lf wn ftol out w :
  kept_outcome (only_row n sigma) (List.length sigma) (pbil_new a lo hi v lf wn)
    (pbil_new (only_args sigma a) (only_bound n sigma lo) (only_bound n sigma hi) (option_map (map (only n sigma fnan)) v) lf wn)
    (fun o => run E o cost ftol out w) (fun o => run (with_rng E g') o cost' ftol out w).
Proof. apply only_outcome. apply (pbil_only n sigma Hs H0 a eq_refl Hd). Qed.
Lemma umdad_kept v lower upper ftol out w : (forall p, v = Some p -> List.length p = n) ->
  kept_outcome (only_row n sigma) (List.length sigma) (umdad_new a v lower upper)
    (umdad_new (only_args sigma a) (option_map (only n sigma fnan) v) lower upper)
    (fun o => run E o cost ftol out w) (fun o => run (with_rng E g') o cost' ftol out w).
Proof. intros Hv. apply only_outcome. apply (umdad_only n sigma Hs H0 a eq_refl Hd v lower upper Hv). Qed.
End All.
