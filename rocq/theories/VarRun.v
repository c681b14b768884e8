(** UMDAc, PBIL and UMDAd with their variables in another order. *)
From Coq Require Import String List ZArith Bool Lia Permutation.
From Verif Require Import PyBase B64 B64More NdArray Eda EdaInv Rand Models Inits Stock Spec LoopObs LoopRel OrderRel LoopMap VarOrder.
Import ListNotations.
Open Scope nat_scope.

Section Run.
Variables (n : nat) (sigma : list nat).
Hypothesis Hs : Permutation sigma (seq 0 n).
Context {X W : Type}.
Variables (E : env X W) (g' : rng W).
Hypothesis Hg : draws_follow sigma (e_rng E) g'.
Local Notation E' := (with_rng E g').
Local Notation Rr := (Rr n sigma).
Local Notation wid := (wid n).
Local Notation Rn := (Rn n sigma).
Local Notation Ra := (arr_rel Rr wid).
Local Notation sel := (sel sigma).

Definition model_rel (m m' : model X) : Prop :=
  match m, m' with
  | MUniGauss lo pm, MUniGauss lo' pm' => lo = lo' /\ List.length pm = n /\ pm' = sel pair0 pm
  | MAdapt lo al pm, MAdapt lo' al' pm' => lo = lo' /\ al = al' /\ List.length pm = n /\ pm' = sel pair0 pm
  | MUniBin b, MUniBin b' => exists lo hi pm, List.length pm = n /\ b = mkUB n lo hi pm /\ b' = mkUB n lo hi (sel fnan pm)
  | _, _ => False
  end.
Definition pms_rel (p p' : pmstate X) : Prop :=
  match ps_pm p, ps_pm p' with Some m, Some m' => model_rel m m' | _, _ => False end.
Definition init_rel (i i' : initr) : Prop :=
  match i, i' with
  | IUniGauss j, IUniGauss j' => Z.to_nat (gi_n j) = n /\ gi_n j' = gi_n j /\ List.length (gi_means j) = n /\ List.length (gi_stds j) = n /\
      gi_means j' = sel fnan (gi_means j) /\ gi_stds j' = sel fnan (gi_stds j)
  | IUniBin b, IUniBin b' => exists lo hi pm, List.length pm = n /\ bi_pm b = mkUB n lo hi pm /\ bi_pm b' = mkUB n lo hi (sel fnan pm)
  | IUniform u, IUniform u' => Z.to_nat (ui_n u) = n /\ ui_n u' = ui_n u /\ ui_lo u' = reorder_bound sigma (ui_lo u) /\
      ui_hi u' = reorder_bound sigma (ui_hi u)
  | _, _ => False
  end.
Record opt_rel (o o' : optimiser X) : Prop := mkOR {
  or_cfg : same_but_data Rr wid (op_cfg o) (op_cfg o');
  or_alpha : c_alpha (op_cfg o) = c_alpha (op_cfg o') /\ c_elite_factor (op_cfg o) = c_elite_factor (op_cfg o');
  or_width : Z.to_nat (c_nvars (op_cfg o)) = n;
  or_pm : pms_rel (op_st o) (op_st o');
  or_init : match op_init o, op_init o' with Some i, Some i' => init_rel i i' | _, _ => False end;
  or_upd : op_upd o = FromSelection /\ op_upd o' = FromSelection;
  or_exp : op_exp o = Plain /\ op_exp o' = Plain
}.

Lemma learn_rel d d' m m' w : Ra d d' -> model_rel m m' ->
  fst (model_learn E d m w) = fst (model_learn E' d' m' w) /\
  model_rel (fst (snd (model_learn E d m w))) (fst (snd (model_learn E' d' m' w))) /\
  snd (snd (model_learn E d m w)) = snd (snd (model_learn E' d' m' w)).
Proof.
  intros Hd Hm. destruct m as [lo pm|lo al pm| |b| |], m' as [lo' pm'|lo' al' pm'| |b'| |]; try contradiction; cbn [model_learn with_rng e_sum].
  - destruct Hm as (<- & L & ->). destruct (unigauss_both n sigma Hs (b64_ops (e_sum E)) lo d d' pm Hd L) as (q & Lq & E1 & E2).
    rewrite E1, E2. cbn. repeat (split; [first [reflexivity|assumption]|]); try reflexivity. split; [|reflexivity]. repeat (split; [first [reflexivity|assumption]|]); reflexivity.
  - destruct Hm as (<- & <- & L & ->). destruct (adapt_both n sigma Hs (b64_ops (e_sum E)) lo al d d' pm Hd L) as (r & q & Lq & E1 & E2).
    rewrite E1, E2. cbn. repeat (split; [first [reflexivity|assumption]|]); try reflexivity. split; [|reflexivity]. repeat (split; [first [reflexivity|assumption]|]); reflexivity.
  - destruct Hm as (lo & hi & pm & L & -> & ->). destruct (unibin_both n sigma Hs d d' lo hi pm Hd L) as (r & q & Lq & E1 & E2).
    rewrite E1, E2. cbn. split; [reflexivity|]. split; [|reflexivity]. exists lo, hi, q. auto.
Qed.
Lemma sample_rel m m' size w : model_rel m m' -> pair_rel Ra (model_sample E m size w) (model_sample E' m' size w).
Proof.
  intros Hm. destruct m as [lo pm|lo al pm| |b| |], m' as [lo' pm'|lo' al' pm'| |b'| |]; try contradiction; cbn [model_sample with_rng e_rng].
  - destruct Hm as (_ & L & ->). apply gauss_draw; assumption.
  - destruct Hm as (_ & _ & L & ->). apply gauss_draw; assumption.
  - destruct Hm as (lo & hi & pm & L & -> & ->). apply unibin_draw; assumption.
Qed.
Lemma initr_rel i i' size w : init_rel i i' -> pair_rel Ra (initr_sample E i size w) (initr_sample E' i' size w).
Proof.
  intros Hi. destruct i as [j|b| |u|], i' as [j'|b'| |u'|]; try contradiction; cbn [initr_sample with_rng e_rng].
  - destruct Hi as (N & N' & L1 & L2 & M1 & M2). unfold unigauss_init_sample. rewrite N', N, M1, M2. apply normal_both; assumption.
  - destruct Hi as (lo & hi & pm & L & M1 & M2). unfold unibin_init_sample. rewrite M1, M2. apply unibin_draw; assumption.
  - destruct Hi as (N & N' & M1 & M2). unfold uniform_sample. rewrite N', N, M1, M2. destruct (ui_n u <? 0)%Z; [split; reflexivity|].
    apply uniform_both; assumption.
Qed.

Lemma hooks_rel o o' cost cost' : opt_rel o o' ->
  (forall r w, List.length r = n -> cost' (reorder_row sigma r) w = cost r w) ->
  hooks_map Rr wid pms_rel Rn (op_cfg o) (hooks_of E o cost) (hooks_of E' o' cost').
Proof.
  intros Ho Hcost. destruct (or_cfg _ _ Ho) as (C1 & C2 & C3 & C4 & C5 & C6 & C7 & C8 & C9 & C10). destruct (or_alpha _ _ Ho) as [A1 A2].
  destruct (or_upd _ _ Ho) as [U1 U2]. destruct (or_exp _ _ Ho) as [X1 X2].
  constructor; cbn [hooks_of h_argsort h_pool h_settings h_cost h_init h_data h_learn h_sample h_normal].
  - reflexivity.
  - reflexivity.
  - unfold export. rewrite X1, X2. unfold export_settings. rewrite C1, C2, C3, C4, C5, C6, A1, A2. reflexivity.
  - intros r r' w Hr. rewrite (Rr_fun n sigma Hs _ _ Hr). symmetry. apply Hcost. apply Hr.
  - intros w. pose proof (or_init _ _ Ho) as Hi. destruct (op_init o) as [i|], (op_init o') as [i'|]; try contradiction.
    rewrite <- C1. apply initr_rel, Hi.
  - intros a a' e e' p p' Ha _ Hp. rewrite U1, U2. cbn. split; assumption.
  - intros d d' p p' w Hd Hp. unfold pms_rel in Hp. destruct (ps_pm p) as [m|] eqn:Em, (ps_pm p') as [m'|] eqn:Em'; try contradiction.
    destruct (learn_rel d d' m m' w Hd Hp) as (L1 & L2 & L3).
    destruct (model_learn E d m w) as [r [m1 w1]], (model_learn E' d' m' w) as [r' [m1' w1']]. cbn [fst snd] in *. auto.
  - intros p p' w Hp. unfold pms_rel in Hp. destruct (ps_pm p) as [m|] eqn:Em, (ps_pm p') as [m'|] eqn:Em'; try contradiction.
    rewrite <- C1. apply sample_rel, Hp.
  - intros _ _ x w nr nc. rewrite <- C4, <- C8. rewrite (or_width _ _ Ho). cbn [with_rng e_rng].
    destruct (gauss_follow n sigma Hs _ _ Hg (Z.to_nat (c_trunc_len (op_cfg o))) w) as [G1 G2].
    destruct (g_gauss (e_rng E) _ n w) as [z w1], (g_gauss g' _ n w) as [z' w2]. cbn [fst snd] in *.
    split; [congruence|]. intros ->. cbn. split; [reflexivity|]. split; [reflexivity|]. split; [reflexivity|].
    intros i k Hk. rewrite G2 by exact Hk. reflexivity.
  - intros _. exact I.
  - intros _. exact I.
  - intros a a' x x' Ha Hx. apply (iadd_rel n sigma Hs); assumption.
Qed.

Lemma run_rel o o' cost cost' ftol out w : opt_rel o o' ->
  (forall r w, List.length r = n -> cost' (reorder_row sigma r) w = cost r w) ->
  mapped_run (reorder_row sigma) (run E o cost ftol out w) (run E' o' cost' ftol out w).
Proof.
  intros Ho Hcost. unfold run, run_in.
  apply (mapped_minimize Rr wid (reorder_row sigma) pms_rel Rn); [apply Rr_cast, Hs|apply Rr_fun, Hs|apply Ho|apply hooks_rel; assumption|apply Ho].
Qed.

(* ---------------- constructors ---------------- *)
Variable a : args.
Hypothesis Hn : n = Z.to_nat (g_nvars a).
Hypothesis Hdata : forall d, g_init_data a = Some d -> number_matrix d.
Local Notation a' := (reorder_args sigma a).

Definition base_rel (o o' : optimiser X) : Prop :=
  same_but_data Rr wid (op_cfg o) (op_cfg o') /\
  (c_alpha (op_cfg o) = c_alpha (op_cfg o') /\ c_elite_factor (op_cfg o) = c_elite_factor (op_cfg o')) /\
  c_nvars (op_cfg o) = g_nvars a /\
  (op_upd o = FromSelection /\ op_upd o' = FromSelection) /\ (op_exp o = Plain /\ op_exp o' = Plain).

Lemma base_both alpha elite wn : res_rel base_rel (base a alpha elite wn) (base a' alpha elite wn).
Proof.
  unfold base, eda_init. cbn [reorder_args g_size_gen g_max_iter g_dead_iter g_nvars g_alpha g_elite_factor g_disp g_parallelize g_init_data].
  destruct (int_times (g_size_gen a) alpha) as [t|e]; [|reflexivity]. destruct (int_times (g_size_gen a) elite) as [l|e]; [|reflexivity].
  cbn [rbind]. destruct (g_dead_iter a <=? g_max_iter a)%Z; [|reflexivity].
  destruct (g_init_data a) as [d|] eqn:Ed; cbn [option_map].
  - cbn [map_arr a_nc]. destruct (Z.eqb_spec (Z.of_nat (a_nc d)) (g_nvars a)) as [Ez|]; [|reflexivity]. cbn [rmap res_rel].
    split; [|split; [split; reflexivity|split; [reflexivity|split; split; reflexivity]]].
    unfold same_but_data. cbn. do 9 (split; [reflexivity|]).
    assert (Dn : a_nc d = n) by lia. split; [reflexivity|]. split; [split; [reflexivity|exact Dn]|]. cbn.
    specialize (Hdata d eq_refl). unfold number_matrix in Hdata. rewrite Dn in Hdata.
    induction Hdata as [|r rs [R1 R2] Hrs IH]; cbn [map]; [constructor|]. constructor; [|exact (IH Hrs)].
    split; [exact R1|]. split; [exact R2|]. exact (reorder_sel n sigma Hs (CF fnan) r R1).
  - cbn [rmap res_rel].
    split; [|split; [split; reflexivity|split; [reflexivity|split; split; reflexivity]]].
    unfold same_but_data. cbn. do 9 (split; [reflexivity|]). exact I.
Qed.

Lemma assign_init_both i i' o o' : base_rel o o' -> init_rel i i' -> initr_width i' = initr_width i ->
  res_rel (fun o o' => base_rel o o' /\ op_init o = Some i /\ op_init o' = Some i') (assign_init i o) (assign_init i' o').
Proof.
  intros Ho Hi Hw. pose proof Ho as ((_ & _ & _ & C4 & _) & _). unfold assign_init, set_init. rewrite Hw, <- C4.
  destruct (Z.eqb (initr_width i) (c_nvars (op_cfg o))); [|reflexivity]. cbn. split; [exact Ho|split; reflexivity].
Qed.
Lemma assign_pm_both m m' o o' : base_rel o o' -> model_width m' = model_width m ->
  res_rel (fun p p' => base_rel p p' /\ ps_pm (op_st p) = Some m /\ ps_pm (op_st p') = Some m' /\ op_init p = op_init o /\ op_init p' = op_init o')
    (assign_pm m o) (assign_pm m' o').
Proof.
  intros Ho Hw. pose proof Ho as ((_ & _ & _ & C4 & _) & _). unfold assign_pm, set_pm. rewrite Hw, <- C4.
  destruct (Z.eqb (Z.of_nat (model_width m)) (c_nvars (op_cfg o))); [|reflexivity]. cbn. auto.
Qed.

Definition reorder_vector (v : option (list (list f64))) : option (list (list f64)) := option_map (map (reorder sigma fnan)) v.
Lemma start_both v lo hi :
  res_rel (fun i i' => init_rel i i' /\ initr_width i' = initr_width i)
    (vector_or_bounds (g_nvars a) v lo hi)
    (vector_or_bounds (g_nvars a) (reorder_vector v) (reorder_bound sigma lo) (reorder_bound sigma hi)).
Proof.
  destruct v as [[|ms [|ss [|x v]]]|]; cbn [vector_or_bounds reorder_vector option_map map]; try reflexivity.
  - rewrite !reorder_len. destruct (Z.eqb_spec (Z.of_nat (List.length ms)) (g_nvars a)) as [L1|]; [|reflexivity].
    destruct (Z.eqb_spec (Z.of_nat (List.length ss)) (g_nvars a)) as [L2|]; [|reflexivity]. cbn.
    split; [|reflexivity]. rewrite !(reorder_sel n sigma Hs) by lia. repeat split; lia.
  - unfold uniform_new.
    assert (B : forall b, bound_len_ok (g_nvars a) (reorder_bound sigma b) = bound_len_ok (g_nvars a) b).
    { intros [|p|[|] l]; try reflexivity. cbn. rewrite reorder_len. reflexivity. }
    rewrite !B. destruct (_ && _)%bool; [|reflexivity]. cbn. repeat split. congruence.
Qed.

Definition built (r r' : res (optimiser X)) : Prop := res_rel opt_rel r r'.
Lemma gauss_new_sel : gauss_new (names (g_nvars a)) = sel pair0 (gauss_new (names (g_nvars a))).
Proof. unfold gauss_new, names. rewrite <- Hn. symmetry. apply sel_const, Hs. Qed.
Lemma gauss_new_len : List.length (gauss_new (names (g_nvars a))) = n.
Proof. unfold gauss_new, names. rewrite repeat_length. symmetry. exact Hn. Qed.

Lemma gauss_built m alpha elite wn v lo hi : model_rel m m ->
  built (rbind (base a alpha elite wn) (fun o => rbind (vector_or_bounds (g_nvars a) v lo hi) (fun i => rbind (assign_init i o) (fun o => assign_pm m o))))
        (rbind (base a' alpha elite wn) (fun o => rbind (vector_or_bounds (g_nvars a') (reorder_vector v) (reorder_bound sigma lo) (reorder_bound sigma hi))
           (fun i => rbind (assign_init i o) (fun o => assign_pm m o)))).
Proof.
  intros Hm. pose proof (base_both alpha elite wn) as HB.
  destruct (base a alpha elite wn) as [o|e], (base a' alpha elite wn) as [o'|e']; cbn in HB; try contradiction; [|exact HB].
  cbn [rbind reorder_args g_nvars]. pose proof (start_both v lo hi) as HS.
  destruct (vector_or_bounds (g_nvars a) v lo hi) as [i|e], (vector_or_bounds _ (reorder_vector v) _ _) as [i'|e']; cbn in HS; try contradiction; [|exact HS].
  destruct HS as [HS1 HS2]. cbn [rbind]. pose proof (assign_init_both i i' o o' HB HS1 HS2) as HI.
  destruct (assign_init i o) as [o1|e], (assign_init i' o') as [o1'|e']; cbn in HI; try contradiction; [|exact HI].
  destruct HI as (HI1 & HI2 & HI3). cbn [rbind]. pose proof (assign_pm_both m m o1 o1' HI1 eq_refl) as HP.
  unfold built. destruct (assign_pm m o1) as [o2|e], (assign_pm m o1') as [o2'|e']; cbn in HP |- *; try contradiction; [|exact HP].
  destruct HP as ((P1 & P2 & P3 & P4 & P5) & P6 & P7 & P8 & P9).
  constructor; auto.
  - rewrite P3. symmetry. exact Hn.
  - unfold pms_rel. rewrite P6, P7. exact Hm.
  - rewrite P8, P9, HI2, HI3. exact HS1.
Qed.
Lemma umdac_built lo hi v lf wn :
  built (umdac_new a lo hi v lf wn) (umdac_new a' (reorder_bound sigma lo) (reorder_bound sigma hi) (reorder_vector v) lf wn).
Proof.
  unfold umdac_new. cbn [reorder_args g_nvars g_alpha g_elite_factor].
  apply (gauss_built (MUniGauss lf (gauss_new (names (g_nvars a)))) (g_alpha a) (g_elite_factor a) wn v lo hi).
  cbn. split; [reflexivity|]. split; [apply gauss_new_len|apply gauss_new_sel].
Qed.
Lemma pbil_built lo hi v lf wn :
  built (pbil_new a lo hi v lf wn) (pbil_new a' (reorder_bound sigma lo) (reorder_bound sigma hi) (reorder_vector v) lf wn).
Proof.
  unfold pbil_new. cbn [reorder_args g_nvars g_alpha g_elite_factor].
  apply (gauss_built (MAdapt lf (num_to_f (g_alpha a)) (gauss_new (names (g_nvars a)))) (PyI 1) (g_elite_factor a) wn v lo hi).
  cbn. split; [reflexivity|]. split; [reflexivity|]. split; [apply gauss_new_len|apply gauss_new_sel].
Qed.
Lemma umdad_built v lo hi : (forall p, v = Some p -> List.length p = n) ->
  built (umdad_new a v lo hi) (umdad_new a' (option_map (reorder sigma fnan) v) lo hi).
Proof.
  intros Hv. unfold umdad_new. cbn [reorder_args g_nvars g_alpha g_elite_factor].
  pose proof (base_both (g_alpha a) (g_elite_factor a) (Some (PyI 0))) as HB.
  destruct (base a (g_alpha a) (g_elite_factor a) (Some (PyI 0))) as [o|e], (base a' (g_alpha a) (g_elite_factor a) (Some (PyI 0))) as [o'|e']; cbn in HB; try contradiction; [|exact HB].
  cbn [rbind]. unfold unibin_new. destruct (flt lo hi); [|reflexivity]. cbn [rbind].
  set (m := MUniBin (mkUB (names (g_nvars a)) lo hi (repeat (Z2f 0) (names (g_nvars a))))).
  pose proof (assign_pm_both m m o o' HB eq_refl) as HP.
  destruct (assign_pm m o) as [o1|e], (assign_pm m o') as [o1'|e']; cbn in HP; try contradiction; [|exact HP].
  destruct HP as (HP & P6 & P7 & _). cbn [rbind].
  set (i := IUniBin _). set (i' := IUniBin _).
  assert (Hi : init_rel i i').
  { unfold i, i'. cbn [init_rel]. unfold unibin_init_new. cbn [bi_pm].
    set (u := match v with None => _ | Some p => p end).
    assert (Lu : List.length u = n) by (unfold u; destruct v as [p|]; [apply Hv; reflexivity|rewrite repeat_length; symmetry; exact Hn]).
    assert (Eu : match option_map (reorder sigma fnan) v with None => repeat (lit 1 (-1)) (Z.to_nat (g_nvars a)) | Some p => p end = sel fnan u).
    { unfold u. destruct v as [p|]; cbn [option_map]; [exact (reorder_sel n sigma Hs fnan p (Hv p eq_refl))|].
      rewrite <- Hn. symmetry. apply sel_const, Hs. }
    rewrite Eu. pose proof (sel_len n sigma Hs fnan u) as Ls.
    exists (Z2f 0), (Z2f 1), (match u with [] => repeat (lit 1 (-1)) (Z.to_nat (g_nvars a)) | _ => u end).
    rewrite <- Hn. split; [destruct u; [rewrite repeat_length; reflexivity|exact Lu]|]. split; [reflexivity|]. f_equal.
    destruct u as [|x u].
    - assert (n0 : n = 0) by (cbn in Lu; lia). destruct (sel fnan []) as [|y l]; [|cbn in Ls; lia]. rewrite n0 at 1 2. cbn. symmetry.
      pose proof (sel_len n sigma Hs fnan (@nil f64)) as Ls'. destruct (sel fnan []); [reflexivity|cbn in Ls'; lia].
    - destruct (sel fnan (x :: u)) as [|y l] eqn:Es; [cbn in Ls, Lu; lia|]. rewrite <- Es. reflexivity. }
  pose proof (assign_init_both i i' o1 o1' HP Hi eq_refl) as HI.
  assert (K : forall j (p : optimiser X), op_st (with_init p j) = op_st p) by reflexivity.
  unfold built. unfold assign_init, set_init in HI |- *. cbn [value] in HI |- *.
  destruct (Z.eqb (initr_width i) (c_nvars (op_cfg o1))), (Z.eqb (initr_width i') (c_nvars (op_cfg o1'))); cbn in HI |- *; try contradiction; try reflexivity.
  destruct HI as ((Q1 & Q2 & Q3 & Q4 & Q5) & _). constructor; auto.
  - rewrite Q3. symmetry. exact Hn.
  - unfold pms_rel. cbn [with_init op_st]. rewrite P6, P7. cbn. exists lo, hi, (repeat (Z2f 0) n). unfold m, names. rewrite <- Hn.
    split; [apply repeat_length|]. split; [reflexivity|]. rewrite sel_const by exact Hs. reflexivity.
Qed.

End Run.
