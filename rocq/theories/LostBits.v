(** UMDAd without a positive lower bound (or an upper bound below 1) can lose a solution for good. *)
From Coq Require Import String List ZArith Bool Lia Reals Lra.
From Flocq Require Import Core IEEE754.BinarySingleNaN.
From Verif Require Import PyBase B64 B64More NdArray Eda EdaInv LoopAny LoopFail Spec LoopObs LoopInv LoopThms LoopMore Answers Rand RandThms Models ModelThms ModelMore Kahan FloatSum Chance Inits Stock StockInv StockAll
  Explore MaxLik Mean LoopTape Found FoundBest FoundTime Lost DrawnStock.
Import ListNotations.
Open Scope R_scope.

Lemma gens_calls rs l : Forall (on_rows rs) l -> gens l = [].
Proof. induction 1 as [|e l (x & v & -> & _) _ IH]; [reflexivity|exact IH]. Qed.
Lemma gens_calls_of rs rets : gens (calls_of rs rets) = [].
Proof. unfold calls_of. revert rets. induction rs as [|r rs IH]; intros [|v rets]; try reflexivity. cbn. apply IH. Qed.
Lemma gens_prints ps : Forall is_print ps -> gens ps = [].
Proof. induction 1 as [|e l H _ IH]; [reflexivity|]. destruct e; try contradiction. exact IH. Qed.

Lemma ones_none j (rs : list row) : Forall (fun r => nth_error r j = Some (CI 0)) rs -> ones_in j rs = 0%nat.
Proof. induction 1 as [|r rs H _ IH]; [reflexivity|]. cbn [ones_in]. rewrite H. exact IH. Qed.
Lemma ones_each j (rs : list row) : Forall (fun r => nth_error r j = Some (CI 1)) rs -> ones_in j rs = List.length rs.
Proof. induction 1 as [|r rs H _ IH]; [reflexivity|]. cbn [ones_in List.length]. rewrite H, IH. reflexivity. Qed.

Lemma fdiv_zero (m : nat) : (0 < m)%nat -> (Z.of_nat m <= 2 ^ 53)%Z -> B2R (fdiv (Z2f (Z.of_nat 0)) (Z2f (Z.of_nat m))) = 0 /\ isfin (fdiv (Z2f (Z.of_nat 0)) (Z2f (Z.of_nat m))) = true.
Proof.
  intros Hm Hb. destruct (freq_near 0 m Hm ltac:(lia) Hb) as (Hp & Hn & _). cbv zeta in Hp, Hn. destruct (prob_R _ Hp) as [Fp Rp].
  split; [|exact Fp]. destruct (Z2f_exact (Z.of_nat 0) ltac:(lia)) as [R0 F0]. change (IZR (Z.of_nat 0)) with 0 in R0. destruct (Z2f_exact (Z.of_nat m) ltac:(lia)) as [Rm Fm].
  assert (Hm0 : IZR (Z.of_nat m) <> 0) by (apply IZR_neq; lia). assert (Er : rnd (0 / IZR (Z.of_nat m)) = 0) by (unfold Rdiv; rewrite Rmult_0_l; apply round_0, valid_rnd_N).
  destruct (fdiv_fin (Z2f (Z.of_nat 0)) (Z2f (Z.of_nat m)) F0) as [F E].
  - rewrite Rm. exact Hm0.
  - rewrite R0, Rm, Er, Rabs_R0. apply big_pos.
  - rewrite E, R0, Rm. exact Er.
Qed.
Lemma fdiv_same (m : nat) : (0 < m)%nat -> (Z.of_nat m <= 2 ^ 53)%Z -> B2R (fdiv (Z2f (Z.of_nat m)) (Z2f (Z.of_nat m))) = 1 /\ isfin (fdiv (Z2f (Z.of_nat m)) (Z2f (Z.of_nat m))) = true.
Proof.
  intros Hm Hb. destruct (Z2f_exact (Z.of_nat m) ltac:(lia)) as [Rm Fm].
  assert (Hm0 : IZR (Z.of_nat m) <> 0) by (apply IZR_neq; lia). assert (Er : rnd (IZR (Z.of_nat m) / IZR (Z.of_nat m)) = 1) by (unfold Rdiv; rewrite Rinv_r by exact Hm0; apply (rnd_Z 1); lia).
  destruct (fdiv_fin (Z2f (Z.of_nat m)) (Z2f (Z.of_nat m)) Fm) as [F E].
  - rewrite Rm. exact Hm0.
  - rewrite Rm, Er, Rabs_R1. pose proof big_gt_2_53. assert (1 <= IZR (2 ^ 53)) by (apply IZR_le; lia). lra.
  - rewrite E, Rm. split; [exact Er|exact F].
Qed.

(** A value that stays as it is: 0 without a positive lower bound, 1 without an upper bound below 1. *)
Definition stuck (lo hi : f64) (z : Z) : Prop := (z = 0%Z /\ feq lo (Z2f 0) = true) \/ (z = 1%Z /\ feq hi fone = true).

Section Lost.
Context {X : Type}.
Variable E : env X (list Z).
Hypothesis tape : tape_rng (e_rng E).
Variables (g : args) (vector : option (list f64)) (lo hi : f64) (o0 o : optimiser X).
Hypothesis made : construct E (UMDAd vector lo hi) g = Ok o0.
Hypothesis usedo : used E o0 o.
Let n := Z.to_nat (g_nvars g).
Hypothesis vec_ok : forall v, vector = Some v -> List.length v = n.
Hypothesis no_init : g_init_data g = None.
Hypothesis prob_lo : prob lo.
Hypothesis prob_hi : prob hi.
Variable t : Z.
Hypothesis chosen : int_times (g_size_gen g) (g_alpha g) = Ok t.
Hypothesis few : (0 <= t <= 2 ^ 53)%Z.
Variable f : row -> res NdArray.num.
Let cost : row -> list Z -> res NdArray.num * list Z := fun r w => (f r, w).
Let h := hooks_of E o cost.
Let c := op_cfg o.
Let Q : pmstate X -> Prop := unibin_state n hi lo.

Lemma init_bits : forall d, g_init_data g = Some d -> bit_arr n d.
Proof. rewrite no_init. discriminate. Qed.

(* a variable and the value all have *)
Variables (j : nat) (z : Z).
Hypothesis j_less : (j < n)%nat.
Hypothesis stays : stuck lo hi z.

Definition same (r : row) : Prop := bit_row n r /\ nth_error r j = Some (CI z).
Lemma same_bits a : rows_in DInt n same a -> bit_arr n a.
Proof. intros (A & B & C). repeat split; [exact A|exact B|]. eapply Forall_impl; [|exact C]. intros r H. apply H. Qed.

(** The learned probability is 0 or 1. *)
Lemma learned_stuck d m m' : rows_in DInt n same d -> unibin_made n hi lo m -> (List.length (a_rows d) <= Z.to_nat t)%nat ->
  unibin_learn d m = (Ok tt, m') -> List.length (ub_pm m') = n /\ exists p, nth_error (ub_pm m') j = Some p /\ forall k, (0 <= k < 2 ^ 53)%Z -> flt (unit53 k) p = Z.eqb z 1.
Proof.
  intros Hd Hm Hlen Hl. pose proof (same_bits d Hd) as (B1 & B2 & B3). assert (Hne : a_rows d <> []) by (intros E0; rewrite (unibin_empty d m E0) in Hl; congruence).
  destruct (unibin_bits_made n hi lo m d Hm B2 B3 Hne) as (m1 & L1 & Hlp & Hp). assert (m1 = m') by congruence. subst m1. split; [exact Hlp|].
  destruct (Hp j j_less) as (p & Hpj & _ & _ & Hin). exists p. split; [exact Hpj|]. intros k Hk.
  destruct (unit53_spec k Hk) as [Fk Rk]. destruct (prob_R _ prob_lo) as [Fl Rl]. destruct (prob_R _ prob_hi) as [Fh Rh].
  assert (Hnr : (0 < List.length (a_rows d))%nat) by (destruct (a_rows d); [congruence|cbn; lia]). destruct Hd as (_ & _ & Hsame).
  pose proof u_pos as Hu. pose proof u_inv as Hui. assert (K0 : 0 <= IZR k) by (apply IZR_le; lia). assert (K1 : IZR k + 1 <= IZR (2 ^ 53)) by (rewrite <- plus_IZR; apply IZR_le; lia).
  assert (Rk0 : 0 <= B2R (unit53 k)) by (rewrite Rk; apply Rmult_le_pos; lra).
  assert (Rk1 : B2R (unit53 k) < 1).
  { rewrite Rk, <- Hui. apply Rmult_lt_compat_r; lra. }
  destruct stays as [[Ez Hz]|[Ez Hz]]; rewrite Ez.
  - rewrite (ones_none j (a_rows d)) in Hin by (eapply Forall_impl; [|exact Hsame]; intros r Hr; rewrite <- Ez; apply Hr).
    destruct (fdiv_zero (List.length (a_rows d)) Hnr ltac:(lia)) as [Rq Fq]. apply feq_fin in Hz; [|exact Fl|reflexivity]. rewrite Z2f_0_R in Hz.
    assert (p = fdiv (Z2f (Z.of_nat 0)) (Z2f (Z.of_nat (List.length (a_rows d))))) as ->.
    { apply Hin; apply fle_fin; try assumption; lra. }
    destruct (flt _ _) eqn:Ef; [|reflexivity]. apply (flt_fin _ _ Fk Fq) in Ef. lra.
  - rewrite (ones_each j (a_rows d)) in Hin by (eapply Forall_impl; [|exact Hsame]; intros r Hr; rewrite <- Ez; apply Hr).
    destruct (fdiv_same (List.length (a_rows d)) Hnr ltac:(lia)) as [Rq Fq]. apply feq_fin in Hz; [|exact Fh|reflexivity]. rewrite fone_R in Hz.
    assert (p = fdiv (Z2f (Z.of_nat (List.length (a_rows d)))) (Z2f (Z.of_nat (List.length (a_rows d))))) as ->.
    { apply Hin; (apply fle_fin; [assumption|assumption|]); rewrite Rq; [apply Rl|right; symmetry; exact Hz]. }
    apply flt_fin; try assumption. lra.
Qed.

(** So every later sample has the value. *)
Lemma sampled_stuck p w a w' m : ps_pm p = Some (MUniBin m) -> ub_n m = n -> List.length (ub_pm m) = n -> incl w draws ->
  (exists q, nth_error (ub_pm m) j = Some q /\ forall k, (0 <= k < 2 ^ 53)%Z -> flt (unit53 k) q = Z.eqb z 1) ->
  h_sample h p w = (Ok a, w') -> rows_in DInt n same a.
Proof.
  intros Hm Hn Hlen Hw (q & Hq & Hk) Hs. unfold h in Hs. cbn [hooks_of h_sample] in Hs. rewrite Hm in Hs. cbn [model_sample] in Hs.
  apply unibin_sample_spec in Hs as (_ & S1 & S2 & S3 & S4 & S5). rewrite Hn, Hlen, bres_same in S3. assert (Hw' : a_nc a = n) by exact (f_equal (fun x => match x with Some y => y | None => O end) S3). rewrite Hw' in S4.
  split; [exact S1|]. split; [exact Hw'|]. rewrite Forall_forall in S4 |- *. intros r Hr. split; [exact (S4 r Hr)|]. apply In_nth_error in Hr as [i Hi].
  assert (Hi' : (i < Z.to_nat (c_size_gen (op_cfg o)))%nat) by (rewrite <- S2; unfold a_len; apply nth_error_Some; rewrite Hi; discriminate).
  specialize (S5 i j Hi' ltac:(lia)). pose proof (eq_trans (f_equal (fun x : row => nth_error x j) (eq_sym (nth_error_nth _ _ [] Hi))) S5) as S6. rewrite S6, Hn, Hlen.
  assert (Hb : bidx n j = j) by (unfold bidx; destruct (Nat.eqb_spec n 1); lia). rewrite Hb, (nth_error_nth _ _ fnan Hq), (tape _ _ w). cbn [fst].
  assert (Hd : In (nth (i * n + j) w 0%Z) draws).
  { destruct (Nat.lt_ge_cases (i * n + j) (List.length w)) as [Hlt|Hge]; [apply Hw, nth_In, Hlt|]. rewrite nth_overflow by exact Hge. exact (proj2 (draws_in 0) ltac:(lia)). }
  rewrite (Hk _ (proj1 (draws_in _) Hd)). destruct stays as [[-> _]|[-> _]]; reflexivity.
Qed.

Definition all_same (tr : list ev) : Prop := Forall (fun gv => rows_in DInt n same (fst gv)) (gens tr).
Definition lost_inv (s : st (pmstate X) (list Z)) : Prop :=
  rows_in DInt n same (o_gen (s_obj s)) /\ rows_in DInt n same (o_elite (s_obj s)) /\ Q (s_pm s) /\ incl (s_w s) draws /\ all_same (s_tr s).

Lemma all_same_app a b : all_same a -> all_same b -> all_same (a ++ b).
Proof. unfold all_same. intros A B. rewrite LoopTape.gens_app. apply Forall_app. split; assumption. Qed.
Lemma all_same_nil l : gens l = [] -> all_same l.
Proof. unfold all_same. intros ->. constructor. Qed.

Lemma selected_same ob gen' evals' elite' evel' : rows_in DInt n same (o_gen ob) -> rows_in DInt n same (o_elite ob) ->
  selected c h ob gen' evals' elite' evel' -> rows_in DInt n same gen' /\ rows_in DInt n same elite' /\ (List.length (a_rows gen') <= Z.to_nat t)%nat.
Proof.
  intros B1 B2 H. destruct H. destruct (rows_in_concat DInt n same _ _ B1 B2) as (x & Ex & Bx). assert (x = sel_gen) by congruence. subst x.
  split; [exact (rows_in_take _ _ _ _ _ _ Bx sel_train)|]. split; [exact (rows_in_take _ _ _ _ _ _ Bx sel_elite)|].
  destruct (Select.take_rows_ok _ _ _ sel_train) as (_ & _ & G). apply Select.gather_length in G.
  pose proof (setup E g vector lo hi o0 o made usedo t chosen) as (_ & _ & _ & _ & Ht & _). fold c in Ht. rewrite Ht, slice_to_nonneg, firstn_length in G by lia. lia.
Qed.

(** From selection to the new sample. *)
Lemma drawn_same (s : st (pmstate X) (list Z)) gen' evals' elite' evel' noisy data p1 p2 w2 a w3 :
  lost_inv s -> selected c h (s_obj s) gen' evals' elite' evel' -> iadd gen' NoiseZero = Ok noisy -> h_data h noisy elite' (s_pm s) = (Ok data, p1) ->
  h_learn h data p1 (s_w s) = (Ok tt, (p2, w2)) -> h_sample h p2 w2 = (Ok a, w3) -> rows_in DInt n same a /\ rows_in DInt n same elite' /\ Q p2.
Proof.
  intros HI Hs Hi Hd Hl Ha. pose proof HI as (I1 & I2 & I3 & _). destruct (selected_same _ _ _ _ _ I1 I2 Hs) as (S1 & S2 & S3).
  rewrite (iadd_zero_bits n _ (same_bits _ S1)) in Hi. assert (noisy = gen') by congruence. subst noisy.
  unfold h in Hd. rewrite (data_selection E g vector lo hi o0 o made usedo t chosen f) in Hd. assert (data = gen' /\ p1 = s_pm s) as [-> ->] by (split; congruence).
  destruct (learn_bits E g lo hi o f gen' (s_pm s) (s_w s) I3) as (m & r & m' & Hm & Hmade & Hul & Hmade' & He). unfold h, cost in Hl. rewrite He in Hl.
  assert (Er : r = Ok tt) by congruence. assert (Ep : p2 = mkPS (Some (MUniBin m')) (ps_archive (s_pm s))) by congruence. assert (Ew : w2 = s_w s) by congruence. subst r p2 w2.
  destruct (learned_stuck _ _ _ S1 Hmade S3 Hul) as (Hlen & Hp). split; [|split; [exact S2|exists m'; split; [reflexivity|exact Hmade']]].
  exact (sampled_stuck (mkPS (Some (MUniBin m')) (ps_archive (s_pm s))) (s_w s) a w3 m' eq_refl (proj1 (proj2 Hmade')) Hlen (proj1 (proj2 (proj2 (proj2 HI)))) Hp Ha).
Qed.

Lemma pure_cost r : exists v, forall w, h_cost h r w = (v, w).
Proof. exists (f r). intros w. reflexivity. Qed.
Lemma pure_data ga e p : Q p -> Q (snd (h_data h ga e p)).
Proof. intros Hq. unfold h. rewrite (data_selection E g vector lo hi o0 o made usedo t chosen f). exact Hq. Qed.
Lemma pure_learn d p : Q p -> exists r p', Q p' /\ forall w, h_learn h d p w = (r, (p', w)).
Proof.
  intros Hq. destruct (learn_bits E g lo hi o f d p [] Hq) as (m & r & m' & Hm & Hmade & Hl & Hmade' & He). exists r, (mkPS (Some (MUniBin m')) (ps_archive p)).
  split; [exists m'; split; [reflexivity|exact Hmade']|]. intros w. unfold h. cbn [hooks_of h_learn]. rewrite Hm. cbn [model_learn]. rewrite Hl. reflexivity.
Qed.
Lemma unibin_good m size w : incl w draws -> incl (snd (unibin_sample (e_rng E) m size w)) draws.
Proof.
  intros Hw. unfold unibin_sample. destruct (size <? 0)%Z; [exact Hw|]. rewrite (tape _ _ w).
  assert (Hs : incl (skipn (Z.to_nat size * ub_n m) w) draws) by (intros k Hk; apply Hw; rewrite <- (firstn_skipn (Z.to_nat size * ub_n m) w); apply in_or_app; right; exact Hk).
  destruct (bres _ _); exact Hs.
Qed.
Lemma good_sample p w : Q p -> incl w draws -> incl (snd (h_sample h p w)) draws.
Proof. intros (m & Hm & _) Hw. unfold h. cbn [hooks_of h_sample]. rewrite Hm. cbn [model_sample]. apply unibin_good, Hw. Qed.
Lemma good_init w : incl w draws -> incl (snd (h_init h w)) draws.
Proof.
  intros Hw. pose proof (setup E g vector lo hi o0 o made usedo t chosen) as (_ & _ & _ & _ & _ & _ & _ & _ & C9).
  unfold h. cbn [hooks_of h_init]. rewrite C9. cbn [initr_sample]. apply unibin_good, Hw.
Qed.

Lemma lost_step ftol (s s' : st (pmstate X) (list Z)) ba : lost_inv s -> iteration c h ftol NoiseZero s = (Ok ba, s') -> lost_inv s'.
Proof.
  intros HI H. pose proof (worldly_iteration c h Q pure_cost pure_data pure_learn good_sample ftol NoiseZero s (proj1 (proj2 (proj2 HI))) (proj1 (proj2 (proj2 (proj2 HI))))) as Hw.
  rewrite H in Hw. cbn [snd] in Hw. destruct ba as [b acc]. apply iteration_inv in H. destruct H.
  destruct (drawn_same s _ _ _ _ _ _ _ _ _ _ _ HI if_sel if_iadd if_hdata if_learn if_sample) as (D1 & D2 & D3). rewrite if_s' in Hw |- *. cbn [s_obj s_pm s_w o_gen o_elite] in Hw.
  split; [exact D1|]. split; [exact D2|]. split; [exact D3|]. split; [exact (proj2 Hw)|]. cbn [s_tr].
  apply all_same_app; [exact (proj2 (proj2 (proj2 (proj2 HI))))|]. apply all_same_app; [apply all_same_nil; reflexivity|].
  apply all_same_app; [apply all_same_nil, gens_calls_of|]. constructor; [exact D1|constructor].
Qed.
Lemma lost_fail ftol (s s' : st (pmstate X) (list Z)) e : lost_inv s -> iteration c h ftol NoiseZero s = (Raise e, s') -> all_same (s_tr s').
Proof.
  intros HI H. pose proof (proj2 (proj2 (proj2 (proj2 HI)))) as Ht. apply iteration_fail in H. destruct H as [Es|gen' evals' elite' evel' _ Es|gen' evals' elite' evel' noisy data p1 _ _ _ Es
    |gen' evals' elite' evel' noisy data p1 p2 w2 a w3 l Hs Hi Hd Hl Ha Hr Es|gen' evals' elite' evel' noisy data p1 p2 w2 a w3 rets vals Hs Hi Hd Hl Ha Hr _ Es]; rewrite Es.
  - exact Ht.
  - apply all_same_app; [exact Ht|apply all_same_nil; reflexivity].
  - apply all_same_app; [exact Ht|apply all_same_nil; reflexivity].
  - apply all_same_app; [exact Ht|]. apply all_same_app; [apply all_same_nil; reflexivity|]. apply all_same_nil. eapply gens_calls, Hr.
  - destruct (drawn_same s _ _ _ _ _ _ _ _ _ _ _ HI Hs Hi Hd Hl Ha) as (D1 & _). apply all_same_app; [exact Ht|]. apply all_same_app; [apply all_same_nil; reflexivity|].
    apply all_same_app; [apply all_same_nil, gens_calls_of|]. constructor; [exact D1|constructor].
Qed.

(** If the first generation has the value throughout then so have all. *)
Lemma lost_run a ftol out w g0 w1 : incl w draws -> h_init h w = (Ok g0, w1) -> rows_in DInt n same g0 ->
  all_same (s_tr (snd (run_in E a o cost ftol out w))).
Proof.
  intros Hw Hi Hg. pose proof (setup E g vector lo hi o0 o made usedo t chosen) as (C1 & C2 & C3 & C4 & _).
  assert (Hq : Q (op_st o)) by exact (state_ok E g vector lo hi o0 o made usedo vec_ok init_bits).
  change (all_same (s_tr (snd (minimize c h ftol out (mkSt a (op_st o) w []))))).
  apply (minimize_every c h ftol out NoiseZero lost_inv (fun s => all_same (s_tr s))).
  - intros s HI. exact (proj2 (proj2 (proj2 (proj2 HI)))).
  - intros s s' (I1 & I2 & I3 & I4 & I5) (ps & Hp & ->). split; [exact I1|]. split; [exact I2|]. split; [exact I3|]. split; [exact I4|]. cbn [s_tr].
    apply all_same_app; [exact I5|apply all_same_nil, gens_prints, Hp].
  - intros s ba s'. apply lost_step.
  - intros s e s'. apply lost_fail.
  - intros b s1 H. pose proof (worldly_first c h Q pure_cost good_init (mkSt a (op_st o) w []) Hq Hw) as Hw1. rewrite H in Hw1. cbn [snd] in Hw1.
    apply first_generation_inv in H. destruct H. change (c_init_data c) with (c_init_data (op_cfg o)) in ff_init. rewrite C3, no_init in ff_init. cbn [s_w] in ff_init. rewrite Hi in ff_init.
    assert (Eg : ff_g = g0) by (injection ff_init; intros; symmetry; assumption). rewrite Eg in *. rewrite ff_s' in Hw1 |- *. cbn [s_obj s_pm s_w o_gen o_elite] in Hw1.
    split; [exact Hg|]. split; [exact (rows_in_head _ _ _ _ _ _ Hg ff_rows_eq)|]. split; [exact Hq|]. split; [exact (proj2 Hw1)|]. cbn [s_tr app].
    apply all_same_app; [apply all_same_nil, gens_calls_of|]. constructor; [exact Hg|constructor].
  - intros e s1 H. set (c' := mkCfg (c_size_gen c) (c_max_iter c) (c_dead_iter c) (c_nvars c) (c_alpha c) (c_elite_factor c) (c_disp c) (c_parallelize c) (Some g0) (c_w_noise c) (c_trunc_len c) (c_elite_len c)).
    assert (Ef : first_generation c h (mkSt a (op_st o) w []) = first_generation c' h (mkSt a (op_st o) w1 [])).
    { unfold first_generation. unfold mbind at 1. unfold initialize_generation at 1. change (c_init_data c) with (c_init_data (op_cfg o)). rewrite C3, no_init. unfold with_world. cbn [s_w]. rewrite Hi. reflexivity. }
    rewrite Ef in H. apply first_generation_fail in H. destruct H as [Es|g1 l Hg1 Hl Es|g1 rets vals Hg1 _ _ Es]; rewrite Es; cbn [s_tr app].
    + apply all_same_nil. reflexivity.
    + apply all_same_nil. eapply gens_calls, Hl.
    + apply all_same_app; [apply all_same_nil, gens_calls_of|]. unfold initial in Hg1. cbn [c' c_init_data] in Hg1. rewrite Hg1. constructor; [exact Hg|constructor].
  - intros s1. unfold draw_noise. change (c_w_noise c) with (c_w_noise (op_cfg o)). rewrite C4. reflexivity.
Qed.
End Lost.

Section Chances.
Context {X : Type}.
Variable E : env X (list Z).
Hypothesis tape : tape_rng (e_rng E).
Variables (g : args) (vector : option (list f64)) (lo hi : f64) (o0 o : optimiser X).
Hypothesis made : construct E (UMDAd vector lo hi) g = Ok o0.
Hypothesis usedo : used E o0 o.
Let n := Z.to_nat (g_nvars g).
Hypothesis vec_ok : forall v, vector = Some v -> List.length v = n.
Hypothesis no_init : g_init_data g = None.
Hypothesis prob_lo : prob lo.
Hypothesis prob_hi : prob hi.
Variable t : Z.
Hypothesis chosen : int_times (g_size_gen g) (g_alpha g) = Ok t.
Hypothesis few : (0 <= t <= 2 ^ 53)%Z.
Hypothesis some : (0 <= g_size_gen g)%Z.
Variable f : row -> res NdArray.num.
Let cost : row -> list Z -> res NdArray.num * list Z := fun r w => (f r, w).
(* the probabilities of the first generation, and their chances *)
Definition first_probs : list f64 := match vector with None => repeat (lit 1 (-1)) n | Some v => v end.
Variable qs : list R.
Hypothesis chances : Forall2 (fun p q => chance (fun x => flt x p = true) q) first_probs qs.
Variable bs : list bool.
Hypothesis bs_len : List.length bs = n.
Let size := Z.to_nat (g_size_gen g).

(** A missing value cannot come back. *)
Definition for_good (b : bool) : bool := if b then feq lo (Z2f 0) else feq hi fone.
Definition targets : list wanted := map (fun pbq : f64 * (bool * R) => let '(p, (b, q)) := pbq in if for_good b then Some (p, b, q) else None) (combine first_probs (combine bs qs)).

Lemma first_length : List.length first_probs = n.
Proof. unfold first_probs. destruct vector as [v|]; [apply vec_ok; reflexivity|apply repeat_length]. Qed.
Lemma qs_length : List.length qs = n.
Proof. rewrite <- first_length. symmetry. eapply Forall2_length, chances. Qed.
Lemma targets_length : List.length targets = n.
Proof. unfold targets. rewrite map_length, !combine_length, first_length, qs_length, bs_len. lia. Qed.
Lemma targets_real : Forall real targets.
Proof.
  unfold targets. generalize bs as l. generalize first_probs, qs, chances. intros ps' qs' H. induction H as [|p q ps' qs' H _ IH]; intros l.
  - constructor.
  - destruct l as [|b l]; cbn [combine map]; [constructor|]. constructor; [|apply IH]. destruct (for_good b); [exact H|exact Logic.I].
Qed.
Lemma targets_nth j p b q : nth_error targets j = Some (Some (p, b, q)) -> nth_error first_probs j = Some p /\ nth_error bs j = Some b /\ for_good b = true.
Proof.
  unfold targets. generalize first_probs as ps', bs as l, qs as qs'. revert j. induction j as [|j IH]; intros [|p' ps'] [|b' l] [|q' qs'] H; try discriminate; cbn in H |- *.
  - destruct (for_good b') eqn:Eg; [|discriminate]. injection H as <- <- <-. repeat split. exact Eg.
  - exact (IH ps' l qs' H).
Qed.

Lemma init_probs : ub_pm (bi_pm (unibin_init_new (g_nvars g) first_probs)) = first_probs.
Proof.
  pose proof first_length as Hl. unfold unibin_init_new. cbn [bi_pm ub_pm]. destruct first_probs as [|p ps']; [|reflexivity]. change (Z.to_nat (g_nvars g)) with n. rewrite <- Hl. reflexivity.
Qed.

(** Unless every such value is in the first generation, the solution is never evaluated. *)
Lemma seen_covered a ftol out seg w : sequence draws (size * n) seg -> incl w draws ->
  evaluates bs (s_tr (snd (run_in E a o cost ftol out (seg ++ w)))) = true -> covered targets size seg = true.
Proof.
  intros [Ls Is] Iw Hev. pose proof (setup E g vector lo hi o0 o made usedo t chosen) as (C1 & C2 & C3 & C4 & _ & _ & _ & _ & C9).
  apply covered_all; rewrite targets_length; [rewrite Ls; lia|]. intros j p b q Hj. apply targets_nth in Hj as (Hp & Hb & Hg).
  destruct (existsb (fun i => Bool.eqb (flt (unit53 (nth (i * n + j) seg 0%Z)) p) b) (seq 0 size)) eqn:Ex.
  { apply existsb_exists in Ex as (i & Hi & Hx). apply in_seq in Hi. exists i. split; [lia|exact Hx]. }
  exfalso. assert (Hno : forall i, (i < size)%nat -> Bool.eqb (flt (unit53 (nth (i * n + j) seg 0%Z)) p) b = false).
  { intros i Hi. destruct (Bool.eqb _ b) eqn:Eb; [|reflexivity]. rewrite <- Ex. symmetry. apply existsb_exists. exists i. split; [apply in_seq; lia|exact Eb]. }
  assert (Hjn : (j < n)%nat) by (rewrite <- first_length; apply nth_error_Some; rewrite Hp; discriminate).
  set (z := (if b then 0 else 1)%Z). assert (Hst : stuck lo hi z) by (unfold z; destruct b; [left|right]; split; [reflexivity|exact Hg|reflexivity|exact Hg]).
  set (m := bi_pm (unibin_init_new (g_nvars g) first_probs)). assert (Hm : ub_pm m = first_probs) by exact init_probs.
  destruct (unibin_tape (e_rng E) m (g_size_gen g) n tape eq_refl) as (fs & Hfs).
  pose proof (unibin_drawn (e_rng E) m (g_size_gen g) n fs tape some eq_refl (eq_trans (f_equal (@List.length f64) Hm) first_length) Hfs seg Ls) as Hd. fold size in Hd.
  assert (Hi : h_init (hooks_of E o cost) (seg ++ w) = (Ok (mkArr DInt n (drawn_rows (ub_pm m) n size seg)), w)).
  { cbn [hooks_of h_init]. rewrite C9, C1. cbn [initr_sample]. change (unibin_sample (e_rng E) m (g_size_gen g) (seg ++ w) = (Ok (mkArr DInt n (drawn_rows (ub_pm m) n size seg)), w)).
    rewrite <- Hd. apply Hfs. exact Ls. }
  assert (Hsame : rows_in DInt n (same g j z) (mkArr DInt n (drawn_rows (ub_pm m) n size seg))).
  { split; [reflexivity|]. split; [reflexivity|]. cbn [a_rows]. unfold drawn_rows. apply Forall_tabulate. intros i Hi'. unfold drawn_row. split.
    - split; [apply tabulate_length|]. apply Forall_tabulate. intros k _. destruct (flt _ _); [right|left]; reflexivity.
    - rewrite nth_error_tabulate by exact Hjn. rewrite Hm, (nth_error_nth _ _ fnan Hp). specialize (Hno i Hi'). unfold z.
      destruct (flt (unit53 (nth (i * n + j) seg 0%Z)) p), b; try discriminate Hno; reflexivity. }
  pose proof (lost_run E tape g vector lo hi o0 o made usedo vec_ok no_init prob_lo prob_hi t chosen few f j z Hjn Hst a ftol out (seg ++ w) _ w (incl_app Is Iw) Hi Hsame) as Hall.
  apply evaluates_spec in Hev as (ga & vals & Hga & Hrow). unfold all_same in Hall. rewrite Forall_forall in Hall. destruct (Hall _ Hga) as (_ & _ & Hrows). cbn [fst] in Hrows.
  rewrite Forall_forall in Hrows. destruct (Hrows _ Hrow) as [_ Hnth]. unfold bits in Hnth. rewrite (map_nth_error _ _ _ Hb) in Hnth. unfold z in Hnth. destruct b; discriminate Hnth.
Qed.

Lemma umdad_loses a ftol out :
  likelihood (all_draws g) (fun v => evaluates bs (s_tr (snd (run_in E a o cost ftol out v))))
  <= Rprod (map (fun bq : bool * R => if for_good (fst bq) then 1 - (if fst bq then 1 - snd bq else snd bq) ^ size else 1) (combine bs qs)).
Proof.
  assert (Er : Rprod (map (fun bq : bool * R => if for_good (fst bq) then 1 - (if fst bq then 1 - snd bq else snd bq) ^ size else 1) (combine bs qs)) = Rprod (map (turns_up size) targets)).
  { unfold targets. rewrite map_map. pose proof first_length as L1. pose proof qs_length as L2. pose proof bs_len as L3. revert L1 L2 L3. generalize n first_probs bs qs. intros k.
    induction k as [|k IH]; intros [|p ps'] [|b l] [|q qs'] L1 L2 L3; try discriminate; [reflexivity|]. cbn [combine map]. unfold Rprod. cbn [fold_right]. f_equal.
    - cbn [fst snd]. destruct (for_good b); reflexivity.
    - apply IH; [injection L1|injection L2|injection L3]; trivial. }
  rewrite Er, <- (covered_chance size targets targets_real), targets_length.
  unfold likelihood, all_draws, first_draws. rewrite no_init. fold n size. rewrite mean_app. apply (mean_le draws draws_nonempty). intros seg Hseg.
  rewrite <- (mean_const draws draws_nonempty (size * n * Z.to_nat (g_max_iter g - 1)) (ind (covered targets size seg))). apply (mean_le draws draws_nonempty). intros w [_ Hw].
  destruct (evaluates bs (s_tr (snd (run_in E a o cost ftol out (seg ++ w))))) eqn:Ev; [|destruct (covered targets size seg); cbn; lra].
  rewrite (seen_covered a ftol out seg w Hseg Hw Ev). cbn. lra.
Qed.

(** So if no other bit string has its cost, that cost is not the result more often. *)
Variable F : row -> f64.
Hypothesis costs : forall r, f r = Ok (NF (F r)).
Hypothesis unique : forall r, bit_row n r -> feq (F r) (F (bits bs)) = true -> r = bits bs.

Lemma best_evaluated a ftol out w r s : run_in E a o cost ftol out w = (Ok r, s) -> feq (r_best_cost r) (F (bits bs)) = true -> evaluates bs (s_tr s) = true.
Proof.
  intros Hr Hb. assert (Hrd : umdad_ready E false g vector 0 o cost).
  { split; [exact vec_ok|]. split; [intros d Hd; rewrite no_init in Hd; discriminate|]. split; [lia|discriminate]. }
  pose proof made as M. cbn [construct] in M. destruct (umdad_run E false _ _ _ _ _ _ _ _ _ _ _ _ _ _ M usedo Hrd Hr) as (_ & Hrows & _).
  assert (Hc : completes (op_cfg o) (hooks_of E o cost) ftol out (mkSt a (op_st o) w []) r (s_tr s)) by (split; [reflexivity|]; exists s; split; [exact Hr|reflexivity]).
  pose proof (run_answers (op_cfg o) (hooks_of E o cost) ftol out (mkSt a (op_st o) w []) eq_refl) as Ha.
  change (minimize (op_cfg o) (hooks_of E o cost) ftol out (mkSt a (op_st o) w [])) with (run_in E a o cost ftol out w) in Ha. rewrite Hr in Ha. cbn [snd] in Ha.
  assert (Hfl : all_float_returns (s_tr s)).
  { unfold all_float_returns. eapply Forall_impl; [|exact Ha]. intros [x v] (w1 & w2 & Hx). cbn [fst snd] in *. cbn [hooks_of h_cost] in Hx. unfold cost in Hx. rewrite costs in Hx. exists (F x). congruence. }
  pose proof (evaluated_called _ _ _ _ _ _ _ Hc Hfl) as Hcall.
  assert (Hex : exists x v, In (x, v) (evaluated (s_tr s)) /\ feq v (r_best_cost r) = true).
  { pose proof (best_ind_lemma _ _ _ _ _ _ _ Hc) as H. destruct (r_best_ind r) as [i|x].
    - destruct H as [(x & v & Hn & Hv) _]. exists x, v. split; [|exact Hv]. apply nth_error_In in Hn. unfold evaluated. apply in_flat_map in Hn as (gv & Hg & Hp). apply in_flat_map. exists gv. split; [|exact Hp].
      destruct (gens (s_tr s)) as [|gv' G]; [destruct Hg|]. destruct Hg as [->|[]]. left. reflexivity.
    - destruct H as [(v & Hv) _]. exists x, v. exact Hv. }
  destruct Hex as (x & v & Hin & Hv). assert (Hin' : In (x, NF v) (calls (s_tr s))) by (rewrite Hcall; apply in_map_iff; exists (x, v); split; [reflexivity|exact Hin]).
  assert (Ev : v = F x).
  { rewrite Forall_forall in Ha. destruct (Ha _ Hin') as (w1 & w2 & Hx). cbn [hooks_of h_cost fst snd] in Hx. unfold cost in Hx. rewrite costs in Hx. congruence. }
  assert (Hx : x = bits bs).
  { apply unique; [rewrite Forall_forall in Hrows; exact (Hrows _ Hin')|]. rewrite <- Ev. eapply feq_trans; [exact Hv|exact Hb]. }
  subst x. apply evaluates_spec. unfold evaluated in Hin. apply in_flat_map in Hin as ([ga vals] & Hg & Hp). exists ga, vals. split; [exact Hg|]. unfold pairs in Hp. cbn [fst snd] in Hp. apply in_combine_l in Hp. exact Hp.
Qed.

Lemma umdad_fails a ftol out :
  likelihood (all_draws g) (fun v => match fst (run_in E a o cost ftol out v) with Ok r => feq (r_best_cost r) (F (bits bs)) | Raise _ => false end)
  <= Rprod (map (fun bq : bool * R => if for_good (fst bq) then 1 - (if fst bq then 1 - snd bq else snd bq) ^ size else 1) (combine bs qs)).
Proof.
  eapply Rle_trans; [|apply (umdad_loses a ftol out)]. apply likelihood_le. intros w _ H. destruct (run_in E a o cost ftol out w) as [[r|e] s] eqn:Hr; cbn [fst snd] in *; [|discriminate].
  exact (best_evaluated _ _ _ _ _ _ Hr H).
Qed.
End Chances.

(** The default first generation has every bit with probability 1/2. *)
Lemma half_chances k : Forall2 (fun p q => chance (fun x => flt x p = true) q) (repeat (lit 1 (-1)) k) (repeat (1 / 2) k).
Proof. induction k as [|k IH]; cbn [repeat]; constructor; [exact chance_half|exact IH]. Qed.
Lemma half_product (good : bool -> bool) size bs :
  Rprod (map (fun bq : bool * R => if good (fst bq) then 1 - (if fst bq then 1 - snd bq else snd bq) ^ size else 1) (combine bs (repeat (1 / 2) (List.length bs))))
  = (1 - (1 / 2) ^ size) ^ List.length (filter good bs).
Proof.
  unfold Rprod. induction bs as [|b bs IH]; [reflexivity|]. cbn [List.length repeat combine map fold_right filter fst snd]. rewrite IH.
  assert (Eh : (if b then 1 - 1 / 2 else 1 / 2) = 1 / 2) by (destruct b; lra). rewrite Eh. destruct (good b); cbn [List.length pow]; ring.
Qed.

Lemma umdad_loses_half X (E : env X (list Z)) g lo hi o0 o t bs (f : row -> res NdArray.num) a ftol out :
  tape_rng (e_rng E) -> construct E (UMDAd None lo hi) g = Ok o0 -> used E o0 o -> g_init_data g = None ->
  prob lo -> prob hi -> int_times (g_size_gen g) (g_alpha g) = Ok t -> (0 <= t <= 2 ^ 53)%Z -> (0 <= g_size_gen g)%Z ->
  List.length bs = Z.to_nat (g_nvars g) ->
  likelihood (all_draws g) (fun v => evaluates bs (s_tr (snd (run_in E a o (fun r w => (f r, w)) ftol out v))))
  <= (1 - (1 / 2) ^ Z.to_nat (g_size_gen g)) ^ List.length (filter (fun b : bool => if b then feq lo (Z2f 0) else feq hi fone) bs).
Proof.
  intros Ht Hm Hu Hi Pl Ph Hs Hr Hz Hb. rewrite <- half_product, Hb.
  assert (Hv : forall v : list f64, None = Some v -> List.length v = Z.to_nat (g_nvars g)) by (intros v; discriminate).
  exact (umdad_loses E Ht g None lo hi o0 o Hm Hu Hv Hi Pl Ph t Hs Hr Hz f _ (half_chances _) bs Hb a ftol out).
Qed.
Lemma umdad_fails_half X (E : env X (list Z)) g lo hi o0 o t bs (F : row -> f64) a ftol out :
  tape_rng (e_rng E) -> construct E (UMDAd None lo hi) g = Ok o0 -> used E o0 o -> g_init_data g = None ->
  prob lo -> prob hi -> int_times (g_size_gen g) (g_alpha g) = Ok t -> (0 <= t <= 2 ^ 53)%Z -> (0 <= g_size_gen g)%Z ->
  List.length bs = Z.to_nat (g_nvars g) ->
  (forall r, bit_row (Z.to_nat (g_nvars g)) r -> feq (F r) (F (bits bs)) = true -> r = bits bs) ->
  likelihood (all_draws g) (fun v => match fst (run_in E a o (fun r w => (Ok (NF (F r)), w)) ftol out v) with
                                     | Ok r => feq (r_best_cost r) (F (bits bs))
                                     | Raise _ => false
                                     end)
  <= (1 - (1 / 2) ^ Z.to_nat (g_size_gen g)) ^ List.length (filter (fun b : bool => if b then feq lo (Z2f 0) else feq hi fone) bs).
Proof.
  intros Ht Hm Hu Hi Pl Ph Hs Hr Hz Hb Hun. rewrite <- half_product, Hb.
  assert (Hv : forall v : list f64, None = Some v -> List.length v = Z.to_nat (g_nvars g)) by (intros v; discriminate).
  exact (umdad_fails E Ht g None lo hi o0 o Hm Hu Hv Hi Pl Ph t Hs Hr Hz (fun r => Ok (NF (F r))) _ (half_chances _) bs Hb F (fun r => eq_refl) Hun a ftol out).
Qed.
