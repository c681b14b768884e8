(** How likely UMDAd evaluates a given solution, and how likely it returns the best cost there is. *)
From Coq Require Import String List ZArith Bool Lia Reals Lra.
From Flocq Require Import Core IEEE754.BinarySingleNaN.
From Verif Require Import PyBase B64 B64More NdArray Eda EdaInv Spec TopK LoopObs LoopThms LoopMore LoopInv Rand RandThms Models ModelThms FloatSum Chance
  Inits Stock StockInv StockAll Explore MaxLik Mean LoopTape Found Answers.
Import ListNotations.
Open Scope R_scope.

Lemma likelihood_not n test : likelihood n (fun v => negb (test v)) = 1 - likelihood n test.
Proof.
  unfold likelihood. rewrite <- (mean_const draws draws_nonempty n 1) at 1. rewrite <- mean_minus. apply (mean_ext draws draws_nonempty).
  intros v _. destruct (test v); cbn; ring.
Qed.
Lemma likelihood_le n test test' : (forall v, sequence draws n v -> test v = true -> test' v = true) -> likelihood n test <= likelihood n test'.
Proof.
  intros H. apply (mean_le draws draws_nonempty). intros v Hv. specialize (H v Hv). destruct (test v); [rewrite H by reflexivity; lra|apply ind_unit].
Qed.

(** A run that is not stopped by [dead_iter] makes all its generations. *)
Lemma trailing_le : forall l, (trailing_false l <= List.length l)%nat.
Proof.
  assert (G : forall l k, (fold_left (fun n (b : bool) => if b then 0 else S n) l k <= k + List.length l)%nat).
  { induction l as [|b l IH]; intros k; cbn [fold_left List.length]; [lia|]. etransitivity; [apply IH|]. destruct b; lia. }
  intros l. apply (G l 0%nat).
Qed.
Lemma improvements_len ftol hist : (List.length (improvements ftol hist) <= Nat.pred (List.length hist))%nat.
Proof.
  destruct hist as [|b l]; cbn [improvements List.length Nat.pred]; [lia|]. revert b. induction l as [|v l IH]; intros b; cbn [improvements_from List.length]; [lia|].
  destruct (flt _ _); cbn [List.length]; specialize (IH v) as I1; specialize (IH b) as I2; lia.
Qed.
Lemma all_generations {S W} (c : cfg) (h : hooks S W) ftol out s r tr : completes c h ftol out s r tr ->
  (c_dead_iter c <= 0)%Z \/ (c_max_iter c <= c_dead_iter c)%Z -> List.length (gens tr) = Datatypes.S (Z.to_nat (c_max_iter c - 1)).
Proof.
  intros H Hd. pose proof (history_lemma _ _ _ _ _ _ _ H) as Hh. apply Forall2_length in Hh. rewrite <- Hh.
  destruct (stop_lemma _ _ _ _ _ _ _ H) as [[E|[E1 E2]] _]; [rewrite E; reflexivity|]. exfalso.
  pose proof (trailing_le (improvements ftol (r_history r))) as T. pose proof (improvements_len ftol (r_history r)) as I1.
  pose proof (counts_lemma _ _ _ _ _ _ _ H) as (_ & K). rewrite <- Hh in K. lia.
Qed.

Section Best.
Context {X : Type}.
Variable E : env X (list Z).
Hypothesis tape : tape_rng (e_rng E).
Variables (g : args) (vector : option (list f64)) (lo hi : f64) (o0 o : optimiser X).
Hypothesis made : construct E (UMDAd vector lo hi) g = Ok o0.
Hypothesis usedo : used E o0 o.
Let n := Z.to_nat (g_nvars g).
Hypothesis vec_ok : forall v, vector = Some v -> List.length v = n.
Hypothesis init_ok : forall d, g_init_data g = Some d -> bit_arr n d.
Hypothesis prob_lo : prob lo.
Hypothesis prob_hi : prob hi.
Variable t : Z.
Hypothesis chosen : int_times (g_size_gen g) (g_alpha g) = Ok t.
Variables (ql qh : R).
Hypothesis chance_lo : chance (fun x => flt x lo = true) ql.
Hypothesis chance_hi : chance (fun x => flt x hi = true) qh.
Variable bs : list bool.
Hypothesis bs_len : List.length bs = n.
Let T := Z.to_nat (g_max_iter g - 1).
Let P := row_chance ql qh bs.
Let size := Z.to_nat (g_size_gen g).

Section Any.
Variable f : row -> res NdArray.num.
Let cost : row -> list Z -> res NdArray.num * list Z := fun r w => (f r, w).

Lemma umdad_misses a ftol out : (0 <= t <= 2 ^ 53)%Z ->
  likelihood (all_draws g) (fun v => let tr := s_tr (snd (run_in E a o cost ftol out v)) in
     Nat.eqb (List.length (gens tr)) (S T) && negb (evaluates bs tr)) <= (1 - P) ^ (size * T).
Proof.
  intros Ht. apply (run_rare E tape g vector lo hi o0 o made usedo vec_ok init_ok prob_lo prob_hi t chosen Ht f ql qh chance_lo chance_hi bs bs_len a ftol out T (le_n _)).
  intros v _ Hv. cbv zeta in Hv |- *. apply andb_true_iff in Hv as [H1 H2]. apply Nat.eqb_eq in H1. split; [fold T cost; rewrite H1; apply le_n|].
  apply negb_true_iff in H2. unfold evaluates in H2. fold cost.
  destruct (gens (s_tr (snd (run_in E a o cost ftol out v)))) as [|gv G]; [discriminate H1|]. cbn [tl]. cbn [existsb] in H2. apply orb_false_iff in H2 as [_ H2].
  injection H1 as H1. rewrite firstn_all2 by lia.
  clear - H2. induction G as [|x G IH]; [reflexivity|]. cbn [existsb forallb] in *. apply orb_false_iff in H2 as [H2 H3]. rewrite H2, (IH H3). reflexivity.
Qed.

Hypothesis sorts : argsort_ok (e_argsort E).
Hypothesis answers_ok : forall r, bit_row n r -> exists v, f r = Ok v /\ not_nan v.
Hypothesis some : (1 <= g_size_gen g)%Z.
Hypothesis init_some : forall d, g_init_data g = Some d -> a_rows d <> [].
Hypothesis cores : g_parallelize g = false \/ ((cpu_count (e_pool E) <= size)%nat /\ forall d, g_init_data g = Some d -> (cpu_count (e_pool E) <= a_len d)%nat).
Hypothesis selects : (1 <= t <= 2 ^ 53)%Z.

Lemma umdad_ready_all : exists K, umdad_ready E true g vector K o cost.
Proof.
  pose proof (setup E g vector lo hi o0 o made usedo t chosen) as (C1 & C2 & C3 & C4 & C5 & _).
  assert (Cp : c_parallelize (op_cfg o) = g_parallelize g).
  { pose proof made as M. cbn [construct] in M. destruct (umdad_inv _ _ _ _ _ M) as (Hcfg & _). destruct (used_setup E _ _ usedo) as (E1 & _). rewrite <- E1 in Hcfg.
    pose proof (eda_init_inv _ _ _ _ _ _ _ _ _ _ _ Hcfg) as (_ & _ & _ & _ & _ & _ & _ & C8 & _). exact C8. }
  assert (Hcost : cost_total (bit_row n) cost) by (intros r w Hr; destruct (answers_ok r Hr) as (v & Hv & Hn); exists v; split; [exact Hv|exact Hn]).
  assert (Hcpu : (1 <= cpu_count (e_pool E))%nat) by (unfold cpu_count; lia).
  destruct cores as [Hp|[Hp1 Hp2]].
  - exists 1%nat. split; [exact vec_ok|]. split; [|split].
    + intros d Hd. split; [apply init_ok, Hd|]. specialize (init_some d Hd). unfold a_len. destruct (a_rows d); [congruence|cbn; lia].
    + lia.
    + intros _. split; [exact sorts|]. split; [exact Hcost|]. split; [lia|]. split; [left; congruence|]. rewrite C5. lia.
  - exists (cpu_count (e_pool E)). split; [exact vec_ok|]. split; [|split].
    + intros d Hd. split; [apply init_ok, Hd|apply Hp2, Hd].
    + exact Hp1.
    + intros _. split; [exact sorts|]. split; [exact Hcost|]. split; [exact Hcpu|]. split; [right; lia|]. rewrite C5. lia.
Qed.

Lemma umdad_completes a ftol out w : exists res s', run_in E a o cost ftol out w = (Ok res, s') /\
  completes (op_cfg o) (hooks_of E o cost) ftol out (mkSt a (op_st o) w []) res (s_tr s').
Proof.
  destruct umdad_ready_all as (K & HK). destruct (run_in E a o cost ftol out w) as [r s'] eqn:Hr. pose proof made as M. cbn [construct] in M.
  destruct (umdad_run E true _ _ _ _ _ _ _ _ _ _ _ _ _ _ M usedo HK Hr) as (_ & _ & Hok & _). destruct (Hok eq_refl) as (res & ->).
  exists res, s'. split; [reflexivity|]. split; [reflexivity|]. exists s'. split; [exact Hr|reflexivity].
Qed.

Hypothesis patient : (g_dead_iter g <= 0)%Z \/ (g_max_iter g <= g_dead_iter g)%Z.

Lemma umdad_finds a ftol out :
  1 - (1 - P) ^ (size * T) <= likelihood (all_draws g) (fun v => evaluates bs (s_tr (snd (run_in E a o cost ftol out v)))).
Proof.
  pose proof (setup E g vector lo hi o0 o made usedo t chosen) as (_ & C2 & _ & _ & _ & _ & _ & C8 & _).
  pose proof (umdad_misses a ftol out ltac:(lia)) as H.
  assert (Le : likelihood (all_draws g) (fun v => negb (evaluates bs (s_tr (snd (run_in E a o cost ftol out v))))) <= (1 - P) ^ (size * T)).
  { eapply Rle_trans; [|exact H]. apply likelihood_le. intros v _ Hv. cbv zeta. rewrite Hv, andb_true_r. apply Nat.eqb_eq.
    destruct (umdad_completes a ftol out v) as (res & s' & Hr & Hc). rewrite Hr. cbn [snd]. rewrite (all_generations _ _ _ _ _ _ _ Hc) by (rewrite C2, C8; exact patient).
    rewrite C2. reflexivity. }
  rewrite likelihood_not in Le. lra.
Qed.
End Any.

Section Float.
Variable F : row -> f64.
Let f : row -> res NdArray.num := fun r => Ok (NF (F r)).
Let cost : row -> list Z -> res NdArray.num * list Z := fun r w => (f r, w).
Hypothesis sorts : argsort_ok (e_argsort E).
Hypothesis numbers : forall r, bit_row n r -> isnan (F r) = false.
Hypothesis some : (1 <= g_size_gen g)%Z.
Hypothesis init_some : forall d, g_init_data g = Some d -> a_rows d <> [].
Hypothesis cores : g_parallelize g = false \/ ((cpu_count (e_pool E) <= size)%nat /\ forall d, g_init_data g = Some d -> (cpu_count (e_pool E) <= a_len d)%nat).
Hypothesis selects : (1 <= t <= 2 ^ 53)%Z.
Hypothesis patient : (g_dead_iter g <= 0)%Z \/ (g_max_iter g <= g_dead_iter g)%Z.
Hypothesis best : forall r, bit_row n r -> fle (F (bits bs)) (F r) = true.

Lemma umdad_optimum a ftol out : feq ftol (Z2f 0) = true ->
  1 - (1 - P) ^ (size * T) <=
  likelihood (all_draws g) (fun v => match fst (run_in E a o cost ftol out v) with Ok r => feq (r_best_cost r) (F (bits bs)) | Raise _ => false end).
Proof.
  intros Hf. assert (Hans : forall r, bit_row n r -> exists v, f r = Ok v /\ not_nan v).
  { intros r Hr. exists (NF (F r)). split; [reflexivity|]. exact (numbers r Hr). }
  eapply Rle_trans; [exact (umdad_finds f sorts Hans some init_some cores selects patient a ftol out)|]. apply likelihood_le. intros w _ Hev. fold cost in Hev |- *.
  destruct (umdad_completes f sorts Hans some init_some cores selects a ftol out w) as (res & s' & Hr & Hc). fold cost in Hr, Hc. rewrite Hr in Hev |- *. cbn [fst snd] in *.
  set (h := hooks_of E o cost) in *. set (s0 := mkSt a (op_st o) w []) in *.
  destruct (min_best_lemma _ _ _ _ _ _ _ Hc Hf) as ((M1 & M2 & M3) & Hmin).
  pose proof (run_answers (op_cfg o) h ftol out s0 eq_refl) as Ha. change (minimize (op_cfg o) h ftol out s0) with (run_in E a o cost ftol out w) in Ha. rewrite Hr in Ha. cbn [snd] in Ha.
  assert (Hfl : all_float_returns (s_tr s')).
  { unfold all_float_returns. eapply Forall_impl; [|exact Ha]. intros [x v] (w1 & w2 & Hx). cbn [fst snd] in *. unfold h, cost, f in Hx. cbn [hooks_of h_cost] in Hx. exists (F x). congruence. }
  pose proof (evaluated_called _ _ _ _ _ _ _ Hc Hfl) as Hcall.
  assert (Hval : forall x v, In (x, v) (evaluated (s_tr s')) -> v = F x /\ bit_row n x).
  { intros x v Hin. assert (Hin' : In (x, NF v) (calls (s_tr s'))) by (rewrite Hcall; apply in_map_iff; exists (x, v); split; [reflexivity|exact Hin]). split.
    - rewrite Forall_forall in Ha. destruct (Ha _ Hin') as (w1 & w2 & Hx). unfold h, cost, f in Hx. cbn [hooks_of h_cost fst snd] in Hx. congruence.
    - destruct (umdad_ready_all f sorts Hans some init_some cores selects) as (K & HK). fold cost in HK. pose proof made as M. cbn [construct] in M.
      destruct (umdad_run E true _ _ _ _ _ _ _ _ _ _ _ _ _ _ M usedo HK Hr) as (_ & Hrows & _). rewrite Forall_forall in Hrows. exact (Hrows _ Hin'). }
  apply evaluates_spec in Hev as (gen & vals & Hg & Hrow).
  destruct (calls_lemma _ _ _ _ _ _ _ Hc) as (_ & Hlens).
  assert (Hin : exists v, In (bits bs, v) (evaluated (s_tr s'))).
  { assert (Hlen : List.length vals = List.length (a_rows gen)).
    { clear - Hlens Hg. induction Hlens as [|gv rets G Rs Hx _ IH]; [destruct Hg|]. destruct Hg as [->|Hg]; [apply Hx|exact (IH Hg)]. }
    apply In_nth_error in Hrow as [i Hi]. assert (Hi' : (i < List.length vals)%nat) by (rewrite Hlen; apply nth_error_Some; congruence).
    destruct (nth_error vals i) as [v|] eqn:Ev; [|apply nth_error_None in Ev; lia]. exists v. unfold evaluated. apply in_flat_map. exists (gen, vals). split; [exact Hg|].
    unfold pairs. cbn [fst snd]. clear - Hi Ev. revert vals i Hi Ev. induction (a_rows gen) as [|x l IH]; intros [|y vals] [|i] Hi Ev; try discriminate; cbn [nth_error combine] in *.
    - left. congruence.
    - right. eapply IH; eassumption. }
  destruct Hin as (v & Hin). destruct (Hval _ _ Hin) as (-> & Hb). specialize (Hmin _ _ Hin).
  (* the best cost is itself the cost of an evaluated solution *)
  assert (Hbest : exists x, bit_row n x /\ r_best_cost res = F x).
  { pose proof (history_lemma _ _ _ _ _ _ _ Hc) as Hh.
    assert (Hgv : exists gv, In gv (gens (s_tr s')) /\ In (r_best_cost res) (snd gv)).
    { clear - Hh M1. induction Hh as [|m gv l G (I1 & _) _ IH]; [destruct M1|]. destruct M1 as [->|M1]; [exists gv; split; [left; reflexivity|exact I1]|].
      destruct (IH M1) as (gv' & A & B). exists gv'. split; [right; exact A|exact B]. }
    destruct Hgv as ([gen' vals'] & Hg' & Hv'). cbn [snd] in Hv'.
    assert (Hlen : List.length vals' = List.length (a_rows gen')).
    { clear - Hlens Hg'. induction Hlens as [|gv rets G Rs Hx _ IH]; [destruct Hg'|]. destruct Hg' as [->|Hg']; [apply Hx|exact (IH Hg')]. }
    apply In_nth_error in Hv' as [i Hi]. assert (Hi' : (i < List.length (a_rows gen'))%nat) by (rewrite <- Hlen; apply nth_error_Some; congruence).
    destruct (nth_error (a_rows gen') i) as [x|] eqn:Ex; [|apply nth_error_None in Ex; lia].
    assert (Hin' : In (x, r_best_cost res) (evaluated (s_tr s'))).
    { unfold evaluated. apply in_flat_map. exists (gen', vals'). split; [exact Hg'|]. unfold pairs. cbn [fst snd]. clear - Hi Ex. revert vals' i Hi Ex.
      induction (a_rows gen') as [|z l IH]; intros [|y vals] [|i] Hi Ev; try discriminate; cbn [nth_error combine] in *; [left; congruence|right; eapply IH; eassumption]. }
    destruct (Hval _ _ Hin') as (E1 & E2). exists x. split; [exact E2|exact E1]. }
  destruct Hbest as (x & Hx & Ebest). rewrite Ebest in Hmin |- *. pose proof (best x Hx) as Hle. clear - Hmin Hle numbers Hx Hb.
  pose proof (numbers x Hx) as N1. pose proof (numbers _ Hb) as N2.
  apply fle_antisym_feq; [|exact Hle]. apply flt_false_fle; assumption.
Qed.
End Float.
End Best.

Lemma chance_below_one hi qh : prob hi -> B2R hi < 1 -> chance (fun x => flt x hi = true) qh -> qh < 1.
Proof.
  intros Ph Hh (l & N & H & ->). destruct (bit_facts hi Ph) as (_ & _ & Hlast). specialize (Hlast Hh).
  assert (Hx : ~ In (2 ^ 53 - 1)%Z l). { intros Hin. apply H in Hin as [_ Hin]. congruence. }
  assert (Hlen : (List.length ((2 ^ 53 - 1)%Z :: l) <= List.length draws)%nat).
  { apply NoDup_incl_length; [constructor; assumption|]. intros k [<-|Hk]; [exact (proj2 (draws_in (2 ^ 53 - 1)%Z) ltac:(lia))|exact (proj2 (draws_in k) (proj1 (proj1 (H k) Hk)))]. }
  apply le_INR in Hlen. rewrite draws_length in Hlen. cbn [List.length] in Hlen. rewrite S_INR in Hlen. pose proof u_pos as U. pose proof u_inv as I.
  apply Rlt_le_trans with ((INR (List.length l) + 1) * u); [lra|]. rewrite <- I. apply Rmult_le_compat_r; lra.
Qed.

Lemma row_chance_pos lo hi ql qh bs : prob lo -> prob hi -> 0 < B2R lo -> B2R hi < 1 ->
  chance (fun x => flt x lo = true) ql -> chance (fun x => flt x hi = true) qh -> 0 < row_chance ql qh bs.
Proof.
  intros Pl Ph Hl Hh Cl Ch. pose proof (chance_below_one hi qh Ph Hh Ch) as H1. destruct (chance_lt lo Pl) as (q & Hq & Rq).
  rewrite (chance_unique _ _ _ Hq Cl) in Rq. apply Rprod_gt0. intros y Hy. apply in_map_iff in Hy as ([] & <- & _); lra.
Qed.

(** The chance of a miss vanishes as the budget grows. *)
Lemma miss_vanishes lo hi bs (size : nat) eps : prob lo -> prob hi -> flt lo hi = true -> 0 < B2R lo -> B2R hi < 1 -> (1 <= size)%nat -> 0 < eps ->
  exists ql qh, chance (fun x => flt x lo = true) ql /\ chance (fun x => flt x hi = true) qh /\
  exists M, forall T, (M <= T)%nat -> (1 - row_chance ql qh bs) ^ (size * T) < eps.
Proof.
  intros Pl Ph Hlt Hl Hh Hs He. destruct (chance_lt lo Pl) as (ql & Cl & _). destruct (chance_lt hi Ph) as (qh & Ch & _). exists ql, qh. split; [exact Cl|]. split; [exact Ch|].
  destruct (bounds_chances lo hi ql qh Pl Ph Hlt Cl Ch) as [B1 B2]. pose proof (row_chance_unit ql qh bs B1 B2) as [C1 C2].
  pose proof (row_chance_pos lo hi ql qh bs Pl Ph Hl Hh Cl Ch) as Cp.
  destruct (pow_lt_1_zero (1 - row_chance ql qh bs) ltac:(apply Rabs_def1; lra) eps He) as (M & HM). exists M. intros T HT.
  assert (Hge : (size * T >= M)%nat) by nia. specialize (HM _ Hge). rewrite Rabs_pos_eq in HM by (apply pow_le; lra). exact HM.
Qed.

(** However small the probability one accepts to fail, a large enough budget meets it. *)
Lemma umdad_converges lo hi bs (size : nat) eps : prob lo -> prob hi -> flt lo hi = true -> 0 < B2R lo -> B2R hi < 1 -> (1 <= size)%nat -> 0 < eps ->
  exists M, forall X (E : env X (list Z)) g vector o0 o t (F : row -> f64) a ftol out,
  tape_rng (e_rng E) -> argsort_ok (e_argsort E) ->
  construct E (UMDAd vector lo hi) g = Ok o0 -> used E o0 o ->
  (forall v, vector = Some v -> List.length v = Z.to_nat (g_nvars g)) ->
  (forall d, g_init_data g = Some d -> bit_arr (Z.to_nat (g_nvars g)) d /\ a_rows d <> []) ->
  g_parallelize g = false \/ ((cpu_count (e_pool E) <= size)%nat /\ forall d, g_init_data g = Some d -> (cpu_count (e_pool E) <= a_len d)%nat) ->
  int_times (g_size_gen g) (g_alpha g) = Ok t -> (1 <= t <= 2 ^ 53)%Z ->
  List.length bs = Z.to_nat (g_nvars g) -> Z.to_nat (g_size_gen g) = size ->
  (forall r, bit_row (Z.to_nat (g_nvars g)) r -> isnan (F r) = false /\ fle (F (bits bs)) (F r) = true) ->
  feq ftol (Z2f 0) = true ->
  (M <= Z.to_nat (g_max_iter g - 1))%nat -> (g_dead_iter g <= 0)%Z \/ (g_max_iter g <= g_dead_iter g)%Z ->
  1 - eps <= likelihood (all_draws g) (fun v => match fst (run_in E a o (fun r w => (Ok (NF (F r)), w)) ftol out v) with
                                               | Ok r => feq (r_best_cost r) (F (bits bs))
                                               | Raise _ => false
                                               end).
Proof.
  intros Pl Ph Hlt Hl Hh Hs He. destruct (miss_vanishes lo hi bs size eps Pl Ph Hlt Hl Hh Hs He) as (ql & qh & Cl & Ch & M & HM). exists M.
  intros X E g vector o0 o t F a ftol out Htape Hsort Hmade Hused Hvec Hinit Hcores Hsel Ht Hbs Hsize HF Hftol HT Hpat.
  specialize (HM _ HT). rewrite <- Hsize in HM, Hcores.
  eapply Rle_trans; [|apply (umdad_optimum E Htape g vector lo hi o0 o Hmade Hused Hvec (fun d Hd => proj1 (Hinit d Hd)) Pl Ph t Hsel ql qh Cl Ch bs Hbs F Hsort
    (fun r Hr => proj1 (HF r Hr)) ltac:(lia) (fun d Hd => proj2 (Hinit d Hd)) Hcores Ht Hpat (fun r Hr => proj2 (HF r Hr)) a ftol out Hftol)].
  lra.
Qed.
