(** How many generations UMDAd needs on average before it evaluates a given solution. *)
From Coq Require Import String List ZArith Bool Lia Reals Lra.
From Flocq Require Import Core IEEE754.BinarySingleNaN.
From Verif Require Import PyBase B64 B64More NdArray Eda EdaInv Spec Rand RandThms Models ModelThms FloatSum Chance Inits Stock StockInv StockAll
  Explore MaxLik Mean LoopTape Found GenCount FoundBest.
Import ListNotations.
Open Scope R_scope.

(** The number of generations that pass the test before one does not. *)
Fixpoint leading {A} (test : A -> bool) (l : list A) : nat :=
  match l with [] => O | x :: l' => if test x then S (leading test l') else O end.
(** The generations a run evaluates before the first that holds the bit string. *)
Definition waits (bs : list bool) (tr : list ev) : nat := leading (fun gv => negb (contains bs (fst gv))) (gens tr).

Lemma leading_le {A} (test : A -> bool) l : (leading test l <= List.length l)%nat.
Proof. induction l as [|x l IH]; cbn; [lia|]. destruct (test x); lia. Qed.
Lemma leading_first {A} (test : A -> bool) l : forall k, (k <= leading test l)%nat -> forallb test (firstn k l) = true.
Proof.
  induction l as [|x l IH]; intros [|k] H; cbn in *; try reflexivity; try lia. destruct (test x); [|lia]. apply IH. lia.
Qed.
Lemma leading_spec {A} (test : A -> bool) l : let k := leading test l in
  (forall i x, (i < k)%nat -> nth_error l i = Some x -> test x = true) /\ ((k < List.length l)%nat -> exists x, nth_error l k = Some x /\ test x = false).
Proof.
  cbv zeta. induction l as [|y l [IH1 IH2]]; cbn [leading]; [split; [intros [|i] x H; cbn; congruence|cbn; lia]|]. destruct (test y) eqn:E.
  - split; [intros [|i] x Hi Hx; cbn in Hx; [congruence|apply (IH1 i x); [lia|exact Hx]]|]. cbn. intros H. apply IH2. lia.
  - split; [intros i x H; lia|]. intros _. exists y. split; [reflexivity|exact E].
Qed.
Lemma contains_spec bs g : contains bs g = true <-> In (bits bs) (a_rows g).
Proof.
  unfold contains. rewrite existsb_exists. split.
  - intros (r & Hr & E). apply is_bits_spec in E. subst r. exact Hr.
  - intros Hr. exists (bits bs). split; [exact Hr|]. apply is_bits_spec. reflexivity.
Qed.
Lemma waits_spec bs tr : let k := waits bs tr in
  (forall i gv, (i < k)%nat -> nth_error (gens tr) i = Some gv -> ~ In (bits bs) (a_rows (fst gv))) /\
  ((k < List.length (gens tr))%nat -> exists gv, nth_error (gens tr) k = Some gv /\ In (bits bs) (a_rows (fst gv))) /\
  (k <= List.length (gens tr))%nat.
Proof.
  cbv zeta. unfold waits. pose proof (leading_spec (fun gv : arr * list f64 => negb (contains bs (fst gv))) (gens tr)) as [H1 H2]. split; [|split; [|apply leading_le]].
  - intros i gv Hi Hg Hin. specialize (H1 i gv Hi Hg). apply negb_true_iff in H1. assert (C : contains bs (fst gv) = true) by (apply contains_spec; exact Hin). congruence.
  - intros H. destruct (H2 H) as (gv & Hg & Hc). exists gv. split; [exact Hg|]. apply negb_false_iff in Hc. apply contains_spec. exact Hc.
Qed.

(** The mean of a number is the sum of the chances that it exceeds 0, 1, 2, ... *)
Lemma mean_plus n f g : mean draws n (fun v => f v + g v) = mean draws n f + mean draws n g.
Proof.
  rewrite (mean_ext draws draws_nonempty n _ (fun v => f v - -1 * g v)) by (intros; ring). rewrite mean_minus, mean_scal. ring.
Qed.
Lemma mean_tails n (X : list Z -> nat) m : (forall v, sequence draws n v -> (X v <= m)%nat) ->
  mean draws n (fun v => INR (X v)) = Rsum (map (fun k => likelihood n (fun v => Nat.ltb k (X v))) (seq 0 m)).
Proof.
  intros H. transitivity (mean draws n (fun v => Rsum (map (fun k => ind (Nat.ltb k (X v))) (seq 0 m)))).
  - apply (mean_ext draws draws_nonempty). intros v Hv. specialize (H v Hv). revert H. generalize (X v) as x. clear. intros x H.
    rewrite (sum_filter (fun k => Nat.ltb k x)). f_equal. replace m with (x + (m - x))%nat by lia. rewrite seq_app, filter_app, app_length. cbn [plus].
    assert (A : filter (fun k => Nat.ltb k x) (seq 0 x) = seq 0 x).
    { clear. assert (G : forall l y, (y + l <= x)%nat -> filter (fun k => Nat.ltb k x) (seq y l) = seq y l).
      { induction l as [|l IH]; intros y Hy; cbn [seq filter]; [reflexivity|]. destruct (Nat.ltb_spec y x); [|lia]. f_equal. apply IH. lia. }
      apply G. lia. }
    assert (B : filter (fun k => Nat.ltb k x) (seq x (m - x)) = []).
    { clear. assert (G : forall l y, (x <= y)%nat -> filter (fun k => Nat.ltb k x) (seq y l) = []).
      { induction l as [|l IH]; intros y Hy; cbn [seq filter]; [reflexivity|]. destruct (Nat.ltb_spec y x); [lia|]. apply IH. lia. }
      apply G. lia. }
    rewrite A, B, seq_length. cbn. lia.
  - clear H. unfold likelihood. generalize (seq 0 m) as l. unfold Rsum. induction l as [|k l IH]; cbn [map fold_right]; [apply (mean_const draws draws_nonempty)|].
    rewrite <- IH. apply mean_plus.
Qed.

Lemma geometric b m : 0 <= b < 1 -> Rsum (map (fun k => b ^ k) (seq 0 m)) <= / (1 - b).
Proof.
  intros Hb. assert (E : (1 - b) * Rsum (map (fun k => b ^ k) (seq 0 m)) = 1 - b ^ m).
  { unfold Rsum. induction m as [|m IH]; [cbn; ring|]. rewrite seq_S, map_app, fold_right_app. cbn [plus map fold_right].
    assert (F : forall l a, fold_right Rplus a l = fold_right Rplus 0 l + a) by (induction l as [|x l IHl]; intros a; cbn; [ring|rewrite IHl; ring]).
    rewrite F, Rmult_plus_distr_l, IH. cbn [pow]. ring. }
  pose proof (pow_le b m ltac:(lra)) as P. apply (Rmult_le_reg_l (1 - b)); [lra|]. rewrite E, Rinv_r by lra. lra.
Qed.

(** [1 / (1 - (1 - P)^s)] is at most [1 + 1 / (s P)]. *)
Lemma wait_simple P s : 0 < P <= 1 -> (1 <= s)%nat -> INR s * / (1 - (1 - P) ^ s) <= INR s + / P.
Proof.
  intros HP Hs. assert (Is : 1 <= INR s) by (apply (le_INR 1), Hs).
  assert (B : (1 - P) ^ s * (1 + INR s * P) <= 1).
  { clear Hs Is. induction s as [|s IH]; [cbn; lra|]. rewrite S_INR. cbn [pow].
    pose proof (pow_le (1 - P) s ltac:(lra)) as Hp. assert (Hx : (1 - P) * (1 + (INR s + 1) * P) <= 1 + INR s * P).
    { pose proof (pos_INR s) as Hi. assert (0 <= (INR s + 1) * (P * P)) by (apply Rmult_le_pos; [lra|]; apply Rmult_le_pos; lra). lra. }
    apply Rle_trans with ((1 - P) ^ s * (1 + INR s * P)); [|exact IH]. rewrite (Rmult_comm (1 - P)), Rmult_assoc. apply Rmult_le_compat_l; assumption. }
  assert (SP : 0 < INR s * P) by (apply Rmult_lt_0_compat; lra).
  assert (L : (1 - P) ^ s <= / (1 + INR s * P)).
  { apply (Rmult_le_reg_r (1 + INR s * P)); [lra|]. rewrite Rinv_l by lra. exact B. }
  assert (Q : INR s * P / (1 + INR s * P) <= 1 - (1 - P) ^ s).
  { apply Rle_trans with (1 - / (1 + INR s * P)); [|lra]. right. field. lra. }
  assert (Pos : 0 < INR s * P / (1 + INR s * P)) by (apply Rdiv_lt_0_compat; lra).
  apply Rle_trans with (INR s * / (INR s * P / (1 + INR s * P))).
  - apply Rmult_le_compat_l; [lra|]. apply Rinv_le_contravar; assumption.
  - right. field. lra.
Qed.

Section Time.
Context {X : Type}.
Variable E : env X (list Z).
Hypothesis tape : tape_rng (e_rng E).
Variables (g : args) (vector : option (list f64)) (lo hi : f64) (o0 o : optimiser X).
Hypothesis made : construct E (UMDAd vector lo hi) g = Ok o0.
Hypothesis usedo : used E o0 o.
Let n := Z.to_nat (g_nvars g).
Hypothesis vec_ok : forall v, vector = Some v -> List.length v = n.
Hypothesis init_ok : forall d, g_init_data g = Some d -> bit_arr n d.
Hypothesis prob_lo : prob lo.
Hypothesis prob_hi : prob hi.
Variable t : Z.
Hypothesis chosen : int_times (g_size_gen g) (g_alpha g) = Ok t.
Hypothesis few : (0 <= t <= 2 ^ 53)%Z.
Variables (ql qh : R).
Hypothesis chance_lo : chance (fun x => flt x lo = true) ql.
Hypothesis chance_hi : chance (fun x => flt x hi = true) qh.
Variable bs : list bool.
Hypothesis bs_len : List.length bs = n.
Variable f : row -> res NdArray.num.
Let cost : row -> list Z -> res NdArray.num * list Z := fun r w => (f r, w).
Let P := row_chance ql qh bs.
Let size := Z.to_nat (g_size_gen g).

Lemma umdad_tail a ftol out k :
  likelihood (all_draws g) (fun v => Nat.ltb k (waits bs (s_tr (snd (run_in E a o cost ftol out v))))) <= (1 - P) ^ (size * k).
Proof.
  pose proof (setup E g vector lo hi o0 o made usedo t chosen) as (_ & C2 & _).
  pose proof (chances E g vector lo hi o0 o made usedo prob_lo prob_hi t chosen ql qh chance_lo chance_hi) as [K1 K2]. pose proof (row_chance_unit ql qh bs K1 K2) as U. fold P in U.
  set (T := Z.to_nat (g_max_iter g - 1)). destruct (Nat.le_gt_cases k T) as [Hk|Hk].
  - apply (run_rare E tape g vector lo hi o0 o made usedo vec_ok init_ok prob_lo prob_hi t chosen few f ql qh chance_lo chance_hi bs bs_len a ftol out k Hk).
    intros v _ Hv. cbv zeta. fold cost. apply Nat.ltb_lt in Hv. unfold waits in Hv. split.
    + eapply Nat.le_trans; [exact Hv|apply leading_le].
    + apply (leading_first _ _ (S k)) in Hv. destruct (gens (s_tr (snd (run_in E a o cost ftol out v)))) as [|gv G]; [destruct k; reflexivity|].
      cbn [firstn forallb tl] in *. apply andb_true_iff in Hv. apply Hv.
  - apply Rle_trans with 0; [|apply pow_le; lra]. unfold likelihood. rewrite <- (mean_const draws draws_nonempty (all_draws g) 0). apply (mean_le draws draws_nonempty).
    intros v _. destruct (Nat.ltb_spec k (waits bs (s_tr (snd (run_in E a o cost ftol out v))))) as [H|H]; [exfalso|cbn; lra].
    pose proof (budget_kept (op_cfg o) (hooks_of E o cost) ftol out (mkSt a (op_st o) v []) eq_refl) as Bk. rewrite C2 in Bk. fold T in Bk.
    change (minimize (op_cfg o) (hooks_of E o cost) ftol out (mkSt a (op_st o) v [])) with (run_in E a o cost ftol out v) in Bk.
    unfold waits in H. pose proof (leading_le (fun gv => negb (contains bs (fst gv))) (gens (s_tr (snd (run_in E a o cost ftol out v))))) as Hl. lia.
Qed.

Hypothesis lo_pos : 0 < B2R lo.
Hypothesis hi_less : B2R hi < 1.
Hypothesis some : (1 <= g_size_gen g)%Z.

Lemma miss_less : 0 <= (1 - P) ^ size < 1.
Proof.
  pose proof (chances E g vector lo hi o0 o made usedo prob_lo prob_hi t chosen ql qh chance_lo chance_hi) as [K1 K2]. pose proof (row_chance_unit ql qh bs K1 K2) as U. fold P in U.
  pose proof (row_chance_pos lo hi ql qh bs prob_lo prob_hi lo_pos hi_less chance_lo chance_hi) as Pp. fold P in Pp. split; [apply pow_le; lra|].
  assert (Hs : exists s, size = S s) by (exists (Nat.pred size); unfold size; lia). destruct Hs as (s & Hs). rewrite Hs. cbn [pow].
  pose proof (pow_incr (1 - P) 1 s ltac:(lra)) as Q. rewrite pow1 in Q. pose proof (pow_le (1 - P) s ltac:(lra)) as Q0.
  apply Rle_lt_trans with ((1 - P) * 1); [apply Rmult_le_compat_l; lra|lra].
Qed.

Lemma umdad_waits a ftol out :
  mean draws (all_draws g) (fun v => INR (waits bs (s_tr (snd (run_in E a o cost ftol out v))))) <= / (1 - (1 - P) ^ size).
Proof.
  pose proof (setup E g vector lo hi o0 o made usedo t chosen) as (_ & C2 & _).
  rewrite (mean_tails _ _ (S (Z.to_nat (g_max_iter g - 1)))).
  - eapply Rle_trans; [|apply (geometric ((1 - P) ^ size) (S (Z.to_nat (g_max_iter g - 1))) miss_less)].
    generalize (seq 0 (S (Z.to_nat (g_max_iter g - 1)))) as l. unfold Rsum. induction l as [|k l IH]; cbn [map fold_right]; [lra|].
    apply Rplus_le_compat; [|exact IH]. rewrite <- pow_mult. apply umdad_tail.
  - intros v _. pose proof (budget_kept (op_cfg o) (hooks_of E o cost) ftol out (mkSt a (op_st o) v []) eq_refl) as Bk. rewrite C2 in Bk.
    change (minimize (op_cfg o) (hooks_of E o cost) ftol out (mkSt a (op_st o) v [])) with (run_in E a o cost ftol out v) in Bk.
    eapply Nat.le_trans; [apply leading_le|exact Bk].
Qed.

Lemma umdad_pays a ftol out :
  mean draws (all_draws g) (fun v => INR (size * waits bs (s_tr (snd (run_in E a o cost ftol out v))))) <= INR size + / P.
Proof.
  pose proof (chances E g vector lo hi o0 o made usedo prob_lo prob_hi t chosen ql qh chance_lo chance_hi) as [K1 K2]. pose proof (row_chance_unit ql qh bs K1 K2) as U. fold P in U.
  pose proof (row_chance_pos lo hi ql qh bs prob_lo prob_hi lo_pos hi_less chance_lo chance_hi) as Pp. fold P in Pp.
  rewrite (mean_ext draws draws_nonempty _ _ (fun v => INR size * INR (waits bs (s_tr (snd (run_in E a o cost ftol out v)))))) by (intros; apply mult_INR).
  rewrite mean_scal. eapply Rle_trans; [apply Rmult_le_compat_l; [apply pos_INR|apply umdad_waits]|]. apply wait_simple; [lra|unfold size; lia].
Qed.
End Time.
