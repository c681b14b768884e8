(** With bounds strictly between 0 and 1 no bit is ever lost in UMDAd. *)
From Coq Require Import String List ZArith Bool Lia Reals Lra.
From Flocq Require Import Core IEEE754.BinarySingleNaN.
From Verif Require Import PyBase B64 B64More NdArray Eda EdaInv Spec LoopThms Rand RandThms Models ModelThms Kahan ModelMore FloatSum Chance
  Trunc Inits Stock StockInv StockAll StockPrior StockFinal DrawnStock.
Import ListNotations.
Open Scope R_scope.

(** The frequency forced between the bounds, in doubles and in reals. *)
Lemma clamped_R lo hi q p : clamped lo hi q p -> flt lo hi = true -> isfin lo = true -> isfin hi = true -> isfin q = true ->
  isfin p = true /\ B2R p = Rmin (B2R hi) (Rmax (B2R lo) (B2R q)).
Proof.
  intros (C1 & C2 & C3) Hb Fl Fu Fq. apply (flt_fin lo hi Fl Fu) in Hb. destruct (flt q lo) eqn:E1.
  - rewrite (C1 eq_refl). apply (flt_fin q lo Fq Fl) in E1. split; [exact Fl|]. rewrite Rmax_left by lra. rewrite Rmin_right by lra. reflexivity.
  - destruct (flt hi q) eqn:E2.
    + rewrite (C2 eq_refl). apply (flt_fin hi q Fu Fq) in E2. split; [exact Fu|]. rewrite Rmax_right by lra. rewrite Rmin_left by lra. reflexivity.
    + assert (A1 : fle lo q = true) by (apply flt_false_fle; try exact E1; apply isfin_not_nan; assumption).
      assert (A2 : fle q hi = true) by (apply flt_false_fle; try exact E2; apply isfin_not_nan; assumption).
      rewrite (C3 A1 A2). split; [exact Fq|]. apply (fle_fin lo q Fl Fq) in A1. apply (fle_fin q hi Fq Fu) in A2.
      rewrite Rmax_right by lra. rewrite Rmin_right by lra. reflexivity.
Qed.

Lemma below_one (p : f64) : B2R p < 1 -> B2R p <= 1 - u.
Proof.
  intros H. assert (E : pred radix2 (FLT_exp (3 - 1024 - 53) 53) 1 = 1 - u).
  { change 1 with (bpow radix2 0) at 1. rewrite pred_bpow. unfold u. change (bpow radix2 0) with 1. do 2 f_equal. }
  rewrite <- E. apply pred_ge_gt; [apply FLT_exp_valid; reflexivity|apply (generic_format_B2R 53 1024 p)| |exact H].
  change 1 with (bpow radix2 0). apply generic_format_bpow. cbn. lia.
Qed.

(** A bit of probability [p]: the draws that give 1, counted, and the two extreme draws. *)
Lemma bit_facts (p : f64) : prob p ->
  (exists q, chance (fun x => flt x p = true) q /\ B2R p <= q < B2R p + u) /\
  (0 < B2R p -> flt (unit53 0) p = true) /\ (B2R p < 1 -> flt (unit53 (2 ^ 53 - 1)) p = false).
Proof.
  intros Hp. destruct (prob_R p Hp) as [Fp Rp]. split; [apply chance_lt, Hp|]. split.
  - intros H. destruct (unit53_spec 0 ltac:(lia)) as [F E]. apply (flt_fin _ _ F Fp). rewrite E. lra.
  - intros H. destruct (unit53_spec (2 ^ 53 - 1) ltac:(lia)) as [F E]. destruct (flt (unit53 (2 ^ 53 - 1)) p) eqn:El; [|reflexivity]. exfalso.
    apply (flt_fin _ _ F Fp) in El. rewrite E in El. pose proof (below_one p H) as B. pose proof u_inv as U. rewrite minus_IZR in El.
    replace ((IZR (2 ^ 53) - 1) * u) with (IZR (2 ^ 53) * u - u) in El by ring. rewrite U in El. lra.
Qed.

Section Explore.
Context {X W : Type}.
Variable E : env X W.

(** What a generation of UMDAd can be: [one j] are the draws that give a 1 in column [j]. *)
Definition umdad_open (lo hi : f64) (size n : nat) (d g : arr) : Prop :=
  exists one : nat -> f64 -> bool,
    (forall j, (j < n)%nat ->
       (exists q, chance (fun x => one j x = true) q /\ B2R lo <= q < B2R hi + u /\
          Rabs (q - Rmin (B2R hi) (Rmax (B2R lo) (INR (ones_in j (a_rows d)) / INR (List.length (a_rows d))))) <= 2 * u) /\
       (0 < B2R lo -> one j (unit53 0) = true) /\ (B2R hi < 1 -> one j (unit53 (2 ^ 53 - 1)) = false)) /\
    exists w, forall i j, (i < size)%nat -> (j < n)%nat ->
      nth_error (nth i (a_rows g) []) j = Some (CI (if one j (fst (g_unif (e_rng E) size n w) i j) then 1 else 0)%Z).

Lemma umdad_explores g vector lo hi (o0 o : optimiser X) cost a ftol out w r s :
  construct E (UMDAd vector lo hi) g = Ok o0 -> used E o0 o ->
  (forall v, vector = Some v -> List.length v = Z.to_nat (g_nvars g)) ->
  (forall d, g_init_data g = Some d -> bit_arr (Z.to_nat (g_nvars g)) d) ->
  prob lo -> prob hi ->
  run_in E a o cost ftol out w = (r, s) ->
  forall k gen vals, nth_error (gens (s_tr s)) (S k) = Some (gen, vals) ->
  exists d, nth_error (learns (s_tr s)) k = Some d /\
    ((Z.of_nat (List.length (a_rows d)) <= 2 ^ 53)%Z -> umdad_open lo hi (Z.to_nat (g_size_gen g)) (Z.to_nat (g_nvars g)) d gen).
Proof.
  intros Hc U Hv Hi Plo Phi Hr k gen vals Hk. pose proof (umdad_data E _ _ _ _ _ _ _ _ _ _ _ _ _ Hc U Hv Hi Hr) as D.
  cbn [construct] in Hc. apply umdad_inv in Hc as (Hcfg & _ & (m0 & (M1 & M2 & M3 & M4) & _ & Hpm) & _).
  apply eda_init_inv in Hcfg as (Hsz & _). destruct (used_setup E _ _ U) as (Ecfg & _).
  destruct (next_drawn E _ _ _ _ _ _ _ _ _ _ U Hpm Hr _ _ _ Hk) as (d & m & m' & w1 & w2 & w3 & w4 & Hd & A & Hl & Hs).
  exists d. split; [exact Hd|]. intros Hlen. assert (Hb : bit_arr (Z.to_nat (g_nvars g)) d).
  { rewrite Forall_forall in D. apply D. eapply nth_error_In, Hd. }
  destruct Hb as (_ & Hnc & Hrows). destruct m as [| | |b| |]; try contradiction. destruct A as (A1 & A2 & A3).
  assert (Hlt : flt (ub_lo b) (ub_hi b) = true) by congruence.
  cbn [model_learn] in Hl. destruct (unibin_learn d b) as [r' b'] eqn:L.
  assert (Em : m' = MUniBin b') by congruence. assert (Er : r' = Ok tt) by congruence. subst m' r'.
  assert (Hne : a_rows d <> []).
  { intros E0. rewrite (unibin_empty d b E0) in L. congruence. }
  destruct (unibin_bits d b _ Hlt Hnc Hrows Hne) as (b2 & L2 & B1 & _ & _ & B4 & B5).
  assert (b2 = b') by congruence. subst b2. cbn [model_sample] in Hs.
  apply unibin_sample_spec in Hs as (_ & _ & S2 & S3 & _ & S5). rewrite Ecfg, Hsz in *.
  rewrite B1, <- A1, M2, B4, bres_same in S3. assert (Hw : a_nc gen = Z.to_nat (g_nvars g)) by congruence.
  assert (Elo : ub_lo b = lo) by congruence. assert (Ehi : ub_hi b = hi) by congruence. rewrite Elo, Ehi in *.
  destruct (prob_R _ Plo) as [Flo Rlo]. destruct (prob_R _ Phi) as [Fhi Rhi].
  assert (Hlh : B2R lo < B2R hi) by (apply (flt_fin lo hi Flo Fhi), Hlt).
  exists (fun j x => flt x (nth j (ub_pm b') fnan)). split.
  - intros j Hj. destruct (B5 j Hj) as (p & Hp & Hcl). rewrite (nth_error_nth _ _ fnan Hp).
    assert (Hnr : (0 < List.length (a_rows d))%nat) by (destruct (a_rows d); [congruence|cbn; lia]).
    destruct (freq_near (ones_in j (a_rows d)) (List.length (a_rows d)) Hnr (ones_in_le _ _) Hlen) as (Hpq & Hnear & _). cbv zeta in Hpq, Hnear.
    destruct (prob_R _ Hpq) as [Fq Rq]. destruct (clamped_R _ _ _ _ Hcl Hlt Flo Fhi Fq) as [Fp Ep].
    set (f := INR (ones_in j (a_rows d)) / INR (List.length (a_rows d))) in *. set (q0 := B2R (fdiv _ _)) in *.
    assert (Bp : B2R lo <= B2R p <= B2R hi).
    { rewrite Ep. split; [apply Rmin_glb; [lra|apply Rmax_l]|apply Rmin_l]. }
    assert (Pp : prob p).
    { split; [apply (fle_fin _ _ (proj2 (Z2f_exact 0 ltac:(lia))) Fp); rewrite Z2f_0_R; lra|apply (fle_fin _ _ Fp fone_fin); rewrite fone_R; lra]. }
    destruct (bit_facts p Pp) as ((q & Hq & Rq') & H0 & H1). split; [|split; intros; [apply H0|apply H1]; lra].
    exists q. split; [exact Hq|]. split; [lra|].
    assert (Np : Rabs (B2R p - Rmin (B2R hi) (Rmax (B2R lo) f)) <= u).
    { rewrite Ep. unfold u. pose proof (bpow_gt_0 radix2 (-53)). apply Rabs_le_inv in Hnear. apply Rabs_le. unfold Rmin, Rmax. repeat destruct Rle_dec; lra. }
    apply Rabs_le_inv in Np. apply Rabs_le. lra.
  - exists w3. intros i j Hi' Hj. destruct (B5 j Hj) as (p & Hp & _). rewrite Hw in S5. rewrite (S5 i j Hi' Hj). rewrite B1, <- A1, M2, B4.
    assert (Hbi : bidx (Z.to_nat (g_nvars g)) j = j) by (unfold bidx; destruct (Nat.eqb_spec (Z.to_nat (g_nvars g)) 1); [lia|reflexivity]).
    rewrite Hbi. reflexivity.
Qed.
End Explore.

(** After learning with such bounds every matrix of bits is a possible sample. *)
Lemma any_bits n upper lower m d m' :
  unibin_made n upper lower m -> a_nc d = n -> Forall (bit_row n) (a_rows d) -> a_rows d <> [] ->
  (Z.of_nat (List.length (a_rows d)) <= 2 ^ 53)%Z -> prob lower -> prob upper -> 0 < B2R lower -> B2R upper < 1 ->
  unibin_learn d m = (Ok tt, m') ->
  forall (size : nat) (b : nat -> nat -> bool), exists v : nat -> nat -> Z, (forall i j, (0 <= v i j < 2 ^ 53)%Z) /\
  forall W (g : rng W) w,
    (forall i j, (i < size)%nat -> (j < n)%nat -> fst (g_unif g size n w) i j = unit53 (v i j)) ->
    exists a w', unibin_sample g m' (Z.of_nat size) w = (Ok a, w') /\ a_len a = size /\ a_nc a = n /\
      forall i j, (i < size)%nat -> (j < n)%nat -> nth_error (nth i (a_rows a) []) j = Some (CI (if b i j then 1 else 0)%Z).
Proof.
  intros Hm Hn Hr Hne Hlen Pl Pu Hl0 Hu1 L size b.
  exists (fun i j => if b i j then 0 else 2 ^ 53 - 1)%Z. split; [intros i j; destruct (b i j); lia|]. intros W g w Hdraw.
  destruct (unibin_bits_made n upper lower m d Hm Hn Hr Hne) as (m1 & L1 & Hlp & Hp).
  assert (m1 = m') by congruence. subst m1. destruct (unibin_made_learn _ _ _ _ _ _ _ Hm L) as (Hb & Hn' & _ & _).
  destruct (prob_R _ Pl) as [Fl Rl]. destruct (prob_R _ Pu) as [Fu Ru].
  destruct (unibin_sample g m' (Z.of_nat size) w) as [r w'] eqn:Hs.
  assert (Hok : exists a, r = Ok a).
  { unfold unibin_sample in Hs. destruct (Z.ltb_spec (Z.of_nat size) 0); [lia|]. rewrite Hn', Hlp, bres_same in Hs. clear - Hs.
    destruct (g_unif g (Z.to_nat (Z.of_nat size)) n w) as [x w2]. eexists. symmetry. apply (f_equal fst Hs). }
  destruct Hok as [a ->]. exists a, w'. split; [reflexivity|]. apply unibin_sample_spec in Hs as (_ & _ & S2 & S3 & _ & S5).
  rewrite Nat2Z.id in *. rewrite Hn', Hlp, bres_same in S3. assert (Hw : a_nc a = n) by congruence. split; [exact S2|]. split; [exact Hw|].
  intros i j Hi Hj. rewrite (S5 i j Hi ltac:(lia)). rewrite Hn', Hlp.
  assert (Hbi : bidx n j = j) by (unfold bidx; destruct (Nat.eqb_spec n 1); [lia|reflexivity]). rewrite Hbi, (Hdraw i j Hi Hj).
  destruct (Hp j Hj) as (p & Hpj & Hcl). rewrite (nth_error_nth _ _ fnan Hpj).
  assert (Hnr : (0 < List.length (a_rows d))%nat) by (destruct (a_rows d); [congruence|cbn; lia]).
  destruct (freq_near (ones_in j (a_rows d)) (List.length (a_rows d)) Hnr (ones_in_le _ _) Hlen) as (Hpq & _). cbv zeta in Hpq.
  destruct (prob_R _ Hpq) as [Fq Rq]. destruct (clamped_R _ _ _ _ Hcl Hb Fl Fu Fq) as [Fp Ep]. apply (flt_fin lower upper Fl Fu) in Hb.
  assert (Bp : B2R lower <= B2R p <= B2R upper).
  { rewrite Ep. split; [apply Rmin_glb; [lra|apply Rmax_l]|apply Rmin_l]. }
  assert (Pp : prob p).
  { split; [apply (fle_fin _ _ (proj2 (Z2f_exact 0 ltac:(lia))) Fp); rewrite Z2f_0_R; lra|apply (fle_fin _ _ Fp fone_fin); rewrite fone_R; lra]. }
  destruct (bit_facts p Pp) as (_ & H0 & H1). destruct (b i j); [rewrite H0 by lra|rewrite H1 by lra]; reflexivity.
Qed.
