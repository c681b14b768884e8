(** Which uniform draws select which entry in [np.random.choice], and how wide that set is. *)
From Coq Require Import String List ZArith Bool Lia Reals Lra.
From Flocq Require Import Core IEEE754.BinarySingleNaN.
From Verif Require Import PyBase B64 B64More NdArray Rand RandThms Models Kahan CatThms.
Import ListNotations.
Open Scope R_scope.

Lemma real_sum_app l l' : real_sum (l ++ l') = real_sum l + real_sum l'.
Proof. induction l as [|x l IH]; cbn [List.app real_sum fold_right]; [fold (real_sum l'); lra|]. fold (real_sum (l ++ l')). fold (real_sum l). lra. Qed.

Lemma real_sum_step x l i : real_sum (firstn (S i) (x :: l)) = B2R x + real_sum (firstn i l).
Proof. reflexivity. Qed.

Lemma real_sum_next l : forall k, (k < List.length l)%nat ->
  real_sum (firstn (S k) l) = real_sum (firstn k l) + B2R (nth k l fnan).
Proof.
  induction l as [|x l IH]; intros k Hk; [cbn in Hk; lia|]. cbn [List.length] in Hk.
  rewrite real_sum_step. destruct k as [|k]; cbn [nth].
  - change (real_sum (firstn 0 l)) with 0. change (real_sum (firstn 0 (x :: l))) with 0. lra.
  - rewrite real_sum_step, (IH k) by lia. lra.
Qed.

Lemma real_sum_firstn l i : Forall prob l -> 0 <= real_sum (firstn i l) <= real_sum l.
Proof.
  intros Hp. rewrite <- (firstn_skipn i l) at 3. rewrite real_sum_app.
  assert (H : Forall prob (firstn i l) /\ Forall prob (skipn i l)) by (apply Forall_app; rewrite firstn_skipn; exact Hp).
  pose proof (real_sum_nonneg _ (proj1 H)). pose proof (real_sum_nonneg _ (proj2 H)). lra.
Qed.

(** Running sums are close to the exact ones. *)
Lemma cumsum_from_near l : forall acc A err,
  isfin acc = true -> Rabs (B2R acc - A) <= err -> 0 <= A -> 0 <= err -> Forall prob l ->
  A + real_sum l <= 3 / 2 -> err + eps * INR (List.length l) <= 1 ->
  forall i, (i < List.length l)%nat ->
    Rabs (B2R (nth i (cumsum_from acc l) fnan) - (A + real_sum (firstn (S i) l))) <= err + eps * INR (S i).
Proof.
  induction l as [|x l IH]; intros acc A err Fa Ha HA He Hp Hs Hl i Hi; [cbn in Hi; lia|].
  inversion Hp as [|? ? Hx Hp']; subst. destruct (prob_R x Hx) as [Fx Rx].
  cbn [real_sum fold_right List.length] in *. fold (real_sum l) in *. rewrite S_INR in Hl.
  pose proof (real_sum_nonneg l Hp') as Hl0. pose proof eps_pos as E0. pose proof eps_small as E1.
  assert (Hn0 : 0 <= eps * INR (List.length l)) by (apply Rmult_le_pos; [lra|apply pos_INR]).
  destruct (fadd_near acc x Fa Fx) as [Fs Rs].
  { apply Rabs_le_inv in Ha. apply Rabs_le. lra. }
  cbn [cumsum_from]. destruct i as [|i].
  - rewrite real_sum_step. change (real_sum (firstn 0 l)) with 0. cbn [nth]. change (INR 1) with 1. abs_lra.
  - rewrite real_sum_step. cbn [nth].
    specialize (IH (fadd acc x) (A + B2R x) (err + eps) Fs).
    assert (H1 : Rabs (B2R (fadd acc x) - (A + B2R x)) <= err + eps) by abs_lra.
    specialize (IH H1 ltac:(lra) ltac:(lra) Hp' ltac:(lra) ltac:(lra) i ltac:(lia)).
    rewrite (S_INR (S i)). replace (A + (B2R x + real_sum (firstn (S i) l))) with (A + B2R x + real_sum (firstn (S i) l)) by ring.
    lra.
Qed.

Lemma cumsum_near l : Forall prob l -> real_sum l <= 3 / 2 -> eps * INR (List.length l) <= 1 ->
  forall i, (i < List.length l)%nat ->
    Rabs (B2R (nth i (cumsum l) fnan) - real_sum (firstn (S i) l)) <= eps * INR (List.length l).
Proof.
  destruct l as [|x l]; intros Hp Hs Hl i Hi; [cbn in Hi; lia|].
  inversion Hp as [|? ? Hx Hp']; subst. destruct (prob_R x Hx) as [Fx Rx]. pose proof eps_pos as E0.
  cbn [real_sum fold_right List.length] in *. fold (real_sum l) in *. rewrite S_INR in *.
  pose proof (real_sum_nonneg l Hp') as Hl0.
  assert (Hn0 : 0 <= eps * INR (List.length l)) by (apply Rmult_le_pos; [lra|apply pos_INR]).
  destruct i as [|i]; rewrite real_sum_step; cbn [cumsum nth].
  - change (real_sum (firstn 0 l)) with 0. replace (B2R x - (B2R x + 0)) with 0 by ring. rewrite Rabs_R0. lra.
  - assert (H := cumsum_from_near l x (B2R x) 0 Fx).
    assert (H1 : Rabs (B2R x - B2R x) <= 0) by (rewrite Rminus_diag_eq, Rabs_R0 by reflexivity; lra).
    specialize (H H1 ltac:(lra) ltac:(lra) Hp' Hs ltac:(lra) i ltac:(lia)).
    assert (Hi' : eps * INR (S i) <= eps * INR (List.length l)) by (apply Rmult_le_compat_l; [lra|apply le_INR; lia]).
    lra.
Qed.

Section Intervals.
Variable p : list f64.
Variable d : R.
Hypothesis Hlen : (Z.of_nat (List.length p) <= 2 ^ 22)%Z.
Hypothesis Hp : Forall prob p.
Hypothesis Hpos : exists x, In x p /\ 0 < B2R x.
Hypothesis Hsum : Rabs (real_sum p - 1) <= d.
Hypothesis Hd : d <= / 4.

Let n := List.length p.
Let e29 : R := bpow radix2 (-29).

Let Hlen53 : (Z.of_nat (List.length p) <= 2 ^ 53)%Z.
Proof. lia. Qed.

Lemma len_eps : eps * INR n <= e29.
Proof.
  unfold eps, e29. apply Rle_trans with (bpow radix2 (-51) * bpow radix2 22).
  - apply Rmult_le_compat_l; [apply bpow_ge_0|]. rewrite INR_IZR_INZ. change (bpow radix2 22) with (IZR (2 ^ 22)). apply IZR_le, Hlen.
  - rewrite <- bpow_plus. apply bpow_le. lia.
Qed.

Lemma e29_small : 0 < e29 <= / 16.
Proof. split; [apply bpow_gt_0|]. change (/ 16) with (bpow radix2 (-4)). apply bpow_le. lia. Qed.

(** The normalised cumulative distribution is close to the exact prefix sums. *)
Lemma cdf_near i : (i < n)%nat -> Rabs (B2R (nth i (cdf p) fnan) - real_sum (firstn (S i) p)) <= d + 3 * e29.
Proof.
  intros Hi. destruct (cdf_facts p Hlen53 Hp Hpos i Hi) as [_ ->]. cbv zeta.
  pose proof len_eps as L. pose proof e29_small as E.
  assert (Hs : real_sum p <= 3 / 2) by (apply Rabs_le_inv in Hsum; lra).
  assert (Hn1 : eps * INR (List.length p) <= 1) by (fold n; lra).
  pose proof (cumsum_near p Hp Hs Hn1 i Hi) as Hc.
  pose proof (n_pos p Hlen53 Hp Hpos) as Hn. 
  assert (Hc1 := cumsum_near p Hp Hs Hn1 (List.length p - 1) ltac:(lia)).
  replace (S (List.length p - 1)) with (List.length p) in Hc1 by lia. rewrite firstn_all in Hc1.
  set (T := B2R (last (cumsum p) fnan)).
  assert (ET : B2R (nth (List.length p - 1) (cumsum p) fnan) = T) by (unfold T; rewrite last_nth, cumsum_length; reflexivity).
  rewrite ET in Hc1. fold n in Hc, Hc1.
  destruct (total_facts p Hlen53 Hp Hpos) as [_ HT]. fold T in HT.
  pose proof (cumsum_mono p Hlen53 Hp i (List.length p - 1) ltac:(lia) ltac:(lia)) as Hm. rewrite ET in Hm.
  destruct (cumsum_facts p Hlen53 Hp i Hi) as (_ & H0 & _).
  set (s := B2R (nth i (cumsum p) fnan)) in *.
  assert (Hq : 0 <= s / T <= 1).
  { split; [apply Rmult_le_pos; [lra|]; left; apply Rinv_0_lt_compat; lra|].
    apply (Rmult_le_reg_r T); [lra|]. unfold Rdiv. rewrite Rmult_assoc, Rinv_l by lra. lra. }
  assert (HT1 : Rabs (T - 1) <= d + e29) by abs_lra.
  assert (Hr : Rabs (rnd (s / T) - s / T) <= e29).
  { eapply Rle_trans; [apply (rnd_err_bpow _ 0); [lia|apply Rabs_le; change (bpow radix2 0) with 1; lra]|]. apply bpow_le. lia. }
  assert (Hdiff : Rabs (s / T - s) <= d + e29).
  { replace (s / T - s) with (s / T * (1 - T)) by (field; lra).
    rewrite Rabs_mult. rewrite (Rabs_pos_eq (s / T)) by lra. rewrite Rabs_minus_sym.
    apply Rle_trans with (1 * Rabs (T - 1)); [apply Rmult_le_compat_r; [apply Rabs_pos|lra]|lra]. }
  abs_lra.
Qed.

(** The draws that select entry [k] are those from the previous bound on and below its own. *)
Definition lower_end (k : nat) : R := match k with O => 0 | S j => B2R (nth j (cdf p) fnan) end.
Definition upper_end (k : nat) : R := B2R (nth k (cdf p) fnan).

Lemma ends_ok k : (k < n)%nat -> 0 <= lower_end k <= upper_end k /\ upper_end k <= 1.
Proof.
  intros Hk. unfold lower_end, upper_end.
  assert (H0 : forall i, (i < n)%nat -> 0 <= B2R (nth i (cdf p) fnan)).
  { intros i Hi. destruct (cdf_facts p Hlen53 Hp Hpos i Hi) as [_ ->]. apply rnd_ge_0.
    destruct (cumsum_facts p Hlen53 Hp i Hi) as (_ & H & _). destruct (total_facts p Hlen53 Hp Hpos) as [_ HT].
    apply Rmult_le_pos; [lra|]. left. apply Rinv_0_lt_compat. lra. }
  pose proof (n_pos p Hlen53 Hp Hpos) as Hn.
  assert (H1 : B2R (nth k (cdf p) fnan) <= 1).
  { rewrite <- (cdf_last p Hlen53 Hp Hpos). apply (cdf_mono p Hlen53 Hp Hpos); unfold n in *; lia. }
  split; [|exact H1]. destruct k as [|k]; [split; [lra|apply H0, Hk]|].
  split; [apply H0; lia|]. apply (cdf_mono p Hlen53 Hp Hpos); unfold n in *; lia.
Qed.

Lemma selected_iff u k : fle (Z2f 0) u = true -> flt u fone = true -> (k < n)%nat ->
  (searchsorted_right (cdf p) u = k <-> lower_end k <= B2R u < upper_end k).
Proof.
  intros U0 U1 Hk. destruct (unit_R u U0 U1) as [Fu Ru]. pose proof (n_pos p Hlen53 Hp Hpos) as Hn. fold n in Hn.
  assert (Hlt : forall i, (i < n)%nat -> (flt u (nth i (cdf p) fnan) = true <-> B2R u < B2R (nth i (cdf p) fnan))).
  { intros i Hi. apply flt_fin; [exact Fu|]. apply (cdf_facts p Hlen53 Hp Hpos i Hi). }
  destruct (bsearch_spec u (cdf p)) with (fuel := S (List.length (cdf p))) (lo := 0%nat) (hi := List.length (cdf p))
    as (Hk0 & Hbefore & Hat); try lia.
  { intros i j Hij Hj. rewrite (cdf_length p) in Hj. fold n in Hj. rewrite !Hlt by lia. pose proof (cdf_mono p Hlen53 Hp Hpos i j Hij Hj). lra. }
  fold (searchsorted_right (cdf p) u) in *. set (q := searchsorted_right (cdf p) u) in *.
  rewrite (cdf_length p) in *. fold n in Hk0, Hat. unfold lower_end, upper_end. split.
  - intros Hq. rewrite <- Hq. rewrite <- Hq in Hk. specialize (Hat Hk). apply (Hlt q Hk) in Hat. split; [|exact Hat].
    destruct q as [|j]; [lra|]. specialize (Hbefore j ltac:(lia)).
    destruct (Rle_or_lt (B2R (nth j (cdf p) fnan)) (B2R u)) as [|H]; [assumption|]. apply (Hlt j ltac:(lia)) in H. congruence.
  - intros [H1 H2]. apply (Hlt k Hk) in H2.
    assert (Hqk : (q <= k)%nat).
    { destruct (Nat.le_gt_cases q k) as [|H]; [assumption|]. specialize (Hbefore k H). congruence. }
    destruct (Nat.eq_dec q k) as [|Hne]; [assumption|exfalso].
    destruct k as [|j]; [lia|]. assert (Hqn : (q < n)%nat) by lia. specialize (Hat Hqn). apply (Hlt q Hqn) in Hat.
    pose proof (cdf_mono p Hlen53 Hp Hpos q j ltac:(lia) ltac:(unfold n in *; lia)). lra.
Qed.

Lemma interval_width k : (k < n)%nat -> Rabs (upper_end k - lower_end k - B2R (nth k p fnan)) <= 2 * d + 6 * e29.
Proof.
  intros Hk. pose proof (cdf_near k Hk) as H1. unfold upper_end, lower_end. pose proof e29_small as E.
  assert (Hs : real_sum (firstn (S k) p) = real_sum (firstn k p) + B2R (nth k p fnan)).
  { apply real_sum_next, Hk. }
  assert (Hd0 : 0 <= d) by (pose proof (Rabs_pos (real_sum p - 1)); lra).
  destruct k as [|j].
  - change (real_sum (firstn 0 p)) with 0 in Hs. abs_lra.
  - pose proof (cdf_near j ltac:(lia)) as H2. abs_lra.
Qed.

End Intervals.

(* ---------------- learned categories ---------------- *)

Lemma learned_sum (ks : list nat) (n : nat) :
  (0 < n)%nat -> (Z.of_nat n <= 2 ^ 53)%Z -> (Z.of_nat (List.length ks) <= 2 ^ 22)%Z -> fold_right plus 0%nat ks = n ->
  Rabs (real_sum (map (fun k => fdiv (Z2f (Z.of_nat k)) (Z2f (Z.of_nat n))) ks) - 1) <= bpow radix2 (-31).
Proof.
  intros Hn Hb Hlen Hsum.
  assert (Hle : forall k, In k ks -> (k <= n)%nat).
  { rewrite <- Hsum. clear. induction ks as [|a ks IH]; intros k Hk; [destruct Hk|]. cbn. destruct Hk as [->|Hk]; [lia|]. specialize (IH k Hk). lia. }
  assert (Hn0 : 0 < INR n) by (apply lt_0_INR; exact Hn).
  assert (Herr : Rabs (real_sum (map (fun k => fdiv (Z2f (Z.of_nat k)) (Z2f (Z.of_nat n))) ks) - INR (fold_right plus 0%nat ks) / INR n)
                 <= INR (List.length ks) * bpow radix2 (-53)).
  { clear Hsum Hlen. induction ks as [|k ks IH]; cbn [map real_sum fold_right List.length].
    - cbn. unfold Rdiv. rewrite Rmult_0_l, Rminus_0_r, Rabs_R0. lra.
    - fold (real_sum (map (fun k => fdiv (Z2f (Z.of_nat k)) (Z2f (Z.of_nat n))) ks)).
      specialize (IH ltac:(intros j Hj; apply Hle; right; exact Hj)).
      destruct (freq_near k n Hn (Hle k ltac:(left; reflexivity)) Hb) as (_ & Hk & _). cbv zeta in Hk.
      rewrite plus_INR, S_INR. unfold Rdiv in *. rewrite Rmult_plus_distr_r. abs_lra. }
  rewrite Hsum in Herr. unfold Rdiv in Herr. rewrite Rinv_r in Herr by lra.
  eapply Rle_trans; [exact Herr|].
  apply Rle_trans with (bpow radix2 22 * bpow radix2 (-53)).
  - apply Rmult_le_compat_r; [apply bpow_ge_0|]. rewrite INR_IZR_INZ. change (bpow radix2 22) with (IZR (2 ^ 22)). apply IZR_le, Hlen.
  - rewrite <- bpow_plus. apply bpow_le. lia.
Qed.

(** The state of the generator when column [j] is drawn. *)
Definition world_at {W} (g : rng W) (size : Z) (w : W) (j : nat) : W :=
  Nat.iter j (fun w => snd (g_unif g (Z.to_nat size) 1 w)) w.

Lemma iter_shift {A} (f : A -> A) n x : Nat.iter n f (f x) = f (Nat.iter n f x).
Proof. unfold Nat.iter. induction n as [|n IH]; [reflexivity|]. exact (f_equal f IH). Qed.

Lemma world_at_S {W} (g : rng W) size w j : world_at g size w (S j) = world_at g size (snd (g_unif g (Z.to_nat size) 1 w)) j.
Proof. symmetry. exact (iter_shift _ j w). Qed.

Lemma taken_at {A} (a out : list A) ks : Forall2 (fun k x => nth_error a k = Some x) ks out ->
  forall i k, nth_error ks i = Some k -> nth_error out i = nth_error a k.
Proof.
  induction 1 as [|k x ks xs Hkx Hr IH]; intros [|i] k' E; cbn in *; try discriminate.
  - injection E as <-. symmetry. exact Hkx.
  - apply IH, E.
Qed.

Lemma np_choice_world {W A} (g : rng W) (a : list A) size p w out w' :
  np_choice g a size p w = (Ok out, w') ->
  (0 <= size)%Z /\ List.length p = List.length a /\ probs_ok p = true /\ w' = snd (g_unif g (Z.to_nat size) 1 w) /\
  forall i, (i < Z.to_nat size)%nat ->
    nth_error out i = nth_error a (searchsorted_right (cdf p) (fst (g_unif g (Z.to_nat size) 1 w) i 0%nat)).
Proof.
  unfold np_choice. destruct (Z.ltb_spec size 0) as [|Hs]; [discriminate|].
  destruct (Nat.eqb (List.length a) 0 && negb (size =? 0)%Z); [discriminate|].
  destruct (Nat.eqb_spec (List.length p) (List.length a)) as [Hl|]; [|discriminate]. cbn [negb].
  destruct (probs_ok p); [|discriminate]. cbn [negb].
  destruct (g_unif g (Z.to_nat size) 1 w) as [u w1]. intros H. cbn [fst snd].
  assert (Ho : gather (tabulate (Z.to_nat size) (fun i => searchsorted_right (cdf p) (u i 0%nat))) a = Ok out) by congruence.
  assert (Hw : w' = w1) by congruence.
  split; [exact Hs|]. split; [exact Hl|]. split; [reflexivity|]. split; [exact Hw|]. intros i Hi.
  apply gather_ok_Forall2 in Ho.
  assert (Ht : nth_error (tabulate (Z.to_nat size) (fun i => searchsorted_right (cdf p) (u i 0%nat))) i = Some (searchsorted_right (cdf p) (u i 0%nat)))
    by (rewrite nth_error_tabulate by exact Hi; reflexivity).
  exact (taken_at _ _ _ Ho _ _ Ht).
Qed.

Lemma columns_worlds {W A} (g : rng W) size (draw : A -> W -> res (list cell) * W) t :
  (forall e w col w', draw e w = (Ok col, w') -> w' = snd (g_unif g (Z.to_nat size) 1 w)) ->
  forall w cols w', draw_columns draw t w = (Ok cols, w') ->
  forall j e, nth_error t j = Some e ->
    exists col, nth_error cols j = Some col /\ fst (draw e (world_at g size w j)) = Ok col.
Proof.
  intros Hstep. induction t as [|e0 t IH]; intros w cols w' H j e He; [destruct j; discriminate|].
  cbn [draw_columns] in H. destruct (draw e0 w) as [[col|x] w1] eqn:E; [|discriminate].
  destruct (draw_columns draw t w1) as [[cols1|x] w2] eqn:E2; [|discriminate].
  assert (Ec : cols = col :: cols1) by congruence. subst cols.
  destruct j as [|j]; cbn [nth_error] in *.
  - assert (Ee : e = e0) by congruence. subst e. exists col. split; [reflexivity|]. unfold world_at. cbn. rewrite E. reflexivity.
  - destruct (IH w1 cols1 w2 E2 j e He) as (c & Hc & Hd). exists c. split; [exact Hc|].
    replace (world_at g size w (S j)) with (world_at g size w1 j); [exact Hd|].
    rewrite world_at_S. f_equal. eapply Hstep, E.
Qed.

Lemma draw_columns_worlds {W} (g : rng W) str_of size t w cols w' :
  draw_columns (cat_draw g str_of size) t w = (Ok cols, w') ->
  forall j e, nth_error t j = Some e ->
    exists col, nth_error cols j = Some col /\ fst (cat_draw g str_of size e (world_at g size w j)) = Ok col.
Proof.
  intros H. eapply columns_worlds; [|exact H]. intros [p|] w1 col w2 E; cbn [cat_draw] in E; [|discriminate].
  apply np_choice_world in E. apply E.
Qed.

Theorem sampled_as_learned (d : arr) t t' :
  cat_learn d t = (Ok tt, t') -> List.length t = a_nc d ->
  a_rows d <> [] -> (Z.of_nat (List.length (a_rows d)) <= 2 ^ 22)%Z ->
  (forall j, (j < a_nc d)%nat -> discrete (column j (a_rows d))) ->
  forall j x, (j < a_nc d)%nat -> In x (column j (a_rows d)) ->
  exists lo hi : R,
    0 <= lo <= hi /\ hi <= 1 /\
    Rabs (hi - lo - INR (occurrences x (column j (a_rows d))) / INR (List.length (a_rows d))) <= bpow radix2 (-26) /\
    forall W (g : rng W) str_of size w a w', unif_ok g -> cat_sample g str_of t' size w = (Ok a, w') ->
    forall i, (i < Z.to_nat size)%nat ->
      (nth j (nth i (a_rows a) []) (CF fnan) = x <->
       lo <= B2R (fst (g_unif g (Z.to_nat size) 1 (world_at g size w j)) i 0%nat) < hi).
Proof.
  intros Hlearn Hl Hne Hb Hdisc j x Hj Hx.
  destruct (cat_learn_spec d t Hl Hdisc) as (t2 & Ht2 & Hlt' & Hfreq). rewrite Hlearn in Ht2. injection Ht2 as <-.
  destruct (Hfreq j Hj) as (p & Hp & Hf).
  assert (Hcne : column j (a_rows d) <> []) by (unfold column; destruct (a_rows d); [congruence|discriminate]).
  assert (Hcl : List.length (column j (a_rows d)) = List.length (a_rows d)) by apply map_length.
  destruct (freq_table_probs _ p Hf Hcne) as (Hpr & Hpl & Hple); [lia|].
  pose proof Hf as (Hnd & Hin & Hq & Hs).
  set (col := column j (a_rows d)) in *. set (nr := List.length col) in *.
  assert (Hnr : (0 < nr)%nat) by (unfold nr; destruct col; [congruence|cbn; lia]).
  assert (Hps : map snd p = map (fun k => fdiv (Z2f (Z.of_nat k)) (Z2f (Z.of_nat nr))) (map (fun xq => occurrences (fst xq) col) p)).
  { rewrite map_map. apply map_ext_in. intros [y q] Hy. cbn. apply Hq, Hy. }
  assert (Hpok : probs_ok (map snd p) = true).
  { rewrite Hps. apply freqs_ok; [exact Hnr|lia|rewrite map_length; lia|exact Hs]. }
  assert (Hlen : (Z.of_nat (List.length (map snd p)) <= 2 ^ 22)%Z) by (rewrite map_length; lia).
  pose proof (probs_ok_pos _ Hpr Hpok) as Hpos.
  assert (Hsum : Rabs (real_sum (map snd p) - 1) <= bpow radix2 (-31)).
  { rewrite Hps. apply learned_sum; [exact Hnr|lia|rewrite map_length; lia|exact Hs]. }
  assert (Hd4 : bpow radix2 (-31) <= / 4) by (change (/ 4) with (bpow radix2 (-2)); apply bpow_le; lia).
  assert (Hx' : In x (map fst p)) by (apply Hin, Hx).
  apply In_nth_error in Hx' as [k Hk].
  assert (Hkp : (k < List.length p)%nat) by (rewrite <- (map_length fst p); apply nth_error_Some; congruence).
  assert (Hkn : (k < List.length (map snd p))%nat) by (rewrite map_length; exact Hkp).
  exists (lower_end (map snd p) k), (upper_end (map snd p) k).
  destruct (ends_ok (map snd p) Hlen Hpr Hpos k Hkn) as [He1 He2].
  split; [exact He1|]. split; [exact He2|]. split.
  - pose proof (interval_width (map snd p) (bpow radix2 (-31)) Hlen Hpr Hpos Hsum Hd4 k Hkn) as Hw.
    assert (Hv : Rabs (B2R (nth k (map snd p) fnan) - INR (occurrences x col) / INR nr) <= bpow radix2 (-53)).
    { assert (Ek : exists q, nth_error p k = Some (x, q)).
      { rewrite nth_error_map in Hk. destruct (nth_error p k) as [[y q]|]; [|discriminate]. cbn in Hk. exists q. congruence. }
      destruct Ek as [q Ek].
      assert (Eq : nth k (map snd p) fnan = q) by (apply nth_error_nth; rewrite nth_error_map, Ek; reflexivity).
      rewrite Eq, (Hq x q (nth_error_In _ _ Ek)). apply freq_near; [exact Hnr| |lia].
      unfold occurrences, nr. clear. induction col as [|c l IH]; cbn; [lia|]. destruct (cell_eqb c x); cbn; lia. }
    rewrite <- Hcl. fold nr.
    assert (E26 : bpow radix2 (-26) = 8 * bpow radix2 (-29)) by (change (-26)%Z with (3 + -29)%Z; rewrite bpow_plus; reflexivity).
    assert (E30 : bpow radix2 (-29) = 4 * bpow radix2 (-31)) by (change (-29)%Z with (2 + -31)%Z; rewrite bpow_plus; reflexivity).
    assert (E53 : bpow radix2 (-53) <= bpow radix2 (-31)) by (apply bpow_le; lia).
    pose proof (bpow_gt_0 radix2 (-31)). abs_lra.
  - intros W g str_of size w a w' Hg Hsmp i Hi.
    unfold cat_sample in Hsmp. destruct (draw_columns (cat_draw g str_of size) t' w) as [[cols|e] w1] eqn:E; [|discriminate].
    assert (Ea : a = frame (Z.to_nat size) cols) by congruence. subst a.
    destruct (draw_columns_worlds g str_of size t' w cols w1 E j (Some p) Hp) as (c & Hc & Hdraw).
    cbn [cat_draw] in Hdraw.
    assert (Hdp : discrete (map fst p)) by (eapply discrete_incl; [apply (Hdisc j Hj)|]; intros y Hy; apply Hin, Hy).
    rewrite (homogenise_discrete str_of _ Hdp) in Hdraw.
    destruct (np_choice g (map fst p) size (map snd p) (world_at g size w j)) as [r w2] eqn:Ech. cbn [fst] in Hdraw. subst r.
    destruct (np_choice_world _ _ _ _ _ _ _ Ech) as (_ & _ & _ & _ & Hout). specialize (Hout i Hi).
    destruct (Hg (Z.to_nat size) 1%nat (world_at g size w j) i 0%nat) as [U0 U1].
    set (u := fst (g_unif g (Z.to_nat size) 1 (world_at g size w j)) i 0%nat) in *.
    destruct (choice_pos (map snd p) Hpl Hpr Hpos u U0 U1) as [Hqk _]. rewrite map_length in Hqk.
    assert (Hcell : nth j (nth i (a_rows (frame (Z.to_nat size) cols)) []) (CF fnan) = nth i c (CF fnan)).
    { rewrite frame_wide by (intros ->; destruct j; discriminate Hc). cbn [a_rows]. rewrite nth_tabulate by exact Hi.
      rewrite (nth_indep _ (CF fnan) (cast_cell (frame_dtype cols) (nth i [] (CF fnan)))) by (rewrite map_length; apply nth_error_Some; congruence).
      rewrite (map_nth (fun col0 => cast_cell (frame_dtype cols) (nth i col0 (CF fnan))) cols []).
      rewrite (nth_error_nth _ _ [] Hc). apply cast_id.
      assert (F2 : Forall (Forall not_float) cols).
      { apply Forall_forall. intros col0 Hc0. apply In_nth_error in Hc0 as [j' Hj'].
        assert (Hl2 : List.length cols = List.length t') by (apply draw_columns_ok in E; clear - E; induction E; cbn; congruence).
        assert (Hj'n : (j' < a_nc d)%nat) by (rewrite <- Hlt', <- Hl2; apply nth_error_Some; congruence).
        destruct (Hfreq j' Hj'n) as (p' & Hp' & Hf').
        destruct (draw_columns_worlds g str_of size t' w cols w1 E j' (Some p') Hp') as (c' & Hc' & Hdraw').
        assert (Ec : c' = col0) by congruence. subst c'. cbn [cat_draw] in Hdraw'.
        assert (Hcne' : column j' (a_rows d) <> []) by (unfold column; destruct (a_rows d); [congruence|discriminate]).
        assert (Hcl' : List.length (column j' (a_rows d)) = List.length (a_rows d)) by apply map_length.
        destruct (freq_table_probs _ p' Hf' Hcne') as (Hpr' & Hpl' & _); [lia|].
        pose proof Hf' as (_ & Hin' & _ & _).
        assert (Hdp' : discrete (map fst p')) by (eapply discrete_incl; [apply (Hdisc j' Hj'n)|]; intros y Hy; apply Hin', Hy).
        destruct (np_choice g (homogenise str_of (map fst p')) size (map snd p') (world_at g size w j')) as [r' w2'] eqn:Ech'. cbn [fst] in Hdraw'. subst r'.
        apply (choice_column g str_of _ size _ _ _ _ Hg Hpr' Hpl' Hdp' Ech'). }
      apply frame_no_floats, F2. }
    rewrite Hcell.
    destruct (nth_error (map fst p) (searchsorted_right (cdf (map snd p)) u)) as [y|] eqn:Ey;
      [|exfalso; apply nth_error_None in Ey; rewrite map_length in Ey; lia].
    rewrite (nth_error_nth _ _ (CF fnan) Hout).
    rewrite <- (selected_iff (map snd p) Hlen Hpr Hpos u k U0 U1 Hkn).
    split.
    + intros Exy. subst y. rewrite NoDup_nth_error in Hnd. apply Hnd; [rewrite map_length; exact Hqk|]. congruence.
    + intros Ek. rewrite Ek in Ey. congruence.
Qed.
