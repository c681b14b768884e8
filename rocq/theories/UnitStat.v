(** Means and deviations of numbers multiplied by a power of two. *)
From Coq Require Import List ZArith Bool Lia Reals Lra Permutation.
From Flocq Require Import Core IEEE754.BinarySingleNaN.
From Verif Require Import PyBase B64 B64More NdArray InitGauss Rand Models Scale UnitFloat.
Import ListNotations.
Open Scope R_scope.

(** Zero, or of magnitude between [2^-100] and [2^100]. *)
Definition moderate (x : f64) : bool := feq x (Z2f 0) || (fle (lit 1 (-100)) (fabs x) && fle (fabs x) (lit 1 100)).

(** The two columns of numbers are added up in the same order. *)
Inductive same_order : list (f64 * f64) -> f64 -> f64 -> Prop :=
| so_none z : B2R z = 0 -> isfin z = true -> same_order [] z z
| so_one x y : same_order [(x, y)] x y
| so_plus l l1 l2 a b a' b' : Permutation l (l1 ++ l2) -> same_order l1 a a' -> same_order l2 b b' -> same_order l (fadd a b) (fadd a' b').
(** The order in which numbers are added up depends on how many there are, not on their values. *)
Definition fixed_order (s : list f64 -> f64) : Prop := forall l, same_order l (s (map fst l)) (s (map snd l)).

Lemma seq_fixed : fixed_order seq_sum.
Proof.
  intros l. unfold seq_sum. assert (G : forall l l0 a a', same_order l0 a a' -> same_order (l0 ++ l) (fold_left fadd (map fst l) a) (fold_left fadd (map snd l) a')).
  { clear. induction l as [|[x y] l IH]; intros l0 a a' H; cbn [map fold_left fst snd]; [rewrite app_nil_r; exact H|].
    change (l0 ++ (x, y) :: l) with (l0 ++ ([(x, y)] ++ l)). rewrite app_assoc. apply IH.
    eapply so_plus; [apply Permutation_refl|exact H|constructor]. }
  apply (G l []). apply so_none; [apply Z2f_0_R|apply Z2f_0_fin].
Qed.

Lemma pos_signed (a : f64) : isfin a = true -> 0 <= B2R a -> signed_ok a.
Proof.
  intros F P. split; [exact P|]. destruct a as [s|s| |s m b Hb]; try discriminate; [left; reflexivity|]. destruct s; [|right; reflexivity]. exfalso.
  cbn in P. unfold F2R in P. cbn [Fnum Fexp cond_Zopp] in P. pose proof (bpow_gt_0 radix2 b).
  assert (IZR (Z.neg m) < 0) by (apply IZR_lt; lia). assert (0 < - IZR (Z.neg m) * bpow radix2 b) by (apply Rmult_lt_0_compat; lra). lra.
Qed.
Lemma pow_bounds (x : f64) : fle (lit 1 (-100)) x = true -> fle x (lit 1 100) = true ->
  isfin x = true /\ bpow radix2 (-100) <= B2R x <= bpow radix2 100.
Proof.
  destruct (pow_lit 100 ltac:(lia)) as [P1 F1]. destruct (pow_lit (-100) ltac:(lia)) as [P2 F2]. intros H1 H2.
  assert (F : isfin x = true).
  { assert (N : isnan x = false) by (apply (fle_not_nan _ _ H1)). destruct x as [s|[]| |s m b Hb]; try reflexivity; try discriminate N; exfalso.
    - apply fle_ext in H1; [|apply isfin_not_nan, F2|reflexivity]. rewrite (ext_finite _ F2), P2 in H1. cbn [ext] in H1.
      pose proof (bpow_gt_0 radix2 (-100)). pose proof big_pos. lra.
    - apply fle_ext in H2; [|reflexivity|apply isfin_not_nan, F1]. rewrite (ext_finite _ F1), P1 in H2. cbn [ext] in H2.
      assert (bpow radix2 100 < big) by (unfold big; apply bpow_lt; lia). lra. }
  split; [exact F|]. apply fle_fin in H1; [|exact F2|exact F]. apply fle_fin in H2; [|exact F|exact F1]. rewrite <- P1, <- P2. split; assumption.
Qed.
Lemma moderate_grid x : moderate x = true -> grid 153 100 x.
Proof.
  intros H. unfold moderate in H. apply orb_true_iff in H. destruct H as [H|H].
  - assert (F : isfin x = true) by (destruct x as [s|[]| |s m b Hb]; try reflexivity; discriminate H).
    apply feq_fin in H; [|exact F|apply Z2f_0_fin]. rewrite Z2f_0_R in H. apply grid_zero; assumption.
  - apply andb_true_iff in H. destruct H as [H1 H2]. destruct (pow_bounds _ H1 H2) as [F [B1 B2]].
    assert (Fx : isfin x = true) by (unfold fabs, isfin in F; rewrite is_finite_Babs in F; exact F).
    destruct (fabs_R x Fx) as [_ Ef]. rewrite Ef in B1, B2. split; [exact Fx|]. split; [apply (float_multiple x 100); [exact B1|lia]|exact B2].
Qed.
Lemma moderate_wide x : moderate x = true -> grid 203 150 x.
Proof. intros H. apply (grid_up 153 100); [lia|lia|apply moderate_grid, H]. Qed.

(* ---------------- sums ---------------- *)
Lemma rnd_count x (n u : Z) : (0 <= n <= 2 ^ 50)%Z -> (-1000 <= u)%Z -> Rabs x <= IZR n * bpow radix2 u -> Rabs (rnd x) <= IZR n * bpow radix2 u.
Proof.
  intros Hn Hu H. unfold rnd. apply abs_round_le_generic; [apply FLT_exp_valid; exact eq_refl|apply valid_rnd_N| |exact H].
  change (IZR n * bpow radix2 u) with (F2R (Float radix2 n u)). apply (generic_format_FLT radix2 (3 - 1024 - 53) 53).
  exists (Float radix2 n u); [reflexivity| |cbn [Fexp]; lia]. cbn [Fnum]. change (Zpower radix2 53) with (2 ^ 53)%Z. lia.
Qed.

Section Sum.
Variables (e k u : Z).
Hypothesis He : (-100 <= e <= 100)%Z.
Hypothesis Hk : (k <= 880)%Z.
Hypothesis Hu : (-600 <= u <= 600)%Z.
Lemma count_grid (n : Z) x : (0 <= n <= 2 ^ 40)%Z -> isfin x = true -> multiple k (B2R x) -> Rabs (B2R x) <= IZR n * bpow radix2 u -> grid k (u + 40) x.
Proof.
  intros Hn F M B. split; [exact F|]. split; [exact M|]. eapply Rle_trans; [exact B|]. rewrite bpow_plus, Rmult_comm.
  apply Rmult_le_compat_l; [apply bpow_ge_0|]. change (bpow radix2 40) with (IZR (2 ^ 40)). apply IZR_le. lia.
Qed.
Lemma order_scaled l a a' : same_order l a a' -> Forall (fun p => grid k u (fst p) /\ snd p = scaled e (fst p)) l ->
  (Z.of_nat (List.length l) <= 2 ^ 40)%Z ->
  isfin a = true /\ multiple k (B2R a) /\ Rabs (B2R a) <= IZR (Z.of_nat (List.length l)) * bpow radix2 u /\ a' = scaled e a.
Proof.
  induction 1 as [z Z F|x y|l l1 l2 a b a' b' P H1 IH1 H2 IH2]; intros HF HL.
  - rewrite Z, Rabs_R0. split; [exact F|]. split; [apply multiple_0|]. split; [cbn; lra|]. symmetry. apply scaled_zero; assumption.
  - inversion HF as [|? ? [(F & M & B) E] _]; subst. cbn [fst snd] in *. split; [exact F|]. split; [exact M|]. split; [cbn; lra|exact E].
  - apply (Permutation_Forall P) in HF. apply Forall_app in HF. destruct HF as [HF1 HF2].
    apply Permutation_length in P. rewrite app_length in P.
    destruct IH1 as (F1 & M1 & B1 & E1); [exact HF1|lia|]. destruct IH2 as (F2 & M2 & B2 & E2); [exact HF2|lia|].
    assert (G1 : grid k (u + 40) a) by (apply (count_grid (Z.of_nat (List.length l1))); try assumption; lia).
    assert (G2 : grid k (u + 40) b) by (apply (count_grid (Z.of_nat (List.length l2))); try assumption; lia).
    destruct (rnd_small (B2R a + B2R b) (u + 40 + 1) ltac:(lia) (sum_small _ _ _ (proj2 (proj2 G1)) (proj2 (proj2 G2)))) as [_ B].
    destruct (add_all a b F1 F2 B) as (F & E & _). split; [exact F|]. rewrite E.
    split; [apply multiple_rnd; [lia|apply multiple_plus; assumption]|].
    split.
    + rewrite P, Nat2Z.inj_add. apply rnd_count; [lia|lia|]. rewrite plus_IZR, Rmult_plus_distr_r.
      eapply Rle_trans; [apply Rabs_triang|]. apply Rplus_le_compat; assumption.
    + subst a' b'. apply (scaled_add e He k (u + 40)); try assumption; lia.
Qed.
Lemma order_pos l a a' : same_order l a a' -> Forall (fun p => grid k u (fst p) /\ snd p = scaled e (fst p)) l ->
  (Z.of_nat (List.length l) <= 2 ^ 40)%Z -> Forall (fun p => 0 <= B2R (fst p)) l -> 0 <= B2R a.
Proof.
  induction 1 as [z Z F|x y|l l1 l2 a b a' b' P H1 IH1 H2 IH2]; intros HF HL HP.
  - lra.
  - inversion HP; subst. assumption.
  - apply (Permutation_Forall P) in HF. apply Forall_app in HF. destruct HF as [HF1 HF2].
    apply (Permutation_Forall P) in HP. apply Forall_app in HP. destruct HP as [HP1 HP2].
    apply Permutation_length in P. rewrite app_length in P.
    destruct (order_scaled _ _ _ H1 HF1) as (F1 & M1 & B1 & E1); [lia|]. destruct (order_scaled _ _ _ H2 HF2) as (F2 & M2 & B2 & E2); [lia|].
    assert (G1 : grid k (u + 40) a) by (apply (count_grid (Z.of_nat (List.length l1))); try assumption; lia).
    assert (G2 : grid k (u + 40) b) by (apply (count_grid (Z.of_nat (List.length l2))); try assumption; lia).
    destruct (rnd_small (B2R a + B2R b) (u + 40 + 1) ltac:(lia) (sum_small _ _ _ (proj2 (proj2 G1)) (proj2 (proj2 G2)))) as [_ B].
    destruct (add_all a b F1 F2 B) as (F & E & _). rewrite E. rewrite <- rnd_0. apply rnd_le.
    assert (0 <= B2R a) by (apply IH1; [exact HF1|lia|exact HP1]). assert (0 <= B2R b) by (apply IH2; [exact HF2|lia|exact HP2]). lra.
Qed.
End Sum.

Section Stats.
Variable s : list f64 -> f64.
Hypothesis Hs : fixed_order s.
Local Notation o := (b64_ops s).

Lemma map_pairs {A B} (f : A -> B) l : map fst (map (fun x => (x, f x)) l) = l /\ map snd (map (fun x => (x, f x)) l) = map f l.
Proof. induction l as [|x l [I1 I2]]; cbn; [split; reflexivity|]. rewrite I1, I2. split; reflexivity. Qed.
Lemma sum_scaled e k u l : (-100 <= e <= 100)%Z -> (k <= 880)%Z -> (-600 <= u <= 600)%Z -> (Z.of_nat (List.length l) <= 2 ^ 40)%Z ->
  Forall (grid k u) l -> grid k (u + 40) (s l) /\ s (map (scaled e) l) = scaled e (s l) /\ (Forall (fun x : f64 => 0 <= B2R x) l -> 0 <= B2R (s l)).
Proof.
  intros He Hk Hu HL HG. pose proof (Hs (map (fun x => (x, scaled e x)) l)) as H.
  destruct (map_pairs (scaled e) l) as [E1 E2]. rewrite E1, E2 in H.
  assert (HF : Forall (fun p => grid k u (fst p) /\ snd p = scaled e (fst p)) (map (fun x => (x, scaled e x)) l)).
  { apply Forall_map. eapply Forall_impl; [|exact HG]. intros x Gx. split; [exact Gx|reflexivity]. }
  assert (HL' : (Z.of_nat (List.length (map (fun x => (x, scaled e x)) l)) <= 2 ^ 40)%Z) by (rewrite map_length; exact HL).
  destruct (order_scaled e k u He Hk Hu _ _ _ H HF HL') as (F & M & B & E). split; [|split; [exact E|]].
  - eapply (count_grid k u); [|exact F|exact M|exact B]. lia.
  - intros HP. apply (order_pos e k u He Hk Hu _ _ _ H HF HL'). apply Forall_map. exact HP.
Qed.
Lemma few_len {T} (l : list T) : l <> [] -> (Z.of_nat (List.length l) <= 2 ^ 40)%Z -> few (Z2f (Z.of_nat (List.length l))).
Proof.
  intros H0 HL. destruct (Z2f_exact (Z.of_nat (List.length l))) as [E F].
  { change (2 ^ 53)%Z with (8192 * 2 ^ 40)%Z. lia. }
  split; [exact F|]. rewrite E. change (bpow radix2 40) with (IZR (2 ^ 40)). split; apply IZR_le; [|exact HL].
  destruct l; [contradiction|]. cbn [List.length]. lia.
Qed.

Variable e : Z.
Hypothesis He : (-50 <= e <= 50)%Z.
Variable l : list f64.
Hypothesis H0 : l <> [].
Hypothesis HL : (Z.of_nat (List.length l) <= 2 ^ 40)%Z.
Hypothesis HG : Forall (grid 203 150) l.

Lemma mean_scaled : grid 296 190 (mean o l) /\ mean o (map (scaled e) l) = scaled e (mean o l).
Proof.
  destruct (sum_scaled e 203 150 l ltac:(lia) ltac:(lia) ltac:(lia) HL HG) as (G & E & _).
  unfold mean, len_T. cbn [b64_ops o_div o_sum o_ofZ]. rewrite map_length, E. pose proof (few_len l H0 HL) as Hf. split.
  - apply (grid_div 203 190 (s l)); [lia|lia|exact G|exact Hf].
  - apply (scaled_div e ltac:(lia) 203 190); [lia|lia|exact G|exact Hf].
Qed.
Lemma dev_scaled x : In x l -> grid 296 191 (fsub x (mean o l)) /\ fsub (scaled e x) (scaled e (mean o l)) = scaled e (fsub x (mean o l)).
Proof.
  intros Hx. destruct mean_scaled as [G _]. rewrite Forall_forall in HG.
  assert (Gx : grid 296 190 x) by (apply (grid_up 203 150); [lia|lia|apply HG, Hx]). split.
  - apply (grid_sub 296 190); [lia|lia|exact Gx|exact G].
  - apply (scaled_sub e ltac:(lia) 296 190); [lia|lia|exact Gx|exact G].
Qed.
Lemma combine_self {A} (x : list A) : combine x x = map (fun v => (v, v)) x.
Proof. induction x as [|a x IH]; cbn; [reflexivity|rewrite IH; reflexivity]. Qed.
Lemma std_scaled : grid 396 211 (std o l) /\ std o (map (scaled e) l) = scaled e (std o l).
Proof.
  destruct mean_scaled as [G E]. unfold std, dot, centred, len_T. rewrite !combine_self. rewrite !map_map, E. cbn [b64_ops o_sub o_mul o_div o_sum o_ofZ o_sqrt fst snd].
  rewrite map_length. set (q := map (fun x => fmul (fsub x (mean o l)) (fsub x (mean o l))) l).
  assert (Eq : map (fun x => fmul (fsub (scaled e x) (scaled e (mean o l))) (fsub (scaled e x) (scaled e (mean o l)))) l = map (scaled (e + e)) q).
  { unfold q. rewrite map_map. apply map_ext_in. intros x Hx. destruct (dev_scaled x Hx) as [Gd ->].
    apply (scaled_mul e He 296 191 296 191); try lia; exact Gd. }
  assert (Gq : Forall (grid 592 382) q).
  { apply Forall_map, Forall_forall. intros x Hx. destruct (dev_scaled x Hx) as [Gd _]. apply (grid_mul 296 191 296 191); [lia|lia|exact Gd|exact Gd]. }
  assert (Pq : Forall (fun x : f64 => 0 <= B2R x) q).
  { apply Forall_map, Forall_forall. intros x Hx. destruct (dev_scaled x Hx) as [(F & M & B) _].
    destruct (rnd_small _ (191 + 191) ltac:(lia) (prod_small _ _ _ _ B B)) as [_ B'].
    destruct (mul_all _ _ F F B') as (_ & -> & _). rewrite <- rnd_0. apply rnd_le. apply Rle_0_sqr. }
  assert (Lq : (Z.of_nat (List.length q) <= 2 ^ 40)%Z) by (unfold q; rewrite map_length; exact HL).
  destruct (sum_scaled (e + e) 592 382 q ltac:(lia) ltac:(lia) ltac:(lia) Lq Gq) as (Gs & Es & Ps). specialize (Ps Pq).
  pose proof (few_len l H0 HL) as Hf. pose proof Hf as (Ff & F1 & F2). change (382 + 40)%Z with 422%Z in Gs.
  assert (Gd : grid 685 422 (fdiv (s q) (Z2f (Z.of_nat (List.length l))))) by (apply (grid_div 592 422); [lia|lia|exact Gs|exact Hf]).
  assert (Sd : signed_ok (fdiv (s q) (Z2f (Z.of_nat (List.length l))))).
  { apply pos_signed; [apply Gd|].
    destruct (rnd_small _ 422 ltac:(lia) (quot_small _ _ _ (proj2 (proj2 Gs)) Hf)) as [_ B'].
    destruct (div_all (s q) (Z2f (Z.of_nat (List.length l))) (proj1 Gs) ltac:(lra) B') as (_ & -> & _). rewrite <- rnd_0. apply rnd_le.
    apply Rmult_le_pos; [exact Ps|]. left. apply Rinv_0_lt_compat. lra. }
  assert (Gd' : grid (343 + 343) (211 + 211) (fdiv (s q) (Z2f (Z.of_nat (List.length l))))) by (apply (grid_up 685 422); [lia|lia|exact Gd]).
  split.
  - apply (grid_sqrt 343 211); [lia|lia|exact Gd'|exact Sd].
  - rewrite Eq, Es. rewrite (scaled_div (e + e) ltac:(lia) 592 422) by (try lia; assumption).
    apply (scaled_sqrt e He 343 211); [lia|lia|exact Gd'|exact Sd].
Qed.

(** A mean or a deviation. *)
Definition mid : f64 -> Prop := grid 450 300.
Lemma raise_scaled lo v : grid 203 150 lo -> grid 396 211 v -> mid (raise_to o lo v) /\ raise_to o (scaled e lo) (scaled e v) = scaled e (raise_to o lo v).
Proof.
  intros Gl Gv. unfold raise_to. cbn [b64_ops o_ltb].
  assert (Gl' : mid lo) by (apply (grid_up 203 150); [lia|lia|exact Gl]). assert (Gv' : mid v) by (apply (grid_up 396 211); [lia|lia|exact Gv]).
  rewrite (grid_flt e ltac:(lia) 450 300) by (try lia; assumption). destruct (flt v lo); split; auto.
Qed.
(** The moved mean of PBIL. *)
Lemma moved_scaled al b1 b2 b3 : grid 153 100 al -> grid 203 150 b1 -> grid 203 150 b2 -> grid 203 150 b3 ->
  mid (fadd (fmul (fsub (Z2f 1) al) (mean o l)) (fmul al (fsub (fadd b1 b2) b3))) /\
  fadd (fmul (fsub (Z2f 1) al) (mean o (map (scaled e) l))) (fmul al (fsub (fadd (scaled e b1) (scaled e b2)) (scaled e b3))) =
  scaled e (fadd (fmul (fsub (Z2f 1) al) (mean o l)) (fmul al (fsub (fadd b1 b2) b3))).
Proof.
  intros Ga G1 G2 G3. destruct mean_scaled as [Gm Em].
  assert (Go : grid 153 100 (Z2f 1)).
  { destruct (Z2f_exact 1) as [E F]; [cbn; lia|]. split; [exact F|]. rewrite E. split; [|rewrite Rabs_R1; change 1 with (bpow radix2 0); apply bpow_le; lia].
    apply (multiple_up 0); [lia|]. exists 1%Z. cbn. ring. }
  assert (Gc : grid 153 101 (fsub (Z2f 1) al)) by (apply (grid_sub 153 100); [lia|lia|exact Go|exact Ga]).
  assert (Ga2 : grid 203 151 (fadd b1 b2)) by (apply (grid_add 203 150); [lia|lia|assumption|assumption]).
  assert (G3' : grid 203 151 b3) by (apply (grid_up 203 150); [lia|lia|exact G3]).
  assert (Gs : grid 203 152 (fsub (fadd b1 b2) b3)) by (apply (grid_sub 203 151); [lia|lia|assumption|assumption]).
  assert (Gl : grid 449 291 (fmul (fsub (Z2f 1) al) (mean o l))) by (apply (grid_mul 153 101 296 190); [lia|lia|assumption|assumption]).
  assert (Gr : grid 449 291 (fmul al (fsub (fadd b1 b2) b3))).
  { apply (grid_up (153 + 203) (100 + 152)); [lia|lia|]. apply grid_mul; [lia|lia|assumption|assumption]. }
  split; [apply (grid_up 449 (291 + 1)); [lia|lia|apply grid_add; [lia|lia|assumption|assumption]]|].
  rewrite Em, (scaled_add e ltac:(lia) 203 150), (scaled_sub e ltac:(lia) 203 151) by (try lia; assumption).
  rewrite (scaled_mul_r e ltac:(lia) 296 190 153 101), (scaled_mul_r e ltac:(lia) 203 152 153 100) by (try lia; assumption).
  apply (scaled_add e ltac:(lia) 449 291); [lia|lia|assumption|assumption].
Qed.
End Stats.

Section Draws.
Variable e : Z.
Hypothesis He : (-50 <= e <= 50)%Z.
(** A drawn normal number. *)
Lemma normal_scaled m d z : mid m -> mid d -> grid 153 100 z -> fadd (scaled e m) (fmul (scaled e d) z) = scaled e (fadd m (fmul d z)).
Proof.
  intros Gm Gd Gz. assert (Gp : grid 603 400 (fmul d z)) by (apply (grid_mul 450 300 153 100); [lia|lia|assumption|assumption]).
  rewrite (scaled_mul_l e ltac:(lia) 450 300 153 100) by (try lia; assumption).
  apply (scaled_add e ltac:(lia) 603 400); [lia|lia| |exact Gp]. apply (grid_up 450 300); [lia|lia|exact Gm].
Qed.
(** A drawn uniform number. *)
Lemma uniform_scaled lo hi z : grid 203 150 lo -> grid 203 150 hi -> grid 153 100 z ->
  fadd (scaled e lo) (fmul (fsub (scaled e hi) (scaled e lo)) z) = scaled e (fadd lo (fmul (fsub hi lo) z)) /\
  isfin (fsub hi lo) = true /\ isfin (fsub (scaled e hi) (scaled e lo)) = true.
Proof.
  intros Gl Gh Gz. assert (Gd : grid 203 151 (fsub hi lo)) by (apply (grid_sub 203 150); [lia|lia|assumption|assumption]).
  assert (Gp : grid 356 251 (fmul (fsub hi lo) z)) by (apply (grid_mul 203 151 153 100); [lia|lia|assumption|assumption]).
  rewrite (scaled_sub e ltac:(lia) 203 150) by (try lia; assumption). split; [|split].
  - rewrite (scaled_mul_l e ltac:(lia) 203 151 153 100) by (try lia; assumption).
    apply (scaled_add e ltac:(lia) 356 251); [lia|lia| |exact Gp]. apply (grid_up 203 150); [lia|lia|exact Gl].
  - apply Gd.
  - apply (scaled_all e 203 151 _ ltac:(lia) ltac:(lia) ltac:(lia) Gd).
Qed.
End Draws.
