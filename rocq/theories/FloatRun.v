(** Solutions of UMDAc and PBIL stay finite for a number of generations. *)
From Coq Require Import String List ZArith Bool Lia Reals Lra Permutation.
From Flocq Require Import Core IEEE754.BinarySingleNaN.
From Verif Require Import PyBase B64 B64More NdArray Eda EdaInv Spec LoopObs LoopThms Select LoopTrain LoopDrawn LoopNoise Rand RandThms
  Models ModelThms Sign CatThms Trunc Inits Stock StockInv StockGauss StockAll StockPrior StockFinal DrawnStock FloatSum FloatMean.
Import ListNotations.
Open Scope R_scope.

(** Finite and of magnitude at most [B]. *)
Definition tame (B : R) (v : f64) : Prop := isfin v = true /\ Rabs (B2R v) <= B.

Lemma tame_le B B' v : tame B v -> B <= B' -> tame B' v.
Proof. intros [F H] HB. split; [exact F|lra]. Qed.

(** Large enough for the absolute rounding errors to be negligible. *)
Definition tall : R := bpow radix2 (-500).

Lemma tall_pos : 0 < tall. Proof. apply bpow_gt_0. Qed.
Lemma eta_tall : eta <= / 4096 * tall.
Proof.
  unfold eta, tall. change (/ 4096) with (/ IZR (2 ^ 12)).
  replace (/ IZR (2 ^ 12)) with (bpow radix2 (-12)) by (cbn; lra). rewrite <- bpow_plus. apply bpow_le. lia.
Qed.
Lemma tiny_tall : tiny <= / 4096 * tall.
Proof.
  unfold tiny, tall. replace (/ 4096) with (bpow radix2 (-12)) by (cbn; lra). rewrite <- bpow_plus. apply bpow_le. lia.
Qed.
Lemma far_huge : far * far * 16 <= huge.
Proof.
  unfold far, huge. change 16 with (bpow radix2 4). rewrite <- !bpow_plus. apply bpow_le. lia.
Qed.
Lemma far_1 : 1024 <= far.
Proof. unfold far. change 1024 with (bpow radix2 10). apply bpow_le. lia. Qed.
Lemma u_4096 : u <= / 4096.
Proof. unfold u. replace (/ 4096) with (bpow radix2 (-12)) by (cbn; lra). apply bpow_le. lia. Qed.

Lemma add_tame a b A B : tame A a -> tame B b -> tall <= A + B -> A + B <= huge -> tame ((1 + / 2048) * (A + B)) (fadd a b).
Proof.
  intros [Fa Ha] [Fb Hb] Ht Hh. assert (Hs : Rabs (B2R a + B2R b) <= A + B) by (eapply Rle_trans; [apply Rabs_triang|lra]).
  destruct (add_near a b (B2R a) (B2R b) 0 0 (A + B) Fa Fb) as [F E]; try (rewrite Rminus_eq_0, Rabs_R0; lra); try lra.
  split; [exact F|]. replace (B2R (fadd a b)) with ((B2R a + B2R b) + (B2R (fadd a b) - (B2R a + B2R b))) by ring.
  eapply Rle_trans; [apply Rabs_triang|]. pose proof u_4096. pose proof tall_pos.
  assert (u * (A + B) <= / 4096 * (A + B)) by (apply Rmult_le_compat_r; lra). lra.
Qed.

Lemma mul_tame a b A B T : tame A a -> tame B b -> A * B <= T -> tall <= T -> T <= huge -> tame ((1 + / 2048) * T) (fmul a b).
Proof.
  intros [Fa Ha] [Fb Hb] HT Ht Hh.
  assert (Hm : Rabs (B2R a) * Rabs (B2R b) <= T).
  { eapply Rle_trans; [|exact HT]. apply Rmult_le_compat; try apply Rabs_pos; assumption. }
  destruct (mul_near a b (B2R a) (B2R b) 0 0 T Fa Fb) as [F E]; try (rewrite Rminus_eq_0, Rabs_R0; lra); [rewrite !Rplus_0_r; exact Hm|exact Hh|].
  split; [exact F|]. replace (B2R (fmul a b)) with ((B2R a * B2R b) + (B2R (fmul a b) - (B2R a * B2R b))) by ring.
  eapply Rle_trans; [apply Rabs_triang|]. rewrite Rabs_mult. pose proof u_4096. pose proof tall_pos. pose proof eta_tall.
  assert (u * T <= / 4096 * T) by (apply Rmult_le_compat_r; lra). lra.
Qed.

Section Cells.
Variable s : list f64 -> f64.
Hypothesis Hs : adds s.

Lemma few_slack n B : few n -> 0 <= B -> (6 * INR n + 7) * u * B <= / 512 * B.
Proof.
  intros Hf HB. pose proof (few_u n Hf). pose proof u_le. apply Rmult_le_compat_r; [exact HB|].
  replace ((6 * INR n + 7) * u) with (6 * (INR n * u) + 7 * u) by ring. lra.
Qed.

Lemma mean_tame (x : list f64) B : x <> [] -> few (List.length x) -> within B x -> tall <= B -> B <= far ->
  tame ((1 + / 1024) * B) (mean (b64_ops s) x).
Proof.
  intros Hx Hf Hw Ht HB. pose proof tall_pos. pose proof eta_tall.
  destruct (mean_err s x B Hs Hx Hf Hw) as [F E]; [eapply Rle_trans; [exact HB|unfold far; apply bpow_le; lia]|].
  split; [exact F|]. pose proof (avg_within x B Hx Hw).
  replace (B2R (mean (b64_ops s) x)) with (avg (map B2R x) + (B2R (mean (b64_ops s) x) - avg (map B2R x))) by ring.
  eapply Rle_trans; [apply Rabs_triang|]. pose proof (few_u _ Hf).
  assert (2 * INR (List.length x) * u * B <= / 4096 * B).
  { apply Rmult_le_compat_r; [lra|]. replace (2 * INR (List.length x) * u) with (2 * (INR (List.length x) * u)) by ring. lra. }
  lra.
Qed.

Lemma std_tame (x : list f64) lf B : x <> [] -> few (List.length x) -> within B x -> tame B lf -> tall <= B -> B <= far ->
  tame ((1 + / 256) * B) (raise_to (b64_ops s) lf (std (b64_ops s) x)).
Proof.
  intros Hx Hf Hw [Fl Hl] Ht HB. pose proof tall_pos. pose proof tiny_tall.
  destruct (raised_std s lf x B Hs Fl Hx Hf Hw HB) as [F E]. split; [exact F|].
  set (v := raise_to (b64_ops s) lf (std (b64_ops s) x)) in *. set (m := Rmax (B2R lf) (sqrt (pop_var (map B2R x)))) in *.
  assert (Hm : Rabs m <= B).
  { unfold m. pose proof (var_within x B Hx Hw) as V. assert (S1 : sqrt (pop_var (map B2R x)) <= B).
    { rewrite <- (sqrt_square B) by lra. apply sqrt_le_1_alt, V. }
    pose proof (sqrt_pos (pop_var (map B2R x))). apply Rabs_le_inv in Hl. apply Rabs_le. unfold Rmax. destruct (Rle_dec _ _); lra. }
  replace (B2R v) with (m + (B2R v - m)) by ring. eapply Rle_trans; [apply Rabs_triang|].
  pose proof (few_slack _ B Hf ltac:(lra)). lra.
Qed.

(** A draw from the learned normal. *)
Lemma draw_tame m q z B K Zb : tame (K * B) m -> tame ((1 + / 256) * B) q -> tame Zb z ->
  1 <= K <= 4 -> 1 <= Zb -> tall <= B -> B * (1 + Zb) <= far -> tame ((1 + / 128) * ((K + Zb) * B)) (fadd m (fmul q z)).
Proof.
  intros Hm Hq Hz HK HZ Ht HB. pose proof tall_pos. pose proof far_huge. pose proof far_1.
  assert (HBp : 0 < B) by lra.
  assert (Hff : far * 1024 <= far * far) by (apply Rmult_le_compat_l; lra).
  assert (HBZ : B <= B * Zb) by (rewrite <- (Rmult_1_r B) at 1; apply Rmult_le_compat_l; lra).
  assert (Hqz : tame ((1 + / 2048) * ((1 + / 256) * B * Zb)) (fmul q z)) by (apply (mul_tame q z ((1 + / 256) * B) Zb); [exact Hq|exact Hz|lra|lra|lra]).
  assert (HKB : B <= K * B) by (rewrite <- (Rmult_1_l B) at 1; apply Rmult_le_compat_r; lra).
  assert (HKB4 : K * B <= 4 * B) by (apply Rmult_le_compat_r; lra).
  eapply tame_le; [apply add_tame; [exact Hm|exact Hqz| |]|]; lra.
Qed.

(** One cell of a generation drawn by UMDAc. *)
Lemma umdac_cell (x : list f64) lf z B Zb : x <> [] -> few (List.length x) -> within B x -> tame B lf -> tame Zb z ->
  1 <= Zb -> tall <= B -> B * (1 + Zb) <= far ->
  tame ((1 + / 64) * ((1 + Zb) * B)) (fadd (mean (b64_ops s) x) (fmul (raise_to (b64_ops s) lf (std (b64_ops s) x)) z)).
Proof.
  intros Hx Hf Hw Hl Hz HZ Ht HB. pose proof tall_pos.
  assert (HBf : B <= far). { assert (B * 1 <= B * (1 + Zb)) by (apply Rmult_le_compat_l; lra). lra. }
  assert (HBZ : 0 <= Zb * B) by (apply Rmult_le_pos; lra).
  eapply tame_le; [apply (draw_tame _ _ z B (1 + / 1024) Zb)|]; try assumption; try lra.
  - apply mean_tame; assumption.
  - apply std_tame; assumption.
Qed.

(** One of a generation drawn by PBIL. *)
Lemma pbil_cell (x : list f64) b1 b2 lf alpha z B Zb : nth_error x 0 = Some b1 -> nth_error x 1 = Some b2 -> few (List.length x) ->
  within B x -> tame B lf -> isfin alpha = true -> 0 <= B2R alpha <= 1 -> tame Zb z -> 1 <= Zb -> tall <= B -> B * (1 + Zb) <= far ->
  tame ((1 + / 64) * ((3 + Zb) * B))
    (fadd (fadd (fmul (fsub (Z2f 1) alpha) (mean (b64_ops s) x)) (fmul alpha (fsub (fadd b1 b2) (last x b1))))
          (fmul (raise_to (b64_ops s) lf (std (b64_ops s) x)) z)).
Proof.
  intros H1 H2 Hf Hw Hl Fa Ha Hz HZ Ht HB. pose proof tall_pos.
  destruct x as [|c1 [|c2 rest]]; try discriminate. cbn [nth_error] in H1, H2.
  assert (E1 : c1 = b1) by congruence. assert (E2 : c2 = b2) by congruence. subst c1 c2.
  assert (HBf : B <= far). { assert (B * 1 <= B * (1 + Zb)) by (apply Rmult_le_compat_l; lra). lra. }
  assert (HBZ : 0 <= Zb * B) by (apply Rmult_le_pos; lra).
  set (x := b1 :: b2 :: rest) in *.
  assert (Hx : x <> []) by discriminate.
  pose (q := (fadd (fmul (fsub (Z2f 1) alpha) (mean (b64_ops s) x)) (fmul alpha (fsub (fadd b1 b2) (last x b1))),
              raise_to (b64_ops s) lf (std (b64_ops s) x))).
  assert (L : adapt_learn (b64_ops s) lf alpha (fun _ => Ok x) [(Z2f 0, Z2f 0)] = (Ok tt, [q])) by reflexivity.
  pose proof (adapt_float s lf alpha (fun _ => Ok x) [(Z2f 0, Z2f 0)] [q] 0%nat x b1 b2 rest B q Hs (proj1 Hl) Fa Ha L
    eq_refl eq_refl eq_refl Hf Hw HBf) as G. cbv zeta in G. destruct G as (F & _ & E & _). unfold q in F, E. cbn [fst snd] in F, E.
  set (m := fadd (fmul _ _) (fmul alpha _)) in *.
  eapply tame_le; [apply (draw_tame m _ z B (3 + / 128) Zb)|]; try assumption; try lra; [|apply std_tame; assumption].
  split; [exact F|]. set (a := B2R alpha) in *. set (A := avg (map B2R x)) in *.
  pose proof (avg_within x B Hx Hw) as HA. fold A in HA.
  assert (I1 : In b1 x) by (left; reflexivity). assert (I2 : In b2 x) by (right; left; reflexivity).
  assert (I3 : In (last x b1) x).
  { unfold x. assert (G : forall (l : list f64) d e, In (last (d :: l) e) (d :: l)).
    { induction l as [|y l IH]; intros d e; [left; reflexivity|]. right. apply IH. }
    apply G. }
  destruct (Hw _ I1) as [_ W1]. destruct (Hw _ I2) as [_ W2]. destruct (Hw _ I3) as [_ W3].
  set (D := B2R b1 + B2R b2 - B2R (last x b1)) in *.
  assert (HD : Rabs D <= 3 * B).
  { unfold D. apply Rabs_le_inv in W1, W2, W3. apply Rabs_le. lra. }
  set (T := (1 - a) * A + a * D) in *.
  assert (HT : Rabs T <= 3 * B).
  { unfold T. eapply Rle_trans; [apply Rabs_triang|]. rewrite !Rabs_mult, (Rabs_pos_eq (1 - a)), (Rabs_pos_eq a) by lra.
    assert (Q1 : (1 - a) * Rabs A <= (1 - a) * (3 * B)) by (apply Rmult_le_compat_l; lra).
    assert (Q2 : a * Rabs D <= a * (3 * B)) by (apply Rmult_le_compat_l; lra). lra. }
  replace (B2R m) with (T + (B2R m - T)) by ring. eapply Rle_trans; [apply Rabs_triang|].
  assert (Hu : (4 * INR (List.length x) + 30) * bpow radix2 (-53) * B <= / 512 * B).
  { apply Rmult_le_compat_r; [lra|]. fold u. replace ((4 * INR (List.length x) + 30) * u) with (4 * (INR (List.length x) * u) + 30 * u) by ring.
    pose proof (few_u _ Hf). pose proof u_le. assert (u <= bpow radix2 (-20)) by (unfold u; apply bpow_le; lia).
    assert (bpow radix2 (-20) <= / 1000000) by (cbn; lra). lra. }
  assert (He : bpow radix2 (-1072) <= / 4096 * tall).
  { unfold tall. replace (/ 4096) with (bpow radix2 (-12)) by (cbn; lra). rewrite <- bpow_plus. apply bpow_le. lia. }
  lra.
Qed.

(** Noise added to a cell. *)
Lemma noise_tame scale z B0 Zb : isfin scale = true -> Rabs (B2R scale) * Zb <= B0 -> tame Zb z -> tall <= B0 -> B0 <= far ->
  tame ((1 + / 512) * B0) (fadd (Z2f 0) (fmul scale z)).
Proof.
  intros Fs HZ Hz Ht Hf. pose proof tall_pos. pose proof far_huge. pose proof far_1.
  assert (Hff : far * 1024 <= far * far) by (apply Rmult_le_compat_l; lra).
  assert (Hm : tame ((1 + / 2048) * B0) (fmul scale z)).
  { apply (mul_tame scale z (Rabs (B2R scale)) Zb); [split; [exact Fs|lra]|exact Hz|exact HZ|exact Ht|lra]. }
  assert (Hz0 : tame 0 (Z2f 0)).
  { destruct (Z2f_exact 0 ltac:(lia)) as [E F]. split; [exact F|]. rewrite E, Rabs_R0. lra. }
  eapply tame_le; [apply add_tame; [exact Hz0|exact Hm| |]|]; lra.
Qed.

End Cells.

(* ------------------------------------------------------------------ *)
(** ** Along a run *)

(** Every cell is a finite float of magnitude at most [B]. *)
Definition cells_in (B : R) (a : arr) : Prop := Forall (Forall (fun c => exists v, c = CF v /\ tame B v)) (a_rows a).

Lemma cells_in_le B B' a : cells_in B a -> B <= B' -> cells_in B' a.
Proof.
  intros H HB. eapply Forall_impl; [|exact H]. intros r Hr. eapply Forall_impl; [|exact Hr]. intros c (v & E & T).
  exists v. split; [exact E|]. eapply tame_le; eassumption.
Qed.

(** Normal draws of magnitude at most [Zb]. *)
Definition gauss_within {W : Type} (Zb : R) (g : rng W) : Prop :=
  forall a b w i j, (i < a)%nat -> (j < b)%nat -> isfin (fst (g_gauss g a b w) i j) = true /\ Rabs (B2R (fst (g_gauss g a b w) i j)) <= Zb.

(** Training data: individuals with the noise added. *)
Lemma data_tame (delta : nat -> nat -> option f64) (rs : list row) (d : arr) n j x B :
  Forall (float_row n) rs -> Forall (Forall (fun c => exists v, c = CF v /\ tame B v)) rs ->
  (forall i j v, (i < List.length rs)%nat -> (j < n)%nat -> delta i j = Some v -> tame ((1 + / 512) * B) v) ->
  tall <= B -> B <= far -> moved delta rs (a_rows d) -> (j < n)%nat -> num_col d j = Ok x ->
  within ((2 + / 128) * B) x /\ List.length x = List.length rs.
Proof.
  intros Hfr Hin Hdel Ht Hf [Hlen Hm] Hj Hc. pose proof tall_pos. pose proof far_huge. pose proof far_1.
  assert (Hff : far * 1024 <= far * far) by (apply Rmult_le_compat_l; lra).
  unfold num_col in Hc. destruct (Nat.ltb j (a_nc d)); [|discriminate]. apply rmapM_Forall2 in Hc.
  pose proof (Forall2_length _ _ _ Hc) as Hl. split; [|exact (eq_trans (eq_sym Hl) Hlen)].
  intros v Hv. apply In_nth_error in Hv as [i Hi].
  assert (Hir : (i < List.length rs)%nat) by (rewrite <- (eq_trans (eq_sym Hl) Hlen); apply nth_error_Some; congruence).
  destruct (nth_error rs i) as [r|] eqn:Er; [|apply nth_error_None in Er; lia].
  destruct (nth_error (a_rows d) i) as [r'|] eqn:Er'; [|apply nth_error_None in Er'; lia].
  pose proof (Forall2_nth _ _ _ _ _ _ Hc Er' Hi) as Hv. cbn beta in Hv.
  destruct (Hm i r r' Er Er') as [Hlr Hcell].
  rewrite Forall_forall in Hfr, Hin. pose proof (nth_error_In _ _ Er) as Hr.
  destruct (Hfr r Hr) as [Hrn _]. specialize (Hin r Hr). rewrite Forall_forall in Hin.
  destruct (nth_error r j) as [c0|] eqn:Ec; [|apply nth_error_None in Ec; lia].
  destruct (nth_error r' j) as [c1|] eqn:Ec'; [|apply nth_error_None in Ec'; lia].
  destruct (Hin c0 (nth_error_In _ _ Ec)) as (y & -> & Hy). rewrite (nth_error_nth _ _ _ Ec') in Hv.
  specialize (Hcell j _ _ Ec Ec'). change (tame ((2 + / 128) * B) v). destruct (delta i j) as [dl|] eqn:Ed; cbn [cell_moved] in Hcell.
  - destruct c1 as [z|z|z]; try contradiction. subst z. cbn [cell_num] in Hv. assert (Ev : v = fadd y dl) by congruence. subst v.
    eapply tame_le; [apply add_tame; [exact Hy|exact (Hdel i j dl Hir Hj Ed)| |]|]; lra.
  - destruct c1 as [z|z|z]; try contradiction. cbn [cell_num] in Hv. assert (Ev : v = z) by congruence. subst v.
    destruct Hy as [Fy Hy]. destruct Hcell as [Hq|[Hq _]].
    + assert (Fz : isfin z = true).
      { destruct y as [sy|sy| |sy my ey py], z as [sz|sz| |sz mz ez pz]; try discriminate Fy; try reflexivity;
          exfalso; revert Hq; unfold feq, Beqb, SpecFloat.SFeqb, SpecFloat.SFcompare; cbn; try destruct sy; try destruct sz; discriminate. }
      apply feq_fin in Hq; [|exact Fy|exact Fz]. split; [exact Fz|]. rewrite <- Hq. lra.
    + rewrite (isfin_not_nan y Fy) in Hq. discriminate.
Qed.

Lemma nth_error_prefix {A} (l l' : list A) i x : nth_error l i = Some x -> nth_error (l ++ l') i = Some x.
Proof. intros H. rewrite nth_error_app1; [exact H|]. apply nth_error_Some. congruence. Qed.

Section Run.
Context {S W : Type}.
Variable c : cfg.
Variable h : hooks S W.

(** How the bound grows from one generation to the next. *)
Lemma tame_run (next : arr -> arr -> Prop) n B0 G Zb (g : rng W) ftol out s r tr :
  argsort_ok (h_argsort h) -> (forall gen e p, h_data h gen e p = (Ok gen, p)) ->
  (forall scale w, h_normal h scale w = let (z, w') := g_gauss g (Z.to_nat (c_trunc_len c)) (Z.to_nat (c_nvars c)) w in
                                        (fun i j => fadd (Z2f 0) (fmul scale (z i j)), w')) ->
  gauss_within Zb g -> n = Z.to_nat (c_nvars c) -> (1 <= c_trunc_len c <= 2 ^ 40)%Z -> (0 <= c_elite_len c)%Z ->
  (py_eq_int (c_w_noise c) 0 = false -> isfin (num_to_f (c_w_noise c)) = true /\ Rabs (B2R (num_to_f (c_w_noise c))) * Zb <= B0) ->
  tall <= B0 -> 3 <= G -> completes c h ftol out s r tr ->
  Forall (rows_in DFloat n (float_row n)) (map fst (gens tr)) ->
  (forall k gen vals, nth_error (gens tr) (Datatypes.S k) = Some (gen, vals) -> exists d, nth_error (learns tr) k = Some d /\ next d gen) ->
  (forall B d gen, B0 <= B -> G * B <= far -> next d gen -> a_rows d <> [] -> (Z.of_nat (List.length (a_rows d)) <= 2 ^ 40)%Z ->
     (forall j x, (j < n)%nat -> num_col d j = Ok x -> within ((2 + / 128) * B) x /\ List.length x = List.length (a_rows d)) ->
     Forall (float_row n) (a_rows gen) -> cells_in (G * B) gen) ->
  (forall gen vals, nth_error (gens tr) 0 = Some (gen, vals) -> cells_in B0 gen) ->
  forall k gen vals, nth_error (gens tr) k = Some (gen, vals) -> B0 * G ^ k <= far -> cells_in (B0 * G ^ k) gen.
Proof.
  intros Has Hplain Hnorm Hz Hn Ht He Hno HB0 HG Hc Hshape Hnext Hstep Hfirst. pose proof tall_pos.
  assert (Hdt : one_dtype DFloat tr).
  { unfold one_dtype. rewrite Forall_map in Hshape. eapply Forall_impl; [|exact Hshape]. intros gv (Hd & _). exact Hd. }
  pose proof (selection_lemma c h Has ltac:(lia) He ftol out DFloat s r tr Hc Hdt) as Hsel.
  destruct (training_noise c h ftol out s r tr Hplain Hc) as (wn & Hwn & Hdrawn & Htrain).
  pose proof (gens_inhabited c h ftol out s r tr Hc) as Hinh.
  assert (HGp : forall i, 1 <= G ^ i) by (intros i; apply pow_R1_Rle; lra).
  assert (HGm : forall i k, (i <= k)%nat -> G ^ i <= G ^ k) by (intros i k Hik; apply Rle_pow; [lra|exact Hik]).
  induction k as [k IH] using lt_wf_ind. intros gen vals Hk Hfar. destruct k as [|k].
  { rewrite pow_O, Rmult_1_r. eapply Hfirst, Hk. }
  destruct (Hnext k gen vals Hk) as (d & Hd & Hnx).
  destruct (nth_learn tr k d Hd) as (tr1 & tr2 & Etr & Hlk).
  pose proof (learned_after c h ftol out s r tr tr1 tr2 d Hc Etr) as Hgl. rewrite Hlk in Hgl.
  destruct (Htrain _ _ _ Etr) as (tr0 & t & el & Etr1 & Hmv).
  assert (Etr' : tr = tr0 ++ EvSelect t el :: EvLearn d :: tr2) by (rewrite Etr, Etr1, <- app_assoc; reflexivity).
  destruct (Hsel _ _ _ Etr') as ((gv & Hlat & (rest & Hperm & _ & _ & Hlen) & _) & _ & _ & Hev & _).
  assert (Hg01 : gens tr1 = gens tr0) by (rewrite Etr1, gens_app; cbn; apply app_nil_r).
  assert (Hgt : gens tr = gens tr0 ++ gens (EvSelect t el :: EvLearn d :: tr2)) by (rewrite Etr', gens_app; reflexivity).
  assert (Hgv : In gv (gens tr)).
  { rewrite Hgt. apply in_or_app. left. unfold latest in Hlat. revert Hlat. destruct (gens tr0) as [|z l] using rev_ind; [discriminate|].
    rewrite map_app. cbn [map]. rewrite last_last. intros Hlat. assert (z = gv) by congruence. subst z. apply in_or_app. right. left. reflexivity. }
  assert (Htl : (1 <= List.length t <= Z.to_nat (c_trunc_len c))%nat).
  { rewrite Hlen. rewrite Forall_forall in Hinh. specialize (Hinh gv Hgv). rewrite app_length. destruct (pairs gv); [congruence|]. cbn [List.length]. lia. }
  set (B := B0 * G ^ k) in *.
  assert (EB : B0 * G ^ Datatypes.S k = G * B) by (unfold B; cbn [pow]; ring). rewrite EB in *.
  assert (HB : B0 <= B). { unfold B. rewrite <- (Rmult_1_r B0) at 1. apply Rmult_le_compat_l; [lra|apply HGp]. }
  assert (HBG : 3 * B <= G * B) by (apply Rmult_le_compat_r; lra).
  (* the rows the data was made of *)
  assert (Hrows : forall p, In p t -> float_row n (fst p) /\ Forall (fun c => exists v, c = CF v /\ tame B v) (fst p)).
  { intros p Hp. rewrite Forall_forall in Hev. specialize (Hev p Hp). unfold evaluated in Hev. apply in_flat_map in Hev as (q & Hq & Hpq).
    apply In_nth_error in Hq as [i Hi]. assert (Hik : (i <= k)%nat).
    { assert (i < List.length (gens tr0))%nat by (apply nth_error_Some; congruence). rewrite Hg01 in Hgl. lia. }
    assert (Hi' : nth_error (gens tr) i = Some q) by (rewrite Hgt; apply nth_error_prefix, Hi). destruct q as [gi vi].
    assert (Hpr : In (fst p) (a_rows gi)).
    { unfold pairs in Hpq. cbn [fst snd] in Hpq. destruct p as [p1 p2]. apply in_combine_l in Hpq. exact Hpq. }
    split.
    - rewrite Forall_map, Forall_forall in Hshape. destruct (Hshape _ (nth_error_In _ _ Hi')) as (_ & _ & F). cbn [fst] in F.
      rewrite Forall_forall in F. apply F, Hpr.
    - assert (Hb : B0 * G ^ i <= B) by (unfold B; apply Rmult_le_compat_l; [lra|apply HGm, Hik]).
      assert (Hbf : B0 * G ^ i <= far) by lra.
      assert (Hik' : (i < Datatypes.S k)%nat) by lia.
      pose proof (cells_in_le _ _ _ (IH i Hik' gi vi Hi' Hbf) Hb) as C.
      unfold cells_in in C. rewrite Forall_forall in C. apply C, Hpr. }
  apply (Hstep B d gen); try assumption.
  - destruct Hmv as [Hl _]. rewrite map_length in Hl. destruct (a_rows d); [cbn in Hl; lia|discriminate].
  - destruct Hmv as [Hl _]. rewrite map_length in Hl. lia.
  - intros j x Hj Hx. destruct (data_tame (noise_delta wn) (map fst t) d n j x B) as [Q1 Q2]; try assumption; try lra.
    + rewrite Forall_map, Forall_forall. intros p Hp. apply Hrows, Hp.
    + rewrite Forall_map, Forall_forall. intros p Hp. apply Hrows, Hp.
    + intros i' j' v Hi' Hj' Hv. rewrite map_length in Hi'. destruct wn as [| |nr nc dr]; try discriminate. cbn [noise_delta] in Hv.
      destruct Hwn as (N0 & _ & _ & _ & -> & ->). destruct Hdrawn as (w & w' & Hw). rewrite Hnorm in Hw.
      destruct (g_gauss g (Z.to_nat (c_trunc_len c)) (Z.to_nat (c_nvars c)) w) as [z w1] eqn:Eg.
      assert (Edr : dr = fun i j => fadd (Z2f 0) (fmul (num_to_f (c_w_noise c)) (z i j))) by congruence.
      assert (Ev : v = dr (bidx (Z.to_nat (c_trunc_len c)) i') (bidx (Z.to_nat (c_nvars c)) j')) by congruence. rewrite Ev, Edr.
      destruct (Hno N0) as [Fs Hs]. eapply tame_le; [apply (noise_tame (num_to_f (c_w_noise c)) _ B0 Zb Fs Hs)|].
      * pose proof (Hz (Z.to_nat (c_trunc_len c)) (Z.to_nat (c_nvars c)) w (bidx (Z.to_nat (c_trunc_len c)) i') (bidx (Z.to_nat (c_nvars c)) j')) as Q.
        rewrite Eg in Q. cbn [fst] in Q. apply Q; unfold bidx; [destruct (Nat.eqb_spec (Z.to_nat (c_trunc_len c)) 1); lia|].
        destruct (Nat.eqb_spec (Z.to_nat (c_nvars c)) 1); lia.
      * exact HB0.
      * lra.
      * apply Rmult_le_compat_l; lra.
    + split; [exact Q1|]. rewrite Q2. destruct Hmv as [Hl _]. symmetry. exact Hl.
  - rewrite Forall_map, Forall_forall in Hshape. destruct (Hshape _ (nth_error_In _ _ Hk)) as (_ & _ & F). exact F.
Qed.

End Run.

Section Stock.
Context {X W : Type}.
Variable E : env X W.

Lemma by_cells n B (gen : arr) : Forall (float_row n) (a_rows gen) ->
  (forall i j, (i < a_len gen)%nat -> (j < n)%nat -> exists v, nth_error (nth i (a_rows gen) []) j = Some (CF v) /\ tame B v) -> cells_in B gen.
Proof.
  intros Hs H. unfold cells_in. rewrite Forall_forall. intros r Hr. rewrite Forall_forall in Hs. destruct (Hs r Hr) as [Hl _].
  rewrite Forall_forall. intros c0 Hc. apply In_nth_error in Hr as [i Hi]. apply In_nth_error in Hc as [j Hj].
  assert (Li : (i < a_len gen)%nat) by (unfold a_len; apply nth_error_Some; intros Q; discriminate (eq_trans (eq_sym Hi) Q)).
  assert (Lj : (j < n)%nat) by (rewrite <- Hl; apply nth_error_Some; congruence).
  destruct (H i j Li Lj) as (v & Hv & T). rewrite (nth_error_nth _ _ _ Hi), Hj in Hv. exists v. split; [congruence|exact T].
Qed.

(** The configured noise. *)
Definition noise_small (wn : option pynum) (Zb B0 : R) : Prop :=
  forall p, wn = Some p -> isfin (num_to_f p) = true /\ Rabs (B2R (num_to_f p)) * Zb <= B0.

Lemma noise_small_cfg wn Zb B0 c : noise_small wn Zb B0 ->
  c_w_noise c = match wn with Some p => if py_eq_int p 0 then PyI 0 else p | None => PyI 0 end ->
  py_eq_int (c_w_noise c) 0 = false -> isfin (num_to_f (c_w_noise c)) = true /\ Rabs (B2R (num_to_f (c_w_noise c))) * Zb <= B0.
Proof.
  intros H E0 N. rewrite E0 in N |- *. destruct wn as [p|]; [|discriminate N]. destruct (py_eq_int p 0); [discriminate N|]. apply H. reflexivity.
Qed.

Lemma umdac_finite g lo hi vector lf wn (o0 o : optimiser X) cost a ftol out w r s t e B0 Zb :
  construct E (UMDAc lo hi vector lf wn) g = Ok o0 -> used E o0 o -> run_in E a o cost ftol out w = (Ok r, s) ->
  adds (e_sum E) -> sum_ok (e_sum E) -> argsort_ok (e_argsort E) ->
  gauss_within Zb (e_rng E) -> 1 <= Zb -> bpow radix2 (-500) <= B0 ->
  int_times (g_size_gen g) (g_alpha g) = Ok t -> (1 <= t <= 2 ^ 40)%Z ->
  int_times (g_size_gen g) (g_elite_factor g) = Ok e -> (0 <= e)%Z ->
  isfin lf = true -> Rabs (B2R lf) <= B0 -> noise_small wn Zb B0 ->
  data_ok (Z.to_nat (g_nvars g)) 0 (g_init_data g) ->
  (forall gen vals, nth_error (gens (s_tr s)) 0 = Some (gen, vals) -> cells_in B0 gen) ->
  forall k gen vals, nth_error (gens (s_tr s)) k = Some (gen, vals) ->
  B0 * (3 * (1 + Zb)) ^ k <= bpow radix2 400 -> cells_in (B0 * (3 * (1 + Zb)) ^ k) gen.
Proof.
  intros Hc U Hr Had Hso Has Hz HZ HB0 Ht Ht1 He He0 Fl Hl Hno Hdat Hfirst k gen vals Hk Hfar.
  pose proof (umdac_drawn E _ _ _ _ _ _ _ _ _ _ _ _ _ _ _ Hc U Hr) as Hnext. cbn [construct] in Hc.
  pose proof (umdac_pbil_shape E _ _ _ _ _ _ _ _ _ _ _ _ _ _ _ (or_introl Hc) U Hso Hdat Hr) as (Hshape & _).
  apply umdac_inv in Hc as (Hcfg & _ & _ & _ & Hupd & _). destruct (used_setup E _ _ U) as (E1 & _ & E3 & _).
  pose proof (eda_init_inv _ _ _ _ _ _ _ _ _ _ _ Hcfg) as (_ & _ & _ & C4 & _ & _ & _ & _ & _ & C10 & C11 & C12 & _).
  assert (Et : c_trunc_len (op_cfg o0) = t) by congruence. assert (Ee : c_elite_len (op_cfg o0) = e) by congruence.
  unfold run_in in Hr.
  assert (C : completes (op_cfg o) (hooks_of E o cost) ftol out (mkSt a (op_st o) w []) r (s_tr s)).
  { split; [reflexivity|]. exists s. split; [exact Hr|reflexivity]. }
  rewrite E1 in C. eapply (tame_run (op_cfg o0) (hooks_of E o cost) (umdac_next E lf (Z.to_nat (g_size_gen g)) (Z.to_nat (g_nvars g)))
    (Z.to_nat (g_nvars g)) B0 (3 * (1 + Zb)) Zb (e_rng E)); try eassumption.
  - intros gn el p. cbn [hooks_of h_data]. rewrite E3, Hupd. reflexivity.
  - intros scale w0. cbn [hooks_of h_normal]. rewrite E1. reflexivity.
  - rewrite C4. reflexivity.
  - rewrite Et. exact Ht1.
  - rewrite Ee. exact He0.
  - apply (noise_small_cfg wn); assumption.
  - lra.
  - clear k gen vals Hk Hfar. intros B d gen HB HBf (N1 & N2 & w1 & N3) Hd Hdl Hdata Hfr. pose proof tall_pos. fold tall in HB0.
    apply (by_cells _ _ _ Hfr). intros i j Hi Hj. rewrite N1 in Hi. destruct (N3 i j Hi Hj) as (x & Hx & Hcell). eexists. split; [exact Hcell|].
    destruct (Hdata j x Hj Hx) as [Hw Hxl]. assert (HZB : 0 <= Zb * B) by (apply Rmult_le_pos; lra).
    eapply tame_le; [apply (umdac_cell (e_sum E) Had x lf _ ((2 + / 128) * B) Zb)|].
    + destruct x; [|discriminate]. cbn in Hxl. destruct (a_rows d); [congruence|discriminate].
    + unfold few. rewrite Hxl. exact Hdl.
    + exact Hw.
    + split; [exact Fl|lra].
    + apply Hz; [exact Hi|exact Hj].
    + exact HZ.
    + lra.
    + lra.
    + lra.
Qed.

Lemma pbil_finite g lo hi vector lf wn (o0 o : optimiser X) cost a ftol out w r s e B0 Zb :
  construct E (PBIL lo hi vector lf wn) g = Ok o0 -> used E o0 o -> run_in E a o cost ftol out w = (Ok r, s) ->
  adds (e_sum E) -> sum_ok (e_sum E) -> argsort_ok (e_argsort E) ->
  gauss_within Zb (e_rng E) -> 1 <= Zb -> bpow radix2 (-500) <= B0 ->
  (1 <= g_size_gen g <= 2 ^ 40)%Z -> int_times (g_size_gen g) (g_elite_factor g) = Ok e -> (0 <= e)%Z ->
  isfin (num_to_f (g_alpha g)) = true -> 0 <= B2R (num_to_f (g_alpha g)) <= 1 ->
  isfin lf = true -> Rabs (B2R lf) <= B0 -> noise_small wn Zb B0 ->
  data_ok (Z.to_nat (g_nvars g)) 0 (g_init_data g) ->
  (forall gen vals, nth_error (gens (s_tr s)) 0 = Some (gen, vals) -> cells_in B0 gen) ->
  forall k gen vals, nth_error (gens (s_tr s)) k = Some (gen, vals) ->
  B0 * (3 * (3 + Zb)) ^ k <= bpow radix2 400 -> cells_in (B0 * (3 * (3 + Zb)) ^ k) gen.
Proof.
  intros Hc U Hr Had Hso Has Hz HZ HB0 Ht1 He He0 Fa Ha Fl Hl Hno Hdat Hfirst k gen vals Hk Hfar.
  pose proof (pbil_drawn E _ _ _ _ _ _ _ _ _ _ _ _ _ _ _ Hc U Hr) as Hnext. cbn [construct] in Hc.
  pose proof (umdac_pbil_shape E _ _ _ _ _ _ _ _ _ _ _ _ _ _ _ (or_intror Hc) U Hso Hdat Hr) as (Hshape & _).
  apply pbil_inv in Hc as (Hcfg & _ & _ & _ & Hupd & _). destruct (used_setup E _ _ U) as (E1 & _ & E3 & _).
  pose proof (eda_init_inv _ _ _ _ _ _ _ _ _ _ _ Hcfg) as (_ & _ & _ & C4 & _ & _ & _ & _ & _ & C10 & C11 & C12 & _).
  assert (Et : c_trunc_len (op_cfg o0) = g_size_gen g).
  { cbn [int_times] in C11. assert (Q : (g_size_gen g * 1)%Z = c_trunc_len (op_cfg o0)) by congruence. lia. }
  assert (Ee : c_elite_len (op_cfg o0) = e) by congruence.
  unfold run_in in Hr.
  assert (C : completes (op_cfg o) (hooks_of E o cost) ftol out (mkSt a (op_st o) w []) r (s_tr s)).
  { split; [reflexivity|]. exists s. split; [exact Hr|reflexivity]. }
  rewrite E1 in C. eapply (tame_run (op_cfg o0) (hooks_of E o cost) (pbil_next E lf (num_to_f (g_alpha g)) (Z.to_nat (g_size_gen g)) (Z.to_nat (g_nvars g)))
    (Z.to_nat (g_nvars g)) B0 (3 * (3 + Zb)) Zb (e_rng E)); try eassumption.
  - intros gn el p. cbn [hooks_of h_data]. rewrite E3, Hupd. reflexivity.
  - intros scale w0. cbn [hooks_of h_normal]. rewrite E1. reflexivity.
  - rewrite C4. reflexivity.
  - rewrite Et. exact Ht1.
  - rewrite Ee. exact He0.
  - apply (noise_small_cfg wn); assumption.
  - lra.
  - clear k gen vals Hk Hfar. intros B d gen HB HBf (N1 & N2 & w1 & N3) Hd Hdl Hdata Hfr. pose proof tall_pos. fold tall in HB0.
    apply (by_cells _ _ _ Hfr). intros i j Hi Hj. rewrite N1 in Hi. destruct (N3 i j Hi Hj) as (x & b1 & b2 & Hx & Hb1 & Hb2 & Hcell).
    eexists. split; [exact Hcell|].
    destruct (Hdata j x Hj Hx) as [Hw Hxl]. assert (HZB : 0 <= Zb * B) by (apply Rmult_le_pos; lra).
    eapply tame_le; [apply (pbil_cell (e_sum E) Had x b1 b2 lf _ _ ((2 + / 128) * B) Zb)|]; try assumption.
    + unfold few. rewrite Hxl. exact Hdl.
    + split; [exact Fl|lra].
    + apply Hz; [exact Hi|exact Hj].
    + lra.
    + lra.
    + lra.
Qed.

End Stock.
