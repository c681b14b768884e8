(** Learning from identical individuals. *)
From Coq Require Import String List ZArith Bool Lia Reals Lra Permutation.
From Flocq Require Import Core IEEE754.BinarySingleNaN.
From Verif Require Import PyBase B64 B64More NdArray Rand RandThms Models ModelThms ModelMore CatThms Sign EmnaPsd FloatSum FloatMean.
Import ListNotations.
Open Scope R_scope.

(* ---------------- exact arithmetic ---------------- *)
Lemma Rsum_repeat v n : Rsum (repeat v n) = INR n * v.
Proof. induction n as [|n IH]; [cbn; lra|]. rewrite S_INR. change (Rsum (repeat v (S n))) with (v + Rsum (repeat v n)). rewrite IH. lra. Qed.
Lemma map_const {A B} (f : A -> B) v n : map f (repeat v n) = repeat (f v) n.
Proof. induction n as [|n IH]; cbn; [reflexivity|]. rewrite IH. reflexivity. Qed.
Lemma combine_const {A B} (v : A) (w : B) n : combine (repeat v n) (repeat w n) = repeat (v, w) n.
Proof. induction n as [|n IH]; cbn; [reflexivity|]. rewrite IH. reflexivity. Qed.
Lemma INR_S_neq n : INR (S n) <> 0. Proof. apply not_0_INR. lia. Qed.
Lemma mean_const v n : mean R_ops (repeat v (S n)) = v.
Proof. rewrite mean_avg. unfold avg. rewrite Rsum_repeat, repeat_length. field. apply INR_S_neq. Qed.
Lemma centred_const v n : centred R_ops (repeat v (S n)) = repeat 0 (S n).
Proof. unfold centred. rewrite mean_const, map_const. cbn [R_ops o_sub]. replace (v - v) with 0 by lra. reflexivity. Qed.
Lemma dot_zeros n : dot R_ops (repeat 0 n) (repeat 0 n) = 0.
Proof. unfold dot. rewrite combine_const, map_const. cbn [R_ops o_sum o_mul fst snd]. rewrite Rsum_repeat. lra. Qed.
Lemma std_const v n : std R_ops (repeat v (S n)) = 0.
Proof. unfold std. rewrite centred_const, dot_zeros. cbn [R_ops o_sqrt o_div]. unfold Rdiv. rewrite Rmult_0_l. apply sqrt_0. Qed.
Lemma cov_const v w n : cov_entry R_ops (repeat v (S n)) (repeat w (S n)) = 0.
Proof. unfold cov_entry. rewrite !centred_const, dot_zeros. cbn [R_ops o_mul]. apply Rmult_0_l. Qed.
Lemma col_const nc r n i : (i < nc)%nat -> real_col nc (repeat r n) i = Ok (repeat (nth i r 0) n).
Proof. intros H. unfold real_col. destruct (Nat.ltb_spec i nc); [|lia]. rewrite map_const. reflexivity. Qed.
Lemma learn_all {T} (upd : nat -> res (T * T)) (q : nat -> T * T) pm : forall i, (forall k, (k < List.length pm)%nat -> upd (i + k)%nat = Ok (q (i + k)%nat)) ->
  learn_from upd i pm = (Ok tt, map q (seq i (List.length pm))).
Proof.
  induction pm as [|p pm IH]; intros i H; [reflexivity|]. cbn [learn_from List.length seq map].
  pose proof (H 0%nat ltac:(cbn; lia)) as H0. rewrite Nat.add_0_r in H0. rewrite H0, IH; [reflexivity|].
  intros k Hk. replace (S i + k)%nat with (i + S k)%nat by lia. apply H. cbn. lia.
Qed.
Lemma raise_R lo v : raise_to R_ops lo v = Rmax lo v.
Proof. unfold raise_to. cbn [R_ops o_ltb]. unfold Rltb. destruct (Rlt_dec v lo); [rewrite Rmax_left; lra|rewrite Rmax_right; lra]. Qed.
Lemma lower_R hi v : lower_to R_ops hi v = Rmin hi v.
Proof. unfold lower_to. cbn [R_ops o_ltb]. unfold Rltb. destruct (Rlt_dec hi v); [rewrite Rmin_left; lra|rewrite Rmin_right; lra]. Qed.

Lemma unigauss_const lower r n pm :
  unigauss_learn R_ops lower (real_col (List.length pm) (repeat r (S n))) pm = (Ok tt, tabulate (List.length pm) (fun i => (nth i r 0, Rmax lower 0))).
Proof.
  apply (learn_all _ (fun i => (nth i r 0, Rmax lower 0))). intros k Hk. unfold unigauss_upd. rewrite col_const by (cbn; exact Hk). cbn [rmap].
  rewrite mean_const, std_const, raise_R. reflexivity.
Qed.
Lemma last_const {A} (v d : A) n : last (repeat v (S n)) d = v.
Proof. induction n as [|n IH]; [reflexivity|]. change (repeat v (S (S n))) with (v :: repeat v (S n)). cbn [last repeat]. exact IH. Qed.
Lemma adapt_const lower alpha r n pm :
  adapt_learn R_ops lower alpha (real_col (List.length pm) (repeat r (S (S n)))) pm = (Ok tt, tabulate (List.length pm) (fun i => (nth i r 0, Rmax lower 0))).
Proof.
  apply (learn_all _ (fun i => (nth i r 0, Rmax lower 0))). intros k Hk. unfold adapt_upd. rewrite col_const by (cbn; exact Hk). cbn [rbind plus].
  change (repeat (nth k r 0) (S (S n))) with (nth k r 0 :: nth k r 0 :: repeat (nth k r 0) n). cbv beta iota.
  change (nth k r 0 :: nth k r 0 :: repeat (nth k r 0) n) with (repeat (nth k r 0) (S (S n))).
  rewrite mean_const, std_const, raise_R, last_const. do 3 f_equal. cbn [R_ops o_add o_mul o_sub o_ofZ]. lra.
Qed.
Lemma means_const r n nc ms : forall i, (i + List.length ms = nc)%nat -> means_from R_ops (real_col nc (repeat r (S n))) i ms = (Ok tt, map (fun k => nth k r 0) (seq i (List.length ms))).
Proof.
  induction ms as [|m ms IH]; intros i H; [reflexivity|]. cbn [means_from List.length seq map] in *. rewrite col_const by lia. rewrite IH by lia. rewrite mean_const. reflexivity.
Qed.
Lemma cols_const r n nc l : (forall i, In i l -> (i < nc)%nat) -> rmapM (real_col nc (repeat r n)) l = Ok (map (fun i => repeat (nth i r 0) n) l).
Proof.
  induction l as [|i l IH]; intros H; [reflexivity|]. cbn [rmapM map]. rewrite col_const by (apply H; left; reflexivity). rewrite IH by (intros; apply H; right; assumption). reflexivity.
Qed.
Lemma multigauss_const lower upper r n nc ms c : (2 <= nc)%nat -> List.length ms = nc ->
  multigauss_learn R_ops lower upper nc (real_col nc (repeat r (S n))) (mkMG ms c) =
  (Ok tt, mkMG (tabulate nc (fun i => nth i r 0))
               (CovMat (tabulate nc (fun i => tabulate nc (fun j => if Nat.eqb i j then 0 else Rmin upper (Rmax lower 0)))))).
Proof.
  intros H2 L. unfold multigauss_learn. cbn [mg_means mg_cov]. rewrite (means_const r n nc ms 0) by lia. rewrite L.
  rewrite cols_const by (intros i Hi; apply in_seq in Hi; lia).
  set (cols := map (fun i => repeat (nth i r 0) (S n)) (seq 0 nc)).
  assert (Lc : List.length cols = nc) by (unfold cols; rewrite map_length, seq_length; reflexivity).
  assert (E : cov_matrix R_ops lower upper cols = tabulate nc (fun i => tabulate nc (fun j => if Nat.eqb i j then 0 else Rmin upper (Rmax lower 0)))).
  { unfold cov_matrix. rewrite Lc. unfold tabulate. apply map_ext_in. intros i Hi. apply in_seq in Hi. apply map_ext_in. intros j Hj. apply in_seq in Hj.
    assert (Hn : forall k, (k < nc)%nat -> nth k cols [] = repeat (nth k r 0) (S n)) by (intros k Hk; exact (nth_tabulate nc (fun i => repeat (nth i r 0) (S n)) k [] Hk)).
    rewrite (Hn i), (Hn j) by lia. destruct (Nat.eqb i j); [apply std_const|]. unfold clamped_cov. rewrite cov_const, raise_R, lower_R. reflexivity. }
  destruct cols as [|x [|y cols]]; cbn in Lc; try lia. rewrite E. reflexivity.
Qed.

(* ---------------- doubles ---------------- *)
(** A multiple of [2^e] with fewer than 53 bits is a double. *)
Lemma rnd_multiple m e : (Z.abs m < 2 ^ 53)%Z -> (-1074 <= e)%Z -> rnd (IZR m * bpow radix2 e) = IZR m * bpow radix2 e.
Proof.
  intros Hm He. unfold rnd. apply round_generic; [apply valid_rnd_round_mode|].
  apply generic_format_FLT. exists (Float radix2 m e); [reflexivity|cbn [Fnum]; change (radix2 ^ 53)%Z with (2 ^ 53)%Z; lia|cbn [Fexp]; unfold SpecFloat.emin; lia].
Qed.
Lemma multiple_big m e : (Z.abs m < 2 ^ 53)%Z -> (e <= 900)%Z -> Rabs (IZR m * bpow radix2 e) < big.
Proof.
  intros Hm He. rewrite Rabs_mult, <- abs_IZR, (Rabs_pos_eq (bpow radix2 e)) by apply bpow_ge_0. unfold big.
  apply Rlt_le_trans with (bpow radix2 53 * bpow radix2 900).
  - apply Rlt_le_trans with (bpow radix2 53 * bpow radix2 e).
    + apply Rmult_lt_compat_r; [apply bpow_gt_0|]. change (bpow radix2 53) with (IZR (2 ^ 53)). apply IZR_lt, Hm.
    + apply Rmult_le_compat_l; [apply bpow_ge_0|]. apply bpow_le, He.
  - rewrite <- bpow_plus. apply bpow_le. lia.
Qed.
Lemma added_multiple l t m e N : added l t -> (Z.of_nat (List.length l) <= N)%Z -> (Z.abs m * N < 2 ^ 53)%Z -> (-1074 <= e <= 900)%Z ->
  (forall v, In v l -> isfin v = true /\ B2R v = IZR m * bpow radix2 e) ->
  isfin t = true /\ B2R t = IZR (Z.of_nat (List.length l) * m) * bpow radix2 e.
Proof.
  intros H. induction H as [z Hz Fz|x|l l1 l2 a b HP H1 IH1 H2 IH2]; intros HN Hm He Hv.
  - split; [exact Fz|]. rewrite Hz. cbn. lra.
  - destruct (Hv x (or_introl eq_refl)) as [F E]. split; [exact F|]. rewrite E. cbn [List.length]. rewrite Z.mul_1_l. reflexivity.
  - assert (L : List.length l = (List.length l1 + List.length l2)%nat) by (rewrite (Permutation_length HP), app_length; reflexivity).
    destruct IH1 as [F1 E1]; [lia|exact Hm|exact He|intros v Hi; apply Hv, (Permutation_in _ (Permutation_sym HP)), in_or_app; left; exact Hi|].
    destruct IH2 as [F2 E2]; [lia|exact Hm|exact He|intros v Hi; apply Hv, (Permutation_in _ (Permutation_sym HP)), in_or_app; right; exact Hi|].
    assert (S : B2R a + B2R b = IZR (Z.of_nat (List.length l) * m) * bpow radix2 e).
    { rewrite E1, E2, L, Nat2Z.inj_add, Z.mul_add_distr_r, plus_IZR. lra. }
    assert (B : (Z.abs (Z.of_nat (List.length l) * m) < 2 ^ 53)%Z) by (rewrite Z.abs_mul; nia).
    assert (R : rnd (B2R a + B2R b) = IZR (Z.of_nat (List.length l) * m) * bpow radix2 e) by (rewrite S; apply rnd_multiple; [exact B|lia]).
    destruct (fadd_fin a b F1 F2) as [F E]; [rewrite R; apply multiple_big; [exact B|lia]|]. split; [exact F|]. rewrite E. exact R.
Qed.

Lemma nonempty_len {A} (x : list A) : x <> [] -> (1 <= Z.of_nat (List.length x))%Z.
Proof. destruct x; [congruence|]. cbn [List.length]. lia. Qed.
Lemma rnd_0 : rnd 0 = 0.
Proof. unfold rnd. apply round_0. apply valid_rnd_round_mode. Qed.
Lemma big_gt_0 : Rabs 0 < big. Proof. rewrite Rabs_R0. apply bpow_gt_0. Qed.
Lemma sum_div_multiple s (x : list f64) m e : adds s -> x <> [] -> (Z.of_nat (List.length x) < 2 ^ 53)%Z ->
  (Z.abs m * Z.of_nat (List.length x) < 2 ^ 53)%Z -> (-1074 <= e <= 900)%Z ->
  (forall v, In v x -> isfin v = true /\ B2R v = IZR m * bpow radix2 e) ->
  isfin (fdiv (s x) (Z2f (Z.of_nat (List.length x)))) = true /\ B2R (fdiv (s x) (Z2f (Z.of_nat (List.length x)))) = IZR m * bpow radix2 e.
Proof.
  intros Hs Hx Hn Hm He Hv. pose proof (nonempty_len x Hx) as H1.
  destruct (added_multiple x (s x) m e (Z.of_nat (List.length x)) (Hs x) ltac:(lia) Hm He Hv) as [F E].
  destruct (Z2f_exact (Z.of_nat (List.length x))) as [En Fn]; [lia|].
  assert (Nz : IZR (Z.of_nat (List.length x)) <> 0) by (apply (IZR_neq (Z.of_nat (List.length x)) 0); lia).
  assert (Q : B2R (s x) / B2R (Z2f (Z.of_nat (List.length x))) = IZR m * bpow radix2 e).
  { rewrite E, En, mult_IZR. field. exact Nz. }
  assert (B : (Z.abs m < 2 ^ 53)%Z) by nia.
  assert (R : rnd (B2R (s x) / B2R (Z2f (Z.of_nat (List.length x)))) = IZR m * bpow radix2 e) by (rewrite Q; apply rnd_multiple; [exact B|lia]).
  destruct (fdiv_fin (s x) (Z2f (Z.of_nat (List.length x))) F) as [F' E']; [rewrite En; exact Nz|rewrite R; apply multiple_big; [exact B|lia]|].
  split; [exact F'|]. rewrite E'. exact R.
Qed.
Lemma mean_multiple s (x : list f64) m e : adds s -> x <> [] -> (Z.of_nat (List.length x) < 2 ^ 53)%Z ->
  (Z.abs m * Z.of_nat (List.length x) < 2 ^ 53)%Z -> (-1074 <= e <= 900)%Z ->
  (forall v, In v x -> isfin v = true /\ B2R v = IZR m * bpow radix2 e) ->
  isfin (mean (b64_ops s) x) = true /\ B2R (mean (b64_ops s) x) = IZR m * bpow radix2 e.
Proof. exact (sum_div_multiple s x m e). Qed.
Lemma std_multiple s (x : list f64) m e : adds s -> x <> [] -> (Z.of_nat (List.length x) < 2 ^ 53)%Z ->
  (Z.abs m * Z.of_nat (List.length x) < 2 ^ 53)%Z -> (-1074 <= e <= 900)%Z ->
  (forall v, In v x -> isfin v = true /\ B2R v = IZR m * bpow radix2 e) ->
  isfin (std (b64_ops s) x) = true /\ B2R (std (b64_ops s) x) = 0.
Proof.
  intros Hs Hx Hn Hm He Hv. destruct (mean_multiple s x m e Hs Hx Hn Hm He Hv) as [Fm Em].
  unfold std. rewrite dot_centred. set (y := map _ x).
  assert (Ly : List.length y = List.length x) by apply map_length.
  assert (Hy : y <> []) by (intros E; rewrite E in Ly; destruct x; [congruence|discriminate Ly]).
  assert (Vy : forall v, In v y -> isfin v = true /\ B2R v = IZR 0 * bpow radix2 0).
  { intros v Hi. apply in_map_iff in Hi as (w & <- & Hw). destruct (Hv w Hw) as [Fw Ew].
    destruct (fsub_fin w (mean (b64_ops s) x) Fw Fm) as [F1 E1]; [rewrite Ew, Em, Rminus_eq_0, rnd_0; exact big_gt_0|].
    rewrite Ew, Em, Rminus_eq_0, rnd_0 in E1.
    destruct (fmul_fin _ _ F1 F1) as [F2 E2]; [rewrite E1, Rmult_0_l, rnd_0; exact big_gt_0|]. split; [exact F2|]. rewrite E2, E1, !Rmult_0_l, rnd_0. reflexivity. }
  unfold len_T. cbn [b64_ops o_sqrt o_div o_ofZ]. rewrite <- Ly.
  destruct (sum_div_multiple s y 0 0 Hs Hy) as [Fq Eq]; [rewrite Ly; exact Hn|rewrite Ly; cbn [Z.abs]; lia|lia|exact Vy|].
  rewrite Rmult_0_l in Eq. revert Fq Eq. generalize (fdiv (s y) (Z2f (Z.of_nat (List.length y)))). intros q Fq Eq.
  pose proof (Bsqrt_correct 53 1024 eq_refl eq_refl mode_NE q) as (H1 & H2 & _).
  unfold fsqrt. destruct q as [b| | |b mm ee HB]; try discriminate Fq.
  - split; reflexivity.
  - exfalso. cbn [B2R] in Eq; apply eq_0_F2R in Eq. destruct b; discriminate Eq.
Qed.
Lemma unigauss_multiple s lower col pm pm' i (x : list f64) m e q : adds s -> isfin lower = true ->
  unigauss_learn (b64_ops s) lower col pm = (Ok tt, pm') -> nth_error pm' i = Some q -> col i = Ok x -> x <> [] ->
  (Z.of_nat (List.length x) < 2 ^ 53)%Z -> (Z.abs m * Z.of_nat (List.length x) < 2 ^ 53)%Z -> (-1074 <= e <= 900)%Z ->
  (forall v, In v x -> isfin v = true /\ B2R v = IZR m * bpow radix2 e) ->
  B2R (fst q) = IZR m * bpow radix2 e /\ B2R (snd q) = Rmax (B2R lower) 0.
Proof.
  intros Hs Fl H Hq Hc Hx Hn Hm He Hv. apply learn_from_ok in H as [Hl Hk].
  assert (Hi : (i < List.length pm)%nat) by (rewrite <- Hl; apply nth_error_Some; congruence).
  destruct (Hk i Hi) as (q' & H1 & H2). rewrite Hq in H1. assert (q' = q) by congruence. subst q'.
  unfold unigauss_upd in H2. cbn [plus] in H2. rewrite Hc in H2. cbn [rmap] in H2.
  match type of H2 with Ok ?v = _ => assert (Hv' : q = v) by congruence end. clear H2. subst q. cbn [fst snd].
  split; [apply (mean_multiple s x m e); assumption|].
  destruct (std_multiple s x m e Hs Hx Hn Hm He Hv) as [Fs Es]. destruct (raise_to_R s lower _ Fl Fs) as [_ ->]. rewrite Es. reflexivity.
Qed.

(* ---------------- bits and categories ---------------- *)
Lemma fdiv_self z : (0 < z <= 2 ^ 53)%Z -> fdiv (Z2f z) (Z2f z) = fone.
Proof.
  intros Hz. destruct (Z2f_exact z) as [E F]; [lia|]. destruct (Z2f_exact 1) as [E1 F1]; [cbn; lia|].
  assert (Nz : IZR z <> 0) by (apply (IZR_neq z 0); lia).
  assert (R : rnd (B2R (Z2f z) / B2R (Z2f z)) = 1).
  { rewrite E. unfold Rdiv. rewrite Rinv_r by exact Nz. pose proof (rnd_multiple 1 0 ltac:(cbn; lia) ltac:(lia)) as H. cbn [bpow] in H. rewrite Rmult_1_r in H. exact H. }
  destruct (fdiv_fin (Z2f z) (Z2f z) F) as [Fd Ed]; [rewrite E; exact Nz|rewrite R, Rabs_R1; unfold big; change 1 with (bpow radix2 0); apply bpow_lt; lia|].
  rewrite R in Ed.
  apply (B2R_inj 53 1024).
  - destruct (fdiv (Z2f z) (Z2f z)); try discriminate Fd; [cbn in Ed; lra|reflexivity].
  - reflexivity.
  - rewrite Ed. unfold fone. rewrite E1. reflexivity.
Qed.
Lemma fdiv_zero z : (0 < z <= 2 ^ 53)%Z -> fdiv (Z2f 0) (Z2f z) = Z2f 0.
Proof.
  intros Hz. destruct (Z2f_exact z) as [E F]; [lia|]. assert (P : 0 < B2R (Z2f z)) by (rewrite E; apply (IZR_lt 0); lia).
  change (Z2f 0) with (B754_zero false : f64). revert E F P. generalize (Z2f z). intros d _ F P. destruct d as [b| | |b m e HB]; try discriminate F; [cbn in P; lra|].
  destruct b; [|reflexivity]. exfalso. cbn [B2R] in P. apply gt_0_F2R in P. discriminate P.
Qed.
Lemma ones_const (r : row) n j b : nth_error r j = Some (CI b) -> b = 0%Z \/ b = 1%Z -> Z.of_nat (ones_in j (repeat r n)) = (Z.of_nat n * b)%Z.
Proof.
  intros H Hb. induction n as [|n IH]; [reflexivity|]. cbn [repeat ones_in]. rewrite H, Nat2Z.inj_add, IH. destruct Hb as [-> | ->]; cbv iota beta; lia.
Qed.
Lemma unibin_const n upper lower m dt (r : row) k : unibin_made n upper lower m -> bit_row n r -> (Z.of_nat (S k) <= 2 ^ 53)%Z ->
  exists m', unibin_learn (mkArr dt n (repeat r (S k))) m = (Ok tt, m') /\ List.length (ub_pm m') = n /\
    forall j b, nth_error r j = Some (CI b) -> exists p, nth_error (ub_pm m') j = Some p /\ clamped lower upper (Z2f b) p.
Proof.
  intros Hm Hr Hk. destruct (unibin_bits_made n upper lower m (mkArr dt n (repeat r (S k))) Hm eq_refl) as (m' & H1 & H2 & H3).
  - cbn [a_rows]. apply Forall_forall. intros r' Hi. apply repeat_spec in Hi. subst r'. exact Hr.
  - discriminate.
  - exists m'. split; [exact H1|]. split; [exact H2|]. intros j b Hj. destruct Hr as [Lr Hb].
    assert (Hjn : (j < n)%nat) by (rewrite <- Lr; apply nth_error_Some; congruence).
    assert (B : b = 0%Z \/ b = 1%Z).
    { rewrite Forall_forall in Hb. destruct (Hb _ (nth_error_In _ _ Hj)) as [E|E]; inversion E; auto. }
    destruct (H3 j Hjn) as (p & Hp & Hc). exists p. split; [exact Hp|]. cbn [a_rows] in Hc. rewrite (ones_const r (S k) j b Hj B), repeat_length in Hc.
    destruct B as [-> | ->].
    + rewrite Z.mul_0_r, fdiv_zero in Hc by lia. exact Hc.
    + rewrite Z.mul_1_r, fdiv_self in Hc by lia. exact Hc.
Qed.

Lemma count_const c : cell_eqb c c = true -> forall n k, fold_left count_in (repeat c n) [(c, k)] = [(c, n + k)%nat].
Proof.
  intros Hc. induction n as [|n IH]; intros k; [reflexivity|]. cbn [repeat fold_left]. unfold count_in at 2. cbn [existsb fst]. rewrite Hc. cbn [orb bump]. rewrite Hc, IH.
  replace (S n + k)%nat with (n + S k)%nat by lia. reflexivity.
Qed.
Lemma unmixed_const c n : existsb is_str (repeat c n) && existsb (fun c => negb (is_str c)) (repeat c n) = false.
Proof. induction n as [|n IH]; [reflexivity|]. cbn [repeat existsb]. destruct (is_str c) eqn:E; cbn [orb negb andb] in *; [|destruct n; cbn [repeat existsb] in *; rewrite ?E in *; cbn in *].
  - clear IH. induction n as [|n IH]; [reflexivity|]. cbn [repeat existsb]. rewrite E. exact IH.
  - reflexivity.
  - destruct (existsb is_str (repeat c n)) eqn:F; [|reflexivity]. apply existsb_exists in F as (y & Hy & Hs). apply repeat_spec in Hy. congruence.
Qed.
Lemma probabilities_const c n : cell_eqb c c = true -> (Z.of_nat (S n) <= 2 ^ 53)%Z -> obtain_probabilities (repeat c (S n)) = Ok [(c, fone)].
Proof.
  intros Hc Hn. unfold obtain_probabilities, np_unique. rewrite unmixed_const. cbn [rmap].
  change (fold_left count_in (repeat c (S n)) []) with (fold_left count_in (repeat c n) [(c, 1%nat)]). rewrite (count_const c Hc), repeat_length.
  cbn [map fst snd]. replace (n + 1)%nat with (S n) by lia. rewrite fdiv_self by lia. reflexivity.
Qed.
Lemma cat_const dt n (r : row) k t : List.length r = n -> List.length t = n -> Forall (fun c => cell_eqb c c = true) r -> (Z.of_nat (S k) <= 2 ^ 53)%Z ->
  cat_learn (mkArr dt n (repeat r (S k))) t = (Ok tt, map (fun c => Some [(c, fone)]) r).
Proof.
  intros Lr Lt Hr Hk. unfold cat_learn.
  assert (G : forall t i, (i + List.length t = n)%nat -> cat_learn_from (mkArr dt n (repeat r (S k))) i t = (Ok tt, map (fun c => Some [(c, fone)]) (skipn i r))).
  { clear t Lt. induction t as [|e t IH]; intros i H; cbn [cat_learn_from].
    - cbn in H. rewrite skipn_all2 by lia. reflexivity.
    - cbn [List.length] in H. unfold cell_col. cbn [a_nc a_rows]. destruct (Nat.ltb_spec i n) as [Hi|]; [|lia]. cbn [rbind]. rewrite map_const.
      destruct (nth_error r i) as [c|] eqn:Ec; [|apply nth_error_None in Ec; lia].
      rewrite (nth_error_nth r i (CF fnan) Ec). rewrite probabilities_const; [|rewrite Forall_forall in Hr; exact (Hr _ (nth_error_In _ _ Ec))|exact Hk].
      rewrite IH by lia. f_equal. f_equal. clear - Ec. revert r Ec. induction i as [|i IH]; intros [|y r] Ec; try discriminate Ec; cbn in Ec |- *; [congruence|]. apply IH, Ec. }
  rewrite G by lia. reflexivity.
Qed.

Lemma choice_one {W} (g : rng W) (c : cell) size w : unif_ok g -> (0 <= size)%Z ->
  exists w', np_choice g [c] size [fone] w = (Ok (repeat c (Z.to_nat size)), w').
Proof.
  intros Hg Hsz. unfold np_choice. destruct (Z.ltb_spec size 0); [lia|]. cbn [List.length Nat.eqb andb negb].
  replace (probs_ok [fone]) with true by (vm_compute; reflexivity). cbn [negb].
  pose proof (Hg (Z.to_nat size) 1%nat w) as Hu. destruct (g_unif g (Z.to_nat size) 1 w) as [u w']. exists w'. f_equal. cbn [fst] in Hu.
  assert (K : forall i, searchsorted_right (cdf [fone]) (u i 0%nat) = 0%nat).
  { intros i. destruct (Hu i 0%nat) as [_ Hlt]. replace (cdf [fone]) with [fone] by (unfold cdf; cbn [cumsum cumsum_from map last]; f_equal; symmetry; apply (fdiv_self 1); lia).
    unfold searchsorted_right. cbn [List.length bsearch Nat.ltb Nat.leb]. change (0 + (1 - 0) / 2)%nat with 0%nat. cbn [nth]. rewrite Hlt. reflexivity. }
  unfold tabulate. rewrite (map_ext _ (fun _ => 0%nat) K). generalize (Z.to_nat size). clear. intros n. generalize 0%nat at 2.
  induction n as [|n IH]; intros i; [reflexivity|]. cbn [seq map gather nth_error]. rewrite IH. reflexivity.
Qed.
Lemma cat_sample_const {W} (g : rng W) str_of (r : row) size w : unif_ok g -> (0 <= size)%Z -> r <> [] -> Forall (fun c => is_str c = true) r ->
  exists a w', cat_sample g str_of (map (fun c => Some [(c, fone)]) r) size w = (Ok a, w') /\ a_nc a = List.length r /\ a_rows a = repeat r (Z.to_nat size).
Proof.
  intros Hg Hsz Hne Hr. unfold cat_sample.
  assert (D : forall l w, Forall (fun c => is_str c = true) l -> exists w', draw_columns (cat_draw g str_of size) (map (fun c => Some [(c, fone)]) l) w = (Ok (map (fun c => repeat c (Z.to_nat size)) l), w')).
  { intros l v H. revert v. induction H as [|c l Hc H IH]; intros v; [exists v; reflexivity|]. cbn [map draw_columns cat_draw fst snd].
    replace (homogenise str_of [c]) with [c] by (destruct c; try discriminate Hc; reflexivity).
    destruct (choice_one g c size v Hg Hsz) as (v1 & ->). destruct (IH v1) as (v2 & ->). exists v2. reflexivity. }
  destruct (D r w Hr) as (w' & ->). eexists. exists w'. split; [reflexivity|]. destruct r as [|c0 r0] eqn:Er; [congruence|]. rewrite <- Er in *.
  unfold frame. destruct (map (fun c => repeat c (Z.to_nat size)) r) as [|x cols] eqn:Em; [rewrite Er in Em; discriminate Em|]. rewrite <- Em. cbn [a_nc a_rows].
  split; [apply map_length|]. set (dt := frame_dtype _).
  assert (Rw : forall i, (i < Z.to_nat size)%nat -> map (fun col => cast_cell dt (nth i col (CF fnan))) (map (fun c => repeat c (Z.to_nat size)) r) = r).
  { intros i Hi. rewrite map_map. rewrite <- (map_id r) at 2. apply map_ext_in. intros c Hc. rewrite Forall_forall in Hr. specialize (Hr c Hc).
    rewrite (nth_indep _ (CF fnan) c) by (rewrite repeat_length; exact Hi). rewrite nth_repeat. destruct c; try discriminate Hr. destruct dt; reflexivity. }
  unfold tabulate.
  assert (G : forall l, (forall i, In i l -> (i < Z.to_nat size)%nat) -> map (fun i => map (fun col => cast_cell dt (nth i col (CF fnan))) (map (fun c => repeat c (Z.to_nat size)) r)) l = repeat r (List.length l)).
  { induction l as [|i l IH]; intros Hi; [reflexivity|]. cbn [map List.length repeat]. rewrite Rw by (apply Hi; left; reflexivity). rewrite IH by (intros; apply Hi; right; assumption). reflexivity. }
  rewrite G; [rewrite seq_length; reflexivity|]. intros i Hi. apply in_seq in Hi. lia.
Qed.

(** Six copies of 0.1, added one after another. *)
Lemma tenth_six : exists v q, feq v (lit 3602879701896397 (-55)) = true /\
  unigauss_learn (b64_ops seq_sum) (Z2f 0) (num_col (mkArr DFloat 1 (repeat [CF v] 6))) [(Z2f 0, Z2f 0)] = (Ok tt, [q]) /\
  flt (fst q) v = true /\ flt (Z2f 0) (snd q) = true.
Proof.
  exists (lit 3602879701896397 (-55)). eexists. split; [vm_compute; reflexivity|]. split; [reflexivity|]. split; vm_compute; reflexivity.
Qed.
