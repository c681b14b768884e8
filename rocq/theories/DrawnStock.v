(** What the generations of the stock algorithms without a library model consist of. *)
From Coq Require Import String List ZArith Bool Lia Reals.
From Flocq Require Import Core IEEE754.BinarySingleNaN.
From Verif Require Import PyBase B64 NdArray Eda EdaInv Spec LoopThms Select LoopTrain LoopDrawn LoopFail FailThms Rand RandThms Models ModelThms CatThms ChoiceInt
  Trunc Inits Stock StockInv StockGauss StockCat StockAll StockPrior StockFinal.
Import ListNotations.
Open Scope nat_scope.

Section Next.
Context {X W : Type}.
Variable E : env X W.

Lemma trained_alike (o : optimiser X) cost p0 m0 ds p :
  trained (hooks_of E o cost) p0 ds p -> ps_pm p0 = Some m0 -> exists m, ps_pm p = Some m /\ alike m0 m.
Proof.
  induction 1 as [|ds p gen elite d p1 w p2 w2 _ IH Hd Hl]; intros H0; [exists m0; split; [exact H0|apply alike_refl]|].
  destruct (IH H0) as (m & Hm & A). cbn [hooks_of h_data h_learn] in Hd, Hl.
  pose proof (data_pm (op_upd o) gen elite p) as D. rewrite Hd in D. cbn [snd] in D. rewrite D, Hm in Hl.
  pose proof (learn_alike E d m w) as L. destruct (model_learn E d m w) as [r [m' w']]. cbn [fst snd] in L.
  assert (Ep : p2 = mkPS (Some m') (ps_archive p1)) by congruence. subst p2. exists m'. split; [reflexivity|].
  eapply alike_trans; eassumption.
Qed.

Lemma trained_last (o : optimiser X) cost p0 m0 l p :
  trained (hooks_of E o cost) p0 l p -> ps_pm p0 = Some m0 -> forall ds d, l = ds ++ [d] ->
  exists m m' w1 w2, alike m0 m /\ model_learn E d m w1 = (Ok tt, (m', w2)) /\ ps_pm p = Some m'.
Proof.
  intros H H0. destruct H as [|ds' p gen elite d' p1 w p2 w2 Ht Hd Hl]; intros ds d El; [destruct ds; discriminate|].
  apply app_inj_tail in El as [-> ->]. destruct (trained_alike _ _ _ _ _ _ Ht H0) as (m & Hm & A).
  cbn [hooks_of h_data h_learn] in Hd, Hl.
  pose proof (data_pm (op_upd o) gen elite p) as D. rewrite Hd in D. cbn [snd] in D. rewrite D, Hm in Hl.
  destruct (model_learn E d m w) as [r [m' w']] eqn:L.
  assert (Ep : p2 = mkPS (Some m') (ps_archive p1)) by congruence. assert (Er : r = Ok tt) by congruence. subst.
  exists m, m', w, w'. split; [exact A|]. split; [exact L|reflexivity].
Qed.

(** Generation k + 1 is a sample of a model just trained on the k-th data set. *)
Lemma next_drawn (o0 o : optimiser X) m0 cost a ftol out w r s :
  used E o0 o -> ps_pm (op_st o0) = Some m0 -> run_in E a o cost ftol out w = (r, s) ->
  forall k g vals, nth_error (gens (s_tr s)) (S k) = Some (g, vals) ->
  exists d m m' w1 w2 w3 w4, nth_error (learns (s_tr s)) k = Some d /\ alike m0 m /\
    model_learn E d m w1 = (Ok tt, (m', w2)) /\ model_sample E m' (c_size_gen (op_cfg o)) w3 = (Ok g, w4).
Proof.
  intros U H0 Hr k g vals Hk. unfold run_in in Hr.
  assert (C : executes (op_cfg o) (hooks_of E o cost) ftol out (mkSt a (op_st o) w []) r (s_tr s)).
  { split; [reflexivity|]. exists s. split; [exact Hr|reflexivity]. }
  pose proof (chain_every _ _ _ _ _ _ _ C (S k) g vals Hk) as [Hlen (p & w3 & w4 & Ht & Hs)]. cbn [s_pm] in Ht.
  pose proof (used_alike E _ _ U) as A. rewrite H0 in A. cbn [alike_opt] in A.
  destruct (ps_pm (op_st o)) as [m1|] eqn:E1; [|contradiction].
  assert (Hd : exists d, nth_error (learns (s_tr s)) k = Some d).
  { destruct (nth_error (learns (s_tr s)) k) as [d|] eqn:Ed; [eauto|]. apply nth_error_None in Ed.
    rewrite firstn_length in Hlen. lia. }
  destruct Hd as [d Hd].
  assert (Ef : firstn (S k) (learns (s_tr s)) = firstn k (learns (s_tr s)) ++ [d]).
  { clear - Hd. revert k Hd. induction (learns (s_tr s)) as [|x l IH]; intros [|k] Hd; cbn in *; try discriminate; [congruence|].
    f_equal. apply IH, Hd. }
  destruct (trained_last _ _ _ _ _ _ Ht E1 _ _ Ef) as (m & m' & w1 & w2 & A' & Hl & Hm').
  exists d, m, m', w1, w2, w3, w4. split; [exact Hd|]. split; [eapply alike_trans; eassumption|]. split; [exact Hl|].
  cbn [hooks_of h_sample] in Hs. rewrite Hm' in Hs. exact Hs.
Qed.

(** Normal draws around learned parameters. *)
Lemma gauss_entries (g : rng W) pm size w a w' : gauss_sample g pm size w = (Ok a, w') ->
  a_len a = Z.to_nat size /\ a_nc a = List.length pm /\
  forall i j q, i < Z.to_nat size -> nth_error pm j = Some q ->
    nth_error (nth i (a_rows a) []) j =
    Some (CF (fadd (fst q) (fmul (snd q) (fst (g_gauss g (Z.to_nat size) (List.length pm) w) i j)))).
Proof.
  unfold gauss_sample, np_normal. destruct (existsb _ _); [discriminate|]. destruct (size <? 0)%Z; [discriminate|].
  destruct (negb _); [discriminate|]. destruct (g_gauss g (Z.to_nat size) (List.length pm) w) as [z w1]. intros H.
  match type of H with (Ok ?x, _) = _ => assert (Ea : a = x) by congruence end. subst a. unfold float_arr, a_len. cbn [a_rows a_nc fst].
  split; [apply tabulate_length|]. split; [reflexivity|]. intros i j q Hi Hq.
  assert (Hj : j < List.length pm) by (apply nth_error_Some; congruence).
  rewrite nth_tabulate by exact Hi. rewrite nth_error_tabulate by exact Hj. rewrite !map_length.
  assert (Hb : bidx (List.length pm) j = j).
  { unfold bidx. destruct (Nat.eqb_spec (List.length pm) 1); [lia|reflexivity]. }
  rewrite Hb. rewrite (nth_error_nth _ _ fnan (map_nth_error fst _ _ Hq)), (nth_error_nth _ _ fnan (map_nth_error snd _ _ Hq)). reflexivity.
Qed.

(** UMDAc: normal with the mean and the (raised) deviation of each column. *)
Definition umdac_next (lf : f64) (size n : nat) (d g : arr) : Prop :=
  a_len g = size /\ a_nc g = n /\ exists w, forall i j, i < size -> j < n -> exists x,
    num_col d j = Ok x /\
    nth_error (nth i (a_rows g) []) j =
    Some (CF (fadd (mean (b64_ops (e_sum E)) x)
                   (fmul (raise_to (b64_ops (e_sum E)) lf (std (b64_ops (e_sum E)) x)) (fst (g_gauss (e_rng E) size n w) i j)))).

Lemma umdac_drawn g lo hi vector lf wn (o0 o : optimiser X) cost a ftol out w r s :
  construct E (UMDAc lo hi vector lf wn) g = Ok o0 -> used E o0 o -> run_in E a o cost ftol out w = (r, s) ->
  forall k gen vals, nth_error (gens (s_tr s)) (S k) = Some (gen, vals) ->
  exists d, nth_error (learns (s_tr s)) k = Some d /\ umdac_next lf (Z.to_nat (g_size_gen g)) (Z.to_nat (g_nvars g)) d gen.
Proof.
  intros Hc U Hr k gen vals Hk. cbn [construct] in Hc. apply umdac_inv in Hc as (Hcfg & _ & Hpm & _).
  apply eda_init_inv in Hcfg as (Hsz & _). destruct (used_setup E _ _ U) as (Ecfg & _).
  destruct (next_drawn _ _ _ _ _ _ _ _ _ _ U Hpm Hr _ _ _ Hk) as (d & m & m' & w1 & w2 & w3 & w4 & Hd & A & Hl & Hs).
  exists d. split; [exact Hd|]. destruct m as [lf' pm| | | | |]; try contradiction. destruct A as [<- Hlen].
  unfold gauss_new in Hlen. rewrite repeat_length in Hlen. cbn [model_learn] in Hl.
  destruct (unigauss_learn (b64_ops (e_sum E)) lf (num_col d) pm) as [r' pm'] eqn:L.
  assert (Em : m' = MUniGauss lf pm') by congruence. assert (Er : r' = Ok tt) by congruence. subst m' r'.
  apply learn_from_ok in L as [Hl' L]. cbn [model_sample] in Hs. apply gauss_entries in Hs as (S1 & S2 & S3).
  rewrite Ecfg, Hsz in *. rewrite Hl', <- Hlen in *.
  split; [exact S1|]. split; [exact S2|]. exists w3. intros i j Hi Hj. destruct (L j Hj) as (q & Hq & Hu). cbn [Nat.add] in Hu.
  unfold unigauss_upd in Hu. destruct (num_col d j) as [x|e]; cbn [rmap] in Hu; [|discriminate].
  exists x. split; [reflexivity|]. rewrite (S3 i j q Hi Hq).
  assert (Eq : q = (mean (b64_ops (e_sum E)) x, raise_to (b64_ops (e_sum E)) lf (std (b64_ops (e_sum E)) x))) by congruence.
  subst q. reflexivity.
Qed.

(** PBIL: the mean moves from the column's mean towards best + second best - last. *)
Definition pbil_next (lf alpha : f64) (size n : nat) (d g : arr) : Prop :=
  a_len g = size /\ a_nc g = n /\ exists w, forall i j, i < size -> j < n -> exists x b1 b2,
    num_col d j = Ok x /\ nth_error x 0 = Some b1 /\ nth_error x 1 = Some b2 /\
    nth_error (nth i (a_rows g) []) j =
    Some (CF (fadd (fadd (fmul (fsub (Z2f 1) alpha) (mean (b64_ops (e_sum E)) x)) (fmul alpha (fsub (fadd b1 b2) (last x b1))))
                   (fmul (raise_to (b64_ops (e_sum E)) lf (std (b64_ops (e_sum E)) x)) (fst (g_gauss (e_rng E) size n w) i j)))).

Lemma pbil_drawn g lo hi vector lf wn (o0 o : optimiser X) cost a ftol out w r s :
  construct E (PBIL lo hi vector lf wn) g = Ok o0 -> used E o0 o -> run_in E a o cost ftol out w = (r, s) ->
  forall k gen vals, nth_error (gens (s_tr s)) (S k) = Some (gen, vals) ->
  exists d, nth_error (learns (s_tr s)) k = Some d /\
    pbil_next lf (num_to_f (g_alpha g)) (Z.to_nat (g_size_gen g)) (Z.to_nat (g_nvars g)) d gen.
Proof.
  intros Hc U Hr k gen vals Hk. cbn [construct] in Hc. apply pbil_inv in Hc as (Hcfg & _ & Hpm & _).
  apply eda_init_inv in Hcfg as (Hsz & _). destruct (used_setup E _ _ U) as (Ecfg & _).
  destruct (next_drawn _ _ _ _ _ _ _ _ _ _ U Hpm Hr _ _ _ Hk) as (d & m & m' & w1 & w2 & w3 & w4 & Hd & A & Hl & Hs).
  exists d. split; [exact Hd|]. destruct m as [|lf' al pm| | | |]; try contradiction. destruct A as (<- & <- & Hlen).
  unfold gauss_new in Hlen. rewrite repeat_length in Hlen. cbn [model_learn] in Hl.
  destruct (adapt_learn (b64_ops (e_sum E)) lf (num_to_f (g_alpha g)) (num_col d) pm) as [r' pm'] eqn:L.
  assert (Em : m' = MAdapt lf (num_to_f (g_alpha g)) pm') by congruence. assert (Er : r' = Ok tt) by congruence. subst m' r'.
  apply learn_from_ok in L as [Hl' L]. cbn [model_sample] in Hs. apply gauss_entries in Hs as (S1 & S2 & S3).
  rewrite Ecfg, Hsz in *. rewrite Hl', <- Hlen in *.
  split; [exact S1|]. split; [exact S2|]. exists w3. intros i j Hi Hj. destruct (L j Hj) as (q & Hq & Hu). cbn [Nat.add] in Hu.
  unfold adapt_upd in Hu. destruct (num_col d j) as [x|e]; cbn [rbind] in Hu; [|discriminate].
  destruct x as [|b1 [|b2 x]]; try discriminate. exists (b1 :: b2 :: x), b1, b2. split; [reflexivity|]. split; [reflexivity|]. split; [reflexivity|].
  rewrite (S3 i j q Hi Hq). match type of Hu with Ok ?y = _ => assert (Eq : q = y) by congruence end. subst q. reflexivity.
Qed.

(** UMDAd: 1 where the draw is below the clamped frequency of ones. *)
Definition umdad_next (lo hi : f64) (size n : nat) (d g : arr) : Prop :=
  a_len g = size /\ a_nc g = n /\ exists w, forall i j, i < size -> j < n -> exists p,
    clamped lo hi (fdiv (Z2f (Z.of_nat (ones_in j (a_rows d)))) (Z2f (Z.of_nat (List.length (a_rows d))))) p /\
    nth_error (nth i (a_rows g) []) j = Some (CI (if flt (fst (g_unif (e_rng E) size n w) i j) p then 1 else 0)%Z).

Lemma bres_same n : bres n n = Some n.
Proof. unfold bres. rewrite Nat.eqb_refl. destruct n; reflexivity. Qed.

Lemma umdad_data g vector lo hi (o0 o : optimiser X) cost a ftol out w r s :
  construct E (UMDAd vector lo hi) g = Ok o0 -> used E o0 o ->
  (forall v, vector = Some v -> List.length v = Z.to_nat (g_nvars g)) ->
  (forall d, g_init_data g = Some d -> bit_arr (Z.to_nat (g_nvars g)) d) ->
  run_in E a o cost ftol out w = (r, s) -> Forall (bit_arr (Z.to_nat (g_nvars g))) (learns (s_tr s)).
Proof.
  intros Hc U Hv Hi Hr. cbn [construct] in Hc. destruct (used_setup E _ _ U) as (E1 & E2 & E3 & _).
  assert (Hrd : umdad_ready E false g vector 0 o cost).
  { split; [exact Hv|]. split; [intros d Hd; split; [apply Hi, Hd|lia]|]. split; [lia|discriminate]. }
  pose proof (umdad_spec E false _ _ _ _ _ _ _ _ Hc E1 E2 E3 Hrd) as L. cbv zeta in L.
  pose proof (umdad_used E _ _ _ _ _ _ Hc Hv Hi U) as HQ.
  destruct (run_spec E false _ _ _ _ _ _ _ _ _ _ _ _ _ _ _ _ _ L HQ Hr) as (_ & (_ & T2 & _) & _).
  eapply Forall_impl; [|exact T2]. intros d [H _]. exact H.
Qed.

Lemma umdad_drawn g vector lo hi (o0 o : optimiser X) cost a ftol out w r s :
  construct E (UMDAd vector lo hi) g = Ok o0 -> used E o0 o ->
  (forall v, vector = Some v -> List.length v = Z.to_nat (g_nvars g)) ->
  (forall d, g_init_data g = Some d -> bit_arr (Z.to_nat (g_nvars g)) d) ->
  run_in E a o cost ftol out w = (r, s) ->
  forall k gen vals, nth_error (gens (s_tr s)) (S k) = Some (gen, vals) ->
  exists d, nth_error (learns (s_tr s)) k = Some d /\ umdad_next lo hi (Z.to_nat (g_size_gen g)) (Z.to_nat (g_nvars g)) d gen.
Proof.
  intros Hc U Hv Hi Hr k gen vals Hk. pose proof (umdad_data _ _ _ _ _ _ _ _ _ _ _ _ _ Hc U Hv Hi Hr) as D.
  cbn [construct] in Hc. apply umdad_inv in Hc as (Hcfg & _ & (m0 & (M1 & M2 & M3 & M4) & _ & Hpm) & _).
  apply eda_init_inv in Hcfg as (Hsz & _). destruct (used_setup E _ _ U) as (Ecfg & _).
  destruct (next_drawn _ _ _ _ _ _ _ _ _ _ U Hpm Hr _ _ _ Hk) as (d & m & m' & w1 & w2 & w3 & w4 & Hd & A & Hl & Hs).
  exists d. split; [exact Hd|]. assert (Hb : bit_arr (Z.to_nat (g_nvars g)) d).
  { rewrite Forall_forall in D. apply D. eapply nth_error_In, Hd. }
  destruct Hb as (_ & Hnc & Hrows). destruct m as [| | |b| |]; try contradiction. destruct A as (A1 & A2 & A3).
  assert (Hlt : flt (ub_lo b) (ub_hi b) = true) by congruence.
  cbn [model_learn] in Hl. destruct (unibin_learn d b) as [r' b'] eqn:L.
  assert (Em : m' = MUniBin b') by congruence. assert (Er : r' = Ok tt) by congruence. subst m' r'.
  assert (Hne : a_rows d <> []).
  { intros E0. rewrite (unibin_empty d b E0) in L. congruence. }
  destruct (unibin_bits d b _ Hlt Hnc Hrows Hne) as (b2 & L2 & B1 & _ & _ & B4 & B5).
  assert (b2 = b') by congruence. subst b2. cbn [model_sample] in Hs.
  apply unibin_sample_spec in Hs as (_ & _ & S2 & S3 & _ & S5). rewrite Ecfg, Hsz in *.
  rewrite B1, <- A1, M2, B4, bres_same in S3. assert (Hw : a_nc gen = Z.to_nat (g_nvars g)) by congruence.
  split; [exact S2|]. split; [exact Hw|]. exists w3. intros i j Hi' Hj. destruct (B5 j Hj) as (p & Hp & Hcl).
  exists p. split; [congruence|]. rewrite Hw in S5. rewrite (S5 i j Hi' Hj). rewrite B1, <- A1, M2, B4.
  assert (Hbi : bidx (Z.to_nat (g_nvars g)) j = j) by (unfold bidx; destruct (Nat.eqb_spec (Z.to_nat (g_nvars g)) 1); [lia|reflexivity]).
  rewrite Hbi, (nth_error_nth _ _ fnan Hp). reflexivity.
Qed.

(** EMNA: a multivariate normal draw with the columns' means and the learned matrix. *)
Definition emna_next (lf uf : f64) (size n : nat) (d g : arr) : Prop :=
  a_len g = size /\ a_nc g = n /\ exists cols means cov draw w w',
    rmapM (num_col d) (seq 0 n) = Ok cols /\ List.length means = n /\ List.length cov = n /\ Forall (fun r => List.length r = n) cov /\
    (forall j x, nth_error cols j = Some x -> nth_error means j = Some (mean (b64_ops (e_sum E)) x)) /\
    (forall i j x y, nth_error cols i = Some x -> nth_error cols j = Some y ->
       entry cov i j = Some (if Nat.eqb i j then std (b64_ops (e_sum E)) x else clamped_cov (b64_ops (e_sum E)) lf uf x y)) /\
    g_mvn (e_rng E) means cov size w = (Ok draw, w') /\
    forall i j, i < size -> j < n -> nth_error (nth i (a_rows g) []) j = Some (CF (draw i j)).

Lemma emna_drawn g lo hi lf uf wn z (o0 o : optimiser X) cost a ftol out w r s :
  construct E (EMNA lo hi lf uf wn z) g = Ok o0 -> used E o0 o -> run_in E a o cost ftol out w = (r, s) ->
  forall k gen vals, nth_error (gens (s_tr s)) (S k) = Some (gen, vals) ->
  exists d, nth_error (learns (s_tr s)) k = Some d /\ emna_next lf uf (Z.to_nat (g_size_gen g)) (Z.to_nat (g_nvars g)) d gen.
Proof.
  intros Hc U Hr k gen vals Hk. pose proof (construct_built E _ _ _ Hc) as [B _ _ _ _]. unfold base_of in B.
  apply eda_init_inv in B as (Hsz & _).
  assert (Hm : exists p, ps_pm (op_st o0) = Some (MMulti lf uf p) /\ List.length (mg_means p) = Z.to_nat (g_nvars g)).
  { cbn [construct] in Hc. unfold emna_new in Hc. destruct (base _ _ _ _) as [b|] eqn:Hb; cbn [rbind] in Hc; [|discriminate].
    destruct (assign_pm _ b) as [b1|] eqn:Hp; cbn [rbind] in Hc; [|discriminate]. apply assign_pm_ok in Hp as [_ ->].
    destruct (uniform_new _ _ _); cbn [rbind] in Hc; [|discriminate]. apply assign_init_ok in Hc as [_ ->].
    eexists. split; [reflexivity|]. cbn [multigauss_new mg_means]. apply tabulate_length. }
  destruct Hm as (p0 & Hpm & Hp0). destruct (used_setup E _ _ U) as (Ecfg & _).
  destruct (next_drawn _ _ _ _ _ _ _ _ _ _ U Hpm Hr _ _ _ Hk) as (d & m & m' & w1 & w2 & w3 & w4 & Hd & A & Hl & Hs).
  exists d. split; [exact Hd|]. destruct m as [| |lf' uf' p| | |]; try contradiction. destruct A as (<- & <- & Hlen). rewrite Hp0 in Hlen.
  cbn [model_learn] in Hl. destruct (multigauss_learn (b64_ops (e_sum E)) lf uf (a_nc d) (num_col d) p) as [r' p'] eqn:L.
  assert (Em : m' = MMulti lf uf p') by congruence. assert (Er : r' = Ok tt) by congruence. subst m' r'.
  apply multigauss_ok in L as (_ & L1 & L2 & cols & L3 & L4 & L5). cbn [model_sample] in Hs. unfold multigauss_sample in Hs. rewrite L5 in Hs.
  unfold np_mvn in Hs. destruct (Nat.eqb_spec (List.length (cov_matrix (b64_ops (e_sum E)) lf uf cols)) (List.length (mg_means p'))) as [Hcl|]; [|discriminate].
  cbn [andb] in Hs. destruct (forallb _ _) eqn:Hrl; [|discriminate]. cbn [negb] in Hs. destruct (_ <? 0)%Z; [discriminate|].
  rewrite Ecfg, Hsz in *. rewrite L1, <- Hlen in *.
  destruct (g_mvn (e_rng E) (mg_means p') (cov_matrix (b64_ops (e_sum E)) lf uf cols) (Z.to_nat (g_size_gen g)) w3) as [[dr|e] w5] eqn:Hg; [|discriminate].
  match type of Hs with (Ok ?x, _) = _ => assert (Ea : gen = x) by congruence end. subst gen. unfold float_arr, a_len. cbn [a_rows a_nc].
  assert (Hcc : List.length cols = Z.to_nat (g_nvars g)) by (rewrite <- Hcl; unfold cov_matrix; rewrite tabulate_length; reflexivity).
  unfold emna_next, a_len. cbn [a_rows a_nc]. split; [apply tabulate_length|]. split; [reflexivity|]. exists cols, (mg_means p'), (cov_matrix (b64_ops (e_sum E)) lf uf cols), dr, w3, w5.
  assert (En : a_nc d = Z.to_nat (g_nvars g)) by congruence.
  split; [rewrite <- En; exact L3|]. split; [exact L1|]. split; [exact Hcl|]. split.
  { apply Forall_forall. intros x Hx. rewrite forallb_forall in Hrl. apply Nat.eqb_eq, Hrl, Hx. }
  split.
  { intros j x Hj. assert (Hjn : j < Z.to_nat (g_nvars g)) by (rewrite <- Hcc; apply nth_error_Some; congruence).
    destruct (L2 j Hjn) as (y & Hy & Hmean). rewrite Hmean. f_equal. f_equal.
    apply rmapM_Forall2 in L3. assert (Hc2 : num_col d j = Ok x); [|congruence].
    assert (Hse : nth_error (seq 0 (a_nc d)) j = Some j).
    { rewrite (nth_error_nth' _ 0) by (rewrite seq_length; lia). rewrite seq_nth by lia. reflexivity. }
    exact (Forall2_nth _ _ _ _ _ _ L3 Hse Hj). }
  split.
  { intros i j x y Hi Hj. rewrite entry_cov_matrix by (apply nth_error_Some; congruence).
    rewrite (nth_error_nth _ _ [] Hi), (nth_error_nth _ _ [] Hj). reflexivity. }
  split; [exact Hg|]. intros i j Hi Hj. rewrite nth_tabulate by exact Hi. rewrite nth_error_tabulate by exact Hj. reflexivity.
Qed.

(** UMDAcat: a value appears where the draw falls in an interval whose width is its frequency. *)
Definition umdacat_next (size n : nat) (d g : arr) : Prop :=
  a_nc g = n /\ exists w, forall j x, j < n -> In x (column j (a_rows d)) ->
  exists lo hi : R,
    (0 <= lo <= hi /\ hi <= 1 /\
     Rabs (hi - lo - INR (occurrences x (column j (a_rows d))) / INR (List.length (a_rows d))) <= bpow radix2 (-26))%R /\
    forall i, i < size ->
      (nth j (nth i (a_rows g) []) (CF fnan) = x <->
       (lo <= B2R (fst (g_unif (e_rng E) size 1 (world_at (e_rng E) (Z.of_nat size) w j)) i 0%nat) < hi)%R).

Lemma umdacat_drawn g values freq (o0 o : optimiser X) cost a ftol out w r s :
  construct E (UMDAcat values freq) g = Ok o0 -> used E o0 o ->
  argsort_ok (e_argsort E) -> unif_ok (e_rng E) -> (1 <= g_nvars g)%Z -> cats_ok values freq ->
  (0 <= g_size_gen g <= 2 ^ 53)%Z -> factor (g_alpha g) ->
  (forall d, g_init_data g = Some d -> cat_pop (Z.to_nat (g_nvars g)) values d) ->
  run_in E a o cost ftol out w = (r, s) ->
  forall k gen vals, nth_error (gens (s_tr s)) (S k) = Some (gen, vals) ->
  exists d, nth_error (learns (s_tr s)) k = Some d /\
    ((Z.of_nat (List.length (a_rows d)) <= 2 ^ 22)%Z -> umdacat_next (Z.to_nat (g_size_gen g)) (Z.to_nat (g_nvars g)) d gen).
Proof.
  intros Hc U Has Hun Hn Hcats Hsz Hal Hi Hr k gen vals Hk.
  pose proof (cat_trunc E values freq g o0 Hc ltac:(lia) Hal) as Htr. cbn [construct] in Hc.
  destruct (umdacat_run E false g values freq o0 o cost 0 a ftol out w r s) as (_ & _ & R3 & R4 & _ & _); try assumption.
  { intros d Hd. split; [split; [apply Hi, Hd|discriminate]|lia]. }
  { lia. }
  { discriminate. }
  apply umdacat_inv in Hc as (Hcfg & _ & Hpm & (it & _ & Hci) & _).
  apply eda_init_inv in Hcfg as (Hs1 & _). destruct (used_setup E _ _ U) as (Ecfg & _).
  destruct (next_drawn _ _ _ _ _ _ _ _ _ _ U Hpm Hr _ _ _ Hk) as (d & m & m' & w1 & w2 & w3 & w4 & Hd & A & Hl & Hs).
  exists d. split; [exact Hd|]. intros Hb. destruct m as [| | | |t|]; try contradiction. cbn [alike] in A. unfold cat_new in A. rewrite repeat_length in A.
  cbn [model_learn] in Hl. destruct (cat_learn d t) as [r' t'] eqn:L.
  assert (Em : m' = MUniCat t') by congruence. assert (Er : r' = Ok tt) by congruence. subst m' r'. cbn [model_sample] in Hs.
  assert (Hp : cat_pop (Z.to_nat (g_nvars g)) values d) by (rewrite Forall_forall in R3; apply R3; eapply nth_error_In, Hd).
  assert (HN : cat_next (Z.to_nat (g_nvars g)) d gen).
  { apply (R4 k); [exact Hd|]. rewrite nth_error_map, Hk. reflexivity. }
  destruct HN as (Hne & _ & _). assert (Hnc : a_nc d = Z.to_nat (g_nvars g)) by apply Hp.
  assert (Hdisc : forall j, j < a_nc d -> discrete (column j (a_rows d))).
  { intros j Hj. destruct (declared E _ _ _ _ Hci j ltac:(lia)) as (v & f & Hv & Hf).
    eapply discrete_incl; [|eapply pop_column; [exact Hp|lia|exact Hv]]. apply (Hcats j v f Hv Hf). }
  rewrite Ecfg, Hs1 in Hs.
  destruct (cat_sample_spec _ _ d t t' _ _ _ _ Hun L ltac:(congruence) Hne ltac:(lia) Hdisc Hs) as (S1 & _).
  split; [congruence|]. exists w3. intros j x Hj Hx.
  destruct (sampled_as_learned d t t' L ltac:(congruence) Hne Hb Hdisc j x ltac:(lia) Hx) as (lo & hi & P1 & P2 & P3 & P4).
  exists lo, hi. split; [auto|]. intros i Hi'. rewrite Z2Nat.id by lia. exact (P4 W (e_rng E) (e_str E) (g_size_gen g) w3 gen w4 Hun Hs i Hi').
Qed.

End Next.
