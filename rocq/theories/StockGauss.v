(** UMDAc and PBIL: every individual is a vector of n_variables floats, and runs complete. *)
From Coq Require Import String List ZArith Bool Lia.
From Verif Require Import PyBase B64 B64More NdArray Eda EdaInv Spec LoopObs Select LoopInv Rand RandThms Models Inits ModelThms InitThms Sign Stock StockInv.
Import ListNotations.
Open Scope nat_scope.

Definition float_row (n : nat) (r : row) : Prop := List.length r = n /\ Forall (fun c => exists x, c = CF x) r.

Lemma matrix_rows nr nc a : float_matrix nr nc a -> rows_in DFloat nc (float_row nc) a /\ a_len a = nr.
Proof. intros (H1 & H2 & H3 & H4). repeat split; assumption. Qed.

Lemma uniform_float {W} (g : rng W) u size w a w' : uniform_sample g u size w = (Ok a, w') -> float_matrix (Z.to_nat size) (Z.to_nat (ui_n u)) a.
Proof.
  unfold uniform_sample. destruct (ui_n u <? 0)%Z; [discriminate|]. unfold np_uniform.
  destruct (ui_lo u) as [|p|? l], (ui_hi u) as [|q|? l']; intros H0; try discriminate;
    repeat (match type of H0 with (if ?b then _ else _) = _ => destruct b; try discriminate end);
    destruct (g_unif g _ _ w) as [z w1]; assert (Ha : exists f, a = float_arr (Z.to_nat size) (Z.to_nat (ui_n u)) f) by (eexists; inversion H0; reflexivity);
    destruct Ha as [f ->]; apply float_arr_matrix.
Qed.

(* ---------------- adding noise to floats ---------------- *)

Lemma add_zero_floats n r : float_row n r -> exists r', rmapM add_zero_cell r = Ok r' /\ float_row n r'.
Proof.
  intros [Hl H]. revert n Hl. induction H as [|c r [x ->] _ IH]; intros n Hl; [exists []; repeat split; auto|].
  destruct n as [|n]; [discriminate|]. destruct (IH n ltac:(cbn in Hl; lia)) as (r' & Hr & Hl' & Hf). cbn [rmapM add_zero_cell rbind]. rewrite Hr. cbn [rbind].
  eexists. split; [reflexivity|]. split; [cbn; lia|]. constructor; eauto.
Qed.

Lemma add_mat_floats nc i draw r : forall j n, float_row n r -> exists r', add_mat_cells nc i j draw r = Ok r' /\ float_row n r'.
Proof.
  induction r as [|c r IH]; intros j n [Hl H]; cbn [add_mat_cells]; [exists []; repeat split; auto|].
  inversion H as [|? ? [x ->] Hr]; subst. destruct (IH (Datatypes.S j) (List.length r) (conj eq_refl Hr)) as (r' & Hr' & Hl' & Hf).
  cbn [add_cell rbind]. rewrite Hr'. cbn [rbind]. eexists. split; [reflexivity|]. split; [cbn; lia|]. constructor; eauto.
Qed.

Lemma add_mat_rows_floats nr nc draw n rs : Forall (float_row n) rs -> forall i,
  exists rs', add_mat_rows nr nc i draw rs = Ok rs' /\ Forall (float_row n) rs' /\ List.length rs' = List.length rs.
Proof.
  induction 1 as [|r rs Hr _ IH]; intros i; cbn [add_mat_rows]; [exists []; repeat split; auto|].
  destruct (add_mat_floats nc (bidx nr i) draw r 0 n Hr) as (r' & -> & Hr'). cbn [rbind].
  destruct (IH (Datatypes.S i)) as (rs' & -> & H1 & H2). cbn [rbind]. eexists. split; [reflexivity|]. split; [constructor; assumption|cbn; lia].
Qed.

Lemma iadd_floats n a wn : rows_in DFloat n (float_row n) a ->
  match iadd a wn with
  | Ok t => rows_in DFloat n (float_row n) t /\ a_len t = a_len a
  | Raise _ => wn = NoiseStr \/ exists nr nc d, wn = NoiseMat nr nc d /\ (nr <> a_len a \/ nc <> n)
  end.
Proof.
  intros (H1 & H2 & H3). destruct wn as [| |nr nc d]; cbn [iadd].
  - assert (G : exists rs', rmapM (rmapM add_zero_cell) (a_rows a) = Ok rs' /\ Forall (float_row n) rs' /\ List.length rs' = List.length (a_rows a)).
    { clear H1 H2. induction H3 as [|r rs Hr _ IH]; [exists []; repeat split; auto|]. destruct (add_zero_floats n r Hr) as (r' & Hr' & Hf).
      destruct IH as (rs' & IH1 & IH2 & IH3). cbn [rmapM]. rewrite Hr'. cbn [rbind]. rewrite IH1. cbn [rbind]. eexists. split; [reflexivity|].
      split; [constructor; assumption|cbn; lia]. }
    destruct G as (rs' & -> & G1 & G2). cbn [rmap]. repeat split; assumption.
  - rewrite H1. left; reflexivity.
  - rewrite H1. destruct (broadcasts nr (a_len a) && broadcasts nc (a_nc a)) eqn:Eb.
    + destruct (add_mat_rows_floats nr nc d n (a_rows a) H3 0) as (rs' & -> & G1 & G2). cbn [rmap]. repeat split; assumption.
    + right. exists nr, nc, d. split; [reflexivity|]. rewrite H2 in Eb.
      destruct (Nat.eq_dec nr (a_len a)) as [E1|]; [|left; assumption]. destruct (Nat.eq_dec nc n) as [E2|]; [|right; assumption].
      exfalso. subst. unfold broadcasts in Eb. rewrite !Nat.eqb_refl in Eb. discriminate.
Qed.

(* ---------------- learning from floats ---------------- *)

Lemma num_col_floats n a i : rows_in DFloat n (float_row n) a -> i < n -> exists x, num_col a i = Ok x /\ List.length x = a_len a.
Proof.
  intros (_ & H2 & H3) Hi. unfold num_col. rewrite H2. destruct (Nat.ltb_spec i n); [|lia]. unfold a_len.
  induction H3 as [|r rs [Hl Hr] _ IH]; [exists []; auto|]. destruct IH as (x & Hx & Hlx). cbn [rmapM]. rewrite Forall_forall in Hr.
  assert (Hir : i < List.length r) by lia. destruct (Hr _ (nth_In r (CF fnan) Hir)) as [y ->]. cbn [cell_num rbind]. rewrite Hx. cbn [rbind]. eexists. split; [reflexivity|]. cbn. congruence.
Qed.

Section Gauss.
Context {X W : Type}.
Variable E : env X W.

(** A model with a mean and a deviation for each of [n] variables; [least] is the number of rows
    its learning needs. *)
Definition gauss_state (n : nat) (p : pmstate X) : Prop :=
  exists lower pm, List.length pm = n /\ (ps_pm p = Some (MUniGauss lower pm) \/ exists al, ps_pm p = Some (MAdapt lower al pm)).
Definition uni_state (n : nat) (p : pmstate X) : Prop :=
  exists lower pm, List.length pm = n /\ ps_pm p = Some (MUniGauss lower pm).
Definition learned_state (n : nat) (p : pmstate X) : Prop :=
  exists lower pm, List.length pm = n /\ Forall (fun ms => neg_signed (snd ms) = false) pm /\
    (ps_pm p = Some (MUniGauss lower pm) \/ exists al, ps_pm p = Some (MAdapt lower al pm)).

Lemma learn_from_length {T} upd (pm : list (T * T)) : forall i, List.length (snd (learn_from upd i pm)) = List.length pm.
Proof.
  induction pm as [|p pm IH]; intros i; cbn [learn_from]; [reflexivity|]. destruct (upd i); [|reflexivity].
  specialize (IH (Datatypes.S i)). destruct (learn_from upd (Datatypes.S i) pm). cbn in *. congruence.
Qed.

Lemma learn_from_all {T} (R : T * T -> Prop) upd (pm : list (T * T)) : forall i pm',
  (forall j q, upd j = Ok q -> R q) -> learn_from upd i pm = (Ok tt, pm') -> Forall R pm'.
Proof.
  induction pm as [|p pm IH]; intros i pm' HR H; cbn [learn_from] in H; [injection H as <-; constructor|].
  destruct (upd i) as [q|] eqn:Eq; [|discriminate]. destruct (learn_from upd (Datatypes.S i) pm) as [r pm2] eqn:E2.
  assert (r = Ok tt /\ pm' = q :: pm2) as [-> ->] by (split; congruence). constructor; [eapply HR, Eq|eapply IH; eassumption].
Qed.

Lemma model_state_learn n a m w :
  sum_ok (e_sum E) -> rows_in DFloat n (float_row n) a ->
  (exists lower pm, List.length pm = n /\ (m = MUniGauss lower pm \/ exists al, m = MAdapt lower al pm)) ->
  let '(r, (m', w')) := model_learn E a m w in
  (exists lower pm, List.length pm = n /\ (m' = MUniGauss lower pm \/ exists al, m' = MAdapt lower al pm)) /\
  ((exists lower pm, m = MUniGauss lower pm) -> exists lower pm, List.length pm = n /\ m' = MUniGauss lower pm) /\
  match r with
  | Ok _ => exists lower pm, List.length pm = n /\ Forall (fun ms => neg_signed (snd ms) = false) pm /\ (m' = MUniGauss lower pm \/ exists al, m' = MAdapt lower al pm)
  | Raise e => a_len a < 2 /\ ~ exists lower pm, m = MUniGauss lower pm
  end.
Proof.
  intros Hs Ha (lower & pm & Hl & [-> | [al ->]]); cbn [model_learn].
  - unfold unigauss_learn.
    pose proof (learn_from_length (unigauss_upd (b64_ops (e_sum E)) lower (num_col a)) pm 0) as Hlen.
    destruct (learn_from_total (unigauss_upd (b64_ops (e_sum E)) lower (num_col a)) pm 0) as [pm' Hpm].
    { intros j Hj. cbn [Nat.add]. destruct (num_col_floats n a j Ha ltac:(lia)) as (x & Hx & _). unfold unigauss_upd. rewrite Hx. cbn [rmap]. eauto. }
    rewrite Hpm in *. cbn [snd] in Hlen. split; [|split].
    + exists lower, pm'. split; [congruence|left; reflexivity].
    + intros _. exists lower, pm'. split; [congruence|reflexivity].
    + exists lower, pm'. split; [congruence|]. split; [|left; reflexivity].
      eapply learn_from_all; [|exact Hpm]. intros j q. unfold unigauss_upd. destruct (num_col a j) as [x|]; cbn [rmap]; [|discriminate].
      intros H. assert (Eq : q = (mean (b64_ops (e_sum E)) x, raise_to (b64_ops (e_sum E)) lower (std (b64_ops (e_sum E)) x))) by congruence.
      subst q. cbn [snd]. apply raised_nonneg, std_nonneg, Hs.
  - unfold adapt_learn.
    pose proof (learn_from_length (adapt_upd (b64_ops (e_sum E)) lower al (num_col a)) pm 0) as Hlen.
    destruct (learn_from (adapt_upd (b64_ops (e_sum E)) lower al (num_col a)) 0 pm) as [r pm'] eqn:Hpm. cbn [snd] in Hlen. split; [|split].
    + exists lower, pm'. split; [congruence|right; eauto].
    + intros (lo' & pm2 & H). discriminate H.
    + destruct r as [[]|e].
      * exists lower, pm'. split; [congruence|]. split; [|right; eauto].
        eapply learn_from_all; [|exact Hpm]. intros j q. unfold adapt_upd. destruct (num_col a j) as [x|]; cbn [rbind]; [|discriminate].
        destruct x as [|b1 [|b2 x]]; try discriminate. set (y := b1 :: b2 :: x).
        match goal with |- Ok (?m, ?v) = Ok q -> _ => intros H; assert (Eq : q = (m, v)) by congruence; subst q; cbn [snd] end.
        apply raised_nonneg, std_nonneg, Hs.
      * split; [|intros (lo' & pm2 & H); discriminate H].
        destruct (Nat.lt_ge_cases (a_len a) 2) as [|Hge]; [assumption|exfalso].
        destruct (learn_from_total (adapt_upd (b64_ops (e_sum E)) lower al (num_col a)) pm 0) as [pm2 Hpm2]; [|congruence].
        intros j Hj. cbn [Nat.add]. destruct (num_col_floats n a j Ha ltac:(lia)) as (x & Hx & Hlx). unfold adapt_upd. rewrite Hx. cbn [rbind].
        destruct x as [|b1 [|b2 x]]; cbn [List.length] in Hlx; try lia. eauto.
Qed.

(** The initialiser and the arguments under which it always succeeds. *)
Definition float_initr (i : initr) (n : Z) : Prop :=
  match i with IUniform u => ui_n u = n | IUniGauss i => gi_n i = n | _ => False end.

Lemma float_initr_sample i n size w a w' : float_initr i n -> initr_sample E i size w = (Ok a, w') ->
  rows_in DFloat (Z.to_nat n) (float_row (Z.to_nat n)) a /\ a_len a = Z.to_nat size.
Proof.
  destruct i as [i|i|i|u|i]; cbn [float_initr initr_sample]; try contradiction; intros Hi H.
  - apply np_normal_ok in H as [H _]. rewrite Hi in H. apply matrix_rows, H.
  - apply uniform_float in H. rewrite Hi in H. apply matrix_rows, H.
Qed.

Variables (P : pmstate X -> Prop) (least : nat).
(** [uni_state] with [least = 1] for UMDAc, [gauss_state] with [least = 2] for PBIL. *)
Definition kind_ok (n : nat) : Prop := (P = uni_state n /\ 1 <= least) \/ (P = gauss_state n /\ 2 <= least).

Lemma gauss_spec tot (o : optimiser X) cost n K i :
  kind_ok n -> op_upd o = FromSelection -> op_init o = Some i -> float_initr i (c_nvars (op_cfg o)) -> n = Z.to_nat (c_nvars (op_cfg o)) -> sum_ok (e_sum E) ->
  (forall d, c_init_data (op_cfg o) = Some d -> rows_in DFloat n (float_row n) d /\ K <= a_len d) -> K <= Z.to_nat (c_size_gen (op_cfg o)) ->
  (tot = true -> argsort_ok (e_argsort E) /\ cost_total (float_row n) cost /\ least <= K /\
     (c_parallelize (op_cfg o) = false \/ cpu_count (e_pool E) <= K) /\ (Z.of_nat least <= c_trunc_len (op_cfg o))%Z /\
     noise_refused (op_cfg o) = false /\ py_eq_int (c_w_noise (op_cfg o)) (-1) = false /\
     (py_eq_int (c_w_noise (op_cfg o)) 0 = true \/ Z.to_nat (c_trunc_len (op_cfg o)) <= K) /\
     (c_init_data (op_cfg o) = None -> forall w, exists a w', initr_sample E i (c_size_gen (op_cfg o)) w = (Ok a, w'))) ->
  loop_spec (op_cfg o) (hooks_of E o cost)
    (fun a => rows_in DFloat n (float_row n) a /\ K <= a_len a) (rows_in DFloat n (float_row n))
    (fun a => rows_in DFloat n (float_row n) a /\ (tot = true -> least <= a_len a)) (fun a => rows_in DFloat n (float_row n) a /\ (tot = true -> least <= a_len a))
    P (fun _ => learned_state n) (fun _ _ => True) (float_row n) (fun v => tot = true -> not_nan v) (fun _ => tot = false).
Proof.
  intros Hkind Hupd Hini Hfl Hn Hs Hinit HK Htot.
  assert (Hgs : forall p, P p -> exists m, ps_pm p = Some m /\ exists lower pm, List.length pm = n /\ (m = MUniGauss lower pm \/ exists al, m = MAdapt lower al pm)).
  { intros p Hp. destruct Hkind as [[-> _]|[-> _]].
    - destruct Hp as (lower & pm & Hl & Hp). exists (MUniGauss lower pm). split; [exact Hp|]. exists lower, pm. auto.
    - destruct Hp as (lower & pm & Hl & [Hp|[al Hp]]); eexists; (split; [exact Hp|]); exists lower, pm; (split; [exact Hl|]); [left|right]; eauto. }
  apply selection_spec.
  - apply rows_in_closed.
  - exact Hupd.
  - intros T. destruct (Htot T) as (A1 & A2 & A3 & A4 & A5 & A6 & _). assert (1 <= least) by (destruct Hkind as [[_ H]|[_ H]]; lia).
    refine (conj A1 (conj A2 (conj _ (conj A6 A4)))). lia.
  - destruct (c_init_data (op_cfg o)) as [d|]; [apply Hinit; reflexivity|]. intros w. cbn [hooks_of h_init]. rewrite Hini.
    destruct (initr_sample E i (c_size_gen (op_cfg o)) w) as [[a|e] w'] eqn:Es; cbn [fst].
    + destruct (float_initr_sample _ _ _ _ _ _ Hfl Es) as [R1 R2]. rewrite <- Hn in R1. split; [exact R1|lia].
    + destruct tot; [exfalso|reflexivity]. destruct (Htot eq_refl) as (_ & _ & _ & _ & _ & _ & _ & _ & A9).
      destruct (A9 eq_refl w) as (a & w'' & H). congruence.
  - intros sel wn Hsel Hwn Hsz. pose proof (iadd_floats n sel wn Hsel) as Hi. destruct (iadd sel wn) as [t|e].
    + destruct Hi as [Hi1 Hi2]. split; [exact Hi1|]. intros T. destruct (Htot T) as (A1 & _ & A3 & _ & A5 & _).
      destruct (Hsz A1 ltac:(lia)) as [k Hk]. rewrite Hi2, Hk. lia.
    + destruct tot; [exfalso|reflexivity]. destruct (Htot eq_refl) as (A1 & _ & A3 & _ & A5 & _ & A7 & A8 & _).
      destruct Hi as [-> |(nr & nc & dr & -> & Hd)]; cbn [noise_cfg] in Hwn.
      * destruct Hwn as [_ Hwn]. congruence.
      * destruct Hwn as (W1 & _ & _ & _ & -> & ->). destruct A8 as [A8|A8]; [congruence|].
        destruct (Hsz A1 ltac:(lia)) as [k Hk]. rewrite Hk in Hd. lia.
  - intros a p w [Ha Hne] Hp. cbn [hooks_of h_learn]. destruct (Hgs p Hp) as (m & Hm & Hg). rewrite Hm.
    pose proof (model_state_learn n a m w Hs Ha Hg) as H. destruct (model_learn E a m w) as [r [m' w']]. destruct H as (H1 & H2 & H3). split.
    + destruct Hkind as [[-> _]|[-> _]].
      * destruct Hp as (lower & pm & Hl & Hp). rewrite Hm in Hp. assert (m = MUniGauss lower pm) by congruence.
        destruct H2 as (lo' & pm' & Hl' & ->); [eauto|]. exists lo', pm'. auto.
      * destruct H1 as (lo' & pm' & Hl' & H1). exists lo', pm'. split; [exact Hl'|]. destruct H1 as [-> |[al ->]]; [left|right]; cbn; eauto.
    + destruct r as [u|e].
      * destruct H3 as (lo' & pm' & Hl' & Hf & H3). exists lo', pm'. split; [exact Hl'|]. split; [exact Hf|].
        destruct H3 as [-> |[al ->]]; [left|right]; cbn; eauto.
      * destruct tot; [exfalso|reflexivity]. destruct H3 as [H3 H4]. specialize (Hne eq_refl). destruct Hkind as [[-> Hk]|[-> Hk]]; [|lia].
        destruct Hp as (lower & pm & Hl & Hp). apply H4. exists lower, pm. congruence.
  - intros a p w _ _ (lower & pm & Hl & Hf & Hm). cbn [hooks_of h_sample].
    assert (Hsm : exists m, ps_pm p = Some m /\ model_sample E m (c_size_gen (op_cfg o)) w = gauss_sample (e_rng E) pm (c_size_gen (op_cfg o)) w).
    { destruct Hm as [Hm|[al Hm]]; eexists; (split; [exact Hm|reflexivity]). }
    destruct Hsm as (m & Hpm & Hsm). rewrite Hpm, Hsm. unfold gauss_sample.
    destruct (np_normal (e_rng E) (map fst pm) (map snd pm) (c_size_gen (op_cfg o)) (List.length pm) w) as [[b|e] w'] eqn:Es; cbn [fst].
    + apply np_normal_ok in Es as [Es _]. rewrite Hl in Es. apply matrix_rows in Es as [S1 S2]. split; [|exact I]. split; [exact S1|lia].
    + destruct tot; [exfalso|reflexivity]. destruct (Htot eq_refl) as (_ & _ & A3 & _ & A5 & _).
      destruct (np_normal_total (e_rng E) (map fst pm) (map snd pm) (c_size_gen (op_cfg o)) (List.length pm) w) as (b & w2 & Hb).
      * apply not_true_is_false. intros Hex. apply existsb_exists in Hex as (x & Hin & Hx). apply in_map_iff in Hin as (ms & <- & Hin).
        rewrite Forall_forall in Hf. rewrite (Hf _ Hin) in Hx. discriminate.
      * assert (1 <= least) by (destruct Hkind as [[_ H]|[_ H]]; lia). lia.
      * apply map_length.
      * apply map_length.
      * congruence.
Qed.


(** Calls after any history. *)
Lemma gauss_run tot (o0 o : optimiser X) cost n K i a ftol out w r s :
  kind_ok n -> P (op_st o0) -> used E o0 o ->
  op_upd o0 = FromSelection -> op_init o0 = Some i -> float_initr i (c_nvars (op_cfg o0)) -> n = Z.to_nat (c_nvars (op_cfg o0)) -> sum_ok (e_sum E) ->
  (forall d, c_init_data (op_cfg o0) = Some d -> rows_in DFloat n (float_row n) d /\ K <= a_len d) -> K <= Z.to_nat (c_size_gen (op_cfg o0)) ->
  (tot = true -> argsort_ok (e_argsort E) /\ cost_total (float_row n) cost /\ least <= K /\
     (c_parallelize (op_cfg o0) = false \/ cpu_count (e_pool E) <= K) /\ (Z.of_nat least <= c_trunc_len (op_cfg o0))%Z /\
     noise_refused (op_cfg o0) = false /\ py_eq_int (c_w_noise (op_cfg o0)) (-1) = false /\
     (py_eq_int (c_w_noise (op_cfg o0)) 0 = true \/ Z.to_nat (c_trunc_len (op_cfg o0)) <= K) /\
     (c_init_data (op_cfg o0) = None -> forall w, exists a w', initr_sample E i (c_size_gen (op_cfg o0)) w = (Ok a, w'))) ->
  run_in E a o cost ftol out w = (r, s) ->
  Forall (rows_in DFloat n (float_row n)) (map fst (gens (s_tr s))) /\
  Forall (fun rv => float_row n (fst rv)) (calls (s_tr s)) /\
  (tot = true -> exists res, r = Ok res) /\
  (forall res, r = Ok res -> best_ok (float_row n) (r_best_ind res)).
Proof.
  intros Hkind H0 Hu Hupd Hini Hfl Hn Hs Hinit HK Htot Hr.
  assert (HQ : P (op_st o)).
  { revert o Hu Hr. refine (fun o Hu _ => used_keeps E P o0 _ H0 o Hu).
    intros o1 a1 cost1 ftol1 out1 w1 r1 s1 E1 E2 E3 HQ Hr1.
    assert (L : loop_spec (op_cfg o1) (hooks_of E o1 cost1)
      (fun a => rows_in DFloat n (float_row n) a /\ 0 <= a_len a) (rows_in DFloat n (float_row n))
      (fun a => rows_in DFloat n (float_row n) a /\ (false = true -> least <= a_len a)) (fun a => rows_in DFloat n (float_row n) a /\ (false = true -> least <= a_len a))
      P (fun _ => learned_state n) (fun _ _ => True) (float_row n) (fun v => false = true -> not_nan v) (fun _ => false = false)).
    { apply gauss_spec with (i := i); rewrite ?E1, ?E2, ?E3; try assumption; try discriminate; try lia.
      intros d Hd. split; [apply Hinit, Hd|lia]. }
    apply (run_spec E false _ _ _ _ _ _ _ _ _ _ _ _ _ _ _ _ _ L HQ Hr1). }
  destruct (used_setup E _ _ Hu) as (E1 & E2 & E3 & _).
  assert (L : loop_spec (op_cfg o) (hooks_of E o cost)
      (fun a => rows_in DFloat n (float_row n) a /\ K <= a_len a) (rows_in DFloat n (float_row n))
      (fun a => rows_in DFloat n (float_row n) a /\ (tot = true -> least <= a_len a)) (fun a => rows_in DFloat n (float_row n) a /\ (tot = true -> least <= a_len a))
      P (fun _ => learned_state n) (fun _ _ => True) (float_row n) (fun v => tot = true -> not_nan v) (fun _ => tot = false)).
  { apply gauss_spec with (i := i); rewrite ?E1, ?E2, ?E3; assumption. }
  destruct (run_spec E tot _ _ _ _ _ _ _ _ _ _ _ _ _ _ _ _ _ L HQ Hr) as (_ & (T1 & _ & T3 & _) & T4 & T5).
  split; [|split; [|split; assumption]].
  - eapply Forall_impl; [|exact T1]. intros gv H. apply H.
  - eapply Forall_impl; [|exact T3]. intros rv H. apply H.
Qed.

End Gauss.

(* ------------------------------------------------------------------ *)
(** ** The constructors *)

Section Ctors.
Context {X W : Type}.
Variable E : env X W.

(** What the user must pass for sampling the first generation: bounds, finite and in order for
    every variable, or a vector whose deviations are not negative. *)
Definition bounds_ok (n : nat) (lo hi : bound) : Prop :=
  full_bound n lo /\ full_bound n hi /\
  (forall j l h, j < n -> bound_of lo j l -> bound_of hi j h -> isfin l = true /\ isfin h = true /\ fle l h = true /\ isfin (fsub h l) = true).
Definition start_ok (n : nat) (vector : option (list (list f64))) (lo hi : bound) : Prop :=
  match vector with
  | Some [ms; ss] => Forall (fun x => neg_signed x = false) ss
  | Some _ => False
  | None => bounds_ok n lo hi
  end.

(** No noise, or an intensity that is not negative. *)
Definition noise_ok (wn : option pynum) : Prop := match wn with None => True | Some p => fle (Z2f 0) (num_to_f p) = true end.

Lemma noise_ok_cfg wn p : noise_ok wn -> p = match wn with Some p => if py_eq_int p 0 then PyI 0 else p | None => PyI 0 end ->
  py_eq_int p (-1) = false /\ flt (num_to_f p) (Z2f 0) = false.
Proof.
  assert (F0 : flt (num_to_f (PyI 0)) (Z2f 0) = false) by (vm_compute; reflexivity).
  intros H ->. destruct wn as [p|]; [|split; [reflexivity|exact F0]]. destruct (py_eq_int p 0); [split; [reflexivity|exact F0]|].
  cbn [noise_ok] in H. split.
  - destruct p as [z|x]; cbn [py_eq_int num_to_f] in *.
    + apply Z.eqb_neq. intros ->. assert (F : fle (Z2f 0) (Z2f (-1)) = false) by (vm_compute; reflexivity). congruence.
    + destruct (feq x (Z2f (-1))) eqn:Ef; [|reflexivity]. exfalso.
      assert (G : fle (Z2f 0) (Z2f (-1)) = true).
      { eapply fle_trans; [exact H|]. apply feq_fle, Ef. }
      assert (F : fle (Z2f 0) (Z2f (-1)) = false) by (vm_compute; reflexivity). congruence.
  - apply fle_flt_false, H.
Qed.

Lemma vector_or_bounds_total n vector lo hi i size w :
  unif_ok (e_rng E) -> vector_or_bounds n vector lo hi = Ok i -> (0 < n)%Z -> (0 <= size)%Z -> start_ok (Z.to_nat n) vector lo hi ->
  float_initr i n /\ exists a w', initr_sample E i size w = (Ok a, w').
Proof.
  intros Hu Hv Hn Hs Hst. unfold vector_or_bounds in Hv. destruct vector as [[|ms [|ss [|? ?]]]|]; try discriminate.
  - destruct (Z.eqb_spec (Z.of_nat (List.length ms)) n) as [Hm|]; [|discriminate].
    destruct (Z.eqb_spec (Z.of_nat (List.length ss)) n) as [Hss|]; [|discriminate]. cbn [andb] in Hv.
    assert (Ei : i = IUniGauss (mkGI n ms ss)) by congruence. subst i. split; [reflexivity|]. cbn [initr_sample]. unfold unigauss_init_sample. cbn [gi_n gi_means gi_stds].
    apply np_normal_total; try lia. apply not_true_is_false. intros Hex. apply existsb_exists in Hex as (x & Hin & Hx).
    cbn [start_ok] in Hst. rewrite Forall_forall in Hst. rewrite (Hst _ Hin) in Hx. discriminate.
  - destruct (uniform_new n lo hi) as [u|] eqn:Eu; [|discriminate]. cbn [rmap] in Hv. assert (Ei : i = IUniform u) by congruence. subst i.
    destruct Hst as (B1 & B2 & B3). rewrite <- (Z2Nat.id n) in Eu by lia.
    destruct (uniform_sample_spec (e_rng E) (Z.to_nat n) lo hi u size w Hu Eu B1 B2 ltac:(lia) B3 Hs) as (a & w' & Ha & _).
    split; [|exists a, w'; exact Ha]. cbn [float_initr]. unfold uniform_new in Eu. destruct (_ && _); [|discriminate].
    assert (u = mkUI (Z.of_nat (Z.to_nat n)) lo hi) by congruence. subst u. cbn [ui_n]. lia.
Qed.

Lemma vector_or_bounds_float n vector lo hi i : vector_or_bounds n vector lo hi = Ok i -> float_initr i n.
Proof.
  unfold vector_or_bounds. destruct vector as [[|ms [|ss [|? ?]]]|]; try discriminate.
  - destruct (_ && _); [|discriminate]. intros H. assert (Ei : i = IUniGauss (mkGI n ms ss)) by congruence. subst i. reflexivity.
  - unfold uniform_new. destruct (_ && _); [|discriminate]. cbn [rmap]. intros H. assert (Ei : i = IUniform (mkUI n lo hi)) by congruence. subst i. reflexivity.
Qed.

Lemma umdac_inv g lo hi vector lf wn (o : optimiser X) : umdac_new g lo hi vector lf wn = Ok o ->
  eda_init (g_size_gen g) (g_max_iter g) (g_dead_iter g) (g_nvars g) (g_alpha g) (g_elite_factor g)
           (g_disp g) (g_parallelize g) (g_init_data g) wn = Ok (op_cfg o) /\
  (0 <= g_nvars g)%Z /\ ps_pm (op_st o) = Some (MUniGauss lf (gauss_new (Z.to_nat (g_nvars g)))) /\
  (exists i, op_init o = Some i /\ vector_or_bounds (g_nvars g) vector lo hi = Ok i) /\
  op_upd o = FromSelection /\ op_exp o = Plain.
Proof.
  unfold umdac_new, base, names.
  destruct (eda_init _ _ _ _ _ _ _ _ _ _) as [c|] eqn:Ec; cbn [rmap rbind]; [|discriminate].
  pose proof (eda_init_inv _ _ _ _ _ _ _ _ _ _ _ Ec) as (_ & _ & _ & Hn & _).
  destruct (vector_or_bounds _ _ _ _) as [i|] eqn:Ei; cbn [rbind]; [|discriminate].
  unfold assign_init, set_init. cbn [op_cfg]. destruct (Z.eqb_spec (initr_width i) (c_nvars c)); cbn [rmap rbind]; [|discriminate].
  unfold assign_pm, set_pm. cbn [with_init op_cfg model_width]. unfold gauss_new at 1. rewrite repeat_length, Hn.
  destruct (Z.eqb_spec (Z.of_nat (Z.to_nat (g_nvars g))) (g_nvars g)) as [Hz|]; cbn [rmap]; [|discriminate].
  intros H. match type of H with Ok ?x = _ => assert (Ho : o = x) by congruence end. subst o.
  split; [reflexivity|]. split; [lia|]. split; [reflexivity|]. split; [exists i; split; reflexivity|]. split; reflexivity.
Qed.

Lemma pbil_inv g lo hi vector lf wn (o : optimiser X) : pbil_new g lo hi vector lf wn = Ok o ->
  eda_init (g_size_gen g) (g_max_iter g) (g_dead_iter g) (g_nvars g) (PyI 1) (g_elite_factor g)
           (g_disp g) (g_parallelize g) (g_init_data g) wn = Ok (op_cfg o) /\
  (0 <= g_nvars g)%Z /\ ps_pm (op_st o) = Some (MAdapt lf (num_to_f (g_alpha g)) (gauss_new (Z.to_nat (g_nvars g)))) /\
  (exists i, op_init o = Some i /\ vector_or_bounds (g_nvars g) vector lo hi = Ok i) /\
  op_upd o = FromSelection /\ op_exp o = Plain.
Proof.
  unfold pbil_new, base, names.
  destruct (eda_init _ _ _ _ _ _ _ _ _ _) as [c|] eqn:Ec; cbn [rmap rbind]; [|discriminate].
  pose proof (eda_init_inv _ _ _ _ _ _ _ _ _ _ _ Ec) as (_ & _ & _ & Hn & _).
  destruct (vector_or_bounds _ _ _ _) as [i|] eqn:Ei; cbn [rbind]; [|discriminate].
  unfold assign_init, set_init. cbn [op_cfg]. destruct (Z.eqb_spec (initr_width i) (c_nvars c)); cbn [rmap rbind]; [|discriminate].
  unfold assign_pm, set_pm. cbn [with_init op_cfg model_width]. unfold gauss_new at 1. rewrite repeat_length, Hn.
  destruct (Z.eqb_spec (Z.of_nat (Z.to_nat (g_nvars g))) (g_nvars g)) as [Hz|]; cbn [rmap]; [|discriminate].
  intros H. match type of H with Ok ?x = _ => assert (Ho : o = x) by congruence end. subst o.
  split; [reflexivity|]. split; [lia|]. split; [reflexivity|]. split; [exists i; split; reflexivity|]. split; reflexivity.
Qed.

(** Initial data the user passes: a float matrix of at least [k] rows. *)
Definition data_ok (n k : nat) (init : option arr) : Prop :=
  forall d, init = Some d -> rows_in DFloat n (float_row n) d /\ k <= a_len d.

Lemma kind_run (P : pmstate X -> Prop) least g alpha lo hi vector wn (o0 o : optimiser X) i cost a ftol out w t :
  eda_init (g_size_gen g) (g_max_iter g) (g_dead_iter g) (g_nvars g) alpha (g_elite_factor g)
           (g_disp g) (g_parallelize g) (g_init_data g) wn = Ok (op_cfg o0) ->
  kind_ok P least (Z.to_nat (g_nvars g)) -> P (op_st o0) -> op_init o0 = Some i -> vector_or_bounds (g_nvars g) vector lo hi = Ok i ->
  op_upd o0 = FromSelection -> used E o0 o -> sum_ok (e_sum E) -> argsort_ok (e_argsort E) -> unif_ok (e_rng E) ->
  (1 <= g_nvars g)%Z -> int_times (g_size_gen g) alpha = Ok t -> (Z.of_nat least <= t <= g_size_gen g)%Z ->
  start_ok (Z.to_nat (g_nvars g)) vector lo hi \/ (exists d, g_init_data g = Some d) ->
  data_ok (Z.to_nat (g_nvars g)) (Z.to_nat t) (g_init_data g) -> noise_ok wn ->
  (g_parallelize g = true -> cpu_count (e_pool E) <= Z.to_nat (g_size_gen g) /\ forall d, g_init_data g = Some d -> cpu_count (e_pool E) <= a_len d) ->
  cost_total (float_row (Z.to_nat (g_nvars g))) cost ->
  exists res s, run_in E a o cost ftol out w = (Ok res, s).
Proof.
  intros Hcfg Hkind HP Hini Hvb Hupd Hu Hs Has Hun Hn Ht Hts Hst Hdat Hno Hpar Hcost.
  pose proof (eda_init_inv _ _ _ _ _ _ _ _ _ _ _ Hcfg) as (C1 & _ & _ & C4 & _ & _ & _ & C8 & C9 & C10 & C11 & _).
  assert (Et : c_trunc_len (op_cfg o0) = t) by congruence.
  destruct (noise_ok_cfg wn _ Hno C10) as [N1 N2].
  pose (K := match g_init_data g with Some d => Nat.min (Z.to_nat (g_size_gen g)) (a_len d) | None => Z.to_nat (g_size_gen g) end).
  assert (HKs : K <= Z.to_nat (g_size_gen g)) by (unfold K; destruct (g_init_data g); lia).
  assert (HtK : Z.to_nat t <= K).
  { unfold K. destruct (g_init_data g) as [d|] eqn:Ed; [|lia]. destruct (Hdat d eq_refl) as [_ Hd]. lia. }
  destruct (run_in E a o cost ftol out w) as [r s] eqn:Er.
  destruct (gauss_run E P least true o0 o cost (Z.to_nat (g_nvars g)) K i a ftol out w r s) as (_ & _ & H & _); try assumption; try (rewrite C4; reflexivity).
  - rewrite C4. eapply vector_or_bounds_float, Hvb.
  - intros d Hd. rewrite C9 in Hd. destruct (Hdat d Hd) as [D1 _]. split; [exact D1|]. unfold K. rewrite Hd. lia.
  - rewrite C1. exact HKs.
  - intros _. split; [exact Has|]. split; [exact Hcost|]. split; [lia|]. split.
    { rewrite C8. destruct (g_parallelize g) eqn:Ep; [right|left; reflexivity]. destruct (Hpar eq_refl) as [P1 P2].
      unfold K. destruct (g_init_data g) as [d|] eqn:Ed; [specialize (P2 d eq_refl); lia|exact P1]. }
    rewrite Et, C1. split; [lia|]. split.
    { unfold noise_refused. rewrite N2, Et, C4. destruct (Z.ltb_spec t 0); [lia|]. destruct (Z.ltb_spec (g_nvars g) 0); [lia|]. cbn. apply andb_false_r. }
    split; [exact N1|]. split; [right; lia|].
    intros Hnone w1. rewrite C9 in Hnone. destruct Hst as [Hst|[d Hd]]; [|congruence].
    eapply vector_or_bounds_total; try eassumption; lia.
  - destruct (H eq_refl) as [res ->]. eauto.
Qed.

Lemma umdac_completes g lo hi vector lf wn (o0 o : optimiser X) cost a ftol out w t :
  umdac_new g lo hi vector lf wn = Ok o0 -> used E o0 o -> sum_ok (e_sum E) -> argsort_ok (e_argsort E) -> unif_ok (e_rng E) ->
  (1 <= g_nvars g)%Z -> int_times (g_size_gen g) (g_alpha g) = Ok t -> (1 <= t <= g_size_gen g)%Z ->
  start_ok (Z.to_nat (g_nvars g)) vector lo hi \/ (exists d, g_init_data g = Some d) ->
  data_ok (Z.to_nat (g_nvars g)) (Z.to_nat t) (g_init_data g) -> noise_ok wn ->
  (g_parallelize g = true -> cpu_count (e_pool E) <= Z.to_nat (g_size_gen g) /\ forall d, g_init_data g = Some d -> cpu_count (e_pool E) <= a_len d) ->
  cost_total (float_row (Z.to_nat (g_nvars g))) cost ->
  exists res s, run_in E a o cost ftol out w = (Ok res, s).
Proof.
  intros Hnew Hu Hs Has Hun Hn Ht Hts. destruct (umdac_inv _ _ _ _ _ _ _ Hnew) as (Hc & _ & Hpm & (i & Hi & Hvb) & Hupd & _). intros.
  eapply (kind_run (uni_state (Z.to_nat (g_nvars g))) 1); try eassumption; [left; split; [reflexivity|lia]|].
  eexists _, _. split; [|exact Hpm]. apply repeat_length.
Qed.

Lemma pbil_completes g lo hi vector lf wn (o0 o : optimiser X) cost a ftol out w :
  pbil_new g lo hi vector lf wn = Ok o0 -> used E o0 o -> sum_ok (e_sum E) -> argsort_ok (e_argsort E) -> unif_ok (e_rng E) ->
  (1 <= g_nvars g)%Z -> (2 <= g_size_gen g)%Z ->
  start_ok (Z.to_nat (g_nvars g)) vector lo hi \/ (exists d, g_init_data g = Some d) ->
  data_ok (Z.to_nat (g_nvars g)) (Z.to_nat (g_size_gen g)) (g_init_data g) -> noise_ok wn ->
  (g_parallelize g = true -> cpu_count (e_pool E) <= Z.to_nat (g_size_gen g)) ->
  cost_total (float_row (Z.to_nat (g_nvars g))) cost ->
  exists res s, run_in E a o cost ftol out w = (Ok res, s).
Proof.
  intros Hnew Hu Hs Has Hun Hn Ht. destruct (pbil_inv _ _ _ _ _ _ _ Hnew) as (Hc & _ & Hpm & (i & Hi & Hvb) & Hupd & _). intros Hst Hd Hno Hp Hcost.
  eapply (kind_run (gauss_state (Z.to_nat (g_nvars g))) 2) with (t := (g_size_gen g)%Z); try eassumption.
  - right. split; [reflexivity|lia].
  - eexists _, _. split; [|right; eexists; exact Hpm]. apply repeat_length.
  - cbn [int_times]. f_equal. lia.
  - lia.
  - intros Hpar. specialize (Hp Hpar). split; [exact Hp|]. intros d Hdd. destruct (Hd d Hdd) as [_ D]. lia.
Qed.

(** Every individual is a vector of n_variables floats: no condition on the arguments but the
    type of initial data. *)
Lemma gauss_shape (P : pmstate X -> Prop) least (o0 o : optimiser X) n i cost a ftol out w r s :
  kind_ok P least n -> P (op_st o0) -> used E o0 o -> op_upd o0 = FromSelection -> op_init o0 = Some i ->
  float_initr i (c_nvars (op_cfg o0)) -> n = Z.to_nat (c_nvars (op_cfg o0)) -> sum_ok (e_sum E) ->
  (forall d, c_init_data (op_cfg o0) = Some d -> rows_in DFloat n (float_row n) d) ->
  run_in E a o cost ftol out w = (r, s) ->
  Forall (rows_in DFloat n (float_row n)) (map fst (gens (s_tr s))) /\ Forall (fun rv => float_row n (fst rv)) (calls (s_tr s)) /\
  (forall res, r = Ok res -> best_ok (float_row n) (r_best_ind res)).
Proof.
  intros. destruct (gauss_run E P least false o0 o cost n 0 i a ftol out w r s) as (A & B & _ & C); try assumption; try discriminate; auto.
  - intros d Hd. split; [auto|lia].
  - lia.
Qed.

Lemma umdac_pbil_shape g lo hi vector lf wn (o0 o : optimiser X) cost a ftol out w r s :
  umdac_new g lo hi vector lf wn = Ok o0 \/ pbil_new g lo hi vector lf wn = Ok o0 -> used E o0 o -> sum_ok (e_sum E) ->
  data_ok (Z.to_nat (g_nvars g)) 0 (g_init_data g) ->
  run_in E a o cost ftol out w = (r, s) ->
  let n := Z.to_nat (g_nvars g) in
  Forall (rows_in DFloat n (float_row n)) (map fst (gens (s_tr s))) /\ Forall (fun rv => float_row n (fst rv)) (calls (s_tr s)) /\
  (forall res, r = Ok res -> best_ok (float_row n) (r_best_ind res)).
Proof.
  intros Hnew Hu Hs Hd Hr n.
  assert (G : exists P least alpha i, kind_ok P least n /\ P (op_st o0) /\ op_init o0 = Some i /\ vector_or_bounds (g_nvars g) vector lo hi = Ok i /\ op_upd o0 = FromSelection /\
     eda_init (g_size_gen g) (g_max_iter g) (g_dead_iter g) (g_nvars g) alpha (g_elite_factor g) (g_disp g) (g_parallelize g) (g_init_data g) wn = Ok (op_cfg o0)).
  { destruct Hnew as [Hnew|Hnew].
    - destruct (umdac_inv _ _ _ _ _ _ _ Hnew) as (Hc & _ & Hpm & (i & Hi & Hvb) & Hupd & _).
      exists (uni_state n), 1, (g_alpha g), i. split; [left; auto|]. split; [|auto]. eexists _, _. split; [|exact Hpm]. apply repeat_length.
    - destruct (pbil_inv _ _ _ _ _ _ _ Hnew) as (Hc & _ & Hpm & (i & Hi & Hvb) & Hupd & _).
      exists (gauss_state n), 2, (PyI 1), i. split; [right; auto|]. split; [|auto]. eexists _, _. split; [|right; eexists; exact Hpm]. apply repeat_length. }
  destruct G as (P & least & alpha & i & G1 & G2 & G3 & G4 & G5 & G6).
  pose proof (eda_init_inv _ _ _ _ _ _ _ _ _ _ _ G6) as (_ & _ & _ & C4 & _ & _ & _ & _ & C9 & _).
  apply (gauss_shape P least o0 o n i cost a ftol out w r s); try assumption.
  - rewrite C4. eapply vector_or_bounds_float, G4.
  - rewrite C4. reflexivity.
  - intros d Hdd. rewrite C9 in Hdd. apply (Hd d Hdd).
Qed.

End Ctors.
