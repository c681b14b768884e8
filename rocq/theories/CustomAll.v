(** EDACustom with each combination of a model and a first generation that is not refuted: a call
    returns, or raises what numpy's multivariate normal or the library raised. *)
From Coq Require Import String List ZArith Bool Lia.
From Verif Require Import PyBase B64 B64More NdArray Eda EdaInv Spec TopK LoopObs LoopThms LoopMore Select LoopInv Rand RandThms Models Inits InitThms ModelThms ModelMore CatThms ModelProps Sign Trunc Stock StockInv StockGauss StockCat StockPrior StockArchive StockFail StockAll StockMore StockExt StockCustom.
Import ListNotations.
Open Scope nat_scope.

(** A generation of [n] floats or of [n] bits. *)
Definition numeric_row (n : nat) (r : row) : Prop := float_row n r \/ bit_row n r.
Definition numeric_rows (n : nat) (a : arr) : Prop := rows_in DFloat n (float_row n) a \/ rows_in DInt n (bit_row n) a.

Lemma bits_to_floats n r : bit_row n r -> float_row n (map (cast_cell DFloat) r).
Proof.
  intros [Hl Hr]. split; [rewrite map_length; exact Hl|]. apply Forall_map. eapply Forall_impl; [|exact Hr].
  intros x [-> | ->]; cbn; eauto.
Qed.

(** Joined with an array of floats, a generation of bits becomes one of floats. *)
Lemma numeric_concat n a b : numeric_rows n a -> rows_in DFloat n (float_row n) b ->
  exists x, np_concatenate a b = Ok x /\ rows_in DFloat n (float_row n) x.
Proof.
  intros [Ha|(A1 & A2 & A3)] Hb; [apply rows_in_concat; assumption|]. destruct Hb as (B1 & B2 & B3).
  unfold np_concatenate. rewrite A2, B2, Nat.eqb_refl. eexists. split; [reflexivity|].
  unfold rows_in, rows_as. rewrite A1, B1. cbn [a_dt a_nc a_rows promote dtype_eqb]. split; [reflexivity|]. split; [reflexivity|].
  apply Forall_app. split; [|exact B3]. apply Forall_map. eapply Forall_impl; [|exact A3]. intros r. apply bits_to_floats.
Qed.

(** ** UniBin and floats *)

Definition num_cell (c : cell) : Prop := exists x, cell_num c = Ok x.
Lemma row_add_floats a b : Forall num_cell a -> Forall (fun c => exists x, c = CF x) b -> List.length a = List.length b ->
  exists r, row_add a b = Ok r /\ Forall num_cell r /\ List.length r = List.length b.
Proof.
  revert b. induction a as [|x a IH]; intros [|y b] Ha Hb Hl; cbn [List.length] in Hl; try discriminate; [exists []; cbn; auto|].
  inversion Ha as [|? ? [v Hv] Ha']; subst. inversion Hb as [|? ? [u ->] Hb']; subst.
  destruct (IH b Ha' Hb' ltac:(lia)) as (r & Hr & Hn & Hlr). cbn [row_add].
  assert (Hc : exists q, cell_add x (CF u) = Ok (CF q)) by (destruct x; cbn in Hv |- *; try discriminate; eauto).
  destruct Hc as [q ->]. cbn [rbind]. rewrite Hr. cbn [rbind]. eexists. split; [reflexivity|]. split; [|cbn; lia].
  constructor; [|exact Hn]. exists q. reflexivity.
Qed.
Lemma sum_rows_floats n rs : Forall (float_row n) rs -> forall acc, Forall num_cell acc -> List.length acc = n ->
  exists out, sum_rows acc rs = Ok out /\ Forall num_cell out /\ List.length out = n.
Proof.
  induction 1 as [|r rs [Hl Hr] _ IH]; intros acc Ha Hla; [exists acc; auto|]. cbn [sum_rows].
  destruct (row_add_floats acc r Ha Hr ltac:(lia)) as (b & -> & Hb & Hlb). cbn [rbind]. apply IH; [exact Hb|lia].
Qed.
Lemma unibin_floats n d m : rows_in DFloat n (float_row n) d -> a_rows d <> [] ->
  exists m', unibin_learn d m = (Ok tt, m') /\ ub_n m' = ub_n m /\ List.length (ub_pm m') = n.
Proof.
  intros (_ & Hnc & Hr) Hne. unfold unibin_learn, unibin_probs. rewrite Hnc.
  destruct (sum_rows_floats n (a_rows d) Hr (repeat (CI 0%Z) n)) as (out & Ho & Hn & Hl).
  { apply Forall_forall. intros x Hx. apply repeat_spec in Hx. subst x. eexists. reflexivity. }
  { apply repeat_length. }
  destruct (a_rows d) as [|r rs]; [congruence|]. rewrite Ho. cbn [rbind].
  destruct (rmapM_all cell_num out) as (sums & -> & Hs).
  { intros x Hx. rewrite Forall_forall in Hn. apply Hn, Hx. }
  cbn [rbind]. eexists. split; [reflexivity|]. cbn [ub_n ub_pm]. split; [reflexivity|]. rewrite map_length. lia.
Qed.

(* ------------------------------------------------------------------ *)
Section Mixed.
Context {X W : Type}.
Variable E : env X W.
Variables (M : model X -> Prop) (TR : model X -> Prop) (Exc : exn -> Prop) (n t : nat).

(** Learning and sampling a model of the kind [M]; what it samples need not have the type of
    what it learned from. *)
Definition numeric_backend (size : Z) : Prop :=
  (forall d m w, float_data n t t d -> M m ->
     let '(r, (m', w')) := model_learn E d m w in M m' /\ match r with Ok _ => TR m' | Raise e => Exc e end) /\
  (forall m w, TR m ->
     match fst (model_sample E m size w) with
     | Ok a => numeric_rows n a /\ a_len a = Z.to_nat size
     | Raise e => Exc e end).

Lemma float_numeric size : backend E M TR Exc n t t size -> numeric_backend size.
Proof.
  intros [B1 B2]. split; [exact B1|]. intros m w H. specialize (B2 m w H).
  destruct (fst (model_sample E m size w)); [|exact B2]. destruct B2 as [B2 B3]. split; [left; exact B2|exact B3].
Qed.

Definition holds (p : pmstate X) : Prop := exists m, ps_pm p = Some m /\ M m.

Lemma mixed_spec (tot : bool) (o : optimiser X) cost K i :
  op_upd o = FromSelection -> 1 <= t -> numeric_backend (c_size_gen (op_cfg o)) ->
  op_init o = Some i -> c_init_data (op_cfg o) = None -> K <= Z.to_nat (c_size_gen (op_cfg o)) ->
  (forall w, match fst (initr_sample E i (c_size_gen (op_cfg o)) w) with
             | Ok a => rows_in DFloat n (float_row n) a /\ a_len a = Z.to_nat (c_size_gen (op_cfg o)) | Raise e => Exc e end) ->
  n = Z.to_nat (c_nvars (op_cfg o)) -> argsort_ok (e_argsort E) -> (tot = true -> cost_total (numeric_row n) cost) ->
  c_parallelize (op_cfg o) = false -> c_trunc_len (op_cfg o) = Z.of_nat t -> t <= K ->
  noise_refused (op_cfg o) = false -> py_eq_int (c_w_noise (op_cfg o)) (-1) = false ->
  start_spec (op_cfg o) (hooks_of E o cost)
    (fun a => rows_in DFloat n (float_row n) a /\ K <= a_len a) (fun a => numeric_rows n a /\ K <= a_len a) (rows_in DFloat n (float_row n))
    (float_data n t t) (float_data n t t)
    holds (fun _ p => exists m, ps_pm p = Some m /\ TR m) (fun _ _ => True) (numeric_row n)
    (fun v => tot = true -> not_nan v) (fun e => tot = false \/ Exc e).
Proof.
  intros Hupd Ht1 [Bl Bs] Hini Hdata HK Hst Hn Has Hcost Hpar Htr HtK Hnr Hno.
  pose proof (rows_in_closed DFloat n (float_row n)) as Hcl.
  assert (T : tot = false \/ tot = true) by (destruct tot; auto).
  split.
  - rewrite Hdata. intros w. cbn [hooks_of h_init]. rewrite Hini. specialize (Hst w).
    destruct (fst (initr_sample E i (c_size_gen (op_cfg o)) w)) as [a|e]; [|right; exact Hst]. destruct Hst as [R1 R2]. split; [exact R1|lia].
  - intros a [H1 H2]. split; [left; exact H1|exact H2].
  - intros a [[(_ & _ & H)|(_ & _ & H)] _]; eapply Forall_impl; try exact H; intros r Hr; [left|right]; exact Hr.
  - right. intros a [_ Ha] He. unfold a_len in Ha. rewrite He in Ha. cbn in Ha. lia.
  - right. left. exact Hpar.
  - intros r w Hr. cbn [hooks_of h_cost]. destruct T as [T|T].
    + destruct (fst (cost r w)); [intros T'; congruence|left; exact T].
    + destruct (Hcost T r w Hr) as (v & -> & Hv). auto.
  - destruct T as [T|T]; [left; left; exact T|right; auto].
  - intros g r rs [H _] Er. eapply (cl_head _ _ Hcl); eassumption.
  - intros a b [Ha _] Hb. destruct (numeric_concat n a b Ha Hb) as (x & -> & Hx). exact Hx.
  - apply (cl_take _ _ Hcl).
  - right. exact Has.
  - right. exact Hnr.
  - intros g sel wn [_ Hg] Hsel Hwn Hsz. destruct (Hsz Has ltac:(lia)) as [k Hk].
    assert (Hls : a_len sel = t) by (rewrite Hk, Htr, Nat2Z.id; lia).
    pose proof (iadd_floats n sel wn Hsel) as Hi. destruct (iadd sel wn) as [x|e].
    + destruct Hi as [Hi1 Hi2]. split; [exact Hi1|lia].
    + exfalso. destruct Hi as [-> |(nr & nc & dr & -> & Hd)]; cbn [noise_cfg] in Hwn.
      * destruct Hwn as [_ Hwn]. congruence.
      * destruct Hwn as (W1 & _ & _ & _ & -> & ->). lia.
  - intros g e p Hg _ Hp _. cbn [hooks_of h_data]. rewrite Hupd. cbn [data_of]. split; assumption.
  - intros d p w Hd (m & Hm & HM). cbn [hooks_of h_learn]. rewrite Hm.
    specialize (Bl d m w Hd HM). destruct (model_learn E d m w) as [r [m' w']]. destruct Bl as [B1 B2]. split.
    + exists m'. auto.
    + destruct r; [exists m'; auto|right; exact B2].
  - intros d p w Hd Hp (m & Hm & HTR). cbn [hooks_of h_sample]. rewrite Hm. specialize (Bs m w HTR).
    destruct (fst (model_sample E m (c_size_gen (op_cfg o)) w)) as [a|e]; [|right; exact Bs]. destruct Bs as [B1 B2]. split; [|exact I]. split; [exact B1|lia].
Qed.

Lemma mixed_run (o0 o : optimiser X) cost K i a ftol out w r s :
  holds (op_st o0) -> used E o0 o -> run_in E a o cost ftol out w = (r, s) ->
  op_upd o0 = FromSelection -> 1 <= t -> numeric_backend (c_size_gen (op_cfg o0)) ->
  op_init o0 = Some i -> c_init_data (op_cfg o0) = None -> K <= Z.to_nat (c_size_gen (op_cfg o0)) ->
  (forall w, match fst (initr_sample E i (c_size_gen (op_cfg o0)) w) with
             | Ok a => rows_in DFloat n (float_row n) a /\ a_len a = Z.to_nat (c_size_gen (op_cfg o0)) | Raise e => Exc e end) ->
  n = Z.to_nat (c_nvars (op_cfg o0)) -> argsort_ok (e_argsort E) -> cost_total (numeric_row n) cost ->
  c_parallelize (op_cfg o0) = false -> c_trunc_len (op_cfg o0) = Z.of_nat t -> t <= K ->
  noise_refused (op_cfg o0) = false -> py_eq_int (c_w_noise (op_cfg o0)) (-1) = false ->
  Forall (numeric_rows n) (map fst (gens (s_tr s))) /\
  Forall (float_data n t t) (learns (s_tr s)) /\
  match r with Ok res => best_ok (numeric_row n) (r_best_ind res) | Raise e => Exc e end.
Proof.
  intros H0 Hu Hr Hupd Ht1 HB Hini Hdata HK Hst Hn Has Hcost Hpar Htr HtK Hnr Hno.
  assert (L : forall tot o1 cost1, op_cfg o1 = op_cfg o0 -> op_init o1 = op_init o0 -> op_upd o1 = op_upd o0 -> (tot = true -> cost_total (numeric_row n) cost1) ->
    start_spec (op_cfg o1) (hooks_of E o1 cost1)
    (fun a => rows_in DFloat n (float_row n) a /\ K <= a_len a) (fun a => numeric_rows n a /\ K <= a_len a) (rows_in DFloat n (float_row n))
    (float_data n t t) (float_data n t t)
    holds (fun _ p => exists m, ps_pm p = Some m /\ TR m) (fun _ _ => True) (numeric_row n)
    (fun v => tot = true -> not_nan v) (fun e => tot = false \/ Exc e)).
  { intros tot o1 cost1 E1 E2 E3 Hc. apply mixed_spec with (i := i); rewrite ?E1, ?E2, ?E3; assumption. }
  assert (HQ : holds (op_st o)).
  { revert o Hu Hr. refine (fun o Hu _ => used_keeps E holds o0 _ H0 o Hu).
    intros o1 a1 cost1 ftol1 out1 w1 r1 s1 E1 E2 E3 HQ Hr1. unfold run_in in Hr1.
    assert (L1 := L false o1 cost1 E1 E2 E3 ltac:(discriminate)).
    pose proof (minimize_from _ _ _ _ _ _ _ _ _ _ _ _ _ L1 ftol1 out1 (mkSt a1 (op_st o1) w1 []) HQ eq_refl) as Mi.
    rewrite Hr1 in Mi. apply Mi. }
  destruct (used_setup E _ _ Hu) as (E1 & E2 & E3 & _).
  assert (L1 := L true o cost E1 E2 E3 (fun _ => Hcost)). unfold run_in in Hr.
  pose proof (minimize_from _ _ _ _ _ _ _ _ _ _ _ _ _ L1 ftol out (mkSt a (op_st o) w []) HQ eq_refl) as Mi.
  rewrite Hr in Mi. destruct Mi as (M1 & _ & (T1 & T2 & _)). split; [|split].
  - eapply Forall_impl; [|exact T1]. intros x Hx. apply Hx.
  - exact T2.
  - destruct r as [res|e]; [exact M1|]. destruct M1 as [M1|M1]; [discriminate|exact M1].
Qed.

End Mixed.

(* ------------------------------------------------------------------ *)
Section All.
Context {X W : Type}.
Variable E : env X W.

(** [np.random.multivariate_normal] raises [e] on [n] means and an [n] by [n] matrix. *)
Definition normal_fails (n : nat) (size : Z) (e : exn) : Prop :=
  exists mean cov w w', List.length mean = n /\ List.length cov = n /\ Forall (fun r => List.length r = n) cov /\
    g_mvn (e_rng E) mean cov (Z.to_nat size) w = (Raise e, w').

Lemma gauss_backend Exc n t size : sum_ok (e_sum E) -> (0 <= size)%Z ->
  backend E (fun m => exists lower pm, List.length pm = n /\ m = MUniGauss lower pm)
    (fun m => exists lower pm, List.length pm = n /\ Forall (fun ms => neg_signed (snd ms) = false) pm /\ (m = MUniGauss lower pm \/ exists al, m = MAdapt lower al pm))
    Exc n t t size.
Proof.
  intros Hs Hsz. split.
  - intros d m w [Hd _] (lower & pm & Hl & Hm). pose proof (model_state_learn E n d m w Hs Hd) as H.
    destruct (model_learn E d m w) as [r [m' w']]. destruct H as (_ & H2 & H3); [exists lower, pm; auto|].
    split; [apply H2; eauto|]. destruct r as [[]|e]; [exact H3|]. destruct H3 as [_ H3]. destruct H3. eauto.
  - intros m w (lower & pm & Hl & Hf & Hm).
    assert (Hsm : model_sample E m size w = gauss_sample (e_rng E) pm size w) by (destruct Hm as [-> |[al ->]]; reflexivity). rewrite Hsm. unfold gauss_sample.
    destruct (np_normal_total (e_rng E) (map fst pm) (map snd pm) size (List.length pm) w) as (b & w2 & Hb).
    + apply not_true_is_false. intros Hex. apply existsb_exists in Hex as (x & Hin & Hx). apply in_map_iff in Hin as (ms & <- & Hin).
      rewrite Forall_forall in Hf. rewrite (Hf _ Hin) in Hx. discriminate.
    + exact Hsz.
    + apply map_length.
    + apply map_length.
    + rewrite Hb. cbn [fst]. apply np_normal_ok in Hb as [Hb _]. rewrite Hl in Hb. apply matrix_rows, Hb.
Qed.

Lemma binary_backend Exc n t size : 1 <= t -> (0 <= size)%Z ->
  numeric_backend E (fun m => exists b, m = MUniBin b /\ ub_n b = n) (fun m => exists b, m = MUniBin b /\ ub_n b = n /\ List.length (ub_pm b) = n) Exc n t size.
Proof.
  intros Ht Hsz. split.
  - intros d m w [Hd Hl] (b & -> & Hb). cbn [model_learn]. destruct (unibin_floats n d b Hd) as (b' & -> & H1 & H2).
    + intros E0. unfold a_len in Hl. rewrite E0 in Hl. cbn in Hl. lia.
    + split; exists b'; repeat split; congruence.
  - intros m w (b & -> & Hb & Hp). cbn [model_sample].
    destruct (unibin_sample (e_rng E) b size w) as [[a|e] w'] eqn:Es; cbn [fst].
    + apply unibin_sample_spec in Es as (_ & S1 & S2 & S3 & S4 & _). rewrite Hb, Hp in S3. unfold bres in S3. rewrite Nat.eqb_refl in S3.
      assert (Hw : a_nc a = n) by congruence. rewrite Hw in S4. split; [|exact S2]. right. repeat split; assumption.
    + exfalso. unfold unibin_sample in Es. destruct (Z.ltb_spec size 0); [lia|]. rewrite Hb, Hp in Es. unfold bres in Es. rewrite Nat.eqb_refl in Es.
      destruct (g_unif (e_rng E) (Z.to_nat size) n w). discriminate Es.
Qed.

(** What a call may raise, by the numbers of the model and of the first generation. *)
Definition custom_raises (pm init : Z) (n t : nat) (size : Z) (e : exn) : Prop :=
  ((init = 3 \/ pm = 3)%Z /\ normal_fails n size e) \/
  (pm = 4%Z /\ library_raises E KGBN (float_data n t t) size e).

Lemma custom_backend pm init n t size lo hi z m :
  custom_pm E (Z.of_nat n) pm lo hi z = Ok m -> (pm = 1%Z -> sum_ok (e_sum E)) -> 1 <= t -> (0 <= size)%Z -> (pm = 3%Z -> 2 <= n) ->
  (pm = 4%Z -> library_samples E KGBN (float_data n t t) (sampled_floats n size) size) ->
  exists M TR, M m /\ numeric_backend E M TR (custom_raises pm init n t size) n t size.
Proof.
  unfold custom_pm. intros H Hs Ht Hsz H3 H4. unfold names in H. rewrite Nat2Z.id in H.
  destruct (Z.eqb_spec pm 1) as [E1|_].
  { assert (Em : m = MUniGauss (num_to_f lo) (gauss_new n)) by congruence. subst m. eexists _, _. split; [|apply float_numeric, gauss_backend; auto].
    exists (num_to_f lo), (gauss_new n). split; [|reflexivity]. unfold gauss_new. apply repeat_length. }
  destruct (Z.eqb_spec pm 2) as [E2|_].
  { unfold unibin_new in H. destruct (flt _ _); cbn [rmap] in H; [|discriminate]. assert (Em : m = MUniBin (mkUB n (num_to_f lo) (num_to_f hi) (repeat (Z2f 0) n))) by congruence. subst m.
    eexists _, _. split; [|apply binary_backend; auto]. eexists. split; reflexivity. }
  destruct (Z.eqb_spec pm 3) as [E3|_].
  { assert (Em : exists p, m = MMulti (num_to_f lo) (num_to_f hi) p /\ List.length (mg_means p) = n).
    { exists (multigauss_new (tabulate n z)). split; [congruence|]. apply tabulate_length. }
    exists (fun m => exists p, m = MMulti (num_to_f lo) (num_to_f hi) p /\ List.length (mg_means p) = n). eexists. split; [exact Em|]. apply float_numeric.
    destruct (multi_backend E (num_to_f lo) (num_to_f hi) n t size (H3 E3)) as [B1 B2].
    assert (HX : forall e, normal_raises E (num_to_f lo) (num_to_f hi) (float_data n t t) size e -> custom_raises pm init n t size e).
    { intros e He. left. split; [right; exact E3|]. eapply normal_raises_oracle in He; [|exact Hsz]. exact He. }
    split.
    - intros d m0 w Hd Hm0. specialize (B1 d m0 w Hd Hm0). destruct (model_learn E d m0 w) as [r [m' w']]. destruct B1 as [B1 B1']. split; [exact B1|].
      destruct r; [exact B1'|apply HX, B1'].
    - intros m0 w Hm0. specialize (B2 m0 w Hm0). destruct (fst (model_sample E m0 size w)); [exact B2|apply HX, B2]. }
  destruct (Z.eqb_spec pm 4) as [E4|_]; [|discriminate].
  assert (Em : exists x, m = MExt KGBN n x) by (eexists; symmetry; apply (f_equal (fun r => match r with Ok x => x | Raise _ => m end)) in H; exact H).
  exists (fun m => exists x, m = MExt KGBN n x). eexists. split; [exact Em|]. apply float_numeric. destruct (library_backend E KGBN n t t size (H4 E4)) as [B1 B2].
  assert (HX : forall e, library_raises E KGBN (float_data n t t) size e -> custom_raises pm init n t size e) by (intros e He; right; auto).
  split.
  - intros d m0 w Hd Hm0. specialize (B1 d m0 w Hd Hm0). destruct (model_learn E d m0 w) as [r [m' w']]. destruct B1 as [B1 B1']. split; [exact B1|].
    destruct r; [exact B1'|apply HX, B1'].
  - intros m0 w Hm0. specialize (B2 m0 w Hm0). destruct (fst (model_sample E m0 size w)); [exact B2|apply HX, B2].
Qed.

Lemma chunk_shape {A} n : forall k (l : list A), List.length l = k * n -> List.length (chunk n k l) = k /\ Forall (fun r => List.length r = n) (chunk n k l).
Proof.
  induction k as [|k IH]; intros l Hl; cbn [chunk]; [split; constructor|]. destruct (IH (skipn n l)) as [H1 H2]; [rewrite skipn_length; lia|].
  split; [cbn; lia|]. constructor; [rewrite firstn_length; lia|exact H2].
Qed.

Lemma choice_any_length (g : rng W) {A} (l : list A) k w a w' : np_choice_any g l k w = (Ok a, w') -> List.length a = k.
Proof.
  unfold np_choice_any. destruct (_ && _); [discriminate|]. destruct (g_pick g (List.length l) k w) as [f w2].
  intros H. assert (G : gather (tabulate k f) l = Ok a) by congruence. apply gather_length in G. rewrite G. apply tabulate_length.
Qed.

(** MultiGaussGenInit draws [n] means and an [n] by [n] matrix. *)
Lemma mgauss_init_shape (g : rng W) n lo hi w b w' : mgauss_init_new g n [] [] lo hi w = (Ok b, w') ->
  let m := Z.to_nat n in List.length (mi_means b) = m /\ List.length (mi_cov b) = m /\ Forall (fun r => List.length r = m) (mi_cov b).
Proof.
  unfold mgauss_init_new. cbn [List.length Nat.eqb negb]. destruct (n <? 0)%Z; [discriminate|].
  destruct (np_choice_any _ _ _ w) as [[ms|] w6] eqn:E1; [|discriminate]. destruct (np_choice_any _ _ _ w6) as [[cs|] w7] eqn:E2; [|discriminate].
  intros H. assert (Eb : b = mkMI n ms (chunk (Z.to_nat n) (Z.to_nat n) cs)) by congruence. subst b. cbn [mi_means mi_cov].
  apply choice_any_length in E1. apply choice_any_length in E2. split; [exact E1|]. apply chunk_shape, E2.
Qed.

(** What the first generation of an EDACustom is. *)
Lemma custom_first init pm lo hi n t size w i w1 a w2 :
  custom_initr E (Z.of_nat n) init lo hi w = (Ok i, w1) -> initr_width i = Z.of_nat n -> initr_sample E i size w1 = (Ok a, w2) ->
  (init = 1 \/ init = 3 \/ init = 4)%Z ->
  forall w3, match fst (initr_sample E i size w3) with
             | Ok b => rows_in DFloat n (float_row n) b /\ a_len b = Z.to_nat size
             | Raise e => custom_raises pm init n t size e end.
Proof.
  intros Hic Hiw His Hk w3. unfold custom_initr in Hic. destruct Hk as [Hk|[Hk|Hk]]; rewrite Hk in Hic; cbn [Z.eqb Pos.eqb] in Hic.
  - destruct (unigauss_init_new _ _ _ _ _ _ w) as [[b|] w4]; cbn [rmap] in Hic; [|discriminate]. assert (Ei : i = IUniGauss b) by congruence. subst i.
    destruct (normal_again _ _ _ _ _ _ _ _ w3 His) as (b' & w5 & Hb). cbn [initr_sample] in Hb |- *. unfold unigauss_init_sample. rewrite Hb. cbn [fst].
    destruct (float_initr_sample E (IUniGauss b) (Z.of_nat n) size w3 b' w5 Hiw Hb) as [R1 R2]. rewrite Nat2Z.id in R1. split; assumption.
  - destruct (mgauss_init_new _ _ _ _ _ _ w) as [[b|] w4] eqn:Em; cbn [rmap] in Hic; [|discriminate]. assert (Ei : i = IMulti b) by congruence. subst i.
    pose proof (mgauss_init_shape _ _ _ _ _ _ _ Em) as Hsh. cbv zeta in Hsh. rewrite Nat2Z.id in Hsh.
    cbn [initr_sample] in His |- *. unfold mgauss_init_sample, np_mvn in His |- *. destruct Hsh as (S1 & S2 & S3). rewrite S1, S2, Nat.eqb_refl in His |- *.
    destruct (negb _); [discriminate|]. destruct (size <? 0)%Z; [discriminate|].
    destruct (g_mvn (e_rng E) (mi_means b) (mi_cov b) (Z.to_nat size) w3) as [[dr|e] w5] eqn:Eg; cbn [fst].
    + apply matrix_rows, float_arr_matrix.
    + left. split; [left; exact Hk|]. exists (mi_means b), (mi_cov b), w3, w5. auto.
  - destruct (uniform_new _ _ _) as [u|]; cbn [rmap] in Hic; [|discriminate]. assert (Ei : i = IUniform u) by congruence. subst i.
    destruct (uniform_again _ _ _ _ _ _ w3 His) as (b' & w5 & Hb). cbn [initr_sample]. rewrite Hb. cbn [fst].
    destruct (float_initr_sample E (IUniform u) (Z.of_nat n) size w3 b' w5 Hiw Hb) as [R1 R2]. rewrite Nat2Z.id in R1. split; assumption.
Qed.

(** A full covariance matrix of a single variable, with any first generation. *)
Lemma custom_one_variable k z w (o0 o : optimiser X) w' cost a ftol out w1 r s :
  custom_new E k z w = (Ok o0, w') -> k_pm k = 3%Z -> k_nvars k = 1%Z -> used E o0 o ->
  run_in E a o cost ftol out w1 = (Ok r, s) -> (k_max_iter k <= 1)%Z.
Proof.
  intros H Hp Hn U Hr. destruct (Z.eq_dec (k_init k) 2) as [H2|H2]; [eapply custom_binary_fails; eassumption|].
  apply custom_inv in H. destruct H. destruct (used_setup E _ _ U) as (E1 & E2 & E3 & _).
  pose proof cb_cfg as Hc. unfold custom_cfg in Hc. apply eda_init_inv in Hc. destruct Hc as (_ & C2 & _ & _ & _ & _ & _ & _ & C9 & _).
  destruct cb_init as (i & w2 & a2 & w3 & Hi & Hic & Hiw & _). destruct cb_pm as (m & Hm & Hmc & _).
  unfold custom_pm in Hmc. rewrite Hp in Hmc. cbn [Z.eqb Pos.eqb] in Hmc.
  pose proof (used_alike E _ _ U) as HA. rewrite Hm in HA. cbn [alike_opt] in HA.
  destruct m; try discriminate. destruct (ps_pm (op_st o)) as [m'|] eqn:Em; [|destruct HA]. destruct m'; try destruct HA.
  rewrite <- C2, <- E1. eapply multi_one_fails; [rewrite E3; exact cb_upd|exact Em| | |exact Hr].
  - intros d Hd. rewrite E1, C9 in Hd. discriminate.
  - intros w4 g w4'. cbn [hooks_of h_init]. rewrite E2, Hi. unfold custom_initr in Hic. rewrite Hn in Hic, Hiw.
    destruct (Z.eqb_spec (k_init k) 1).
    { destruct (unigauss_init_new _ _ _ _ _ _ w) as [[b|] w5]; cbn [rmap] in Hic; [|discriminate]. assert (Ei : i = IUniGauss b) by congruence. subst i.
      intros Hs. pose proof (float_initr_sample E (IUniGauss b) 1 _ _ _ _ Hiw Hs) as [(_ & R & _) _]. exact R. }
    destruct (Z.eqb_spec (k_init k) 2); [contradiction|]. destruct (Z.eqb_spec (k_init k) 3).
    { destruct (mgauss_init_new _ _ _ _ _ _ w) as [[b|] w5] eqn:Eb; cbn [rmap] in Hic; [|discriminate]. assert (Ei : i = IMulti b) by congruence. subst i.
      apply mgauss_init_shape in Eb as (S1 & _). cbn [initr_sample]. unfold mgauss_init_sample, np_mvn. rewrite S1.
      destruct (negb _); [discriminate|]. destruct (_ <? 0)%Z; [discriminate|]. destruct (g_mvn _ _ _ _ w4) as [[dr|] w6]; [|discriminate].
      intros Hs. match type of Hs with (Ok ?x, _) = _ => assert (Eg : g = x) by congruence end. subst g. reflexivity. }
    destruct (Z.eqb_spec (k_init k) 4); [|discriminate].
    destruct (uniform_new _ _ _) as [u|]; cbn [rmap] in Hic; [|discriminate]. assert (Ei : i = IUniform u) by congruence. subst i.
    intros Hs. pose proof (float_initr_sample E (IUniform u) 1 _ _ _ _ Hiw Hs) as [(_ & R & _) _]. exact R.
Qed.

Lemma custom_run k z w (o0 o : optimiser X) w' t cost a ftol out w1 r s :
  custom_new E k z w = (Ok o0, w') -> (k_init k = 1 \/ k_init k = 3 \/ k_init k = 4)%Z -> used E o0 o ->
  (k_pm k = 1%Z -> sum_ok (e_sum E)) -> argsort_ok (e_argsort E) ->
  int_times (k_size_gen k) (k_alpha k) = Ok t -> (1 <= t <= k_size_gen k)%Z -> (k_pm k = 3 -> 2 <= k_nvars k)%Z ->
  let n := Z.to_nat (k_nvars k) in
  (k_pm k = 4%Z -> library_samples E KGBN (float_data n (Z.to_nat t) (Z.to_nat t)) (sampled_floats n (k_size_gen k)) (k_size_gen k)) ->
  cost_total (numeric_row n) cost ->
  run_in E a o cost ftol out w1 = (r, s) ->
  Forall (numeric_rows n) (map fst (gens (s_tr s))) /\
  Forall (float_data n (Z.to_nat t) (Z.to_nat t)) (learns (s_tr s)) /\
  match r with Ok res => best_ok (numeric_row n) (r_best_ind res) | Raise e => custom_raises (k_pm k) (k_init k) n (Z.to_nat t) (k_size_gen k) e end.
Proof.
  intros H Hk U Hs Ho Ht Hts H3 n H4 Hcost Hr. apply custom_inv in H. destruct H.
  destruct (custom_noise _ _ cb_cfg) as (N0 & N1 & N2). pose proof cb_cfg as Hc. unfold custom_cfg in Hc. apply eda_init_inv in Hc.
  destruct Hc as (C1 & C2 & _ & C4 & _ & _ & _ & C8 & C9 & _ & C11 & _). destruct cb_init as (i & w2 & a2 & w3 & Hi & Hic & Hiw & His). destruct cb_pm as (m & Hm & Hmc & Hmw).
  assert (Hn : k_nvars k = Z.of_nat n) by (unfold n; lia).
  assert (Et : c_trunc_len (op_cfg o0) = t) by congruence.
  destruct (custom_backend (k_pm k) (k_init k) n (Z.to_nat t) (k_size_gen k) (k_lo k) (k_hi k) z m) as (M & TR & HM & HB); try assumption; try lia.
  { rewrite <- Hn. exact Hmc. }
  rewrite Hn in Hic, Hiw.
  apply (mixed_run E M TR (custom_raises (k_pm k) (k_init k) n (Z.to_nat t) (k_size_gen k)) n (Z.to_nat t) o0 o cost (Z.to_nat (k_size_gen k)) i a ftol out w1 r s); try assumption.
  - exists m. auto.
  - lia.
  - rewrite C1. exact HB.
  - rewrite C1. lia.
  - rewrite C1. eapply custom_first; eassumption.
  - rewrite C4. reflexivity.
  - lia.
  - lia.
  - unfold noise_refused. rewrite N2, Et, C4. destruct (Z.ltb_spec t 0); [lia|]. destruct (Z.ltb_spec (k_nvars k) 0); [lia|]. cbn. apply andb_false_r.
Qed.

End All.
