(** The algorithms whose models are learned and sampled by a library (EGNA, UnivariateKEDA, EMNA,
    MultivariateKEDA, SPEDA, EBNA): a call returns, or raises what the library raised on a
    well-formed data set. *)
From Coq Require Import String List ZArith Bool Lia.
From Verif Require Import PyBase B64 B64More NdArray Eda EdaInv Spec LoopObs Select LoopInv Rand RandThms Models Inits ModelThms CatThms InitThms Stock StockInv StockGauss StockCat StockPrior StockArchive StockFail StockAll StockMore.
Import ListNotations.
Open Scope nat_scope.

(** A float matrix with [n] columns and between [lo] and [hi] rows. *)
Definition float_data (n lo hi : nat) (d : arr) : Prop := rows_in DFloat n (float_row n) d /\ lo <= a_len d <= hi.

Section Ext.
Context {X W : Type}.
Variable E : env X W.

(** The library raises [e] while learning from a data set in [D], or while sampling a model
    learned from one. *)
Definition library_raises (k : pm_class) (D : arr -> Prop) (size : Z) (e : exn) : Prop :=
  (exists d x w x' w', D d /\ e_xlearn E k d x w = (Raise e, (x', w'))) \/
  (exists d x w x' w' w2 w3, D d /\ e_xlearn E k d x w = (Ok tt, (x', w')) /\ e_xsample E k x' size w2 = (Raise e, w3)).
(** What the library samples from a model learned from a data set in [D]. *)
Definition library_samples (k : pm_class) (D : arr -> Prop) (R : arr -> arr -> Prop) (size : Z) : Prop :=
  forall d x w x' w' w2 a w3, D d -> e_xlearn E k d x w = (Ok tt, (x', w')) -> e_xsample E k x' size w2 = (Ok a, w3) -> R d a.

(* ------------------------------------------------------------------ *)
(** ** Vectors of floats *)

(** [upd]: the selection of [t] rows, or the archive of at most [hi] rows whose elite has [t]. *)
Definition feeds (o : optimiser X) (t hi : nat) : Prop :=
  (op_upd o = FromSelection /\ hi = t) \/
  (exists l, 1 <= l /\ hi = l * t /\ op_upd o = FromArchive (PyI (Z.of_nat hi)) /\ c_elite_len (op_cfg o) = Z.of_nat t).

Variables (M : model X -> Prop) (TR : model X -> Prop) (Exc : exn -> Prop) (n t hi : nat).

Definition kept (p : pmstate X) : Prop :=
  (exists m, ps_pm p = Some m /\ M m) /\ rows_in DFloat n (float_row n) (ps_archive p) /\ a_len (ps_archive p) <= hi.

Lemma slice_len {A} L (l : list A) : 1 <= L -> List.length (slice_from (- Z.of_nat L) l) = Nat.min L (List.length l).
Proof.
  intros HL. unfold slice_from. destruct (Z.leb_spec 0 (- Z.of_nat L)); [lia|]. rewrite skipn_length. lia.
Qed.
Lemma slice_Forall {A} (P : A -> Prop) z (l : list A) : Forall P l -> Forall P (slice_from z l).
Proof.
  intros H. assert (G : exists k, slice_from z l = skipn k l) by (unfold slice_from; destruct (0 <=? z)%Z; eauto).
  destruct G as [k ->]. rewrite <- (firstn_skipn k l) in H. apply Forall_app in H. apply H.
Qed.

Lemma feed_spec (o : optimiser X) e g p :
  feeds o t hi -> 1 <= t -> float_data n t t g -> rows_in DFloat n (float_row n) e -> kept p ->
  (forall l, op_upd o = FromArchive l -> a_len e = t) ->
  exists d p', data_of (op_upd o) g e p = (Ok d, p') /\ kept p' /\ float_data n t hi d.
Proof.
  intros Hf Ht Hg He ((m & Hm & HM) & Ha & Hl) Hle. destruct Hf as [[Hu Hhi]|(l & Hl1 & Hhi & Hu & Hel)].
  - exists g, p. rewrite Hu. cbn [data_of]. split; [reflexivity|]. split; [|rewrite Hhi; exact Hg]. split; [eauto|]. split; assumption.
  - rewrite Hu. cbn [data_of]. unfold update_archive.
    destruct (rows_in_concat _ _ _ _ _ Ha He) as (x & Hx & Rx). rewrite Hx. cbn [archive_slice].
    assert (Lx : a_len x = a_len (ps_archive p) + t) by (apply concat_len in Hx; unfold a_len at 1; rewrite Hx, (Hle _ Hu); reflexivity).
    assert (Hs : a_len (mkArr (a_dt x) (a_nc x) (slice_from (- Z.of_nat hi) (a_rows x))) = Nat.min hi (a_len x)) by (apply slice_len; nia).
    assert (Hr : rows_in DFloat n (float_row n) (mkArr (a_dt x) (a_nc x) (slice_from (- Z.of_nat hi) (a_rows x)))).
    { destruct Rx as (R1 & R2 & R3). split; [exact R1|]. split; [exact R2|]. apply slice_Forall, R3. }
    eexists _, _. split; [reflexivity|]. split.
    + split; [eauto|]. cbn [ps_archive]. split; [exact Hr|]. rewrite Hs. lia.
    + split; [exact Hr|]. rewrite Hs. nia.
Qed.

(** Learning and sampling a model of the kind [M]. *)
Definition backend (size : Z) : Prop :=
  (forall d m w, float_data n t hi d -> M m ->
     let '(r, (m', w')) := model_learn E d m w in M m' /\ match r with Ok _ => TR m' | Raise e => Exc e end) /\
  (forall m w, TR m ->
     match fst (model_sample E m size w) with
     | Ok a => rows_in DFloat n (float_row n) a /\ a_len a = Z.to_nat size
     | Raise e => Exc e end).

Lemma float_spec (tot : bool) (o : optimiser X) cost K i :
  feeds o t hi -> 1 <= t -> backend (c_size_gen (op_cfg o)) ->
  op_init o = Some i -> float_initr i (c_nvars (op_cfg o)) -> n = Z.to_nat (c_nvars (op_cfg o)) ->
  (forall d, c_init_data (op_cfg o) = Some d -> rows_in DFloat n (float_row n) d /\ K <= a_len d) -> K <= Z.to_nat (c_size_gen (op_cfg o)) ->
  argsort_ok (e_argsort E) -> (tot = true -> cost_total (float_row n) cost) ->
  (c_parallelize (op_cfg o) = false \/ cpu_count (e_pool E) <= K) -> c_trunc_len (op_cfg o) = Z.of_nat t -> t <= K ->
  noise_refused (op_cfg o) = false -> py_eq_int (c_w_noise (op_cfg o)) (-1) = false ->
  (c_init_data (op_cfg o) = None -> forall w, exists a w', initr_sample E i (c_size_gen (op_cfg o)) w = (Ok a, w')) ->
  loop_spec (op_cfg o) (hooks_of E o cost)
    (fun a => rows_in DFloat n (float_row n) a /\ K <= a_len a) (rows_in DFloat n (float_row n))
    (float_data n t t) (float_data n t hi)
    kept (fun _ p => exists m, ps_pm p = Some m /\ TR m) (fun _ _ => True) (float_row n)
    (fun v => tot = true -> not_nan v) (fun e => tot = false \/ Exc e).
Proof.
  intros Hf Ht1 [Bl Bs] Hini Hfl Hn Hinit HK Has Hcost Hpool Htr HtK Hnr Hno Htot.
  pose proof (rows_in_closed DFloat n (float_row n)) as Hcl.
  assert (T : tot = false \/ tot = true) by (destruct tot; auto).
  split.
  - destruct (c_init_data (op_cfg o)) as [d|]; [apply Hinit; reflexivity|]. intros w. cbn [hooks_of h_init]. rewrite Hini.
    destruct (Htot eq_refl w) as (a & w' & Es). rewrite Es. cbn [fst].
    destruct (float_initr_sample E _ _ _ _ _ _ Hfl Es) as [R1 R2]. rewrite <- Hn in R1. split; [exact R1|lia].
  - intros a [H _]. exact H.
  - intros a [H _]. apply (cl_rows _ _ Hcl a H).
  - right. intros a [_ Ha] He. unfold a_len in Ha. rewrite He in Ha. cbn in Ha. lia.
  - right. destruct Hpool as [H|H]; [left; exact H|right]. intros a [_ Ha]. cbn [hooks_of h_pool]. lia.
  - intros r w Hr. cbn [hooks_of h_cost]. destruct T as [T|T].
    + destruct (fst (cost r w)); [intros T'; congruence|left; exact T].
    + destruct (Hcost T r w Hr) as (v & -> & Hv). auto.
  - destruct T as [T|T]; [left; left; exact T|right; auto].
  - intros g r rs [H _] Er. eapply (cl_head _ _ Hcl); eassumption.
  - intros a b [Ha _] Hb. destruct (cl_concat _ _ Hcl _ _ Ha Hb) as (x & -> & Hx). exact Hx.
  - apply (cl_take _ _ Hcl).
  - right. exact Has.
  - right. exact Hnr.
  - intros g sel wn [_ Hg] Hsel Hwn Hsz. destruct (Hsz Has ltac:(lia)) as [k Hk].
    assert (Hls : a_len sel = t) by (rewrite Hk, Htr, Nat2Z.id; lia).
    pose proof (iadd_floats n sel wn Hsel) as Hi. destruct (iadd sel wn) as [x|e].
    + destruct Hi as [Hi1 Hi2]. split; [exact Hi1|lia].
    + exfalso. destruct Hi as [-> |(nr & nc & dr & -> & Hd)]; cbn [noise_cfg] in Hwn.
      * destruct Hwn as [_ Hwn]. congruence.
      * destruct Hwn as (W1 & _ & _ & _ & -> & ->). lia.
  - intros g e p Hg He Hp Hsz. cbn [hooks_of h_data].
    destruct (feed_spec o e g p Hf Ht1 Hg He Hp) as (d & p' & -> & Hp' & Hd); [|split; assumption].
    intros l Hl. destruct Hf as [[Hf _]|(l' & _ & _ & _ & Hel)]; [congruence|].
    destruct (Hsz Has ltac:(lia)) as (g0 & k & [_ Hg0] & Hk). rewrite Hk, Hel, Nat2Z.id. lia.
  - intros d p w Hd ((m & Hm & HM) & Ha & Hl). cbn [hooks_of h_learn]. rewrite Hm.
    specialize (Bl d m w Hd HM). destruct (model_learn E d m w) as [r [m' w']]. destruct Bl as [B1 B2]. split.
    + split; [exists m'; auto|]. split; assumption.
    + destruct r; [exists m'; auto|right; exact B2].
  - intros d p w Hd Hp (m & Hm & HTR). cbn [hooks_of h_sample]. rewrite Hm. specialize (Bs m w HTR).
    destruct (fst (model_sample E m (c_size_gen (op_cfg o)) w)) as [a|e]; [|right; exact Bs]. destruct Bs as [B1 B2]. split; [|exact I]. split; [exact B1|lia].
Qed.

(** Calls after any history. *)
Lemma float_run (o0 o : optimiser X) cost K i a ftol out w r s :
  kept (op_st o0) -> used E o0 o -> run_in E a o cost ftol out w = (r, s) ->
  feeds o0 t hi -> 1 <= t -> backend (c_size_gen (op_cfg o0)) ->
  op_init o0 = Some i -> float_initr i (c_nvars (op_cfg o0)) -> n = Z.to_nat (c_nvars (op_cfg o0)) ->
  (forall d, c_init_data (op_cfg o0) = Some d -> rows_in DFloat n (float_row n) d /\ K <= a_len d) -> K <= Z.to_nat (c_size_gen (op_cfg o0)) ->
  argsort_ok (e_argsort E) -> cost_total (float_row n) cost ->
  (c_parallelize (op_cfg o0) = false \/ cpu_count (e_pool E) <= K) -> c_trunc_len (op_cfg o0) = Z.of_nat t -> t <= K ->
  noise_refused (op_cfg o0) = false -> py_eq_int (c_w_noise (op_cfg o0)) (-1) = false ->
  (c_init_data (op_cfg o0) = None -> forall w, exists a w', initr_sample E i (c_size_gen (op_cfg o0)) w = (Ok a, w')) ->
  Forall (rows_in DFloat n (float_row n)) (map fst (gens (s_tr s))) /\
  Forall (float_data n t hi) (learns (s_tr s)) /\
  match r with Ok res => best_ok (float_row n) (r_best_ind res) | Raise e => Exc e end.
Proof.
  intros H0 Hu Hr Hf Ht1 HB Hini Hfl Hn Hinit HK Has Hcost Hpool Htr HtK Hnr Hno Htot.
  assert (L : forall tot o1 cost1, op_cfg o1 = op_cfg o0 -> op_init o1 = op_init o0 -> op_upd o1 = op_upd o0 -> (tot = true -> cost_total (float_row n) cost1) ->
    loop_spec (op_cfg o1) (hooks_of E o1 cost1)
    (fun a => rows_in DFloat n (float_row n) a /\ K <= a_len a) (rows_in DFloat n (float_row n))
    (float_data n t t) (float_data n t hi)
    kept (fun _ p => exists m, ps_pm p = Some m /\ TR m) (fun _ _ => True) (float_row n)
    (fun v => tot = true -> not_nan v) (fun e => tot = false \/ Exc e)).
  { intros tot o1 cost1 E1 E2 E3 Hc. apply float_spec with (i := i); unfold feeds in *; rewrite ?E1, ?E2, ?E3; assumption. }
  assert (HQ : kept (op_st o)).
  { revert o Hu Hr. refine (fun o Hu _ => used_keeps E kept o0 _ H0 o Hu).
    intros o1 a1 cost1 ftol1 out1 w1 r1 s1 E1 E2 E3 HQ Hr1. unfold run_in in Hr1.
    assert (L1 := L false o1 cost1 E1 E2 E3 ltac:(discriminate)).
    pose proof (minimize_any _ _ _ _ _ _ _ _ _ _ _ _ L1 ftol1 out1 (mkSt a1 (op_st o1) w1 []) HQ eq_refl) as Mi.
    rewrite Hr1 in Mi. apply Mi. }
  destruct (used_setup E _ _ Hu) as (E1 & E2 & E3 & _).
  assert (L1 := L true o cost E1 E2 E3 (fun _ => Hcost)). unfold run_in in Hr.
  pose proof (minimize_any _ _ _ _ _ _ _ _ _ _ _ _ L1 ftol out (mkSt a (op_st o) w []) HQ eq_refl) as Mi.
  rewrite Hr in Mi. destruct Mi as (M1 & _ & (T1 & T2 & _)). split; [|split].
  - eapply Forall_impl; [|exact T1]. intros x Hx. apply Hx.
  - exact T2.
  - destruct r as [res|e]; [exact M1|]. destruct M1 as [M1|M1]; [discriminate|exact M1].
Qed.

End Ext.

(* ------------------------------------------------------------------ *)
(** ** The constructors *)

(** The library model of each algorithm. *)
Definition library_class (A : algorithm) : option pm_class :=
  match A with
  | UnivariateKEDA _ _ _ => Some KUniKDE | EGNA _ _ _ => Some KGBN
  | MultivariateKEDA _ _ _ _ => Some KKDEBN | SPEDA _ _ _ _ => Some KSPBN
  | _ => None
  end.
(** How many rows a data set can have when [t] individuals are selected. *)
Definition most_rows (A : algorithm) (t : nat) : option nat :=
  match A with
  | UnivariateKEDA _ _ _ | EGNA _ _ _ | EMNA _ _ _ _ _ _ => Some t
  | MultivariateKEDA _ _ (PyI l) _ | SPEDA _ _ (PyI l) _ => if (1 <=? l)%Z then Some (Z.to_nat l * t) else None
  | _ => None
  end.

Section Ctors.
Context {X W : Type}.
Variable E : env X W.

(** The conditions on the arguments, shared by the theorems below: as for UMDAc in C65. *)
Definition float_args (A : algorithm) (g : args) (t : Z) (cost : row -> W -> res num * W) : Prop :=
  (1 <= g_nvars g)%Z /\ int_times (g_size_gen g) (g_alpha g) = Ok t /\ (1 <= t <= g_size_gen g)%Z /\
  (g_init_data g = None -> forall lo hi, start_bounds A = Some (lo, hi) -> bounds_ok (Z.to_nat (g_nvars g)) lo hi) /\
  data_ok (Z.to_nat (g_nvars g)) (Z.to_nat t) (g_init_data g) /\ noise_ok (passed_noise A) /\
  (g_parallelize g = true -> cpu_count (e_pool E) <= Z.to_nat (g_size_gen g) /\ forall d, g_init_data g = Some d -> cpu_count (e_pool E) <= a_len d) /\
  cost_total (float_row (Z.to_nat (g_nvars g))) cost.

Lemma algo_run A g (M TR : model X -> Prop) Exc hi blo bhi (o0 o : optimiser X) cost a ftol out w t r s :
  construct E A g = Ok o0 -> is_pbil A = false -> start_bounds A = Some (blo, bhi) -> used E o0 o ->
  argsort_ok (e_argsort E) -> unif_ok (e_rng E) -> float_args A g t cost ->
  let n := Z.to_nat (g_nvars g) in
  kept M n hi (op_st o0) -> feeds o0 (Z.to_nat t) hi -> backend E M TR Exc n (Z.to_nat t) hi (g_size_gen g) ->
  run_in E a o cost ftol out w = (r, s) ->
  Forall (rows_in DFloat n (float_row n)) (map fst (gens (s_tr s))) /\
  Forall (float_data n (Z.to_nat t) hi) (learns (s_tr s)) /\
  match r with Ok res => best_ok (float_row n) (r_best_ind res) | Raise e => Exc e end.
Proof.
  intros Hnew Hpb HB Hu Has Hun (Hn & Ht & Hts & Hst & Hdat & Hno & Hpar & Hcost) n Hk Hf HBk Hr.
  pose proof (construct_built _ _ _ _ Hnew) as [Bc _ _ Bi _]. destruct (Bi _ _ HB) as (u & Huu & Hini).
  unfold base_of in Bc. pose proof (eda_init_inv _ _ _ _ _ _ _ _ _ _ _ Bc) as (C1 & _ & _ & C4 & _ & _ & _ & C8 & C9 & C10 & C11 & _).
  unfold passed_alpha in C11. rewrite Hpb in C11.
  assert (Et : c_trunc_len (op_cfg o0) = t) by congruence.
  destruct (noise_ok_cfg (passed_noise A) _ Hno C10) as [N1 N2].
  pose (K := match g_init_data g with Some d => Nat.min (Z.to_nat (g_size_gen g)) (a_len d) | None => Z.to_nat (g_size_gen g) end).
  assert (HKs : K <= Z.to_nat (g_size_gen g)) by (unfold K; destruct (g_init_data g); lia).
  assert (HtK : Z.to_nat t <= K).
  { unfold K. destruct (g_init_data g) as [d|] eqn:Ed; [|lia]. destruct (Hdat d eq_refl) as [_ Hd]. lia. }
  assert (Hvb : vector_or_bounds (g_nvars g) None blo bhi = Ok (IUniform u)) by (cbn [vector_or_bounds]; rewrite Huu; reflexivity).
  apply (float_run E M TR Exc n (Z.to_nat t) hi o0 o cost K (IUniform u) a ftol out w r s); try assumption.
  - lia.
  - rewrite C1. exact HBk.
  - rewrite C4. eapply vector_or_bounds_float, Hvb.
  - rewrite C4. reflexivity.
  - intros d Hd. rewrite C9 in Hd. destruct (Hdat d Hd) as [D1 _]. split; [exact D1|]. unfold K. rewrite Hd. lia.
  - rewrite C1. exact HKs.
  - rewrite C8. destruct (g_parallelize g) eqn:Ep; [right|left; reflexivity]. destruct (Hpar eq_refl) as [P1 P2].
    unfold K. destruct (g_init_data g) as [d|] eqn:Ed; [specialize (P2 d eq_refl); lia|exact P1].
  - lia.
  - unfold noise_refused. rewrite N2, Et, C4. destruct (Z.ltb_spec t 0); [lia|]. destruct (Z.ltb_spec (g_nvars g) 0); [lia|]. cbn. apply andb_false_r.
  - intros Hnone w1. rewrite C9 in Hnone. rewrite C1. eapply vector_or_bounds_total; [exact Hun|exact Hvb|lia|lia|].
    apply (Hst Hnone _ _ HB).
Qed.

(** EGNA, UnivariateKEDA, MultivariateKEDA, SPEDA. *)
Lemma library_setup A g k t hi (o0 : optimiser X) :
  construct E A g = Ok o0 -> library_class A = Some k -> int_times (g_size_gen g) (g_alpha g) = Ok t -> (1 <= t)%Z -> most_rows A (Z.to_nat t) = Some hi ->
  is_pbil A = false /\ (exists blo bhi, start_bounds A = Some (blo, bhi)) /\
  kept (fun m => exists x, m = MExt k (Z.to_nat (g_nvars g)) x) (Z.to_nat (g_nvars g)) hi (op_st o0) /\ feeds o0 (Z.to_nat t) hi.
Proof.
  intros H Hk Ht H1 Hm.
  assert (G : uses_archive A = false -> most_rows A (Z.to_nat t) = Some (Z.to_nat t) /\
     op_upd o0 = FromSelection /\ ps_archive (op_st o0) = mkArr DFloat (Z.to_nat (g_nvars g)) [] /\ exists x, ps_pm (op_st o0) = Some (MExt k (Z.to_nat (g_nvars g)) x)).
  { intros Ha. destruct A; cbn [library_class uses_archive] in *; try discriminate; cbn [construct] in H; unfold unikeda_new, egna_new in H;
      (destruct (base _ _ _ _) as [b|] eqn:Hb; cbn [rbind] in H; [|discriminate]); apply base_ok in Hb as (c & _ & ->).
    - destruct (uniform_new _ _ _) as [u|]; cbn [rbind] in H; [|discriminate]. destruct (assign_init _ _) as [b|] eqn:Hi; cbn [rbind] in H; [|discriminate].
      apply assign_init_ok in Hi as [_ ->]. apply assign_pm_ok in H as [_ ->]. cbn. split; [reflexivity|]. split; [reflexivity|]. split; [reflexivity|]. eexists. f_equal. f_equal. congruence.
    - destruct (assign_pm _ _) as [b|] eqn:Hp; cbn [rbind] in H; [|discriminate]. apply assign_pm_ok in Hp as [_ ->].
      destruct (uniform_new _ _ _) as [u|]; cbn [rbind] in H; [|discriminate]. apply assign_init_ok in H as [_ ->].
      cbn. split; [reflexivity|]. split; [reflexivity|]. split; [reflexivity|]. eexists. f_equal. f_equal. congruence. }
  split; [destruct A; cbn in Hk |- *; congruence|]. split; [destruct A; cbn in Hk |- *; try discriminate; eauto|].
  destruct (uses_archive A) eqn:Ha.
  - assert (G2 : exists l lo' hi' wn, (1 <= l)%Z /\ hi = Z.to_nat l * Z.to_nat t /\ archive_new E k g lo' hi' (PyI l) wn = Ok o0).
    { destruct A; cbn [uses_archive] in Ha; try discriminate; cbn [library_class most_rows construct] in *; assert (k = KKDEBN \/ k = KSPBN) by (left; congruence) || (right; congruence);
        destruct l as [l|l]; try discriminate; destruct (Z.leb_spec 1 l); try discriminate; exists l, lo, hi0, w_noise;
        (split; [assumption|]; split; [congruence|]); congruence. }
    destruct G2 as (l & lo' & hi' & wn & Hl & Hhi & Hn). apply archive_inv in Hn as (t' & c & u & Ht' & Hc & _ & Hn0 & ->).
    assert (t' = t) by congruence. subst t'. split.
    + split; [cbn; eauto|]. cbn [op_st ps_archive]. split; [split; [reflexivity|split; [reflexivity|constructor]]|]. cbn. lia.
    + right. exists (Z.to_nat l). split; [lia|]. split; [exact Hhi|]. cbn [op_upd op_cfg times_int]. split; [f_equal; f_equal; nia|].
      apply eda_init_inv in Hc. destruct Hc as (_ & _ & _ & _ & _ & _ & _ & _ & _ & _ & _ & C12 & _). rewrite Ht in C12. rewrite Z2Nat.id by lia. congruence.
  - destruct (G eq_refl) as (G1 & G2 & G3 & x & G4). split.
    + split; [exists (MExt k (Z.to_nat (g_nvars g)) x); split; [exact G4|eauto]|]. rewrite G3. split; [split; [reflexivity|split; [reflexivity|constructor]]|]. cbn. lia.
    + left. split; [exact G2|congruence].
Qed.

Definition sampled_floats (n : nat) (size : Z) (_ a : arr) : Prop := rows_in DFloat n (float_row n) a /\ a_len a = Z.to_nat size.

(** Learning and sampling a library model. *)
Lemma library_backend k n t hi size : library_samples E k (float_data n t hi) (sampled_floats n size) size ->
  backend E (fun m => exists x, m = MExt k n x)
    (fun m => exists d x w x' w', float_data n t hi d /\ e_xlearn E k d x w = (Ok tt, (x', w')) /\ m = MExt k n x')
    (library_raises E k (float_data n t hi) size) n t hi size.
Proof.
  intros Hs.
  split.
  - intros d m w0 Hd (x & ->). cbn [model_learn]. destruct (e_xlearn E k d x w0) as [r0 [x' w']] eqn:El. split; [eauto|].
    destruct r0 as [[]|e]; [exists d, x, w0, x', w'; auto|]. left. exists d, x, w0, x', w'. auto.
  - intros m w0 (d & x & w1 & x' & w' & Hd & El & ->). cbn [model_sample]. destruct (e_xsample E k x' size w0) as [[b|e] w2] eqn:Es; cbn [fst].
    + apply (Hs _ _ _ _ _ _ _ _ Hd El Es).
    + right. exists d, x, w1, x', w', w0, w2. auto.
Qed.

Lemma library_run A g k hi (o0 o : optimiser X) cost a ftol out w t r s :
  construct E A g = Ok o0 -> library_class A = Some k -> most_rows A (Z.to_nat t) = Some hi -> used E o0 o ->
  argsort_ok (e_argsort E) -> unif_ok (e_rng E) -> float_args A g t cost ->
  let n := Z.to_nat (g_nvars g) in
  library_samples E k (float_data n (Z.to_nat t) hi) (sampled_floats n (g_size_gen g)) (g_size_gen g) ->
  run_in E a o cost ftol out w = (r, s) ->
  Forall (rows_in DFloat n (float_row n)) (map fst (gens (s_tr s))) /\
  Forall (float_data n (Z.to_nat t) hi) (learns (s_tr s)) /\
  match r with
  | Ok res => best_ok (float_row n) (r_best_ind res)
  | Raise e => library_raises E k (float_data n (Z.to_nat t) hi) (g_size_gen g) e
  end.
Proof.
  intros Hnew Hk Hm Hu Has Hun Hargs n Hs Hr. pose proof Hargs as (_ & Ht & Hts & _).
  destruct (library_setup A g k t hi o0 Hnew Hk Ht ltac:(lia) Hm) as (Hpb & (blo & bhi & HB) & Hke & Hf).
  refine (algo_run A g (fun m => exists x, m = MExt k n x)
    (fun m => exists d x w x' w', float_data n (Z.to_nat t) hi d /\ e_xlearn E k d x w = (Ok tt, (x', w')) /\ m = MExt k n x')
    (library_raises E k (float_data n (Z.to_nat t) hi) (g_size_gen g)) hi blo bhi o0 o cost a ftol out w t r s
    Hnew Hpb HB Hu Has Hun Hargs Hke Hf _ Hr).
  apply library_backend, Hs.
Qed.

(** A library that never raises on these data sets. *)
Lemma library_completes A g k hi (o0 o : optimiser X) cost a ftol out w t :
  construct E A g = Ok o0 -> library_class A = Some k -> most_rows A (Z.to_nat t) = Some hi -> used E o0 o ->
  argsort_ok (e_argsort E) -> unif_ok (e_rng E) -> float_args A g t cost ->
  let n := Z.to_nat (g_nvars g) in
  library_samples E k (float_data n (Z.to_nat t) hi) (sampled_floats n (g_size_gen g)) (g_size_gen g) ->
  (forall e, ~ library_raises E k (float_data n (Z.to_nat t) hi) (g_size_gen g) e) ->
  exists res s, run_in E a o cost ftol out w = (Ok res, s).
Proof.
  intros Hnew Hk Hm Hu Has Hun Hargs n Hs Hno. destruct (run_in E a o cost ftol out w) as [r s] eqn:Hr.
  destruct (library_run A g k hi o0 o cost a ftol out w t r s Hnew Hk Hm Hu Has Hun Hargs Hs Hr) as (_ & _ & H).
  destruct r as [res|e]; [eauto|]. destruct (Hno e H).
Qed.

(** EMNA. *)
Lemma means_from_total (o : ops f64) col n : (forall i, i < n -> exists x, col i = Ok x) ->
  forall ms i, i + List.length ms <= n -> exists ms', means_from o col i ms = (Ok tt, ms') /\ List.length ms' = List.length ms.
Proof.
  intros Hc. induction ms as [|m ms IH]; intros i Hi; cbn [means_from]; [exists []; auto|]. cbn [List.length] in Hi.
  destruct (Hc i ltac:(lia)) as [x ->]. destruct (IH (Datatypes.S i) ltac:(lia)) as (ms' & -> & Hl). eexists. split; [reflexivity|]. cbn. lia.
Qed.
Lemma rmapM_all {A B} (f : A -> res B) l : (forall x, In x l -> exists y, f x = Ok y) -> exists ys, rmapM f l = Ok ys /\ List.length ys = List.length l.
Proof.
  induction l as [|x l IH]; intros H; cbn [rmapM]; [exists []; auto|]. destruct (H x (or_introl eq_refl)) as [y ->]. cbn [rbind].
  destruct (IH (fun z Hz => H z (or_intror Hz))) as (ys & -> & Hl). cbn [rbind]. eexists. split; [reflexivity|]. cbn. lia.
Qed.

Definition learned_emna (lf uf : f64) (d : arr) (p : mgauss (T := f64)) : Prop :=
  exists p0, List.length (mg_means p0) = a_nc d /\ multigauss_learn (b64_ops (e_sum E)) lf uf (a_nc d) (num_col d) p0 = (Ok tt, p).

(** [np.random.multivariate_normal] raises [e] on the parameters learned from a data set in [D]. *)
Definition normal_raises (lf uf : f64) (D : arr -> Prop) (size : Z) (e : exn) : Prop :=
  exists d p w w', D d /\ learned_emna lf uf d p /\ multigauss_sample (e_rng E) p size w = (Raise e, w').

(** Learning and sampling EMNA's model. *)
Lemma multi_backend lf uf n t size : 2 <= n ->
  backend E (fun m => exists p, m = MMulti lf uf p /\ List.length (mg_means p) = n)
    (fun m => exists d p, float_data n t t d /\ learned_emna lf uf d p /\ m = MMulti lf uf p)
    (normal_raises lf uf (float_data n t t) size) n t t size.
Proof.
  intros Hn2.
  split.
  - intros d m w0 [Hd Hl] (p & -> & Hp). cbn [model_learn]. pose proof Hd as (_ & Hnc & _).
    assert (Hc : forall i, i < n -> exists x, num_col d i = Ok x) by (intros i Hi; destruct (num_col_floats n d i Hd Hi) as (x & Hx & _); eauto).
    assert (Hlearn : exists p', multigauss_learn (b64_ops (e_sum E)) lf uf (a_nc d) (num_col d) p = (Ok tt, p') /\ List.length (mg_means p') = n).
    { unfold multigauss_learn. destruct (means_from_total (b64_ops (e_sum E)) (num_col d) n Hc (mg_means p) 0 ltac:(lia)) as (ms & -> & Hms).
      destruct (rmapM_all (num_col d) (seq 0 (a_nc d))) as (cols & -> & Hcols).
      { intros i Hi. apply in_seq in Hi. apply Hc. lia. }
      rewrite seq_length, Hnc in Hcols. destruct cols as [|x [|y cols]]; cbn [List.length] in Hcols; try (lia).
      eexists. split; [reflexivity|]. cbn [mg_means]. lia. }
    destruct Hlearn as (p' & Hlearn & Hp'). rewrite Hlearn. split; [eauto|]. exists d, p'. split; [split; assumption|]. split; [|reflexivity]. exists p. split; [rewrite Hp; symmetry; exact Hnc|exact Hlearn].
  - intros m w0 (d & p & Hd & Hlearn & ->). cbn [model_sample].
    destruct (multigauss_sample (e_rng E) p (size) w0) as [[b|e] w2] eqn:Es; cbn [fst]; [|exists d, p, w0, w2; auto].
    destruct Hlearn as (p0 & Hp0 & Hlearn). apply multigauss_ok in Hlearn as (_ & Hlen & _ & cols & _ & _ & Hcov).
    destruct Hd as [(_ & Hnc & _) _]. unfold multigauss_sample in Es. rewrite Hcov in Es. unfold np_mvn in Es.
    destruct (negb _) in Es; [discriminate|]. destruct (size <? 0)%Z; [discriminate|]. destruct (g_mvn _ _ _ _ _) as [[dr|e] w3]; [|discriminate].
    assert (Eb : b = float_arr (Z.to_nat size) (List.length (mg_means p)) dr) by congruence. subst b.
    replace (List.length (mg_means p)) with n by congruence. apply matrix_rows, float_arr_matrix.
Qed.

Lemma emna_run g lo hi lf uf wn z (o0 o : optimiser X) cost a ftol out w t r s :
  construct E (EMNA lo hi lf uf wn z) g = Ok o0 -> used E o0 o ->
  argsort_ok (e_argsort E) -> unif_ok (e_rng E) -> float_args (EMNA lo hi lf uf wn z) g t cost -> (2 <= g_nvars g)%Z ->
  run_in E a o cost ftol out w = (r, s) ->
  let n := Z.to_nat (g_nvars g) in
  Forall (rows_in DFloat n (float_row n)) (map fst (gens (s_tr s))) /\
  Forall (float_data n (Z.to_nat t) (Z.to_nat t)) (learns (s_tr s)) /\
  match r with
  | Ok res => best_ok (float_row n) (r_best_ind res)
  | Raise e => normal_raises lf uf (float_data n (Z.to_nat t) (Z.to_nat t)) (g_size_gen g) e
  end.
Proof.
  intros Hnew Hu Has Hun Hargs Hn2 Hr n. pose proof Hargs as (Hn & Ht & Hts & _).
  assert (G : op_upd o0 = FromSelection /\ kept (fun m => exists p, m = MMulti lf uf p /\ List.length (mg_means p) = n) n (Z.to_nat t) (op_st o0)).
  { cbn [construct] in Hnew. unfold emna_new in Hnew. destruct (base _ _ _ _) as [b|] eqn:Hb; cbn [rbind] in Hnew; [|discriminate]. apply base_ok in Hb as (c & _ & ->).
    destruct (assign_pm _ _) as [b|] eqn:Hp; cbn [rbind] in Hnew; [|discriminate]. apply assign_pm_ok in Hp as [_ ->].
    destruct (uniform_new _ _ _) as [u|]; cbn [rbind] in Hnew; [|discriminate]. apply assign_init_ok in Hnew as [_ ->].
    cbn [with_init with_pm op_upd op_st]. split; [reflexivity|]. split; [|cbn [ps_archive]; split; [split; [reflexivity|split; [reflexivity|constructor]]|cbn; lia]].
    eexists. split; [reflexivity|]. eexists. split; [reflexivity|]. cbn. apply tabulate_length. }
  destruct G as [Hup Hke].
  refine (algo_run (EMNA lo hi lf uf wn z) g _ (fun m => exists d p, float_data n (Z.to_nat t) (Z.to_nat t) d /\ learned_emna lf uf d p /\ m = MMulti lf uf p)
    (normal_raises lf uf (float_data n (Z.to_nat t) (Z.to_nat t)) (g_size_gen g)) (Z.to_nat t) lo hi o0 o cost a ftol out w t r s
    Hnew eq_refl eq_refl Hu Has Hun Hargs Hke (or_introl (conj Hup eq_refl)) _ Hr).
  apply multi_backend. lia.
Qed.

(** The shapes multivariate_normal checks are always right: what it raises comes from the
    decomposition of the matrix. *)
Lemma normal_raises_oracle lf uf n lo hi size e : (0 <= size)%Z ->
  normal_raises lf uf (float_data n lo hi) size e ->
  exists mean cov w w', List.length mean = n /\ List.length cov = n /\ Forall (fun r => List.length r = n) cov /\
    g_mvn (e_rng E) mean cov (Z.to_nat size) w = (Raise e, w').
Proof.
  intros Hs (d & p & w & w' & [(_ & Hnc & _) _] & (p0 & Hp0 & Hlearn) & Hsm). apply multigauss_ok in Hlearn as (_ & Hlen & _ & cols & _ & Hcols & Hcov).
  unfold multigauss_sample in Hsm. rewrite Hcov in Hsm. unfold np_mvn in Hsm.
  assert (Hl : List.length (mg_means p) = n) by congruence.
  assert (Hm : List.length (cov_matrix (b64_ops (e_sum E)) lf uf cols) = n) by (unfold cov_matrix; rewrite tabulate_length; congruence).
  assert (Hf : Forall (fun r => List.length r = n) (cov_matrix (b64_ops (e_sum E)) lf uf cols)).
  { unfold cov_matrix. apply Forall_forall. intros x Hx. apply tabulate_In in Hx as (i & _ & ->). rewrite tabulate_length. congruence. }
  rewrite Hl, Hm, Nat.eqb_refl in Hsm. cbn [andb] in Hsm.
  replace (forallb (fun r => Nat.eqb (List.length r) n) (cov_matrix (b64_ops (e_sum E)) lf uf cols)) with true in Hsm.
  2:{ symmetry. apply forallb_forall. intros x Hx. rewrite Forall_forall in Hf. apply Nat.eqb_eq, Hf, Hx. }
  cbn [negb] in Hsm. destruct (Z.ltb_spec size 0); [lia|].
  destruct (g_mvn (e_rng E) (mg_means p) _ (Z.to_nat size) w) as [[dr|e'] w3] eqn:Eg; [discriminate|].
  exists (mg_means p), (cov_matrix (b64_ops (e_sum E)) lf uf cols), w, w3. split; [exact Hl|]. split; [exact Hm|]. split; [exact Hf|]. rewrite Eg. assert (Ee : e = e') by congruence. rewrite Ee. reflexivity.
Qed.

(* ------------------------------------------------------------------ *)
(** ** Categories: EBNA and BOA *)

(** [t] vectors of strings with declared values. *)
Definition string_data (n : nat) (values : list (list cell)) (t : nat) (d : arr) : Prop :=
  cat_pop n values d /\ a_dt d = DObj /\ Forall (Forall is_CS) (a_rows d) /\ a_len d = t.
(** A network fitted to [d] samples, for each variable, values [d] has for it. *)
Definition sampled_cats (n : nat) (size : Z) (d a : arr) : Prop :=
  a_dt a = DObj /\ a_nc a = n /\ a_len a = Z.to_nat size /\ Forall (fun r => List.length r = n) (a_rows a) /\
  forall j, j < n -> incl (column j (a_rows a)) (column j (a_rows d)).

Definition cat_args (g : args) (values : list (list cell)) (freq : list (list f64)) (t : Z) (cost : row -> W -> res num * W) : Prop :=
  (1 <= g_nvars g)%Z /\ cats_ok values freq /\ string_cats (Z.to_nat (g_nvars g)) values /\ sums_ok values freq /\
  int_times (g_size_gen g) (g_alpha g) = Ok t /\ (1 <= t <= g_size_gen g)%Z /\ 
  (forall d, g_init_data g = Some d -> cat_pop (Z.to_nat (g_nvars g)) values d /\ a_dt d = DObj /\ Z.to_nat t <= a_len d) /\
  (g_parallelize g = true -> cpu_count (e_pool E) <= Z.to_nat (g_size_gen g) /\ forall d, g_init_data g = Some d -> cpu_count (e_pool E) <= a_len d) /\
  cost_total (cat_row (Z.to_nat (g_nvars g)) values) cost.

Lemma ebna_spec (tot : bool) g values freq t (o0 o : optimiser X) cost0 cost K :
  construct E (EBNA values freq) g = Ok o0 -> op_cfg o = op_cfg o0 -> op_init o = op_init o0 -> op_upd o = op_upd o0 ->
  argsort_ok (e_argsort E) -> unif_ok (e_rng E) -> cat_args g values freq t cost0 ->
  K = match g_init_data g with Some d => Nat.min (Z.to_nat (g_size_gen g)) (a_len d) | None => Z.to_nat (g_size_gen g) end ->
  let n := Z.to_nat (g_nvars g) in
  (tot = true -> cost_total (cat_row n values) cost) ->
  let D := string_data n values (Z.to_nat t) in
  library_samples E KBN D (sampled_cats n (g_size_gen g)) (g_size_gen g) ->
  loop_spec (op_cfg o) (hooks_of E o cost)
    (fun a => (cat_pop n values a /\ (true = true -> a_dt a = DObj)) /\ K <= a_len a) (fun a => cat_pop n values a /\ (true = true -> a_dt a = DObj))
    D D (fun p => exists x, ps_pm p = Some (MExt KBN n x))
    (fun d p => exists x w x' w', e_xlearn E KBN d x w = (Ok tt, (x', w')) /\ ps_pm p = Some (MExt KBN n x'))
    (fun d a => forall j, j < n -> incl (column j (a_rows a)) (column j (a_rows d))) (cat_row n values)
    (fun v => tot = true -> not_nan v) (fun e => tot = false \/ library_raises E KBN D (g_size_gen g) e).
Proof.
  intros Hnew E1 E2 E3 Has Hun (Hn & Hcats & Hstr & Hsum & Ht & Hts & Hdat & Hpar & _) HK n Hcost D Hsam.
  pose proof (construct_built _ _ _ _ Hnew) as [Bc _ Bu _ _]. specialize (Bu eq_refl).
  destruct (categorical_init E (EBNA values freq) g values freq o0 Hnew eq_refl) as (i & Hini & Hci). pose proof (declared E _ _ _ _ Hci) as Hdecl. fold n in Hdecl.
  unfold base_of in Bc. pose proof (eda_init_inv _ _ _ _ _ _ _ _ _ _ _ Bc) as (C1 & _ & _ & C4 & _ & _ & _ & C8 & C9 & C10 & C11 & _).
  cbn [passed_alpha is_pbil passed_noise] in C10, C11. unfold passed_alpha in C11. cbn [is_pbil] in C11. change (py_eq_int (PyI (-1)) 0) with false in C10. cbn iota in C10.
  assert (Et : c_trunc_len (op_cfg o0) = t) by congruence.
  assert (HKs : K <= Z.to_nat (g_size_gen g)) by (rewrite HK; destruct (g_init_data g); lia).
  assert (HtK : Z.to_nat t <= K).
  { rewrite HK. destruct (g_init_data g) as [d|] eqn:Ed; [|lia]. destruct (Hdat d eq_refl) as (_ & _ & Hd). lia. }
  pose proof (cat_pop_closed true n values) as Hcl.
  assert (Hnp : 0 < n) by (unfold n; lia).
  assert (T : tot = false \/ tot = true) by (destruct tot; auto).
  rewrite E1. split.
  - rewrite C9. destruct (g_init_data g) as [d|] eqn:Ed.
    { destruct (Hdat d eq_refl) as (D1 & D2 & D3). split; [split; [exact D1|auto]|]. rewrite HK. lia. }
    intros w. cbn [hooks_of h_init]. rewrite E1, E2, Hini, C1. cbn [initr_sample].
    destruct (cat_init_total (e_rng E) (e_str E) (e_sum E) (g_nvars g) values freq i (g_size_gen g) w Hun Hci) as (a & w' & Es); [|lia|].
    { intros j v f Hv Hf. split; [apply (Hcats j v f Hv Hf)|apply (Hsum j v f Hv Hf)]. }
    rewrite Es. cbn [fst]. destruct (cat_init_spec _ _ _ _ _ _ _ _ _ _ _ Hun Hci Hcats Es) as (S1 & S2 & S3 & S4 & S5). fold n in S1, S2, S3, S4, S5. specialize (S2 Hnp). specialize (S4 Hnp).
    assert (Hp : cat_pop n values a).
    { split; [exact S4|]. split; [exact S1|]. rewrite Forall_forall in S3. apply Forall_forall. intros r Hr. split; [apply S3, Hr|]. intros j v Hj Hv.
      destruct (Hdecl j Hj) as (v' & f & Hv' & Hf). assert (v' = v) by congruence. subst v'. specialize (S5 j v f Hj Hv Hf).
      apply column_rows in S5. rewrite Forall_forall in S5. destruct (S5 r Hr) as (k & q & Hk & _). eapply nth_error_In, Hk. }
    split; [split; [exact Hp|]|lia]. intros _. unfold cat_init_sample in Es. destruct (draw_columns _ _ w) as [[cols|e] w1]; [|discriminate].
    assert (Ea : a = frame (Z.to_nat (g_size_gen g)) cols) by congruence. subst a. destruct Hp as (_ & _ & Hf).
    destruct (a_rows (frame (Z.to_nat (g_size_gen g)) cols)) as [|r rs] eqn:Er; [unfold a_len in S2; rewrite Er in S2; cbn in S2; lia|].
    inversion Hf as [|? ? [Hlr Hr] _]; subst. destruct (Hdecl 0 Hnp) as (v & f & Hv & _). pose proof (Hr 0 v Hnp Hv) as Hin.
    pose proof (Hstr 0 v Hnp Hv) as Hs. rewrite Forall_forall in Hs. specialize (Hs _ Hin).
    destruct (nth 0 r (CF fnan)) as [z|x|str] eqn:En; try destruct Hs. apply (frame_obj (Z.to_nat (g_size_gen g)) cols r str); [rewrite Er; left; reflexivity|].
    rewrite <- En. apply nth_In. lia.
  - intros a [H _]. exact H.
  - intros a [H _]. apply (cl_rows _ _ Hcl a H).
  - right. intros a [_ Ha] He. unfold a_len in Ha. rewrite He in Ha. cbn in Ha. lia.
  - right. rewrite C8. destruct (g_parallelize g) eqn:Ep; [right|left; reflexivity]. destruct (Hpar eq_refl) as [P1 P2].
    intros a [_ Ha]. cbn [hooks_of h_pool]. rewrite HK in Ha. destruct (g_init_data g) as [d|]; [specialize (P2 d eq_refl); lia|lia].
  - intros r w Hr. cbn [hooks_of h_cost]. destruct T as [T|T].
    + destruct (fst (cost r w)); [intros T'; congruence|left; exact T].
    + destruct (Hcost T r w Hr) as (v & -> & Hv). auto.
  - destruct T as [T|T]; [left; left; exact T|right; auto].
  - intros g0 r rs [H _] Er. eapply (cl_head _ _ Hcl); eassumption.
  - intros a b [Ha _] Hb. destruct (cl_concat _ _ Hcl _ _ Ha Hb) as (x & -> & Hx). exact Hx.
  - apply (cl_take _ _ Hcl).
  - right. exact Has.
  - right. unfold noise_refused. rewrite C10. reflexivity.
  - intros g0 sel wn [_ Hg] [Hsel Hdt] Hwn Hsz. destruct (Hsz Has ltac:(lia)) as [k Hk]. destruct wn as [| |nr nc dr]; cbn [noise_cfg] in Hwn; rewrite C10 in Hwn.
    + discriminate Hwn.
    + assert (Hcs : Forall (Forall is_CS) (a_rows sel)).
      { pose proof Hsel as (_ & _ & Hrows). eapply Forall_impl; [|exact Hrows]. intros r [Hl Hr]. apply Forall_forall. intros c Hc. apply (In_nth _ _ (CF fnan)) in Hc as (j & Hj & <-).
        rewrite Hl in Hj. destruct (Hdecl j Hj) as (v & f & Hv & _). specialize (Hstr j v Hj Hv). rewrite Forall_forall in Hstr. apply Hstr, Hr; assumption. }
      rewrite iadd_str_total by auto. split; [exact Hsel|]. split; [auto|]. split; [exact Hcs|]. rewrite Hk, Et. lia.
    + destruct Hwn as (_ & Hwn & _). discriminate Hwn.
  - intros t0 e p Ht0 He Hp _. cbn [hooks_of h_data]. rewrite E3, Bu. cbn [data_of]. auto.
  - intros d p w Hd (x & Hm). cbn [hooks_of h_learn]. rewrite Hm. cbn [model_learn].
    destruct (e_xlearn E KBN d x w) as [r [x' w']] eqn:El. cbn [ps_pm]. split; [eauto|].
    destruct r as [[]|e]; [exists x, w, x', w'; auto|]. right. left. exists d, x, w, x', w'. auto.
  - intros d p w Hd _ (x & w1 & x' & w' & El & Hm). cbn [hooks_of h_sample]. rewrite Hm. cbn [model_sample]. rewrite E1, C1.
    destruct (e_xsample E KBN x' (g_size_gen g) w) as [[a|e] w2] eqn:Es; cbn [fst].
    + destruct (Hsam _ _ _ _ _ _ _ _ Hd El Es) as (S1 & S2 & S3 & S4 & S5). split; [|exact S5]. split; [|lia]. split; [|auto].
      split; [congruence|]. split; [exact S2|]. rewrite Forall_forall in S4. apply Forall_forall. intros r Hr. split; [apply S4, Hr|]. intros j v Hj Hv.
      apply (pop_column n values d j v (proj1 Hd) Hj Hv). apply (S5 j Hj). unfold column. apply in_map_iff. exists r. auto.
    + right. right. exists d, x, w1, x', w', w, w2. auto.
Qed.

Lemma ebna_run g values freq (o0 o : optimiser X) cost a ftol out w t r s :
  construct E (EBNA values freq) g = Ok o0 -> used E o0 o -> argsort_ok (e_argsort E) -> unif_ok (e_rng E) -> cat_args g values freq t cost ->
  let n := Z.to_nat (g_nvars g) in
  let D := string_data n values (Z.to_nat t) in
  library_samples E KBN D (sampled_cats n (g_size_gen g)) (g_size_gen g) ->
  run_in E a o cost ftol out w = (r, s) ->
  Forall (cat_pop n values) (map fst (gens (s_tr s))) /\
  Forall D (learns (s_tr s)) /\
  (forall k d g', nth_error (learns (s_tr s)) k = Some d -> nth_error (map fst (gens (s_tr s))) (Datatypes.S k) = Some g' ->
     forall j, j < n -> incl (column j (a_rows g')) (column j (a_rows d))) /\
  match r with
  | Ok res => best_ok (cat_row n values) (r_best_ind res)
  | Raise e => library_raises E KBN D (g_size_gen g) e
  end.
Proof.
  intros Hnew Hu Has Hun Hargs n D Hsam Hr. pose proof Hargs as (_ & _ & _ & _ & _ & _ & _ & _ & Hcost).
  assert (H0 : exists x, ps_pm (op_st o0) = Some (MExt KBN n x)).
  { cbn [construct] in Hnew. unfold bn_new in Hnew. destruct (base _ _ _ _) as [b|]; cbn [rbind] in Hnew; [|discriminate].
    destruct (assign_pm _ _) as [b1|] eqn:Hp; cbn [rbind] in Hnew; [|discriminate]. apply assign_pm_ok in Hp as [_ ->].
    destruct (cat_init_new _ _ _ _) as [i|]; cbn [rbind] in Hnew; [|discriminate]. apply assign_init_ok in Hnew as [_ ->]. cbn. eexists. reflexivity. }
  assert (HQ : exists x, ps_pm (op_st o) = Some (MExt KBN n x)).
  { refine (used_keeps E (fun p => exists x, ps_pm p = Some (MExt KBN n x)) o0 _ H0 o Hu).
    intros o1 a1 cost1 ftol1 out1 w1 r1 s1 E1 E2 E3 HQ Hr1. unfold run_in in Hr1.
    pose proof (ebna_spec false g values freq t o0 o1 cost cost1 _ Hnew E1 E2 E3 Has Hun Hargs eq_refl ltac:(discriminate) Hsam) as L1.
    pose proof (minimize_any _ _ _ _ _ _ _ _ _ _ _ _ L1 ftol1 out1 (mkSt a1 (op_st o1) w1 []) HQ eq_refl) as Mi.
    rewrite Hr1 in Mi. apply Mi. }
  destruct (used_setup E _ _ Hu) as (E1 & E2 & E3 & _). unfold run_in in Hr.
  pose proof (ebna_spec true g values freq t o0 o cost cost _ Hnew E1 E2 E3 Has Hun Hargs eq_refl (fun _ => Hcost) Hsam) as L1.
  pose proof (minimize_any _ _ _ _ _ _ _ _ _ _ _ _ L1 ftol out (mkSt a (op_st o) w []) HQ eq_refl) as Mi.
  rewrite Hr in Mi. destruct Mi as (M1 & _ & (T1 & T2 & _ & T4)). split; [|split; [exact T2|split; [exact T4|]]].
  - eapply Forall_impl; [|exact T1]. intros x Hx. apply Hx.
  - destruct r as [res|e]; [exact M1|]. destruct M1 as [M1|M1]; [discriminate|exact M1].
Qed.

End Ctors.
