(** Facts about constructed optimisers and repeated use; UMDAd. *)
From Coq Require Import String List ZArith Bool Lia.
From Verif Require Import PyBase B64 B64More NdArray Eda EdaInv Spec LoopObs Select LoopInv Rand RandThms Models Inits ModelThms ModelMore InitThms Stock.
Import ListNotations.
Open Scope nat_scope.

(* ------------------------------------------------------------------ *)
(** ** Arrays whose rows all satisfy a predicate *)

Definition rows_in (d : dtype) (n : nat) (P : row -> Prop) (a : arr) : Prop :=
  a_dt a = d /\ a_nc a = n /\ Forall P (a_rows a).

Lemma rows_in_head d n P g r rs : rows_in d n P g -> a_rows g = r :: rs -> rows_in d n P (mkArr (a_dt g) (a_nc g) [r]).
Proof. intros (H1 & H2 & H3) E. rewrite E in H3. inversion H3; subst. repeat split. constructor; [assumption|constructor]. Qed.

Lemma rows_in_concat d n P a b : rows_in d n P a -> rows_in d n P b -> exists x, np_concatenate a b = Ok x /\ rows_in d n P x.
Proof.
  intros (A1 & A2 & A3) (B1 & B2 & B3). unfold np_concatenate. rewrite A2, B2, Nat.eqb_refl. eexists. split; [reflexivity|].
  rewrite A1, B1. unfold rows_in, rows_as. cbn [a_dt a_nc a_rows]. rewrite A1, B1, promote_same, dtype_eqb_refl.
  repeat split. apply Forall_app. split; assumption.
Qed.

Lemma rows_in_take d n P idx a b : rows_in d n P a -> take_rows idx a = Ok b -> rows_in d n P b.
Proof.
  intros (A1 & A2 & A3) H. apply take_rows_ok in H as (B1 & B2 & B3). repeat split; [congruence|congruence|].
  apply LoopMore.gather_incl in B3. rewrite Forall_forall in *. intros r Hr. apply A3, B3, Hr.
Qed.

(* ------------------------------------------------------------------ *)
(** ** What a constructor stores *)

Lemma eda_init_inv size max dead n al el disp par init wn c :
  eda_init size max dead n al el disp par init wn = Ok c ->
  c_size_gen c = size /\ c_max_iter c = max /\ c_dead_iter c = dead /\ c_nvars c = n /\ c_alpha c = al /\ c_elite_factor c = el /\
  c_disp c = disp /\ c_parallelize c = par /\ c_init_data c = init /\
  c_w_noise c = match wn with Some p => if py_eq_int p 0 then PyI 0 else p | None => PyI 0 end /\
  int_times size al = Ok (c_trunc_len c) /\ int_times size el = Ok (c_elite_len c) /\
  (dead <= max)%Z /\ (forall d, init = Some d -> Z.of_nat (a_nc d) = n).
Proof.
  unfold eda_init. destruct (int_times size al) as [t|]; cbn [rbind]; [|discriminate].
  destruct (int_times size el) as [e|]; cbn [rbind]; [|discriminate].
  destruct (Z.leb_spec dead max); [|discriminate].
  destruct init as [d|].
  - destruct (Z.eqb_spec (Z.of_nat (a_nc d)) n); [|discriminate]. intros H0.
    assert (E : c = mkCfg size max dead n al el disp par (Some d) (match wn with Some p => if py_eq_int p 0 then PyI 0 else p | None => PyI 0 end) t e) by congruence.
    subst c. cbn. repeat split; try assumption. intros d' Hd. congruence.
  - intros H0.
    assert (E : c = mkCfg size max dead n al el disp par None (match wn with Some p => if py_eq_int p 0 then PyI 0 else p | None => PyI 0 end) t e) by congruence.
    subst c. cbn. repeat split; try assumption. discriminate.
Qed.

Section Use.
Context {X W : Type}.
Variable E : env X W.

(** Optimisers obtained from [o] by calling minimize any number of times, with any arguments,
    whether the calls returned or raised. *)
Inductive used (o : optimiser X) : optimiser X -> Prop :=
| used_fresh : used o o
| used_again o1 a cost ftol out w r s : used o o1 -> run_in E a o1 cost ftol out w = (r, s) -> used o (after o1 s).

Lemma used_setup o o1 : used o o1 ->
  op_cfg o1 = op_cfg o /\ op_init o1 = op_init o /\ op_upd o1 = op_upd o /\ op_exp o1 = op_exp o.
Proof. induction 1 as [|o1 a cost ftol out w r s H IH Hr]; [auto|]. exact IH. Qed.

(** A property of the model that every call keeps holds of a used optimiser. *)
Lemma used_keeps (Q : pmstate X -> Prop) o :
  (forall o1 a cost ftol out w r s, op_cfg o1 = op_cfg o -> op_init o1 = op_init o -> op_upd o1 = op_upd o ->
      Q (op_st o1) -> run_in E a o1 cost ftol out w = (r, s) -> Q (s_pm s)) ->
  Q (op_st o) -> forall o1, used o o1 -> Q (op_st o1).
Proof.
  intros Hstep H0 o1 H. induction H as [|o1 a cost ftol out w r s Hu IH Hr]; [exact H0|].
  destruct (used_setup _ _ Hu) as (E1 & E2 & E3 & _). cbn. eapply Hstep; eassumption.
Qed.

(** A cost function that returns a number for every row satisfying [P]. *)
Definition cost_total (P : row -> Prop) (cost : row -> W -> res num * W) : Prop :=
  forall r w, P r -> exists v, fst (cost r w) = Ok v /\ not_nan v.

(** Sets of individuals closed under what the loop does to them. *)
Record closed (PA : arr -> Prop) (P : row -> Prop) : Prop := {
  cl_rows : forall a, PA a -> Forall P (a_rows a);
  cl_head : forall a r rs, PA a -> a_rows a = r :: rs -> PA (mkArr (a_dt a) (a_nc a) [r]);
  cl_concat : forall a b, PA a -> PA b -> exists x, np_concatenate a b = Ok x /\ PA x;
  cl_take : forall idx a b, PA a -> take_rows idx a = Ok b -> PA b
}.

Lemma rows_in_closed d n P : closed (rows_in d n P) P.
Proof.
  split.
  - intros a (_ & _ & H). exact H.
  - apply rows_in_head.
  - apply rows_in_concat.
  - intros idx a b. apply rows_in_take.
Qed.

(** The rule of LoopInv for algorithms that learn from the selection.  [K] is a lower bound on
    the size of a generation; with [tot = true] the rule excludes every exception. *)
Lemma selection_spec (tot : bool) (o : optimiser X) cost (PA : arr -> Prop) (P : row -> Prop) K (DA : arr -> Prop) (QA : pmstate X -> Prop)
    (QL : arr -> pmstate X -> Prop) (Rel : arr -> arr -> Prop) :
  closed PA P ->
  op_upd o = FromSelection ->
  (tot = true -> argsort_ok (e_argsort E) /\ cost_total P cost /\ 1 <= K /\ noise_refused (op_cfg o) = false /\
                 (c_parallelize (op_cfg o) = false \/ cpu_count (e_pool E) <= K)) ->
  (match c_init_data (op_cfg o) with
   | Some a => PA a /\ K <= a_len a
   | None => forall w, match fst (h_init (hooks_of E o cost) w) with
                       | Ok a => PA a /\ K <= a_len a | Raise e => tot = false end
   end) ->
  (forall sel wn, PA sel -> noise_cfg (op_cfg o) wn ->
     (argsort_ok (e_argsort E) -> (0 <= c_trunc_len (op_cfg o))%Z -> exists k, a_len sel = Nat.min (Z.to_nat (c_trunc_len (op_cfg o))) (K + k)) ->
     match iadd sel wn with Ok t => DA t | Raise e => tot = false end) ->
  (forall a p w, DA a -> QA p ->
     let '(r, (p', w')) := h_learn (hooks_of E o cost) a p w in QA p' /\ match r with Ok _ => QL a p' | Raise e => tot = false end) ->
  (forall a p w, DA a -> QA p -> QL a p ->
     match fst (h_sample (hooks_of E o cost) p w) with
     | Ok g => (PA g /\ K <= a_len g) /\ Rel a g | Raise e => tot = false end) ->
  loop_spec (op_cfg o) (hooks_of E o cost) (fun a => PA a /\ K <= a_len a) PA DA DA QA QL Rel P
            (fun v => tot = true -> not_nan v) (fun _ => tot = false).
Proof.
  intros Hcl Hupd Htot Hinit Hiadd Hlearn Hsample.
  assert (T : tot = false \/ tot = true) by (destruct tot; auto).
  split.
  - exact Hinit.
  - intros a [H _]. exact H.
  - intros a [H _]. apply (cl_rows _ _ Hcl a H).
  - destruct T as [T|T]; [left; exact T|right]. destruct (Htot T) as (_ & _ & HK & _).
    intros a [_ Ha] He. unfold a_len in Ha. rewrite He in Ha. cbn in Ha. lia.
  - destruct T as [T|T]; [left; exact T|right]. destruct (Htot T) as (_ & _ & _ & _ & [H|H]); [left; exact H|right].
    intros a [_ Ha]. cbn [hooks_of h_pool]. lia.
  - intros r w Hr. cbn [hooks_of h_cost]. destruct T as [T|T].
    + destruct (fst (cost r w)); [intros T'; congruence|exact T].
    + destruct (Htot T) as (_ & Hc & _). destruct (Hc r w Hr) as (v & -> & Hv). auto.
  - destruct T as [T|T]; [left; exact T|right; auto].
  - intros g r rs [H _] Er. eapply (cl_head _ _ Hcl); eassumption.
  - intros a b [Ha _] Hb. destruct (cl_concat _ _ Hcl _ _ Ha Hb) as (x & -> & Hx). exact Hx.
  - apply (cl_take _ _ Hcl).
  - destruct T as [T|T]; [left; exact T|right]. apply (Htot T).
  - destruct T as [T|T]; [left; exact T|right]. apply (Htot T).
  - intros g sel wn [_ Hg] Hsel Hwn Hsz. apply Hiadd; [exact Hsel|exact Hwn|]. intros T' H0.
    destruct (Hsz T' H0) as [k Hk]. exists (a_len g - K + k). rewrite Hk. f_equal. lia.
  - intros t e p Ht He Hp _. cbn [hooks_of h_data]. rewrite Hupd. cbn [data_of]. auto.
  - exact Hlearn.
  - exact Hsample.
Qed.

(** What the rule says about one call of minimize. *)
Lemma run_spec tot (o : optimiser X) cost PG PA TA DA (QA : pmstate X -> Prop) QL Rel RowP VP a ftol out w r s :
  loop_spec (op_cfg o) (hooks_of E o cost) PG PA TA DA QA QL Rel RowP VP (fun _ => tot = false) ->
  QA (op_st o) -> run_in E a o cost ftol out w = (r, s) ->
  QA (s_pm s) /\ trace_ok PG DA Rel RowP VP (s_tr s) /\
  (tot = true -> exists res, r = Ok res) /\
  (forall res, r = Ok res -> best_ok RowP (r_best_ind res)).
Proof.
  intros L HQ H. unfold run_in in H.
  pose proof (minimize_any _ _ _ _ _ _ _ _ _ _ _ _ L ftol out (mkSt a (op_st o) w []) HQ eq_refl) as M.
  rewrite H in M. destruct M as (M1 & M2 & M3). split; [exact M2|]. split; [exact M3|]. split.
  - intros T. destruct r as [res|e]; [eauto|congruence].
  - intros res ->. exact M1.
Qed.

(* ------------------------------------------------------------------ *)
(** ** UMDAd *)

Lemma umdad_inv g vector lo hi o : umdad_new (X := X) g vector lo hi = Ok o ->
  eda_init (g_size_gen g) (g_max_iter g) (g_dead_iter g) (g_nvars g) (g_alpha g) (g_elite_factor g)
           (g_disp g) (g_parallelize g) (g_init_data g) (Some (PyI 0)) = Ok (op_cfg o) /\
  (0 <= g_nvars g)%Z /\
  (exists m, unibin_made (Z.to_nat (g_nvars g)) hi lo m /\ List.length (ub_pm m) = Z.to_nat (g_nvars g) /\ ps_pm (op_st o) = Some (MUniBin m)) /\
  op_init o = Some (IUniBin (unibin_init_new (g_nvars g) (match vector with None => repeat (lit 1 (-1)) (Z.to_nat (g_nvars g)) | Some v => v end))) /\
  op_upd o = FromSelection /\ op_exp o = Plain.
Proof.
  unfold umdad_new, base, names.
  destruct (eda_init _ _ _ _ _ _ _ _ _ _) as [c|] eqn:Ec; cbn [rmap rbind]; [|discriminate].
  pose proof (eda_init_inv _ _ _ _ _ _ _ _ _ _ _ Ec) as (_ & _ & _ & Hn & _).
  unfold unibin_new. destruct (flt lo hi) eqn:Hf; cbn [rbind]; [|discriminate].
  unfold assign_pm, set_pm. cbn [model_width ub_n op_cfg]. rewrite Hn.
  destruct (Z.eqb_spec (Z.of_nat (Z.to_nat (g_nvars g))) (g_nvars g)) as [Hz|]; cbn [rmap rbind]; [|discriminate].
  unfold assign_init, set_init. cbn [initr_width with_pm op_cfg unibin_init_new bi_n]. rewrite Hn, Z.eqb_refl. cbn [rmap].
  intros H. assert (Ho : o = with_init (with_pm (mkOpt c (mkPS None (mkArr DFloat (Z.to_nat (g_nvars g)) [])) None FromSelection Plain)
      (MUniBin (mkUB (Z.to_nat (g_nvars g)) lo hi (repeat (Z2f 0) (Z.to_nat (g_nvars g)))))) (IUniBin (unibin_init_new (g_nvars g)
      (match vector with None => repeat (lit 1 (-1)) (Z.to_nat (g_nvars g)) | Some v => v end)))) by congruence.
  subst o. split; [reflexivity|]. split; [lia|]. split; [|repeat split].
  eexists. split; [|split; [|reflexivity]]; [|apply repeat_length]. repeat split. exact Hf.
Qed.

Definition unibin_state (n : nat) (hi lo : f64) (p : pmstate X) : Prop :=
  exists m, ps_pm p = Some (MUniBin m) /\ unibin_made n hi lo m.

Lemma add_zero_ints r : Forall (fun x => exists z, x = CI z) r -> rmapM add_zero_cell r = Ok r.
Proof. induction 1 as [|x r [z ->] _ IH]; [reflexivity|]. cbn [rmapM add_zero_cell rbind]. rewrite IH. reflexivity. Qed.

Lemma iadd_zero_bits n a : rows_in DInt n (bit_row n) a -> iadd a NoiseZero = Ok a.
Proof.
  intros (H1 & H2 & H3). cbn [iadd]. replace (rmapM (rmapM add_zero_cell) (a_rows a)) with (Ok (a_rows a) : res (list row)).
  - cbn. destruct a; reflexivity.
  - symmetry. induction H3 as [|r rs Hr _ IH]; [reflexivity|]. cbn [rmapM].
    rewrite add_zero_ints; [cbn [rbind]; rewrite IH; reflexivity|].
    destruct Hr as [_ Hr]. eapply Forall_impl; [|exact Hr]. intros x [-> | ->]; eauto.
Qed.

(** The selection is never empty when it must not be. *)
Definition some_rows (tot : bool) (a : arr) : Prop := tot = true -> a_rows a <> [].

Lemma nonempty_sel tot (a : arr) t K :
  (tot = true -> argsort_ok (e_argsort E) /\ 1 <= K /\ (1 <= t)%Z) -> (argsort_ok (e_argsort E) -> (0 <= t)%Z -> exists k, a_len a = Nat.min (Z.to_nat t) (K + k)) -> some_rows tot a.
Proof.
  intros H1 H2 T E0. destruct (H1 T) as (Hs & HK & Ht). destruct (H2 Hs ltac:(lia)) as [k Hk]. unfold a_len in Hk. rewrite E0 in Hk. cbn [List.length] in Hk. lia.
Qed.

Definition umdad_ready (tot : bool) (g : args) (vector : option (list f64)) (K : nat) (o : optimiser X) (cost : row -> W -> res num * W) : Prop :=
  (forall v, vector = Some v -> List.length v = Z.to_nat (g_nvars g)) /\
  (forall d, g_init_data g = Some d -> rows_in DInt (Z.to_nat (g_nvars g)) (bit_row (Z.to_nat (g_nvars g))) d /\ K <= a_len d) /\
  K <= Z.to_nat (g_size_gen g) /\
  (tot = true -> argsort_ok (e_argsort E) /\ cost_total (bit_row (Z.to_nat (g_nvars g))) cost /\ 1 <= K /\
     (c_parallelize (op_cfg o) = false \/ cpu_count (e_pool E) <= K) /\ (1 <= c_trunc_len (op_cfg o))%Z).

Lemma umdad_spec tot g vector lo hi (o0 o : optimiser X) cost K :
  umdad_new g vector lo hi = Ok o0 -> op_cfg o = op_cfg o0 -> op_init o = op_init o0 -> op_upd o = op_upd o0 ->
  umdad_ready tot g vector K o cost ->
  let n := Z.to_nat (g_nvars g) in
  loop_spec (op_cfg o) (hooks_of E o cost)
    (fun a => rows_in DInt n (bit_row n) a /\ K <= a_len a) (rows_in DInt n (bit_row n))
    (fun a => rows_in DInt n (bit_row n) a /\ some_rows tot a) (fun a => rows_in DInt n (bit_row n) a /\ some_rows tot a)
    (unibin_state n hi lo)
    (fun d p => exists m, ps_pm p = Some (MUniBin m) /\ unibin_made n hi lo m /\ List.length (ub_pm m) = n)
    (fun _ _ => True) (bit_row n) (fun v => tot = true -> not_nan v) (fun _ => tot = false).
Proof.
  intros Hnew Ec Ei Eu (Hvec & Hinit & HK & Htot) n.
  destruct (umdad_inv _ _ _ _ _ Hnew) as (Hcfg & Hn0 & _ & Hini & Hupd & _). rewrite <- Ec in Hcfg. rewrite <- Ei in Hini. rewrite <- Eu in Hupd.
  pose proof (eda_init_inv _ _ _ _ _ _ _ _ _ _ _ Hcfg) as (C1 & _ & _ & C4 & _ & _ & _ & C8 & C9 & C10 & C11 & _).
  change (py_eq_int (PyI 0) 0) with true in C10. cbn iota in C10.
  assert (Hv : (match vector with None => repeat (lit 1 (-1)) n | Some v => v end) = [] \/
     List.length (match vector with None => repeat (lit 1 (-1)) n | Some v => v end) = n).
  { right. destruct vector as [v|]; [apply Hvec; reflexivity|apply repeat_length]. }
  apply selection_spec.
  - apply rows_in_closed.
  - exact Hupd.
  - intros T. destruct (Htot T) as (A1 & A2 & A3 & A4 & A5). refine (conj A1 (conj A2 (conj A3 (conj _ A4)))).
    unfold noise_refused. rewrite C10. reflexivity.
  - rewrite C9. destruct (g_init_data g) as [d|]; [apply Hinit; reflexivity|].
    intros w. cbn [hooks_of h_init]. rewrite Hini, C1. cbn [initr_sample].
    destruct (unibin_init_sample (e_rng E) _ (g_size_gen g) w) as [[a|e] w'] eqn:Es; cbn [fst].
    + apply unibin_init_width in Es; [|exact Hv]. destruct Es as [Hb Hl]. split; [exact Hb|]. lia.
    + destruct tot; [exfalso|reflexivity]. destruct (Htot eq_refl) as (_ & _ & A3 & _).
      destruct (unibin_init_total (e_rng E) (g_nvars g) _ (g_size_gen g) w Hv) as (a & w'' & Ht); [lia|]. fold n in Es. congruence.
  - intros sel wn Hsel Hwn Hsz. destruct wn; cbn [noise_cfg] in Hwn; rewrite C10 in Hwn.
    + rewrite (iadd_zero_bits n sel Hsel). split; [exact Hsel|]. eapply nonempty_sel; [|exact Hsz].
      intros T. destruct (Htot T) as (A1 & _ & A3 & _ & A5). auto.
    + destruct Hwn as [Hwn _]. discriminate Hwn.
    + destruct Hwn as [Hwn _]. discriminate Hwn.
  - intros a p w [(B1 & B2 & B3) Hne] (m & Hm & Hmade). cbn [hooks_of h_learn]. rewrite Hm. cbn [model_learn].
    destruct (unibin_learn a m) as [r m'] eqn:El. split; [eexists; split; [reflexivity|]; eapply unibin_made_learn; eassumption|].
    destruct (a_rows a) as [|r0 rs] eqn:Er.
    + pose proof (unibin_empty a m Er) as He. rewrite El in He. assert (r = Raise ZeroDivisionError) by congruence. subst r.
      destruct tot; [|reflexivity]. exfalso. apply Hne; [reflexivity|exact Er].
    + destruct (unibin_bits_made n hi lo m a Hmade B2) as (m1 & Hl1 & Hlen & _); [rewrite Er; exact B3|rewrite Er; discriminate|].
      rewrite El in Hl1. assert (Er1 : r = Ok tt /\ m' = m1) by (split; congruence). destruct Er1 as [-> ->].
      exists m1. split; [reflexivity|]. split; [eapply unibin_made_learn; eassumption|exact Hlen].
  - intros a p w _ _ (m & Hm & (Q1 & Q2 & Q3 & Q4) & Hlen). cbn [hooks_of h_sample]. rewrite Hm. cbn [model_sample]. rewrite C1.
    destruct (unibin_sample (e_rng E) m (g_size_gen g) w) as [[b|e] w'] eqn:Es; cbn [fst].
    + apply unibin_sample_spec in Es as (_ & S1 & S2 & S3 & S4 & _). rewrite Q2, Hlen in S3. unfold bres in S3. rewrite Nat.eqb_refl in S3.
      assert (Hw : a_nc b = n) by congruence. rewrite Hw in S4. split; [|exact I]. split; [repeat split; assumption|lia].
    + destruct tot; [exfalso|reflexivity]. destruct (Htot eq_refl) as (_ & _ & A3 & _).
      unfold unibin_sample in Es. destruct (Z.ltb_spec (g_size_gen g) 0); [lia|]. rewrite Q2, Hlen in Es. unfold bres in Es. rewrite Nat.eqb_refl in Es.
      destruct (g_unif (e_rng E) (Z.to_nat (g_size_gen g)) n w). discriminate Es.
Qed.

(** Whatever calls were made before, the model of a UMDAd optimiser is one its constructor and
    its learning produce. *)
Lemma umdad_used g vector lo hi (o0 o : optimiser X) :
  umdad_new g vector lo hi = Ok o0 ->
  (forall v, vector = Some v -> List.length v = Z.to_nat (g_nvars g)) ->
  (forall d, g_init_data g = Some d -> rows_in DInt (Z.to_nat (g_nvars g)) (bit_row (Z.to_nat (g_nvars g))) d) ->
  used o0 o -> unibin_state (Z.to_nat (g_nvars g)) hi lo (op_st o).
Proof.
  intros Hnew Hvec Hinit Hu. revert o Hu. apply used_keeps.
  - intros o1 a cost ftol out w r s E1 E2 E3 HQ Hr.
    assert (Hrd : umdad_ready false g vector 0 o1 cost).
    { split; [exact Hvec|]. split; [intros d Hd; split; [apply Hinit, Hd|lia]|]. split; [lia|discriminate]. }
    pose proof (umdad_spec false _ _ _ _ _ _ _ _ Hnew E1 E2 E3 Hrd) as L. cbv zeta in L.
    apply (run_spec false _ _ _ _ _ _ _ _ _ _ _ _ _ _ _ _ _ L HQ Hr).
  - destruct (umdad_inv _ _ _ _ _ Hnew) as (_ & _ & (m & H1 & _ & H2) & _). exists m. auto.
Qed.

(** C28, C66 for one call, after any history of calls. *)
Lemma umdad_run tot g vector lo hi (o0 o : optimiser X) cost K a ftol out w r s :
  umdad_new g vector lo hi = Ok o0 -> used o0 o -> umdad_ready tot g vector K o cost ->
  run_in E a o cost ftol out w = (r, s) ->
  let n := Z.to_nat (g_nvars g) in
  Forall (rows_in DInt n (bit_row n)) (map fst (gens (s_tr s))) /\
  Forall (fun rv => bit_row n (fst rv)) (calls (s_tr s)) /\
  (tot = true -> exists res, r = Ok res) /\
  (forall res, r = Ok res -> best_ok (bit_row n) (r_best_ind res)).
Proof.
  intros Hnew Hu Hrd Hr n. destruct (used_setup _ _ Hu) as (E1 & E2 & E3 & _).
  pose proof (umdad_spec tot _ _ _ _ _ _ _ _ Hnew E1 E2 E3 Hrd) as L. cbv zeta in L. fold n in L.
  destruct Hrd as (R1 & R2 & _).
  pose proof (umdad_used _ _ _ _ _ _ Hnew R1 (fun d Hd => proj1 (R2 d Hd)) Hu) as HQ.
  destruct (run_spec tot _ _ _ _ _ _ _ _ _ _ _ _ _ _ _ _ _ L HQ Hr) as (_ & (T1 & _ & T3 & _) & T4 & T5).
  split; [|split; [|split; assumption]].
  - eapply Forall_impl; [|exact T1]. intros gv H. apply H.
  - eapply Forall_impl; [|exact T3]. intros rv H. apply H.
Qed.

End Use.
