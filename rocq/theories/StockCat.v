(** UMDAcat: individuals stay inside the declared categories, extinct values stay extinct, runs
    complete for string categories and cannot get past the first generation for others. *)
From Coq Require Import String List ZArith Bool Lia Reals.
From Flocq Require Import Core.
From Verif Require Import PyBase B64 B64More NdArray Eda EdaInv Spec LoopObs LoopThms Select LoopMore LoopInv Rand RandThms Models Inits ModelThms Kahan CatThms InitThms Stock StockInv.
Import ListNotations.
Open Scope nat_scope.

(** A row with a declared value in each of the [n] positions. *)
Definition cat_row (n : nat) (values : list (list cell)) (r : row) : Prop :=
  List.length r = n /\ forall j v, j < n -> nth_error values j = Some v -> In (nth j r (CF fnan)) v.
Definition cat_pop (n : nat) (values : list (list cell)) (a : arr) : Prop :=
  a_dt a <> DFloat /\ a_nc a = n /\ Forall (cat_row n values) (a_rows a).

Lemma cat_pop_closed (tot : bool) n values : closed (fun a => cat_pop n values a /\ (tot = true -> a_dt a = DObj)) (cat_row n values).
Proof.
  split.
  - intros a [(_ & _ & H) _]. exact H.
  - intros a r rs [(H1 & H2 & H3) H4] Er. rewrite Er in H3. inversion H3; subst. split; [|exact H4]. split; [exact H1|]. split; [reflexivity|]. constructor; [assumption|constructor].
  - intros a b [(A1 & A2 & A3) A4] [(B1 & B2 & B3) B4]. unfold np_concatenate. rewrite A2, B2, Nat.eqb_refl. eexists. split; [reflexivity|].
    assert (Hd : promote (a_dt a) (a_dt b) <> DFloat) by (destruct (a_dt a), (a_dt b); cbn; congruence).
    assert (Hrows : forall c, rows_as (promote (a_dt a) (a_dt b)) c = a_rows c).
    { intros c. unfold rows_as. destruct (dtype_eqb _ _); [reflexivity|]. rewrite <- (map_id (a_rows c)) at 2. apply map_ext.
      intros r. rewrite <- (map_id r) at 2. apply map_ext. intros x. apply cast_id, Hd. }
    rewrite !Hrows. split; [|intros T; cbn [a_dt]; rewrite (A4 T), (B4 T); reflexivity].
    split; [exact Hd|]. split; [reflexivity|]. cbn [a_rows]. apply Forall_app. split; assumption.
  - intros idx a b [(A1 & A2 & A3) A4] H. apply take_rows_ok in H as (B1 & B2 & B3). split; [|intros T; rewrite B1; auto].
    split; [congruence|]. split; [congruence|]. apply gather_incl in B3. rewrite Forall_forall in *. intros r Hr. apply A3, B3, Hr.
Qed.

Lemma string_app_nil s : (s ++ "")%string = s.
Proof. induction s as [|c s IH]; cbn; congruence. Qed.

(** Adding "" succeeds exactly on object arrays of strings, and changes nothing. *)
Lemma add_str_row r r' : rmapM add_str_cell r = Ok r' -> r' = r /\ Forall is_CS r.
Proof.
  revert r'. induction r as [|c r IH]; intros r' H; cbn [rmapM] in H; [injection H as <-; auto|].
  destruct c as [z|x|s]; cbn [add_str_cell rbind] in H; try discriminate. destruct (rmapM add_str_cell r) as [r2|] eqn:E; cbn [rbind] in H; [|discriminate].
  destruct (IH r2 eq_refl) as [-> Hr]. rewrite string_app_nil in H. injection H as <-. split; [reflexivity|]. constructor; [exact I|exact Hr].
Qed.
Lemma iadd_str a t : iadd a NoiseStr = Ok t -> t = a /\ a_dt a = DObj /\ Forall (Forall is_CS) (a_rows a).
Proof.
  cbn [iadd]. destruct (a_dt a) eqn:Ed; try discriminate. destruct (rmapM (rmapM add_str_cell) (a_rows a)) as [rs|] eqn:E; cbn [rmap]; [|discriminate].
  intros H. assert (G : rs = a_rows a /\ Forall (Forall is_CS) (a_rows a)).
  { clear H. revert rs E. induction (a_rows a) as [|r l IH]; intros rs E; cbn [rmapM] in E; [injection E as <-; auto|].
    destruct (rmapM add_str_cell r) as [r'|] eqn:Er; cbn [rbind] in E; [|discriminate].
    destruct (rmapM (rmapM add_str_cell) l) as [l'|] eqn:El; cbn [rbind] in E; [|discriminate].
    destruct (add_str_row _ _ Er) as [-> Hr]. destruct (IH l' eq_refl) as [-> Hl]. injection E as <-. auto. }
  destruct G as [-> G]. split; [|auto]. assert (Et : t = mkArr DObj (a_nc a) (a_rows a)) by congruence. subst t. rewrite <- Ed. destruct a; reflexivity.
Qed.
Lemma iadd_str_total a : a_dt a = DObj -> Forall (Forall is_CS) (a_rows a) -> iadd a NoiseStr = Ok a.
Proof.
  intros Hd H. cbn [iadd]. rewrite Hd.
  assert (G : rmapM (rmapM add_str_cell) (a_rows a) = Ok (a_rows a)).
  { induction H as [|r l Hr _ IH]; [reflexivity|]. cbn [rmapM].
    assert (Er : rmapM add_str_cell r = Ok r).
    { clear IH. induction Hr as [|c r Hc _ IHr]; [reflexivity|]. destruct c; try destruct Hc. cbn [rmapM add_str_cell rbind]. rewrite IHr, string_app_nil. reflexivity. }
    rewrite Er. cbn [rbind]. rewrite IH. reflexivity. }
  rewrite G. cbn [rmap]. rewrite <- Hd. destruct a; reflexivity.
Qed.

(** From columns to rows and back. *)
Lemma column_rows j (Q : cell -> Prop) rs : Forall Q (column j rs) <-> Forall (fun r => Q (nth j r (CF fnan))) rs.
Proof. unfold column. apply Forall_map. Qed.

Lemma pop_column n values a j v : cat_pop n values a -> j < n -> nth_error values j = Some v -> incl (column j (a_rows a)) v.
Proof.
  intros (_ & _ & H) Hj Hv c Hc. unfold column in Hc. apply in_map_iff in Hc as (r & <- & Hr). rewrite Forall_forall in H. apply (H r Hr); assumption.
Qed.

Lemma cat_learn_length d t r t' : cat_learn d t = (r, t') -> List.length t' = List.length t.
Proof.
  unfold cat_learn. assert (G : forall t i, List.length (snd (cat_learn_from d i t)) = List.length t).
  { clear. induction t as [|e t IH]; intros i; cbn [cat_learn_from]; [reflexivity|].
    destruct (rbind (cell_col d i) obtain_probabilities); [|reflexivity].
    specialize (IH (Datatypes.S i)). destruct (cat_learn_from d (Datatypes.S i) t). cbn in *. congruence. }
  intros H. specialize (G t 0). rewrite H in G. exact G.
Qed.

(** Nothing can be sampled from a model trained on an empty data set. *)
Lemma cat_sample_empty {W} (g : rng W) str_of d t t' size w :
  cat_learn d t = (Ok tt, t') -> List.length t = a_nc d -> 0 < a_nc d -> a_rows d = [] -> is_ok (fst (cat_sample g str_of t' size w)) = false.
Proof.
  intros Hl Hn Hp He.
  assert (Hd : forall j, j < a_nc d -> discrete (column j (a_rows d))) by (intros j _; rewrite He; left; constructor).
  destruct (cat_learn_spec d t Hn Hd) as (t2 & Ht2 & Hlen & Hf). rewrite Hl in Ht2. assert (t2 = t') by congruence. subst t2.
  destruct (Hf 0 Hp) as (p & Hp0 & (_ & Hin & _ & _)). rewrite He in Hin. cbn in Hin.
  assert (Ep : p = []) by (destruct p as [|x p]; [reflexivity|exfalso; apply (Hin (fst x)); left; reflexivity]). subst p.
  destruct t' as [|e t']; [discriminate|]. cbn in Hp0. injection Hp0 as ->. unfold cat_sample. cbn [draw_columns cat_draw map].
  unfold np_choice. assert (P0 : probs_ok [] = false) by (vm_compute; reflexivity).
  change (homogenise str_of []) with (@nil cell). cbn [List.length Nat.eqb andb negb]. rewrite P0.
  destruct (size <? 0)%Z; [reflexivity|]. destruct (Z.eqb size 0); reflexivity.
Qed.

(** A frame that holds a string is an array of objects. *)
Lemma frame_obj size cols r s : In r (a_rows (frame size cols)) -> In (CS s) r -> a_dt (frame size cols) = DObj.
Proof.
  destruct cols as [|c0 cs] eqn:Ec; [intros []|]. rewrite <- Ec in *. assert (Hne : cols <> []) by (rewrite Ec; discriminate). clear Ec.
  rewrite frame_wide by exact Hne. cbn [a_dt a_rows]. intros Hr Hs. apply tabulate_In in Hr as (i & _ & ->). apply in_map_iff in Hs as (col & Hc & Hcol).
  unfold frame_dtype. replace (existsb (existsb is_str) cols) with true; [reflexivity|]. symmetry. apply existsb_exists. exists col. split; [exact Hcol|].
  apply existsb_exists. exists (CS s). split; [|reflexivity].
  destruct (nth_in_or_default i col (CF fnan)) as [Hin|Hd].
  - destruct (nth i col (CF fnan)); destruct (frame_dtype cols); cbn in Hc; try discriminate; congruence.
  - rewrite Hd in Hc. destruct (frame_dtype cols); discriminate.
Qed.

Section Cat.
Context {X W : Type}.
Variable E : env X W.

Lemma umdacat_inv g values freq (o : optimiser X) : umdacat_new E g values freq = Ok o ->
  eda_init (g_size_gen g) (g_max_iter g) (g_dead_iter g) (g_nvars g) (g_alpha g) (g_elite_factor g)
           (g_disp g) (g_parallelize g) (g_init_data g) (Some (PyI (-1))) = Ok (op_cfg o) /\
  (0 <= g_nvars g)%Z /\ ps_pm (op_st o) = Some (MUniCat (cat_new (Z.to_nat (g_nvars g)))) /\
  (exists i, op_init o = Some (ICat i) /\ cat_init_new (e_sum E) (g_nvars g) values freq = Ok i) /\
  op_upd o = FromSelection /\ op_exp o = Plain.
Proof.
  unfold umdacat_new, base, names.
  destruct (eda_init _ _ _ _ _ _ _ _ _ _) as [c|] eqn:Ec; cbn [rmap rbind]; [|discriminate].
  pose proof (eda_init_inv _ _ _ _ _ _ _ _ _ _ _ Ec) as (_ & _ & _ & Hn & _).
  unfold assign_pm, set_pm. cbn [op_cfg model_width]. unfold cat_new at 1. rewrite repeat_length, Hn.
  destruct (Z.eqb_spec (Z.of_nat (Z.to_nat (g_nvars g))) (g_nvars g)) as [Hz|]; cbn [rmap rbind]; [|discriminate].
  destruct (cat_init_new (e_sum E) (g_nvars g) values freq) as [i|] eqn:Ei; cbn [rbind]; [|discriminate].
  unfold assign_init, set_init. cbn [with_pm op_cfg]. destruct (Z.eqb_spec (initr_width (ICat i)) (c_nvars c)); cbn [rmap]; [|discriminate].
  intros H. match type of H with Ok ?x = _ => assert (Ho : o = x) by congruence end. subst o.
  split; [reflexivity|]. split; [lia|]. split; [reflexivity|]. split; [exists i; split; reflexivity|]. split; reflexivity.
Qed.

Definition cat_state (n : nat) (p : pmstate X) : Prop := exists t, List.length t = n /\ ps_pm p = Some (MUniCat t).

(** Conditions on the user's arguments. *)
Definition cats_ok (values : list (list cell)) (freq : list (list f64)) : Prop :=
  forall j v f, nth_error values j = Some v -> nth_error freq j = Some f -> category v f.
Definition string_cats (n : nat) (values : list (list cell)) : Prop := forall j v, j < n -> nth_error values j = Some v -> Forall is_CS v.
Definition sums_ok (values : list (list cell)) (freq : list (list f64)) : Prop :=
  forall j v f, nth_error values j = Some v -> nth_error freq j = Some f ->
    (Z.of_nat (List.length f) <= 2 ^ 22)%Z /\ (Rabs (real_sum f - 1) <= bpow radix2 (-28))%R.

(** What a training set satisfies, and what the next generation has to do with it. *)
Definition cat_data (tot : bool) (n : nat) (values : list (list cell)) (d : arr) : Prop :=
  cat_pop n values d /\ a_dt d = DObj /\ Forall (Forall is_CS) (a_rows d) /\ (Z.of_nat (a_len d) <= 2 ^ 53)%Z /\
  (tot = true -> 1 <= a_len d /\ (Z.of_nat (a_len d) <= 2 ^ 22)%Z).
Definition cat_next (n : nat) (d g : arr) : Prop :=
  a_rows d <> [] /\ Forall (Forall is_CS) (a_rows d) /\ forall j, j < n -> incl (column j (a_rows g)) (column j (a_rows d)).

Lemma declared n values freq i : cat_init_new (e_sum E) n values freq = Ok i ->
  forall j, j < Z.to_nat n -> exists v f, nth_error values j = Some v /\ nth_error freq j = Some f.
Proof.
  unfold cat_init_new. intros H j Hj.
  assert (Hc : cat_check (e_sum E) (Z.to_nat n) values freq = Ok tt) by (destruct (cat_check _ _ _ _) as [[]|]; [reflexivity|discriminate]).
  destruct (cat_check_facts _ _ _ _ Hc j Hj) as (v & f & Hv & Hf & _). eauto.
Qed.

Lemma umdacat_spec tot g values freq (o0 o : optimiser X) cost K :
  umdacat_new E g values freq = Ok o0 -> op_cfg o = op_cfg o0 -> op_init o = op_init o0 -> op_upd o = op_upd o0 ->
  argsort_ok (e_argsort E) -> unif_ok (e_rng E) -> (1 <= g_nvars g)%Z -> cats_ok values freq ->
  (0 <= c_trunc_len (op_cfg o0) <= 2 ^ 53)%Z ->
  (forall d, g_init_data g = Some d -> (cat_pop (Z.to_nat (g_nvars g)) values d /\ (tot = true -> a_dt d = DObj)) /\ K <= a_len d) -> K <= Z.to_nat (g_size_gen g) ->
  (tot = true -> cost_total (cat_row (Z.to_nat (g_nvars g)) values) cost /\ 1 <= K /\ string_cats (Z.to_nat (g_nvars g)) values /\ sums_ok values freq /\
     (c_parallelize (op_cfg o0) = false \/ cpu_count (e_pool E) <= K) /\ (1 <= c_trunc_len (op_cfg o0) <= 2 ^ 22)%Z) ->
  let n := Z.to_nat (g_nvars g) in
  loop_spec (op_cfg o) (hooks_of E o cost)
    (fun a => (cat_pop n values a /\ (tot = true -> a_dt a = DObj)) /\ K <= a_len a) (fun a => cat_pop n values a /\ (tot = true -> a_dt a = DObj))
    (cat_data tot n values) (cat_data tot n values) (cat_state n)
    (fun d p => exists t t', List.length t = n /\ cat_learn d t = (Ok tt, t') /\ ps_pm p = Some (MUniCat t'))
    (cat_next n) (cat_row n values) (fun v => tot = true -> not_nan v) (fun _ => tot = false).
Proof.
  intros Hnew Ec Ei Eu Has Hun Hn1 Hcats Htr Hinit HK Htot n.
  destruct (umdacat_inv _ _ _ _ Hnew) as (Hcfg & Hn0 & _ & (i & Hini & Hci) & Hupd & _). rewrite <- Ec in Hcfg, Htr. rewrite <- Ei in Hini. rewrite <- Eu in Hupd. rewrite <- Ec in Htot.
  pose proof (eda_init_inv _ _ _ _ _ _ _ _ _ _ _ Hcfg) as (C1 & _ & _ & C4 & _ & _ & _ & C8 & C9 & C10 & C11 & _).
  change (py_eq_int (PyI (-1)) 0) with false in C10. cbn iota in C10.
  pose proof (declared _ _ _ _ Hci) as Hdecl. fold n in Hdecl.
  assert (Hnp : 0 < n) by (unfold n; lia).
  assert (Hdisc : forall a, cat_pop n values a -> forall j, j < a_nc a -> discrete (column j (a_rows a))).
  { intros a Ha j Hj. assert (Hjn : j < n) by (destruct Ha as (_ & Hc & _); lia). destruct (Hdecl j Hjn) as (v & f & Hv & Hf).
    eapply discrete_incl; [|eapply pop_column; eassumption]. apply (Hcats j v f Hv Hf). }
  assert (Hobj : forall size cols, cat_pop n values (frame size cols) -> tot = true -> 1 <= a_len (frame size cols) -> a_dt (frame size cols) = DObj).
  { intros size cols (_ & _ & Hf) T Hl. destruct (Htot T) as (_ & _ & Hstr & _). destruct (a_rows (frame size cols)) as [|r rs] eqn:Er; [unfold a_len in Hl; rewrite Er in Hl; cbn in Hl; lia|].
    inversion Hf as [|? ? [Hlr Hr] _]; subst. destruct (Hdecl 0 Hnp) as (v & f & Hv & _). pose proof (Hr 0 v Hnp Hv) as Hin.
    pose proof (Hstr 0 v Hnp Hv) as Hs. rewrite Forall_forall in Hs. specialize (Hs _ Hin).
    destruct (nth 0 r (CF fnan)) as [z|x|s] eqn:En; try destruct Hs. apply (frame_obj size cols r s); [rewrite Er; left; reflexivity|].
    rewrite <- En. apply nth_In. lia. }
  apply selection_spec.
  - apply cat_pop_closed.
  - exact Hupd.
  - intros T. destruct (Htot T) as (A2 & A3 & A4 & A5 & A6 & A7). refine (conj Has (conj A2 (conj A3 (conj _ A6)))).
    unfold noise_refused. rewrite C10. reflexivity.
  - rewrite C9. destruct (g_init_data g) as [d|]; [apply Hinit; reflexivity|]. intros w. cbn [hooks_of h_init]. rewrite Hini, C1. cbn [initr_sample].
    destruct (cat_init_sample (e_rng E) (e_str E) i (g_size_gen g) w) as [[a|e] w'] eqn:Es; cbn [fst].
    + destruct (cat_init_spec _ _ _ _ _ _ _ _ _ _ _ Hun Hci Hcats Es) as (S1 & S2 & S3 & S4 & S5). fold n in S1, S2, S3, S4, S5. specialize (S2 Hnp). specialize (S4 Hnp).
      assert (Hp : cat_pop n values a).
      { split; [exact S4|]. split; [exact S1|]. rewrite Forall_forall in S3. apply Forall_forall. intros r Hr. split; [apply S3, Hr|]. intros j v Hj Hv.
        destruct (Hdecl j Hj) as (v' & f & Hv' & Hf). assert (v' = v) by congruence. subst v'. specialize (S5 j v f Hj Hv Hf).
        apply column_rows in S5. rewrite Forall_forall in S5. destruct (S5 r Hr) as (k & q & Hk & _). eapply nth_error_In, Hk. }
      split; [split; [exact Hp|]|lia]. intros T. unfold cat_init_sample in Es. destruct (draw_columns _ _ w) as [[cols|e] w1]; [|discriminate].
      assert (Ea : a = frame (Z.to_nat (g_size_gen g)) cols) by congruence. subst a. apply Hobj; [exact Hp|exact T|]. destruct (Htot T) as (_ & A3 & _). lia.
    + destruct tot; [exfalso|reflexivity]. destruct (Htot eq_refl) as (_ & A3 & _ & A5 & _).
      destruct (cat_init_total (e_rng E) (e_str E) (e_sum E) (g_nvars g) values freq i (g_size_gen g) w Hun Hci) as (a & w2 & Ha); [|lia|congruence].
      intros j v f Hv Hf. split; [apply (Hcats j v f Hv Hf)|apply (A5 j v f Hv Hf)].
  - intros sel wn [Hsel Hdt] Hwn Hsz. destruct (Hsz Has ltac:(lia)) as [k Hk]. destruct wn as [| |nr nc dr]; cbn [noise_cfg] in Hwn; rewrite C10 in Hwn.
    + discriminate Hwn.
    + destruct (iadd sel NoiseStr) as [t|e] eqn:Et.
      * apply iadd_str in Et as (-> & D1 & D2). split; [exact Hsel|]. split; [exact D1|]. split; [exact D2|]. split; [lia|].
        intros T. destruct (Htot T) as (_ & A3 & _ & _ & _ & A7). lia.
      * destruct tot; [exfalso|reflexivity]. destruct (Htot eq_refl) as (_ & _ & A4 & _).
        rewrite iadd_str_total in Et; [discriminate|auto|]. destruct Hsel as (_ & _ & Hrows).
        eapply Forall_impl; [|exact Hrows]. intros r [Hl Hr]. apply Forall_forall. intros c Hc. apply (In_nth _ _ (CF fnan)) in Hc as (j & Hj & <-).
        rewrite Hl in Hj. destruct (Hdecl j Hj) as (v & f & Hv & _). specialize (A4 j v Hj Hv). rewrite Forall_forall in A4. apply A4, Hr; assumption.
    + destruct Hwn as (_ & Hwn & _). discriminate Hwn.
  - intros a p w (Hp & Ho & Hcs & Hl53 & Hne) (t & Ht & Hm). cbn [hooks_of h_learn]. rewrite Hm. cbn [model_learn].
    assert (Hnc : a_nc a = n) by apply Hp.
    destruct (cat_learn_spec a t ltac:(congruence) (Hdisc a Hp)) as (t' & Hlt & Hlen & _). rewrite Hlt. split.
    + exists t'. split; [congruence|reflexivity].
    + exists t, t'. auto.
  - intros a p w (Hp & Ho & Hcs & Hl53 & Hne) _ (t & t' & Ht & Hlearn & Hm). cbn [hooks_of h_sample]. rewrite Hm. cbn [model_sample]. rewrite C1.
    assert (Hnc : a_nc a = n) by apply Hp.
    destruct (a_rows a) as [|r0 rs0] eqn:Er.
    { pose proof (cat_sample_empty (e_rng E) (e_str E) a t t' (g_size_gen g) w Hlearn ltac:(congruence) ltac:(lia) Er) as He.
      destruct (fst (cat_sample (e_rng E) (e_str E) t' (g_size_gen g) w)); [discriminate|]. destruct tot; [|reflexivity].
      destruct (Hne eq_refl) as [Hx _]. unfold a_len in Hx. rewrite Er in Hx. cbn in Hx. lia. }
    assert (Hr0 : a_rows a <> []) by (rewrite Er; discriminate). rewrite <- Er in Hcs. clear Er r0 rs0.
    destruct (cat_sample (e_rng E) (e_str E) t' (g_size_gen g) w) as [[b|e] w'] eqn:Es; cbn [fst].
    + destruct (cat_sample_spec _ _ a t t' _ _ _ _ Hun Hlearn ltac:(congruence) Hr0 Hl53 (Hdisc a Hp) Es) as (S1 & S2 & S3 & S4 & S5).
      rewrite Hnc in S1, S2, S4, S5. specialize (S2 Hnp). specialize (S4 Hnp).
      assert (Hpb : cat_pop n values b).
      { split; [exact S4|]. split; [exact S1|]. rewrite Forall_forall in S3. apply Forall_forall. intros r Hr. split; [rewrite <- S1; apply S3, Hr|]. intros j v Hj Hv.
        apply (pop_column n values a j v Hp Hj Hv). apply (S5 j Hj). unfold column. apply in_map_iff. exists r. auto. }
      split; [split; [split; [exact Hpb|]|lia]|]; [|split; [exact Hr0|split; assumption]].
      intros T. unfold cat_sample in Es. destruct (draw_columns _ _ w) as [[cols|e] w1]; [|discriminate].
      assert (Ea : b = frame (Z.to_nat (g_size_gen g)) cols) by congruence. subst b. apply Hobj; [exact Hpb|exact T|]. destruct (Htot T) as (_ & A3 & _). lia.
    + destruct tot; [exfalso|reflexivity]. destruct (Htot eq_refl) as (_ & A3 & _). destruct (Hne eq_refl) as [_ Hl22].
      destruct (cat_sample_total (e_rng E) (e_str E) a t t' (g_size_gen g) w Hun Hlearn ltac:(congruence) Hr0 Hl22 (Hdisc a Hp) ltac:(lia)) as [b Hb].
      rewrite Es in Hb. discriminate Hb.
Qed.

Lemma umdacat_run tot g values freq (o0 o : optimiser X) cost K a ftol out w r s :
  umdacat_new E g values freq = Ok o0 -> used E o0 o ->
  argsort_ok (e_argsort E) -> unif_ok (e_rng E) -> (1 <= g_nvars g)%Z -> cats_ok values freq ->
  (0 <= c_trunc_len (op_cfg o0) <= 2 ^ 53)%Z ->
  (forall d, g_init_data g = Some d -> (cat_pop (Z.to_nat (g_nvars g)) values d /\ (tot = true -> a_dt d = DObj)) /\ K <= a_len d) -> K <= Z.to_nat (g_size_gen g) ->
  (tot = true -> cost_total (cat_row (Z.to_nat (g_nvars g)) values) cost /\ 1 <= K /\ string_cats (Z.to_nat (g_nvars g)) values /\ sums_ok values freq /\
     (c_parallelize (op_cfg o0) = false \/ cpu_count (e_pool E) <= K) /\ (1 <= c_trunc_len (op_cfg o0) <= 2 ^ 22)%Z) ->
  run_in E a o cost ftol out w = (r, s) ->
  let n := Z.to_nat (g_nvars g) in
  Forall (cat_pop n values) (map fst (gens (s_tr s))) /\
  Forall (fun rv => cat_row n values (fst rv)) (calls (s_tr s)) /\
  Forall (cat_pop n values) (learns (s_tr s)) /\
  follows (cat_next n) (s_tr s) /\
  (tot = true -> exists res, r = Ok res) /\
  (forall res, r = Ok res -> best_ok (cat_row n values) (r_best_ind res)).
Proof.
  intros Hnew Hu Has Hun Hn1 Hcats Htr Hinit HK Htot Hr n.
  assert (HQ : cat_state n (op_st o)).
  { refine (used_keeps E (cat_state n) o0 _ _ o Hu).
    - intros o1 a1 cost1 ftol1 out1 w1 r1 s1 E1 E2 E3 HQ Hr1.
      assert (L := umdacat_spec false g values freq o0 o1 cost1 0 Hnew E1 E2 E3 Has Hun Hn1 Hcats Htr
         (fun d Hd => conj (conj (proj1 (proj1 (Hinit d Hd))) (fun T => match diff_false_true T with end)) (Nat.le_0_l _)) (Nat.le_0_l _) (fun T => match diff_false_true T with end)).
      cbv zeta in L. apply (run_spec E false _ _ _ _ _ _ _ _ _ _ _ _ _ _ _ _ _ L HQ Hr1).
    - destruct (umdacat_inv _ _ _ _ Hnew) as (_ & _ & Hpm & _). exists (cat_new n). split; [apply repeat_length|exact Hpm]. }
  destruct (used_setup E _ _ Hu) as (E1 & E2 & E3 & _).
  pose proof (umdacat_spec tot g values freq o0 o cost K Hnew E1 E2 E3 Has Hun Hn1 Hcats Htr Hinit HK Htot) as L. cbv zeta in L. fold n in L.
  destruct (run_spec E tot _ _ _ _ _ _ _ _ _ _ _ _ _ _ _ _ _ L HQ Hr) as (_ & (T1 & T2 & T3 & T6) & T4 & T5).
  split; [|split; [|split; [|split; [|split; assumption]]]].
  - eapply Forall_impl; [|exact T1]. intros gv H. apply H.
  - eapply Forall_impl; [|exact T3]. intros rv H. apply H.
  - eapply Forall_impl; [|exact T2]. intros rv H. apply H.
  - exact T6.
Qed.

End Cat.
