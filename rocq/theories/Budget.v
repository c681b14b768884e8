(** A larger budget of iterations only continues a run. *)
From Coq Require Import String List ZArith Bool Lia.
From Verif Require Import PyBase B64 NdArray Eda Rand Models Inits Stock StockInv StockAll.
Import ListNotations.
Open Scope Z_scope.

Definition budget (c : cfg) (m d : Z) : cfg :=
  mkCfg (c_size_gen c) m d (c_nvars c) (c_alpha c) (c_elite_factor c) (c_disp c) (c_parallelize c) (c_init_data c)
        (c_w_noise c) (c_trunc_len c) (c_elite_len c).

(** A run that stops after [d] iterations without improvement goes on at least as long with [d'];
    numbers below one never stop a run. *)
Definition later (d d' : Z) : Prop := d' < 1 \/ 1 <= d <= d'.

Section Runs.
Context {S W : Type}.

Definition resettings (h : hooks S W) (x : dict) : hooks S W :=
  mkHooks (h_argsort h) (h_cost h) (h_pool h) (h_normal h) (h_init h) (h_data h) (h_learn h) (h_sample h) x.

(** ** Every step only appends to the trace *)

Definition grows {A} (m : M S W A) : Prop := forall s, exists t, s_tr (snd (m s)) = s_tr s ++ t.

Lemma grows_ret {A} (a : A) : grows (mret a).
Proof. intros s. exists []. cbn. symmetry. apply app_nil_r. Qed.
Lemma grows_lift {A} (r : res A) : grows (mlift r).
Proof. intros s. exists []. cbn. symmetry. apply app_nil_r. Qed.
Lemma grows_get : grows (@get_obj S W).
Proof. intros s. exists []. cbn. symmetry. apply app_nil_r. Qed.
Lemma grows_put o : grows (@put_obj S W o).
Proof. intros s. exists []. cbn. symmetry. apply app_nil_r. Qed.
Lemma grows_log e : grows (@log S W e).
Proof. intros s. exists [e]. reflexivity. Qed.
Lemma grows_bind {A B} (m : M S W A) (f : A -> M S W B) : grows m -> (forall a, grows (f a)) -> grows (mbind m f).
Proof.
  intros Hm Hf s. unfold mbind. destruct (Hm s) as [t Ht]. destruct (m s) as [[a|e] s1]; cbn [snd] in *.
  - destruct (Hf a s1) as [t' Ht']. exists (t ++ t'). rewrite Ht', Ht, app_assoc. reflexivity.
  - exists t. exact Ht.
Qed.
Lemma grows_silent {A} (m : M S W A) : (forall s, s_tr (snd (m s)) = s_tr s) -> grows m.
Proof. intros H s. exists []. rewrite H, app_nil_r. reflexivity. Qed.

Ltac grow := repeat match goal with
  | |- grows (mret _) => apply grows_ret
  | |- grows (mlift _) => apply grows_lift
  | |- grows get_obj => apply grows_get
  | |- grows (put_obj _) => apply grows_put
  | |- grows (log _) => apply grows_log
  | |- grows (mbind _ _) => apply grows_bind; [|intros ?]
  end.

Variables (c : cfg) (h : hooks S W).

Lemma grows_world {A} (f : W -> res A * W) : grows (with_world f).
Proof. apply grows_silent. intros s. unfold with_world. destruct (f (s_w s)). reflexivity. Qed.

Lemma grows_call r : grows (call1 h r).
Proof. unfold call1. grow; try apply grows_world. Qed.
Lemma grows_calls rs : grows (call_rows h rs).
Proof. 
  induction rs as [|r rs IH]; cbn [call_rows]; [apply grows_ret|].
  apply grows_bind; [apply grows_call|intros v]. apply grows_bind; [exact IH|intros vs; apply grows_ret].
 Qed.
Lemma grows_apply rs : grows (apply_rows h rs).
Proof. unfold apply_rows. destruct rs; [apply (grows_lift (Raise ValueError))|]. grow. apply grows_calls. Qed.
Lemma grows_parallel rs : grows (parallel_rows h rs).
Proof.
  intros s. unfold parallel_rows. destruct (run_chunks h 0 _ _ _ _) as [results tr]. exists tr.
  destruct (failures results); reflexivity.
Qed.
Lemma grows_check : grows (check_generation c h).
Proof. unfold check_generation. grow. destruct (c_parallelize c); [apply grows_parallel|apply grows_apply]. Qed.
Lemma grows_truncation : grows (truncation c h).
Proof. unfold truncation. grow. Qed.
Lemma grows_update : grows (update_pm h).
Proof.
  unfold update_pm. grow.
  - apply grows_silent. intros s. destruct (h_data h _ _ _). reflexivity.
  - apply grows_silent. intros s. destruct (h_learn h _ _ _) as [r [p w]]. reflexivity.
Qed.
Lemma grows_set g : grows (@set_gen S W g).
Proof. unfold set_gen. grow. Qed.
Lemma grows_new : grows (new_generation h).
Proof. unfold new_generation. grow; [|apply grows_set]. apply grows_silent. intros s. destruct (h_sample h _ _). reflexivity. Qed.
Lemma grows_print b p : grows (@print_if S W b p).
Proof. unfold print_if. destruct b; grow. Qed.

Lemma grows_iteration ftol wn : grows (iteration c h ftol wn).
Proof.
  unfold iteration. grow; try apply grows_truncation; try apply grows_update; try apply grows_new; try apply grows_check; try apply grows_set.
  destruct (accept ftol _ _); grow.
Qed.

Lemma grows_loop ftol out wn n : forall it hist nb, grows (loop c h ftol out wn n it hist nb).
Proof.
  induction n as [|n IH]; intros it hist nb; cbn [loop]; grow; [apply grows_iteration|].
  destruct (snd _).
  - grow; [apply grows_print|apply IH].
  - destruct (Z.eqb _ _); grow; [apply grows_print|apply IH].
Qed.

Lemma loop_history ftol out wn n : forall it hist nb s hist' s',
  loop c h ftol out wn n it hist nb s = (Ok hist', s') -> exists tl, hist' = hist ++ tl.
Proof.
  induction n as [|n IH]; intros it hist nb s hist' s' H; cbn [loop] in H.
  - exists []. rewrite app_nil_r. unfold mret in H. congruence.
  - unfold mbind at 1 in H. destruct (iteration c h ftol wn s) as [[ba|e] s1]; [|discriminate].
    destruct (snd ba).
    + unfold mbind at 1 in H. destruct (print_if _ _ s1) as [[[]|e] s2]; [|discriminate].
      apply IH in H as [tl ->]. exists (fst ba :: tl). rewrite <- app_assoc. reflexivity.
    + destruct (Z.eqb _ _).
      * exists [fst ba]. unfold mret in H. congruence.
      * unfold mbind at 1 in H. destruct (print_if _ _ s1) as [[[]|e] s2]; [|discriminate].
        apply IH in H as [tl ->]. exists (fst ba :: tl). rewrite <- app_assoc. reflexivity.
Qed.

End Runs.

(** ** Nothing but the loop reads the budget *)
Section Same.
Context {S W : Type}.
Variables (c : cfg) (h : hooks S W) (m d : Z) (x : dict).

Lemma iteration_budget : iteration (budget c m d) (resettings h x) = iteration c h.
Proof. reflexivity. Qed.
Lemma first_budget : first_generation (budget c m d) (resettings h x) = first_generation c h.
Proof. reflexivity. Qed.
Lemma noise_budget : draw_noise (budget c m d) (resettings h x) = draw_noise c h.
Proof. reflexivity. Qed.
End Same.

Section Prefix.
Context {S W : Type}.
Variables (c : cfg) (h : hooks S W) (m d : Z) (x : dict).
Hypothesis Hlater : later (c_dead_iter c) d.

Lemma loop_prefix ftol out wn n : forall n' it hist nb s, (n <= n')%nat -> 0 <= nb -> (1 <= c_dead_iter c -> nb < c_dead_iter c) ->
  match loop c h ftol out wn n it hist nb s with
  | (Raise e, s1) => loop (budget c m d) (resettings h x) ftol out wn n' it hist nb s = (Raise e, s1)
  | (Ok hist1, s1) =>
      (exists t, s_tr (snd (loop (budget c m d) (resettings h x) ftol out wn n' it hist nb s)) = s_tr s1 ++ t) /\
      (forall hist2, fst (loop (budget c m d) (resettings h x) ftol out wn n' it hist nb s) = Ok hist2 -> exists tl, hist2 = hist1 ++ tl) /\
      (d = c_dead_iter c -> (List.length hist1 < List.length hist + n)%nat ->
         loop (budget c m d) (resettings h x) ftol out wn n' it hist nb s = (Ok hist1, s1))
  end.
Proof.
  induction n as [|n IH]; intros n' it hist nb s Hn Hnb Hd.
  - cbn [loop]. unfold mret at 1. split; [apply grows_loop|]. split.
    + intros hist2 H. destruct (loop (budget c m d) (resettings h x) ftol out wn n' it hist nb s) as [r s2] eqn:E. cbn in H. subst r.
      eapply loop_history, E.
    + lia.
  - destruct n' as [|n']; [lia|]. cbn [loop]. rewrite iteration_budget. unfold mbind.
    destruct (iteration c h ftol wn s) as [[ba|e] s1] eqn:Ei; [|reflexivity].
    destruct (snd ba).
    + destruct (print_if out _ s1) as [[[]|e] s2]; [|reflexivity].
      specialize (IH n' (it + 1) (hist ++ [fst ba]) 0 s2 ltac:(lia) ltac:(lia) ltac:(lia)).
      destruct (loop c h ftol out wn n (it + 1) (hist ++ [fst ba]) 0 s2) as [[hist1|e] s3]; [|exact IH].
      destruct IH as (I1 & I2 & I3). split; [exact I1|]. split; [exact I2|]. intros Ed Hl. apply I3; [exact Ed|]. rewrite app_length. cbn. lia.
    + cbn [budget c_dead_iter]. destruct (Z.eqb_spec (nb + 1) (c_dead_iter c)) as [E1|N1].
      * unfold mret at 1. destruct (Z.eqb_spec (nb + 1) d) as [E2|N2].
        { unfold mret. cbn [fst snd]. split; [exists []; rewrite app_nil_r; reflexivity|]. split; [|reflexivity].
          intros hist2 H. exists []. rewrite app_nil_r. congruence. }
        split; [|split; [|congruence]].
        { destruct (print_if out _ s1) as [[[]|e] s2] eqn:Ep.
          - destruct (grows_print out (fun o => PrIter it (o_best_cost o)) s1) as [t1 T1]. rewrite Ep in T1. cbn [snd] in T1.
            destruct (grows_loop (budget c m d) (resettings h x) ftol out wn n' (it + 1) (hist ++ [fst ba]) (nb + 1) s2) as [t2 T2].
            exists (t1 ++ t2). rewrite T2, T1, app_assoc. reflexivity.
          - destruct (grows_print out (fun o => PrIter it (o_best_cost o)) s1) as [t1 T1]. rewrite Ep in T1. exists t1. exact T1. }
        intros hist2. destruct (print_if out _ s1) as [[[]|e] s2]; [|discriminate]. intros H.
        destruct (loop (budget c m d) (resettings h x) ftol out wn n' (it + 1) (hist ++ [fst ba]) (nb + 1) s2) as [r s3] eqn:El. cbn in H. subst r.
        eapply loop_history, El.
      * destruct (Z.eqb_spec (nb + 1) d) as [E2|N2].
        { exfalso. destruct Hlater as [H|[H1 H2]]; lia. }
        destruct (print_if out _ s1) as [[[]|e] s2]; [|reflexivity].
        specialize (IH n' (it + 1) (hist ++ [fst ba]) (nb + 1) s2 ltac:(lia) ltac:(lia) ltac:(lia)).
        destruct (loop c h ftol out wn n (it + 1) (hist ++ [fst ba]) (nb + 1) s2) as [[hist1|e] s3]; [|exact IH].
        destruct IH as (I1 & I2 & I3). split; [exact I1|]. split; [exact I2|]. intros Ed Hl. apply I3; [exact Ed|]. rewrite app_length. cbn. lia.
Qed.

(** The whole call: what a run with the smaller budget does, one with the larger does too. *)
Lemma minimize_prefix ftol out s : c_max_iter c <= m ->
  match minimize c h ftol out s with
  | (Raise e, s1) => minimize (budget c m d) (resettings h x) ftol out s = (Raise e, s1)
  | (Ok r, s1) =>
      exists tr fin, s_tr s1 = tr ++ fin /\ (forall e, In e fin -> exists p, e = EvPrint p) /\
        (exists t, s_tr (snd (minimize (budget c m d) (resettings h x) ftol out s)) = tr ++ t) /\
        (forall r', fst (minimize (budget c m d) (resettings h x) ftol out s) = Ok r' -> exists tl, r_history r' = r_history r ++ tl) /\
        (d = c_dead_iter c -> Z.of_nat (List.length (r_history r)) < c_max_iter c ->
           minimize (budget c m d) (resettings h x) ftol out s = (Ok (mkResult (r_best_ind r) (r_best_cost r) (r_nfev r) (r_history r) x), s1))
  end.
Proof.
  intros Hm. unfold minimize. rewrite first_budget, noise_budget. unfold mbind.
  destruct (first_generation c h s) as [[b0|e] s1]; [|reflexivity].
  destruct (draw_noise c h s1) as [[wn|e] s2]; [|reflexivity].
  destruct (print_if out _ s2) as [[[]|e] s3]; [|reflexivity].
  cbn [budget c_max_iter c_disp c_size_gen].
  pose proof (loop_prefix ftol out wn (Z.to_nat (c_max_iter c - 1)) (Z.to_nat (m - 1)) 1 [b0] 0 s3 ltac:(lia) ltac:(lia) ltac:(lia)) as L.
  destruct (loop c h ftol out wn (Z.to_nat (c_max_iter c - 1)) 1 [b0] 0 s3) as [[hist1|e] s4]; [|rewrite L; reflexivity].
  destruct L as (L1 & L2 & L3).
  set (pf := fun o : obj => PrFinal (Z.of_nat (List.length hist1) * c_size_gen c) (o_best_cost o) (o_best_ind o)).
  assert (P : forall (p : obj -> printed) (s0 : st S W), exists t, print_if (c_disp c) p s0 = (Ok tt, mkSt (s_obj s0) (s_pm s0) (s_w s0) (s_tr s0 ++ t)) /\ (forall e, In e t -> exists p, e = EvPrint p)).
  { intros p s0. unfold print_if. destruct (c_disp c).
    - exists [EvPrint (p (s_obj s0))]. split; [reflexivity|]. intros e [<-|[]]. eauto.
    - exists []. split; [destruct s0; cbn; rewrite app_nil_r; reflexivity|]. intros e []. }
  destruct (P pf s4) as (fin & Ef & Hf). fold pf. rewrite Ef. cbn [get_obj mret s_obj s_tr r_history r_best_ind r_best_cost r_nfev].
  exists (s_tr s4), fin. split; [reflexivity|]. split; [exact Hf|]. split; [|split].
  - destruct (loop (budget c m d) (resettings h x) ftol out wn (Z.to_nat (m - 1)) 1 [b0] 0 s3) as [[hist2|e] s5]; [|exact L1].
    destruct L1 as [t Ht]. cbn [snd] in Ht.
    destruct (P (fun o : obj => PrFinal (Z.of_nat (List.length hist2) * c_size_gen c) (o_best_cost o) (o_best_ind o)) s5) as (fin2 & Ef2 & _).
    rewrite Ef2. cbn [get_obj mret s_obj snd s_tr]. exists (t ++ fin2). rewrite Ht, app_assoc. reflexivity.
  - intros r'. destruct (loop (budget c m d) (resettings h x) ftol out wn (Z.to_nat (m - 1)) 1 [b0] 0 s3) as [[hist2|e] s5]; [|discriminate].
    destruct (P (fun o : obj => PrFinal (Z.of_nat (List.length hist2) * c_size_gen c) (o_best_cost o) (o_best_ind o)) s5) as (fin2 & Ef2 & _).
    rewrite Ef2. cbn [get_obj mret s_obj fst]. intros H. assert (Er : hist2 = r_history r') by exact (f_equal (fun z => match z with Ok v => r_history v | Raise _ => [] end) H).
    rewrite <- Er. apply L2. reflexivity.
  - intros Ed Hl. rewrite (L3 Ed) by (cbn; lia). fold pf. rewrite Ef. reflexivity.
Qed.
End Prefix.

(** ** Optimisers *)

Definition with_budget (g : args) (m d : Z) : args :=
  mkArgs (g_size_gen g) m d (g_nvars g) (g_alpha g) (g_elite_factor g) (g_disp g) (g_parallelize g) (g_init_data g).

Section Stock.
Context {X W : Type}.
Variable E : env X W.

Definition rebudget (o : optimiser X) (m d : Z) : optimiser X :=
  mkOpt (budget (op_cfg o) m d) (op_st o) (op_init o) (op_upd o) (op_exp o).

Lemma eda_init_budget sg mi di nv al ef di' pa ini wn c m d : (d <= m) ->
  eda_init sg mi di nv al ef di' pa ini wn = Ok c -> eda_init sg m d nv al ef di' pa ini wn = Ok (budget c m d).
Proof.
  intros Hd. unfold eda_init, rbind. destruct (int_times sg al); [|discriminate]. destruct (int_times sg ef); [|discriminate].
  cbv zeta. destruct (di <=? mi); [|discriminate]. rewrite (proj2 (Z.leb_le d m) Hd).
  destruct ini as [dat|]; [destruct (Z.eqb _ nv); [|discriminate]|]; intros H; assert (Ec := f_equal (fun z => match z with Ok v => v | Raise _ => c end) H); cbn in Ec; rewrite <- Ec; reflexivity.
Qed.

Lemma base_budget g al ef wn o m d : d <= m -> @base X g al ef wn = Ok o -> base (with_budget g m d) al ef wn = Ok (rebudget o m d).
Proof.
  intros Hd. unfold base, rmap, rbind. destruct (eda_init (g_size_gen g) _ _ _ _ _ _ _ _ _) as [c|] eqn:Ec; [|discriminate]. intros H.
  apply (eda_init_budget _ _ _ _ _ _ _ _ _ _ _ m d Hd) in Ec. cbn [with_budget g_size_gen g_max_iter g_dead_iter g_nvars g_disp g_parallelize g_init_data].
  rewrite Ec. assert (Eo := f_equal (fun z => match z with Ok v => v | Raise _ => o end) H). cbn in Eo. rewrite <- Eo. reflexivity.
Qed.

Lemma assign_pm_budget mo (o o' : optimiser X) m d : assign_pm mo o = Ok o' -> assign_pm mo (rebudget o m d) = Ok (rebudget o' m d).
Proof.
  unfold assign_pm, set_pm. cbn [rebudget op_cfg budget c_nvars]. destruct (Z.eqb _ _); cbn; [|discriminate]. intros H.
  assert (Eo := f_equal (fun z => match z with Ok v => v | Raise _ => o end) H). cbn in Eo. rewrite <- Eo. reflexivity.
Qed.
Lemma assign_init_budget i (o o' : optimiser X) m d : assign_init i o = Ok o' -> assign_init i (rebudget o m d) = Ok (rebudget o' m d).
Proof.
  unfold assign_init, set_init. cbn [rebudget op_cfg budget c_nvars]. destruct (Z.eqb _ _); cbn; [|discriminate]. intros H.
  assert (Eo := f_equal (fun z => match z with Ok v => v | Raise _ => o end) H). cbn in Eo. rewrite <- Eo. reflexivity.
Qed.

Ltac bstep m d Hd := match goal with
  | |- context [match base ?g ?a ?e ?w with _ => _ end] => is_var g; let o := fresh "o" in let H := fresh "H" in
      destruct (base g a e w) as [o|] eqn:H; [|discriminate]; apply (base_budget _ _ _ _ _ m d Hd) in H;
      cbn [with_budget g_size_gen g_nvars g_alpha g_elite_factor]; rewrite H; clear H
  | |- context [match assign_pm ?mo ?o1 with _ => _ end] => is_var o1; let o2 := fresh "o" in let H := fresh "H" in
      destruct (assign_pm mo o1) as [o2|] eqn:H; [|discriminate]; apply (assign_pm_budget _ _ _ m d) in H; rewrite H; clear H
  | |- context [match assign_init ?mo ?o1 with _ => _ end] => is_var o1; let o2 := fresh "o" in let H := fresh "H" in
      destruct (assign_init mo o1) as [o2|] eqn:H; [|discriminate]; apply (assign_init_budget _ _ _ m d) in H; rewrite H; clear H
  | |- context [match vector_or_bounds ?a ?b ?c ?e with _ => _ end] => destruct (vector_or_bounds a b c e); [|discriminate]
  | |- context [match unibin_new ?a ?b ?c with _ => _ end] => destruct (unibin_new a b c); [|discriminate]
  | |- context [match cat_init_new ?a ?b ?c ?e with _ => _ end] => destruct (cat_init_new a b c e); [|discriminate]
  | |- context [match uniform_new ?a ?b ?c with _ => _ end] => destruct (uniform_new a b c); [|discriminate]
  | |- context [match int_times ?a ?b with _ => _ end] => destruct (int_times a b); [|discriminate]
  | |- context [if ?b then Raise _ else _] => destruct b; [discriminate|]
  end.

Lemma construct_budget A g o m d : d <= m -> construct E A g = Ok o -> construct E A (with_budget g m d) = Ok (rebudget o m d).
Proof.
  intros Hd. destruct A; cbn [construct];
  unfold umdac_new, pbil_new, umdad_new, umdacat_new, bn_new, unikeda_new, egna_new, emna_new, archive_new, rbind; repeat bstep m d Hd;
  first [apply assign_pm_budget | apply assign_init_budget | intros H; refine (eq_trans _ (assign_init_budget _ _ _ m d H)); reflexivity].
Qed.

Lemma rebudget_hooks (o : optimiser X) m d cost :
  hooks_of E (rebudget o m d) cost = resettings (hooks_of E o cost) (h_settings (hooks_of E (rebudget o m d) cost)).
Proof. reflexivity. Qed.

Lemma run_prefix A g (o : optimiser X) m d a cost ftol out w :
  construct E A g = Ok o -> g_max_iter g <= m -> later (g_dead_iter g) d -> d <= m ->
  exists o', construct E A (with_budget g m d) = Ok o' /\
  match run_in E a o cost ftol out w with
  | (Raise e, s1) => run_in E a o' cost ftol out w = (Raise e, s1)
  | (Ok r, s1) =>
      exists tr fin, s_tr s1 = tr ++ fin /\ (forall e, In e fin -> exists p, e = EvPrint p) /\
        (exists t, s_tr (snd (run_in E a o' cost ftol out w)) = tr ++ t) /\
        (forall r', fst (run_in E a o' cost ftol out w) = Ok r' -> exists tl, r_history r' = r_history r ++ tl) /\
        (d = g_dead_iter g -> Z.of_nat (List.length (r_history r)) < g_max_iter g ->
           exists r', run_in E a o' cost ftol out w = (Ok r', s1) /\
             r_best_ind r' = r_best_ind r /\ r_best_cost r' = r_best_cost r /\ r_nfev r' = r_nfev r /\ r_history r' = r_history r)
  end.
Proof.
  intros Hc Hm Hl Hd. exists (rebudget o m d). split; [apply construct_budget; assumption|].
  assert (B : c_max_iter (op_cfg o) = g_max_iter g /\ c_dead_iter (op_cfg o) = g_dead_iter g).
  { pose proof (bt_cfg _ _ _ (construct_built E _ _ _ Hc)) as B. unfold base_of in B. apply eda_init_inv in B as (_ & B1 & B2 & _). split; assumption. }
  destruct B as [B1 B2]. unfold run_in. rewrite (rebudget_hooks o m d cost). cbn [rebudget op_cfg op_st].
  pose proof (minimize_prefix (op_cfg o) (hooks_of E o cost) m d (h_settings (hooks_of E (rebudget o m d) cost)) ltac:(rewrite B2; exact Hl)
    ftol out (mkSt a (op_st o) w []) ltac:(rewrite B1; exact Hm)) as P.
  destruct (minimize (op_cfg o) (hooks_of E o cost) ftol out (mkSt a (op_st o) w [])) as [[r|e] s1]; [|exact P].
  destruct P as (tr & fin & P1 & P2 & P3 & P4 & P5). exists tr, fin. split; [exact P1|]. split; [exact P2|]. split; [exact P3|]. split; [exact P4|].
  intros Ed Hlen. eexists. split; [apply P5; congruence|]. cbn. auto.
Qed.

(** ** EDACustom *)
Lemma custom_base_budget k o m d : d <= m -> @custom_base X k = Ok o ->
  custom_base (mkCArgs (k_size_gen k) m d (k_nvars k) (k_alpha k) (k_elite_factor k) (k_disp k) (k_pm k) (k_init k) (k_lo k) (k_hi k)) = Ok (rebudget o m d).
Proof.
  intros Hd. unfold custom_base, rmap, rbind. cbn [k_size_gen k_max_iter k_dead_iter k_nvars k_alpha k_elite_factor k_disp k_lo k_hi].
  destruct (eda_init (k_size_gen k) (k_max_iter k) _ _ _ _ _ _ _ _) as [c|] eqn:Ec; [|discriminate]. intros H.
  apply (eda_init_budget _ _ _ _ _ _ _ _ _ _ _ m d Hd) in Ec. rewrite Ec.
  assert (Eo := f_equal (fun z => match z with Ok v => v | Raise _ => o end) H). cbn in Eo. rewrite <- Eo. reflexivity.
Qed.

Lemma custom_budget k z w (o : optimiser X) w' m d : d <= m -> custom_new E k z w = (Ok o, w') ->
  custom_new E (mkCArgs (k_size_gen k) m d (k_nvars k) (k_alpha k) (k_elite_factor k) (k_disp k) (k_pm k) (k_init k) (k_lo k) (k_hi k)) z w = (Ok (rebudget o m d), w').
Proof.
  intros Hd. unfold custom_new, rbind. cbn [k_size_gen k_nvars k_pm k_init k_lo k_hi].
  destruct (custom_base k) as [o1|] eqn:B; [|discriminate]. apply (custom_base_budget _ _ m d Hd) in B. rewrite B. clear B.
  destruct (custom_pm E (k_nvars k) (k_pm k) (k_lo k) (k_hi k) z) as [mo|]; [|discriminate].
  destruct (assign_pm mo o1) as [o2|] eqn:A1; [|discriminate]. apply (assign_pm_budget _ _ _ m d) in A1. rewrite A1.
  destruct (custom_initr E (k_nvars k) (k_init k) (k_lo k) (k_hi k) w) as [[i|] w1]; [|discriminate].
  destruct (assign_init i o2) as [o3|] eqn:A2; [|discriminate]. apply (assign_init_budget _ _ _ m d) in A2. rewrite A2.
  destruct (initr_sample E i (k_size_gen k) w1) as [[a|] w2]; cbn [rmap rbind]; [|discriminate]. intros H.
  assert (Eo := f_equal (fun z => match fst z with Ok v => v | Raise _ => o end) H). cbn in Eo. assert (Ew := f_equal snd H). cbn in Ew. rewrite <- Eo, Ew. reflexivity.
Qed.

Lemma custom_prefix k z w0 (o : optimiser X) w1 m d a cost ftol out w :
  custom_new E k z w0 = (Ok o, w1) -> k_max_iter k <= m -> later (k_dead_iter k) d -> d <= m ->
  exists o', custom_new E (mkCArgs (k_size_gen k) m d (k_nvars k) (k_alpha k) (k_elite_factor k) (k_disp k) (k_pm k) (k_init k) (k_lo k) (k_hi k)) z w0 = (Ok o', w1) /\
  match run_in E a o cost ftol out w with
  | (Raise e, s1) => run_in E a o' cost ftol out w = (Raise e, s1)
  | (Ok r, s1) =>
      exists tr fin, s_tr s1 = tr ++ fin /\ (forall e, In e fin -> exists p, e = EvPrint p) /\
        (exists t, s_tr (snd (run_in E a o' cost ftol out w)) = tr ++ t) /\
        (forall r', fst (run_in E a o' cost ftol out w) = Ok r' -> exists tl, r_history r' = r_history r ++ tl) /\
        (d = k_dead_iter k -> Z.of_nat (List.length (r_history r)) < k_max_iter k ->
           exists r', run_in E a o' cost ftol out w = (Ok r', s1) /\
             r_best_ind r' = r_best_ind r /\ r_best_cost r' = r_best_cost r /\ r_nfev r' = r_nfev r /\ r_history r' = r_history r)
  end.
Proof.
  intros Hc Hm Hl Hd. exists (rebudget o m d). split; [apply custom_budget; assumption|].
  assert (B : c_max_iter (op_cfg o) = k_max_iter k /\ c_dead_iter (op_cfg o) = k_dead_iter k).
  { unfold custom_new, rbind in Hc. destruct (custom_base k) as [o1|] eqn:B; [|discriminate].
    destruct (custom_pm E _ _ _ _ _) as [mo|]; [|discriminate]. destruct (assign_pm mo o1) as [o2|] eqn:A1; [|discriminate].
    destruct (custom_initr E _ _ _ _ _) as [[i|] w2]; [|discriminate]. destruct (assign_init i o2) as [o3|] eqn:A2; [|discriminate].
    destruct (initr_sample E i _ w2) as [[b|] w3]; cbn [rmap rbind] in Hc; [|discriminate].
    assert (E3 := f_equal (fun z => match fst z with Ok v => v | Raise _ => o end) Hc). cbn in E3. subst o3.
    assert (C2 : op_cfg o = op_cfg o2).
    { unfold assign_init, set_init in A2. destruct (Z.eqb _ _); [|discriminate]. cbn in A2. assert (E4 := f_equal (fun z => match z with Ok v => v | Raise _ => o end) A2). cbn in E4. rewrite <- E4. reflexivity. }
    assert (C1 : op_cfg o2 = op_cfg o1).
    { unfold assign_pm, set_pm in A1. destruct (Z.eqb _ _); [|discriminate]. cbn in A1. assert (E4 := f_equal (fun z => match z with Ok v => v | Raise _ => o end) A1). cbn in E4. rewrite <- E4. reflexivity. }
    rewrite C2, C1. unfold custom_base in B. destruct (eda_init (k_size_gen k) _ _ _ _ _ _ _ _ _) as [c|] eqn:Ec; cbn [rmap rbind] in B; [|discriminate].
    assert (E4 := f_equal (fun z => match z with Ok v => v | Raise _ => o end) B). cbn in E4. rewrite <- E4. cbn [op_cfg].
    apply eda_init_inv in Ec as (_ & B1 & B2 & _). split; assumption. }
  destruct B as [B1 B2]. unfold run_in. rewrite (rebudget_hooks o m d cost). cbn [rebudget op_cfg op_st].
  pose proof (minimize_prefix (op_cfg o) (hooks_of E o cost) m d (h_settings (hooks_of E (rebudget o m d) cost)) ltac:(rewrite B2; exact Hl)
    ftol out (mkSt a (op_st o) w []) ltac:(rewrite B1; exact Hm)) as P.
  destruct (minimize (op_cfg o) (hooks_of E o cost) ftol out (mkSt a (op_st o) w [])) as [[r|e] s1]; [|exact P].
  destruct P as (tr & fin & P1 & P2 & P3 & P4 & P5). exists tr, fin. split; [exact P1|]. split; [exact P2|]. split; [exact P3|]. split; [exact P4|].
  intros Ed Hlen. eexists. split; [apply P5; congruence|]. cbn. auto.
Qed.

End Stock.
