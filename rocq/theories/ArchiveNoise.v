(** What the white noise does in the archive algorithms: nothing but consume random numbers. *)
From Coq Require Import String List ZArith Bool Lia.
From Verif Require Import PyBase B64 B64More NdArray Eda EdaInv Spec TopK LoopObs LoopThms LoopRel OrderRel Rand Models Inits Trunc Stock StockArchive StockAll StockMore.
Import ListNotations.
Open Scope nat_scope.

(* ---------------- adding noise ---------------- *)
Definition any {A} (_ _ : A) : Prop := True.

Lemma add_mat_cells_any nc draw draw' : forall r i i' j, res_rel any (add_mat_cells nc i j draw r) (add_mat_cells nc i' j draw' r).
Proof.
  induction r as [|c r IH]; intros i i' j; cbn [add_mat_cells]; [exact I|].
  destruct c; cbn [add_cell rbind]; try reflexivity;
    (specialize (IH i i' (S j)); destruct (add_mat_cells nc i (S j) draw r), (add_mat_cells nc i' (S j) draw' r); cbn in *; try contradiction; auto).
Qed.
Lemma add_mat_rows_any nr nc draw draw' : forall rs i, res_rel any (add_mat_rows nr nc i draw rs) (add_mat_rows nr nc i draw' rs).
Proof.
  induction rs as [|r rs IH]; intros i; cbn [add_mat_rows]; [exact I|].
  pose proof (add_mat_cells_any nc draw draw' r (bidx nr i) (bidx nr i) 0) as H. specialize (IH (S i)).
  destruct (add_mat_cells nc (bidx nr i) 0 draw r), (add_mat_cells nc (bidx nr i) 0 draw' r); cbn in *; try contradiction; auto.
  destruct (add_mat_rows nr nc (S i) draw rs), (add_mat_rows nr nc (S i) draw' rs); cbn in *; try contradiction; auto.
Qed.
(** Whether the noise can be added does not depend on its values. *)
Lemma iadd_any a nr nc draw draw' : res_rel any (iadd a (NoiseMat nr nc draw)) (iadd a (NoiseMat nr nc draw')).
Proof.
  unfold iadd. pose proof (add_mat_rows_any nr nc draw draw' (a_rows a) 0) as H.
  destruct (a_dt a); try reflexivity;
    (destruct (broadcasts nr (a_len a) && broadcasts nc (a_nc a)); [|reflexivity];
     destruct (add_mat_rows nr nc 0 draw (a_rows a)), (add_mat_rows nr nc 0 draw' (a_rows a)); cbn in *; try contradiction; auto).
Qed.
Lemma add_zero_ok nc draw : forall (r r' : row) i j, add_mat_cells nc i j draw r = Ok r' -> exists z, rmapM add_zero_cell r = Ok z.
Proof.
  induction r as [|c r IH]; intros r' i j H; cbn [add_mat_cells rmapM] in *; [eauto|].
  destruct c; cbn [add_cell add_zero_cell rbind] in *; try discriminate;
    (destruct (add_mat_cells nc i (S j) draw r) as [r0|e] eqn:E; cbn [rbind] in H; [|discriminate];
     destruct (IH _ _ _ E) as (z' & ->); cbn [rbind]; eauto).
Qed.
Lemma add_zero_rows_ok nr nc draw : forall (rs rs' : list row) i, add_mat_rows nr nc i draw rs = Ok rs' -> exists z, rmapM (rmapM add_zero_cell) rs = Ok z.
Proof.
  induction rs as [|r rs IH]; intros rs' i H; cbn [add_mat_rows rmapM] in *; [eauto|].
  destruct (add_mat_cells nc (bidx nr i) 0 draw r) as [r0|e] eqn:E; cbn [rbind] in H; [|discriminate].
  destruct (add_mat_rows nr nc (S i) draw rs) as [r1|e] eqn:E1; cbn [rbind] in H; [|discriminate].
  destruct (add_zero_ok _ _ _ _ _ _ E) as (z & ->). destruct (IH _ _ E1) as (z' & ->). cbn [rbind]. eauto.
Qed.
(** Where noise can be added, zero can. *)
Lemma iadd_zero_ok a nr nc draw b : iadd a (NoiseMat nr nc draw) = Ok b -> exists b', iadd a NoiseZero = Ok b'.
Proof.
  intros H. unfold iadd in *. assert (H' : exists rs, add_mat_rows nr nc 0 draw (a_rows a) = Ok rs).
  { destruct (a_dt a); try discriminate;
      (destruct (broadcasts nr (a_len a) && broadcasts nc (a_nc a)); [|discriminate];
       destruct (add_mat_rows nr nc 0 draw (a_rows a)); [eauto|discriminate]). }
  destruct H' as (rs & H'). destruct (add_zero_rows_ok _ _ _ _ _ _ H') as (z & ->). cbn [rmap]. eauto.
Qed.

(* ---------------- the loop ---------------- *)
Section Loose.
Context {S W : Type}.
Local Notation st := (st S W).
Local Notation M := (M S W).

(** The same state except for [self.generation]. *)
Definition loose (s s' : st) : Prop :=
  s_pm s = s_pm s' /\ s_w s = s_w s' /\ s_tr s = s_tr s' /\
  o_evals (s_obj s) = o_evals (s_obj s') /\ o_elite (s_obj s) = o_elite (s_obj s') /\ o_evel (s_obj s) = o_evel (s_obj s') /\
  o_best_cost (s_obj s) = o_best_cost (s_obj s') /\ o_best_ind (s_obj s) = o_best_ind (s_obj s').
Lemma loose_refl s : loose s s.
Proof. repeat split. Qed.
Lemma eq_loose s s' : s = s' -> loose s s'.
Proof. intros ->. apply loose_refl. Qed.

Lemma rel_self {A} (m : M A) : rel eq loose m m (same eq).
Proof. intros s s' <-. destruct (m s) as [[a|e] t]; split; auto using loose_refl. Qed.

(** Whenever the one computation returns, so does the other. *)
Definition follows {A} (P : st -> st -> Prop) (m m' : M A) (Q : st -> st -> Prop) : Prop :=
  forall s s', P s s' -> match m s with (Ok a, t) => exists t', m' s' = (Ok a, t') /\ Q t t' | (Raise _, _) => True end.
Lemma follows_bind {A B} P Q R (m m' : M A) (f f' : A -> M B) :
  follows P m m' Q -> (forall a, follows Q (f a) (f' a) R) -> follows P (mbind m f) (mbind m' f') R.
Proof.
  intros Hm Hf s s' HP. unfold mbind. specialize (Hm s s' HP). destruct (m s) as [[a|e] t]; [|exact I].
  destruct Hm as (t' & E & HQ). specialize (Hf a t t' HQ). rewrite E. exact Hf.
Qed.
Lemma follows_bind_lift {A B} R (r r' : res A) (f f' : A -> M B) :
  (forall a, r = Ok a -> exists a', r' = Ok a') -> (forall a a', follows eq (f a) (f' a') R) -> follows eq (mbind (mlift r) f) (mbind (mlift r') f') R.
Proof.
  intros Hr Hf s s' Hs. unfold mbind, mlift. destruct r as [a|e]; [|exact I]. destruct (Hr a eq_refl) as (a' & ->). apply Hf, Hs.
Qed.
Lemma follows_self {A} (m : M A) : follows eq m m eq.
Proof. intros s s' <-. destruct (m s) as [[a|e] t]; eauto. Qed.
Lemma rel_follows {A} P X (m m' : M A) Q : rel P X m m' (same Q) -> follows P m m' Q.
Proof.
  intros H s s' HP. specialize (H s s' HP). destruct (m s) as [[a|e] t]; [|exact I].
  destruct (m' s') as [[a'|e'] t']; [|contradiction]. destruct H as [<- H]. eauto.
Qed.

Variables (c : cfg) (h : hooks S W) (ftol : f64).
(** The training data do not depend on the (noisy) generation. *)
Hypothesis Hdata : forall g g' e p, h_data h g e p = h_data h g' e p.

Lemma loose_update_pm : rel loose loose (update_pm h) (update_pm h) (same loose).
Proof.
  intros s s' (H1 & H2 & H3 & H4 & H5 & H6 & H7 & H8). unfold update_pm, mbind, get_obj, log.
  rewrite <- H5, <- H1, (Hdata (o_gen (s_obj s')) (o_gen (s_obj s))).
  destruct (h_data h (o_gen (s_obj s)) (o_elite (s_obj s)) (s_pm s)) as [[d|e] p]; cbn [s_pm s_w s_obj s_tr].
  - rewrite <- H2. destruct (h_learn h d p (s_w s)) as [[[]|e] [p' w']]; (split; [reflexivity|]);
      unfold loose; cbn [s_pm s_w s_obj s_tr]; rewrite H3; repeat split; assumption.
  - split; [reflexivity|]. unfold loose; cbn [s_pm s_w s_obj s_tr]. repeat split; assumption.
Qed.
Lemma loose_new_generation : rel loose loose (new_generation h) (new_generation h) (same eq).
Proof.
  intros s s' (H1 & H2 & H3 & H4 & H5 & H6 & H7 & H8). unfold new_generation, mbind, set_gen, get_obj, put_obj, mbind.
  rewrite <- H1, <- H2. destruct (h_sample h (s_pm s) (s_w s)) as [[g|e] w']; cbn [s_pm s_w s_obj s_tr]; (split; [reflexivity|]).
  - rewrite H3, H4, H5, H6, H7, H8. reflexivity.
  - unfold loose; cbn [s_pm s_w s_obj s_tr]. repeat split; assumption.
Qed.
Lemma set_gen_loose g g' : rel eq loose (set_gen (S := S) (W := W) g) (set_gen g') (same loose).
Proof. intros s s' <-. cbn. split; [reflexivity|]. repeat split. Qed.

Definition alike (n n' : noise) : Prop := forall a, res_rel any (iadd a n) (iadd a n').

Lemma iteration_loose n n' : alike n n' -> rel eq loose (iteration c h ftol n) (iteration c h ftol n') (same eq).
Proof.
  intros Hn. unfold iteration. eapply rel_bind_same; [apply rel_self|]. intros _.
  eapply rel_bind_same; [apply rel_self|]. intros o1.
  eapply rel_bind with (Q := fun _ _ => eq).
  { intros s s' <-. unfold mlift. specialize (Hn (o_gen o1)). destruct (iadd (o_gen o1) n), (iadd (o_gen o1) n'); cbn in Hn; try contradiction; auto using loose_refl. }
  intros g g'. eapply rel_bind_same; [apply set_gen_loose|]. intros _.
  eapply rel_bind_same; [apply loose_update_pm|]. intros _.
  eapply rel_bind_same; [apply loose_new_generation|]. intros _. apply rel_self.
Qed.
Lemma loop_loose n n' out : alike n n' -> forall k it hist nb,
  rel eq loose (loop c h ftol out n k it hist nb) (loop c h ftol out n' k it hist nb) (same eq).
Proof.
  intros Hn. induction k as [|k IH]; intros it hist nb; cbn [loop]; [apply rel_self|].
  eapply rel_bind_same; [apply iteration_loose, Hn|]. intros ba. destruct (snd ba).
  - eapply rel_bind_same; [apply rel_self|]. intros _. apply IH.
  - destruct (Z.eqb (nb + 1) (c_dead_iter c)); [apply rel_self|]. eapply rel_bind_same; [apply rel_self|]. intros _. apply IH.
Qed.

Definition allows (n n' : noise) : Prop := forall a b, iadd a n = Ok b -> exists b', iadd a n' = Ok b'.
Lemma iteration_follows n n' : allows n n' -> follows eq (iteration c h ftol n) (iteration c h ftol n') eq.
Proof.
  intros Hn. unfold iteration. eapply follows_bind; [apply follows_self|]. intros _.
  eapply follows_bind; [apply follows_self|]. intros o1.
  eapply follows_bind_lift; [apply Hn|]. intros g g'.
  eapply follows_bind; [apply rel_follows with (X := loose), set_gen_loose|]. intros _.
  eapply follows_bind; [eapply rel_follows, loose_update_pm|]. intros _.
  eapply follows_bind; [eapply rel_follows, loose_new_generation|]. intros _. apply follows_self.
Qed.
Lemma loop_follows n n' out : allows n n' -> forall k it hist nb,
  follows eq (loop c h ftol out n k it hist nb) (loop c h ftol out n' k it hist nb) eq.
Proof.
  intros Hn. induction k as [|k IH]; intros it hist nb; cbn [loop]; [apply follows_self|].
  eapply follows_bind; [apply iteration_follows, Hn|]. intros ba. destruct (snd ba).
  - eapply follows_bind; [apply follows_self|]. intros _. apply IH.
  - destruct (Z.eqb (nb + 1) (c_dead_iter c)); [apply follows_self|]. eapply follows_bind; [apply follows_self|]. intros _. apply IH.
Qed.
End Loose.

(* ---------------- the algorithms ---------------- *)
(** An intensity for which a noise matrix is drawn. *)
Definition noisy (p : pynum) : Prop := py_eq_int p 0 = false /\ py_eq_int p (-1) = false /\ flt (num_to_f p) (Z2f 0) = false.

(** The same settings with another intensity. *)
Definition cfg_noise (p : pynum) (c : cfg) : cfg :=
  mkCfg (c_size_gen c) (c_max_iter c) (c_dead_iter c) (c_nvars c) (c_alpha c) (c_elite_factor c) (c_disp c) (c_parallelize c)
        (c_init_data c) p (c_trunc_len c) (c_elite_len c).
Definition opt_noise {X} (p : pynum) (o : optimiser X) : optimiser X :=
  mkOpt (cfg_noise p (op_cfg o)) (op_st o) (op_init o) (op_upd o) (op_exp o).

Section Runs.
Context {X W : Type}.
Variable E : env X W.

Lemma hooks_noise p (o : optimiser X) cost : hooks_of E (opt_noise p o) cost = hooks_of E o cost.
Proof. unfold hooks_of, export, opt_noise. cbn [op_cfg op_st op_init op_upd op_exp]. destruct (op_exp o); reflexivity. Qed.

Lemma archive_data l (o : optimiser X) cost : op_upd o = FromArchive l ->
  forall g g' e p, h_data (hooks_of E o cost) g e p = h_data (hooks_of E o cost) g' e p.
Proof. intros H g g' e p. cbn [hooks_of h_data]. rewrite H. reflexivity. Qed.

Lemma draw_noisy c (h : hooks (pmstate X) W) p s : noisy p -> draw_noise (cfg_noise p c) h s =
  (if (c_trunc_len c <? 0)%Z || (c_nvars c <? 0)%Z then (Raise ValueError, s)
   else (Ok (NoiseMat (Z.to_nat (c_trunc_len c)) (Z.to_nat (c_nvars c)) (fst (h_normal h (num_to_f p) (s_w s)))),
         mkSt (s_obj s) (s_pm s) (snd (h_normal h (num_to_f p) (s_w s))) (s_tr s))).
Proof.
  intros (H0 & H1 & H2). unfold draw_noise. cbn [cfg_noise c_w_noise c_trunc_len c_nvars]. rewrite H0, H1, H2. cbn [orb].
  destruct ((c_trunc_len c <? 0)%Z || (c_nvars c <? 0)%Z); [reflexivity|]. unfold mbind. destruct (h_normal h (num_to_f p) (s_w s)). reflexivity.
Qed.

(** Any two intensities lead to the same run. *)
Lemma archive_any_noise l (o : optimiser X) cost p p' a ftol out w : op_upd o = FromArchive l -> noisy p -> noisy p' ->
  let m := run_in E a (opt_noise p o) cost ftol out w in let m' := run_in E a (opt_noise p' o) cost ftol out w in
  fst m = fst m' /\ s_pm (snd m) = s_pm (snd m') /\ s_w (snd m) = s_w (snd m') /\ s_tr (snd m) = s_tr (snd m').
Proof.
  intros Ho Hp Hp'. cbv zeta. unfold run_in. rewrite !hooks_noise. cbn [opt_noise op_cfg op_st].
  set (h := hooks_of E o cost). set (c := op_cfg o).
  assert (H : rel eq loose (minimize (cfg_noise p c) h ftol out) (minimize (cfg_noise p' c) h ftol out) (same eq)).
  { unfold minimize. eapply rel_bind_same; [exact (rel_self (first_generation c h))|]. intros best0.
    eapply rel_bind with (Q := fun n n' s s' => s = s' /\ alike n n').
    { intros s s' <-. rewrite (draw_noisy c h p s Hp), (draw_noisy c h p' s Hp').
      destruct ((c_trunc_len c <? 0)%Z || (c_nvars c <? 0)%Z); [split; [reflexivity|apply loose_refl]|].
      assert (EW : snd (h_normal h (num_to_f p) (s_w s)) = snd (h_normal h (num_to_f p') (s_w s))).
      { unfold h. cbn [hooks_of h_normal]. destruct (g_gauss _ _ _ _). reflexivity. }
      rewrite EW. split; [reflexivity|]. intros x. apply iadd_any. }
    intros n n' s s' [<- Hn]. revert s. enough (HH : rel eq loose
      (mbind (print_if out (fun o => PrIter 0 (o_best_cost o))) (fun _ => mbind (loop c h ftol out n (Z.to_nat (c_max_iter c - 1)) 1%Z [best0] 0%Z) (fun history =>
        let nfev := (Z.of_nat (List.length history) * c_size_gen c)%Z in
        mbind (print_if (c_disp c) (fun o => PrFinal nfev (o_best_cost o) (o_best_ind o))) (fun _ => mbind get_obj (fun o => mret (mkResult (o_best_ind o) (o_best_cost o) nfev history (h_settings h)))))))
      (mbind (print_if out (fun o => PrIter 0 (o_best_cost o))) (fun _ => mbind (loop c h ftol out n' (Z.to_nat (c_max_iter c - 1)) 1%Z [best0] 0%Z) (fun history =>
        let nfev := (Z.of_nat (List.length history) * c_size_gen c)%Z in
        mbind (print_if (c_disp c) (fun o => PrFinal nfev (o_best_cost o) (o_best_ind o))) (fun _ => mbind get_obj (fun o => mret (mkResult (o_best_ind o) (o_best_cost o) nfev history (h_settings h)))))))
      (same eq)) by (intros s; exact (HH s s eq_refl)).
    eapply rel_bind_same; [apply rel_self|]. intros _.
    eapply rel_bind_same; [apply (loop_loose c h ftol (archive_data l o cost Ho)), Hn|]. intros hist. apply rel_self. }
  specialize (H (mkSt a (op_st o) w []) _ eq_refl).
  destruct (minimize (cfg_noise p c) h ftol out _) as [[r|e] s], (minimize (cfg_noise p' c) h ftol out _) as [[r'|e'] s']; try contradiction; cbn [fst snd].
  - destruct H as [<- <-]. repeat split.
  - destruct H as [<- (H1 & H2 & H3 & _)]. repeat split; assumption.
Qed.

(** Where drawing leaves the generator as it was, a run with noise that completes is the run without. *)
Lemma archive_zero_noise l (o : optimiser X) cost p a ftol out w r s : op_upd o = FromArchive l -> noisy p ->
  (forall n k w, snd (g_gauss (e_rng E) n k w) = w) ->
  run_in E a (opt_noise p o) cost ftol out w = (Ok r, s) -> run_in E a (opt_noise (PyI 0) o) cost ftol out w = (Ok r, s).
Proof.
  intros Ho Hp Hw. unfold run_in. rewrite !hooks_noise. cbn [opt_noise op_cfg op_st].
  set (h := hooks_of E o cost). set (c := op_cfg o).
  assert (H : follows eq (minimize (cfg_noise p c) h ftol out) (minimize (cfg_noise (PyI 0) c) h ftol out) eq).
  { unfold minimize. eapply follows_bind; [exact (follows_self (first_generation c h))|]. intros best0.
    intros s0 s' <-. unfold mbind at 1 6. rewrite (draw_noisy c h p s0 Hp).
    destruct ((c_trunc_len c <? 0)%Z || (c_nvars c <? 0)%Z); [exact I|].
    assert (EW : snd (h_normal h (num_to_f p) (s_w s0)) = s_w s0).
    { unfold h. cbn [hooks_of h_normal]. pose proof (Hw (Z.to_nat (c_trunc_len (op_cfg o))) (Z.to_nat (c_nvars (op_cfg o))) (s_w s0)) as HW. destruct (g_gauss _ _ _ _). exact HW. }
    rewrite EW. generalize (fst (h_normal h (num_to_f p) (s_w s0))). intros d. revert s0 EW. intros s0 _. destruct s0 as [ob pm wo tr]. cbn [s_obj s_pm s_w s_tr].
    change (draw_noise (cfg_noise (PyI 0) c) h (mkSt ob pm wo tr)) with (Ok NoiseZero, mkSt ob pm wo tr). cbv iota beta.
    refine ((_ : follows eq _ _ eq) _ _ eq_refl).
    eapply follows_bind; [apply follows_self|]. intros _.
    eapply follows_bind; [apply (loop_follows c h ftol (archive_data l o cost Ho))|]; [intros x b Hx; eapply iadd_zero_ok, Hx|]. intros hist. apply follows_self. }
  specialize (H (mkSt a (op_st o) w []) _ eq_refl). intros Hr. rewrite Hr in H. destruct H as (t' & -> & <-). reflexivity.
Qed.
End Runs.

(** The constructors. *)
Definition stored_noise (n : option pynum) : pynum := match n with Some p => if py_eq_int p 0 then PyI 0 else p | None => PyI 0 end.
Definition with_noise (n : option pynum) (A : algorithm) : algorithm :=
  match A with
  | MultivariateKEDA lo hi l _ => MultivariateKEDA lo hi l n
  | SPEDA lo hi l _ => SPEDA lo hi l n
  | _ => A
  end.

Section Built.
Context {X W : Type}.
Variable E : env X W.

Lemma archive_new_noise k g lo hi l n n' :
  archive_new E k g lo hi l n' = rmap (opt_noise (X := X) (stored_noise n')) (archive_new E k g lo hi l n).
Proof.
  unfold archive_new, base, eda_init. fold (stored_noise n) (stored_noise n').
  destruct (int_times (g_size_gen g) (g_alpha g)) as [t|e]; cbn [rbind rmap]; [|reflexivity].
  destruct (g_dead_iter g <=? g_max_iter g)%Z; [|reflexivity].
  assert (G : forall c c' : cfg, c' = cfg_noise (stored_noise n') c ->
    rbind (assign_pm (MExt k (names (g_nvars g)) (e_xnew E k (names (g_nvars g)))) (mkOpt c' (mkPS None (mkArr DFloat (Z.to_nat (g_nvars g)) [])) None FromSelection Plain)) (fun o =>
      if (g_nvars g <? 0)%Z then Raise ValueError else rbind (uniform_new (g_nvars g) lo hi) (fun u =>
        assign_init (IUniform u) (mkOpt (op_cfg o) (op_st o) (op_init o) (FromArchive (times_int l t)) (op_exp o)))) =
    rmap (opt_noise (stored_noise n')) (
    rbind (assign_pm (MExt k (names (g_nvars g)) (e_xnew E k (names (g_nvars g)))) (mkOpt c (mkPS None (mkArr DFloat (Z.to_nat (g_nvars g)) [])) None FromSelection Plain)) (fun o =>
      if (g_nvars g <? 0)%Z then Raise ValueError else rbind (uniform_new (g_nvars g) lo hi) (fun u =>
        assign_init (IUniform u) (mkOpt (op_cfg o) (op_st o) (op_init o) (FromArchive (times_int l t)) (op_exp o)))))).
  { intros c c' ->. unfold assign_pm, set_pm. cbn [op_cfg]. change (c_nvars (cfg_noise (stored_noise n') c)) with (c_nvars c).
    destruct (Z.of_nat _ =? c_nvars c)%Z; cbn [rmap rbind]; [|reflexivity].
    destruct (g_nvars g <? 0)%Z; [reflexivity|]. destruct (uniform_new (g_nvars g) lo hi) as [u|e]; cbn [rbind rmap]; [|reflexivity].
    unfold assign_init, set_init. cbn [op_cfg with_pm]. change (c_nvars (cfg_noise (stored_noise n') c)) with (c_nvars c).
    destruct (initr_width (IUniform u) =? c_nvars c)%Z; reflexivity. }
  destruct (g_init_data g) as [d|].
  - destruct (Z.of_nat (a_nc d) =? g_nvars g)%Z; [|reflexivity]. cbn [rmap rbind]. apply G. reflexivity.
  - cbn [rmap rbind]. apply G. reflexivity.
Qed.
Lemma archive_new_self k g lo hi l n (o : optimiser X) : archive_new E k g lo hi l n = Ok o -> opt_noise (stored_noise n) o = o /\ exists t, op_upd o = FromArchive t.
Proof.
  intros H. pose proof (archive_new_noise k g lo hi l n n) as H1. rewrite H in H1. cbn [rmap] in H1. split; [congruence|].
  apply archive_inv in H as (t & c & u & _ & _ & _ & _ & ->). cbn [op_upd]. eauto.
Qed.

Lemma noisy_stored p : noisy p -> stored_noise (Some p) = p.
Proof. intros (H & _). cbn [stored_noise]. rewrite H. reflexivity. Qed.

Theorem archive_noise_values A g n n' cost a ftol out w : uses_archive A = true ->
  noisy (stored_noise n) -> noisy (stored_noise n') ->
  match construct E (with_noise n A) g, construct E (with_noise n' A) g with
  | Ok o, Ok o' => fst (run_in E a o cost ftol out w) = fst (run_in E a o' cost ftol out w) /\
      s_tr (snd (run_in E a o cost ftol out w)) = s_tr (snd (run_in E a o' cost ftol out w)) /\
      s_pm (snd (run_in E a o cost ftol out w)) = s_pm (snd (run_in E a o' cost ftol out w)) /\
      s_w (snd (run_in E a o cost ftol out w)) = s_w (snd (run_in E a o' cost ftol out w))
  | Raise e, Raise e' => e = e'
  | _, _ => False
  end.
Proof.
  intros HA Hn Hn'.
  assert (G : forall k lo hi l,
    match archive_new E k g lo hi l n, archive_new E k g lo hi l n' with
    | Ok o, Ok o' => fst (run_in E a o cost ftol out w) = fst (run_in E a o' cost ftol out w) /\
        s_tr (snd (run_in E a o cost ftol out w)) = s_tr (snd (run_in E a o' cost ftol out w)) /\
        s_pm (snd (run_in E a o cost ftol out w)) = s_pm (snd (run_in E a o' cost ftol out w)) /\
        s_w (snd (run_in E a o cost ftol out w)) = s_w (snd (run_in E a o' cost ftol out w))
    | Raise e, Raise e' => e = e'
    | _, _ => False
    end).
  { intros k lo hi l. rewrite (archive_new_noise k g lo hi l n n'). destruct (archive_new E k g lo hi l n) as [o|e] eqn:Eo; cbn [rmap]; [|reflexivity].
    destruct (archive_new_self _ _ _ _ _ _ _ Eo) as (Es & t & Hu).
    destruct (archive_any_noise E t o cost _ _ a ftol out w Hu Hn Hn') as (H1 & H2 & H3 & H4). rewrite Es in *. auto. }
  destruct A; try discriminate HA; cbn [with_noise construct]; apply G.
Qed.

Theorem archive_noise_draws A g n cost a ftol out w o r s : uses_archive A = true -> noisy (stored_noise n) ->
  (forall k l w, snd (g_gauss (e_rng E) k l w) = w) ->
  construct E (with_noise n A) g = Ok o -> run_in E a o cost ftol out w = (Ok r, s) ->
  exists o', construct E (with_noise None A) g = Ok o' /\ run_in E a o' cost ftol out w = (Ok r, s).
Proof.
  intros HA Hn Hw.
  assert (G : forall k lo hi l, archive_new E k g lo hi l n = Ok o -> run_in E a o cost ftol out w = (Ok r, s) ->
    exists o', archive_new E k g lo hi l None = Ok o' /\ run_in E a o' cost ftol out w = (Ok r, s)).
  { intros k lo hi l Eo Hr. rewrite (archive_new_noise k g lo hi l n None), Eo. cbn [rmap]. eexists. split; [reflexivity|].
    destruct (archive_new_self _ _ _ _ _ _ _ Eo) as (Es & t & Hu).
    apply (archive_zero_noise E t o cost (stored_noise n) a ftol out w r s Hu Hn Hw). rewrite Es. exact Hr. }
  destruct A; try discriminate HA; cbn [with_noise construct]; apply G.
Qed.
End Built.
