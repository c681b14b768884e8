(** The random numbers of the stock algorithms do not depend on the cost function. *)
From Coq Require Import String List ZArith Bool Lia Reals.
From Flocq Require Import Core IEEE754.BinarySingleNaN.
From Verif Require Import PyBase B64 NdArray Eda EdaInv Spec LoopThms Select LoopTrain LoopDrawn LoopFail FailThms Rand RandThms Models ModelThms CatThms ChoiceInt
  Trunc Inits Stock StockInv StockGauss StockCat StockAll StockPrior StockFinal DrawnStock CommonDraws.
Import ListNotations.
Open Scope nat_scope.

(** The hooks with the initialiser called once and for all. *)
Definition pinned {S W} (w0 : W) (h : hooks S W) : hooks S W :=
  mkHooks (h_argsort h) (h_cost h) (h_pool h) (h_normal h) (fun _ => h_init h w0) (h_data h) (h_learn h) (h_sample h) (h_settings h).

Lemma pinned_run {S W} c (h : hooks S W) ftol out s : minimize c (pinned (s_w s) h) ftol out s = minimize c h ftol out s.
Proof.
  unfold minimize at 1 2. unfold mbind at 1 4.
  assert (E : first_generation c (pinned (s_w s) h) s = first_generation c h s).
  { unfold first_generation at 1 2. unfold mbind at 1 8. unfold initialize_generation. destruct (c_init_data c); reflexivity. }
  rewrite E. reflexivity.
Qed.

Section Stock.
Context {X W : Type}.
Variable E : env X W.

(** The cost function draws nothing from the generator, or is called in other processes. *)
Definition keeps_generator (g : args) (cost : row -> W -> res num * W) : Prop :=
  g_parallelize g = true \/ forall r w, snd (cost r w) = w.

(** ** The initial generation *)

Lemma first_common A g (o0 : optimiser X) : construct E A g = Ok o0 ->
  exists init : W -> res arr, forall o cost a ftol out w r s, used E o0 o -> run_in E a o cost ftol out w = (r, s) ->
  forall gen vals, nth_error (gens (s_tr s)) 0 = Some (gen, vals) -> init w = Ok gen.
Proof.
  intros _. exists (fun w => match c_init_data (op_cfg o0) with Some d => Ok d
    | None => match op_init o0 with Some i => fst (initr_sample E i (c_size_gen (op_cfg o0)) w) | None => Raise AttributeError end end).
  intros o cost a ftol out w r s U Hr gen vals Hk. destruct (used_setup E _ _ U) as (E1 & E2 & _). rewrite <- E1, <- E2. unfold run_in in Hr.
  rewrite <- (pinned_run (op_cfg o) (hooks_of E o cost)) in Hr. cbn [s_w] in Hr.
  assert (C : executes (op_cfg o) (pinned w (hooks_of E o cost)) ftol out (mkSt a (op_st o) w []) r (s_tr s)).
  { split; [reflexivity|]. exists s. split; [exact Hr|reflexivity]. }
  pose proof (chain_every _ _ _ _ _ _ _ C 0 gen vals Hk) as H. cbn in H.
  destruct (c_init_data (op_cfg o)) as [d|]; [congruence|]. destruct H as (_ & w' & H).
  destruct (op_init o) as [i|]; [rewrite H; reflexivity|discriminate].
Qed.

(** ** The generator *)

Definition no_cost : row -> W -> res num * W := fun _ w => (Raise ValueError, w).
Definition start_world (o : optimiser X) : W -> W := loop_world (op_cfg o) (hooks_of E o no_cost).

Lemma start_common (o0 o : optimiser X) cost w : used E o0 o -> loop_world (op_cfg o) (hooks_of E o cost) w = start_world o0 w.
Proof.
  intros U. destruct (used_setup E _ _ U) as (E1 & E2 & _). unfold start_world, loop_world. cbn [hooks_of h_init h_normal].
  rewrite E1, E2. reflexivity.
Qed.

(** Learning draws nothing; sampling advances the generator the same way for all models like [m0]. *)
Definition steps (m0 : model X) (size : Z) (step : W -> W) : Prop :=
  (forall d m w r m' w', alike m0 m -> model_learn E d m w = (r, (m', w')) -> w' = w) /\
  (forall m w g w', alike m0 m -> model_sample E m size w = (Ok g, w') -> w' = step w).

Lemma placed_stock (o0 o : optimiser X) m0 step cost a ftol out w r s :
  used E o0 o -> ps_pm (op_st o0) = Some m0 -> steps m0 (c_size_gen (op_cfg o0)) step ->
  (c_parallelize (op_cfg o0) = true \/ forall r w, snd (cost r w) = w) -> run_in E a o cost ftol out w = (r, s) ->
  (forall k g vals, nth_error (gens (s_tr s)) (S k) = Some (g, vals) ->
     exists d m m' w1 w2 w4, nth_error (learns (s_tr s)) k = Some d /\ alike m0 m /\
       model_learn E d m w1 = (Ok tt, (m', w2)) /\
       model_sample E m' (c_size_gen (op_cfg o)) (Nat.iter k step (start_world o0 w)) = (Ok g, w4)) /\
  (forall x, r = Ok x -> exists n, List.length (r_history x) = S n /\ s_w s = Nat.iter n step (start_world o0 w)).
Proof.
  intros U H0 [Sl Ss] Q Hr. unfold run_in in Hr. destruct (used_setup E _ _ U) as (E1 & _).
  pose proof (used_alike E _ _ U) as A. rewrite H0 in A. cbn [alike_opt] in A.
  destruct (ps_pm (op_st o)) as [m1|] eqn:Em1; [|contradiction].
  assert (C : executes (op_cfg o) (hooks_of E o cost) ftol out (mkSt a (op_st o) w []) r (s_tr s)).
  { split; [reflexivity|]. exists s. split; [exact Hr|reflexivity]. }
  pose proof (drawn_every _ _ _ _ _ _ _ C) as D. cbn [s_pm] in D.
  set (w0 := start_world o0 w).
  assert (P : each_event (placed (hooks_of E o cost) (op_st o) step w0) (s_tr s) /\
    forall x, r = Ok x -> exists n, List.length (r_history x) = S n /\ s_w s = Nat.iter n step w0).
  { unfold w0. rewrite <- (start_common o0 o cost w U).
    change w with (s_w (mkSt a (op_st o) w [])) at 1 2.
    refine (placed_run (op_cfg o) (hooks_of E o cost) (op_st o) step _ _ _ ftol out (mkSt a (op_st o) w []) r s eq_refl eq_refl Hr).
    - unfold quiet_cost. rewrite E1. exact Q.
    - intros ds p ge el d p1 w1 p2 w2 T Hd Hl. destruct (trained_alike E _ _ _ _ _ _ T Em1) as (m & Hm & A'). cbn [hooks_of h_data h_learn] in Hd, Hl.
      pose proof (data_pm (op_upd o) ge el p) as D1. rewrite Hd in D1. cbn [snd] in D1. rewrite D1, Hm in Hl.
      destruct (model_learn E d m w1) as [r' [m' w']] eqn:L. assert (w' = w2) by congruence. subst w'.
      eapply Sl; [|exact L]. eapply alike_trans; eassumption.
    - intros ds p w1 g1 w' T Hs. destruct (trained_alike E _ _ _ _ _ _ T Em1) as (m & Hm & A'). cbn [hooks_of h_sample] in Hs.
      rewrite Hm, E1 in Hs. eapply Ss; [|exact Hs]. eapply alike_trans; eassumption. }
  destruct P as [P1 P2]. split; [|exact P2]. intros k g vals Hk.
  destruct (placed_nth (op_cfg o) (hooks_of E o cost) (op_st o) step w0 _ P1 D k g vals Hk) as (p & w4 & Ht & Hs).
  pose proof (chain_every _ _ _ _ _ _ _ C (S k) g vals Hk) as [Hlen _].
  assert (Hd : exists d, nth_error (learns (s_tr s)) k = Some d).
  { destruct (nth_error (learns (s_tr s)) k) as [d|] eqn:Ed; [eauto|]. apply nth_error_None in Ed.
    rewrite firstn_length in Hlen. lia. }
  destruct Hd as [d Hd].
  assert (Ef : firstn (S k) (learns (s_tr s)) = firstn k (learns (s_tr s)) ++ [d]).
  { clear - Hd. revert k Hd. induction (learns (s_tr s)) as [|x l IH]; intros [|k] Hd; cbn in *; try discriminate; [congruence|].
    f_equal. apply IH, Hd. }
  destruct (trained_last E _ _ _ _ _ _ Ht Em1 _ _ Ef) as (m & m' & w1 & w2 & A' & Hl & Hm').
  exists d, m, m', w1, w2, w4. split; [exact Hd|]. split; [eapply alike_trans; eassumption|]. split; [exact Hl|].
  cbn [hooks_of h_sample] in Hs. rewrite Hm' in Hs. exact Hs.
Qed.

(** ** Sampling advances the generator by the numbers it draws *)

Lemma gauss_world (g : rng W) pm size w a w' : gauss_sample g pm size w = (Ok a, w') ->
  w' = snd (g_gauss g (Z.to_nat size) (List.length pm) w).
Proof.
  unfold gauss_sample, np_normal. destruct (existsb _ _); [discriminate|]. destruct (size <? 0)%Z; [discriminate|].
  destruct (negb _); [discriminate|]. destruct (g_gauss g (Z.to_nat size) (List.length pm) w) as [z w1]. cbn [snd]. congruence.
Qed.

Lemma unibin_world (g : rng W) b size w a w' : unibin_sample g b size w = (Ok a, w') -> w' = snd (g_unif g (Z.to_nat size) (ub_n b) w).
Proof.
  unfold unibin_sample. destruct (size <? 0)%Z; [discriminate|]. destruct (g_unif g (Z.to_nat size) (ub_n b) w) as [u w1].
  destruct (bres _ _); [|discriminate]. cbn [snd]. congruence.
Qed.

Lemma columns_world (g : rng W) str size : forall t w cols w', draw_columns (cat_draw g str size) t w = (Ok cols, w') ->
  w' = world_at g size w (List.length t).
Proof.
  induction t as [|e t IH]; intros w cols w' H; cbn [draw_columns] in H; [unfold world_at; cbn; congruence|].
  destruct (cat_draw g str size e w) as [[col|ex] w1] eqn:Ed; [|discriminate].
  destruct (draw_columns _ t w1) as [[cols'|ex] w2] eqn:Ec; [|discriminate]. apply IH in Ec. cbn [List.length]. rewrite world_at_S.
  assert (w' = w2) by congruence. subst w'. rewrite Ec. f_equal.
  unfold cat_draw in Ed. destruct e as [p|]; [|discriminate]. unfold np_choice in Ed.
  destruct (size <? 0)%Z; [discriminate|]. destruct (_ && _)%bool; [discriminate|]. destruct (negb _); [discriminate|].
  destruct (negb _); [discriminate|]. destruct (g_unif g (Z.to_nat size) 1 w) as [u w3]. cbn [snd]. congruence.
Qed.

Lemma cat_world (g : rng W) str t size w a w' : cat_sample g str t size w = (Ok a, w') -> w' = world_at g size w (List.length t).
Proof.
  unfold cat_sample. destruct (draw_columns _ t w) as [[cols|ex] w1] eqn:Ed; [|discriminate]. intros H.
  apply columns_world in Ed. congruence.
Qed.

(** How far one generation moves the generator. *)
Definition step_of (m0 : model X) (size : Z) (w : W) : W :=
  match m0 with
  | MUniGauss _ pm | MAdapt _ _ pm => snd (g_gauss (e_rng E) (Z.to_nat size) (List.length pm) w)
  | MUniBin b => snd (g_unif (e_rng E) (Z.to_nat size) (ub_n b) w)
  | MUniCat t => world_at (e_rng E) size w (List.length t)
  | _ => w
  end.

Definition plain_model (m : model X) : Prop := match m with MMulti _ _ _ | MExt _ _ _ => False | _ => True end.

Lemma steps_plain m0 size : plain_model m0 -> steps m0 size (step_of m0 size).
Proof.
  intros P. split.
  - intros d m w r m' w' A. destruct m0, m; try contradiction; cbn [model_learn].
    + destruct (unigauss_learn _ _ _ _). congruence.
    + destruct (adapt_learn _ _ _ _ _). congruence.
    + destruct (unibin_learn _ _). congruence.
    + destruct (cat_learn _ _). congruence.
  - intros m w g w' A. destruct m0, m; try contradiction; cbn [model_sample step_of alike] in *.
    + intros H. apply gauss_world in H. destruct A as [_ A]. rewrite A. exact H.
    + intros H. apply gauss_world in H. destruct A as (_ & _ & A). rewrite A. exact H.
    + intros H. apply unibin_world in H. destruct A as (A & _). rewrite A. exact H.
    + intros H. apply cat_world in H. rewrite A. exact H.
Qed.

(** The algorithms whose models draw through numpy alone. *)
Definition numpy_only (A : algorithm) : Prop :=
  match A with UMDAc _ _ _ _ _ | PBIL _ _ _ _ _ | UMDAd _ _ _ | UMDAcat _ _ => True | _ => False end.

Lemma numpy_plain A g (o0 : optimiser X) : numpy_only A -> construct E A g = Ok o0 ->
  exists m0, ps_pm (op_st o0) = Some m0 /\ plain_model m0 /\ c_parallelize (op_cfg o0) = g_parallelize g /\ c_size_gen (op_cfg o0) = g_size_gen g.
Proof.
  intros N H. destruct A; try contradiction; cbn [construct] in H.
  - apply umdac_inv in H as (Hc & _ & Hpm & _). apply eda_init_inv in Hc as (Hs & _ & _ & _ & _ & _ & _ & Hp & _).
    eexists. split; [exact Hpm|]. split; [exact I|]. split; [exact Hp|exact Hs].
  - apply pbil_inv in H as (Hc & _ & Hpm & _). apply eda_init_inv in Hc as (Hs & _ & _ & _ & _ & _ & _ & Hp & _).
    eexists. split; [exact Hpm|]. split; [exact I|]. split; [exact Hp|exact Hs].
  - apply umdad_inv in H as (Hc & _ & (m & _ & _ & Hpm) & _). apply eda_init_inv in Hc as (Hs & _ & _ & _ & _ & _ & _ & Hp & _).
    eexists. split; [exact Hpm|]. split; [exact I|]. split; [exact Hp|exact Hs].
  - apply umdacat_inv in H as (Hc & _ & Hpm & _). apply eda_init_inv in Hc as (Hs & _ & _ & _ & _ & _ & _ & Hp & _).
    eexists. split; [exact Hpm|]. split; [exact I|]. split; [exact Hp|exact Hs].
Qed.

(** The generator when generation [k] + 1 is drawn. *)
Definition draw_world (o0 : optimiser X) (k : nat) (w : W) : W :=
  match ps_pm (op_st o0) with
  | Some m0 => Nat.iter k (step_of m0 (c_size_gen (op_cfg o0))) (start_world o0 w)
  | None => w
  end.

Lemma plain_drawn A g (o0 o : optimiser X) cost a ftol out w r s :
  numpy_only A -> construct E A g = Ok o0 -> used E o0 o -> keeps_generator g cost -> run_in E a o cost ftol out w = (r, s) ->
  forall k gen vals, nth_error (gens (s_tr s)) (S k) = Some (gen, vals) ->
  exists d m0 m m' w1 w2 w4, nth_error (learns (s_tr s)) k = Some d /\ ps_pm (op_st o0) = Some m0 /\ plain_model m0 /\ alike m0 m /\
    model_learn E d m w1 = (Ok tt, (m', w2)) /\ model_sample E m' (g_size_gen g) (draw_world o0 k w) = (Ok gen, w4).
Proof.
  intros N Hc U Q Hr k gen vals Hk. destruct (numpy_plain _ _ _ N Hc) as (m0 & Hm & P & Hp & Hs). unfold keeps_generator in Q. rewrite <- Hp in Q.
  destruct (placed_stock o0 o m0 _ cost a ftol out w r s U Hm (steps_plain m0 _ P) Q Hr) as [H _].
  destruct (H k gen vals Hk) as (d & m & m' & w1 & w2 & w4 & Hd & A1 & Hl & Hsm). destruct (used_setup E _ _ U) as (E1 & _).
  exists d, m0, m, m', w1, w2, w4. unfold draw_world. rewrite Hm. rewrite E1, Hs in Hsm. rewrite Hs. auto 10.
Qed.

(** The next generation is computed from the training data and the seed alone. *)
Lemma next_common A g (o0 : optimiser X) : numpy_only A -> construct E A g = Ok o0 ->
  exists draw : nat -> W -> arr -> res arr, forall o cost a ftol out w r s,
  used E o0 o -> keeps_generator g cost -> run_in E a o cost ftol out w = (r, s) ->
  forall k gen vals, nth_error (gens (s_tr s)) (S k) = Some (gen, vals) ->
  exists d, nth_error (learns (s_tr s)) k = Some d /\ draw k w d = Ok gen.
Proof.
  intros N Hc. exists (fun k w d => match ps_pm (op_st o0) with
    | Some m0 => match model_learn E d m0 w with
                 | (Ok _, (m', _)) => fst (model_sample E m' (g_size_gen g) (draw_world o0 k w))
                 | (Raise e, _) => Raise e
                 end
    | None => Raise AttributeError end).
  intros o cost a ftol out w r s U Q Hr k gen vals Hk.
  destruct (plain_drawn _ _ _ _ _ _ _ _ _ _ _ N Hc U Q Hr k gen vals Hk) as (d & m0 & m & m' & w1 & w2 & w4 & Hd & Hm & P & A1 & Hl & Hs).
  exists d. split; [exact Hd|]. rewrite Hm.
  assert (Hx : refits E \/ (forall k n x, m0 <> MExt k n x)) by (right; intros k0 n x Ex; subst m0; exact P).
  assert (Hl2 : exists w3, model_learn E d m w = (Ok tt, (m', w3))).
  { destruct m0, m; try contradiction; cbn [model_learn] in Hl |- *.
    - destruct (unigauss_learn _ _ _ _). exists w. congruence.
    - destruct (adapt_learn _ _ _ _ _). exists w. congruence.
    - destruct (unibin_learn _ _). exists w. congruence.
    - destruct (cat_learn _ _). exists w. congruence. }
  destruct Hl2 as [w3 Hl2]. pose proof (alike_learn E d m0 m w Hx A1) as F. rewrite Hl2 in F.
  destruct (model_learn E d m0 w) as [[u|e] [m2 w5]]; [|contradiction]. destruct F as [-> _]. rewrite Hs. reflexivity.
Qed.

(** Where the run leaves the generator. *)
Lemma left_common A g (o0 : optimiser X) : numpy_only A -> construct E A g = Ok o0 ->
  exists left : nat -> W -> W, forall o cost a ftol out w r s,
  used E o0 o -> keeps_generator g cost -> run_in E a o cost ftol out w = (Ok r, s) -> s_w s = left (List.length (r_history r)) w.
Proof.
  intros N Hc. exists (fun n w => draw_world o0 (Nat.pred n) w). intros o cost a ftol out w r s U Q Hr.
  destruct (numpy_plain _ _ _ N Hc) as (m0 & Hm & P & Hp & Hs). unfold keeps_generator in Q. rewrite <- Hp in Q.
  destruct (placed_stock o0 o m0 _ cost a ftol out w _ s U Hm (steps_plain m0 _ P) Q Hr) as [_ H].
  destruct (H r eq_refl) as (n & Hn & ->). rewrite Hn. unfold draw_world. rewrite Hm. reflexivity.
Qed.

(** ** The numbers *)

Lemma umdac_common g lo hi vector lf wn (o0 : optimiser X) : construct E (UMDAc lo hi vector lf wn) g = Ok o0 ->
  exists z : nat -> W -> nat -> nat -> f64, forall o cost a ftol out w r s,
  used E o0 o -> keeps_generator g cost -> run_in E a o cost ftol out w = (r, s) ->
  forall k gen vals, nth_error (gens (s_tr s)) (S k) = Some (gen, vals) ->
  exists d, nth_error (learns (s_tr s)) k = Some d /\
  forall i j, i < Z.to_nat (g_size_gen g) -> j < Z.to_nat (g_nvars g) -> exists x, num_col d j = Ok x /\
    nth_error (nth i (a_rows gen) []) j =
    Some (CF (fadd (mean (b64_ops (e_sum E)) x) (fmul (raise_to (b64_ops (e_sum E)) lf (std (b64_ops (e_sum E)) x)) (z k w i j)))).
Proof.
  intros Hc. exists (fun k w => fst (g_gauss (e_rng E) (Z.to_nat (g_size_gen g)) (Z.to_nat (g_nvars g)) (draw_world o0 k w))).
  intros o cost a ftol out w r s U Q Hr k gen vals Hk.
  destruct (plain_drawn (UMDAc lo hi vector lf wn) _ _ _ _ _ _ _ _ _ _ I Hc U Q Hr k gen vals Hk) as (d & m0 & m & m' & w1 & w2 & w4 & Hd & Hm & P & A & Hl & Hs).
  cbn [construct] in Hc. apply umdac_inv in Hc as (_ & _ & Hpm & _). assert (Em0 : m0 = MUniGauss lf (gauss_new (Z.to_nat (g_nvars g)))) by congruence.
  exists d. split; [exact Hd|]. subst m0. destruct m as [lf' pm| | | | |]; try contradiction. destruct A as [<- Hlen].
  unfold gauss_new in Hlen. rewrite repeat_length in Hlen. cbn [model_learn] in Hl.
  destruct (unigauss_learn (b64_ops (e_sum E)) lf (num_col d) pm) as [r' pm'] eqn:L.
  assert (Em : m' = MUniGauss lf pm') by congruence. assert (Er : r' = Ok tt) by congruence. subst m' r'.
  apply learn_from_ok in L as [Hl' L]. cbn [model_sample] in Hs. apply gauss_entries in Hs as (S1 & S2 & S3).
  rewrite Hl', <- Hlen in *.
  intros i j Hi Hj. destruct (L j Hj) as (q & Hq & Hu). cbn [Nat.add] in Hu.
  unfold unigauss_upd in Hu. destruct (num_col d j) as [x|e]; cbn [rmap] in Hu; [|discriminate].
  exists x. split; [reflexivity|]. rewrite (S3 i j q Hi Hq).
  assert (Eq : q = (mean (b64_ops (e_sum E)) x, raise_to (b64_ops (e_sum E)) lf (std (b64_ops (e_sum E)) x))) by congruence.
  subst q. reflexivity.
Qed.

Lemma pbil_common g lo hi vector lf wn (o0 : optimiser X) : construct E (PBIL lo hi vector lf wn) g = Ok o0 ->
  exists z : nat -> W -> nat -> nat -> f64, forall o cost a ftol out w r s,
  used E o0 o -> keeps_generator g cost -> run_in E a o cost ftol out w = (r, s) ->
  forall k gen vals, nth_error (gens (s_tr s)) (S k) = Some (gen, vals) ->
  exists d, nth_error (learns (s_tr s)) k = Some d /\
  forall i j, i < Z.to_nat (g_size_gen g) -> j < Z.to_nat (g_nvars g) -> exists x b1 b2,
    num_col d j = Ok x /\ nth_error x 0 = Some b1 /\ nth_error x 1 = Some b2 /\
    nth_error (nth i (a_rows gen) []) j =
    Some (CF (fadd (fadd (fmul (fsub (Z2f 1) (num_to_f (g_alpha g))) (mean (b64_ops (e_sum E)) x))
                         (fmul (num_to_f (g_alpha g)) (fsub (fadd b1 b2) (last x b1))))
                   (fmul (raise_to (b64_ops (e_sum E)) lf (std (b64_ops (e_sum E)) x)) (z k w i j)))).
Proof.
  intros Hc. exists (fun k w => fst (g_gauss (e_rng E) (Z.to_nat (g_size_gen g)) (Z.to_nat (g_nvars g)) (draw_world o0 k w))).
  intros o cost a ftol out w r s U Q Hr k gen vals Hk.
  destruct (plain_drawn (PBIL lo hi vector lf wn) _ _ _ _ _ _ _ _ _ _ I Hc U Q Hr k gen vals Hk) as (d & m0 & m & m' & w1 & w2 & w4 & Hd & Hm & P & A & Hl & Hs).
  cbn [construct] in Hc. apply pbil_inv in Hc as (_ & _ & Hpm & _).
  assert (Em0 : m0 = MAdapt lf (num_to_f (g_alpha g)) (gauss_new (Z.to_nat (g_nvars g)))) by congruence.
  exists d. split; [exact Hd|]. subst m0. destruct m as [|lf' al pm| | | |]; try contradiction. destruct A as (<- & <- & Hlen).
  unfold gauss_new in Hlen. rewrite repeat_length in Hlen. cbn [model_learn] in Hl.
  destruct (adapt_learn (b64_ops (e_sum E)) lf (num_to_f (g_alpha g)) (num_col d) pm) as [r' pm'] eqn:L.
  assert (Em : m' = MAdapt lf (num_to_f (g_alpha g)) pm') by congruence. assert (Er : r' = Ok tt) by congruence. subst m' r'.
  apply learn_from_ok in L as [Hl' L]. cbn [model_sample] in Hs. apply gauss_entries in Hs as (S1 & S2 & S3).
  rewrite Hl', <- Hlen in *.
  intros i j Hi Hj. destruct (L j Hj) as (q & Hq & Hu). cbn [Nat.add] in Hu.
  unfold adapt_upd in Hu. destruct (num_col d j) as [x|e]; cbn [rbind] in Hu; [|discriminate].
  destruct x as [|b1 [|b2 x]]; try discriminate. exists (b1 :: b2 :: x), b1, b2. split; [reflexivity|]. split; [reflexivity|]. split; [reflexivity|].
  rewrite (S3 i j q Hi Hq). match type of Hu with Ok ?y = _ => assert (Eq : q = y) by congruence end. subst q. reflexivity.
Qed.

Lemma umdad_common g vector lo hi (o0 : optimiser X) : construct E (UMDAd vector lo hi) g = Ok o0 ->
  (forall v, vector = Some v -> List.length v = Z.to_nat (g_nvars g)) ->
  (forall d, g_init_data g = Some d -> bit_arr (Z.to_nat (g_nvars g)) d) ->
  exists u : nat -> W -> nat -> nat -> f64, forall o cost a ftol out w r s,
  used E o0 o -> keeps_generator g cost -> run_in E a o cost ftol out w = (r, s) ->
  forall k gen vals, nth_error (gens (s_tr s)) (S k) = Some (gen, vals) ->
  exists d, nth_error (learns (s_tr s)) k = Some d /\
  forall i j, i < Z.to_nat (g_size_gen g) -> j < Z.to_nat (g_nvars g) -> exists p,
    clamped lo hi (fdiv (Z2f (Z.of_nat (ones_in j (a_rows d)))) (Z2f (Z.of_nat (List.length (a_rows d))))) p /\
    nth_error (nth i (a_rows gen) []) j = Some (CI (if flt (u k w i j) p then 1 else 0)%Z).
Proof.
  intros Hc Hv Hi0. exists (fun k w => fst (g_unif (e_rng E) (Z.to_nat (g_size_gen g)) (Z.to_nat (g_nvars g)) (draw_world o0 k w))).
  intros o cost a ftol out w r s U Q Hr k gen vals Hk.
  pose proof (umdad_data E _ _ _ _ _ _ _ _ _ _ _ _ _ Hc U Hv Hi0 Hr) as D.
  destruct (plain_drawn (UMDAd vector lo hi) _ _ _ _ _ _ _ _ _ _ I Hc U Q Hr k gen vals Hk) as (d & m0 & m & m' & w1 & w2 & w4 & Hd & Hm & P & A & Hl & Hs).
  cbn [construct] in Hc. apply umdad_inv in Hc as (_ & _ & (mb & (M1 & M2 & M3 & M4) & _ & Hpm) & _).
  assert (Em0 : m0 = MUniBin mb) by congruence. subst m0.
  exists d. split; [exact Hd|]. assert (Hb : bit_arr (Z.to_nat (g_nvars g)) d).
  { rewrite Forall_forall in D. apply D. eapply nth_error_In, Hd. }
  destruct Hb as (_ & Hnc & Hrows). destruct m as [| | |b| |]; try contradiction. destruct A as (A1 & A2 & A3).
  assert (Hlt : flt (ub_lo b) (ub_hi b) = true) by congruence.
  cbn [model_learn] in Hl. destruct (unibin_learn d b) as [r' b'] eqn:L.
  assert (Em : m' = MUniBin b') by congruence. assert (Er : r' = Ok tt) by congruence. subst m' r'.
  assert (Hne : a_rows d <> []).
  { intros E0. rewrite (unibin_empty d b E0) in L. congruence. }
  destruct (unibin_bits d b _ Hlt Hnc Hrows Hne) as (b2 & L2 & B1 & _ & _ & B4 & B5).
  assert (b2 = b') by congruence. subst b2. cbn [model_sample] in Hs.
  apply unibin_sample_spec in Hs as (_ & _ & S2 & S3 & _ & S5).
  rewrite B1, <- A1, M2, B4, bres_same in S3. assert (Hw : a_nc gen = Z.to_nat (g_nvars g)) by congruence.
  intros i j Hi' Hj. destruct (B5 j Hj) as (p & Hp & Hcl).
  exists p. split; [congruence|]. rewrite Hw in S5. rewrite (S5 i j Hi' Hj). rewrite B1, <- A1, M2, B4.
  assert (Hbi : bidx (Z.to_nat (g_nvars g)) j = j) by (unfold bidx; destruct (Nat.eqb_spec (Z.to_nat (g_nvars g)) 1); [lia|reflexivity]).
  rewrite Hbi, (nth_error_nth _ _ fnan Hp). reflexivity.
Qed.

End Stock.
