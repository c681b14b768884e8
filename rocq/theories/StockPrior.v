(** What an optimiser remembers of earlier calls of minimize. *)
From Coq Require Import String List ZArith Bool Lia.
From Verif Require Import PyBase B64 NdArray Eda EdaInv Spec LoopObs LoopThms LoopRel LoopInv LoopFinal Rand Models Inits ModelThms CatThms ModelProps Stock StockInv StockGauss StockCat.
Import ListNotations.
Open Scope nat_scope.

Section Prior.
Context {X W : Type}.
Variable E : env X W.

(** An external learner that fits from scratch: what it knew before makes no difference. *)
Definition refits : Prop := forall k d x x' w,
  match e_xlearn E k d x w, e_xlearn E k d x' w with
  | (Ok _, (y, w1)), (Ok _, (y', w2)) => y = y' /\ w1 = w2
  | (Raise e, (_, w1)), (Raise e', (_, w2)) => e = e' /\ w1 = w2
  | _, _ => False
  end.

(** Two states of the same model. *)
Definition alike (m m' : model X) : Prop :=
  match m, m' with
  | MUniGauss lo p, MUniGauss lo' p' => lo = lo' /\ List.length p = List.length p'
  | MAdapt lo al p, MAdapt lo' al' p' => lo = lo' /\ al = al' /\ List.length p = List.length p'
  | MMulti lo hi p, MMulti lo' hi' p' => lo = lo' /\ hi = hi' /\ List.length (mg_means p) = List.length (mg_means p')
  | MUniBin b, MUniBin b' => ub_n b = ub_n b' /\ ub_lo b = ub_lo b' /\ ub_hi b = ub_hi b'
  | MUniCat t, MUniCat t' => List.length t = List.length t'
  | MExt k n _, MExt k' n' _ => k = k' /\ n = n'
  | _, _ => False
  end.
Definition alike_opt (m m' : option (model X)) : Prop :=
  match m, m' with Some m, Some m' => alike m m' | None, None => True | _, _ => False end.

Lemma alike_refl m : alike m m. Proof. destruct m; cbn; auto. Qed.
Lemma alike_sym m m' : alike m m' -> alike m' m.
Proof. destruct m, m'; cbn; try tauto; intuition congruence. Qed.
Lemma alike_trans m m' m'' : alike m m' -> alike m' m'' -> alike m m''.
Proof. destruct m, m'; cbn; try tauto; destruct m''; cbn; try tauto; intuition congruence. Qed.
Lemma alike_opt_sym m m' : alike_opt m m' -> alike_opt m' m.
Proof. destruct m, m'; cbn; auto. apply alike_sym. Qed.
Lemma alike_opt_trans m m' m'' : alike_opt m m' -> alike_opt m' m'' -> alike_opt m m''.
Proof. destruct m, m', m''; cbn; try tauto. apply alike_trans. Qed.

Lemma means_from_length {T} (o : ops T) col : forall l i, List.length (snd (means_from o col i l)) = List.length l.
Proof.
  induction l as [|a l IH]; intros i; cbn [means_from]; [reflexivity|].
  destruct (col i); [|reflexivity]. specialize (IH (S i)). destruct (means_from o col (S i) l). cbn in *. lia.
Qed.

Lemma learn_alike d m w : alike m (fst (snd (model_learn E d m w))).
Proof.
  destruct m as [lo p|lo al p|lo hi p|b|t|k n x]; cbn [model_learn].
  - unfold unigauss_learn. match goal with |- context [learn_from ?u 0 p] => pose proof (learn_from_length u p 0) as H; destruct (learn_from u 0 p) end. cbn in *. auto.
  - unfold adapt_learn. match goal with |- context [learn_from ?u 0 p] => pose proof (learn_from_length u p 0) as H; destruct (learn_from u 0 p) end. cbn in *. auto.
  - unfold multigauss_learn. pose proof (means_from_length (b64_ops (e_sum E)) (num_col d) (mg_means p) 0) as H.
    destruct (means_from _ _ 0 (mg_means p)) as [[u|e] ms]; cbn in *; [|auto].
    destruct (rmapM _ _) as [cols|e]; [|cbn; auto]. destruct cols as [|c1 [|c2 cols]]; cbn; auto.
  - unfold unibin_learn. destruct (unibin_probs _ _ _); cbn; auto.
  - pose proof (cat_learn_length d t) as H. destruct (cat_learn d t) as [r t']. cbn. symmetry. apply (H r t' eq_refl).
  - destruct (e_xlearn E k d x w) as [r [x' w']]. cbn. auto.
Qed.

Lemma alike_learn d m m' w : refits \/ (forall k n x, m <> MExt k n x) -> alike m m' ->
  match model_learn E d m w, model_learn E d m' w with
  | (Ok _, (q, w1)), (Ok _, (q', w2)) => q = q' /\ w1 = w2
  | (Raise e, (_, w1)), (Raise e', (_, w2)) => e = e' /\ w1 = w2
  | _, _ => False
  end.
Proof.
  intros Hx. destruct (discrete_forgets d) as [FB FC].
  destruct m as [lo p|lo al p|lo hi p|b|t|k n x], m' as [lo' p'|lo' al' p'|lo' hi' p'|b'|t'|k' n' x']; cbn [alike model_learn]; try contradiction.
  - intros [<- H]. pose proof (proj1 (gaussian_forgets _ (b64_ops (e_sum E)) lo lo lo 0 (num_col d)) p p' H) as [F1 F2].
    destruct (unigauss_learn _ lo _ p) as [[[]|e] q], (unigauss_learn _ lo _ p') as [[[]|e'] q']; cbn [fst snd] in *; try discriminate;
      [split; [f_equal; apply F2|]; reflexivity|split; [congruence|reflexivity]].
  - intros (<- & <- & H). pose proof (proj1 (proj2 (gaussian_forgets _ (b64_ops (e_sum E)) lo al lo 0 (num_col d))) p p' H) as [F1 F2].
    destruct (adapt_learn _ lo al _ p) as [[[]|e] q], (adapt_learn _ lo al _ p') as [[[]|e'] q']; cbn [fst snd] in *; try discriminate;
      [split; [f_equal; apply F2|]; reflexivity|split; [congruence|reflexivity]].
  - intros (<- & <- & H). pose proof (proj2 (proj2 (gaussian_forgets _ (b64_ops (e_sum E)) lo lo hi (a_nc d) (num_col d))) p p' H) as [F1 F2].
    destruct (multigauss_learn _ lo hi _ _ p) as [[[]|e] q], (multigauss_learn _ lo hi _ _ p') as [[[]|e'] q']; cbn [fst snd] in *; try discriminate;
      [split; [f_equal; apply F2|]; reflexivity|split; [congruence|reflexivity]].
  - intros (H1 & H2 & H3). destruct (FB b b' H1 H2 H3) as [F1 F2].
    destruct (unibin_learn d b) as [[[]|e] q], (unibin_learn d b') as [[[]|e'] q']; cbn [fst snd] in *; try discriminate;
      [split; [f_equal; apply F2|]; reflexivity|split; [congruence|reflexivity]].
  - intros H. destruct (FC t t' H) as [F1 F2].
    destruct (cat_learn d t) as [[[]|e] q], (cat_learn d t') as [[[]|e'] q']; cbn [fst snd] in *; try discriminate;
      [split; [f_equal; apply F2|]; reflexivity|split; [congruence|reflexivity]].
  - intros [<- <-]. destruct Hx as [Hx|Hx]; [|exfalso; exact (Hx _ _ _ eq_refl)]. specialize (Hx k d x x' w).
    destruct (e_xlearn E k d x w) as [[u|e] [y w1]], (e_xlearn E k d x' w) as [[u'|e'] [y' w2]]; try contradiction;
      [destruct Hx as [<- <-]; auto|exact Hx].
Qed.

(** What neither choosing the data nor learning changes, no run changes. *)
Lemma run_keeps (Q : pmstate X -> Prop) (o : optimiser X) cost a ftol out w r s :
  (forall t e p, Q p -> Q (snd (data_of (op_upd o) t e p))) ->
  (forall d p w, Q p -> Q (fst (snd (h_learn (hooks_of E o cost) d p w)))) ->
  Q (op_st o) -> run_in E a o cost ftol out w = (r, s) -> Q (s_pm s).
Proof.
  intros Hd Hl H0 H.
  assert (L : loop_spec (op_cfg o) (hooks_of E o cost) (fun _ => True) (fun _ => True) (fun _ => True) (fun _ => True) Q
                (fun _ _ => True) (fun _ _ => True) (fun _ => True) (fun _ => True) (fun _ => false = false)).
  { split; auto.
    - destruct (c_init_data (op_cfg o)); [exact I|]. intros w0. destruct (fst _); auto.
    - intros g _. apply Forall_forall. auto.
    - intros x w0 _. destruct (fst _); auto.
    - intros a0 b _ _. destruct (np_concatenate a0 b); auto.
    - intros g sel wn _ _ _ _. destruct (iadd sel wn); auto.
    - intros t e p _ _ Hp. specialize (Hd t e p Hp). cbn [hooks_of h_data]. destruct (data_of (op_upd o) t e p) as [[d|x] q]; auto.
    - intros d p w0 _ Hp. specialize (Hl d p w0 Hp). destruct (h_learn (hooks_of E o cost) d p w0) as [[u|x] [q w1]]; auto.
    - intros d p w0 _ _ _. destruct (fst _); auto. }
  exact (proj1 (run_spec E false o cost _ _ _ _ Q _ _ _ _ a ftol out w r s L H0 H)).
Qed.

Lemma data_pm u t e (p : pmstate X) : ps_pm (snd (data_of u t e p)) = ps_pm p.
Proof. destruct u as [|l]; cbn; [reflexivity|]. destruct (update_archive l e (ps_archive p)). reflexivity. Qed.

Lemma used_alike o0 o : used E o0 o -> alike_opt (ps_pm (op_st o0)) (ps_pm (op_st o)).
Proof.
  apply (used_keeps E (fun p => alike_opt (ps_pm (op_st o0)) (ps_pm p))).
  - intros o1 a cost ftol out w r s _ _ _ H0. apply (run_keeps (fun p => alike_opt (ps_pm (op_st o0)) (ps_pm p))); [| |exact H0].
    + intros t e p. rewrite data_pm. auto.
    + intros d p w0 H. cbn [hooks_of h_learn]. destruct (ps_pm p) as [m|] eqn:Em; [|cbn; rewrite Em; exact H].
      pose proof (learn_alike d m w0) as L. destruct (model_learn E d m w0) as [r0 [m' w']]. cbn in *.
      eapply alike_opt_trans; [exact H|exact L].
  - destruct (ps_pm (op_st o0)); cbn; [apply alike_refl|exact I].
Qed.

Lemma used_archive o0 o : op_upd o0 = FromSelection -> used E o0 o -> ps_archive (op_st o) = ps_archive (op_st o0).
Proof.
  intros Hu. apply (used_keeps E (fun p => ps_archive p = ps_archive (op_st o0))); [|reflexivity].
  intros o1 a cost ftol out w r s _ _ Hu1 H0. apply (run_keeps (fun p => ps_archive p = ps_archive (op_st o0))); [| |exact H0].
  - intros t e p. rewrite Hu1, Hu. auto.
  - intros d p w0 H. cbn [hooks_of h_learn]. destruct (ps_pm p) as [m|]; [|exact H].
    destruct (model_learn E d m w0) as [r0 [m' w']]. exact H.
Qed.

Lemma alike_class m m' : alike m m' -> model_class m = model_class m'.
Proof. destruct m, m'; cbn; try tauto. Qed.

(** The archive is all an optimiser remembers. *)
Lemma same_archive_same_run o0 o1 o2 a1 a2 cost ftol out w :
  used E o0 o1 -> used E o0 o2 ->
  refits \/ (forall k n x, ps_pm (op_st o0) <> Some (MExt k n x)) ->
  ps_archive (op_st o1) = ps_archive (op_st o2) ->
  let (r1, s1) := run_in E a1 o1 cost ftol out w in
  let (r2, s2) := run_in E a2 o2 cost ftol out w in
  r1 = r2 /\ s_w s1 = s_w s2 /\ s_tr s1 = s_tr s2 /\ (is_ok r1 = true -> s_obj s1 = s_obj s2).
Proof.
  intros U1 U2 Hx Ha.
  destruct (used_setup _ _ _ U1) as (C1 & I1 & P1 & X1). destruct (used_setup _ _ _ U2) as (C2 & I2 & P2 & X2).
  pose proof (used_alike _ _ U1) as A1. pose proof (used_alike _ _ U2) as A2.
  assert (A : alike_opt (ps_pm (op_st o1)) (ps_pm (op_st o2))) by (eapply alike_opt_trans; [apply alike_opt_sym, A1|exact A2]).
  assert (Hx1 : refits \/ (forall k n x, ps_pm (op_st o1) <> Some (MExt k n x))).
  { destruct Hx as [Hx|Hx]; [left; exact Hx|right]. intros k n x Em. rewrite Em in A1.
    destruct (ps_pm (op_st o0)) as [[]|]; cbn in A1; try contradiction. exact (Hx _ _ _ eq_refl). }
  assert (Hh : hooks_of E o2 cost = hooks_of E o1 cost).
  { unfold hooks_of. rewrite C1, C2, I1, I2, P1, P2. f_equal. unfold export. rewrite C1, C2, I1, I2, X1, X2.
    destruct (op_exp o0); [reflexivity|]. destruct (ps_pm (op_st o1)), (ps_pm (op_st o2)); cbn in A; try contradiction; [|reflexivity].
    rewrite (alike_class _ _ A). reflexivity. }
  unfold run_in. rewrite Hh. replace (op_cfg o2) with (op_cfg o1) by congruence.
  apply (prior_state_again (op_cfg o1) (hooks_of E o1 cost) ftol out (mkSt a1 (op_st o1) w []) (mkSt a2 (op_st o2) w [])); try reflexivity.
  cbn [s_pm]. intros g e. cbn [hooks_of h_data].
  assert (F : forall p p', ps_archive p = ps_archive p' -> alike_opt (ps_pm p) (ps_pm p') ->
                refits \/ (forall k n x, ps_pm p <> Some (MExt k n x)) -> forgetful (hooks_of E o1 cost) p p').
  { intros p p' Hp Hm Hx0 d w0. cbn [hooks_of h_learn]. destruct (ps_pm p) as [m|], (ps_pm p') as [m'|]; cbn in Hm; try contradiction; [|auto].
    assert (Hm0 : refits \/ (forall k n x, m <> MExt k n x)) by (destruct Hx0 as [Hx0|Hx0]; [auto|right; intros k n x ->; exact (Hx0 _ _ _ eq_refl)]).
    pose proof (alike_learn d m m' w0 Hm0 Hm) as L.
    destruct (model_learn E d m w0) as [[u|x] [q w1]], (model_learn E d m' w0) as [[u'|x'] [q' w2]]; try contradiction;
      [destruct L as [<- <-]; rewrite Hp; auto|exact L]. }
  destruct (op_upd o1) as [|l]; cbn [data_of].
  - split; [reflexivity|]. apply F; assumption.
  - rewrite Ha. destruct (update_archive l e (ps_archive (op_st o2))) as [[d|x] b]; [|reflexivity].
    split; [reflexivity|]. apply F; cbn [ps_pm ps_archive]; auto.
Qed.

(** Algorithms without an archive remember nothing. *)
Lemma no_archive_no_memory o0 o1 o2 a1 a2 cost ftol out w :
  op_upd o0 = FromSelection ->
  used E o0 o1 -> used E o0 o2 ->
  refits \/ (forall k n x, ps_pm (op_st o0) <> Some (MExt k n x)) ->
  let (r1, s1) := run_in E a1 o1 cost ftol out w in
  let (r2, s2) := run_in E a2 o2 cost ftol out w in
  r1 = r2 /\ s_w s1 = s_w s2 /\ s_tr s1 = s_tr s2 /\ (is_ok r1 = true -> s_obj s1 = s_obj s2).
Proof.
  intros Hu U1 U2 Hx. eapply same_archive_same_run; try eassumption.
  rewrite (used_archive _ _ Hu U1), (used_archive _ _ Hu U2). reflexivity.
Qed.

End Prior.
