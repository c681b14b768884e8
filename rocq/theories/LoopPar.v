(** Whole runs with and without parallel evaluation. *)
From Coq Require Import String List ZArith Bool Lia.
From Verif Require Import PyBase B64 NdArray Eda EdaInv Spec LoopRel LoopAny.
Import ListNotations.
Open Scope nat_scope.

(** The configuration with another value of the [parallelize] option, and the hooks with
    another settings dictionary. *)
Definition set_parallelize (b : bool) (c : cfg) : cfg :=
  mkCfg (c_size_gen c) (c_max_iter c) (c_dead_iter c) (c_nvars c) (c_alpha c) (c_elite_factor c)
        (c_disp c) b (c_init_data c) (c_w_noise c) (c_trunc_len c) (c_elite_len c).

Section Par.
Context {S W : Type}.
Local Notation st := (st S W).
Local Notation M := (M S W).

Definition set_settings (d : dict) (h : hooks S W) : hooks S W :=
  {| h_argsort := h_argsort h; h_cost := h_cost h; h_pool := h_pool h; h_normal := h_normal h;
     h_init := h_init h; h_data := h_data h; h_learn := h_learn h; h_sample := h_sample h;
     h_settings := d |}.

(** Every generation the run can produce has at least [n] individuals. *)
Definition generations_at_least (n : nat) (c : cfg) (h : hooks S W) : Prop :=
  match c_init_data c with
  | Some d => n <= List.length (a_rows d)
  | None => forall w g w', h_init h w = (Ok g, w') -> n <= List.length (a_rows g)
  end /\
  (forall p w g w', h_sample h p w = (Ok g, w') -> n <= List.length (a_rows g)).

Variable c : cfg.
Variable h : hooks S W.
Variable f : row -> num.
Hypothesis Hf : forall r w, h_cost h r w = (Ok (f r), w).
Hypothesis Hkind : (forall r, exists x, f r = NF x) \/ (forall r, exists z, f r = NI z).
Hypothesis Hsize : generations_at_least (cpu_count (h_pool h)) c h.

Let big (s : st) : Prop := cpu_count (h_pool h) <= List.length (a_rows (o_gen (s_obj s))).
Let any (s : st) : Prop := True.

Definition agree {A} (P : st -> Prop) (m m' : M A) (Q : st -> Prop) : Prop :=
  forall s, P s -> m s = m' s /\ (forall a s', m s = (Ok a, s') -> Q s').

Lemma agree_bind {A B} P R Q (m m' : M A) (k k' : A -> M B) :
  agree P m m' R -> (forall a, agree R (k a) (k' a) Q) -> agree P (mbind m k) (mbind m' k') Q.
Proof.
  intros Hm Hk s Hs. destruct (Hm s Hs) as [E HR]. unfold mbind. rewrite <- E.
  destruct (m s) as [[a|e] s1].
  - apply Hk. apply (HR a). reflexivity.
  - split; [reflexivity|]. discriminate.
Qed.

Lemma agree_refl {A} P (m : M A) : agree P m m any.
Proof. intros s _. split; [reflexivity|]. intros a s' _. exact I. Qed.

Lemma agree_any {A} (P Q : st -> Prop) (m m' : M A) : agree any m m' Q -> agree P m m' Q.
Proof. intros H s _. apply H. exact I. Qed.

Lemma agree_check b b' : agree big (check_generation (set_parallelize b c) h) (check_generation (set_parallelize b' c) h) any.
Proof.
  intros s Hs. split; [|intros; exact I]. unfold check_generation, mbind, get_obj. cbn [c_parallelize set_parallelize].
  assert (Hp : parallel_rows h (a_rows (o_gen (s_obj s))) s = apply_rows h (a_rows (o_gen (s_obj s))) s).
  { apply parallel_serial_lemma with (f := f); [exact Hf| |exact Hs].
    destruct Hkind as [Hk|Hk]; [left|right]; intros r _; apply Hk. }
  destruct b, b'; rewrite ?Hp; reflexivity.
Qed.

Lemma agree_iteration b b' ftol wn :
  agree any (iteration (set_parallelize b c) h ftol wn) (iteration (set_parallelize b' c) h ftol wn) any.
Proof.
  unfold iteration.
  eapply agree_bind with (R := any); [apply agree_refl|]. intros _.
  eapply agree_bind with (R := any); [apply agree_refl|]. intros o1.
  eapply agree_bind with (R := any); [apply agree_refl|]. intros g1.
  eapply agree_bind with (R := any); [apply agree_refl|]. intros _.
  eapply agree_bind with (R := any); [apply agree_refl|]. intros _.
  eapply agree_bind with (R := big).
  - intros s _. split; [reflexivity|]. intros a s' H. apply new_generation_ok in H as (g & w & Hg & ->).
    unfold big. cbn. eapply Hsize. exact Hg.
  - intros _. eapply agree_bind with (R := any); [apply agree_check|]. intros _. apply agree_refl.
Qed.

Lemma agree_loop b b' ftol out wn n : forall it hist nb,
  agree any (loop (set_parallelize b c) h ftol out wn n it hist nb)
            (loop (set_parallelize b' c) h ftol out wn n it hist nb) any.
Proof.
  induction n as [|n IH]; intros it hist nb; cbn [loop]; [apply agree_refl|].
  eapply agree_bind with (R := any); [apply agree_iteration|]. intros [v acc]. cbn [fst snd]. cbv zeta.
  cbn [c_dead_iter set_parallelize]. destruct acc.
  - eapply agree_bind with (R := any); [apply agree_refl|]. intros _. apply IH.
  - destruct (Z.eqb (nb + 1) (c_dead_iter c)).
    + apply agree_refl.
    + eapply agree_bind with (R := any); [apply agree_refl|]. intros _. apply IH.
Qed.

Definition sized (g : arr) : Prop := cpu_count (h_pool h) <= List.length (a_rows g).

Lemma agree_bind_val {A B} (P : st -> Prop) (R : A -> Prop) Q (m : M A) (k k' : A -> M B) :
  (forall s a s', P s -> m s = (Ok a, s') -> R a) ->
  (forall a, R a -> agree any (k a) (k' a) Q) -> agree P (mbind m k) (mbind m k') Q.
Proof.
  intros Hm Hk s Hs. unfold mbind. specialize (Hm s).
  destruct (m s) as [[a|e] s1].
  - apply Hk; [|exact I]. eapply Hm; [exact Hs|reflexivity].
  - split; [reflexivity|]. discriminate.
Qed.

Lemma agree_first b b' :
  agree any (first_generation (set_parallelize b c) h) (first_generation (set_parallelize b' c) h) any.
Proof.
  unfold first_generation.
  change (initialize_generation (set_parallelize b' c) h) with (initialize_generation (set_parallelize b c) h).
  apply agree_bind_val with (R := sized).
  - intros s g s1 _ Hi. unfold initialize_generation in Hi. cbn [c_init_data set_parallelize] in Hi.
    destruct Hsize as [Hs _]. unfold sized.
    destruct (c_init_data c) as [d|]; [apply mret_ok in Hi as [-> _]; exact Hs|].
    unfold with_world in Hi. destruct (h_init h (s_w s)) as [r w] eqn:Hw. injection Hi as -> _.
    eapply Hs. exact Hw.
  - intros g Hg. eapply agree_bind with (R := big).
    + intros t _. split; [reflexivity|]. intros a t' Ht. apply set_gen_ok in Ht as ->. exact Hg.
    + intros _. eapply agree_bind with (R := any); [apply agree_check|]. intros _. apply agree_refl.
Qed.

Lemma parallel_run_lemma b b' ftol out (s : st) :
  minimize (set_parallelize b c) h ftol out s = minimize (set_parallelize b' c) h ftol out s.
Proof.
  enough (H : agree any (minimize (set_parallelize b c) h ftol out) (minimize (set_parallelize b' c) h ftol out) any)
    by (apply H; exact I).
  unfold minimize.
  eapply agree_bind with (R := any); [apply agree_first|]. intros b0.
  eapply agree_bind with (R := any); [apply agree_refl|]. intros wn.
  eapply agree_bind with (R := any); [apply agree_refl|]. intros _.
  eapply agree_bind with (R := any); [apply agree_loop|]. intros hist. apply agree_refl.
Qed.

End Par.

(** The settings dictionary influences nothing but the settings reported. *)
Section Settings.
Context {S W : Type}.
Definition with_settings (d : dict) (r : result) : result :=
  mkResult (r_best_ind r) (r_best_cost r) (r_nfev r) (r_history r) d.

Lemma settings_lemma (c : cfg) (h : hooks S W) d ftol out s :
  minimize c (set_settings d h) ftol out s =
  (let (r, s') := minimize c h ftol out s in (rmap (with_settings d) r, s')).
Proof.
  unfold minimize.
  change (first_generation c (set_settings d h)) with (first_generation c h).
  change (draw_noise c (set_settings d h)) with (draw_noise c h).
  unfold mbind. destruct (first_generation c h s) as [[b0|e] s1]; [|reflexivity].
  destruct (draw_noise c h s1) as [[wn|e] s2]; [|reflexivity].
  destruct (print_if out _ s2) as [[u|e] s3]; [|reflexivity].
  assert (Hl : forall n it hist nb t, loop c (set_settings d h) ftol out wn n it hist nb t = loop c h ftol out wn n it hist nb t).
  { induction n as [|n IH]; intros it hist nb t; [reflexivity|]. cbn [loop].
    change (iteration c (set_settings d h) ftol wn) with (iteration c h ftol wn). unfold mbind.
    destruct (iteration c h ftol wn t) as [[[v acc]|e] t1]; [|reflexivity]. cbn [fst snd].
    destruct acc.
    - destruct (print_if out _ t1) as [[u'|e] t2]; [apply IH|reflexivity].
    - destruct (Z.eqb _ _); [reflexivity|]. destruct (print_if out _ t1) as [[u'|e] t2]; [apply IH|reflexivity]. }
  rewrite Hl. destruct (loop c h ftol out wn _ _ _ _ s3) as [[hist|e] s4]; [|reflexivity].
  destruct (print_if (c_disp c) _ s4) as [[u'|e] s5]; reflexivity.
Qed.
End Settings.
