(** A run whose generations and data sets all pass a check is also a run of the program that
    performs the check. *)
From Coq Require Import String List ZArith Bool Lia.
From Verif Require Import PyBase B64 NdArray Eda.
Import ListNotations.
Open Scope nat_scope.

Section Guard.
Context {S W : Type}.
Variables (okg okd : arr -> bool).

(** Raise unless the array passes the check. *)
Definition guard {A} (ok : arr -> bool) (x : res arr * A) : res arr * A :=
  match x with (Ok a, w) => if ok a then (Ok a, w) else (Raise ValueError, w) | _ => x end.
Definition guarded (h : hooks S W) : hooks S W :=
  mkHooks (h_argsort h) (h_cost h) (h_pool h) (h_normal h) (fun w => guard okg (h_init h w)) (h_data h)
          (fun d p w => if okd d then h_learn h d p w else (Raise ValueError, (p, w))) (fun p w => guard okg (h_sample h p w)) (h_settings h).
(** Every generation evaluated passes [okg], every data set learnt passes [okd]. *)
Definition passes (e : ev) : Prop :=
  match e with EvGen g _ _ => okg g = true | EvLearn d => okd d = true | _ => True end.

Local Notation M := (M S W).
Definition longer {A} (m : M A) : Prop := forall s a t, m s = (Ok a, t) -> exists l, s_tr t = s_tr s ++ l.
Definition follows {A} (m m2 : M A) : Prop :=
  forall s a t, m s = (Ok a, t) -> (exists l, s_tr t = s_tr s ++ l) /\ (Forall passes (s_tr t) -> m2 s = (Ok a, t)).

Lemma follows_same {A} (m : M A) : longer m -> follows m m.
Proof. intros H s a t E. split; [exact (H s a t E)|]. intros _. exact E. Qed.
Lemma follows_longer {A} (m m2 : M A) : follows m m2 -> longer m.
Proof. intros H s a t E. apply (H s a t E). Qed.
Lemma follows_eq {A} (m m2 n n2 : M A) : (forall s, n s = m s) -> (forall s, n2 s = m2 s) -> follows m m2 -> follows n n2.
Proof. intros E1 E2 H s a t E. rewrite E1 in E. rewrite E2. apply H, E. Qed.
Lemma follows_bind {A B} (m m2 : M A) (f f2 : A -> M B) : follows m m2 -> (forall a, follows (f a) (f2 a)) -> follows (mbind m f) (mbind m2 f2).
Proof.
  intros Hm Hf s b t E. unfold mbind in E. destruct (m s) as [[a|x] t1] eqn:E1; [|discriminate].
  destruct (Hm s a t1 E1) as [[l1 L1] G1]. destruct (Hf a t1 b t E) as [[l2 L2] G2]. split.
  - exists (l1 ++ l2). rewrite L2, L1, app_assoc. reflexivity.
  - intros H. unfold mbind. rewrite G1; [exact (G2 H)|]. rewrite L2 in H. apply Forall_app in H. apply H.
Qed.
Lemma longer_bind {A B} (m : M A) (f : A -> M B) : longer m -> (forall a, longer (f a)) -> longer (mbind m f).
Proof. intros Hm Hf. apply (follows_longer _ (mbind m f)). apply follows_bind; [apply follows_same, Hm|]. intros a. apply follows_same, Hf. Qed.
Lemma longer_ret {A} (a : A) : longer (mret a).
Proof. intros s b t E. injection E as <- <-. exists []. rewrite app_nil_r. reflexivity. Qed.
Lemma longer_lift {A} (r : res A) : longer (mlift r).
Proof. intros s b t E. unfold mlift in E. injection E as _ <-. exists []. rewrite app_nil_r. reflexivity. Qed.
Lemma longer_raise {A} e : longer (mraise e : M A).
Proof. intros s b t E. discriminate E. Qed.
Lemma longer_get : longer (get_obj : M obj).
Proof. intros s b t E. injection E as _ <-. exists []. rewrite app_nil_r. reflexivity. Qed.
Lemma longer_put o : longer (put_obj o : M unit).
Proof. intros s b t E. injection E as _ <-. exists []. cbn. rewrite app_nil_r. reflexivity. Qed.
Lemma longer_log e : longer (log e : M unit).
Proof. intros s b t E. injection E as _ <-. exists [e]. reflexivity. Qed.
Lemma longer_world {A} (f : W -> res A * W) : longer (with_world f : M A).
Proof. intros s b t E. unfold with_world in E. destruct (f (s_w s)) as [r w]. injection E as _ <-. exists []. cbn. rewrite app_nil_r. reflexivity. Qed.
Lemma longer_set g : longer (set_gen g : M unit).
Proof. apply longer_bind; [apply longer_get|]. intros o. apply longer_put. Qed.

Variables (c : cfg) (h : hooks S W).
Local Notation h2 := (guarded h).

Lemma longer_rows rs : longer (call_rows h rs).
Proof.
  induction rs as [|r rs IH]; cbn [call_rows]; [apply longer_ret|]. apply longer_bind.
  - apply longer_bind; [apply longer_world|]. intros v. apply longer_bind; [apply longer_log|]. intros _. apply longer_ret.
  - intros v. apply longer_bind; [exact IH|]. intros vs. apply longer_ret.
Qed.
Lemma longer_apply rs : longer (apply_rows h rs).
Proof.
  unfold apply_rows. destruct rs as [|r rs]; [apply longer_raise|]. apply longer_bind; [apply longer_rows|]. intros vs. apply longer_ret.
Qed.
Lemma longer_parallel rs : longer (parallel_rows h rs).
Proof.
  intros s a t E. unfold parallel_rows in E. destruct (run_chunks h 0 _ _ _ _) as [results tr].
  destruct (failures results); [|discriminate E]. injection E as _ <-. exists tr. reflexivity.
Qed.
Lemma check_logs s a t : check_generation c h s = (Ok a, t) ->
  exists l vs xs, s_tr t = s_tr s ++ l ++ [EvGen (o_gen (s_obj s)) vs xs].
Proof.
  intros E. unfold check_generation, get_obj in E. unfold mbind at 1 in E. cbv beta iota in E. unfold mbind at 1 in E.
  assert (L : longer (if c_parallelize c then parallel_rows h (a_rows (o_gen (s_obj s))) else apply_rows h (a_rows (o_gen (s_obj s)))))
    by (destruct (c_parallelize c); [apply longer_parallel|apply longer_apply]).
  destruct ((if c_parallelize c then parallel_rows h (a_rows (o_gen (s_obj s))) else apply_rows h (a_rows (o_gen (s_obj s)))) s) as [[rv|x] t1] eqn:E1;
    [|discriminate E].
  destruct (L s rv t1 E1) as [l Hl]. unfold mbind, put_obj, log in E. injection E as _ <-. cbn [s_tr].
  exists l, (fst rv), (snd rv). rewrite Hl, <- app_assoc. reflexivity.
Qed.
Lemma longer_check : longer (check_generation c h).
Proof. intros s a t E. destruct (check_logs s a t E) as (l & vs & xs & Hl). eexists. exact Hl. Qed.

(** An array that becomes the generation and is evaluated. *)
Lemma follows_checked {B} (m m2 : M arr) (K K2 : M B) :
  (forall s g t, m s = (Ok g, t) -> s_tr t = s_tr s /\ (okg g = true -> m2 s = (Ok g, t))) -> follows K K2 ->
  follows (mbind m (fun g => mbind (set_gen g) (fun _ => mbind (check_generation c h) (fun _ => K))))
          (mbind m2 (fun g => mbind (set_gen g) (fun _ => mbind (check_generation c h2) (fun _ => K2)))).
Proof.
  intros Hm HK s b t E. unfold mbind at 1 in E. destruct (m s) as [[g|x] t1] eqn:E1; [|discriminate].
  destruct (Hm s g t1 E1) as [L1 G1].
  unfold set_gen, get_obj, put_obj in E. unfold mbind at 1 2 in E. cbv beta iota in E.
  set (t2 := mkSt _ (s_pm t1) (s_w t1) (s_tr t1)) in E. unfold mbind in E.
  destruct (check_generation c h t2) as [[u|x] t3] eqn:E3; [|discriminate].
  destruct (check_logs t2 u t3 E3) as (l & vs & xs & L3). destruct (HK t3 b t E) as [[l4 L4] G4].
  change (s_tr t2) with (s_tr t1) in L3. change (o_gen (s_obj t2)) with g in L3. split.
  - eexists. rewrite L4, L3, L1, <- app_assoc. reflexivity.
  - intros H. pose proof H as H'. rewrite L4 in H'. apply Forall_app in H'. destruct H' as [H' _]. rewrite L3 in H'.
    apply Forall_app in H'. destruct H' as [_ H']. apply Forall_app in H'. destruct H' as [_ H']. inversion H' as [|? ? P _]; subst. cbn [passes] in P.
    unfold mbind at 1. rewrite (G1 P). unfold set_gen, get_obj, put_obj. unfold mbind at 1 2. cbv beta iota.
    unfold mbind. change (check_generation c h2) with (check_generation c h). fold t2. rewrite E3. exact (G4 H).
Qed.

Lemma follows_print b p : follows (print_if b p : M unit) (print_if b p).
Proof.
  apply follows_same. unfold print_if. destruct b; [|apply longer_ret]. apply longer_bind; [apply longer_get|]. intros o. apply longer_log.
Qed.
Lemma follows_update : follows (update_pm h) (update_pm h2).
Proof.
  intros s a t E. unfold update_pm, get_obj in E |- *. unfold mbind at 1 in E. cbv beta iota in E. unfold mbind at 1 in E. cbv beta iota in E.
  destruct (h_data h (o_gen (s_obj s)) (o_elite (s_obj s)) (s_pm s)) as [[d|x] p] eqn:Ed; [|discriminate E].
  unfold mbind, log in E. cbn [s_obj s_pm s_w s_tr] in E. destruct (h_learn h d p (s_w s)) as [r [p' w']] eqn:El. injection E as -> <-. cbn [s_tr]. split.
  - eexists. reflexivity.
  - intros H. apply Forall_app in H. destruct H as [_ H]. inversion H as [|? ? P _]; subst. cbn [passes] in P.
    unfold mbind at 1. cbv beta iota. unfold mbind at 1. cbn [guarded h_data h_learn]. rewrite Ed.
    unfold mbind, log. cbn [s_obj s_pm s_w s_tr]. rewrite P, El. reflexivity.
Qed.
Lemma longer_noise : longer (draw_noise c h).
Proof.
  unfold draw_noise. destruct (py_eq_int (c_w_noise c) 0); [apply longer_ret|]. destruct (py_eq_int (c_w_noise c) (-1)); [apply longer_ret|].
  cbv zeta. match goal with |- context [if ?b then mraise ValueError else _] => destruct b end; [apply longer_raise|].
  apply longer_bind; [|intros d; apply longer_ret].
  intros s b t E. destruct (h_normal h (num_to_f (c_w_noise c)) (s_w s)) as [r w]. injection E as _ <-. exists []. cbn. rewrite app_nil_r. reflexivity.
Qed.
Ltac grow := repeat (apply longer_bind; [first [apply longer_get|apply longer_lift|apply longer_put|apply longer_log|apply longer_set]|intros ?]);
             first [apply longer_get|apply longer_lift|apply longer_put|apply longer_log|apply longer_set|apply longer_ret].
Lemma longer_truncation : longer (truncation c h).
Proof. unfold truncation. cbv zeta. grow. Qed.
Lemma follows_iteration ftol wn : follows (iteration c h ftol wn) (iteration c h2 ftol wn).
Proof.
  unfold iteration. change (truncation c h2) with (truncation c h). apply follows_bind; [apply follows_same, longer_truncation|]. intros _.
  apply follows_bind; [apply follows_same, longer_get|]. intros o1. apply follows_bind; [apply follows_same, longer_lift|]. intros gen1.
  apply follows_bind; [apply follows_same, longer_set|]. intros _. apply follows_bind; [apply follows_update|]. intros _.
  set (K := mbind (get_obj (S := S) (W := W)) _).
  set (m := fun s : st S W => let (r, w') := h_sample h (s_pm s) (s_w s) in (r, mkSt (s_obj s) (s_pm s) w' (s_tr s))).
  set (m2 := fun s : st S W => let (r, w') := h_sample h2 (s_pm s) (s_w s) in (r, mkSt (s_obj s) (s_pm s) w' (s_tr s))).
  eapply follows_eq; [| |apply (follows_checked m m2 K K)].
  - intros s. unfold new_generation. fold m. unfold mbind. destruct (m s) as [[g|x] t]; reflexivity.
  - intros s. unfold new_generation. fold m2. unfold mbind. destruct (m2 s) as [[g|x] t]; reflexivity.
  - intros s g t E. unfold m, m2 in *. cbn [guarded h_sample]. destruct (h_sample h (s_pm s) (s_w s)) as [r w]. injection E as -> <-.
    split; [reflexivity|]. intros P. cbn [guard]. rewrite P. reflexivity.
  - apply follows_same. unfold K. apply longer_bind; [apply longer_get|]. intros o. do 3 (apply longer_bind; [apply longer_lift|intros ?]).
    destruct (accept _ _ _); grow.
Qed.
Lemma follows_loop ftol out wn n : forall it hist nb, follows (loop c h ftol out wn n it hist nb) (loop c h2 ftol out wn n it hist nb).
Proof.
  induction n as [|n IH]; intros it hist nb; cbn [loop]; [apply follows_same, longer_ret|].
  apply follows_bind; [apply follows_iteration|]. intros [b acc]. cbv zeta. destruct (snd (b, acc)).
  - apply follows_bind; [apply follows_print|]. intros _. apply IH.
  - destruct (Z.eqb (nb + 1) (c_dead_iter c)); [apply follows_same, longer_ret|].
    apply follows_bind; [apply follows_print|]. intros _. apply IH.
Qed.
Lemma follows_first : follows (first_generation c h) (first_generation c h2).
Proof.
  unfold first_generation. set (K := mbind (get_obj (S := S) (W := W)) _).
  apply (follows_checked (initialize_generation c h) (initialize_generation c h2) K K).
  - intros s g t E. unfold initialize_generation in *. destruct (c_init_data c) as [d|].
    + injection E as <- <-. split; reflexivity.
    + unfold with_world in *. cbn [guarded h_init]. destruct (h_init h (s_w s)) as [r w]. injection E as -> <-.
      split; [reflexivity|]. intros P. cbn [guard]. rewrite P. reflexivity.
  - apply follows_same. unfold K. grow.
Qed.
Lemma follows_minimize ftol out : follows (minimize c h ftol out) (minimize c h2 ftol out).
Proof.
  unfold minimize. apply follows_bind; [apply follows_first|]. intros best0. change (draw_noise c h2) with (draw_noise c h).
  apply follows_bind; [apply follows_same, longer_noise|]. intros wn. apply follows_bind; [apply follows_print|]. intros _.
  apply follows_bind; [apply follows_loop|]. intros hist. cbv zeta. apply follows_bind; [apply follows_print|]. intros _.
  apply follows_same. grow.
Qed.
Lemma guard_run ftol out s r t : minimize c h ftol out s = (Ok r, t) -> Forall passes (s_tr t) -> minimize c h2 ftol out s = (Ok r, t).
Proof. intros E. apply (follows_minimize ftol out s r t E). Qed.
End Guard.
