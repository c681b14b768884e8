(** Exceptions raised by the code that the optimiser calls. *)
From Coq Require Import String List ZArith Bool Lia.
From Verif Require Import PyBase B64 NdArray Eda EdaInv Spec LoopThms Demo.
Import ListNotations.
Open Scope nat_scope.

(** A world that remembers the exceptions of failed calls: every call made while nothing
    has failed leaves nothing failed if it returns, and its exception if it raises.  Nothing is
    said about calls made after a failure. *)
Definition remembers {S W} (failed : W -> list exn) (h : hooks S W) : Prop :=
  (forall r w, failed w = [] -> failed (snd (h_cost h r w)) = match fst (h_cost h r w) with Ok _ => [] | Raise e => [e] end) /\
  (forall w, failed w = [] -> failed (snd (h_init h w)) = match fst (h_init h w) with Ok _ => [] | Raise e => [e] end) /\
  (forall d p w, failed w = [] ->
     failed (snd (snd (h_learn h d p w))) = match fst (h_learn h d p w) with Ok _ => [] | Raise e => [e] end) /\
  (forall p w, failed w = [] -> failed (snd (h_sample h p w)) = match fst (h_sample h p w) with Ok _ => [] | Raise e => [e] end) /\
  (forall x w, failed w = [] -> failed (snd (h_normal h x w)) = []).

(** Any hooks can be given such a world. *)
Definition noting {A W} (f : W -> res A * W) (w : W * list exn) : res A * (W * list exn) :=
  let (r, w') := f (fst w) in (r, (w', match r with Ok _ => snd w | Raise e => snd w ++ [e] end)).
Definition watched {S W} (h : hooks S W) : hooks S (W * list exn) := {|
  h_argsort := h_argsort h;
  h_cost := fun r => noting (h_cost h r);
  h_pool := h_pool h;
  h_normal := fun x w => let (d, w') := h_normal h x (fst w) in (d, (w', snd w));
  h_init := noting (h_init h);
  h_data := h_data h;
  h_learn := fun d p w => match h_learn h d p (fst w) with
                          | (r, (p', w')) => (r, (p', (w', match r with Ok _ => snd w | Raise e => snd w ++ [e] end)))
                          end;
  h_sample := fun p => noting (h_sample h p);
  h_settings := h_settings h
|}.
Lemma watched_remembers {S W} (h : hooks S W) : remembers snd (watched h).
Proof.
  assert (HN : forall (A : Type) (f : W -> res A * W) (w : W * list exn), snd w = [] ->
    snd (snd (noting f w)) = match fst (noting f w) with Ok _ => [] | Raise e => [e] end).
  { intros A f [w l] H. unfold noting. cbn [fst snd] in *. subst l. destruct (f w) as [[a|e] w']; reflexivity. }
  split; [intros r w; apply HN|]. split; [intros w; apply HN|]. split; [|split; [intros p w; apply HN|]].
  - intros d p [w l] H. cbn [watched h_learn fst snd] in *. subst l. destruct (h_learn h d p w) as [[u|e] [p' w']]; reflexivity.
  - intros x [w l] H. cbn [watched h_normal fst snd] in *. destruct (h_normal h x w). exact H.
Qed.

Section Watch.
Context {S W : Type}.
Variables (c : cfg) (h : hooks S W) (failed : W -> list exn).
Hypothesis Hrem : remembers failed h.
Hypothesis Hseq : c_parallelize c = false.
Local Notation st := (st S W).
Local Notation M := (M S W).

Definition unfailed (s : st) : Prop := failed (s_w s) = [].
Definition passes {A} (m : M A) : Prop :=
  forall s, unfailed s -> match m s with
                          | (Ok _, t) => unfailed t
                          | (Raise e, t) => unfailed t \/ failed (s_w t) = [e]
                          end.
Lemma passes_bind {A B} (m : M A) (f : A -> M B) : passes m -> (forall a, passes (f a)) -> passes (mbind m f).
Proof.
  intros Hm Hf s Hs. unfold mbind. specialize (Hm s Hs). destruct (m s) as [[a|e] t]; [apply Hf, Hm|exact Hm].
Qed.
Lemma passes_ret {A} (a : A) : passes (mret a). Proof. intros s H. exact H. Qed.
Lemma passes_lift {A} (r : res A) : passes (mlift r). Proof. intros s H. unfold mlift. destruct r; [exact H|left; exact H]. Qed.
Lemma passes_raise {A} e : passes (A:=A) (mraise e). Proof. intros s H. left. exact H. Qed.
Lemma passes_get : passes get_obj. Proof. intros s H. exact H. Qed.
Lemma passes_put o : passes (put_obj o). Proof. intros s H. exact H. Qed.
Lemma passes_log e : passes (log e). Proof. intros s H. exact H. Qed.
Lemma passes_world {A} (f : W -> res A * W) :
  (forall w, failed w = [] -> failed (snd (f w)) = match fst (f w) with Ok _ => [] | Raise e => [e] end) ->
  passes (with_world f).
Proof.
  intros Hf s H. unfold with_world. specialize (Hf _ H). destruct (f (s_w s)) as [[a|e] w]; cbn [fst snd] in Hf; [exact Hf|right; exact Hf].
Qed.
Lemma passes_set g : passes (set_gen g).
Proof. apply passes_bind; [apply passes_get|]. intros o. apply passes_put. Qed.
Lemma passes_call_rows rs : passes (call_rows h rs).
Proof.
  induction rs as [|r rs IH]; cbn [call_rows]; [apply passes_ret|].
  apply passes_bind; [|intros v; apply passes_bind; [exact IH|]; intros vs; apply passes_ret].
  unfold call1. apply passes_bind; [apply passes_world; intros w; apply Hrem|]. intros v.
  apply passes_bind; [apply passes_log|]. intros _. apply passes_ret.
Qed.
Lemma passes_check : passes (check_generation c h).
Proof.
  unfold check_generation. rewrite Hseq. apply passes_bind; [apply passes_get|]. intros o.
  apply passes_bind.
  - unfold apply_rows. destruct (a_rows (o_gen o)); [apply passes_raise|]. apply passes_bind; [apply passes_call_rows|]. intros vs. apply passes_ret.
  - intros rv. apply passes_bind; [apply passes_put|]. intros _. apply passes_log.
Qed.
Lemma passes_truncation : passes (truncation c h).
Proof.
  unfold truncation. apply passes_bind; [apply passes_get|]. intros o. cbv zeta.
  do 5 (apply passes_bind; [apply passes_lift|]; intros ?).
  apply passes_bind; [apply passes_put|]. intros _. apply passes_log.
Qed.
Lemma passes_noise : passes (draw_noise c h).
Proof.
  unfold draw_noise. destruct (py_eq_int (c_w_noise c) 0); [apply passes_ret|].
  destruct (py_eq_int (c_w_noise c) (-1)); [apply passes_ret|].
  destruct (_ || _ || _)%bool; [apply passes_raise|]. apply passes_bind; [|intros d; apply passes_ret].
  intros s H. destruct Hrem as (_ & _ & _ & _ & Hn). specialize (Hn (num_to_f (c_w_noise c)) _ H).
  destruct (h_normal h (num_to_f (c_w_noise c)) (s_w s)) as [d w]. exact Hn.
Qed.
Lemma passes_update : passes (update_pm h).
Proof.
  unfold update_pm. apply passes_bind; [apply passes_get|]. intros o. apply passes_bind.
  - intros s H. destruct (h_data h (o_gen o) (o_elite o) (s_pm s)) as [[a|e] p]; [exact H|left; exact H].
  - intros d. apply passes_bind; [apply passes_log|]. intros _ s H. destruct Hrem as (_ & _ & Hl & _).
    specialize (Hl d (s_pm s) _ H). destruct (h_learn h d (s_pm s) (s_w s)) as [[a|e] [p w]]; [exact Hl|right; exact Hl].
Qed.
Lemma passes_new : passes (new_generation h).
Proof.
  unfold new_generation. apply passes_bind; [|intros g; apply passes_set].
  intros s H. destruct Hrem as (_ & _ & _ & Hs & _). specialize (Hs (s_pm s) _ H).
  destruct (h_sample h (s_pm s) (s_w s)) as [[a|e] w]; [exact Hs|right; exact Hs].
Qed.
Lemma passes_iteration ftol wn : passes (iteration c h ftol wn).
Proof.
  unfold iteration. apply passes_bind; [apply passes_truncation|]. intros _.
  apply passes_bind; [apply passes_get|]. intros o1. apply passes_bind; [apply passes_lift|]. intros g1.
  apply passes_bind; [apply passes_set|]. intros _. apply passes_bind; [apply passes_update|]. intros _.
  apply passes_bind; [apply passes_new|]. intros _. apply passes_bind; [apply passes_check|]. intros _.
  apply passes_bind; [apply passes_get|]. intros o. do 3 (apply passes_bind; [apply passes_lift|]; intros ?).
  destruct (accept _ _ _); [|apply passes_ret]. apply passes_bind; [apply passes_put|]. intros _. apply passes_ret.
Qed.
Lemma passes_print b p : passes (print_if b p).
Proof. unfold print_if. destruct b; [|apply passes_ret]. apply passes_bind; [apply passes_get|]. intros o. apply passes_log. Qed.
Lemma passes_loop ftol out wn n : forall it hist nb, passes (loop c h ftol out wn n it hist nb).
Proof.
  induction n as [|n IH]; intros it hist nb; cbn [loop]; [apply passes_ret|].
  apply passes_bind; [apply passes_iteration|]. intros [b acc]. cbv zeta. cbn [fst snd]. destruct acc.
  - apply passes_bind; [apply passes_print|]. intros _. apply IH.
  - destruct (Z.eqb _ _); [apply passes_ret|]. apply passes_bind; [apply passes_print|]. intros _. apply IH.
Qed.
Lemma passes_first : passes (first_generation c h).
Proof.
  unfold first_generation. apply passes_bind.
  { unfold initialize_generation. destruct (c_init_data c); [apply passes_ret|]. apply passes_world. apply Hrem. }
  intros g. apply passes_bind; [apply passes_set|]. intros _. apply passes_bind; [apply passes_check|]. intros _.
  apply passes_bind; [apply passes_get|]. intros o. do 2 (apply passes_bind; [apply passes_lift|]; intros ?).
  apply passes_bind; [apply passes_put|]. intros _. apply passes_bind; [apply passes_lift|]. intros b.
  apply passes_bind; [apply passes_get|]. intros o'. apply passes_bind; [apply passes_put|]. intros _.
  apply passes_bind; [apply passes_lift|]. intros i. apply passes_bind; [apply passes_put|]. intros _. apply passes_ret.
Qed.
Lemma passes_minimize ftol out : passes (minimize c h ftol out).
Proof.
  unfold minimize. apply passes_bind; [apply passes_first|]. intros b. apply passes_bind; [apply passes_noise|]. intros wn.
  apply passes_bind; [apply passes_print|]. intros _. apply passes_bind; [apply passes_loop|]. intros hist. cbv zeta.
  apply passes_bind; [apply passes_print|]. intros _. apply passes_bind; [apply passes_get|]. intros o. apply passes_ret.
Qed.

End Watch.

(* ---------------- watching changes nothing ---------------- *)
Section Project.
Context {S W V : Type}.
Variables (c : cfg) (h' : hooks S V) (h : hooks S W) (view : V -> W).
(** Forgetting part of the world: the hooks on the larger world act on the smaller one. *)
Definition forgets : Prop :=
  h_argsort h' = h_argsort h /\ h_pool h' = h_pool h /\ h_data h' = h_data h /\ h_settings h' = h_settings h /\
  (forall r w, (fst (h_cost h' r w), view (snd (h_cost h' r w))) = h_cost h r (view w)) /\
  (forall w, (fst (h_init h' w), view (snd (h_init h' w))) = h_init h (view w)) /\
  (forall d p w, (fst (h_learn h' d p w), (fst (snd (h_learn h' d p w)), view (snd (snd (h_learn h' d p w))))) = h_learn h d p (view w)) /\
  (forall p w, (fst (h_sample h' p w), view (snd (h_sample h' p w))) = h_sample h p (view w)) /\
  (forall x w, (fst (h_normal h' x w), view (snd (h_normal h' x w))) = h_normal h x (view w)).
Hypothesis HF : forgets.

Definition seen (s : st S V) : st S W := mkSt (s_obj s) (s_pm s) (view (s_w s)) (s_tr s).
Definition mirrors {A} (m' : M S V A) (m : M S W A) : Prop :=
  forall s, m (seen s) = (fst (m' s), seen (snd (m' s))).
Lemma mirrors_bind {A B} (m' : M S V A) m (f' : A -> M S V B) f :
  mirrors m' m -> (forall a, mirrors (f' a) (f a)) -> mirrors (mbind m' f') (mbind m f).
Proof.
  intros Hm Hf s. unfold mbind. rewrite Hm. destruct (m' s) as [[a|e] t]; cbn [fst snd]; [apply Hf|reflexivity].
Qed.
Lemma mirrors_ret {A} (a : A) : mirrors (mret a) (mret a). Proof. intros s. reflexivity. Qed.
Lemma mirrors_lift {A} (r : res A) : mirrors (mlift r) (mlift r). Proof. intros s. reflexivity. Qed.
Lemma mirrors_raise {A} e : mirrors (A:=A) (mraise e) (mraise e). Proof. intros s. reflexivity. Qed.
Lemma mirrors_get : mirrors get_obj get_obj. Proof. intros s. reflexivity. Qed.
Lemma mirrors_put o : mirrors (put_obj o) (put_obj o). Proof. intros s. reflexivity. Qed.
Lemma mirrors_log e : mirrors (log e) (log e). Proof. intros s. reflexivity. Qed.
Lemma mirrors_world {A} (f' : V -> res A * V) f :
  (forall w, (fst (f' w), view (snd (f' w))) = f (view w)) -> mirrors (with_world f') (with_world f).
Proof. intros H s. unfold with_world. cbn [seen s_w s_obj s_pm s_tr]. rewrite <- H. destruct (f' (s_w s)). reflexivity. Qed.
Lemma mirrors_set g : mirrors (set_gen g) (set_gen g). Proof. intros s. reflexivity. Qed.
Lemma mirrors_call_rows rs : mirrors (call_rows h' rs) (call_rows h rs).
Proof.
  induction rs as [|r rs IH]; cbn [call_rows]; [apply mirrors_ret|].
  apply mirrors_bind; [|intros v; apply mirrors_bind; [exact IH|]; intros vs; apply mirrors_ret].
  apply mirrors_bind; [apply mirrors_world; apply HF|]. intros v. apply mirrors_bind; [apply mirrors_log|]. intros _. apply mirrors_ret.
Qed.
Lemma mirrors_apply rs : mirrors (apply_rows h' rs) (apply_rows h rs).
Proof.
  unfold apply_rows. destruct rs as [|r rs]; [apply mirrors_raise|]. apply mirrors_bind; [apply mirrors_call_rows|]. intros vs. apply mirrors_ret.
Qed.
Lemma mirrors_chunks chs o p : forall i ws ws', (forall j, ws j = view (ws' j)) ->
  run_chunks h i chs o p ws = run_chunks h' i chs o p ws'.
Proof.
  destruct HF as (_ & Hp & _). induction chs as [|ch chs IH]; intros i ws ws' Hw; cbn [run_chunks]; [reflexivity|].
  rewrite Hp. unfold run_chunk. rewrite Hw.
  pose proof (mirrors_apply ch (mkSt o p (ws' (p_worker (h_pool h) i)) [])) as HA. unfold seen at 1 in HA. cbn [s_obj s_pm s_w s_tr] in HA.
  rewrite HA. destruct (apply_rows h' ch _) as [r t]. cbn [fst snd seen s_w s_tr].
  rewrite (IH (Datatypes.S i) _ (fun k => if Nat.eqb k (p_worker (h_pool h) i) then s_w t else ws' k)); [reflexivity|].
  intros j. destruct (Nat.eqb j (p_worker (h_pool h) i)); [reflexivity|apply Hw].
Qed.
Lemma mirrors_parallel rs : mirrors (parallel_rows h' rs) (parallel_rows h rs).
Proof.
  intros s. unfold parallel_rows. pose proof (proj1 (proj2 HF)) as Hp. rewrite Hp. cbn [seen s_obj s_pm s_w s_tr].
  rewrite (mirrors_chunks _ (s_obj s) (s_pm s) 0 (fun _ => view (s_w s)) (fun _ => s_w s)) by reflexivity.
  destruct (run_chunks h' 0 _ _ _ _) as [results tr]. destruct (failures results); reflexivity.
Qed.
Lemma mirrors_check : mirrors (check_generation c h') (check_generation c h).
Proof.
  unfold check_generation. apply mirrors_bind; [apply mirrors_get|]. intros o. apply mirrors_bind.
  - destruct (c_parallelize c); [apply mirrors_parallel|apply mirrors_apply].
  - intros rv. apply mirrors_bind; [apply mirrors_put|]. intros _. apply mirrors_log.
Qed.
Lemma mirrors_truncation : mirrors (truncation c h') (truncation c h).
Proof.
  unfold truncation. pose proof (proj1 HF) as Hs. rewrite Hs. apply mirrors_bind; [apply mirrors_get|]. intros o. cbv zeta.
  do 5 (apply mirrors_bind; [apply mirrors_lift|]; intros ?). apply mirrors_bind; [apply mirrors_put|]. intros _. apply mirrors_log.
Qed.
Lemma mirrors_noise : mirrors (draw_noise c h') (draw_noise c h).
Proof.
  unfold draw_noise. destruct (py_eq_int (c_w_noise c) 0); [apply mirrors_ret|].
  destruct (py_eq_int (c_w_noise c) (-1)); [apply mirrors_ret|].
  destruct (_ || _ || _)%bool; [apply mirrors_raise|]. apply mirrors_bind; [|intros d; apply mirrors_ret].
  intros s. cbn [seen s_obj s_pm s_w s_tr]. destruct HF as (_ & _ & _ & _ & _ & _ & _ & _ & Hn). rewrite <- Hn.
  destruct (h_normal h' (num_to_f (c_w_noise c)) (s_w s)). reflexivity.
Qed.
Lemma mirrors_update : mirrors (update_pm h') (update_pm h).
Proof.
  unfold update_pm. destruct HF as (_ & _ & Hd & _ & _ & _ & Hl & _). rewrite Hd.
  apply mirrors_bind; [apply mirrors_get|]. intros o. apply mirrors_bind.
  - intros s. cbn [seen s_obj s_pm s_w s_tr]. destruct (h_data h (o_gen o) (o_elite o) (s_pm s)) as [r p]. reflexivity.
  - intros d. apply mirrors_bind; [apply mirrors_log|]. intros _ s. cbn [seen s_obj s_pm s_w s_tr]. rewrite <- Hl.
    destruct (h_learn h' d (s_pm s) (s_w s)) as [r [p w]]. reflexivity.
Qed.
Lemma mirrors_new : mirrors (new_generation h') (new_generation h).
Proof.
  unfold new_generation. destruct HF as (_ & _ & _ & _ & _ & _ & _ & Hs & _). apply mirrors_bind; [|intros g; apply mirrors_set].
  intros s. cbn [seen s_obj s_pm s_w s_tr]. rewrite <- Hs. destruct (h_sample h' (s_pm s) (s_w s)). reflexivity.
Qed.
Lemma mirrors_iteration ftol wn : mirrors (iteration c h' ftol wn) (iteration c h ftol wn).
Proof.
  unfold iteration. apply mirrors_bind; [apply mirrors_truncation|]. intros _.
  apply mirrors_bind; [apply mirrors_get|]. intros o1. apply mirrors_bind; [apply mirrors_lift|]. intros g1.
  apply mirrors_bind; [apply mirrors_set|]. intros _. apply mirrors_bind; [apply mirrors_update|]. intros _.
  apply mirrors_bind; [apply mirrors_new|]. intros _. apply mirrors_bind; [apply mirrors_check|]. intros _.
  apply mirrors_bind; [apply mirrors_get|]. intros o. do 3 (apply mirrors_bind; [apply mirrors_lift|]; intros ?).
  destruct (accept _ _ _); [|apply mirrors_ret]. apply mirrors_bind; [apply mirrors_put|]. intros _. apply mirrors_ret.
Qed.
Lemma mirrors_print b p : mirrors (print_if b p) (print_if b p).
Proof. unfold print_if. destruct b; [|apply mirrors_ret]. apply mirrors_bind; [apply mirrors_get|]. intros o. apply mirrors_log. Qed.
Lemma mirrors_loop ftol out wn n : forall it hist nb, mirrors (loop c h' ftol out wn n it hist nb) (loop c h ftol out wn n it hist nb).
Proof.
  induction n as [|n IH]; intros it hist nb; cbn [loop]; [apply mirrors_ret|].
  apply mirrors_bind; [apply mirrors_iteration|]. intros [b acc]. cbv zeta. cbn [fst snd]. destruct acc.
  - apply mirrors_bind; [apply mirrors_print|]. intros _. apply IH.
  - destruct (Z.eqb _ _); [apply mirrors_ret|]. apply mirrors_bind; [apply mirrors_print|]. intros _. apply IH.
Qed.
Lemma mirrors_first : mirrors (first_generation c h') (first_generation c h).
Proof.
  unfold first_generation. apply mirrors_bind.
  { unfold initialize_generation. destruct (c_init_data c); [apply mirrors_ret|]. apply mirrors_world. apply HF. }
  intros g. apply mirrors_bind; [apply mirrors_set|]. intros _. apply mirrors_bind; [apply mirrors_check|]. intros _.
  apply mirrors_bind; [apply mirrors_get|]. intros o. do 2 (apply mirrors_bind; [apply mirrors_lift|]; intros ?).
  apply mirrors_bind; [apply mirrors_put|]. intros _. apply mirrors_bind; [apply mirrors_lift|]. intros b.
  apply mirrors_bind; [apply mirrors_get|]. intros o'. apply mirrors_bind; [apply mirrors_put|]. intros _.
  apply mirrors_bind; [apply mirrors_lift|]. intros i. apply mirrors_bind; [apply mirrors_put|]. intros _. apply mirrors_ret.
Qed.
Lemma mirrors_minimize ftol out : mirrors (minimize c h' ftol out) (minimize c h ftol out).
Proof.
  unfold minimize. destruct HF as (_ & _ & _ & Hset & _). rewrite Hset.
  apply mirrors_bind; [apply mirrors_first|]. intros b. apply mirrors_bind; [apply mirrors_noise|]. intros wn.
  apply mirrors_bind; [apply mirrors_print|]. intros _. apply mirrors_bind; [apply mirrors_loop|]. intros hist. cbv zeta.
  apply mirrors_bind; [apply mirrors_print|]. intros _. apply mirrors_bind; [apply mirrors_get|]. intros o. apply mirrors_ret.
Qed.
End Project.

Lemma watched_forgets {S W} (h : hooks S W) : forgets (watched h) h fst.
Proof.
  assert (HN : forall (A : Type) (f : W -> res A * W) (w : W * list exn), (fst (noting f w), fst (snd (noting f w))) = f (fst w)).
  { intros A f [w l]. unfold noting. cbn [fst snd]. destruct (f w) as [r w']. reflexivity. }
  do 4 (split; [reflexivity|]). split; [intros r w; apply HN|]. split; [intros w; apply HN|]. split; [|split; [intros p w; apply HN|]].
  - intros d p [w l]. cbn [watched h_learn fst snd]. destruct (h_learn h d p w) as [r [p' w']]. reflexivity.
  - intros x [w l]. cbn [watched h_normal fst snd]. destruct (h_normal h x w). reflexivity.
Qed.

(** A run of [minimize], with a list of the exceptions that the cost function, the
    initialiser and the model raised during it. *)
Definition start_watched {S W} (s : st S W) : st S (W * list exn) := mkSt (s_obj s) (s_pm s) (s_w s, []) (s_tr s).
Lemma watched_same {S W} c (h : hooks S W) ftol out s :
  fst (minimize c (watched h) ftol out (start_watched s)) = fst (minimize c h ftol out s) /\
  seen fst (snd (minimize c (watched h) ftol out (start_watched s))) = snd (minimize c h ftol out s).
Proof.
  pose proof (mirrors_minimize c (watched h) h fst (watched_forgets h) ftol out (start_watched s)) as H.
  replace (seen fst (start_watched s)) with s in H by (destruct s; reflexivity). rewrite H. split; reflexivity.
Qed.

(** Each failing call ends the run: at most one exception is noted, and it is the one
    that [minimize] raises. *)
Lemma watched_run {S W} c (h : hooks S W) ftol out s : c_parallelize c = false ->
  snd (s_w (snd (minimize c (watched h) ftol out (start_watched s)))) = [] \/
  exists e, snd (s_w (snd (minimize c (watched h) ftol out (start_watched s)))) = [e] /\
            fst (minimize c h ftol out s) = Raise e.
Proof.
  intros Hseq. destruct (watched_same c h ftol out s) as [E1 _]. rewrite <- E1. clear E1.
  pose proof (passes_minimize c (watched h) snd (watched_remembers h) Hseq ftol out (start_watched s) eq_refl) as HP.
  destruct (minimize c (watched h) ftol out (start_watched s)) as [[r|e] t]; cbn [fst snd]; [left; exact HP|].
  destruct HP as [HP|HP]; [left; exact HP|]. right. exists e. split; [exact HP|reflexivity].
Qed.

(** A run that fails: the script is exhausted. *)
Lemma watched_failing : c_parallelize (conf 4 10 9 false None None) = false /\
  run_raises (conf 4 10 9 false None None) demo_hooks ftol_default false demo_start = Some (UserExn 0) /\
  snd (s_w (snd (minimize (conf 4 10 9 false None None) (watched demo_hooks) ftol_default false (start_watched demo_start)))) = [UserExn 0].
Proof. split; [vm_compute; reflexivity|]. split; vm_compute; reflexivity. Qed.
Lemma watched_fine :
  snd (s_w (snd (minimize demo_cfg (watched demo_hooks) ftol_default false (start_watched demo_start)))) = [].
Proof. vm_compute. reflexivity. Qed.
