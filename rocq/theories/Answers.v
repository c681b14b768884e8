(** Every recorded call carries what the cost function answered. *)
From Coq Require Import List ZArith Bool Lia.
From Verif Require Import PyBase B64 NdArray Eda Spec.
Import ListNotations.
Open Scope nat_scope.

Section Answers.
Context {S W : Type}.
Variable c : cfg.
Variable h : hooks S W.
Local Notation st := (st S W).

(** The cost function returned [v] for [r] in some world. *)
Definition answered (r : row) (v : num) : Prop := exists w w', h_cost h r w = (Ok v, w').
Definition event_ok (e : ev) : Prop := match e with EvCall r v => answered r v | _ => True end.

Definition keeps_ok {A} (m : M S W A) : Prop := forall s : st, Forall event_ok (s_tr s) -> Forall event_ok (s_tr (snd (m s))).

Lemma ok_bind {A B} (m : M S W A) (f : A -> M S W B) : keeps_ok m -> (forall a, keeps_ok (f a)) -> keeps_ok (mbind m f).
Proof. intros Hm Hf s Hs. unfold mbind. specialize (Hm s Hs). destruct (m s) as [[a|e] s1]; cbn [snd] in *; [apply Hf, Hm|exact Hm]. Qed.
Lemma ok_ret {A} (a : A) : keeps_ok (mret a). Proof. intros s Hs. exact Hs. Qed.
Lemma ok_lift {A} (r : res A) : keeps_ok (mlift r). Proof. intros s Hs. exact Hs. Qed.
Lemma ok_raise {A} e : keeps_ok (mraise (A := A) e). Proof. intros s Hs. exact Hs. Qed.
Lemma ok_get : keeps_ok get_obj. Proof. intros s Hs. exact Hs. Qed.
Lemma ok_put o : keeps_ok (put_obj o). Proof. intros s Hs. exact Hs. Qed.
Lemma ok_log e : event_ok e -> keeps_ok (log e).
Proof. intros He s Hs. cbn. apply Forall_app. split; [exact Hs|]. constructor; [exact He|constructor]. Qed.
Lemma ok_world {A} (f : W -> res A * W) : keeps_ok (with_world f).
Proof. intros s Hs. unfold with_world. destruct (f (s_w s)) as [r w]. exact Hs. Qed.
Ltac ok := repeat first [apply ok_bind; [|intros ?] | apply ok_ret | apply ok_lift | apply ok_raise | apply ok_get | apply ok_put | apply ok_world | (apply ok_log; exact I)].

Lemma ok_call r : keeps_ok (call1 h r).
Proof.
  intros s Hs. unfold call1, mbind, with_world. destruct (h_cost h r (s_w s)) as [[v|e] w] eqn:E; cbn; [|exact Hs].
  apply Forall_app. split; [exact Hs|]. constructor; [|constructor]. exists (s_w s), w. exact E.
Qed.
Lemma ok_rows rs : keeps_ok (call_rows h rs).
Proof. induction rs as [|r rs IH]; cbn [call_rows]; [apply ok_ret|]. apply ok_bind; [apply ok_call|intros v]. apply ok_bind; [exact IH|intros vs]. apply ok_ret. Qed.
Lemma ok_apply rs : keeps_ok (apply_rows h rs).
Proof. unfold apply_rows. destruct rs as [|r rs]; [apply ok_raise|]. apply ok_bind; [apply ok_rows|intros vs]. apply ok_ret. Qed.
Lemma chunks_ok chs : forall i o p ws, Forall event_ok (snd (run_chunks h i chs o p ws)).
Proof.
  induction chs as [|ch chs IH]; intros i o p ws; cbn [run_chunks]; [constructor|].
  unfold run_chunk. pose proof (ok_apply ch (mkSt o p (ws (p_worker (h_pool h) i)) []) (Forall_nil _)) as H.
  destruct (apply_rows h ch _) as [r s1]. cbn [snd] in H.
  match goal with |- context [run_chunks h ?a chs o p ?b] => specialize (IH a o p b); destruct (run_chunks h a chs o p b) as [rs trs] end.
  cbn [snd] in *. apply Forall_app. split; assumption.
Qed.
Lemma ok_parallel rs : keeps_ok (parallel_rows h rs).
Proof.
  intros s Hs. unfold parallel_rows. pose proof (chunks_ok (array_split (cpu_count (h_pool h)) rs) 0 (s_obj s) (s_pm s) (fun _ => s_w s)) as H.
  destruct (run_chunks h 0 _ _ _ _) as [results tr]. cbn [snd] in *. destruct (failures results); cbn [snd s_tr]; apply Forall_app; split; assumption.
Qed.
Lemma ok_check : keeps_ok (check_generation c h).
Proof. unfold check_generation. apply ok_bind; [apply ok_get|intros o]. apply ok_bind; [destruct (c_parallelize c); [apply ok_parallel|apply ok_apply]|intros rv]. ok. Qed.
Lemma ok_set g : keeps_ok (set_gen g). Proof. unfold set_gen. ok. Qed.
Lemma ok_print b p : keeps_ok (print_if b p). Proof. unfold print_if. destruct b; ok. Qed.
Lemma ok_update : keeps_ok (update_pm h).
Proof.
  unfold update_pm. ok.
  - intros s Hs. destruct (h_data h _ _ (s_pm s)) as [r p]. exact Hs.
  - intros s Hs. destruct (h_learn h _ (s_pm s) (s_w s)) as [r [p w]]. exact Hs.
Qed.
Lemma ok_new : keeps_ok (new_generation h).
Proof. unfold new_generation. apply ok_bind; [|intros g; apply ok_set]. intros s Hs. destruct (h_sample h (s_pm s) (s_w s)) as [r w]. exact Hs. Qed.
Lemma ok_iteration ftol wn : keeps_ok (iteration c h ftol wn).
Proof.
  unfold iteration. apply ok_bind; [unfold truncation; ok|intros _]. apply ok_bind; [ok|intros o1]. apply ok_bind; [ok|intros g1].
  apply ok_bind; [apply ok_set|intros _]. apply ok_bind; [apply ok_update|intros _]. apply ok_bind; [apply ok_new|intros _]. apply ok_bind; [apply ok_check|intros _].
  ok. destruct (accept _ _ _); ok.
Qed.
Lemma ok_loop ftol out wn n : forall it hist nb, keeps_ok (loop c h ftol out wn n it hist nb).
Proof.
  induction n as [|n IH]; intros it hist nb; cbn [loop]; [apply ok_ret|]. apply ok_bind; [apply ok_iteration|]. intros [b acc]. cbn [fst snd]. destruct acc.
  - apply ok_bind; [apply ok_print|intros _; apply IH].
  - destruct (Z.eqb _ _); [apply ok_ret|]. apply ok_bind; [apply ok_print|intros _; apply IH].
Qed.
Lemma ok_minimize ftol out : keeps_ok (minimize c h ftol out).
Proof.
  unfold minimize. apply ok_bind.
  - unfold first_generation. apply ok_bind; [unfold initialize_generation; destruct (c_init_data c); ok|intros g]. apply ok_bind; [apply ok_set|intros _].
    apply ok_bind; [apply ok_check|intros _]. ok.
  - intros b. apply ok_bind.
    + unfold draw_noise. destruct (py_eq_int _ _); [ok|]. destruct (py_eq_int _ _); [ok|]. destruct (_ || _); [ok|]. ok.
      intros s Hs. destruct (h_normal h _ (s_w s)) as [d w]. exact Hs.
    + intros wn. apply ok_bind; [apply ok_print|intros _]. apply ok_bind; [apply ok_loop|intros hist]. apply ok_bind; [apply ok_print|intros _]. ok.
Qed.

Lemma run_answers ftol out (s : st) : s_tr s = [] -> Forall (fun rv => answered (fst rv) (snd rv)) (calls (s_tr (snd (minimize c h ftol out s)))).
Proof.
  intros H. assert (F : Forall event_ok (s_tr (snd (minimize c h ftol out s)))) by (apply ok_minimize; rewrite H; constructor).
  unfold calls. induction F as [|e l He _ IH]; cbn [flat_map]; [constructor|]. apply Forall_app. split; [|exact IH].
  destruct e; constructor; [exact He|constructor].
Qed.
End Answers.
