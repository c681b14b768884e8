(** No run evaluates more generations than it may, whether it completes or fails. *)
From Coq Require Import List ZArith Bool Lia.
From Verif Require Import PyBase B64 NdArray Eda Spec.
Import ListNotations.
Open Scope nat_scope.

Section Count.
Context {S W : Type}.
Variable c : cfg.
Variable h : hooks S W.
Local Notation st := (st S W).

(** The generations evaluated so far. *)
Definition made (s : st) : nat := List.length (gens (s_tr s)).
(** At most [k] more after the step. *)
Definition adds {A} (k : nat) (m : M S W A) : Prop := forall s : st, made (snd (m s)) <= made s + k.

Lemma gens_more a b : List.length (gens (a ++ b)) = List.length (gens a) + List.length (gens b).
Proof. unfold gens. rewrite flat_map_app. apply app_length. Qed.
Lemma adds_bind {A B} k l (m : M S W A) (f : A -> M S W B) : adds k m -> (forall a, adds l (f a)) -> adds (k + l) (mbind m f).
Proof. intros Hm Hf s. unfold mbind. specialize (Hm s). destruct (m s) as [[a|e] s1]; cbn [snd] in *; [specialize (Hf a s1)|]; lia. Qed.
Lemma adds_then {A B} l (m : M S W A) (f : A -> M S W B) : adds 0 m -> (forall a, adds l (f a)) -> adds l (mbind m f).
Proof. intros Hm Hf. exact (adds_bind 0 l m f Hm Hf). Qed.
Lemma adds_ret {A} (a : A) : adds 0 (mret a). Proof. intros s. cbn. lia. Qed.
Lemma adds_lift {A} (r : res A) : adds 0 (mlift r). Proof. intros s. cbn. lia. Qed.
Lemma adds_raise {A} e : adds 0 (mraise (A := A) e). Proof. intros s. cbn. lia. Qed.
Lemma adds_get : adds 0 get_obj. Proof. intros s. cbn. lia. Qed.
Lemma adds_put o : adds 0 (put_obj o). Proof. intros s. unfold made. cbn [put_obj snd s_tr]. lia. Qed.
Lemma adds_log e : match e with EvGen _ _ _ => False | _ => True end -> adds 0 (log e).
Proof. intros He s. unfold made. cbn [log snd s_tr]. rewrite gens_more. destruct e; try contradiction He; cbn [gens flat_map app List.length]; lia. Qed.
Lemma adds_world {A} (f : W -> res A * W) : adds 0 (with_world f).
Proof. intros s. unfold with_world. destruct (f (s_w s)) as [r w]. unfold made. cbn [snd s_tr]. lia. Qed.
Ltac nil := repeat first [apply adds_then; [|intros ?] | apply adds_ret | apply adds_lift | apply adds_raise | apply adds_get | apply adds_put | apply adds_world | (apply adds_log; exact I)].

Lemma adds_call r : adds 0 (call1 h r).
Proof.
  intros s. unfold call1, mbind, with_world. destruct (h_cost h r (s_w s)) as [[v|e] w]; unfold made; cbn [log mret snd s_tr]; [rewrite gens_more; cbn [gens flat_map app List.length]|]; lia.
Qed.
Lemma adds_rows rs : adds 0 (call_rows h rs).
Proof. induction rs as [|r rs IH]; cbn [call_rows]; [apply adds_ret|]. apply adds_then; [apply adds_call|intros v]. apply adds_then; [exact IH|intros vs]. apply adds_ret. Qed.
Lemma adds_apply rs : adds 0 (apply_rows h rs).
Proof. unfold apply_rows. destruct rs as [|r rs]; [apply adds_raise|]. apply adds_then; [apply adds_rows|intros vs]. apply adds_ret. Qed.
Lemma chunks_none chs : forall i o p ws, List.length (gens (snd (run_chunks h i chs o p ws))) = 0.
Proof.
  induction chs as [|ch chs IH]; intros i o p ws; cbn [run_chunks]; [reflexivity|].
  unfold run_chunk. pose proof (adds_apply ch (mkSt o p (ws (p_worker (h_pool h) i)) [])) as H.
  destruct (apply_rows h ch _) as [r s1]. unfold made in H. cbn [snd s_tr gens flat_map List.length] in H.
  match goal with |- context [run_chunks h ?a chs o p ?b] => specialize (IH a o p b); destruct (run_chunks h a chs o p b) as [rs trs] end.
  cbn [snd] in *. rewrite gens_more. lia.
Qed.
Lemma adds_parallel rs : adds 0 (parallel_rows h rs).
Proof.
  intros s. unfold parallel_rows. pose proof (chunks_none (array_split (cpu_count (h_pool h)) rs) 0 (s_obj s) (s_pm s) (fun _ => s_w s)) as H.
  destruct (run_chunks h 0 _ _ _ _) as [results tr]. cbn [snd] in *. unfold made. destruct (failures results); cbn [snd s_tr]; rewrite gens_more; lia.
Qed.
Lemma adds_check : adds 1 (check_generation c h).
Proof.
  unfold check_generation. apply adds_then; [apply adds_get|intros o]. apply adds_then; [destruct (c_parallelize c); [apply adds_parallel|apply adds_apply]|intros rv].
  apply adds_then; [nil|intros _]. intros s. unfold made. cbn [log snd s_tr]. rewrite gens_more. cbn [gens flat_map app List.length]. lia.
Qed.
Lemma adds_set g : adds 0 (set_gen g). Proof. unfold set_gen. nil. Qed.
Lemma adds_print b p : adds 0 (print_if b p). Proof. unfold print_if. destruct b; nil. Qed.
Lemma adds_update : adds 0 (update_pm h).
Proof.
  unfold update_pm. nil.
  - intros s. destruct (h_data h _ _ (s_pm s)) as [r p]. unfold made. cbn [snd s_tr]. lia.
  - intros s. destruct (h_learn h _ (s_pm s) (s_w s)) as [r [p w]]. unfold made. cbn [snd s_tr]. lia.
Qed.
Lemma adds_new : adds 0 (new_generation h).
Proof. unfold new_generation. apply adds_then; [|intros g; apply adds_set]. intros s. destruct (h_sample h (s_pm s) (s_w s)) as [r w]. unfold made. cbn [snd s_tr]. lia. Qed.
Lemma adds_iteration ftol wn : adds 1 (iteration c h ftol wn).
Proof.
  unfold iteration. apply adds_then; [unfold truncation; nil|intros _]. apply adds_then; [nil|intros o1]. apply adds_then; [nil|intros g1].
  apply adds_then; [apply adds_set|intros _]. apply adds_then; [apply adds_update|intros _]. apply adds_then; [apply adds_new|intros _].
  change 1 with (1 + 0). apply adds_bind; [apply adds_check|intros _]. nil. destruct (accept _ _ _); nil.
Qed.
Lemma adds_loop ftol out wn n : forall it hist nb, adds n (loop c h ftol out wn n it hist nb).
Proof.
  induction n as [|n IH]; intros it hist nb; cbn [loop]; [apply adds_ret|]. change (Datatypes.S n) with (1 + n). apply adds_bind; [apply adds_iteration|]. intros [b acc]. cbn [fst snd]. destruct acc.
  - apply adds_then; [apply adds_print|intros _; apply IH].
  - destruct (Z.eqb _ _); [intros s; pose proof (adds_ret (hist ++ [b]) s); lia|]. apply adds_then; [apply adds_print|intros _; apply IH].
Qed.
Lemma adds_minimize ftol out : adds (Datatypes.S (Z.to_nat (c_max_iter c - 1))) (minimize c h ftol out).
Proof.
  unfold minimize. change (Datatypes.S (Z.to_nat (c_max_iter c - 1))) with (1 + Z.to_nat (c_max_iter c - 1)). apply adds_bind.
  - unfold first_generation. apply adds_then; [unfold initialize_generation; destruct (c_init_data c); nil|intros g]. apply adds_then; [apply adds_set|intros _].
    change 1 with (1 + 0). apply adds_bind; [apply adds_check|intros _]. nil.
  - intros b. apply adds_then.
    + unfold draw_noise. destruct (py_eq_int _ _); [nil|]. destruct (py_eq_int _ _); [nil|]. destruct (_ || _); [nil|]. nil.
      intros s. destruct (h_normal h _ (s_w s)) as [d w]. unfold made. cbn [snd s_tr]. lia.
    + intros wn. apply adds_then; [apply adds_print|intros _]. rewrite <- (Nat.add_0_r (Z.to_nat (c_max_iter c - 1))). apply adds_bind; [rewrite Nat.add_0_r; apply adds_loop|intros hist].
      apply adds_then; [apply adds_print|intros _]. nil.
Qed.

Lemma budget_kept ftol out (s : st) : s_tr s = [] -> List.length (gens (s_tr (snd (minimize c h ftol out s)))) <= Datatypes.S (Z.to_nat (c_max_iter c - 1)).
Proof. intros H. pose proof (adds_minimize ftol out s) as A. unfold made in A. rewrite H in A. exact A. Qed.
End Count.
