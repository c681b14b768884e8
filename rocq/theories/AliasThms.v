(** A cost function that leaves its argument alone: the memory model and the value model agree,
    and no buffer that was handed out, or that existed before the run, is ever changed. *)
From Coq Require Import List ZArith Bool String Lia.
From Verif Require Import PyBase B64 NdArray Eda EdaInv Alias.
Import ListNotations.

Lemma deref_app (m e : heap) a : a < List.length m -> deref (m ++ e) a = deref m a.
Proof. intros H. unfold deref. apply app_nth1, H. Qed.

Lemma deref_new (m e : heap) x : deref (m ++ x :: e) (List.length m) = x.
Proof. unfold deref. rewrite app_nth2, Nat.sub_diag by lia. reflexivity. Qed.

Lemma set_at_length {A} i (x : A) l : List.length (set_at i x l) = List.length l.
Proof. revert i. induction l as [|y l IH]; intros [|i]; cbn; try reflexivity. f_equal. apply IH. Qed.

Lemma set_at_same {A} i (d : A) l : set_at i (nth i l d) l = l.
Proof. revert i. induction l as [|y l IH]; intros [|i]; cbn; try reflexivity. f_equal. apply IH. Qed.

Lemma set_at_nth {A} i j (x d : A) l : i <> j -> nth j (set_at i x l) d = nth j l d.
Proof. revert i j. induction l as [|y l IH]; intros [|i] [|j] H; cbn; try reflexivity; try lia. apply IH. lia. Qed.

Lemma set_at_hit {A} i (x d : A) l : i < List.length l -> nth i (set_at i x l) d = x.
Proof. revert i. induction l as [|y l IH]; intros [|i] H; cbn in *; try lia; try reflexivity. apply IH. lia. Qed.

Lemma set_at_app {A} i (x : A) l l' : List.length l <= i -> set_at i x (l ++ l') = l ++ set_at (i - List.length l) x l'.
Proof.
  revert i. induction l as [|y l IH]; intros i H; cbn [List.app List.length] in *.
  - rewrite Nat.sub_0_r. reflexivity.
  - destruct i as [|i]; [lia|]. cbn [set_at Nat.sub]. f_equal. apply IH. lia.
Qed.

Definition extends (m m' : heap) : Prop := exists e, m' = m ++ e.
Lemma extends_refl m : extends m m.
Proof. exists []. rewrite app_nil_r. reflexivity. Qed.
Lemma extends_trans m1 m2 m3 : extends m1 m2 -> extends m2 m3 -> extends m1 m3.
Proof. intros [e1 ->] [e2 ->]. exists (e1 ++ e2). rewrite app_assoc. reflexivity. Qed.
Lemma extends_snoc m x : extends m (m ++ [x]).
Proof. exists [x]. reflexivity. Qed.
Lemma extends_length m m' : extends m m' -> List.length m <= List.length m'.
Proof. intros [e ->]. rewrite app_length. lia. Qed.
Lemma extends_deref m m' a : extends m m' -> a < List.length m -> deref m' a = deref m a.
Proof. intros [e ->] H. apply deref_app, H. Qed.

Definition view_in (m : heap) (b : hbind) : Prop := match b with HIdx _ => True | HView a _ => a < List.length m end.
Lemma extends_view m m' b : extends m m' -> view_in m b -> view_in m' b.
Proof. intros He. pose proof (extends_length _ _ He). destruct b; cbn; [trivial|lia]. Qed.
Lemma extends_see m m' b : extends m m' -> view_in m b -> see m' b = see m b.
Proof. intros He. destruct b as [i|a i]; cbn; [reflexivity|]. intros H. rewrite (extends_deref _ _ _ He H). reflexivity. Qed.

(** What was handed out is still as it was. *)
Definition intact (m : heap) (p : nat * arr) : Prop := fst p < List.length m /\ deref m (fst p) = snd p.
Lemma extends_intact m m' l : extends m m' -> Forall (intact m) l -> Forall (intact m') l.
Proof.
  intros He. apply Forall_impl. intros [a x] [H1 H2]. pose proof (extends_length _ _ He). split; cbn [fst snd] in *; [lia|].
  rewrite (extends_deref _ _ _ He H1). exact H2.
Qed.

Section Sim.
Context {S W : Type}.
Variable c : cfg.
Variable h : hooks S W.
Variable hcost : row -> W -> res num * row * W.
Variable data : option nat.

(** The two models have the same cost function, which leaves its argument alone unless it is
    called by workers. *)
Hypothesis same_cost : c_parallelize c = true \/ forall r w, hcost r w = (fst (h_cost h r w), r, snd (h_cost h r w)).

Local Notation hst := (hst S W).
Local Notation HM := (@HM S W).

Definition wf (s : hst) : Prop :=
  hs_gen s < List.length (hs_mem s) /\ hs_elite s < List.length (hs_mem s) /\
  view_in (hs_mem s) (hs_best_ind s) /\ Forall (intact (hs_mem s)) (hs_seen s).

Definition sim_at {A} (s : hst) (mh : HM A) (mv : M S W A) : Prop :=
  let (r, s') := mh s in
  mv (abs s) = (r, abs s') /\ extends (hs_mem s) (hs_mem s') /\ wf s' /\ (exists l, hs_seen s' = hs_seen s ++ l).

Lemma sim_bind {A B} s (mh : HM A) mv (f : A -> HM B) g :
  sim_at s mh mv -> (forall a s', wf s' -> extends (hs_mem s) (hs_mem s') -> sim_at s' (f a) (g a)) ->
  sim_at s (hbind_ mh f) (mbind mv g).
Proof.
  unfold sim_at, hbind_, mbind. destruct (mh s) as [[a|e] s1]; intros (E & He & Hw & Hl) Hf; rewrite E.
  - specialize (Hf a s1 Hw He). destruct (f a s1) as [r s2]. destruct Hf as (E2 & He2 & Hw2 & Hl2).
    split; [exact E2|]. split; [eapply extends_trans; eassumption|]. split; [exact Hw2|].
    destruct Hl as [l1 E1'], Hl2 as [l2 E2']. exists (l1 ++ l2). rewrite E2', E1', app_assoc. reflexivity.
  - split; [reflexivity|]. split; [exact He|]. split; [exact Hw|exact Hl].
Qed.

Lemma sim_ret {A} s (a : A) : wf s -> sim_at s (hret a) (mret a).
Proof. intros H. split; [reflexivity|]. split; [apply extends_refl|]. split; [exact H|]. exists []. rewrite app_nil_r. reflexivity. Qed.

Lemma sim_lift {A} s (r : res A) : wf s -> sim_at s (hlift r) (mlift r).
Proof. intros H. split; [reflexivity|]. split; [apply extends_refl|]. split; [exact H|]. exists []. rewrite app_nil_r. reflexivity. Qed.

(** Continue after reading the attributes. *)
Lemma sim_get {A} s (f : hst -> HM A) g : sim_at s (f s) (g (abs_obj s)) ->
  sim_at s (hbind_ (gets (fun s => s)) f) (mbind get_obj g).
Proof. intros H. exact H. Qed.

(** Steps that only draw random numbers, use the model or print. *)
Lemma sim_pure {A} s (m : M S W A) : wf s -> (forall t, s_obj (snd (m t)) = s_obj t) -> sim_at s (pure_step m) m.
Proof.
  intros Hw H. unfold sim_at, pure_step. specialize (H (abs s)). destruct (m (abs s)) as [r t].
  cbn [snd] in H. unfold abs at 1. cbn [hs_mem hs_pm hs_w hs_tr]. split; [|split; [apply extends_refl|split; [exact Hw|]]].
  - f_equal. change (abs_obj (mkHst (hs_mem s) (hs_gen s) (hs_evals s) (hs_elite s) (hs_evel s) (hs_best_cost s)
      (hs_best_ind s) (s_pm t) (s_w t) (s_tr t) (hs_seen s))) with (s_obj (abs s)).
    rewrite <- H. destruct t; reflexivity.
  - exists []. cbn [hs_seen]. rewrite app_nil_r. reflexivity.
Qed.

Lemma draw_noise_obj t : s_obj (snd (draw_noise c h t)) = s_obj t.
Proof.
  unfold draw_noise. destruct (py_eq_int _ _); [reflexivity|]. destruct (py_eq_int _ _); [reflexivity|].
  destruct (_ || _)%bool; [reflexivity|]. unfold mbind. destruct (h_normal h _ _). reflexivity.
Qed.

Lemma print_if_obj b p (t : st S W) : s_obj (snd (print_if b p t)) = s_obj t.
Proof. destruct b; reflexivity. Qed.

Lemma update_pm_obj t : s_obj (snd (update_pm h t)) = s_obj t.
Proof.
  unfold update_pm, mbind, get_obj, log. destruct (h_data h _ _ _) as [[d|e] p]; [|reflexivity].
  cbn [s_pm s_w s_obj s_tr]. destruct (h_learn h _ _ _) as [r [p' w']]. reflexivity.
Qed.

Lemma with_world_obj {A} (f : W -> res A * W) (t : st S W) : s_obj (snd (with_world f t)) = s_obj t.
Proof. unfold with_world. destruct (f _). reflexivity. Qed.

Lemma parallel_obj rs t : s_obj (snd (parallel_rows h rs t)) = s_obj t.
Proof.
  unfold parallel_rows. destruct (run_chunks _ _ _ _ _ _) as [l tr].
  destruct (failures l); reflexivity.
Qed.

(* ---------------- evaluation ---------------- *)

Lemma hand_out_wf s : wf s -> wf (snd (hand_out s)) /\ abs (snd (hand_out s)) = abs s.
Proof.
  intros (H1 & H2 & H3 & H4). split; [|reflexivity]. cbn. split; [exact H1|]. split; [exact H2|]. split; [exact H3|].
  apply Forall_app. split; [exact H4|]. constructor; [|constructor]. split; cbn; [exact H1|reflexivity].
Qed.

(** A call writes back the row that was there. *)
Section Sequential.
Hypothesis quiet : forall r w, hcost r w = (fst (h_cost h r w), r, snd (h_cost h r w)).

Lemma hcall1_eq i (s : hst) :
  hcall1 hcost i s =
  (let r := nth i (a_rows (deref (hs_mem s) (hs_gen s))) [] in
   let (v, w') := h_cost h r (hs_w s) in
   (v, mkHst (hs_mem s) (hs_gen s) (hs_evals s) (hs_elite s) (hs_evel s) (hs_best_cost s) (hs_best_ind s) (hs_pm s) w'
             (match v with Ok v => hs_tr s ++ [EvCall r v] | Raise _ => hs_tr s end) (hs_seen s))).
Proof.
  unfold hcall1. cbv zeta. rewrite quiet. destruct (h_cost h _ _) as [v w']. cbn [fst snd].
  f_equal. f_equal. unfold with_row. rewrite set_at_same. unfold deref at 2.
  replace (mkArr _ _ _) with (nth (hs_gen s) (hs_mem s) no_arr); [apply set_at_same|].
  unfold deref. destruct (nth (hs_gen s) (hs_mem s) no_arr); reflexivity.
Qed.

Lemma call1_sim i s : wf s -> sim_at s (hcall1 hcost i) (call1 h (nth i (a_rows (deref (hs_mem s) (hs_gen s))) [])) /\
  hs_mem (snd (hcall1 hcost i s)) = hs_mem s /\ hs_gen (snd (hcall1 hcost i s)) = hs_gen s.
Proof.
  intros Hw. unfold sim_at. rewrite hcall1_eq. cbv zeta. unfold call1, mbind, with_world, log, mret. cbn [abs s_w].
  destruct (h_cost h _ _) as [[v|e] w']; (split; [|split; reflexivity]).
  - split; [reflexivity|]. split; [apply extends_refl|]. split; [exact Hw|]. exists []. rewrite app_nil_r. reflexivity.
  - split; [reflexivity|]. split; [apply extends_refl|]. split; [exact Hw|]. exists []. rewrite app_nil_r. reflexivity.
Qed.

Lemma skipn_nth {A} i (l : list A) d : i < List.length l -> skipn i l = nth i l d :: skipn (Datatypes.S i) l.
Proof. revert i. induction l as [|x l IH]; intros [|i] H; cbn in *; try lia; [reflexivity|]. apply IH. lia. Qed.

Lemma call_rows_sim n i (s : hst) : wf s -> i + n = a_len (deref (hs_mem s) (hs_gen s)) ->
  sim_at s (hcall_rows hcost i n) (call_rows h (skipn i (a_rows (deref (hs_mem s) (hs_gen s))))).
Proof.
  revert i s. induction n as [|n IH]; intros i s Hw Hl; cbn [hcall_rows].
  - unfold a_len in Hl. rewrite skipn_all2 by lia. apply sim_ret, Hw.
  - unfold a_len in Hl. rewrite (skipn_nth i (a_rows (deref (hs_mem s) (hs_gen s))) ([] : row)) by lia. cbn [call_rows].
    destruct (call1_sim i s Hw) as (H1 & Hm & Hg).
    unfold sim_at, hbind_, mbind. unfold sim_at in H1.
    destruct (hcall1 hcost i s) as [[v|e] s1]; cbn [snd] in Hm, Hg; destruct H1 as (E & He & Hw1 & Hsn); rewrite E.
    + specialize (IH (Datatypes.S i) s1 Hw1). unfold a_len in IH. rewrite Hm, Hg in IH. specialize (IH ltac:(lia)).
      unfold sim_at in IH. destruct (hcall_rows hcost (Datatypes.S i) n s1) as [[vs|e] s2]; destruct IH as (E2 & He2 & Hw2 & Hl2); rewrite E2.
      * split; [reflexivity|]. split; [rewrite Hm in He2; exact He2|]. split; [exact Hw2|].
        destruct Hsn as [l1 E1'], Hl2 as [l2 E2']. exists (l1 ++ l2). cbn. rewrite E2', E1', app_assoc. reflexivity.
      * split; [reflexivity|]. split; [rewrite Hm in He2; exact He2|]. split; [exact Hw2|].
        destruct Hsn as [l1 E1'], Hl2 as [l2 E2']. exists (l1 ++ l2). rewrite E2', E1', app_assoc. reflexivity.
    + split; [reflexivity|]. split; [exact He|]. split; [exact Hw1|exact Hsn].
Qed.

Lemma apply_rows_sim s : wf s -> sim_at s (happly_rows hcost) (apply_rows h (a_rows (deref (hs_mem s) (hs_gen s)))).
Proof.
  intros Hw. unfold happly_rows. 
  change (sim_at s (match a_len (deref (hs_mem s) (hs_gen s)) with
    | O => hlift (Raise ValueError)
    | Datatypes.S _ => hbind_ (hcall_rows hcost 0 (a_len (deref (hs_mem s) (hs_gen s)))) (fun vs => hret (vs, store_all vs)) end)
    (apply_rows h (a_rows (deref (hs_mem s) (hs_gen s))))).
  pose proof (call_rows_sim (a_len (deref (hs_mem s) (hs_gen s))) 0 s Hw eq_refl) as H. cbn [skipn] in H.
  unfold a_len at 1. unfold apply_rows. 
  destruct (a_rows (deref (hs_mem s) (hs_gen s))) as [|r rs] eqn:Er; cbn [List.length].
  - apply (sim_lift s (Raise ValueError) Hw).
  - eapply sim_bind; [exact H|]. intros vs s' Hw' _. apply sim_ret, Hw'.
Qed.

Lemma call_rows_keeps n i (s : hst) : let s2 := snd (hcall_rows hcost i n s) in
  hs_mem s2 = hs_mem s /\ hs_gen s2 = hs_gen s /\ hs_elite s2 = hs_elite s /\ hs_evel s2 = hs_evel s /\ hs_best_cost s2 = hs_best_cost s /\ hs_best_ind s2 = hs_best_ind s.
Proof.
  cbv zeta. revert i s. induction n as [|n IH]; intros i s; cbn [hcall_rows].
  - repeat split.
  - unfold hbind_, hret. rewrite hcall1_eq. cbv zeta. destruct (h_cost h _ _) as [[v|e] w']; [|repeat split].
    match goal with |- context [hcall_rows hcost (Datatypes.S i) n ?x] => specialize (IH (Datatypes.S i) x); destruct (hcall_rows hcost (Datatypes.S i) n x) as [[vs|e] s3] end;
      exact IH.
Qed.

Lemma apply_rows_keeps (s : hst) : let s2 := snd (happly_rows hcost s) in
  hs_mem s2 = hs_mem s /\ hs_gen s2 = hs_gen s /\ hs_elite s2 = hs_elite s /\ hs_evel s2 = hs_evel s /\ hs_best_cost s2 = hs_best_cost s /\ hs_best_ind s2 = hs_best_ind s.
Proof.
  cbv zeta. unfold happly_rows. cbv [hbind_ gets hret hlift].
  destruct (a_len (deref (hs_mem s) (hs_gen s))) as [|n]; [repeat split|].
  pose proof (call_rows_keeps (Datatypes.S n) 0 s) as H. cbv zeta in H.
  destruct (hcall_rows hcost 0 (Datatypes.S n) s) as [[vs|e] s3]; exact H.
Qed.

End Sequential.

Lemma check_sim s : wf s -> sim_at s (hcheck_generation c h hcost) (check_generation c h).
Proof.
  intros Hw. unfold hcheck_generation, check_generation.
  destruct (hand_out_wf s Hw) as [Hw1 Ea].
  set (s1 := snd (hand_out s)) in *.
  assert (Hs : sim_at s1 (hbind_ (if c_parallelize c then pure_step (parallel_rows h (a_rows (deref (hs_mem s1) (hs_gen s1)))) else happly_rows hcost)
      (fun rv => hbind_ (assign_evals (snd rv)) (fun _ => hlog (EvGen (deref (hs_mem s1) (hs_gen s1)) (fst rv) (snd rv)))))
    (mbind get_obj (fun o => mbind (if c_parallelize c then parallel_rows h (a_rows (o_gen o)) else apply_rows h (a_rows (o_gen o)))
      (fun rv => mbind (put_obj (mkObj (o_gen o) (snd rv) (o_elite o) (o_evel o) (o_best_cost o) (o_best_ind o)))
        (fun _ => log (EvGen (o_gen o) (fst rv) (snd rv))))))).
  { change (sim_at s1 (hbind_ (if c_parallelize c then pure_step (parallel_rows h (a_rows (deref (hs_mem s1) (hs_gen s1)))) else happly_rows hcost)
      (fun rv => hbind_ (assign_evals (snd rv)) (fun _ => hlog (EvGen (deref (hs_mem s1) (hs_gen s1)) (fst rv) (snd rv)))))
      (mbind (if c_parallelize c then parallel_rows h (a_rows (o_gen (abs_obj s1))) else apply_rows h (a_rows (o_gen (abs_obj s1))))
      (fun rv => mbind (put_obj (mkObj (o_gen (abs_obj s1)) (snd rv) (o_elite (abs_obj s1)) (o_evel (abs_obj s1)) (o_best_cost (abs_obj s1)) (o_best_ind (abs_obj s1))))
        (fun _ => log (EvGen (o_gen (abs_obj s1)) (fst rv) (snd rv)))))).
    assert (Hm : sim_at s1 (if c_parallelize c then pure_step (parallel_rows h (a_rows (deref (hs_mem s1) (hs_gen s1)))) else happly_rows hcost)
      (if c_parallelize c then parallel_rows h (a_rows (o_gen (abs_obj s1))) else apply_rows h (a_rows (o_gen (abs_obj s1))))).
    { destruct (c_parallelize c); [apply sim_pure; [exact Hw1|apply parallel_obj]|].
      destruct same_cost as [X|quiet]; [discriminate X|]. apply apply_rows_sim; [exact quiet|exact Hw1]. }
    assert (Hk : forall (s2 : hst) r, (if c_parallelize c then pure_step (parallel_rows h (a_rows (deref (hs_mem s1) (hs_gen s1)))) else happly_rows hcost) s1 = (r, s2) ->
      hs_mem s2 = hs_mem s1 /\ hs_gen s2 = hs_gen s1 /\ hs_elite s2 = hs_elite s1 /\ hs_evel s2 = hs_evel s1 /\ hs_best_cost s2 = hs_best_cost s1 /\ hs_best_ind s2 = hs_best_ind s1).
    { clear Hm Hw Hw1 Ea. clearbody s1. intros s2 r. destruct (c_parallelize c).
      - unfold pure_step. destruct (parallel_rows _ _ _) as [r0 t]. intros E. assert (E2 : s2 = mkHst (hs_mem s1) (hs_gen s1) (hs_evals s1) (hs_elite s1) (hs_evel s1)
          (hs_best_cost s1) (hs_best_ind s1) (s_pm t) (s_w t) (s_tr t) (hs_seen s1)) by congruence. subst s2. repeat split.
      - intros E. destruct same_cost as [X|quiet]; [discriminate X|]. pose proof (apply_rows_keeps quiet s1) as H. rewrite E in H. exact H. }
    unfold sim_at, hbind_, mbind in *.
    destruct ((if c_parallelize c then pure_step (parallel_rows h (a_rows (deref (hs_mem s1) (hs_gen s1)))) else happly_rows hcost) s1) as [[rv|e] s2] eqn:Ev.
    - destruct Hm as (E & He & Hw2 & Hl2). rewrite E. destruct (Hk _ _ eq_refl) as (K1 & K2 & K3 & K4 & K5 & K6).
      cbn [assign_evals hlog put_obj log].
      split; [|split; [exact He|split; [exact Hw2|exact Hl2]]].
      unfold put_obj, log, assign_evals, hlog, abs, abs_obj. cbn. rewrite K1, K2, K3, K4, K5, K6. reflexivity.
    - destruct Hm as (E & He & Hw2 & Hl2). rewrite E. split; [reflexivity|]. split; [exact He|]. split; [exact Hw2|exact Hl2]. }
  unfold sim_at in Hs |- *.
  rewrite Ea in Hs.
  assert (Hd : exists l, hs_seen s1 = hs_seen s ++ l) by (eexists; reflexivity).
  assert (Hm1 : hs_mem s1 = hs_mem s) by reflexivity.
  change (hbind_ hand_out (fun _ => hbind_ (gets (fun s => deref (hs_mem s) (hs_gen s))) (fun g =>
     hbind_ (if c_parallelize c then pure_step (parallel_rows h (a_rows g)) else happly_rows hcost)
       (fun rv => hbind_ (assign_evals (snd rv)) (fun _ => hlog (EvGen g (fst rv) (snd rv)))))) s) with
   (hbind_ (if c_parallelize c then pure_step (parallel_rows h (a_rows (deref (hs_mem s1) (hs_gen s1)))) else happly_rows hcost)
       (fun rv => hbind_ (assign_evals (snd rv)) (fun _ => hlog (EvGen (deref (hs_mem s1) (hs_gen s1)) (fst rv) (snd rv)))) s1).
  destruct (hbind_ _ _ s1) as [r s2]. destruct Hs as (E & He & Hw2 & Hl2).
  split; [exact E|]. split; [exact He|]. split; [exact Hw2|].
  destruct Hd as [l1 E1], Hl2 as [l2 E2]. exists (l1 ++ l2). rewrite E2, E1, app_assoc. reflexivity.
Qed.

(* ---------------- selection and noise ---------------- *)

Definition vselect (wn : noise) : M S W unit :=
  mbind (truncation c h) (fun _ => mbind get_obj (fun o1 => mbind (mlift (iadd (o_gen o1) wn)) set_gen)).

(** Both truncations fail alike, or succeed with the same arrays. *)
Lemma truncation_cases (s : hst) :
  (exists e, htruncation c h s = (Raise e, s) /\ truncation c h (abs s) = (Raise e, abs s)) \/
  (exists gen elite' gen' evel' evals' e,
     htruncation c h s = (Ok tt, mkHst (((hs_mem s ++ [gen]) ++ [elite']) ++ [gen']) (List.length ((hs_mem s ++ [gen]) ++ [elite'])) evals'
        (List.length (hs_mem s ++ [gen])) evel' (hs_best_cost s) (hs_best_ind s) (hs_pm s) (hs_w s) (hs_tr s ++ [e]) (hs_seen s)) /\
     truncation c h (abs s) = (Ok tt, mkSt (mkObj gen' evals' elite' evel' (hs_best_cost s) (see (hs_mem s) (hs_best_ind s)))
        (hs_pm s) (hs_w s) (hs_tr s ++ [e]))).
Proof.
  unfold htruncation, truncation. unfold hbind_, mbind, gets, get_obj, hlift, mlift.
  change (o_gen (s_obj (abs s))) with (deref (hs_mem s) (hs_gen s)).
  change (o_elite (s_obj (abs s))) with (deref (hs_mem s) (hs_elite s)).
  change (o_evals (s_obj (abs s))) with (hs_evals s).
  change (o_evel (s_obj (abs s))) with (hs_evel s).
  destruct (np_concatenate _ _) as [gen|e]; [|left; exists e; split; reflexivity].
  destruct (take_rows _ gen) as [elite'|e]; [|left; exists e; split; reflexivity].
  destruct (take_rows _ gen) as [gen'|e]; [|left; exists e; split; reflexivity].
  destruct (gather _ _) as [evel'|e]; [|left; exists e; split; reflexivity].
  destruct (gather _ _) as [evals'|e]; [|left; exists e; split; reflexivity].
  right. exists gen, elite', gen', evel', evals', (EvSelect (combine (a_rows gen') evals') (combine (a_rows elite') evel')).
  split; reflexivity.
Qed.

Lemma noise_cases wn (s : hst) :
  hadd_noise wn s = match iadd (deref (hs_mem s) (hs_gen s)) wn with
                    | Ok x => (Ok tt, mkHst (set_at (hs_gen s) x (hs_mem s)) (hs_gen s) (hs_evals s) (hs_elite s) (hs_evel s)
                                        (hs_best_cost s) (hs_best_ind s) (hs_pm s) (hs_w s) (hs_tr s) (hs_seen s))
                    | Raise e => (Raise e, s)
                    end.
Proof. unfold hadd_noise, hbind_, gets, hlift. destruct (iadd _ _); reflexivity. Qed.

Lemma select_sim wn s : wf s -> sim_at s (hbind_ (htruncation c h) (fun _ => hadd_noise wn)) (vselect wn).
Proof.
  intros (H1 & H2 & H3 & H4).
  unfold sim_at, vselect. unfold hbind_, mbind at 1.
  destruct (truncation_cases s) as [(e & -> & ->)|(gen & elite' & gen' & evel' & evals' & ev & -> & ->)].
  { split; [reflexivity|]. split; [apply extends_refl|]. split; [exact (conj H1 (conj H2 (conj H3 H4)))|]. exists []. rewrite app_nil_r. reflexivity. }
  rewrite noise_cases. cbn [hs_mem hs_gen hs_evals hs_elite hs_evel hs_best_cost hs_best_ind hs_pm hs_w hs_tr hs_seen].
  unfold mbind, get_obj, mlift, set_gen. unfold mbind, get_obj, put_obj. cbn [s_obj o_gen].
  set (m := hs_mem s) in *. set (n := List.length m) in *.
  assert (L1 : List.length (m ++ [gen]) = n + 1) by (rewrite app_length; cbn; lia).
  assert (L2 : List.length ((m ++ [gen]) ++ [elite']) = n + 2) by (rewrite app_length, L1; cbn; lia).
  rewrite L1, L2.
  assert (M3 : ((m ++ [gen]) ++ [elite']) ++ [gen'] = m ++ [gen; elite'; gen']) by (rewrite <- !app_assoc; reflexivity).
  rewrite M3. clear L1 L2 M3.
  assert (De : forall x, deref (m ++ [gen; elite'; x]) (n + 1) = elite') by (intros x; unfold deref; rewrite app_nth2 by (fold n; lia); fold n; replace (n + 1 - n) with 1 by lia; reflexivity).
  assert (Dg : forall x, deref (m ++ [gen; elite'; x]) (n + 2) = x) by (intros x; unfold deref; rewrite app_nth2 by (fold n; lia); fold n; replace (n + 2 - n) with 2 by lia; reflexivity).
  assert (Hx : forall x, extends m (m ++ [gen; elite'; x])) by (intros x; exists [gen; elite'; x]; reflexivity).
  assert (Hln : forall x, List.length (m ++ [gen; elite'; x]) = n + 3) by (intros x; rewrite app_length; cbn; fold n; lia).
  rewrite Dg.
  assert (Fin : forall x (r : res unit),
    (r, mkSt (mkObj x evals' elite' evel' (hs_best_cost s) (see m (hs_best_ind s))) (hs_pm s) (hs_w s) (hs_tr s ++ [ev])) =
    (r, abs (mkHst (m ++ [gen; elite'; x]) (n + 2) evals' (n + 1) evel' (hs_best_cost s) (hs_best_ind s) (hs_pm s) (hs_w s) (hs_tr s ++ [ev]) (hs_seen s))) /\
    extends m (m ++ [gen; elite'; x]) /\
    wf (mkHst (m ++ [gen; elite'; x]) (n + 2) evals' (n + 1) evel' (hs_best_cost s) (hs_best_ind s) (hs_pm s) (hs_w s) (hs_tr s ++ [ev]) (hs_seen s)) /\
    exists l, hs_seen s = hs_seen s ++ l).
  { intros x r. split; [|split; [apply Hx|split]].
    - unfold abs, abs_obj. cbn [hs_mem hs_gen hs_evals hs_elite hs_evel hs_best_cost hs_best_ind hs_pm hs_w hs_tr]. rewrite De, Dg.
      rewrite (extends_see m _ _ (Hx x) H3). reflexivity.
    - unfold wf. cbn [hs_mem hs_gen hs_elite hs_best_ind hs_seen]. rewrite Hln.
      split; [lia|]. split; [lia|]. split; [eapply extends_view; [apply Hx|exact H3]|eapply extends_intact; [apply Hx|exact H4]].
    - exists []. rewrite app_nil_r. reflexivity. }
  destruct (iadd gen' wn) as [x|e].
  - assert (Eset : set_at (n + 2) x (m ++ [gen; elite'; gen']) = m ++ [gen; elite'; x]).
    { rewrite set_at_app by (fold n; lia). fold n. replace (n + 2 - n) with 2 by lia. reflexivity. }
    rewrite Eset. exact (Fin x (Ok tt)).
  - exact (Fin gen' (Raise e)).
Qed.

(** A fresh array becomes the generation. *)
Lemma alloc_gen_sim g s : wf s -> sim_at s (hbind_ (alloc g) assign_gen) (set_gen g).
Proof.
  intros (H1 & H2 & H3 & H4). unfold sim_at, hbind_, alloc, assign_gen, set_gen, mbind, get_obj, put_obj.
  cbn [hs_mem hs_gen hs_evals hs_elite hs_evel hs_best_cost hs_best_ind hs_pm hs_w hs_tr hs_seen].
  pose proof (extends_snoc (hs_mem s) g) as Hx.
  split; [|split; [exact Hx|split]].
  - unfold abs, abs_obj. cbn [hs_mem hs_gen hs_evals hs_elite hs_evel hs_best_cost hs_best_ind hs_pm hs_w hs_tr s_obj s_pm s_w s_tr o_gen o_evals o_elite o_evel o_best_cost o_best_ind].
    rewrite deref_new, (extends_deref _ _ _ Hx H2), (extends_see _ _ _ Hx H3). reflexivity.
  - unfold wf. cbn [hs_mem hs_gen hs_elite hs_best_ind hs_seen]. rewrite app_length; cbn [List.length].
    split; [lia|]. split; [lia|]. split; [eapply extends_view; eassumption|eapply extends_intact; eassumption].
  - exists []. rewrite app_nil_r. reflexivity.
Qed.

Lemma new_generation_sim s : wf s -> sim_at s (hnew_generation h) (new_generation h).
Proof.
  intros Hw. unfold hnew_generation, new_generation. eapply sim_bind.
  - apply sim_pure; [exact Hw|]. intros t. destruct (h_sample h _ _). reflexivity.
  - intros g s' Hw' _. apply alloc_gen_sim, Hw'.
Qed.

Lemma update_sim s : wf s -> sim_at s (hbind_ hand_out (fun _ => pure_step (update_pm h))) (update_pm h).
Proof.
  intros Hw. destruct (hand_out_wf s Hw) as [Hw1 Ea].
  pose proof (sim_pure (snd (hand_out s)) (update_pm h) Hw1 update_pm_obj) as H.
  unfold sim_at in H |- *. rewrite Ea in H. unfold hbind_ at 1.
  change (hand_out s) with (Ok tt, snd (hand_out s)). cbv iota beta.
  destruct (pure_step (update_pm h) (snd (hand_out s))) as [r s2].
  destruct H as (E & He & Hw2 & l & El). split; [exact E|]. split; [exact He|]. split; [exact Hw2|].
  rewrite El. cbn [hand_out snd hs_seen]. rewrite <- app_assoc. eexists. reflexivity.
Qed.

(* ---------------- iteration ---------------- *)

Lemma hbind_assoc {A B C} (m : HM A) (f : A -> HM B) (g : B -> HM C) s :
  hbind_ (hbind_ m f) g s = hbind_ m (fun a => hbind_ (f a) g) s.
Proof. unfold hbind_. destruct (m s) as [[a|e] s']; reflexivity. Qed.

Lemma mbind_assoc {A B C} (m : M S W A) (f : A -> M S W B) (g : B -> M S W C) s :
  mbind (mbind m f) g s = mbind m (fun a => mbind (f a) g) s.
Proof. unfold mbind. destruct (m s) as [[a|e] s']; reflexivity. Qed.

Lemma mbind_ext {A B} (m : M S W A) (f g : A -> M S W B) s : (forall a s', f a s' = g a s') -> mbind m f s = mbind m g s.
Proof. intros H. unfold mbind. destruct (m s) as [[a|e] s']; [apply H|reflexivity]. Qed.

Lemma sim_at_eq {A} s (mh mh' : HM A) mv mv' : mh s = mh' s -> mv (abs s) = mv' (abs s) -> sim_at s mh mv -> sim_at s mh' mv'.
Proof. unfold sim_at. intros <- <-. trivial. Qed.

Definition hrest (ftol : f64) : HM (f64 * bool) :=
  hbind_ (gets (fun s => s)) (fun s =>
  hbind_ (hlift (py_min (hs_evals s))) (fun best_local =>
  hbind_ (hlift (first_or_IndexError (np_where (fun x => feq x best_local) (hs_evals s)))) (fun i =>
  hbind_ (hlift (match nth_error (a_rows (deref (hs_mem s) (hs_gen s))) i with Some r => Ok r | None => Raise IndexError end)) (fun _ =>
  if accept ftol best_local (hs_best_cost s) then
    hbind_ (assign_best best_local (HView (hs_gen s) i)) (fun _ => hret (best_local, true))
  else hret (best_local, false))))).

Definition vrest (ftol : f64) : M S W (f64 * bool) :=
  mbind get_obj (fun o =>
  mbind (mlift (py_min (o_evals o))) (fun best_local =>
  mbind (mlift (first_or_IndexError (np_where (fun x => feq x best_local) (o_evals o)))) (fun i =>
  mbind (mlift (match nth_error (a_rows (o_gen o)) i with Some r => Ok r | None => Raise IndexError end)) (fun ind_local =>
  if accept ftol best_local (o_best_cost o) then
    mbind (put_obj (mkObj (o_gen o) (o_evals o) (o_elite o) (o_evel o) best_local (BRow ind_local))) (fun _ => mret (best_local, true))
  else mret (best_local, false))))).

Lemma rest_sim ftol s : wf s -> sim_at s (hrest ftol) (vrest ftol).
Proof.
  intros Hw. unfold hrest, vrest. apply sim_get.
  unfold sim_at, hbind_, mbind, hlift, mlift, hret, mret. cbn [abs_obj o_gen o_evals o_elite o_evel o_best_cost o_best_ind].
  assert (Same : forall (r : res (f64 * bool)) , (r, abs s) = (r, abs s) /\ extends (hs_mem s) (hs_mem s) /\ wf s /\ exists l, hs_seen s = hs_seen s ++ l).
  { intros r. split; [reflexivity|]. split; [apply extends_refl|]. split; [exact Hw|]. exists []. rewrite app_nil_r. reflexivity. }
  destruct (py_min _) as [b|e]; [|apply (Same (Raise e))].
  destruct (first_or_IndexError _) as [i|e]; [|apply (Same (Raise e))].
  destruct (nth_error _ _) as [r|] eqn:Er; [|apply (Same (Raise IndexError))].
  destruct (accept _ _ _); [|apply (Same (Ok (b, false)))].
  unfold assign_best, put_obj. split; [|split; [apply extends_refl|split; [|exists []; rewrite app_nil_r; reflexivity]]].
  - unfold abs, abs_obj. cbn [hs_mem hs_gen hs_evals hs_elite hs_evel hs_best_cost hs_best_ind hs_pm hs_w hs_tr s_pm s_w s_tr see].
    rewrite (nth_error_nth _ _ ([] : row) Er). reflexivity.
  - destruct Hw as (H1 & H2 & H3 & H4). exact (conj H1 (conj H2 (conj H1 H4))).
Qed.

Lemma iteration_sim ftol wn s : wf s -> sim_at s (hiteration c h hcost ftol wn) (iteration c h ftol wn).
Proof.
  intros Hw.
  apply (sim_at_eq s
    (hbind_ (hbind_ (htruncation c h) (fun _ => hadd_noise wn)) (fun _ =>
     hbind_ (hbind_ hand_out (fun _ => pure_step (update_pm h))) (fun _ =>
     hbind_ (hnew_generation h) (fun _ => hbind_ (hcheck_generation c h hcost) (fun _ => hrest ftol))))) _
    (mbind (vselect wn) (fun _ => mbind (update_pm h) (fun _ => mbind (new_generation h) (fun _ =>
       mbind (check_generation c h) (fun _ => vrest ftol)))))).
  - rewrite hbind_assoc. unfold hiteration, hbind_. 
    destruct (htruncation c h s) as [[[]|e] s1]; [|reflexivity].
    destruct (hadd_noise wn s1) as [[[]|e] s2]; [|reflexivity]. reflexivity.
  - unfold iteration, vselect. rewrite mbind_assoc. apply mbind_ext. intros [] s1. rewrite mbind_assoc. apply mbind_ext. intros o s2.
    rewrite mbind_assoc. apply mbind_ext. intros g s3. reflexivity.
  - eapply sim_bind; [apply select_sim, Hw|]. intros [] s1 H1 _.
    eapply sim_bind; [apply update_sim, H1|]. intros [] s2 H2 _.
    eapply sim_bind; [apply new_generation_sim, H2|]. intros [] s3 H3 _.
    eapply sim_bind; [apply check_sim, H3|]. intros [] s4 H4 _. apply rest_sim, H4.
Qed.

Lemma loop_sim ftol out wn n : forall it hist nb s, wf s ->
  sim_at s (hloop c h hcost ftol out wn n it hist nb) (loop c h ftol out wn n it hist nb).
Proof.
  induction n as [|n IH]; intros it hist nb s Hw; cbn [hloop loop]; [apply sim_ret, Hw|].
  eapply sim_bind; [apply iteration_sim, Hw|]. intros [b ok] s1 H1 _. cbn [fst snd]. destruct ok.
  - eapply sim_bind; [apply sim_pure; [exact H1|apply print_if_obj]|]. intros [] s2 H2 _. apply IH, H2.
  - destruct (Z.eqb _ _); [apply sim_ret, H1|].
    eapply sim_bind; [apply sim_pure; [exact H1|apply print_if_obj]|]. intros [] s2 H2 _. apply IH, H2.
Qed.

(* ---------------- the first generation ---------------- *)

Definition data_at (m : heap) : Prop :=
  match data with
  | Some a => a < List.length m /\ c_init_data c = Some (deref m a)
  | None => c_init_data c = None
  end.

Lemma initialize_sim s : wf s -> data_at (hs_mem s) ->
  sim_at s (hinitialize_generation h data) (mbind (initialize_generation c h) set_gen).
Proof.
  unfold data_at, hinitialize_generation, initialize_generation. intros Hw. destruct data as [a|].
  - intros [Ha ->]. destruct Hw as (H1 & H2 & H3 & H4). split; [reflexivity|]. split; [apply extends_refl|].
    split; [exact (conj Ha (conj H2 (conj H3 H4)))|]. exists []. rewrite app_nil_r. reflexivity.
  - intros ->. eapply sim_bind; [apply sim_pure; [exact Hw|apply with_world_obj]|]. intros g s1 H1 _. apply alloc_gen_sim, H1.
Qed.

Lemma first_generation_sim s : wf s -> data_at (hs_mem s) ->
  sim_at s (hfirst_generation c h hcost data) (first_generation c h).
Proof.
  intros Hw Hd.
  apply (sim_at_eq s (hfirst_generation c h hcost data) _
    (mbind (mbind (initialize_generation c h) set_gen) (fun _ => mbind (check_generation c h) (fun _ =>
     mbind get_obj (fun o =>
     mbind (mlift (match a_rows (o_gen o) with [] => Raise IndexError | r :: _ => Ok r end)) (fun r0 =>
     mbind (mlift (match o_evals o with [] => Raise IndexError | e :: _ => Ok e end)) (fun e0 =>
     mbind (put_obj (mkObj (o_gen o) (o_evals o) (mkArr (a_dt (o_gen o)) (a_nc (o_gen o)) [r0]) [e0] (o_best_cost o) (o_best_ind o))) (fun _ =>
     mbind (mlift (py_min (o_evals o))) (fun best =>
     mbind get_obj (fun o' =>
     mbind (put_obj (mkObj (o_gen o') (o_evals o') (o_elite o') (o_evel o') best (o_best_ind o'))) (fun _ =>
     mbind (mlift (first_or_IndexError (np_where (fun x => feq x best) (o_evals o)))) (fun i =>
     mbind (put_obj (mkObj (o_gen o') (o_evals o') (o_elite o') (o_evel o') best (BIdx i))) (fun _ =>
     mret best))))))))))))); [reflexivity|rewrite mbind_assoc; reflexivity|].
  unfold hfirst_generation. eapply sim_bind; [apply initialize_sim; assumption|]. intros [] s1 H1 _.
  eapply sim_bind; [apply check_sim, H1|]. intros [] s2 H2 _. apply sim_get.
  clear s s1 Hw Hd H1. rename s2 into s, H2 into Hw.
  unfold sim_at, hbind_, mbind, hlift, mlift, hret, mret, get_obj. cbn [abs_obj o_gen o_evals o_elite o_evel o_best_cost o_best_ind].
  assert (Same : forall (r : res f64) , (r, abs s) = (r, abs s) /\ extends (hs_mem s) (hs_mem s) /\ wf s /\ exists l, hs_seen s = hs_seen s ++ l).
  { intros r. split; [reflexivity|]. split; [apply extends_refl|]. split; [exact Hw|]. exists []. rewrite app_nil_r. reflexivity. }
  destruct (a_rows (deref (hs_mem s) (hs_gen s))) as [|r0 rs]; [apply (Same (Raise IndexError))|].
  destruct (hs_evals s) as [|e0 es] eqn:Ee; [apply (Same (Raise IndexError))|].
  unfold alloc, assign_elite, assign_best, put_obj.
  cbn [hs_mem hs_gen hs_evals hs_elite hs_evel hs_best_cost hs_best_ind hs_pm hs_w hs_tr hs_seen s_obj s_pm s_w s_tr o_gen o_evals o_elite o_evel o_best_cost o_best_ind].
  set (x := mkArr _ _ [r0]). pose proof (extends_snoc (hs_mem s) x) as Hx.
  destruct Hw as (H1 & H2 & H3 & H4).
  assert (Hlen : List.length (hs_mem s ++ [x]) = List.length (hs_mem s) + 1) by (rewrite app_length; reflexivity).
  destruct (py_min _) as [b|e];
  [destruct (first_or_IndexError _) as [i|e]|];
  (split; [|split; [exact Hx|split; [|exists []; rewrite app_nil_r; reflexivity]]];
   [unfold abs, abs_obj; cbn [abs abs_obj hs_mem hs_gen hs_evals hs_elite hs_evel hs_best_cost hs_best_ind hs_pm hs_w hs_tr s_pm s_w s_tr];
    rewrite deref_new, (extends_deref _ _ _ Hx H1), ?Ee, ?(extends_see _ _ _ Hx H3); reflexivity
   |unfold wf; cbn [hs_mem hs_gen hs_elite hs_best_ind hs_seen view_in]; rewrite Hlen;
    split; [lia|]; split; [lia|]; split; [first [exact I|eapply extends_view; eassumption]|eapply extends_intact; eassumption]]).
Qed.

(* ---------------- minimize ---------------- *)

(** As [sim_at], for a result that contains a reference. *)
Definition sim_res (s : hst) (mh : HM hresult) (mv : M S W result) : Prop :=
  let (r, s') := mh s in
  mv (abs s) = (match r with Ok x => Ok (see_result (hs_mem s') x) | Raise e => Raise e end, abs s') /\
  extends (hs_mem s) (hs_mem s') /\ wf s' /\ (exists l, hs_seen s' = hs_seen s ++ l) /\
  match r with Ok x => view_in (hs_mem s') (hr_best_ind x) | Raise _ => True end.

Lemma sim_res_bind {A} s (mh : HM A) mv (f : A -> HM hresult) g :
  sim_at s mh mv -> (forall a s', wf s' -> extends (hs_mem s) (hs_mem s') -> sim_res s' (f a) (g a)) ->
  sim_res s (hbind_ mh f) (mbind mv g).
Proof.
  unfold sim_at, sim_res, hbind_, mbind. destruct (mh s) as [[a|e] s1]; intros (E & He & Hw & Hl) Hf; rewrite E.
  - specialize (Hf a s1 Hw He). destruct (f a s1) as [r s2]. destruct Hf as (E2 & He2 & Hw2 & Hl2 & Hv).
    split; [exact E2|]. split; [eapply extends_trans; eassumption|]. split; [exact Hw2|]. split; [|exact Hv].
    destruct Hl as [l1 E1'], Hl2 as [l2 E2']. exists (l1 ++ l2). rewrite E2', E1', app_assoc. reflexivity.
  - split; [reflexivity|]. split; [exact He|]. split; [exact Hw|]. split; [exact Hl|exact I].
Qed.

Lemma minimize_sim ftol out s : wf s -> data_at (hs_mem s) ->
  sim_res s (hminimize c h hcost data ftol out) (minimize c h ftol out).
Proof.
  intros Hw Hd. unfold hminimize, minimize.
  eapply sim_res_bind; [apply first_generation_sim; assumption|]. intros b s1 H1 _.
  eapply sim_res_bind; [apply sim_pure; [exact H1|apply draw_noise_obj]|]. intros wn s2 H2 _.
  eapply sim_res_bind; [apply sim_pure; [exact H2|apply print_if_obj]|]. intros [] s3 H3 _.
  eapply sim_res_bind; [apply loop_sim, H3|]. intros hist s4 H4 _. cbv zeta.
  eapply sim_res_bind; [apply sim_pure; [exact H4|apply print_if_obj]|]. intros [] s5 H5 _.
  split; [reflexivity|]. split; [apply extends_refl|]. split; [exact H5|]. split; [exists []; rewrite app_nil_r; reflexivity|].
  cbn. exact (proj1 (proj2 (proj2 H5))).
Qed.

End Sim.
