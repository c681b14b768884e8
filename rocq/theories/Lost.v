(** How likely UMDAd loses a solution for good. *)
From Coq Require Import String List ZArith Bool Lia Reals Lra.
From Flocq Require Import Core IEEE754.BinarySingleNaN.
From Verif Require Import PyBase B64 B64More NdArray Eda EdaInv LoopAny LoopFail Spec LoopObs LoopInv Rand RandThms Models ModelThms ModelMore Kahan FloatSum Chance Inits Stock StockInv StockAll
  Explore MaxLik Mean LoopTape Found FoundBest.
Import ListNotations.
Open Scope R_scope.

(* ---------------- what holds of every state a run ends in ---------------- *)

Section Every.
Context {S W : Type}.
Variable c : cfg.
Variable h : hooks S W.
Variables (ftol : f64) (out : bool) (wn : noise).
Local Notation st := (st S W).
(* at the head of the loop, and at the end *)
Variables (I F : st -> Prop).
Hypothesis I_F : forall s, I s -> F s.
Hypothesis I_print : forall s s', I s -> printed_after s s' -> I s'.
Hypothesis I_step : forall s ba s', I s -> iteration c h ftol wn s = (Ok ba, s') -> I s'.
Hypothesis I_fail : forall s e s', I s -> iteration c h ftol wn s = (Raise e, s') -> F s'.

Lemma loop_every n : forall it hist nb s, I s -> (forall r s', loop c h ftol out wn n it hist nb s = (Ok r, s') -> I s') /\
  (forall e s', loop c h ftol out wn n it hist nb s = (Raise e, s') -> F s').
Proof.
  induction n as [|n IH]; intros it hist nb s Hi; cbn [loop].
  - split; [intros r s' H; apply mret_ok in H as [_ ->]; exact Hi|discriminate].
  - assert (Hcont : forall s1 nb2 hist2, I s1 ->
      (forall r s', mbind (print_if out (fun o => PrIter it (o_best_cost o))) (fun _ => loop c h ftol out wn n (it + 1) hist2 nb2) s1 = (Ok r, s') -> I s') /\
      (forall e s', mbind (print_if out (fun o => PrIter it (o_best_cost o))) (fun _ => loop c h ftol out wn n (it + 1) hist2 nb2) s1 = (Raise e, s') -> F s')).
    { intros s1 nb2 hist2 Hi1. split.
      - intros r s' H. apply mbind_ok in H as (u & s2 & Hp & H). apply print_if_inv in Hp as [_ Hp]. exact (proj1 (IH _ _ _ s2 (I_print _ _ Hi1 Hp)) _ _ H).
      - intros e s' H. apply mbind_raise in H as [H|(u & s2 & Hp & H)]; [apply print_if_inv in H as [Hr _]; discriminate|].
        apply print_if_inv in Hp as [_ Hp]. exact (proj2 (IH _ _ _ s2 (I_print _ _ Hi1 Hp)) _ _ H). }
    split.
    + intros r s' H. apply mbind_ok in H as ([b acc] & s1 & H1 & H). apply I_step in H1; [|exact Hi]. cbn [fst snd] in H. cbv zeta in H.
      destruct acc; [exact (proj1 (Hcont _ _ _ H1) _ _ H)|]. destruct (Z.eqb _ _); [|exact (proj1 (Hcont _ _ _ H1) _ _ H)].
      apply mret_ok in H as [_ ->]. exact H1.
    + intros e s' H. apply mbind_raise in H as [H|([b acc] & s1 & H1 & H)]; [exact (I_fail _ _ _ Hi H)|]. apply I_step in H1; [|exact Hi]. cbn [fst snd] in H. cbv zeta in H.
      destruct acc; [exact (proj2 (Hcont _ _ _ H1) _ _ H)|]. destruct (Z.eqb _ _); [discriminate|exact (proj2 (Hcont _ _ _ H1) _ _ H)].
Qed.

Lemma minimize_every s :
  (forall b s1, first_generation c h s = (Ok b, s1) -> I s1) ->
  (forall e s1, first_generation c h s = (Raise e, s1) -> F s1) ->
  (forall s1, draw_noise c h s1 = (Ok wn, s1)) ->
  F (snd (minimize c h ftol out s)).
Proof.
  intros Hf Hff Hn. destruct (minimize c h ftol out s) as [[r|e] s'] eqn:H; cbn [snd]; unfold minimize in H.
  - apply mbind_ok in H as (b0 & s1 & H1 & H). apply Hf in H1. apply mbind_ok in H as (wn' & s2 & H2 & H). rewrite Hn in H2. assert (wn' = wn /\ s2 = s1) as [-> ->] by (split; congruence).
    apply mbind_ok in H as (u & s3 & H3 & H). apply print_if_inv in H3 as [_ H3]. pose proof (I_print _ _ H1 H3) as H4.
    apply mbind_ok in H as (hist & s4 & H5 & H). apply (proj1 (loop_every _ _ _ _ _ H4)) in H5.
    apply mbind_ok in H as (u2 & s5 & H6 & H). apply print_if_inv in H6 as [_ H6]. apply mbind_ok in H as (o & s6 & H7 & H). apply get_obj_ok in H7 as [-> ->].
    apply mret_ok in H as [_ ->]. apply I_F. exact (I_print _ _ H5 H6).
  - apply mbind_raise in H as [H|(b0 & s1 & H1 & H)]; [exact (Hff _ _ H)|]. apply Hf in H1.
    apply mbind_raise in H as [H|(wn' & s2 & H2 & H)]; [rewrite Hn in H; discriminate|]. rewrite Hn in H2. assert (wn' = wn /\ s2 = s1) as [-> ->] by (split; congruence).
    apply mbind_raise in H as [H|(u & s3 & H3 & H)]; [apply print_if_inv in H as [? _]; discriminate|].
    apply print_if_inv in H3 as [_ H3]. pose proof (I_print _ _ H1 H3) as H4.
    apply mbind_raise in H as [H|(hist & s4 & H5 & H)]; [exact (proj2 (loop_every _ _ _ _ _ H4) _ _ H)|].
    apply mbind_raise in H as [H|(u2 & s5 & H6 & H)]; [apply print_if_inv in H as [? _]; discriminate|]. discriminate.
Qed.
End Every.

(* ---------------- the tape holds draws only ---------------- *)

Section World.
Context {S : Type}.
Local Notation W := (list Z).
Variable c : cfg.
Variable h : hooks S W.
Local Notation st := (st S W).
Variable Q : S -> Prop.
Hypothesis cost_pure : forall r, exists v, forall w, h_cost h r w = (v, w).
Hypothesis data_pure : forall g e p, Q p -> Q (snd (h_data h g e p)).
Hypothesis learn_pure : forall d p, Q p -> exists r p', Q p' /\ forall w, h_learn h d p w = (r, (p', w)).
Hypothesis sample_good : forall p w, Q p -> incl w draws -> incl (snd (h_sample h p w)) draws.
Hypothesis init_good : forall w, incl w draws -> incl (snd (h_init h w)) draws.

Definition worldly {A} (m : M S W A) : Prop := forall s : st, Q (s_pm s) -> incl (s_w s) draws -> Q (s_pm (snd (m s))) /\ incl (s_w (snd (m s))) draws.
Lemma worldly_still {A} (m : M S W A) : still Q m -> worldly m.
Proof.
  intros Hm s Hq Hw. destruct (Hm s Hq) as (r & s' & [Q' _] & H). specialize (H (s_w s)). destruct s as [o p w tr]. unfold on at 1 in H. cbn [s_obj s_pm s_w s_tr] in *. rewrite H.
  split; [exact Q'|exact Hw].
Qed.
Lemma worldly_bind {A B} (m : M S W A) (f : A -> M S W B) : worldly m -> (forall a, worldly (f a)) -> worldly (mbind m f).
Proof.
  intros Hm Hf s Hq Hw. unfold mbind. destruct (Hm s Hq Hw) as [Q1 W1]. destruct (m s) as [[a|e] s1]; cbn [snd] in *; [|split; assumption]. exact (Hf a s1 Q1 W1).
Qed.
Lemma worldly_check : worldly (check_generation c h).
Proof.
  intros s Hq Hw. destruct (check_still c h Q cost_pure s Hq) as (r & s' & Q' & H & _). specialize (H (s_w s)).
  destruct s as [o p w tr]. unfold on at 1 in H. cbn [s_obj s_pm s_w s_tr] in *. rewrite H. split; [exact Q'|exact Hw].
Qed.
Lemma worldly_iteration ftol wn : worldly (iteration c h ftol wn).
Proof.
  intros s. rewrite iteration_split. revert s. apply worldly_bind; [apply worldly_still, (still_select c h Q data_pure learn_pure)|]. intros _. apply worldly_bind.
  - intros s Hq Hw. unfold new_generation, mbind. pose proof (sample_good (s_pm s) (s_w s) Hq Hw) as G. destruct (h_sample h (s_pm s) (s_w s)) as [[g|e] w']; (split; [exact Hq|exact G]).
  - intros _. apply worldly_bind; [apply worldly_check|]. intros _. apply worldly_still, still_assess.
Qed.
Lemma worldly_first : worldly (first_generation c h).
Proof.
  unfold first_generation. apply worldly_bind.
  - intros s Hq Hw. unfold initialize_generation. destruct (c_init_data c); [split; assumption|]. unfold with_world. pose proof (init_good (s_w s) Hw) as G.
    destruct (h_init h (s_w s)) as [r w']. split; [exact Hq|exact G].
  - intros g. apply worldly_bind; [apply worldly_still, still_set_gen|]. intros _. apply worldly_bind; [apply worldly_check|]. intros _. apply worldly_still, still_leading.
Qed.
End World.

(* ---------------- columns without a given value ---------------- *)

(** For each column: nothing to wait for, or the value that must turn up, the probability of a 1
    and its chance. *)
Definition wanted : Type := option (f64 * bool * R).
Definition step1 (t : wanted) (k : Z) : wanted :=
  match t with Some (p, b, q) => if Bool.eqb (flt (unit53 k) p) b then None else t | None => None end.
Fixpoint step (T : list wanted) (v : list Z) : list wanted :=
  match T, v with t :: T', k :: v' => step1 t k :: step T' v' | _, _ => [] end.
Fixpoint covered (T : list wanted) (r : nat) (v : list Z) : bool :=
  match r with
  | O => forallb (fun t : wanted => match t with None => true | _ => false end) T
  | S r' => covered (step T (firstn (List.length T) v)) r' (skipn (List.length T) v)
  end.
(** The chance that a row does not hold the value, and that [r] rows do. *)
Definition absent (b : bool) (q : R) : R := if b then 1 - q else q.
Definition turns_up (r : nat) (t : wanted) : R := match t with Some (_, b, q) => 1 - absent b q ^ r | None => 1 end.
Definition real (t : wanted) : Prop := match t with Some (p, _, q) => chance (fun x => flt x p = true) q | None => True end.

Lemma step_length T : forall v, List.length v = List.length T -> List.length (step T v) = List.length T.
Proof. induction T as [|t T IH]; intros [|k v] H; try discriminate; [reflexivity|]. cbn in *. f_equal. apply IH. lia. Qed.
Lemma step_real T : forall v, Forall real T -> Forall real (step T v).
Proof.
  induction T as [|t T IH]; intros [|k v] H; cbn; try constructor.
  - inversion H; subst. destruct t as [[[p b] q]|]; cbn; [|exact Logic.I]. destruct (Bool.eqb _ b); [exact Logic.I|assumption].
  - apply IH. inversion H; assumption.
Qed.
Lemma avg_ext (f g : Z -> R) : (forall k, f k = g k) -> avg (map f draws) = avg (map g draws).
Proof. intros H. rewrite (map_ext f g H). reflexivity. Qed.
Lemma avg_step1 r t : real t -> avg (map (fun k => turns_up r (step1 t k)) draws) = turns_up (S r) t.
Proof.
  destruct t as [[[p b] q]|]; intros Hr; cbn [step1 turns_up]; [|apply (avg_const draws draws_nonempty)]. cbn [real] in Hr.
  assert (Ha : avg (map (fun k => ind (negb (Bool.eqb (flt (unit53 k) p) b))) draws) = absent b q).
  { destruct b; cbn [absent].
    - rewrite <- (avg_chance_not (fun x => flt x p) q Hr). apply avg_ext. intros k. destruct (flt (unit53 k) p); reflexivity.
    - rewrite <- (avg_chance (fun x => flt x p) q Hr). apply avg_ext. intros k. destruct (flt (unit53 k) p); reflexivity. }
  rewrite (avg_ext _ (fun k => 1 - absent b q ^ r * ind (negb (Bool.eqb (flt (unit53 k) p) b)))).
  - rewrite (avg_minus draws (fun _ => 1)), (avg_const draws draws_nonempty), avg_scal, Ha. cbn [pow]. ring.
  - intros k. destruct (Bool.eqb (flt (unit53 k) p) b); cbn [negb ind turns_up]; ring.
Qed.
Lemma mean_step r T : Forall real T -> mean draws (List.length T) (fun v => Rprod (map (turns_up r) (step T v))) = Rprod (map (turns_up (S r)) T).
Proof.
  induction T as [|t T IH]; intros H; [reflexivity|]. inversion H; subst. cbn [List.length mean step map]. unfold Rprod. cbn [fold_right]. fold (Rprod (map (turns_up (S r)) T)).
  rewrite <- IH by assumption. rewrite <- (avg_step1 r t) by assumption. rewrite Rmult_comm, <- avg_scal. apply avg_ext. intros k. rewrite Rmult_comm. apply mean_scal.
Qed.
Lemma covered_chance r : forall T, Forall real T -> mean draws (r * List.length T) (fun v => ind (covered T r v)) = Rprod (map (turns_up r) T).
Proof.
  induction r as [|r IH]; intros T H.
  - cbn [Nat.mul mean covered]. unfold Rprod. induction T as [|t T IHT]; [reflexivity|]. inversion H; subst. cbn [forallb map fold_right]. rewrite <- IHT by assumption.
    destruct t as [[[p b] q]|]; cbn [turns_up pow andb ind]; ring.
  - cbn [Nat.mul]. rewrite mean_app, <- mean_step by exact H. apply (mean_ext draws draws_nonempty). intros v [Lv _]. cbn [covered].
    assert (Ef : firstn (List.length T) v = v) by (rewrite <- Lv; apply firstn_all).
    rewrite <- (IH (step T v)) by (apply step_real; exact H). rewrite (step_length T v Lv). apply (mean_ext draws draws_nonempty). intros w _.
    rewrite firstn_app, Lv, Nat.sub_diag, firstn_O, app_nil_r, Ef, skipn_app, Lv, Nat.sub_diag. rewrite <- Lv, skipn_all. reflexivity.
Qed.

Lemma step_nth (T : list wanted) : forall v j p b q, List.length v = List.length T -> nth_error (step T v) j = Some (Some (p, b, q)) ->
  nth_error T j = Some (Some (p, b, q)) /\ Bool.eqb (flt (unit53 (nth j v 0%Z)) p) b = false.
Proof.
  induction T as [|t T IH]; intros [|k v] [|j] p b q Hl H; try discriminate.
  - cbn in H. injection H as H. destruct t as [[[p' b'] q']|]; [|discriminate]. cbn [step1] in H. destruct (Bool.eqb (flt (unit53 k) p') b') eqn:Eb; [discriminate|].
    assert (p' = p /\ b' = b /\ q' = q) as (-> & -> & ->) by (repeat split; congruence). cbn. split; [reflexivity|exact Eb].
  - cbn in H |- *. apply IH; [cbn in Hl; lia|exact H].
Qed.
Lemma covered_all r : forall (T : list wanted) v, (r * List.length T <= List.length v)%nat ->
  (forall j p b q, nth_error T j = Some (Some (p, b, q)) -> exists i, (i < r)%nat /\ Bool.eqb (flt (unit53 (nth (i * List.length T + j) v 0%Z)) p) b = true) ->
  covered T r v = true.
Proof.
  induction r as [|r IH]; intros T v Hl H; cbn [covered].
  - apply forallb_forall. intros t Ht. apply In_nth_error in Ht as [j Hj]. destruct t as [[[p b] q]|]; [|reflexivity]. destruct (H _ _ _ _ Hj) as (i & Hi & _). lia.
  - assert (Lf : List.length (firstn (List.length T) v) = List.length T) by (rewrite firstn_length; cbn in Hl; lia).
    pose proof (step_length T _ Lf) as Ls. apply IH; [rewrite Ls, skipn_length; cbn in Hl; lia|].
    intros j p b q Hj. apply (step_nth T _ _ _ _ _ Lf) in Hj as [Hj Hb]. destruct (H _ _ _ _ Hj) as (i & Hi & Hx).
    assert (Hjn : (j < List.length T)%nat) by (apply nth_error_Some; congruence). destruct i as [|i].
    + exfalso. cbn [Nat.mul Nat.add] in Hx. revert Hb. rewrite <- (firstn_skipn (List.length T) v), app_nth1 in Hx by lia. rewrite Hx. discriminate.
    + exists i. split; [lia|]. rewrite Ls, nth_skip. replace (List.length T + (i * List.length T + j))%nat with (S i * List.length T + j)%nat by lia. exact Hx.
Qed.
