(** Runs that draw all their random numbers from a tape. *)
From Coq Require Import List ZArith Bool Lia Reals Lra.
From Verif Require Import PyBase B64 NdArray Eda EdaInv Spec LoopAny Mean.
Import ListNotations.
Open Scope nat_scope.

Section Still.
Context {S W : Type}.
Local Notation st := (st S W).
(* the models that occur *)
Variable Q : S -> Prop.

(** The same state in another world. *)
Definition on (w : W) (s : st) : st := mkSt (s_obj s) (s_pm s) w (s_tr s).

(** A step that neither reads nor changes the world, and evaluates no generation. *)
Definition still {A} (m : M S W A) : Prop :=
  forall s, Q (s_pm s) -> exists r s', (Q (s_pm s') /\ gens (s_tr s') = gens (s_tr s)) /\ forall w, m (on w s) = (r, on w s').

Lemma gens_app a b : gens (a ++ b) = gens a ++ gens b. Proof. apply flat_map_app. Qed.

Lemma still_bind {A B} (m : M S W A) (f : A -> M S W B) : still m -> (forall a, still (f a)) -> still (mbind m f).
Proof.
  intros Hm Hf s Hq. destruct (Hm s Hq) as (r & s1 & [Q1 G1] & H1). destruct r as [a|e].
  - destruct (Hf a s1 Q1) as (r & s2 & [Q2 G2] & H2). exists r, s2. split; [split; [exact Q2|congruence]|]. intros w. unfold mbind. rewrite H1. apply H2.
  - exists (Raise e), s1. split; [exact (conj Q1 G1)|]. intros w. unfold mbind. rewrite H1. reflexivity.
Qed.
Lemma still_ret {A} (a : A) : still (mret a).
Proof. intros s Hq. exists (Ok a), s. split; [exact (conj Hq eq_refl)|reflexivity]. Qed.
Lemma still_lift {A} (r : res A) : still (mlift r).
Proof. intros s Hq. exists r, s. split; [exact (conj Hq eq_refl)|reflexivity]. Qed.
Lemma still_get {B} (f : obj -> M S W B) : (forall o, still (f o)) -> still (mbind get_obj f).
Proof. intros H. apply still_bind; [|exact H]. intros s Hq. exists (Ok (s_obj s)), s. split; [exact (conj Hq eq_refl)|reflexivity]. Qed.
Lemma still_put o : still (put_obj o).
Proof. intros s Hq. exists (Ok tt), (mkSt o (s_pm s) (s_w s) (s_tr s)). split; [exact (conj Hq eq_refl)|reflexivity]. Qed.
Lemma still_log e : gens [e] = [] -> still (log e).
Proof. intros H s Hq. exists (Ok tt), (mkSt (s_obj s) (s_pm s) (s_w s) (s_tr s ++ [e])). split; [split; [exact Hq|cbn [s_tr]; rewrite gens_app, H; apply app_nil_r]|reflexivity]. Qed.
Lemma still_set_gen g : still (set_gen g).
Proof. apply still_get. intros o. apply still_put. Qed.
Lemma still_print_if b p : still (print_if b p).
Proof. unfold print_if. destruct b; [apply still_get; intros o; apply still_log; reflexivity|apply still_ret]. Qed.
End Still.

Section Tape.
Context {S : Type}.
Local Notation W := (list Z).
Variable c : cfg.
Variable h : hooks S W.
Local Notation st := (st S W).
Variable Q : S -> Prop.
Local Notation still := (still Q).

Local Notation "x <- a ; b" := (mbind a (fun x => b)) (at level 61, a at next level, right associativity).
Local Notation "a ;; b" := (mbind a (fun _ => b)) (at level 61, right associativity).

(** Neither the cost function nor learning draws; a sample draws [L] numbers. *)
Hypothesis cost_pure : forall r, exists v, forall w, h_cost h r w = (v, w).
Hypothesis data_pure : forall g e p, Q p -> Q (snd (h_data h g e p)).
Hypothesis learn_pure : forall d p, Q p -> exists r p', Q p' /\ forall w, h_learn h d p w = (r, (p', w)).
Variable L : nat.
Hypothesis sample_tape : forall p, Q p -> exists f : list Z -> res arr, forall seg t, List.length seg = L -> h_sample h p (seg ++ t) = (f seg, t).

(* the first and the last part of an iteration *)
Definition select_and_learn (wn : noise) : M S W unit :=
  truncation c h ;; o1 <- get_obj ; gen1 <- mlift (iadd (o_gen o1) wn) ; set_gen gen1 ;; update_pm h.
Definition assess (ftol : f64) : M S W (f64 * bool) :=
  o <- get_obj ;
  best_local <- mlift (py_min (o_evals o)) ;
  i <- mlift (first_or_IndexError (np_where (fun x => feq x best_local) (o_evals o))) ;
  ind_local <- mlift (match nth_error (a_rows (o_gen o)) i with Some r => Ok r | None => Raise IndexError end) ;
  if accept ftol best_local (o_best_cost o) then
    put_obj (mkObj (o_gen o) (o_evals o) (o_elite o) (o_evel o) best_local (BRow ind_local)) ;; mret (best_local, true)
  else mret (best_local, false).

Lemma iteration_split ftol wn s :
  iteration c h ftol wn s = (select_and_learn wn ;; (new_generation h ;; (check_generation c h ;; assess ftol))) s.
Proof.
  assert (As : forall A B C (m : M S W A) (f : A -> M S W B) (g : B -> M S W C) s, mbind (mbind m f) g s = mbind m (fun a => mbind (f a) g) s).
  { intros A B C m f g s0. unfold mbind. destruct (m s0) as [[a|e] s1]; reflexivity. }
  assert (Ex : forall A B (m : M S W A) (f g : A -> M S W B) s, (forall a s1, f a s1 = g a s1) -> mbind m f s = mbind m g s).
  { intros A B m f g s0 H. unfold mbind. destruct (m s0) as [[a|e] s1]; [apply H|reflexivity]. }
  unfold iteration, select_and_learn. rewrite As. apply Ex. intros _ s1. rewrite As. apply Ex. intros o1 s2. rewrite As. apply Ex. intros g s3.
  rewrite As. apply Ex. intros _ s4. apply Ex. intros _ s5. apply Ex. intros _ s6. reflexivity.
Qed.

Lemma still_truncation : still (truncation c h).
Proof.
  apply still_get. intros o. repeat (apply still_bind; [apply still_lift|intros ?]). apply still_bind; [apply still_put|]. intros _. apply still_log. reflexivity.
Qed.
Lemma still_update : still (update_pm h).
Proof.
  apply still_get. intros o. apply still_bind.
  - intros s Hq. pose proof (data_pure (o_gen o) (o_elite o) (s_pm s) Hq) as Hq'. destruct (h_data h (o_gen o) (o_elite o) (s_pm s)) as [r p'] eqn:E. exists r, (mkSt (s_obj s) p' (s_w s) (s_tr s)). split; [exact (conj Hq' eq_refl)|]. intros w. cbn [on s_pm]. rewrite E. reflexivity.
  - intros d. apply still_bind; [apply still_log; reflexivity|]. intros _ s Hq. destruct (learn_pure d (s_pm s) Hq) as (r & p' & Hq' & H).
    exists r, (mkSt (s_obj s) p' (s_w s) (s_tr s)). split; [exact (conj Hq' eq_refl)|]. intros w. cbn [on s_pm s_w]. rewrite H. reflexivity.
Qed.
Lemma still_select wn : still (select_and_learn wn).
Proof.
  apply still_bind; [apply still_truncation|]. intros _. apply still_get. intros o. apply still_bind; [apply still_lift|]. intros g.
  apply still_bind; [apply still_set_gen|]. intros _. apply still_update.
Qed.
Lemma still_assess ftol : still (assess ftol).
Proof.
  apply still_get. intros o. repeat (apply still_bind; [apply still_lift|intros ?]). destruct (accept _ _ _); [|apply still_ret].
  apply still_bind; [apply still_put|]. intros _. apply still_ret.
Qed.

Lemma still_call r : still (call1 h r).
Proof.
  apply still_bind.
  - intros s Hq. destruct (cost_pure r) as (v & H). exists v, s. split; [exact (conj Hq eq_refl)|]. intros w. unfold with_world. cbn [on s_w]. rewrite H. reflexivity.
  - intros v. apply still_bind; [apply still_log; reflexivity|]. intros _. apply still_ret.
Qed.
Lemma still_rows rs : still (call_rows h rs).
Proof.
  induction rs as [|r rs IH]; [apply still_ret|]. cbn [call_rows]. apply still_bind; [apply still_call|]. intros v. apply still_bind; [exact IH|]. intros vs. apply still_ret.
Qed.
Lemma still_apply rs : still (apply_rows h rs).
Proof.
  unfold apply_rows. destruct rs as [|r rs]; [intros s Hq; exists (Raise ValueError), s; split; [exact (conj Hq eq_refl)|reflexivity]|].
  apply still_bind; [apply still_rows|]. intros vs. apply still_ret.
Qed.
Lemma chunk_still o p ch : Q p -> exists r tr, gens tr = [] /\ forall w, run_chunk h o p w ch = (r, w, tr).
Proof.
  intros Hq. destruct (still_apply ch (mkSt o p [] []) Hq) as (r & s' & [_ G] & H). exists r, (s_tr s'). split; [exact G|]. intros w. unfold run_chunk.
  specialize (H w). unfold on at 1 in H. cbn [s_obj s_pm s_tr] in H. rewrite H. reflexivity.
Qed.
Lemma chunks_still o p chs : Q p -> forall i, exists rs tr, gens tr = [] /\ forall ws, run_chunks h i chs o p ws = (rs, tr).
Proof.
  intros Hq. induction chs as [|ch chs IH]; intros i; cbn [run_chunks]; [exists [], []; split; reflexivity|].
  destruct (chunk_still o p ch Hq) as (r & tr & G & H). destruct (IH (Datatypes.S i)) as (rs & trs & G2 & H2).
  exists (r :: rs), (tr ++ trs). split; [rewrite gens_app, G, G2; reflexivity|]. intros ws. rewrite H, H2. reflexivity.
Qed.
Lemma still_parallel rs : still (parallel_rows h rs).
Proof.
  intros s Hq. destruct (chunks_still (s_obj s) (s_pm s) (array_split (cpu_count (h_pool h)) rs) Hq 0) as (rs' & tr & G & H).
  eexists. exists (mkSt (s_obj s) (s_pm s) (s_w s) (s_tr s ++ tr)). split; [split; [exact Hq|cbn [s_tr]; rewrite gens_app, G; apply app_nil_r]|].
  intros w. unfold parallel_rows. cbn [on s_obj s_pm s_w s_tr]. rewrite H. cbn [s_obj s_pm s_tr].
  match goal with |- (match ?x with _ => _ end) = _ => instantiate (1 := match failures rs' with e0 :: es => Raise (nth (p_first_failure (h_pool h) (e0 :: es)) (e0 :: es) e0) | [] => Ok (List.concat (map fst (successes rs')), List.concat (map snd (successes rs'))) end) end.
  destruct (failures rs'); reflexivity.
Qed.

(** Evaluation adds the generation, or fails. *)
Lemma check_still (s : st) : Q (s_pm s) -> exists r s', Q (s_pm s') /\ (forall w, check_generation c h (on w s) = (r, on w s')) /\
  match r with Ok _ => exists vals, gens (s_tr s') = gens (s_tr s) ++ [(o_gen (s_obj s), vals)] | Raise _ => gens (s_tr s') = gens (s_tr s) end.
Proof.
  set (rows := if c_parallelize c then parallel_rows h (a_rows (o_gen (s_obj s))) else apply_rows h (a_rows (o_gen (s_obj s)))).
  assert (St : still rows) by (unfold rows; destruct (c_parallelize c); [apply still_parallel|apply still_apply]).
  intros Hq. destruct (St s Hq) as (r & s1 & [Q1 G] & H). destruct r as [rv|e].
  - exists (Ok tt), (mkSt (mkObj (o_gen (s_obj s)) (snd rv) (o_elite (s_obj s)) (o_evel (s_obj s)) (o_best_cost (s_obj s)) (o_best_ind (s_obj s))) (s_pm s1) (@nil Z) (s_tr s1 ++ [EvGen (o_gen (s_obj s)) (fst rv) (snd rv)])). split; [exact Q1|]. split.
    + intros w. unfold check_generation. unfold mbind at 1. cbn [get_obj on s_obj]. fold rows. unfold mbind at 1. change (mkSt (s_obj s) (s_pm s) w (s_tr s)) with (on w s). rewrite H.
      reflexivity.
    + exists (snd rv). cbn [s_tr]. rewrite gens_app, G. reflexivity.
  - exists (Raise e), s1. split; [exact Q1|]. split; [|exact G]. intros w. unfold check_generation. unfold mbind at 1. cbn [get_obj on s_obj]. fold rows. unfold mbind at 1.
    change (mkSt (s_obj s) (s_pm s) w (s_tr s)) with (on w s). rewrite H. reflexivity.
Qed.

Lemma new_still (s : st) : Q (s_pm s) -> exists f : list Z -> res arr,
  (forall seg t, List.length seg = L -> h_sample h (s_pm s) (seg ++ t) = (f seg, t)) /\
  forall seg t, List.length seg = L -> new_generation h (on (seg ++ t) s) =
    match f seg with
    | Ok g => (Ok tt, on t (mkSt (mkObj g (o_evals (s_obj s)) (o_elite (s_obj s)) (o_evel (s_obj s)) (o_best_cost (s_obj s)) (o_best_ind (s_obj s))) (s_pm s) [] (s_tr s)))
    | Raise e => (Raise e, on t s)
    end.
Proof.
  intros Hq. destruct (sample_tape (s_pm s) Hq) as (f & Hf). exists f. split; [exact Hf|]. intros seg t Hl. unfold new_generation, mbind. cbn [on s_pm s_w]. rewrite (Hf seg t Hl).
  destruct (f seg) as [g|e]; reflexivity.
Qed.

(** Generations of interest. *)
Variable bad : arr -> bool.
Variable beta : R.
Hypothesis beta_unit : (0 <= beta <= 1)%R.
Variable I : obj -> S -> Prop.
Hypothesis I_Q : forall o p, I o p -> Q p.
Variable ftol : f64.
Variable wn : noise.
Hypothesis keeps : forall (s s' : st) ba, I (s_obj s) (s_pm s) -> iteration c h ftol wn s = (Ok ba, s') -> I (s_obj s') (s_pm s').
Hypothesis rare : forall (s s1 : st), I (s_obj s) (s_pm s) -> select_and_learn wn s = (Ok tt, s1) ->
  forall f : list Z -> res arr, (forall seg t, List.length seg = L -> h_sample h (s_pm s1) (seg ++ t) = (f seg, t)) ->
  (mean draws L (fun seg => ind (match f seg with Ok g => bad g | Raise _ => false end)) <= beta)%R.

(** An iteration as a function of the numbers drawn in it. *)
Lemma iteration_tape (s : st) : I (s_obj s) (s_pm s) ->
  exists f : list Z -> res arr,
    (mean draws L (fun seg => ind (match f seg with Ok g => bad g | Raise _ => false end)) <= beta)%R /\
    forall seg, List.length seg = L ->
      (exists e s', gens (s_tr s') = gens (s_tr s) /\ forall t, exists w, iteration c h ftol wn (on (seg ++ t) s) = (Raise e, on w s')) \/
      exists g vals r s', f seg = Ok g /\ gens (s_tr s') = gens (s_tr s) ++ [(g, vals)] /\
        (forall t, iteration c h ftol wn (on (seg ++ t) s) = (r, on t s')) /\
        (forall ba, r = Ok ba -> I (s_obj s') (s_pm s')) /\ Q (s_pm s').
Proof.
  intros Hi. destruct (still_select wn s (I_Q _ _ Hi)) as (r1 & s1 & [Q1 G1] & H1). destruct r1 as [[]|e1].
  - destruct (new_still s1 Q1) as (f & Hf & Hn). exists f. split.
    + apply (rare (on [] s) (on [] s1)); [exact Hi|apply H1|exact Hf].
    + intros seg Hl. destruct (f seg) as [g|e] eqn:Ef.
      * set (s2 := mkSt (mkObj g (o_evals (s_obj s1)) (o_elite (s_obj s1)) (o_evel (s_obj s1)) (o_best_cost (s_obj s1)) (o_best_ind (s_obj s1))) (s_pm s1) (@nil Z) (s_tr s1)) in *.
        destruct (check_still s2 Q1) as (r3 & s3 & Q3 & H3 & G3). destruct r3 as [[]|e3].
        { destruct G3 as (vals & G3). destruct (still_assess ftol s3 Q3) as (r4 & s4 & [Q4 G4] & H4). right. exists g, vals, r4, s4.
          assert (Hit : forall t, iteration c h ftol wn (on (seg ++ t) s) = (r4, on t s4)).
          { intros t. rewrite iteration_split. unfold mbind at 1. rewrite H1. unfold mbind at 1. rewrite (Hn seg t Hl), Ef. unfold mbind. fold s2. rewrite H3. apply H4. }
          split; [reflexivity|]. split; [rewrite G4, G3; cbn [s2 s_tr s_obj o_gen]; rewrite G1; reflexivity|]. split; [exact Hit|]. split; [|exact Q4].
          intros ba ->. apply (keeps (on (seg ++ []) s) (on [] s4) ba); [exact Hi|]. apply Hit. }
        { left. exists e3, s3. split; [rewrite G3; exact G1|]. intros t. exists t. rewrite iteration_split. unfold mbind at 1. rewrite H1. unfold mbind at 1. rewrite (Hn seg t Hl), Ef.
          unfold mbind. fold s2. rewrite H3. reflexivity. }
      * left. exists e, s1. split; [exact G1|]. intros t. exists t. rewrite iteration_split. unfold mbind at 1. rewrite H1. unfold mbind at 1. rewrite (Hn seg t Hl), Ef. reflexivity.
  - exists (fun _ => Raise e1). split; [rewrite (mean_const draws draws_nonempty); cbn; lra|]. intros seg Hl. left. exists e1, s1. split; [exact G1|].
    intros t. exists (seg ++ t). rewrite iteration_split. unfold mbind at 1. rewrite H1. reflexivity.
Qed.

Lemma loop_adds out n : forall it hist nb (s : st), Q (s_pm s) -> exists G, gens (s_tr (snd (loop c h ftol out wn n it hist nb s))) = gens (s_tr s) ++ G.
Proof.
  set (adds := fun A (m : M S W A) => forall s : st, Q (s_pm s) -> Q (s_pm (snd (m s))) /\ exists G, gens (s_tr (snd (m s))) = gens (s_tr s) ++ G).
  assert (Ks : forall A (m : M S W A), still m -> adds A m).
  { intros A m Hm s Hq. destruct (Hm s Hq) as (r & s' & [Q' G] & H). specialize (H (s_w s)). destruct s as [o p w tr]. unfold on at 1 in H. cbn [s_obj s_pm s_w s_tr] in *. rewrite H.
    split; [exact Q'|]. exists []. rewrite app_nil_r. exact G. }
  assert (Kb : forall A B (m : M S W A) (f : A -> M S W B), adds A m -> (forall a, adds B (f a)) -> adds B (mbind m f)).
  { intros A B m f Hm Hf s Hq. unfold mbind. destruct (Hm s Hq) as (Q1 & G & HG). destruct (m s) as [[a|e] s1]; cbn [snd] in *; [|eauto].
    destruct (Hf a s1 Q1) as (Q2 & G2 & HG2). split; [exact Q2|]. exists (G ++ G2). rewrite HG2, HG, app_assoc. reflexivity. }
  assert (Ki : adds _ (iteration c h ftol wn)).
  { intros s Hq. rewrite iteration_split. revert s Hq. apply Kb; [apply Ks, still_select|]. intros _. apply Kb.
    - intros s Hq. unfold new_generation, mbind. destruct (h_sample h (s_pm s) (s_w s)) as [[g|e] w']; (split; [exact Hq|exists []; rewrite app_nil_r; reflexivity]).
    - intros _. apply Kb; [|intros []; apply Ks, still_assess]. intros s Hq. destruct (check_still s Hq) as (r & s' & Q' & H & G). specialize (H (s_w s)).
      destruct s as [o p w tr]. unfold on at 1 in H. cbn [s_obj s_pm s_w s_tr] in *. rewrite H. cbn [snd on s_tr]. split; [exact Q'|]. destruct r as [u|e]; [destruct G as (vals & G); eauto|exists []; rewrite app_nil_r; exact G]. }
  assert (Kl : forall it hist nb, adds _ (loop c h ftol out wn n it hist nb)).
  { induction n as [|k IH]; intros it hist nb; [intros s Hq; split; [exact Hq|exists []; rewrite app_nil_r; reflexivity]|].
    cbn [loop]. apply Kb; [exact Ki|]. intros [b acc]. cbn [fst snd]. destruct acc.
    - apply Kb; [apply Ks, still_print_if|]. intros _. apply IH.
    - destruct (Z.eqb _ _); [apply (Ks _ (mret (hist ++ [b]))), still_ret|]. apply Kb; [apply Ks, still_print_if|]. intros _. apply IH. }
  intros it hist nb s Hq. apply (Kl it hist nb s Hq).
Qed.

(** The chance that a loop makes [k] generations and that the first [k] of them are bad. *)
Lemma loop_rare out k : forall n it hist nb (s : st), k <= n -> I (s_obj s) (s_pm s) ->
  forall test : list Z -> bool,
  (forall v, sequence draws (L * n) v -> test v = true ->
     exists G, gens (s_tr (snd (loop c h ftol out wn n it hist nb (on v s)))) = gens (s_tr s) ++ G /\ k <= List.length G /\ forallb (fun g => bad (fst g)) (firstn k G) = true) ->
  (likelihood (L * n) test <= beta ^ k)%R.
Proof.
  unfold likelihood. induction k as [|k IH]; intros n it hist nb s Hkn Hi test Ht.
  - cbn [pow]. rewrite <- (mean_const draws draws_nonempty (L * n) 1). apply (mean_le draws draws_nonempty). intros v _. unfold ind. destruct (test v); lra.
  - destruct n as [|n]; [lia|]. replace (L * Datatypes.S n) with (L + L * n) in * by lia. rewrite mean_app. destruct (iteration_tape s Hi) as (f & Hrare & Hseg).
    assert (Bn : (0 <= beta ^ k)%R) by (apply pow_le; lra).
    apply Rle_trans with (mean draws L (fun seg => beta ^ k * ind (match f seg with Ok g => bad g | Raise _ => false end))%R).
    2:{ rewrite mean_scal. cbn [pow]. rewrite Rmult_comm. apply Rmult_le_compat_r; assumption. }
    apply (mean_le draws draws_nonempty). intros seg Sseg. pose proof Sseg as [Lseg _].
    (* no generation, or one that is not bad: impossible *)
    assert (Zero : (forall t, sequence draws (L * n) t -> test (seg ++ t) = false) -> (mean draws (L * n) (fun t => ind (test (seg ++ t))) <= 0)%R).
    { intros H. rewrite <- (mean_const draws draws_nonempty (L * n) 0). apply (mean_le draws draws_nonempty). intros t Hst. rewrite (H t Hst). cbn. lra. }
    assert (Ge : (0 <= beta ^ k * ind (match f seg with Ok g => bad g | Raise _ => false end))%R).
    { apply Rmult_le_pos; [exact Bn|]. unfold ind. destruct (match f seg with Ok g => bad g | Raise _ => false end); lra. }
    assert (One : (mean draws (L * n) (fun t => ind (test (seg ++ t))) <= 1)%R).
    { rewrite <- (mean_const draws draws_nonempty (L * n) 1). apply (mean_le draws draws_nonempty). intros t _. unfold ind. destruct (test (seg ++ t)); lra. }
    destruct (Hseg seg Lseg) as [(e & s' & G' & Hit)|(g & vals & r & s' & Ef & G' & Hit & Hk & Q')].
    + eapply Rle_trans; [apply Zero|exact Ge]. intros t St. destruct (test (seg ++ t)) eqn:Et; [exfalso|reflexivity].
      destruct (Ht _ (sequence_app draws L (L * n) _ _ Sseg St) Et) as (G & HG & HL & _). cbn [loop] in HG. unfold mbind in HG. destruct (Hit t) as (w & Hw). rewrite Hw in HG. cbn [snd on s_tr] in HG.
      rewrite G', <- (app_nil_r (gens (s_tr s))) in HG at 1. apply app_inv_head in HG. subst G. cbn in HL. lia.
    + rewrite Ef. destruct (bad g) eqn:Eb.
      * cbn [ind]. rewrite Rmult_1_r.
        (* the loop ends here *)
        assert (Stop : (forall t, sequence draws (L * n) t -> gens (s_tr (snd (loop c h ftol out wn (Datatypes.S n) it hist nb (on (seg ++ t) s)))) = gens (s_tr s) ++ [(g, vals)]) ->
                       (mean draws (L * n) (fun t => ind (test (seg ++ t))) <= beta ^ k)%R).
        { intros Hstop. destruct k as [|k']; [exact One|]. eapply Rle_trans; [apply Zero|exact Bn]. intros t St. destruct (test (seg ++ t)) eqn:Et; [exfalso|reflexivity].
          destruct (Ht _ (sequence_app draws L _ _ _ Sseg St) Et) as (G & HG & HL & _). rewrite (Hstop t St) in HG. apply app_inv_head in HG. subst G. cbn in HL. lia. }
        (* the loop goes on *)
        assert (On : forall s4 it' hist' nb', I (s_obj s4) (s_pm s4) -> gens (s_tr s4) = gens (s_tr s) ++ [(g, vals)] ->
                     (forall t, loop c h ftol out wn (Datatypes.S n) it hist nb (on (seg ++ t) s) = loop c h ftol out wn n it' hist' nb' (on t s4)) ->
                     (mean draws (L * n) (fun t => ind (test (seg ++ t))) <= beta ^ k)%R).
        { intros s4 it' hist' nb' Hi4 Hg4 Hl4. apply (IH n it' hist' nb' s4 ltac:(lia) Hi4). intros t St Et.
          destruct (Ht _ (sequence_app draws L _ _ _ Sseg St) Et) as (G & HG & HL & HB). rewrite Hl4 in HG.
          destruct (loop_adds out n it' hist' nb' (on t s4) (I_Q _ _ Hi4)) as (G4 & HG4). cbn [on s_tr] in HG4. rewrite HG4, Hg4, <- app_assoc in HG. apply app_inv_head in HG. subst G.
          exists G4. split; [exact HG4|]. cbn [app List.length firstn forallb fst] in HL, HB. rewrite Eb in HB. split; [lia|exact HB]. }
        destruct r as [[b acc]|e].
        { specialize (Hk _ eq_refl).
          assert (Print : forall p, exists s4, I (s_obj s4) (s_pm s4) /\ gens (s_tr s4) = gens (s_tr s) ++ [(g, vals)] /\ forall t, print_if (S := S) out p (on t s') = (Ok tt, on t s4)).
          { intros p. unfold print_if. destruct out.
            - exists (mkSt (s_obj s') (s_pm s') [] (s_tr s' ++ [EvPrint (p (s_obj s'))])). split; [exact Hk|]. split; [cbn [s_tr]; rewrite gens_app, G'; apply app_nil_r|reflexivity].
            - exists s'. split; [exact Hk|]. split; [exact G'|reflexivity]. }
          destruct acc.
          - destruct (Print (fun o => PrIter it (o_best_cost o))) as (s4 & Hi4 & Hg4 & Hp4).
            apply (On s4 (it + 1)%Z (hist ++ [b]) 0%Z Hi4 Hg4). intros t. cbn [loop]. unfold mbind at 1. rewrite Hit. cbn [fst snd]. unfold mbind. rewrite Hp4. reflexivity.
          - destruct (Z.eqb (nb + 1) (c_dead_iter c)) eqn:Ed.
            + apply Stop. intros t _. cbn [loop]. unfold mbind. rewrite Hit. cbn [fst snd]. rewrite Ed. exact G'.
            + destruct (Print (fun o => PrIter it (o_best_cost o))) as (s4 & Hi4 & Hg4 & Hp4).
              apply (On s4 (it + 1)%Z (hist ++ [b]) (nb + 1)%Z Hi4 Hg4). intros t. cbn [loop]. unfold mbind at 1. rewrite Hit. cbn [fst snd]. rewrite Ed. unfold mbind. rewrite Hp4. reflexivity. }
        { apply Stop. intros t _. cbn [loop]. unfold mbind. rewrite Hit. exact G'. }
      * cbn [ind]. rewrite Rmult_0_r. apply Zero. intros t St. destruct (test (seg ++ t)) eqn:Et; [exfalso|reflexivity].
        destruct (Ht _ (sequence_app draws L _ _ _ Sseg St) Et) as (G & HG & HL & HB).
        assert (HG4 : exists G4, gens (s_tr (snd (loop c h ftol out wn (Datatypes.S n) it hist nb (on (seg ++ t) s)))) = gens (s_tr s) ++ [(g, vals)] ++ G4).
        { cbn [loop]. unfold mbind at 1. rewrite Hit. destruct r as [[b acc]|e]; cbn [fst snd].
          - assert (Kp : forall m : M S W unit, still m -> forall q it' hist' nb', exists G4, gens (s_tr (snd ((m ;; loop c h ftol out wn q it' hist' nb') (on t s')))) = gens (s_tr s) ++ [(g, vals)] ++ G4).
            { intros m Hm q it' hist' nb'. destruct (Hm s' Q') as (r' & s5 & [Q5 G5] & H5). unfold mbind. rewrite H5. destruct r' as [a|e]; [|exists []; cbn [snd on s_tr]; rewrite app_nil_r; congruence].
              destruct (loop_adds out q it' hist' nb' (on t s5) Q5) as (G6 & H6). exists G6. rewrite H6. cbn [on s_tr]. rewrite G5, G', <- app_assoc. reflexivity. }
            destruct acc; [apply Kp, still_print_if|]. destruct (Z.eqb _ _); [exists []; cbn [mret snd on s_tr]; rewrite app_nil_r; exact G'|]. apply Kp, still_print_if.
          - exists []. cbn [snd on s_tr]. rewrite app_nil_r. exact G'. }
        destruct HG4 as (G4 & HG4). rewrite HG4 in HG. apply app_inv_head in HG. subst G. cbn [app firstn forallb fst] in HB. rewrite Eb in HB. discriminate.
Qed.

(** The first generation draws [L0] numbers, and no noise is drawn. *)
Variable L0 : nat.
Hypothesis init_tape : match c_init_data c with
  | Some _ => L0 = 0
  | None => exists f : list Z -> res arr, forall seg t, List.length seg = L0 -> h_init h (seg ++ t) = (f seg, t)
  end.
Hypothesis no_noise : forall s : st, draw_noise c h s = (Ok wn, s).
Hypothesis starts : forall (s s1 : st) b, Q (s_pm s) -> first_generation c h s = (Ok b, s1) -> I (s_obj s1) (s_pm s1).

Lemma init_still (s : st) seg : List.length seg = L0 -> exists r, forall t, initialize_generation c h (on (seg ++ t) s) = (r, on t s).
Proof.
  intros Hl. unfold initialize_generation. destruct (c_init_data c) as [d|].
  - exists (Ok d). intros t. destruct seg; [reflexivity|]. rewrite init_tape in Hl. discriminate Hl.
  - destruct init_tape as (f & Hf). exists (f seg). intros t. unfold with_world. cbn [on s_w]. rewrite (Hf seg t Hl). reflexivity.
Qed.

Definition leading : M S W f64 :=
  o <- get_obj ;
  r0 <- mlift (match a_rows (o_gen o) with [] => Raise IndexError | r :: _ => Ok r end) ;
  e0 <- mlift (match o_evals o with [] => Raise IndexError | e :: _ => Ok e end) ;
  put_obj (mkObj (o_gen o) (o_evals o) (mkArr (a_dt (o_gen o)) (a_nc (o_gen o)) [r0]) [e0]
                 (o_best_cost o) (o_best_ind o)) ;;
  best <- mlift (py_min (o_evals o)) ;
  o' <- get_obj ;
  put_obj (mkObj (o_gen o') (o_evals o') (o_elite o') (o_evel o') best (o_best_ind o')) ;;
  i <- mlift (first_or_IndexError (np_where (fun x => feq x best) (o_evals o))) ;
  put_obj (mkObj (o_gen o') (o_evals o') (o_elite o') (o_evel o') best (BIdx i)) ;;
  mret best.
Lemma still_leading : still leading.
Proof.
  apply still_get. intros o. repeat (apply still_bind; [apply still_lift|intros ?]). apply still_bind; [apply still_put|]. intros _.
  apply still_bind; [apply still_lift|]. intros b. apply still_get. intros o'. apply still_bind; [apply still_put|]. intros _.
  apply still_bind; [apply still_lift|]. intros i. apply still_bind; [apply still_put|]. intros _. apply still_ret.
Qed.

(** The first generation as a function of the numbers drawn for it. *)
Lemma first_tape (s : st) seg : Q (s_pm s) -> List.length seg = L0 ->
  exists r s1, (forall t, first_generation c h (on (seg ++ t) s) = (r, on t s1)) /\ Q (s_pm s1) /\
    (exists G, gens (s_tr s1) = gens (s_tr s) ++ G /\ List.length G <= 1) /\
    (forall b, r = Ok b -> I (s_obj s1) (s_pm s1) /\ exists gv, gens (s_tr s1) = gens (s_tr s) ++ [gv]).
Proof.
  intros Hq Hl. destruct (init_still s seg Hl) as (r0 & H0). destruct r0 as [g|e].
  2:{ exists (Raise e), s. split; [intros t; unfold first_generation, mbind; rewrite H0; reflexivity|]. split; [exact Hq|].
      split; [exists []; rewrite app_nil_r; split; [reflexivity|cbn; lia]|discriminate]. }
  set (s1 := mkSt (mkObj g (o_evals (s_obj s)) (o_elite (s_obj s)) (o_evel (s_obj s)) (o_best_cost (s_obj s)) (o_best_ind (s_obj s))) (s_pm s) (@nil Z) (s_tr s)).
  destruct (check_still s1 Hq) as (r2 & s2 & Q2 & H2 & G2). destruct r2 as [[]|e].
  2:{ exists (Raise e), s2. split; [intros t; unfold first_generation; unfold mbind at 1; rewrite H0; unfold mbind at 1; cbn [set_gen mbind get_obj put_obj on s_obj s_pm s_w s_tr];
        unfold mbind at 1; specialize (H2 t); unfold on, s1 in H2; cbn [s_obj s_pm s_w s_tr] in H2; rewrite H2; reflexivity|].
      split; [exact Q2|]. split; [exists []; rewrite app_nil_r; split; [exact G2|cbn; lia]|discriminate]. }
  destruct G2 as (vals & G2). destruct (still_leading s2 Q2) as (r3 & s3 & [Q3 G3] & H3).
  assert (Hf : forall t, first_generation c h (on (seg ++ t) s) = (r3, on t s3)).
  { intros t. unfold first_generation. unfold mbind at 1. rewrite H0. unfold mbind at 1. cbn [set_gen mbind get_obj put_obj on s_obj s_pm s_w s_tr].
    unfold mbind at 1. specialize (H2 t). unfold on, s1 in H2. cbn [s_obj s_pm s_w s_tr] in H2. rewrite H2. exact (H3 t). }
  exists r3, s3. split; [exact Hf|]. split; [exact Q3|].
  assert (G : gens (s_tr s3) = gens (s_tr s) ++ [(g, vals)]) by (rewrite G3, G2; reflexivity). split.
  - exists [(g, vals)]. split; [exact G|cbn; lia].
  - intros b ->. split; [|eauto]. apply (starts (on (seg ++ []) s) (on [] s3) b Hq). apply Hf.
Qed.

(** The chance that a run makes [k] generations after the first and that the first [k] of these are
    bad, whatever numbers were drawn for the first. *)
Lemma minimize_rare_after out (s : st) k seg : Q (s_pm s) -> s_tr s = [] -> sequence draws L0 seg ->
  let n := Z.to_nat (c_max_iter c - 1) in k <= n ->
  forall test : list Z -> bool,
  (forall t, sequence draws (L * n) t -> test t = true ->
     let G := gens (s_tr (snd (minimize c h ftol out (on (seg ++ t) s)))) in Datatypes.S k <= List.length G /\ forallb (fun g => bad (fst g)) (firstn k (tl G)) = true) ->
  (mean draws (L * n) (fun t => ind (test t)) <= beta ^ k)%R.
Proof.
  intros Hq Htr Sseg n Hkn test Ht. pose proof Sseg as [Lseg _].
  assert (Bn : (0 <= beta ^ k)%R) by (apply pow_le; lra).
  destruct (first_tape s seg Hq Lseg) as (r & s1 & Hf & Q1 & (G1 & HG1 & HL1) & Hok). rewrite Htr in HG1, Hok. cbn [app] in HG1.
  change (gens []) with (@nil (arr * list f64)) in *. cbn [app] in HG1. destruct r as [b|e].
  - destruct (Hok b eq_refl) as (Hi & gv & Hg). cbn [app] in Hg.
    destruct (still_print_if Q out (fun o => PrIter 0 (o_best_cost o)) s1 Q1) as (rp & s2 & [Q2 G2] & H2).
    assert (Ep : rp = Ok tt /\ s_obj s2 = s_obj s1 /\ s_pm s2 = s_pm s1).
    { specialize (H2 []). unfold print_if in H2. destruct out; cbn in H2; (destruct s2; injection H2 as <- <- <- <-; repeat split). }
    destruct Ep as (-> & Eo & Em). rewrite <- Eo, <- Em in Hi.
    assert (Hmin : forall t, exists G, gens (s_tr (snd (minimize c h ftol out (on (seg ++ t) s)))) = gens (s_tr (snd (loop c h ftol out wn n 1%Z [b] 0%Z (on t s2)))) ++ G /\ G = []).
    { intros t. unfold minimize. fold n. unfold mbind at 1. rewrite Hf. unfold mbind at 1. rewrite no_noise. unfold mbind at 1. rewrite H2. unfold mbind at 1.
      destruct (loop c h ftol out wn n 1%Z [b] 0%Z (on t s2)) as [[hist|e] s3]; cbn [snd]; [|exists []; rewrite app_nil_r; split; reflexivity].
      exists []. rewrite app_nil_r. split; [|reflexivity]. unfold print_if. destruct (c_disp c); cbn [mbind get_obj log mret snd s_tr]; [|reflexivity].
      cbv [mbind get_obj log mret]. cbn [s_tr snd]. rewrite gens_app. apply app_nil_r. }
    apply (loop_rare out k n 1%Z [b] 0%Z s2 Hkn Hi). intros t St Et.
    destruct (Ht _ St Et) as [HL HB]. destruct (Hmin t) as (G & HG & ->). rewrite app_nil_r in HG. rewrite HG in HL, HB.
    destruct (loop_adds out n 1%Z [b] 0%Z (on t s2) Q2) as (G & HG'). exists G. split; [exact HG'|].
    cbn [on s_tr] in HG'. rewrite HG', G2, Hg in HL, HB. cbn [app List.length tl] in HL, HB. split; [lia|exact HB].
  - destruct k as [|k'] eqn:Ek.
    { cbn [pow]. rewrite <- (mean_const draws draws_nonempty (L * n) 1). apply (mean_le draws draws_nonempty). intros t _. unfold ind. destruct (test t); lra. }
    apply Rle_trans with 0%R; [|exact Bn]. rewrite <- (mean_const draws draws_nonempty (L * n) 0). apply (mean_le draws draws_nonempty).
    intros t St. destruct (test t) eqn:Et; [exfalso|cbn; lra].
    destruct (Ht _ St Et) as [HL _]. revert HL. unfold minimize, mbind. rewrite Hf. cbn [snd on s_tr]. rewrite HG1. lia.
Qed.
Lemma minimize_rare out (s : st) k : Q (s_pm s) -> s_tr s = [] ->
  let n := Z.to_nat (c_max_iter c - 1) in k <= n ->
  forall test : list Z -> bool,
  (forall v, sequence draws (L0 + L * n) v -> test v = true ->
     let G := gens (s_tr (snd (minimize c h ftol out (on v s)))) in Datatypes.S k <= List.length G /\ forallb (fun g => bad (fst g)) (firstn k (tl G)) = true) ->
  (likelihood (L0 + L * n) test <= beta ^ k)%R.
Proof.
  intros Hq Htr n Hkn test Ht. unfold likelihood in *. rewrite mean_app. rewrite <- (mean_const draws draws_nonempty L0 (beta ^ k)).
  apply (mean_le draws draws_nonempty). intros seg Sseg. apply (minimize_rare_after out s k seg Hq Htr Sseg Hkn (fun t => test (seg ++ t))).
  intros t St Et. exact (Ht _ (sequence_app draws L0 _ _ _ Sseg St) Et).
Qed.
End Tape.
