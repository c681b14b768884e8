(** Facts about every execution, whether it returns or raises; what is printed; parallel
    against serial evaluation. *)
From Coq Require Import String List ZArith Bool Lia.
From Verif Require Import PyBase B64 NdArray Eda EdaInv Spec TopK LoopObs LoopThms BestCost LoopRel.
Import ListNotations.
Open Scope nat_scope.

Section Any.
Context {S W : Type}.
Local Notation st := (st S W).
Local Notation M := (M S W).
Variable c : cfg.
Variable h : hooks S W.

(** [m], started in [P], ends with an outcome and a state satisfying [Q]. *)
Definition hoare {A} (P : st -> Prop) (m : M A) (Q : res A -> st -> Prop) : Prop :=
  forall s, P s -> let (r, s') := m s in Q r s'.

Lemma hoare_bind {A B} (P : st -> Prop) (m : M A) (Q : res A -> st -> Prop) (f : A -> M B) (Q' : res B -> st -> Prop) :
  hoare P m Q -> (forall a, hoare (Q (Ok a)) (f a) Q') -> (forall e s, Q (Raise e) s -> Q' (Raise e) s) ->
  hoare P (mbind m f) Q'.
Proof.
  intros Hm Hf He s Hs. unfold mbind. specialize (Hm s Hs).
  destruct (m s) as [[a|e] s1]; [apply Hf, Hm|apply He, Hm].
Qed.

Lemma hoare_weaken {A} (P P' : st -> Prop) (m : M A) (Q Q' : res A -> st -> Prop) :
  (forall s, P' s -> P s) -> (forall r s, Q r s -> Q' r s) -> hoare P m Q -> hoare P' m Q'.
Proof. intros HP HQ H s Hs. specialize (H s (HP s Hs)). destruct (m s). apply HQ, H. Qed.

(* ------------------------------------------------------------------ *)
(** ** NaN at the head of a generation *)

Definition num_heads (tr : list ev) : Prop := Forall (fun gv => ~ nan_head gv) (gens tr).

(** Either no generation so far starts with a NaN cost, or the last does and the run is
    ending with IndexError. *)
Definition nan_ok {A} (r : res A) (s : st) : Prop :=
  num_heads (s_tr s) \/
  (r = Raise IndexError /\ exists prev gv, gens (s_tr s) = prev ++ [gv] /\
      Forall (fun gv => ~ nan_head gv) prev /\ nan_head gv).

Definition numeric (s : st) : Prop := num_heads (s_tr s).

Lemma nan_ok_raise {A B} e s : nan_ok (A:=A) (Raise e) s -> nan_ok (A:=B) (Raise e) s.
Proof.
  intros [H|[H1 H2]]; [left; exact H|right]. split; [|exact H2]. injection H1 as ->. reflexivity.
Qed.

(** Computations that leave the evaluated generations alone. *)
Definition keeps {A} (m : M A) : Prop := forall s, gens (s_tr (snd (m s))) = gens (s_tr s).

Lemma keeps_hoare {A} (m : M A) : keeps m -> hoare numeric m (fun r s => numeric s).
Proof.
  intros H s Hs. specialize (H s). destruct (m s) as [r s']. cbn in H. unfold numeric, num_heads in *. rewrite H. exact Hs.
Qed.

Lemma hoare_step {A B} (m : M A) (f : A -> M B) (Q : res B -> st -> Prop) :
  keeps m -> (forall a, hoare numeric (f a) Q) -> (forall e s, numeric s -> Q (Raise e) s) ->
  hoare numeric (mbind m f) Q.
Proof.
  intros Hm Hf He. eapply hoare_bind; [apply keeps_hoare, Hm|intros a; apply Hf|intros e s Hs; apply He, Hs].
Qed.

Lemma keeps_bind {A B} (m : M A) (f : A -> M B) : keeps m -> (forall a, keeps (f a)) -> keeps (mbind m f).
Proof.
  intros Hm Hf s. unfold mbind. specialize (Hm s). destruct (m s) as [[a|e] s1]; [rewrite Hf; exact Hm|exact Hm].
Qed.
Lemma keeps_lift {A} (r : res A) : keeps (mlift r). Proof. intros s. reflexivity. Qed.
Lemma keeps_ret {A} (a : A) : keeps (mret a). Proof. intros s. reflexivity. Qed.
Lemma keeps_raise {A} e : keeps (A:=A) (mraise e). Proof. intros s. reflexivity. Qed.
Lemma keeps_get : keeps get_obj. Proof. intros s. reflexivity. Qed.
Lemma keeps_put o : keeps (put_obj o). Proof. intros s. reflexivity. Qed.
Lemma keeps_log e : (match e with EvGen _ _ _ => False | _ => True end) -> keeps (log e).
Proof. intros He s. cbn. rewrite gens_app. destruct e; cbn; try contradiction; apply app_nil_r. Qed.
Lemma keeps_world {A} (f : W -> res A * W) : keeps (with_world f).
Proof. intros s. unfold with_world. destruct (f (s_w s)) as [r w]. reflexivity. Qed.
Lemma keeps_set_gen g : keeps (set_gen g). Proof. intros s. reflexivity. Qed.

Lemma keeps_call_rows rs : keeps (call_rows h rs).
Proof.
  induction rs as [|r rs IH]; cbn [call_rows]; [apply keeps_ret|].
  apply keeps_bind; [|intros v; apply keeps_bind; [exact IH|intros vs; apply keeps_ret]].
  unfold call1. apply keeps_bind; [apply keeps_world|]. intros v. apply keeps_bind; [apply keeps_log; exact I|].
  intros _. apply keeps_ret.
Qed.
Lemma keeps_apply_rows rs : keeps (apply_rows h rs).
Proof.
  unfold apply_rows. destruct rs; [apply keeps_raise|]. apply keeps_bind; [apply keeps_call_rows|]. intros v. apply keeps_ret.
Qed.

Lemma run_chunks_gens i chs o p ws : gens (snd (run_chunks h i chs o p ws)) = [].
Proof.
  revert i ws. induction chs as [|ch chs IH]; intros i ws; cbn [run_chunks]; [reflexivity|].
  unfold run_chunk.
  pose proof (keeps_apply_rows ch (mkSt o p (ws (p_worker (h_pool h) i)) [])) as Hk.
  destruct (apply_rows h ch _) as [r s1]. cbn in Hk.
  specialize (IH (Datatypes.S i) (fun k' => if Nat.eqb k' (p_worker (h_pool h) i) then s_w s1 else ws k')).
  destruct (run_chunks h (Datatypes.S i) chs o p _) as [rs trs]. cbn [snd] in *. rewrite gens_app, Hk, IH. reflexivity.
Qed.

Lemma keeps_parallel rs : keeps (parallel_rows h rs).
Proof.
  intros s. unfold parallel_rows.
  pose proof (run_chunks_gens 0 (array_split (cpu_count (h_pool h)) rs) (s_obj s) (s_pm s) (fun _ => s_w s)) as Hk.
  destruct (run_chunks h 0 _ _ _ _) as [results tr]. cbn [snd] in Hk.
  destruct (failures results); cbn [snd s_tr]; rewrite gens_app, Hk, app_nil_r; reflexivity.
Qed.

Lemma keeps_truncation : keeps (truncation c h).
Proof.
  unfold truncation. apply keeps_bind; [apply keeps_get|]. intros o.
  apply keeps_bind; [apply keeps_lift|]. intros g. cbv zeta.
  apply keeps_bind; [apply keeps_lift|]. intros a1.
  apply keeps_bind; [apply keeps_lift|]. intros a2.
  apply keeps_bind; [apply keeps_lift|]. intros a3.
  apply keeps_bind; [apply keeps_lift|]. intros a4.
  apply keeps_bind; [apply keeps_put|]. intros _. apply keeps_log; exact I.
Qed.
Lemma keeps_update_pm : keeps (update_pm h).
Proof.
  unfold update_pm. apply keeps_bind; [apply keeps_get|]. intros o.
  apply keeps_bind; [intros s; destruct (h_data h _ _ _) as [r p]; reflexivity|]. intros d.
  apply keeps_bind; [apply keeps_log; exact I|]. intros _ s. destruct (h_learn h d _ _) as [r [p w]]. reflexivity.
Qed.
Lemma keeps_new_generation : keeps (new_generation h).
Proof.
  unfold new_generation. apply keeps_bind; [|intros g; apply keeps_set_gen].
  intros s. destruct (h_sample h _ _) as [r w]. reflexivity.
Qed.
Lemma keeps_draw_noise : keeps (draw_noise c h).
Proof.
  unfold draw_noise. destruct (py_eq_int _ 0); [apply keeps_ret|]. destruct (py_eq_int _ (-1)); [apply keeps_ret|].
  destruct (_ || _ || _)%bool; [apply keeps_raise|]. apply keeps_bind; [|intros d; apply keeps_ret].
  intros s. destruct (h_normal h _ _) as [d w]. reflexivity.
Qed.
Lemma keeps_print b p : keeps (print_if b p).
Proof. unfold print_if. destruct b; [|apply keeps_ret]. apply keeps_bind; [apply keeps_get|]. intros o. apply keeps_log; exact I. Qed.

(** After evaluating a generation, the costs in the attributes are those of the last one. *)
Definition evaluated_now (s : st) : Prop :=
  exists prev, gens (s_tr s) = prev ++ [(o_gen (s_obj s), o_evals (s_obj s))] /\
               Forall (fun gv => ~ nan_head gv) prev.

Lemma hoare_check : hoare numeric (check_generation c h)
  (fun r s => match r with Ok _ => evaluated_now s | Raise _ => numeric s end).
Proof.
  assert (Hk : forall rs, keeps (if c_parallelize c then parallel_rows h rs else apply_rows h rs))
    by (intros rs; destruct (c_parallelize c); [apply keeps_parallel|apply keeps_apply_rows]).
  intros s Hs. unfold check_generation, mbind, get_obj.
  specialize (Hk (a_rows (o_gen (s_obj s))) s).
  set (m := if c_parallelize c then parallel_rows h (a_rows (o_gen (s_obj s))) else apply_rows h (a_rows (o_gen (s_obj s)))) in *.
  destruct (m s) as [[rv|e] s1]; cbn [snd] in Hk.
  - cbn. exists (gens (s_tr s1)). cbn. rewrite gens_app. cbn. split; [reflexivity|]. rewrite Hk. exact Hs.
  - unfold numeric, num_heads. rewrite Hk. exact Hs.
Qed.

Lemma py_min_nan_where (v : f64) (vs : list f64) (b : f64) :
  isnan v = true -> py_min (v :: vs) = Ok b ->
  first_or_IndexError (np_where (fun x => feq x b) (v :: vs)) = Raise IndexError.
Proof.
  intros Hv Hb. pose proof (py_min_nan_head _ _ _ Hb Hv) as Hn.
  destruct (first_or_IndexError _) as [i|e] eqn:E.
  - destruct (np_where_first _ _ _ E) as [x [_ Hx]]. rewrite feq_nan_r in Hx by exact Hn. discriminate.
  - unfold first_or_IndexError in E. destruct (np_where _ _); congruence.
Qed.

Lemma evaluated_now_split (s : st) :
  evaluated_now s -> numeric s \/ (exists v vs, o_evals (s_obj s) = v :: vs /\ isnan v = true).
Proof.
  intros (prev & Hg & Hp). destruct (o_evals (s_obj s)) as [|v vs] eqn:E.
  - left. unfold numeric, num_heads. rewrite Hg. apply Forall_app. split; [exact Hp|]. constructor; [|constructor].
    intros (v & vs & Hv & _). discriminate.
  - destruct (isnan v) eqn:Hn; [right; eauto|left]. unfold numeric, num_heads. rewrite Hg.
    apply Forall_app. split; [exact Hp|]. constructor; [|constructor].
    intros (v' & vs' & Hv & Hn'). cbn in Hv. injection Hv as -> ->. congruence.
Qed.

Lemma evaluated_now_nan {A} (s s' : st) v vs :
  evaluated_now s -> o_evals (s_obj s) = v :: vs -> isnan v = true -> s_tr s' = s_tr s ->
  nan_ok (A:=A) (Raise IndexError) s'.
Proof.
  intros (prev & Hg & Hp) Hv Hn Htr. right. split; [reflexivity|]. rewrite Htr.
  exists prev, (o_gen (s_obj s), o_evals (s_obj s)). split; [exact Hg|]. split; [exact Hp|].
  exists v, vs. split; assumption.
Qed.

Lemma hoare_iteration ftol wn : hoare numeric (iteration c h ftol wn)
  (fun r s => nan_ok r s /\ (is_ok r = true -> numeric s)).
Proof.
  assert (Hbad : forall A B (e : exn) (s : st), numeric s -> nan_ok (A:=A) (Raise e) s /\ (is_ok (A:=B) (Raise e) = true -> numeric s))
    by (intros A B e s H; split; [left; exact H|intros _; exact H]).
  unfold iteration.
  apply hoare_step; [apply keeps_truncation| |intros e s Hs; apply Hbad, Hs]. intros _.
  apply hoare_step; [apply keeps_get| |intros e s Hs; apply Hbad, Hs]. intros o1.
  apply hoare_step; [apply keeps_lift| |intros e s Hs; apply Hbad, Hs]. intros g1.
  apply hoare_step; [apply keeps_set_gen| |intros e s Hs; apply Hbad, Hs]. intros _.
  apply hoare_step; [apply keeps_update_pm| |intros e s Hs; apply Hbad, Hs]. intros _.
  apply hoare_step; [apply keeps_new_generation| |intros e s Hs; apply Hbad, Hs]. intros _.
  eapply hoare_bind; [apply hoare_check| |intros e s Hs; apply Hbad, Hs]. intros u.
  intros s Hs. unfold mbind, get_obj, mlift.
  destruct (evaluated_now_split s Hs) as [Hnum|(v & vs & Hv & Hn)].
  - destruct (py_min (o_evals (s_obj s))) as [b|e]; [|apply Hbad, Hnum].
    destruct (first_or_IndexError _) as [i|e]; [|apply Hbad, Hnum].
    destruct (nth_error (a_rows (o_gen (s_obj s))) i) as [r|]; [|apply Hbad, Hnum].
    destruct (accept ftol b (o_best_cost (s_obj s))); cbn; (split; [left; exact Hnum|intros _; exact Hnum]).
  - destruct (py_min (o_evals (s_obj s))) as [b|e] eqn:Hb; [|rewrite Hv in Hb; discriminate].
    rewrite Hv in Hb. pose proof (py_min_nan_where _ _ _ Hn Hb) as Hw. rewrite <- Hv in Hw. rewrite Hw.
    split; [|discriminate]. eapply evaluated_now_nan; eauto.
Qed.

Lemma hoare_loop ftol out wn n : forall it hist nb,
  hoare numeric (loop c h ftol out wn n it hist nb) (fun r s => nan_ok r s /\ (is_ok r = true -> numeric s)).
Proof.
  assert (Hbad : forall A B (e : exn) (s : st), numeric s -> nan_ok (A:=A) (Raise e) s /\ (is_ok (A:=B) (Raise e) = true -> numeric s))
    by (intros A B e s H; split; [left; exact H|intros _; exact H]).
  induction n as [|n IH]; intros it hist nb; cbn [loop].
  - intros s Hs. cbn. split; [left; exact Hs|intros _; exact Hs].
  - eapply hoare_bind; [apply hoare_iteration| |].
    + intros [b acc]. cbn [fst snd]. cbv zeta.
      apply hoare_weaken with (P := numeric) (Q := fun r s => nan_ok r s /\ (is_ok r = true -> numeric s)).
      * intros s [_ Hs]. apply Hs. reflexivity.
      * auto.
      * destruct acc.
        -- apply hoare_step; [apply keeps_print| |intros e s Hs; apply Hbad, Hs]. intros _. apply IH.
        -- destruct (Z.eqb _ _).
           ++ intros s Hs. cbn. split; [left; exact Hs|intros _; exact Hs].
           ++ apply hoare_step; [apply keeps_print| |intros e s Hs; apply Hbad, Hs]. intros _. apply IH.
    + intros e s [H1 H2]. split; [eapply nan_ok_raise; exact H1|discriminate].
Qed.

Lemma hoare_first : hoare numeric (first_generation c h)
  (fun r s => nan_ok r s /\ (is_ok r = true -> numeric s)).
Proof.
  assert (Hbad : forall A B (e : exn) (s : st), numeric s -> nan_ok (A:=A) (Raise e) s /\ (is_ok (A:=B) (Raise e) = true -> numeric s))
    by (intros A B e s H; split; [left; exact H|intros _; exact H]).
  unfold first_generation.
  apply hoare_step; [unfold initialize_generation; destruct (c_init_data c); [apply keeps_ret|apply keeps_world]
                     | |intros e s Hs; apply Hbad, Hs]. intros g.
  apply hoare_step; [apply keeps_set_gen| |intros e s Hs; apply Hbad, Hs]. intros _.
  eapply hoare_bind; [apply hoare_check| |intros e s Hs; apply Hbad, Hs]. intros u.
  intros s Hs. unfold mbind, get_obj, mlift, put_obj, mret.
  destruct (evaluated_now_split s Hs) as [Hnum|(v & vs & Hv & Hn)].
  - destruct (a_rows (o_gen (s_obj s))) as [|r0 rs]; [apply Hbad, Hnum|].
    destruct (o_evals (s_obj s)) as [|e0 es]; [apply Hbad, Hnum|].
    destruct (py_min (e0 :: es)) as [b|e]; [|apply Hbad; exact Hnum].
    destruct (first_or_IndexError _) as [i|e]; [|apply Hbad; exact Hnum].
    split; [left; exact Hnum|intros _; exact Hnum].
  - rewrite Hv. destruct (a_rows (o_gen (s_obj s))) as [|r0 rs].
    + split; [|discriminate]. eapply evaluated_now_nan; eauto.
    + destruct (py_min (v :: vs)) as [b|e] eqn:Hb; [|discriminate].
      rewrite (py_min_nan_where _ _ _ Hn Hb). split; [|discriminate]. eapply evaluated_now_nan; eauto.
Qed.

Lemma hoare_minimize ftol out : hoare numeric (minimize c h ftol out)
  (fun r s => nan_ok r s /\ (is_ok r = true -> numeric s)).
Proof.
  assert (Hbad : forall A B (e : exn) (s : st), numeric s -> nan_ok (A:=A) (Raise e) s /\ (is_ok (A:=B) (Raise e) = true -> numeric s))
    by (intros A B e s H; split; [left; exact H|intros _; exact H]).
  unfold minimize.
  eapply hoare_bind; [apply hoare_first| |intros e s [H1 _]; split; [eapply nan_ok_raise; exact H1|discriminate]].
  intros b0.
  apply hoare_weaken with (P := numeric) (Q := fun r s => nan_ok r s /\ (is_ok r = true -> numeric s));
    [intros s [_ Hs]; apply Hs; reflexivity|auto|].
  apply hoare_step; [apply keeps_draw_noise| |intros e s Hs; apply Hbad, Hs]. intros wn.
  apply hoare_step; [apply keeps_print| |intros e s Hs; apply Hbad, Hs]. intros _.
  eapply hoare_bind; [apply hoare_loop| |intros e s [H1 _]; split; [eapply nan_ok_raise; exact H1|discriminate]].
  intros hist. cbv zeta.
  apply hoare_weaken with (P := numeric) (Q := fun r s => nan_ok r s /\ (is_ok r = true -> numeric s));
    [intros s [_ Hs]; apply Hs; reflexivity|auto|].
  apply hoare_step; [apply keeps_print| |intros e s Hs; apply Hbad, Hs]. intros _.
  intros s Hs. cbn. split; [left; exact Hs|intros _; exact Hs].
Qed.

(** If some generation starts with a NaN cost, the run raises IndexError right there. *)
Lemma nan_lemma ftol out (s s' : st) (r : res result) :
  s_tr s = [] -> minimize c h ftol out s = (r, s') ->
  (exists gv, In gv (gens (s_tr s')) /\ nan_head gv) ->
  r = Raise IndexError /\
  exists prev gv, gens (s_tr s') = prev ++ [gv] /\ nan_head gv /\ Forall (fun gv => ~ nan_head gv) prev.
Proof.
  intros Htr H (gv & Hin & Hn).
  pose proof (hoare_minimize ftol out s) as Hm. rewrite H in Hm.
  destruct Hm as [[Hnum|(Hr & prev & gv' & Hg & Hp & Hn')] _].
  - unfold numeric, num_heads. rewrite Htr. constructor.
  - unfold num_heads in Hnum. rewrite Forall_forall in Hnum. destruct (Hnum gv Hin Hn).
  - split; [exact Hr|]. exists prev, gv'. auto.
Qed.

(* ------------------------------------------------------------------ *)
(** ** What is printed *)

Lemma prints_step ftol wn (s s' : st) b acc :
  iter_facts c h ftol wn s s' b acc ->
  prints (s_tr s') = prints (s_tr s) /\ o_best_cost (s_obj s') = best_step ftol (o_best_cost (s_obj s)) b.
Proof.
  intros H. destruct H. subst s'. cbn [s_tr s_obj o_best_cost].
  rewrite !prints_app, prints_calls_of. cbn. rewrite app_nil_r. split; [reflexivity|].
  unfold best_step. rewrite if_acc. reflexivity.
Qed.

(** Every progress line reports the best cost of the history up to that iteration, and lines
    are numbered consecutively. *)
Lemma loop_prints ftol out wn n : forall it hist nb s hist' s',
  loop c h ftol out wn n it hist nb s = (Ok hist', s') ->
  hist <> [] -> o_best_cost (s_obj s) = run_best ftol hist ->
  exists m, m <= List.length hist' - List.length hist /\
    (exists tl, hist' = hist ++ tl) /\
    prints (s_tr s') = prints (s_tr s) ++
      (if out then map (fun k => PrIter (it + Z.of_nat k) (run_best ftol (firstn (List.length hist + 1 + k) hist'))) (seq 0 m) else []) /\
    (List.length hist' - List.length hist <= Datatypes.S m).
Proof.
  induction n as [|n IH]; intros it hist nb s hist' s' H Hne Hb; cbn [loop] in H.
  - apply mret_ok in H as [-> ->]. exists 0. split; [lia|]. split; [exists []; rewrite app_nil_r; reflexivity|].
    split; [|lia]. destruct out; cbn; rewrite app_nil_r; reflexivity.
  - apply mbind_ok in H as ([b acc] & s1 & Hit & H). apply iteration_inv in Hit.
    destruct (prints_step _ _ _ _ _ _ Hit) as [Hp1 Hb1]. cbn [fst snd] in H. cbv zeta in H.
    assert (Hb1' : o_best_cost (s_obj s1) = run_best ftol (hist ++ [b])).
    { rewrite run_best_snoc by exact Hne. rewrite <- Hb. exact Hb1. }
    assert (Hcont : forall nb2, mbind (print_if out (fun o => PrIter it (o_best_cost o)))
              (fun _ => loop c h ftol out wn n (it + 1) (hist ++ [b]) nb2) s1 = (Ok hist', s') ->
       exists m, m <= List.length hist' - List.length hist /\
        (exists tl, hist' = hist ++ tl) /\
        prints (s_tr s') = prints (s_tr s) ++
          (if out then map (fun k => PrIter (it + Z.of_nat k) (run_best ftol (firstn (List.length hist + 1 + k) hist'))) (seq 0 m) else []) /\
        (List.length hist' - List.length hist <= Datatypes.S m)).
    { intros nb2 H2. apply mbind_ok in H2 as (u & s2 & Hpr & H2).
      assert (Hs2 : prints (s_tr s2) = prints (s_tr s1) ++ (if out then [PrIter it (o_best_cost (s_obj s1))] else []) /\
                    s_obj s2 = s_obj s1).
      { unfold print_if in Hpr. destruct out.
        - apply mbind_ok in Hpr as (o & s3 & Ho & Hpr). apply get_obj_ok in Ho as [-> ->]. apply log_ok in Hpr as ->.
          cbn. rewrite prints_app. split; reflexivity.
        - apply mret_ok in Hpr as [_ ->]. rewrite app_nil_r. split; reflexivity. }
      destruct Hs2 as [Hs2 Ho2].
      destruct (IH _ _ _ _ _ _ H2) as (m & Hm & [tl Htl] & Hpr2 & Hm2).
      - destruct hist; discriminate.
      - rewrite Ho2. exact Hb1'.
      - rewrite app_length in Hm, Hm2, Hpr2. cbn [List.length] in Hm, Hm2, Hpr2.
        assert (Hl : List.length hist' = List.length hist + 1 + List.length tl)
          by (rewrite Htl, !app_length; reflexivity).
        exists (Datatypes.S m). split; [lia|]. split; [exists (b :: tl); rewrite Htl, <- app_assoc; reflexivity|].
        split; [|lia]. rewrite Hpr2, Hs2, Hp1, <- app_assoc. f_equal. destruct out; [|reflexivity].
        cbn [seq map app]. rewrite Nat.add_0_r, Z.add_0_r. f_equal.
        + rewrite Hb1'. f_equal. f_equal. rewrite Htl.
          replace (List.length hist + 1) with (List.length (hist ++ [b])) by (rewrite app_length; reflexivity).
          rewrite firstn_app, Nat.sub_diag, firstn_all. cbn. rewrite app_nil_r. reflexivity.
        + rewrite <- seq_shift, map_map. apply map_ext. intros k. f_equal; [lia|]. f_equal. f_equal. lia. }
    destruct acc; [apply (Hcont _ H)|].
    destruct (Z.eqb _ _); [|apply (Hcont _ H)].
    apply mret_ok in H as [-> ->]. exists 0. rewrite app_length. cbn [List.length].
    split; [lia|]. split; [exists [b]; reflexivity|]. split; [|lia].
    rewrite Hp1. destruct out; cbn; rewrite app_nil_r; reflexivity.
Qed.

Lemma prints_lemma ftol out (s : st) (r : result) (tr : list ev) :
  completes c h ftol out s r tr ->
  exists m, m <= List.length (r_history r) <= Datatypes.S m /\
    prints tr =
      (if out then map (fun k => PrIter (Z.of_nat k) (run_best ftol (firstn (1 + k) (r_history r)))) (seq 0 m) else []) ++
      (if c_disp c then [PrFinal (r_nfev r) (r_best_cost r) (r_best_ind r)] else []).
Proof.
  intros [Htr [s' [H Htr']]]. unfold minimize in H.
  apply mbind_ok in H as (b0 & s1 & H1 & H). apply first_generation_inv in H1.
  apply mbind_ok in H as (wn & s2 & H2 & H). apply draw_noise_inv in H2 as [Hwn [w2 Hs2]].
  apply mbind_ok in H as (u & s3 & H3 & H).
  apply mbind_ok in H as (hist & s4 & H4 & H).
  apply mbind_ok in H as (u2 & s5 & H5 & H).
  apply mbind_ok in H as (o & s6 & H6 & H). apply get_obj_ok in H6 as [-> ->].
  apply mret_ok in H as [Hr Hs']. subst s'.
  assert (Hp1 : prints (s_tr s1) = [] /\ o_best_cost (s_obj s1) = b0).
  { destruct H1. subst s1. cbn. rewrite Htr, !prints_app, prints_calls_of. split; reflexivity. }
  assert (Hp3 : prints (s_tr s3) = (if out then [PrIter 0 b0] else []) /\ o_best_cost (s_obj s3) = b0).
  { subst s2. unfold print_if in H3. destruct out.
    - apply mbind_ok in H3 as (o & s7 & Ho & H3). apply get_obj_ok in Ho as [-> ->]. apply log_ok in H3 as ->.
      cbn. rewrite prints_app. destruct Hp1 as [-> ->]. split; reflexivity.
    - apply mret_ok in H3 as [_ ->]. cbn. exact Hp1. }
  destruct Hp3 as [Hp3 Hb3].
  destruct (loop_prints _ _ _ _ _ _ _ _ _ _ H4) as (m & Hm & [tl Htl] & Hp4 & Hm2); [discriminate|exact Hb3|].
  cbn [List.length] in *.
  assert (Hlen : List.length hist = Datatypes.S (List.length tl)) by (rewrite Htl; reflexivity).
  assert (Hp5 : prints (s_tr s5) = prints (s_tr s4) ++
     (if c_disp c then [PrFinal (Z.of_nat (List.length hist) * c_size_gen c) (o_best_cost (s_obj s4)) (o_best_ind (s_obj s4))] else []) /\
     s_obj s5 = s_obj s4).
  { unfold print_if in H5. destruct (c_disp c).
    - apply mbind_ok in H5 as (o & s7 & Ho & H5). apply get_obj_ok in Ho as [-> ->]. apply log_ok in H5 as ->.
      cbn. rewrite prints_app. split; reflexivity.
    - apply mret_ok in H5 as [_ ->]. rewrite app_nil_r. split; reflexivity. }
  destruct Hp5 as [Hp5 Ho5].
  exists (Datatypes.S m). rewrite Hr. cbn [r_history r_nfev r_best_cost r_best_ind]. split; [lia|].
  rewrite <- Htr', Hp5, Hp4, Hp3, Ho5. f_equal. destruct out; [|reflexivity].
  cbn [app seq map]. f_equal; [rewrite Htl; reflexivity|].
  rewrite <- seq_shift, map_map. apply map_ext. intros k. f_equal. lia.
Qed.

(* ------------------------------------------------------------------ *)
(** ** Parallel evaluation of a pure cost function *)

Section Pure.
Variable f : row -> num.
Hypothesis Hf : forall r w, h_cost h r w = (Ok (f r), w).

Lemma call_rows_pure rs (s : st) :
  call_rows h rs s = (Ok (map f rs), mkSt (s_obj s) (s_pm s) (s_w s) (s_tr s ++ calls_of rs (map f rs))).
Proof.
  revert s. induction rs as [|r rs IH]; intros s; cbn [call_rows].
  - cbn. rewrite app_nil_r. destruct s; reflexivity.
  - unfold mbind, call1, mbind, with_world, log, mret. rewrite Hf, IH. cbn. rewrite <- app_assoc. reflexivity.
Qed.

Lemma apply_rows_pure rs (s : st) : rs <> [] ->
  apply_rows h rs s = (Ok (map f rs, store_all (map f rs)),
                       mkSt (s_obj s) (s_pm s) (s_w s) (s_tr s ++ calls_of rs (map f rs))).
Proof.
  intros Hne. unfold apply_rows. destruct rs as [|r rs]; [congruence|]. unfold mbind. rewrite call_rows_pure. reflexivity.
Qed.

Lemma run_chunks_pure chs : Forall (fun ch => ch <> []) chs -> forall i o p ws,
  run_chunks h i chs o p ws =
  (map (fun ch => Ok (map f ch, store_all (map f ch))) chs, calls_of (concat chs) (map f (concat chs))).
Proof.
  induction 1 as [|ch chs Hch _ IH]; intros i o p ws; cbn [run_chunks]; [reflexivity|].
  unfold run_chunk. rewrite apply_rows_pure by exact Hch. cbn [s_w s_tr]. rewrite IH. cbn [map concat].
  rewrite map_app, calls_of_app by (rewrite map_length; reflexivity). reflexivity.
Qed.

Lemma failures_map {A B} (g : A -> B) l : failures (map (fun x => Ok (g x)) l) = [].
Proof. induction l; cbn; auto. Qed.
Lemma successes_map {A B} (g : A -> B) l : successes (map (fun x => Ok (g x)) l) = map g l.
Proof. induction l; cbn; auto. f_equal; auto. Qed.

(** All results of one kind: floats only, or ints only. *)
Definition uniform (rs : list row) : Prop :=
  (forall r, In r rs -> exists x, f r = NF x) \/ (forall r, In r rs -> exists z, f r = NI z).

Lemma store_all_app_uniform a b :
  uniform (a ++ b) -> store_all (map f (a ++ b)) = store_all (map f a) ++ store_all (map f b).
Proof.
  intros Hu. destruct a as [|r0 a]; [reflexivity|]. cbn [app map store_all].
  rewrite map_app, map_app. cbn [app]. f_equal. f_equal.
  destruct b as [|r1 b]; [reflexivity|].
  change (store_all (map f (r1 :: b))) with (map (store_as (f r1)) (map f (r1 :: b))).
  apply map_ext_in. intros v Hv. apply in_map_iff in Hv as [r [<- Hr]].
  assert (Hr' : In r ((r0 :: a) ++ r1 :: b)) by (apply in_or_app; right; exact Hr).
  destruct Hu as [Hu|Hu].
  - destruct (Hu r0) as [x0 ->]; [left; reflexivity|]. destruct (Hu r1) as [x1 ->]; [apply in_or_app; right; left; reflexivity|].
    destruct (Hu r Hr') as [x ->]. reflexivity.
  - destruct (Hu r0) as [x0 ->]; [left; reflexivity|]. destruct (Hu r1) as [x1 ->]; [apply in_or_app; right; left; reflexivity|].
    destruct (Hu r Hr') as [x ->]. reflexivity.
Qed.

Lemma store_all_concat_uniform chs :
  uniform (concat chs) -> concat (map (fun ch => store_all (map f ch)) chs) = store_all (map f (concat chs)).
Proof.
  induction chs as [|ch chs IH]; intros Hu; [reflexivity|]. cbn [map concat] in *.
  rewrite store_all_app_uniform by exact Hu. f_equal. apply IH.
  destruct Hu as [Hu|Hu]; [left|right]; intros r Hr; apply Hu, in_or_app; right; exact Hr.
Qed.

Lemma parallel_serial_lemma rs (s : st) :
  uniform rs -> cpu_count (h_pool h) <= List.length rs ->
  parallel_rows h rs s = apply_rows h rs s.
Proof.
  intros Hu Hn.
  assert (Hcat : concat (array_split (cpu_count (h_pool h)) rs) = rs)
    by (apply array_split_concat; unfold cpu_count; lia).
  unfold parallel_rows. rewrite run_chunks_pure by (apply array_split_nonempty; [unfold cpu_count; lia|exact Hn]).
  rewrite failures_map, successes_map, Hcat, !map_map. cbn [fst snd].
  rewrite apply_rows_pure by (destruct rs; [unfold cpu_count in Hn; cbn in Hn; lia|discriminate]).
  rewrite store_all_concat_uniform by (rewrite Hcat; exact Hu). rewrite Hcat.
  replace (concat (map (fun ch => map f ch) (array_split (cpu_count (h_pool h)) rs))) with (map f rs); [reflexivity|].
  rewrite <- concat_map, Hcat. reflexivity.
Qed.

(** With fewer individuals than cores, parallel evaluation raises. *)
Lemma parallel_too_small rs (s : st) :
  List.length rs < cpu_count (h_pool h) -> exists e s', parallel_rows h rs s = (Raise e, s').
Proof.
  intros Hn. destruct (parallel_rows h rs s) as [[[vs vals]|e] s'] eqn:E; [|eauto]. exfalso.
  unfold parallel_rows in E.
  destruct (run_chunks h 0 _ (s_obj s) (s_pm s) (fun _ => s_w s)) as [results tr] eqn:Hr.
  destruct (failures results) as [|e0 es] eqn:Hfl; [|discriminate].
  destruct (run_chunks_inv _ _ _ _ _ _ _ _ Hr Hfl) as [Hne _].
  assert (Hk : cpu_count (h_pool h) <> 0) by (unfold cpu_count; lia).
  pose proof (array_split_concat (cpu_count (h_pool h)) rs Hk) as Hcat.
  pose proof (array_split_length (cpu_count (h_pool h)) rs Hk) as Hlen.
  remember (array_split (cpu_count (h_pool h)) rs) as chs eqn:Echs. clear Echs Hr.
  rewrite <- Hlen, <- Hcat in Hn. clear - Hne Hn.
  induction Hne as [|ch chs Hch _ IH]; cbn [concat List.length] in *; [lia|].
  rewrite app_length in Hn. destruct ch; [congruence|]. cbn [List.length] in *. lia.
Qed.

End Pure.
End Any.
