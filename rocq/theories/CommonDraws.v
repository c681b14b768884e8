(** Which state the random generator is in when a generation is drawn. *)
From Coq Require Import String List ZArith Bool Lia.
From Verif Require Import PyBase B64 NdArray Eda EdaInv Spec LoopObs LoopThms Select LoopTrain LoopDrawn LoopMore LoopFail FailThms.
Import ListNotations.
Open Scope nat_scope.

Section Common.
Context {S W : Type}.
Variable c : cfg.
Variable h : hooks S W.

Local Notation st := (st S W).

(** The cost function does not disturb the generator: it draws nothing, or is called in other processes. *)
Definition quiet_cost : Prop := c_parallelize c = true \/ forall r w, snd (h_cost h r w) = w.

(** The generator at the head of the loop: after the initial generation and the noise. *)
Definition loop_world (w : W) : W :=
  let w1 := match c_init_data c with Some _ => w | None => snd (h_init h w) end in
  if py_eq_int (c_w_noise c) 0 then w1 else if py_eq_int (c_w_noise c) (-1) then w1
  else snd (h_normal h (num_to_f (c_w_noise c)) w1).

Lemma call_rows_world rs : (forall r w, snd (h_cost h r w) = w) -> forall s : st, s_w (snd (call_rows h rs s)) = s_w s.
Proof.
  intros Q. induction rs as [|r rs IH]; intros s; [reflexivity|]. cbn [call_rows]. cbv [mbind call1 with_world log mret].
  pose proof (Q r (s_w s)) as Hq. destruct (h_cost h r (s_w s)) as [[v|e] w']; cbn [snd] in Hq; [|exact Hq].
  cbn [s_obj s_pm s_w s_tr].
  specialize (IH (mkSt (s_obj s) (s_pm s) w' (s_tr s ++ [EvCall r v]))).
  destruct (call_rows h rs _) as [[vs|e] s2]; cbn [snd s_w] in *; congruence.
Qed.

Lemma check_generation_world (s s' : st) r : quiet_cost -> check_generation c h s = (r, s') -> s_w s' = s_w s.
Proof.
  intros Q H. cbv [check_generation mbind get_obj put_obj log] in H. destruct Q as [Q|Q].
  - rewrite Q in H. unfold parallel_rows in H. destruct (run_chunks h 0 _ _ _ _) as [results tr].
    destruct (failures results); match type of H with (_, ?x) = _ => assert (E : s' = x) by congruence end; rewrite E; reflexivity.
  - destruct (c_parallelize c).
    + unfold parallel_rows in H. destruct (run_chunks h 0 _ _ _ _) as [results tr].
      destruct (failures results); match type of H with (_, ?x) = _ => assert (E : s' = x) by congruence end; rewrite E; reflexivity.
    + unfold apply_rows in H. destruct (a_rows (o_gen (s_obj s))) as [|r0 rs] eqn:Er.
      * cbv [mraise] in H. congruence.
      * pose proof (call_rows_world (r0 :: rs) Q s) as Hw. cbv [mbind mret] in H.
        destruct (call_rows h (r0 :: rs) s) as [[vs|e] s1]; cbn [snd] in Hw;
          match type of H with (_, ?x) = _ => assert (E : s' = x) by congruence end; rewrite E; exact Hw.
Qed.

Lemma first_generation_world (s s' : st) b : quiet_cost -> first_generation c h s = (Ok b, s') ->
  s_w s' = match c_init_data c with Some _ => s_w s | None => snd (h_init h (s_w s)) end.
Proof.
  intros Q H. unfold first_generation in H.
  apply mbind_ok in H as (g & s1 & Hi & H). apply mbind_ok in H as (u1 & s2 & H1 & H). apply set_gen_ok in H1.
  apply mbind_ok in H as (u2 & s3 & H2 & H). apply (check_generation_world _ _ _ Q) in H2.
  assert (E : s_w s' = s_w s3).
  { apply mbind_ok in H as (o & s3' & H3 & H). apply get_obj_ok in H3 as [-> ->].
    apply mbind_ok in H as (r0 & s3' & H3 & H). apply mlift_ok in H3 as [_ ->].
    apply mbind_ok in H as (e0 & s3' & H3 & H). apply mlift_ok in H3 as [_ ->].
    apply mbind_ok in H as (u4 & s4 & H3 & H). apply put_obj_ok in H3.
    apply mbind_ok in H as (b' & s4' & H4 & H). apply mlift_ok in H4 as [_ ->].
    apply mbind_ok in H as (o' & s4' & H4 & H). apply get_obj_ok in H4 as [-> ->].
    apply mbind_ok in H as (u5 & s5 & H4 & H). apply put_obj_ok in H4.
    apply mbind_ok in H as (i & s5' & H5 & H). apply mlift_ok in H5 as [_ ->].
    apply mbind_ok in H as (u6 & s6 & H5 & H). apply put_obj_ok in H5. apply mret_ok in H as [_ ->]. subst s6 s5 s4. reflexivity. }
  rewrite E, H2. subst s2. cbn [s_w].
  unfold initialize_generation in Hi. destruct (c_init_data c) as [d|].
  - cbv [mret] in Hi. congruence.
  - cbv [with_world] in Hi. destruct (h_init h (s_w s)) as [r w1].
    match type of Hi with (_, ?x) = _ => assert (E' : s1 = x) by congruence end. rewrite E'. reflexivity.
Qed.

Lemma draw_noise_world (s s' : st) wn : draw_noise c h s = (Ok wn, s') ->
  s_w s' = if py_eq_int (c_w_noise c) 0 then s_w s else if py_eq_int (c_w_noise c) (-1) then s_w s
           else snd (h_normal h (num_to_f (c_w_noise c)) (s_w s)).
Proof.
  unfold draw_noise. intros H. destruct (py_eq_int _ 0); [cbv [mret] in H; congruence|].
  destruct (py_eq_int _ (-1)); [cbv [mret] in H; congruence|].
  destruct (_ || _ || _)%bool; [discriminate|]. cbv [mbind mret] in H. destruct (h_normal h _ _) as [d w'].
  match type of H with (_, ?x) = _ => assert (E : s' = x) by congruence end. rewrite E. reflexivity.
Qed.

Lemma printed_world (s s' : st) : printed_after s s' -> s_w s' = s_w s.
Proof. intros (ps & _ & ->). reflexivity. Qed.

(** ** The generator along a run *)

Variable p0 : S.
Variable step : W -> W.
Hypothesis Quiet : quiet_cost.
Hypothesis Learn : forall ds p gen elite d p1 w p2 w2, trained h p0 ds p -> h_data h gen elite p = (Ok d, p1) ->
  h_learn h d p1 w = (Ok tt, (p2, w2)) -> w2 = w.
Hypothesis Step : forall ds p w g w', trained h p0 ds p -> h_sample h p w = (Ok g, w') -> w' = step w.

Lemma iteration_world ftol wn (s s' : st) b acc ds : trained h p0 ds (s_pm s) ->
  iteration c h ftol wn s = (Ok (b, acc), s') -> s_w s' = step (s_w s).
Proof.
  intros T H. unfold iteration in H.
  apply mbind_ok in H as ([] & s1 & Ht & H).
  apply truncation_inv in Ht as [gen' [evals' [elite' [evel' [Hsel Hs1]]]]].
  apply mbind_ok in H as (o1 & s1' & H1 & H). apply get_obj_ok in H1 as [-> ->].
  apply mbind_ok in H as (noisy & s1' & H1 & H). apply mlift_ok in H1 as [Hi ->].
  apply mbind_ok in H as (u1 & s2 & H1 & H). apply set_gen_ok in H1.
  apply mbind_ok in H as (u2 & s3 & Hu & H). apply update_pm_ok in Hu as (data & p1 & p2 & w2 & Hd & Hl & Hs3).
  apply mbind_ok in H as (u3 & s4 & Hn & H). apply new_generation_ok in Hn as (g & w3 & Hsm & Hs4).
  apply mbind_ok in H as ([] & s5 & Hck & H). apply (check_generation_world _ _ _ Quiet) in Hck.
  assert (E : s_w s' = s_w s5).
  { apply mbind_ok in H as (o & s5' & H2 & H). apply get_obj_ok in H2 as [-> ->].
    apply mbind_ok in H as (b' & s5' & H2 & H). apply mlift_ok in H2 as [_ ->].
    apply mbind_ok in H as (i & s5' & H2 & H). apply mlift_ok in H2 as [_ ->].
    apply mbind_ok in H as (r & s5' & H2 & H). apply mlift_ok in H2 as [_ ->].
    destruct (accept _ _ _); cbv [mbind put_obj mret] in H;
      match type of H with (_, ?x) = _ => assert (E : s' = x) by congruence end; rewrite E; reflexivity. }
  rewrite E, Hck. subst s4 s3 s2 s1. cbn [s_pm s_obj o_gen o_elite s_w] in *.
  assert (T2 : trained h p0 (ds ++ [data]) p2) by (econstructor; eassumption).
  rewrite (Step _ _ _ _ _ T2 Hsm). f_equal. exact (Learn _ _ _ _ _ _ _ _ _ T Hd Hl).
Qed.

(** Generation k + 1 is drawn with the generator advanced k steps from the head of the loop. *)
Definition placed (w0 : W) (tr : list ev) (e : ev) : Prop :=
  match e with
  | EvGen g _ _ => forall k, List.length (learns tr) = Datatypes.S k ->
      exists p w', trained h p0 (learns tr) p /\ h_sample h p (Nat.iter k step w0) = (Ok g, w')
  | _ => True
  end.

Definition placed_inv (w0 : W) (s : st) : Prop :=
  s_w s = Nat.iter (List.length (learns (s_tr s))) step w0 /\ trained h p0 (learns (s_tr s)) (s_pm s) /\
  each_event (placed w0) (s_tr s).

Lemma placed_printed w0 (s s' : st) : placed_inv w0 s -> printed_after s s' -> placed_inv w0 s'.
Proof.
  intros (A & B & C) H. pose proof (printed_world _ _ H) as Hw. assert (P : each_event (placed w0) (s_tr s')).
  { eapply printed_after_each; [|exact H|exact C]. intros; exact I. }
  destruct H as (ps & Hps & ->). apply prints_quiet in Hps as [E _]. unfold placed_inv. cbn [s_tr s_pm s_w] in *.
  rewrite learns_app, E, app_nil_r. auto.
Qed.

Lemma placed_event w0 (s : st) sel data p1 p2 w2 g w3 gen elite rs rets vals :
  placed_inv w0 s -> (match sel with EvSelect _ _ => True | _ => False end) ->
  h_data h gen elite (s_pm s) = (Ok data, p1) -> h_learn h data p1 (s_w s) = (Ok tt, (p2, w2)) -> h_sample h p2 w2 = (Ok g, w3) ->
  let tr' := s_tr s ++ [sel; EvLearn data] ++ calls_of rs rets ++ [EvGen g rets vals] in
  trained h p0 (learns tr') p2 /\ List.length (learns tr') = Datatypes.S (List.length (learns (s_tr s))) /\ each_event (placed w0) tr'.
Proof.
  intros (A & B & C) Hsel Hd Hl Hs tr'. destruct sel as [| |t0 e0| |]; try contradiction.
  assert (T : trained h p0 (learns (s_tr s) ++ [data]) p2) by (econstructor; eassumption).
  unfold tr'. split; [|split].
  - rewrite !learns_app, learns_calls_of. cbn. exact T.
  - rewrite !learns_app, learns_calls_of. cbn. rewrite app_length. cbn. lia.
  - rewrite !app_assoc. apply each_event_snoc.
    + apply each_calls; [intros; exact I|]. apply each_event_extend; [exact C|]. intros t e [<-|[<-|[]]]; exact I.
    + cbn [placed]. rewrite !learns_app, learns_calls_of. cbn [learns flat_map app]. rewrite !app_nil_r.
      intros k Hk. rewrite app_length in Hk. cbn [List.length] in Hk. exists p2, w3. split; [exact T|].
      assert (Ek : k = List.length (learns (s_tr s))) by lia. rewrite Ek, <- A. rewrite <- (Learn _ _ _ _ _ _ _ _ _ B Hd Hl). exact Hs.
Qed.

Lemma placed_iteration w0 ftol wn (s s' : st) b acc :
  placed_inv w0 s -> iteration c h ftol wn s = (Ok (b, acc), s') ->
  placed_inv w0 s' /\ List.length (learns (s_tr s')) = Datatypes.S (List.length (learns (s_tr s))).
Proof.
  intros HI H. pose proof HI as (A & B & C). pose proof (iteration_world _ _ _ _ _ _ _ B H) as Hw. apply iteration_inv in H. destruct H.
  pose proof (placed_event w0 s (EvSelect (combine (a_rows if_gen') if_evals') (combine (a_rows if_elite') if_evel'))
                if_data if_p1 if_p2 if_w2 if_g if_w3 if_noisy if_elite' (a_rows if_g) if_rets if_vals HI I if_hdata if_learn if_sample) as Hl0.
  cbv zeta in Hl0.
  destruct Hl0 as (T & L & P). subst s'. cbn [s_w s_tr s_pm] in *. split; [split; [|split]|].
  - etransitivity; [exact Hw|]. cbn [s_tr]. rewrite L, A. reflexivity.
  - exact T.
  - exact P.
  - exact L.
Qed.

Lemma placed_failed w0 ftol wn (s s' : st) e : placed_inv w0 s -> iteration c h ftol wn s = (Raise e, s') -> each_event (placed w0) (s_tr s').
Proof.
  intros HI H. apply iteration_fail in H. assert (C : each_event (placed w0) (s_tr s)) by apply HI.
  assert (HP : forall t x v, placed w0 t (EvCall x v)) by (intros; exact I).
  assert (C2 : forall t el d, each_event (placed w0) (s_tr s ++ [EvSelect t el; EvLearn d])).
  { intros t el d. apply each_event_extend; [exact C|]. intros t0 e0 [<-|[<-|[]]]; exact I. }
  destruct H as [E|gen' evals' elite' evel' _ E|gen' evals' elite' evel' noisy data p1 _ _ _ E
                 |gen' evals' elite' evel' noisy data p1 p2 w2 g w3 l _ _ _ _ _ Hl E
                 |gen' evals' elite' evel' noisy data p1 p2 w2 g w3 rets vals _ _ Hd Hl Hs _ _ E]; rewrite E.
  - exact C.
  - apply each_event_snoc; [exact C|exact I].
  - apply C2.
  - rewrite app_assoc. eapply each_on_rows; [exact HP|apply C2|exact Hl].
  - eapply placed_event; try eassumption. exact I.
Qed.

Lemma placed_loop w0 ftol out wn : forall n it hist nb (s : st) r s', placed_inv w0 s ->
  loop c h ftol out wn n it hist nb s = (r, s') ->
  each_event (placed w0) (s_tr s') /\
  forall hist', r = Ok hist' -> s_w s' = Nat.iter (List.length (learns (s_tr s'))) step w0 /\
    List.length hist' + List.length (learns (s_tr s)) = List.length hist + List.length (learns (s_tr s')).
Proof.
  induction n as [|n IH]; intros it hist nb s r s' HI H; cbn [loop] in H.
  { cbv [mret] in H. assert (s' = s) by congruence. subst s'. split; [apply HI|]. intros hist' E. split; [apply HI|].
    assert (hist' = hist) by congruence. subst. reflexivity. }
  unfold mbind at 1 in H. destruct (iteration c h ftol wn s) as [[[b acc]|e] s1] eqn:Hit.
  - destruct (placed_iteration _ _ _ _ _ _ _ HI Hit) as [HI1 L1]. cbn [fst snd] in H. cbv zeta in H.
    assert (Hcont : forall nb2, mbind (print_if out (fun o => PrIter it (o_best_cost o)))
              (fun _ => loop c h ftol out wn n (it + 1) (hist ++ [b]) nb2) s1 = (r, s') ->
              each_event (placed w0) (s_tr s') /\
              forall hist', r = Ok hist' -> s_w s' = Nat.iter (List.length (learns (s_tr s'))) step w0 /\
                List.length hist' + List.length (learns (s_tr s)) = List.length hist + List.length (learns (s_tr s'))).
    { intros nb2 H2. unfold mbind at 1 in H2. destruct (print_if out _ s1) as [r2 s2] eqn:Hp. apply print_if_inv in Hp as [-> Hp].
      destruct (IH _ _ _ _ _ _ (placed_printed _ _ _ HI1 Hp) H2) as [Q1 Q2]. split; [exact Q1|].
      intros hist' E. destruct (Q2 hist' E) as [Q3 Q4]. split; [exact Q3|].
      assert (L2 : List.length (learns (s_tr s2)) = List.length (learns (s_tr s1))).
      { destruct Hp as (ps & Hps & ->). apply prints_quiet in Hps as [El _]. cbn [s_tr]. rewrite learns_app, El, app_nil_r. reflexivity. }
      rewrite app_length in Q4. cbn [List.length] in Q4. lia. }
    destruct acc; [eapply Hcont, H|]. destruct (Z.eqb _ _); [|eapply Hcont, H].
    cbv [mret] in H. assert (s' = s1) by congruence. subst s'. split; [apply HI1|]. intros hist' E. split; [apply HI1|].
    assert (hist' = hist ++ [b]) by congruence. subst hist'. rewrite app_length. cbn [List.length]. lia.
  - assert (s' = s1) by congruence. subst s'. split; [eapply placed_failed; eassumption|]. intros hist' E. congruence.
Qed.

Lemma placed_first w0 (s s1 : st) w1 b : s_tr s = [] -> p0 = s_pm s -> w1 = w0 -> first_facts c h s s1 b ->
  placed_inv w0 (mkSt (s_obj s1) (s_pm s1) w1 (s_tr s1)) /\ learns (s_tr s1) = [].
Proof.
  intros Htr Hp Hw Hf. destruct Hf. subst s1. cbn [s_tr s_pm s_obj]. rewrite Htr. cbn [app].
  unfold placed_inv. cbn [s_w s_tr s_pm].
  assert (El : learns (calls_of (a_rows ff_g) ff_rets ++ [EvGen ff_g ff_rets ff_vals]) = []).
  { rewrite learns_app, learns_calls_of. reflexivity. }
  rewrite !El. split; [|reflexivity]. split; [exact Hw|]. split; [rewrite <- Hp; constructor|].
  apply each_event_snoc; [apply (each_calls (placed w0) []); [intros; exact I|apply each_event_nil]|].
  cbn [placed]. rewrite learns_calls_of. discriminate.
Qed.

Lemma placed_run ftol out (s : st) r s' : s_tr s = [] -> p0 = s_pm s -> minimize c h ftol out s = (r, s') ->
  each_event (placed (loop_world (s_w s))) (s_tr s') /\
  forall x, r = Ok x -> exists n, List.length (r_history x) = Datatypes.S n /\ s_w s' = Nat.iter n step (loop_world (s_w s)).
Proof.
  intros Htr Hp H. unfold minimize in H. set (w0 := loop_world (s_w s)).
  assert (HP : forall t x v, placed w0 t (EvCall x v)) by (intros; exact I).
  unfold mbind at 1 in H. destruct (first_generation c h s) as [[b0|e] s1] eqn:H1.
  2:{ assert (s' = s1) by congruence. subst s'. split; [|intros x E; congruence].
      apply first_generation_fail in H1. destruct H1 as [E|g l _ Hl E|g rets vals _ _ _ E]; rewrite E, Htr; cbn [app].
      - apply each_event_nil.
      - eapply (each_on_rows (placed w0) []); [exact HP|apply each_event_nil|exact Hl].
      - apply each_event_snoc; [apply (each_calls (placed w0) []); [exact HP|apply each_event_nil]|].
        cbn [placed]. rewrite learns_calls_of. discriminate. }
  pose proof (first_generation_world _ _ _ Quiet H1) as W1. apply first_generation_inv in H1.
  unfold mbind at 1 in H. destruct (draw_noise c h s1) as [[wn|e] s2] eqn:H2.
  2:{ assert (s' = s2) by congruence. subst s'. apply draw_noise_fail in H2. subst s2.
      split; [|intros x E; congruence]. destruct (placed_first w0 s s1 w0 b0 Htr Hp eq_refl H1) as [(_ & _ & P) _]. exact P. }
  pose proof (draw_noise_world _ _ _ H2) as W2. apply draw_noise_inv in H2 as [_ [w2 Hs2]].
  assert (Ew : w2 = w0).
  { subst s2. cbn [s_w] in W2. unfold w0, loop_world. rewrite <- W1. exact W2. }
  destruct (placed_first w0 s s1 w2 b0 Htr Hp Ew H1) as [HI El].
  unfold mbind at 1 in H. destruct (print_if out _ s2) as [r3 s3] eqn:H3. apply print_if_inv in H3 as [-> H3].
  rewrite <- Hs2 in HI. pose proof (placed_printed _ _ _ HI H3) as HI3.
  assert (El3 : learns (s_tr s3) = []).
  { destruct H3 as (ps & Hps & ->). apply prints_quiet in Hps as [E _]. subst s2. cbn [s_tr]. rewrite learns_app, E, El. reflexivity. }
  unfold mbind at 1 in H. destruct (loop c h ftol out wn _ _ _ _ s3) as [[hist|e] s4] eqn:H4.
  2:{ assert (s' = s4) by congruence. subst s'. split; [|intros x E; congruence]. eapply placed_loop; eassumption. }
  destruct (placed_loop _ _ _ _ _ _ _ _ _ _ _ HI3 H4) as [P Q]. destruct (Q hist eq_refl) as [Q1 Q2].
  cbv zeta in H. unfold mbind at 1 in H. destruct (print_if (c_disp c) _ s4) as [r5 s5] eqn:H5. apply print_if_inv in H5 as [-> H5].
  cbv [mbind get_obj mret] in H. assert (s' = s5) by congruence. subst s'. split.
  - eapply printed_after_each; [|exact H5|exact P]. intros; exact I.
  - intros x E. exists (List.length (learns (s_tr s4))). rewrite El3 in Q2. cbn [List.length] in Q2. rewrite (printed_world _ _ H5), Q1.
    split; [|reflexivity]. match type of H with (Ok ?y, _) = _ => assert (Ey : x = y) by congruence end. subst x. cbn [r_history]. lia.
Qed.

(** The same by position. *)
Lemma placed_nth w0 (tr : list ev) : each_event (placed w0) tr -> each_event (drawn_ok c h p0) tr ->
  forall k g vals, nth_error (gens tr) (Datatypes.S k) = Some (g, vals) ->
  exists p w', trained h p0 (firstn (Datatypes.S k) (learns tr)) p /\ h_sample h p (Nat.iter k step w0) = (Ok g, w').
Proof.
  intros HQ HD k g vals Hk. apply nth_gen in Hk as (tr1 & rets & tr2 & E & Hk).
  destruct (HD _ _ _ E) as [Hl _]. rewrite Hk in Hl.
  assert (F : firstn (Datatypes.S k) (learns tr) = learns tr1).
  { rewrite E, learns_app, Hl, firstn_app, Nat.sub_diag, firstn_all, firstn_O, app_nil_r. reflexivity. }
  rewrite F. apply (HQ _ _ _ E). congruence.
Qed.

End Common.
