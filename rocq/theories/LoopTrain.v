(** What the model is trained on. *)
From Coq Require Import String List ZArith Bool Lia.
From Verif Require Import PyBase B64 NdArray Eda EdaInv Spec LoopObs LoopThms Select.
Import ListNotations.
Open Scope nat_scope.

Lemma Forall2_nth {A B} (R : A -> B -> Prop) l l' i a b :
  Forall2 R l l' -> nth_error l i = Some a -> nth_error l' i = Some b -> R a b.
Proof.
  intros H. revert i. induction H as [|x y l l' Hxy _ IH]; intros [|i] Ha Hb; cbn in *; try discriminate.
  - injection Ha as <-. injection Hb as <-. exact Hxy.
  - eapply IH; eassumption.
Qed.

Lemma fadd_zero_r (x : f64) : feq x (fadd x (Z2f 0)) = true \/ (isnan x = true /\ isnan (fadd x (Z2f 0)) = true).
Proof.
  destruct x as [sx|sx| |sx mx ex Hx].
  - left. destruct sx; reflexivity.
  - left. destruct sx; reflexivity.
  - right. split; reflexivity.
  - left. set (x := BinarySingleNaN.B754_finite sx mx ex Hx).
    assert (E : fadd x (Z2f 0) = x) by reflexivity. rewrite E. apply feq_refl. reflexivity.
Qed.

Definition noise_delta (wn : noise) (i j : nat) : option f64 :=
  match wn with
  | NoiseMat nr nc draw => Some (draw (bidx nr i) (bidx nc j))
  | _ => None
  end.

Lemma add_mat_cells_nth nc i draw r : forall j r', add_mat_cells nc i j draw r = Ok r' ->
  List.length r' = List.length r /\
  forall k a b, nth_error r k = Some a -> nth_error r' k = Some b -> cell_moved (Some (draw i (bidx nc (j + k)))) a b.
Proof.
  induction r as [|c r IH]; intros j r' H; cbn in H.
  - injection H as <-. split; [reflexivity|]. intros [|k] a b Ha; discriminate.
  - destruct (add_cell _ c) as [c'|e] eqn:Hc; cbn in H; [|discriminate].
    destruct (add_mat_cells nc i (Datatypes.S j) draw r) as [r''|e] eqn:Hr; cbn in H; [|discriminate].
    injection H as <-. destruct (IH _ _ Hr) as [Hl Hk]. split; [cbn; lia|].
    intros [|k] a b Ha Hb; cbn in Ha, Hb.
    + injection Ha as <-. injection Hb as <-. rewrite Nat.add_0_r.
      destruct c; cbn in Hc; try discriminate; injection Hc as <-; reflexivity.
    + replace (j + Datatypes.S k) with (Datatypes.S j + k) by lia. eapply Hk; eassumption.
Qed.

Lemma add_mat_rows_nth nr nc draw rs : forall i rs', add_mat_rows nr nc i draw rs = Ok rs' ->
  List.length rs' = List.length rs /\
  forall k r r', nth_error rs k = Some r -> nth_error rs' k = Some r' ->
    List.length r' = List.length r /\
    forall j a b, nth_error r j = Some a -> nth_error r' j = Some b ->
      cell_moved (Some (draw (bidx nr (i + k)) (bidx nc j))) a b.
Proof.
  induction rs as [|r rs IH]; intros i rs' H; cbn in H.
  - injection H as <-. split; [reflexivity|]. intros [|k] a b Ha; discriminate.
  - destruct (add_mat_cells nc (bidx nr i) 0 draw r) as [r1|e] eqn:Hr; cbn in H; [|discriminate].
    destruct (add_mat_rows nr nc (Datatypes.S i) draw rs) as [rs1|e] eqn:Hrs; cbn in H; [|discriminate].
    injection H as <-. destruct (IH _ _ Hrs) as [Hl Hk]. split; [cbn; lia|].
    intros [|k] a b Ha Hb; cbn in Ha, Hb.
    + injection Ha as <-. injection Hb as <-. rewrite Nat.add_0_r.
      destruct (add_mat_cells_nth _ _ _ _ _ _ Hr) as [H1 H2]. split; [exact H1|].
      intros j x y Hx Hy. apply (H2 j); assumption.
    + replace (i + Datatypes.S k) with (Datatypes.S i + k) by lia. eapply Hk; eassumption.
Qed.

Lemma rmapM_moved (f : cell -> res cell) rs rs' :
  (forall c c', f c = Ok c' -> cell_moved None c c') ->
  rmapM (rmapM f) rs = Ok rs' -> moved (fun _ _ => None) rs rs'.
Proof.
  intros Hf H. apply rmapM_Forall2 in H. split; [symmetry; eapply Forall2_length; exact H|].
  intros i r r' Hr Hr'. pose proof (Forall2_nth _ _ _ _ _ _ H Hr Hr') as Hrr. apply rmapM_Forall2 in Hrr.
  split; [symmetry; eapply Forall2_length; exact Hrr|].
  intros j a b Ha Hb. apply Hf. exact (Forall2_nth _ _ _ _ _ _ Hrr Ha Hb).
Qed.

Lemma append_empty (s : string) : (s ++ "")%string = s.
Proof. induction s; cbn; congruence. Qed.

Lemma iadd_moved wn a b : iadd a wn = Ok b -> moved (noise_delta wn) (a_rows a) (a_rows b).
Proof.
  intros H. destruct wn as [| |nr nc draw]; cbn in H.
  - destruct (rmapM _ _) as [rs|e] eqn:E; cbn in H; [|discriminate]. injection H as <-. cbn.
    eapply rmapM_moved; [|exact E]. intros c c' Hc. destruct c; cbn in Hc; try discriminate; injection Hc as <-; cbn;
      [reflexivity|apply fadd_zero_r].
  - destruct (a_dt a); try discriminate.
    destruct (rmapM _ _) as [rs|e] eqn:E; cbn in H; [|discriminate]. injection H as <-. cbn.
    eapply rmapM_moved; [|exact E]. intros c c' Hc. destruct c; cbn in Hc; try discriminate; injection Hc as <-; cbn.
    symmetry. apply append_empty.
  - assert (Hr : exists rs, add_mat_rows nr nc 0 draw (a_rows a) = Ok rs /\ a_rows b = rs).
    { destruct (a_dt a); try discriminate;
      (destruct (_ && _)%bool; [|discriminate]);
      (destruct (add_mat_rows _ _ _ _ _) as [rs|e]; cbn in H; [|discriminate]);
      injection H as <-; exists rs; split; reflexivity. }
    destruct Hr as (rs & Hr & ->). apply (add_mat_rows_nth nr nc draw (a_rows a) 0 rs Hr).
Qed.

Lemma map_fst_combine {A B} (l : list A) (l' : list B) : List.length l = List.length l' -> map fst (combine l l') = l.
Proof. revert l'. induction l as [|x l IH]; intros [|y l'] H; cbn in *; try discriminate; [reflexivity|]. f_equal. apply IH. lia. Qed.

Section Train.
Context {S W : Type}.
Variable c : cfg.
Variable h : hooks S W.

(** The model is trained right after each selection, on the selected individuals moved by
    [delta]. *)
Definition trained_ok (delta : nat -> nat -> option f64) (tr : list ev) (e : ev) : Prop :=
  match e with
  | EvLearn d => exists tr0 t el, tr = tr0 ++ [EvSelect t el] /\ moved delta (map fst t) (a_rows d)
  | _ => True
  end.

Lemma selected_lengths o gen' evals' elite' evel' :
  selected c h o gen' evals' elite' evel' -> List.length (a_rows gen') = List.length evals'.
Proof.
  intros H. destruct H. apply take_rows_ok in sel_train as (_ & _ & Ht).
  rewrite (gather_length _ _ _ Ht), (gather_length _ _ _ sel_evals). reflexivity.
Qed.

Lemma each_trained delta (tr : list ev) sel d es :
  each_event (trained_ok delta) tr -> trained_ok delta (tr ++ [sel]) (EvLearn d) ->
  (match sel with EvLearn _ => False | _ => True end) ->
  (forall e, In e es -> match e with EvLearn _ => False | _ => True end) ->
  each_event (trained_ok delta) (tr ++ [sel; EvLearn d] ++ es).
Proof.
  intros H1 H2 H3 H4. replace (tr ++ [sel; EvLearn d] ++ es) with (((tr ++ [sel]) ++ [EvLearn d]) ++ es)
    by (rewrite <- !app_assoc; reflexivity).
  apply each_event_extend.
  - apply each_event_snoc; [|exact H2]. apply each_event_snoc; [exact H1|].
    destruct sel; try exact I. contradiction.
  - intros t e He. specialize (H4 e He). destruct e; try exact I. contradiction.
Qed.

Lemma calls_gen_no_learn rs vs g rets vals e :
  In e (calls_of rs vs ++ [EvGen g rets vals]) -> match e with EvLearn _ => False | _ => True end.
Proof.
  intros He. apply in_app_or in He as [He|[He|[]]].
  - apply calls_of_only in He as (x & v & ->). exact I.
  - subst e. exact I.
Qed.

Lemma training_loop ftol out wn n (Hplain : forall g e p, h_data h g e p = (Ok g, p)) :
  forall it hist nb (s : st S W) hist' s',
  loop c h ftol out wn n it hist nb s = (Ok hist', s') ->
  each_event (trained_ok (noise_delta wn)) (s_tr s) ->
  each_event (trained_ok (noise_delta wn)) (s_tr s').
Proof.
  induction n as [|n IH]; intros it hist nb s hist' s' H H0; cbn [loop] in H.
  - apply mret_ok in H as [_ ->]. exact H0.
  - apply mbind_ok in H as ([b acc] & s1 & Hit & H). apply iteration_inv in Hit.
    assert (H1 : each_event (trained_ok (noise_delta wn)) (s_tr s1)).
    { destruct Hit. subst s1. cbn [s_tr]. apply each_trained; [exact H0| |exact I|apply calls_gen_no_learn].
      exists (s_tr s), (combine (a_rows if_gen') if_evals'), (combine (a_rows if_elite') if_evel').
      split; [reflexivity|]. rewrite map_fst_combine by (eapply selected_lengths; exact if_sel).
      rewrite Hplain in if_hdata. injection if_hdata as <- <-. apply iadd_moved. exact if_iadd. }
    cbn [fst snd] in H.
    assert (Hcont : forall nb2, mbind (print_if out (fun o => PrIter it (o_best_cost o)))
              (fun _ => loop c h ftol out wn n (it + 1) (hist ++ [b]) nb2) s1 = (Ok hist', s') ->
              each_event (trained_ok (noise_delta wn)) (s_tr s')).
    { intros nb2 H2. apply mbind_ok in H2 as (u & s2 & Hp & H2). apply print_if_inv in Hp as [_ Hp].
      eapply IH; [exact H2|]. eapply printed_after_each; [|exact Hp|exact H1]. intros; exact I. }
    cbv zeta in H. destruct acc; [eapply Hcont; exact H|]. destruct (Z.eqb _ _); [|eapply Hcont; exact H].
    apply mret_ok in H as [_ ->]. exact H1.
Qed.

(** One noise matrix serves the whole run. *)
Lemma training_lemma ftol out (s : st S W) (r : result) (tr : list ev) :
  (forall g e p, h_data h g e p = (Ok g, p)) ->
  completes c h ftol out s r tr ->
  exists wn, noise_cfg c wn /\ each_event (trained_ok (noise_delta wn)) tr.
Proof.
  intros Hplain [Htr [s' [H <-]]]. unfold minimize in H.
  apply mbind_ok in H as (b0 & s1 & H1 & H). apply first_generation_inv in H1.
  apply mbind_ok in H as (wn & s2 & H2 & H). apply draw_noise_inv in H2 as [Hwn [w2 Hs2]].
  apply mbind_ok in H as (u & s3 & H3 & H). apply print_if_inv in H3 as [_ H3].
  apply mbind_ok in H as (hist & s4 & H4 & H).
  apply mbind_ok in H as (u2 & s5 & H5 & H). apply print_if_inv in H5 as [_ H5].
  apply mbind_ok in H as (o & s6 & H6 & H). apply get_obj_ok in H6 as [-> ->].
  apply mret_ok in H as [Hr ->]. exists wn. split; [exact Hwn|].
  eapply printed_after_each; [|exact H5|]; [intros; exact I|].
  eapply training_loop; [exact Hplain|exact H4|].
  eapply printed_after_each; [|exact H3|]; [intros; exact I|]. subst s2. cbn.
  destruct H1. subst s1. cbn. rewrite Htr. apply (each_event_extend _ []); [apply each_event_nil|].
  intros t e He. apply calls_gen_no_learn in He. destruct e; try exact I. contradiction.
Qed.

End Train.
