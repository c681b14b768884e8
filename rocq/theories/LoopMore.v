(** Corollaries of the loop invariants, one group per property. *)
From Coq Require Import String List ZArith Bool Lia Sorting.Permutation Sorting.Sorted.
From Verif Require Import PyBase B64 NdArray Eda EdaInv Spec TopK LoopObs LoopThms BestCost Select.
Import ListNotations.
Open Scope nat_scope.

Lemma Forall2_in_l {A B} (R : A -> B -> Prop) l1 l2 x :
  Forall2 R l1 l2 -> In x l1 -> exists y, In y l2 /\ R x y.
Proof.
  induction 1 as [|a b l1 l2 Hab _ IH]; intros []; subst.
  - exists b. split; [left; reflexivity|exact Hab].
  - destruct IH as [y [H1 H2]]; [assumption|]. exists y. split; [right; exact H1|exact H2].
Qed.
Lemma Forall2_in_r {A B} (R : A -> B -> Prop) l1 l2 y :
  Forall2 R l1 l2 -> In y l2 -> exists x, In x l1 /\ R x y.
Proof.
  induction 1 as [|a b l1 l2 Hab _ IH]; intros []; subst.
  - exists a. split; [left; reflexivity|exact Hab].
  - destruct IH as [x [H1 H2]]; [assumption|]. exists x. split; [right; exact H1|exact H2].
Qed.

Section More.
Context {S W : Type}.
Variable c : cfg.
Variable h : hooks S W.
Variable ftol : f64.
Variable out : bool.

Lemma history_not_nan (s : st S W) (r : result) (tr : list ev) :
  completes c h ftol out s r tr -> Forall (fun v => isnan v = false) (r_history r).
Proof.
  intros H. apply history_lemma in H. apply Forall_forall. intros v Hv.
  destruct (Forall2_in_l _ _ _ _ H Hv) as [gv [_ [_ [Hn _]]]]. exact Hn.
Qed.

Lemma history_nonempty (s : st S W) (r : result) (tr : list ev) :
  completes c h ftol out s r tr -> r_history r <> [].
Proof.
  intros H. destruct (counts_lemma _ _ _ _ _ _ _ H) as (H1 & _ & _ & H2 & _).
  destruct (r_history r); [cbn in *; lia|discriminate].
Qed.

(** costs recorded for all evaluated individuals *)
Lemma evaluated_cost (tr : list ev) (x : row) (v : f64) :
  In (x, v) (evaluated tr) -> exists gv, In gv (gens tr) /\ In v (snd gv).
Proof.
  intros H. unfold evaluated in H. apply in_flat_map in H as [gv [Hg Hp]]. exists gv. split; [exact Hg|].
  unfold pairs in Hp. apply in_combine_r in Hp. exact Hp.
Qed.

Lemma min_best_lemma (s : st S W) (r : result) (tr : list ev) :
  completes c h ftol out s r tr -> feq ftol (Z2f 0) = true ->
  is_min (r_best_cost r) (r_history r) /\
  forall x v, In (x, v) (evaluated tr) -> flt v (r_best_cost r) = false.
Proof.
  intros H H0.
  assert (Hm : is_min (r_best_cost r) (r_history r)).
  { rewrite (best_cost_lemma _ _ _ _ _ _ _ H). apply run_best_min; [exact H0| |].
    - eapply history_nonempty; exact H.
    - eapply history_not_nan; exact H. }
  split; [exact Hm|]. intros x v Hv. destruct (evaluated_cost _ _ _ Hv) as [gv [Hg Hgv]].
  destruct (Forall2_in_r _ _ _ _ (history_lemma _ _ _ _ _ _ _ H) Hg) as [m [Hmin [_ [Hmn Hml]]]].
  destruct Hm as [_ [Hn Hle]]. destruct (flt v (r_best_cost r)) eqn:E; [|reflexivity].
  assert (fle m v = true) by (apply flt_false_fle; [apply (flt_not_nan _ _ E)|exact Hmn|apply Hml, Hgv]).
  assert (flt m (r_best_cost r) = true) by (eapply fle_flt_trans; eassumption).
  rewrite Hle in H2 by exact Hmin. discriminate.
Qed.

Lemma nonpos_lemma (s : st S W) (r : result) (tr : list ev) :
  completes c h ftol out s r tr -> tol_ok ftol ->
  Forall (fun v => fle v (Z2f 0) = true) (r_history r) ->
  (forall v, In v (r_history r) -> fle (fmul (r_best_cost r) (fadd fone ftol)) v = true) /\
  (forall x v, In (x, v) (evaluated tr) -> isnan v = false ->
               fle (fmul (r_best_cost r) (fadd fone ftol)) v = true).
Proof.
  intros H Ht Hneg. rewrite (best_cost_lemma _ _ _ _ _ _ _ H).
  destruct (run_best_nonpos ftol (r_history r) Ht (history_nonempty _ _ _ H) Hneg) as [_ Hb].
  split; [exact Hb|]. intros x v Hv Hn. destruct (evaluated_cost _ _ _ Hv) as [gv [Hg Hgv]].
  destruct (Forall2_in_r _ _ _ _ (history_lemma _ _ _ _ _ _ _ H) Hg) as [m [Hmin [_ [Hmn Hml]]]].
  eapply fle_trans; [apply Hb, Hmin|]. apply flt_false_fle; [exact Hn|exact Hmn|apply Hml, Hgv].
Qed.

Lemma nonneg_lemma (s : st S W) (r : result) (tr : list ev) :
  completes c h ftol out s r tr -> tol_ok ftol ->
  Forall (fun v => fle (Z2f 0) v = true) (r_history r) ->
  forall k v, nth_error (r_history r) k = Some v ->
    fle (r_best_cost r) (inflated ftol (List.length (r_history r) - 1 - k) v) = true.
Proof.
  intros H Ht Hpos. rewrite (best_cost_lemma _ _ _ _ _ _ _ H).
  destruct (run_best_nonneg ftol (r_history r) Ht (history_nonempty _ _ _ H) Hpos) as [_ Hb]. exact Hb.
Qed.

(** Stagnation: with zero tolerance or non-positive costs, at most [dead_iter] generations
    can pass without going below the lowest cost before them. *)
Lemma stagnation_lemma (s : st S W) (r : result) (tr : list ev) (l1 l2 : list f64) (m : f64) :
  completes c h ftol out s r tr -> tol_ok ftol ->
  (feq ftol (Z2f 0) = true \/ Forall (fun v => fle v (Z2f 0) = true) (r_history r)) ->
  (1 <= c_dead_iter c)%Z ->
  r_history r = l1 ++ l2 -> In m l1 -> Forall (fun v => fle m v = true) l2 ->
  (Z.of_nat (List.length l2) <= c_dead_iter c)%Z.
Proof.
  intros H Ht Hcase Hd Heq Hm Hl2.
  pose proof (history_not_nan _ _ _ H) as Hnan. rewrite Heq in Hnan, Hcase.
  assert (Hne : l1 <> []) by (destruct l1; [destruct Hm|discriminate]).
  destruct (improvements_stagnate ftol l1 l2 m Ht Hne Hcase Hnan Hm Hl2) as (l & Himp & Hlen & Hf).
  destruct (stop_lemma _ _ _ _ _ _ _ H) as [_ Hpre]. rewrite Heq, Himp in Hpre.
  rewrite <- Hlen. destruct l as [|b l] using rev_ind; [cbn; lia|]. clear IHl.
  specialize (Hpre (improvements ftol l1 ++ l) b []). rewrite <- app_assoc in Hpre.
  specialize (Hpre eq_refl Hd).
  pose proof (trailing_false_app_all_false (improvements ftol l1) l
     (fun x Hx => Hf x (in_or_app _ _ _ (or_introl Hx)))) as Hge.
  rewrite app_length. cbn. lia.
Qed.

(** A plateau at a value that the tolerance inflates never counts as stagnation. *)
Lemma plateau_lemma (s : st S W) (r : result) (tr : list ev) (v : f64) :
  completes c h ftol out s r tr ->
  flt v (fmul v (fadd fone ftol)) = true ->
  Forall (fun u => u = v) (r_history r) ->
  List.length (r_history r) = 1 + Z.to_nat (c_max_iter c - 1).
Proof.
  intros H Hv Hall. destruct (stop_lemma _ _ _ _ _ _ _ H) as [[Hl|[Hd Ht]] _]; [exact Hl|exfalso].
  pose proof (history_nonempty _ _ _ H) as Hne.
  assert (Hrep : exists k, r_history r = repeat v (Datatypes.S k)).
  { destruct (r_history r) as [|u l]; [congruence|]. exists (List.length l).
    inversion Hall as [|? ? Hu Hl]; subst. cbn. f_equal. clear - Hl.
    induction Hl as [|u l Hu _ IH]; cbn; congruence. }
  destruct Hrep as [k Hk]. rewrite Hk, improvements_plateau, trailing_false_repeat_true in Ht by exact Hv. lia.
Qed.

(* ------------------------------------------------------------------ *)
(** ** Function evaluations *)

Definition rows_total (gs : list (arr * list f64)) : nat := list_sum (map (fun gv => a_len (fst gv)) gs).

Lemma calls_count (s : st S W) (r : result) (tr : list ev) :
  completes c h ftol out s r tr -> List.length (calls tr) = rows_total (gens tr).
Proof.
  intros H. destruct (calls_lemma _ _ _ _ _ _ _ H) as [Hc Hf]. rewrite Hc. clear Hc.
  induction Hf as [|gv rets gs rs (H1 & H2 & H3) _ IH]; cbn; [reflexivity|].
  rewrite app_length, IH, combine_length. unfold a_len. rewrite H1. cbn. unfold rows_total, list_sum. cbn [map fold_right]. unfold a_len. rewrite Nat.min_id. reflexivity.
Qed.

(** The generations after the first come from the model, the first from the initialiser. *)
Lemma gens_source (s : st S W) (r : result) (tr : list ev) (P0 P : arr -> Prop) :
  completes c h ftol out s r tr ->
  match c_init_data c with
  | Some d => P0 d
  | None => forall w g w', h_init h w = (Ok g, w') -> P0 g
  end ->
  (forall p w g w', h_sample h p w = (Ok g, w') -> P g) ->
  exists g0 v0 rest, gens tr = (g0, v0) :: rest /\ P0 g0 /\ Forall (fun gv => P (fst gv)) rest.
Proof.
  intros H H0 HP.
  destruct (completes_rule c h ftol out (fun hist nb s =>
     exists g0 v0 rest, gens (s_tr s) = (g0, v0) :: rest /\ P0 g0 /\ Forall (fun gv => P (fst gv)) rest) s r tr)
    as (nb & sf & HI & <- & _); try assumption.
  - intros s0 sp Hp hist nb HI. rewrite (printed_gens _ _ Hp). exact HI.
  - intros b s1 w1 s1' Htr Hf Hp. rewrite (printed_gens _ _ Hp). destruct Hf. subst s1. cbn [s_tr].
    rewrite Htr, !gens_app, gens_calls_of. cbn. exists ff_g, ff_vals, []. split; [reflexivity|].
    split; [|constructor]. destruct (c_init_data c) as [d|]; [destruct ff_init as [-> _]; exact H0|eapply H0; exact ff_init].
  - intros wn hist nb s0 b acc s1 s1' _ (g0 & v0 & rest & Hg & Hg0 & Hr) _ _ Hf Hp.
    rewrite (printed_gens _ _ Hp). destruct Hf. subst s1. cbn [s_tr].
    rewrite !gens_app, gens_calls_of, Hg. cbn. exists g0, v0, (rest ++ [(if_g, if_vals)]).
    split; [reflexivity|]. split; [exact Hg0|]. apply Forall_app. split; [exact Hr|].
    constructor; [|constructor]. eapply HP. exact if_sample.
Qed.

Lemma nfev_lemma (s : st S W) (r : result) (tr : list ev) (n0 : nat) :
  completes c h ftol out s r tr ->
  match c_init_data c with
  | Some d => a_len d = n0
  | None => forall w g w', h_init h w = (Ok g, w') -> a_len g = n0
  end ->
  (forall p w g w', h_sample h p w = (Ok g, w') -> Z.of_nat (a_len g) = c_size_gen c) ->
  Z.of_nat (List.length (calls tr)) = (r_nfev r + (Z.of_nat n0 - c_size_gen c))%Z.
Proof.
  intros H H0 HP.
  destruct (gens_source s r tr (fun g => a_len g = n0) (fun g => Z.of_nat (a_len g) = c_size_gen c) H H0 HP)
    as (g0 & v0 & rest & Hg & Hg0 & Hr).
  rewrite (calls_count _ _ _ H).
  destruct (counts_lemma _ _ _ _ _ _ _ H) as (Hlen & _).
  assert (Hn : r_nfev r = (Z.of_nat (List.length (r_history r)) * c_size_gen c)%Z).
  { destruct (completes_rule c h ftol out (fun _ _ _ => True) s r tr) as (nb & sf & _ & _ & Hr' & _); auto.
    rewrite Hr'. reflexivity. }
  rewrite Hn, Hlen, Hg. unfold rows_total. cbn [map list_sum fold_right List.length]. cbn [fst].
  assert (Hs : Z.of_nat (list_sum (map (fun gv => a_len (fst gv)) rest)) = (Z.of_nat (List.length rest) * c_size_gen c)%Z).
  { clear - Hr. induction Hr as [|gv l Hgv _ IH]; cbn [map list_sum fold_right List.length]; [lia|].
    rewrite Nat2Z.inj_add. unfold list_sum in IH. rewrite IH, Hgv. lia. }
  unfold list_sum in Hs. rewrite Nat2Z.inj_add, Hs, Hg0. lia.
Qed.

(* ------------------------------------------------------------------ *)
(** ** Recorded costs *)

Lemma Stored_float (rets : list num) (vals : list f64) :
  Stored rets vals -> Forall (fun v => exists x, v = NF x) rets ->
  rets = map NF vals.
Proof.
  intros [chs [-> ->]] H. induction chs as [|ch chs IH]; [reflexivity|].
  cbn in *. apply Forall_app in H as [H1 H2]. rewrite map_app, <- IH by exact H2. f_equal.
  destruct ch as [|v0 ch]; [reflexivity|]. cbn [store_all].
  inversion H1 as [|? ? [x0 ->] H1']; subst. clear - H1'. cbn. f_equal.
  induction H1' as [|v l [x ->] _ IH]; cbn; [reflexivity|]. f_equal. exact IH.
Qed.

Lemma Stored_int (rets : list num) (vals : list f64) :
  Stored rets vals -> Forall (fun v => exists z, v = NI z) rets ->
  Forall2 (fun ret v => exists z, ret = NI z /\ v = Z2f z) rets vals.
Proof.
  intros [chs [-> ->]] H. induction chs as [|ch chs IH]; [constructor|].
  cbn in *. apply Forall_app in H as [H1 H2]. apply Forall2_app; [|apply IH, H2].
  destruct ch as [|v0 ch]; [constructor|]. cbn [store_all].
  inversion H1 as [|? ? [x0 ->] H1']; subst. clear - H1'.
  constructor; [exists x0; split; reflexivity|].
  induction H1' as [|v l [x ->] _ IH]; cbn; [constructor|]. constructor; [exists x; split; reflexivity|exact IH].
Qed.

Lemma evaluated_called (s : st S W) (r : result) (tr : list ev) :
  completes c h ftol out s r tr -> all_float_returns tr ->
  calls tr = map (fun p => (fst p, NF (snd p))) (evaluated tr).
Proof.
  intros H Hfl. destruct (calls_lemma _ _ _ _ _ _ _ H) as [Hc Hf].
  unfold all_float_returns in Hfl. rewrite Hc in Hfl |- *. clear Hc. unfold evaluated.
  induction Hf as [|gv rets gs rs (H1 & H2 & H3) _ IH]; cbn; [reflexivity|].
  cbn in Hfl. apply Forall_app in Hfl as [Hf1 Hf2]. rewrite map_app, IH by exact Hf2. f_equal.
  assert (Hrets : rets = map NF (snd gv)).
  { apply Stored_float; [exact H3|]. clear - Hf1 H1. apply Forall_forall. intros v Hv.
    apply In_nth_error in Hv as [i Hi].
    destruct (nth_error (a_rows (fst gv)) i) as [x|] eqn:Hx.
    - rewrite Forall_forall in Hf1. apply (Hf1 (x, v)). eapply nth_error_In. apply nth_error_combine; eassumption.
    - apply nth_error_None in Hx. assert (i < List.length rets) by (apply nth_error_Some; congruence). lia. }
  unfold pairs. rewrite Hrets. generalize (a_rows (fst gv)). generalize (snd gv). clear.
  intros vs rs. revert vs. induction rs as [|x rs IH]; intros [|v vs]; cbn; auto. f_equal. apply IH.
Qed.

Lemma evaluated_called_int (s : st S W) (r : result) (tr : list ev) :
  completes c h ftol out s r tr -> Forall (fun rv => exists z, snd rv = NI z) (calls tr) ->
  Forall2 (fun cl p => fst cl = fst p /\ exists z, snd cl = NI z /\ snd p = Z2f z) (calls tr) (evaluated tr).
Proof.
  intros H Hfl. destruct (calls_lemma _ _ _ _ _ _ _ H) as [Hc Hf].
  rewrite Hc in Hfl |- *. clear Hc. unfold evaluated.
  induction Hf as [|gv rets gs rs (H1 & H2 & H3) _ IH]; cbn; [constructor|].
  cbn in Hfl. apply Forall_app in Hfl as [Hf1 Hf2]. apply Forall2_app; [|apply IH, Hf2].
  assert (Hrets : Forall2 (fun ret v => exists z, ret = NI z /\ v = Z2f z) rets (snd gv)).
  { apply Stored_int; [exact H3|]. clear - Hf1 H1. apply Forall_forall. intros v Hv.
    apply In_nth_error in Hv as [i Hi].
    destruct (nth_error (a_rows (fst gv)) i) as [x|] eqn:Hx.
    - rewrite Forall_forall in Hf1. apply (Hf1 (x, v)). eapply nth_error_In. apply nth_error_combine; eassumption.
    - apply nth_error_None in Hx. assert (i < List.length rets) by (apply nth_error_Some; congruence). lia. }
  unfold pairs. clear - Hrets. revert Hrets. generalize (a_rows (fst gv)) as rs0. generalize (snd gv). clear.
  intros vs rs0 Hrets. revert rs0. induction Hrets as [|ret v rets vs Hrv _ IH]; intros [|x rs0]; cbn; constructor.
  - split; [reflexivity|exact Hrv].
  - apply IH.
Qed.

End More.

(* ------------------------------------------------------------------ *)
(** ** Adding the noise *)

Definition float_cells (r : row) : Prop := Forall (fun x => match x with CS _ => False | _ => True end) r.

Lemma add_mat_cells_ok nc i j draw r :
  float_cells r -> exists r', add_mat_cells nc i j draw r = Ok r' /\ List.length r' = List.length r.
Proof.
  intros H. revert j. induction H as [|x r Hx _ IH]; intros j; cbn; [exists []; auto|].
  destruct (IH (S j)) as [r' [Hr Hl]].
  destruct x as [z|x|s]; [| |destruct Hx]; cbn; rewrite Hr; cbn; eexists; (split; [reflexivity|cbn; lia]).
Qed.

Lemma add_mat_rows_ok nr nc i draw rs :
  Forall float_cells rs -> exists rs', add_mat_rows nr nc i draw rs = Ok rs' /\ List.length rs' = List.length rs.
Proof.
  intros H. revert i. induction H as [|r rs Hr _ IH]; intros i; cbn; [exists []; auto|].
  destruct (add_mat_cells_ok nc (bidx nr i) 0 draw r Hr) as [r' [Hr' _]].
  destruct (IH (S i)) as [rs' [Hrs Hl]]. rewrite Hr'. cbn. rewrite Hrs. cbn.
  eexists; split; [reflexivity|cbn; lia].
Qed.

(** Noise of shape (nr, nc) can be added to a float matrix iff the shapes broadcast. *)
Lemma iadd_mat_ok nr nc draw a :
  a_dt a = DFloat -> Forall float_cells (a_rows a) ->
  broadcasts nr (a_len a) && broadcasts nc (a_nc a) = true ->
  exists b, iadd a (NoiseMat nr nc draw) = Ok b /\ a_len b = a_len a /\ a_nc b = a_nc a /\ a_dt b = DFloat.
Proof.
  intros Hd Hf Hb. unfold iadd. rewrite Hd, Hb.
  destruct (add_mat_rows_ok nr nc 0 draw (a_rows a) Hf) as [rs' [-> Hl]]. cbn.
  eexists; split; [reflexivity|]. cbn. unfold a_len. cbn. auto.
Qed.

Lemma iadd_mat_fail nr nc draw a :
  a_dt a = DFloat -> broadcasts nr (a_len a) = false ->
  iadd a (NoiseMat nr nc draw) = Raise ValueError.
Proof. intros Hd Hb. unfold iadd. rewrite Hd, Hb. reflexivity. Qed.

Section Noise.
Context {S W : Type}.
Variable c : cfg.
Variable h : hooks S W.

Lemma float_rows_concat a b g :
  np_concatenate a b = Ok g -> Forall float_cells (a_rows a) -> Forall float_cells (a_rows b) ->
  Forall float_cells (a_rows g).
Proof.
  unfold np_concatenate. destruct (Nat.eqb _ _); [|discriminate]. intros H Ha Hb. injection H as <-. cbn.
  assert (Hcast : forall d a, Forall float_cells (a_rows a) -> Forall float_cells (rows_as d a)).
  { intros d a0 H0. unfold rows_as. destruct (dtype_eqb _ _); [exact H0|].
    apply Forall_map. eapply Forall_impl; [|exact H0]. intros r Hr. unfold float_cells in *.
    apply Forall_map. eapply Forall_impl; [|exact Hr]. intros x Hx. destruct d; destruct x; cbn; auto. }
  apply Forall_app. split; apply Hcast; assumption.
Qed.

Lemma gather_incl {A} idx (l r : list A) : gather idx l = Ok r -> incl r l.
Proof.
  rewrite gather_ok_Forall2. induction 1 as [|i x idx r Hi _ IH]; intros y Hy; [destruct Hy|].
  destruct Hy as [<-|Hy]; [eapply nth_error_In; exact Hi|apply IH, Hy].
Qed.

(** After any selection over at least [truncation_length] individuals the noise fits. *)
Lemma noise_fits (s s' : st S W) (draw : nat -> nat -> f64) :
  argsort_ok (h_argsort h) ->
  (0 <= c_trunc_len c)%Z ->
  truncation c h s = (Ok tt, s') ->
  a_dt (o_gen (s_obj s)) = DFloat -> a_dt (o_elite (s_obj s)) <> DObj ->
  Forall float_cells (a_rows (o_gen (s_obj s))) -> Forall float_cells (a_rows (o_elite (s_obj s))) ->
  Z.of_nat (a_nc (o_gen (s_obj s))) = c_nvars c ->
  let pool := List.length (o_evals (s_obj s)) + List.length (o_evel (s_obj s)) in
  let T := Z.to_nat (c_trunc_len c) in
  T <= pool \/ T = 1 ->
  exists g, iadd (o_gen (s_obj s')) (NoiseMat T (Z.to_nat (c_nvars c)) draw) = Ok g.
Proof.
  intros Hsort HT H Hd Hde Hf1 Hf2 Hnc pool T Hcase.
  apply truncation_inv in H as (gen' & evals' & elite' & evel' & [g Hc He Ht Hve Hvt] & ->). cbn.
  assert (Hg : a_dt g = DFloat /\ a_nc g = a_nc (o_gen (s_obj s))).
  { unfold np_concatenate in Hc. destruct (Nat.eqb _ _); [|discriminate]. injection Hc as <-. cbn.
    rewrite Hd. split; [|reflexivity]. destruct (a_dt (o_elite (s_obj s))); try reflexivity. congruence. }
  pose proof (float_rows_concat _ _ _ Hc Hf1 Hf2) as Hfg.
  rewrite slice_to_nonneg in Ht, Hvt by exact HT.
  apply take_rows_ok in Ht as (Htd & Htn & Ht).
  destruct (iadd_mat_ok T (Z.to_nat (c_nvars c)) draw gen') as (b & Hb & _).
  - destruct Hg as [Hg _]; congruence.
  - apply Forall_forall. intros r Hr. rewrite Forall_forall in Hfg. apply Hfg. eapply gather_incl; eassumption.
  - apply andb_true_intro. split; unfold broadcasts; apply orb_true_iff.
    + destruct Hcase as [Hcase|Hcase]; [left|right; apply Nat.eqb_eq; exact Hcase].
      apply Nat.eqb_eq. unfold a_len. rewrite (gather_length _ _ _ Ht), firstn_length.
      destruct (Hsort (o_evals (s_obj s) ++ o_evel (s_obj s))) as [Hp _].
      rewrite (Permutation_length Hp), seq_length, app_length. unfold pool in Hcase. fold T. lia.
    + left. apply Nat.eqb_eq. destruct Hg as [_ Hg]. rewrite Htn, Hg. lia.
  - exists b. exact Hb.
Qed.

(** ... and over fewer (unless truncation_length is 1) it does not. *)
Lemma noise_does_not_fit (s s' : st S W) (draw : nat -> nat -> f64) :
  argsort_ok (h_argsort h) ->
  (0 <= c_trunc_len c)%Z ->
  truncation c h s = (Ok tt, s') ->
  a_dt (o_gen (s_obj s)) = DFloat -> a_dt (o_elite (s_obj s)) <> DObj ->
  let pool := List.length (o_evals (s_obj s)) + List.length (o_evel (s_obj s)) in
  let T := Z.to_nat (c_trunc_len c) in
  pool < T -> T <> 1 ->
  iadd (o_gen (s_obj s')) (NoiseMat T (Z.to_nat (c_nvars c)) draw) = Raise ValueError.
Proof.
  intros Hsort HT H Hd Hde pool T Hlt Hne.
  apply truncation_inv in H as (gen' & evals' & elite' & evel' & [g Hc He Ht Hve Hvt] & ->).
  cbn [s_obj o_gen].
  assert (Hg : a_dt g = DFloat).
  { unfold np_concatenate in Hc. destruct (Nat.eqb _ _); [|discriminate]. injection Hc as <-. cbn.
    rewrite Hd. destruct (a_dt (o_elite (s_obj s))); try reflexivity. congruence. }
  rewrite slice_to_nonneg in Ht by exact HT.
  apply take_rows_ok in Ht as (Htd & Htn & Ht).
  apply iadd_mat_fail; [congruence|].
  unfold broadcasts. apply orb_false_iff. split; [|apply Nat.eqb_neq; exact Hne].
  apply Nat.eqb_neq. unfold a_len. rewrite (gather_length _ _ _ Ht), firstn_length.
  destruct (Hsort (o_evals (s_obj s) ++ o_evel (s_obj s))) as [Hp _].
  rewrite (Permutation_length Hp), seq_length, app_length. unfold pool in Hlt. fold T. lia.
Qed.

End Noise.
