(** Further combined statements about the models. *)
From Coq Require Import String List ZArith Bool Lia Reals Lra.
From Flocq Require Import Core IEEE754.BinarySingleNaN.
From Verif Require Import PyBase B64 B64More NdArray Rand RandThms Models Inits ModelThms Kahan CatThms ModelMore.
Import ListNotations.
Open Scope nat_scope.

Lemma unibin_made_lemma n upper lower :
  ((exists m, unibin_new n upper lower = Ok m) <-> flt lower upper = true) /\
  (forall m, unibin_new n upper lower = Ok m -> unibin_made n upper lower m) /\
  (forall m d r m', unibin_made n upper lower m -> unibin_learn d m = (r, m') -> unibin_made n upper lower m').
Proof.
  split; [apply unibin_new_iff|]. split; [apply unibin_made_new|]. intros m d r m'. apply unibin_made_learn.
Qed.

Lemma draws_exist lower upper :
  flt (Z2f 0) lower = true -> flt lower upper = true -> flt upper fone = true ->
  (exists u, (fle (Z2f 0) u = true /\ flt u fone = true) /\ flt u lower = true) /\
  (exists u, (fle (Z2f 0) u = true /\ flt u fone = true) /\ fle upper u = true).
Proof.
  intros H0 H1 H2. split.
  - exists (Z2f 0). split; [split; vm_compute; reflexivity|exact H0].
  - exists upper. split; [split; [apply flt_fle; eapply flt_trans; eassumption|exact H2]|].
    apply fle_refl. apply (flt_not_nan _ _ H2).
Qed.

(** A learner whose result, when it succeeds, does not depend on which of two models it started
    from; whether it succeeds does not depend on that either. *)
Definition forgets {S} (learn : S -> res unit * S) (p1 p2 : S) : Prop :=
  fst (learn p1) = fst (learn p2) /\ (fst (learn p1) = Ok tt -> snd (learn p1) = snd (learn p2)).

Lemma means_from_forgets {T} (o : ops T) (col : nat -> res (list T)) : forall m1 m2 i,
  List.length m1 = List.length m2 ->
  fst (means_from o col i m1) = fst (means_from o col i m2) /\
  (fst (means_from o col i m1) = Ok tt -> snd (means_from o col i m1) = snd (means_from o col i m2)).
Proof.
  induction m1 as [|a m1 IH]; intros [|b m2] i H; cbn in H; try discriminate; cbn [means_from]; [auto|].
  destruct (col i); [|cbn; split; [reflexivity|discriminate]].
  specialize (IH m2 (S i) ltac:(congruence)). destruct (means_from o col (S i) m1), (means_from o col (S i) m2). cbn in *.
  destruct IH as [E1 E2]. split; [exact E1|]. intros E. f_equal. apply E2, E.
Qed.

Lemma gaussian_forgets (T : Type) (o : ops T) (lower alpha upper : T) nc (col : nat -> res (list T)) :
  (forall p1 p2, List.length p1 = List.length p2 -> forgets (unigauss_learn o lower col) p1 p2) /\
  (forall p1 p2, List.length p1 = List.length p2 -> forgets (adapt_learn o lower alpha col) p1 p2) /\
  (forall p1 p2, List.length (mg_means p1) = List.length (mg_means p2) -> forgets (multigauss_learn o lower upper nc col) p1 p2).
Proof.
  assert (G : forall upd (p1 p2 : list (T * T)), List.length p1 = List.length p2 -> forgets (learn_from upd 0) p1 p2).
  { intros upd p1 p2 H. unfold forgets. split; [apply learn_from_outcome, H|].
    pose proof (learn_from_outcome upd p1 p2 0 H) as Ho. pose proof (learn_from_forgets upd p1 p2 0) as Hf.
    destruct (learn_from upd 0 p1) as [r1 x1], (learn_from upd 0 p2) as [r2 x2]. cbn in *. intros ->. subst. apply (Hf x1 x2 H); reflexivity. }
  split; [intros; apply G; assumption|]. split; [intros; apply G; assumption|].
  intros p1 p2 H. unfold forgets, multigauss_learn. destruct (means_from_forgets o col (mg_means p1) (mg_means p2) 0 H) as [E1 E2].
  destruct (means_from o col 0 (mg_means p1)) as [r1 m1], (means_from o col 0 (mg_means p2)) as [r2 m2]. cbn [fst snd] in *. subst r2.
  destruct r1 as [[]|e]; [|cbn; split; [reflexivity|discriminate]]. rewrite (E2 eq_refl).
  destruct (rmapM col (seq 0 nc)) as [cols|e]; [|cbn; split; [reflexivity|discriminate]].
  destruct cols as [|x [|y cols]]; cbn; auto.
Qed.

Lemma discrete_forgets d :
  (forall m1 m2, ub_n m1 = ub_n m2 -> ub_lo m1 = ub_lo m2 -> ub_hi m1 = ub_hi m2 -> forgets (unibin_learn d) m1 m2) /\
  (forall t1 t2, List.length t1 = List.length t2 -> forgets (cat_learn d) t1 t2).
Proof.
  split.
  - intros m1 m2 E1 E2 E3. unfold forgets, unibin_learn. rewrite E1, E2, E3. destruct (unibin_probs _ _ _); cbn; [auto|]. split; [reflexivity|discriminate].
  - intros t1 t2 H. unfold forgets, cat_learn. split; [apply cat_learn_outcome, H|].
    pose proof (cat_learn_outcome d t1 t2 0 H) as Ho. pose proof (cat_learn_forgets d t1 t2 0) as Hf.
    destruct (cat_learn_from d 0 t1) as [r1 x1], (cat_learn_from d 0 t2) as [r2 x2]. cbn in *. intros ->. subst. apply (Hf x1 x2 H); reflexivity.
Qed.

Lemma cat_frequencies d t :
  List.length t = a_nc d -> a_rows d <> [] -> (forall j, j < a_nc d -> discrete (column j (a_rows d))) ->
  exists t', cat_learn d t = (Ok tt, t') /\ List.length t' = a_nc d /\
    forall j, j < a_nc d ->
      let col := column j (a_rows d) in
      exists p, nth_error t' j = Some (Some p) /\
        NoDup (map fst p) /\
        (forall x, In x (map fst p) <-> In x col) /\
        (forall x q, In (x, q) p -> q = fdiv (Z2f (Z.of_nat (occurrences x col))) (Z2f (Z.of_nat (List.length col)))) /\
        Rsum (map (fun x => INR (occurrences x col) / INR (List.length col))%R (map fst p)) = 1%R /\
        ((Z.of_nat (List.length col) <= 2 ^ 22)%Z -> probs_ok (map snd p) = true).
Proof.
  intros Hl Hne Hd. destruct (cat_learn_spec d t Hl Hd) as (t' & Ht' & Hl' & Hk). exists t'. split; [exact Ht'|]. split; [exact Hl'|].
  intros j Hj col. destruct (Hk j Hj) as (p & Hp & Hf). fold col in Hf. exists p. split; [exact Hp|].
  assert (Hn : 0 < List.length col) by (unfold col, column; rewrite map_length; destruct (a_rows d); [congruence|cbn; lia]).
  pose proof Hf as (Hnd & Hin & Hq & Hs). split; [exact Hnd|]. split; [exact Hin|]. split; [exact Hq|]. split.
  - assert (G : forall l, Rsum (map (fun x => INR (occurrences x col) / INR (List.length col))%R (map fst l)) =
             (INR (fold_right Nat.add 0%nat (map (fun xq : cell * f64 => occurrences (fst xq) col) l)) / INR (List.length col))%R).
    { assert (INR (List.length col) <> 0%R) by (apply not_0_INR; lia).
      induction l as [|[x q] l IH]; cbn [map fold_right fst].
      - unfold Rsum. cbn. field. assumption.
      - change (Rsum (?a :: ?b)) with (a + Rsum b)%R. rewrite IH, plus_INR. field. assumption. }
    rewrite G, Hs. field. apply not_0_INR. lia.
  - intros Hb.
    assert (Hps : map snd p = map (fun k => fdiv (Z2f (Z.of_nat k)) (Z2f (Z.of_nat (List.length col)))) (map (fun xq => occurrences (fst xq) col) p)).
    { rewrite map_map. apply map_ext_in. intros [x q] Hx. cbn. apply Hq, Hx. }
    rewrite Hps. apply freqs_ok; [exact Hn|lia| |exact Hs]. rewrite map_length.
    assert (List.length p <= List.length col); [|lia].
    rewrite <- (map_length fst p). apply NoDup_incl_length; [exact Hnd|]. intros x Hx. apply Hin, Hx.
Qed.

Lemma adapt_previous_mean : exists lower alpha (d : list (list R)) pm pm',
  adapt_learn R_ops lower alpha (real_col 1 d) pm = (Ok tt, pm') /\
  exists m q, nth_error pm 0 = Some m /\ nth_error pm' 0 = Some q /\
    let x := map (fun r => nth 0 r 0%R) d in
    (fst q <> (1 - alpha) * fst m + alpha * (nth 0 x 0 + nth 1 x 0 - nth (List.length d - 1) x 0))%R.
Proof.
  exists 1%R, (1 / 2)%R, [[2]; [2]]%R, [(0, 0)]%R. eexists. split; [reflexivity|].
  eexists _, _. split; [reflexivity|]. split; [reflexivity|]. cbv zeta. cbn [map nth List.length Nat.sub last fst snd].
  rewrite mean_avg. unfold avg, Rsum. cbn [fold_right List.length R_ops o_add o_mul o_sub o_ofZ INR]. lra.
Qed.

Lemma adapt_too_few s lower alpha d pm :
  a_len d < 2 -> pm <> [] -> fst (adapt_learn (b64_ops s) lower alpha (num_col d) pm) <> Ok tt.
Proof.
  intros Hd Hne. destruct pm as [|m pm]; [congruence|]. unfold adapt_learn. cbn [learn_from]. unfold adapt_upd, num_col, a_len in *.
  destruct (Nat.ltb 0 (a_nc d)); [|discriminate].
  destruct (a_rows d) as [|r [|r2 rs]]; cbn [List.length] in Hd; [| |lia]; cbn [rmapM rbind]; [discriminate|].
  destruct (cell_num (nth 0 r (CF fnan))); cbn; discriminate.
Qed.

Lemma multigauss_symmetric s lower upper d p p' :
  fle lower upper = true ->
  multigauss_learn (b64_ops s) lower upper (a_nc d) (num_col d) p = (Ok tt, p') ->
  exists m, mg_cov p' = CovMat m /\ List.length m = a_nc d /\
    (forall i j v, entry m i j = Some v -> entry m j i = Some v) /\
    (forall i j v, entry m i j = Some v -> i <> j -> isnan v = false -> fle lower v = true /\ fle v upper = true).
Proof.
  intros Hb H. apply multigauss_ok in H as (_ & _ & _ & cols & Hc & Hl & Hm). eexists. split; [exact Hm|].
  split; [unfold cov_matrix; rewrite tabulate_length; exact Hl|].
  assert (Hlen : Forall (fun c => List.length c = a_len d) cols).
  { apply rmapM_Forall2 in Hc. clear - Hc. induction Hc as [|i c l cs Hic Hc IH]; constructor; [|exact IH].
    unfold num_col in Hic. destruct (Nat.ltb i (a_nc d)); [|discriminate]. apply rmapM_Forall2 in Hic. unfold a_len.
    clear - Hic. induction Hic; cbn; congruence. }
  split.
  - intros i j v Hv. eapply cov_symmetric; eassumption.
  - intros i j v Hv Hij Nv.
    assert (Hbd : i < List.length cols /\ j < List.length cols).
    { unfold entry, cov_matrix in Hv. destruct (Nat.lt_ge_cases i (List.length cols)) as [Hi|Hi].
      - split; [exact Hi|]. destruct (Nat.lt_ge_cases j (List.length cols)) as [Hj|Hj]; [exact Hj|exfalso].
        rewrite nth_error_tabulate in Hv by exact Hi.
        match type of Hv with nth_error ?l j = _ => assert (E : nth_error l j = None) by (apply nth_error_None; rewrite tabulate_length; exact Hj) end. congruence.
      - exfalso. match type of Hv with match nth_error ?l i with _ => _ end = _ => assert (E : nth_error l i = None) by (apply nth_error_None; rewrite tabulate_length; exact Hi) end. rewrite E in Hv. discriminate. }
    destruct Hbd as [Hi Hj]. rewrite entry_cov_matrix in Hv by assumption. rewrite (proj2 (Nat.eqb_neq i j)) in Hv by exact Hij.
    injection Hv as <-. apply clamped_cov_between; assumption.
Qed.

Lemma multigauss_one s lower upper d p :
  a_nc d = 1 -> fst (multigauss_learn (b64_ops s) lower upper 1 (num_col d) p) <> Ok tt.
Proof.
  intros Hd H. destruct (multigauss_learn (b64_ops s) lower upper 1 (num_col d) p) as [r p'] eqn:E. cbn in H. subst r.
  apply multigauss_ok in E as (E & _). congruence.
Qed.
