(** How many times a run calls the cost function, for every optimiser. *)
From Coq Require Import String List ZArith Bool Lia.
From Verif Require Import PyBase B64 NdArray Eda Spec LoopThms LoopMore LoopFinal Rand RandThms Models CatThms Inits InitThms Stock StockInv StockAll.
Import ListNotations.
Open Scope Z_scope.

Section Loop.
Context {S W : Type} (c : cfg) (h : hooks S W) (ftol : f64) (out : bool).

Lemma fewer_sizes (s : st S W) (r : result) (tr : list ev) : completes c h ftol out s r tr ->
  (c_init_data c = None -> forall w g w', h_init h w = (Ok g, w') -> a_len g = Z.to_nat (c_size_gen c) \/ a_len g = 0%nat) ->
  (forall p w g w', h_sample h p w = (Ok g, w') -> a_len g = Z.to_nat (c_size_gen c) \/ a_len g = 0%nat) ->
  Forall2 (fun k gv => Z.of_nat (a_len (fst gv)) =
    match k, c_init_data c with O, Some d => Z.of_nat (a_len d) | _, _ => c_size_gen c end) (seq 0 (List.length (gens tr))) (gens tr) /\
  Z.of_nat (List.length (calls tr)) =
    r_nfev r + (match c_init_data c with Some d => Z.of_nat (a_len d) | None => c_size_gen c end - c_size_gen c).
Proof.
  intros H H0 HP.
  assert (NE : Forall (fun gv : arr * list f64 => a_len (fst gv) <> 0%nat) (gens tr)).
  { pose proof (history_lemma c h ftol out s r tr H) as Hh. destruct (calls_lemma c h ftol out s r tr H) as [_ Hf].
    apply Forall_forall. intros gv Hin. apply In_nth_error in Hin as [k Hk].
    assert (L : List.length (snd gv) = List.length (a_rows (fst gv))).
    { clear - Hf Hk. revert k Hk. induction Hf as [|x y l l' Hx _ IH]; intros [|k] Hk; cbn in Hk; try discriminate; [|exact (IH k Hk)].
      injection Hk as <-. apply Hx. }
    assert (M : exists m, is_min m (snd gv)).
    { clear - Hh Hk. revert k Hk. induction Hh as [|x y l l' Hx _ IH]; intros [|k] Hk; cbn in Hk; try discriminate; [|exact (IH k Hk)].
      injection Hk as <-. eauto. }
    destruct M as [m [M _]]. unfold a_len. rewrite <- L. destruct (snd gv); [destruct M|discriminate]. }
  destruct (gens_source c h ftol out s r tr
     (fun g => match c_init_data c with Some d => a_len g = a_len d | None => a_len g = Z.to_nat (c_size_gen c) \/ a_len g = 0%nat end)
     (fun g => a_len g = Z.to_nat (c_size_gen c) \/ a_len g = 0%nat) H) as (g0 & v0 & rest & Hg & Hg0 & Hr).
  { destruct (c_init_data c) as [d|]; [reflexivity|]. intros w g w' Hw. exact (H0 eq_refl w g w' Hw). }
  { exact HP. }
  rewrite (calls_count c h ftol out s r tr H).
  destruct (counts_lemma c h ftol out s r tr H) as (Hlen & _).
  assert (Hn : r_nfev r = (Z.of_nat (List.length (r_history r)) * c_size_gen c)%Z).
  { destruct (completes_rule c h ftol out (fun _ _ _ => True) s r tr) as (nb & sf & _ & _ & Hr' & _); auto.
    rewrite Hr'. reflexivity. }
  rewrite Hn, Hlen, Hg in *. unfold rows_total. cbn [map List.length fst snd seq]. inversion NE as [|x y N0 N1]; subst. cbn [fst] in N0.
  assert (Z0 : Z.of_nat (a_len g0) = match c_init_data c with Some d => Z.of_nat (a_len d) | None => c_size_gen c end).
  { destruct (c_init_data c); [lia|]. destruct Hg0; lia. }
  assert (Zr : Forall (fun gv : arr * list f64 => Z.of_nat (a_len (fst gv)) = c_size_gen c) rest).
  { clear - N1 Hr. rewrite Forall_forall in *. intros gv Hin. specialize (N1 gv Hin). destruct (Hr gv Hin); lia. }
  split.
  - constructor; [exact Z0|]. clear - Zr. generalize 0%nat. induction Zr as [|gv l Hgv _ IH]; intros k; cbn; constructor; [exact Hgv|apply IH].
  - assert (Hs : Z.of_nat (list_sum (map (fun gv => a_len (fst gv)) rest)) = (Z.of_nat (List.length rest) * c_size_gen c)%Z).
    { clear - Zr. induction Zr as [|gv l Hgv _ IH]; cbn [map list_sum fold_right List.length]; [lia|].
      rewrite Nat2Z.inj_add. unfold list_sum in IH. rewrite IH, Hgv. lia. }
    unfold list_sum in *. cbn [fold_right]. rewrite Nat2Z.inj_add, Hs, Z0. lia.
Qed.
End Loop.

Lemma frame_len_or size cols : a_len (frame size cols) = size \/ a_len (frame size cols) = 0%nat.
Proof. destruct cols as [|a l]; [right; reflexivity|left; apply frame_len; discriminate]. Qed.
Lemma normal_len {W} (g : rng W) loc scale size n w a w' : np_normal g loc scale size n w = (Ok a, w') -> a_len a = Z.to_nat size.
Proof.
  unfold np_normal. destruct (existsb _ _); [discriminate|]. destruct (_ <? _); [discriminate|]. destruct (negb _); [discriminate|].
  destruct (g_gauss _ _ _ _) as [z w1]. intros H. injection H as <- _. apply tabulate_length.
Qed.
Lemma mvn_len {W} (g : rng W) m cov size w a w' : np_mvn g m cov size w = (Ok a, w') -> a_len a = Z.to_nat size.
Proof.
  unfold np_mvn. destruct (negb _); [discriminate|]. destruct (_ <? _); [discriminate|].
  destruct (g_mvn _ _ _ _ _) as [[d|e] w1]; [|discriminate]. intros H. injection H as <- _. apply tabulate_length.
Qed.
Lemma unibin_len {W} (g : rng W) m size w a w' : unibin_sample g m size w = (Ok a, w') -> a_len a = Z.to_nat size.
Proof.
  unfold unibin_sample. destruct (_ <? _); [discriminate|]. destruct (g_unif _ _ _ _) as [u w1].
  destruct (bres _ _) as [k|]; [|discriminate]. intros H. injection H as <- _. apply tabulate_length.
Qed.

Section Opt.
Context {X W : Type} (E : env X W).
Hypothesis library_rows : forall k x size w g w', e_xsample E k x size w = (Ok g, w') -> a_len g = Z.to_nat size.

Lemma model_len m size w g w' : model_sample E m size w = (Ok g, w') -> a_len g = Z.to_nat size \/ a_len g = 0%nat.
Proof.
  destruct m; cbn [model_sample]; intros H.
  - left. exact (normal_len _ _ _ _ _ _ _ _ H).
  - left. exact (normal_len _ _ _ _ _ _ _ _ H).
  - left. unfold multigauss_sample in H. destruct (mg_cov p); [discriminate|]. exact (mvn_len _ _ _ _ _ _ _ H).
  - left. exact (unibin_len _ _ _ _ _ _ H).
  - unfold cat_sample in H. destruct (draw_columns _ _ _) as [[cols|e] w1]; [|discriminate]. injection H as <- _. apply frame_len_or.
  - left. exact (library_rows _ _ _ _ _ _ H).
Qed.
Lemma initr_len i size w g w' : initr_sample E i size w = (Ok g, w') -> a_len g = Z.to_nat size \/ a_len g = 0%nat.
Proof.
  destruct i; cbn [initr_sample]; intros H.
  - left. exact (normal_len _ _ _ _ _ _ _ _ H).
  - left. exact (unibin_len _ _ _ _ _ _ H).
  - left. exact (mvn_len _ _ _ _ _ _ _ H).
  - left. exact (proj2 (uniform_width _ _ _ _ _ _ H)).
  - unfold cat_init_sample in H. destruct (draw_columns _ _ _) as [[cols|e] w1]; [|discriminate]. injection H as <- _. apply frame_len_or.
Qed.

Lemma counted (o : optimiser X) a cost ftol out w r s : run_in E a o cost ftol out w = (Ok r, s) ->
  Forall2 (fun k gv => Z.of_nat (a_len (fst gv)) =
    match k, c_init_data (op_cfg o) with O, Some d => Z.of_nat (a_len d) | _, _ => c_size_gen (op_cfg o) end)
    (seq 0 (List.length (gens (s_tr s)))) (gens (s_tr s)) /\
  Z.of_nat (List.length (calls (s_tr s))) =
    r_nfev r + (match c_init_data (op_cfg o) with Some d => Z.of_nat (a_len d) | None => c_size_gen (op_cfg o) end - c_size_gen (op_cfg o)).
Proof.
  intros H. eapply fewer_sizes.
  - split; [|exists s; split; [exact H|reflexivity]]. reflexivity.
  - intros _ w0 g w' Hi. cbn [hooks_of h_init] in Hi. destruct (op_init o) as [i|]; [|discriminate]. exact (initr_len _ _ _ _ _ Hi).
  - intros p w0 g w' Hi. cbn [hooks_of h_sample] in Hi. destruct (ps_pm p) as [m|]; [|discriminate]. exact (model_len _ _ _ _ _ Hi).
Qed.
End Opt.

Lemma counted_iff {X W} (E : env X W) (o : optimiser X) a cost ftol out w r s :
  (forall k x size w g w', e_xsample E k x size w = (Ok g, w') -> a_len g = Z.to_nat size) ->
  run_in E a o cost ftol out w = (Ok r, s) ->
  r_nfev r = Z.of_nat (List.length (calls (s_tr s))) <->
  match c_init_data (op_cfg o) with Some d => Z.of_nat (a_len d) = c_size_gen (op_cfg o) | None => True end.
Proof.
  intros L H. destruct (counted E L o a cost ftol out w r s H) as [_ ->]. destruct (c_init_data (op_cfg o)); split; auto; lia.
Qed.
