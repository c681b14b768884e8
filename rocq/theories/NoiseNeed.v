(** What a run with noise needs: enough individuals to select from. *)
From Coq Require Import List ZArith Bool Lia Permutation.
From Verif Require Import PyBase B64 NdArray Eda EdaInv Spec TopK LoopObs LoopThms BestCost Select LoopMore Rand Models Inits Stock StockInv StockAll FevCount.
Import ListNotations.
Local Open Scope nat_scope.

Section Loop.
Context {S W : Type} (c : cfg) (h : hooks S W) (ftol : f64) (out : bool).

Lemma selected_len o gen' evals' elite' evel' : argsort_ok (h_argsort h) -> (0 <= c_trunc_len c)%Z ->
  selected c h o gen' evals' elite' evel' ->
  a_len gen' = Nat.min (Z.to_nat (c_trunc_len c)) (List.length (o_evals o) + List.length (o_evel o)).
Proof.
  intros Hsort HT [g Hc He Ht Hve Hvt]. rewrite slice_to_nonneg in Ht by exact HT. apply take_rows_ok in Ht as (_ & _ & Ht).
  unfold a_len. rewrite (gather_length _ _ _ Ht), firstn_length. destruct (Hsort (o_evals o ++ o_evel o)) as [Hp _].
  rewrite (Permutation_length Hp), seq_length, app_length. reflexivity.
Qed.

Lemma noise_needs (s : st S W) (r : result) (tr : list ev) :
  completes c h ftol out s r tr -> argsort_ok (h_argsort h) -> (2 <= c_max_iter c)%Z ->
  py_eq_int (c_w_noise c) 0 = false -> py_eq_int (c_w_noise c) (-1) = false ->
  exists g0 v0 rest, gens tr = (g0, v0) :: rest /\ ((c_trunc_len c <= Z.of_nat (a_len g0) + 1)%Z \/ c_trunc_len c = 1%Z).
Proof.
  intros H Hsort Hmax N0 N1.
  pose proof (counts_lemma c h ftol out s r tr H) as (Hlen & _).
  destruct (completes_rule c h ftol out (fun hist nb s =>
     exists g0 v0 rest, gens (s_tr s) = (g0, v0) :: rest /\
       (rest = [] -> nb = 0%Z /\ List.length (o_evals (s_obj s)) = a_len g0 /\ List.length (o_evel (s_obj s)) = 1) /\
       (rest <> [] -> (c_trunc_len c <= Z.of_nat (a_len g0) + 1)%Z \/ c_trunc_len c = 1%Z)) s r tr)
    as (nb & sf & (g0 & v0 & rest & Hg & Hnil & Hfit) & <- & _ & Hstop & _); try assumption.
  - intros s0 sp Hp hist nb HI. rewrite (printed_gens _ _ Hp). destruct Hp as [ps [_ ->]]. exact HI.
  - intros b s1 w1 s1' Htr Hf Hp. rewrite (printed_gens _ _ Hp). destruct Hp as [ps [_ ->]]. destruct Hf. subst s1. cbn [s_tr s_obj o_evals o_evel].
    rewrite Htr, !gens_app, gens_calls_of. cbn. exists ff_g, ff_vals, []. split; [reflexivity|]. split; [|congruence].
    intros _. split; [reflexivity|]. split; [|reflexivity]. rewrite (Stored_length _ _ ff_stored). exact ff_len.
  - intros wn hist nb s0 b acc s1 s1' Hwn (g0 & v0 & rest & Hg & Hnil & Hfit) _ _ Hf Hp.
    rewrite (printed_gens _ _ Hp). destruct Hp as [ps [_ ->]]. destruct Hf. subst s1. cbn [s_tr s_obj].
    rewrite !gens_app, gens_calls_of, Hg. cbn. exists g0, v0, (rest ++ [(if_g, if_vals)]).
    split; [reflexivity|]. split; [intros E; destruct rest; discriminate|]. intros _.
    destruct rest as [|x rest]; [|apply Hfit; discriminate]. destruct (Hnil eq_refl) as (_ & L1 & L2).
    destruct wn as [| |nr nc d]; cbn [noise_cfg] in Hwn; [congruence|destruct Hwn; congruence|].
    destruct Hwn as (_ & _ & HT & _ & -> & _). pose proof (selected_len _ _ _ _ _ Hsort HT if_sel) as L. rewrite L1, L2 in L.
    unfold iadd in if_iadd. destruct (a_dt if_gen'); try discriminate;
    (destruct (broadcasts (Z.to_nat (c_trunc_len c)) (a_len if_gen')) eqn:B; [|discriminate];
     unfold broadcasts in B; apply orb_true_iff in B as [B|B]; apply Nat.eqb_eq in B; lia).
  - exists g0, v0, rest. split; [exact Hg|]. apply Hfit. intros ->. destruct (Hnil eq_refl) as (Hnb & _).
    rewrite Hlen, Hg in Hstop. cbn [List.length] in Hstop. destruct Hstop as [Hs|[_ Hs]]; [lia|congruence].
Qed.
End Loop.

Lemma gens_nonempty {S W} (c : cfg) (h : hooks S W) ftol out (s : st S W) (r : result) (tr : list ev) :
  completes c h ftol out s r tr -> Forall (fun gv : arr * list f64 => a_len (fst gv) <> 0) (gens tr).
Proof.
  intros H. pose proof (history_lemma c h ftol out s r tr H) as Hh. destruct (calls_lemma c h ftol out s r tr H) as [_ Hf].
  apply Forall_forall. intros gv Hin. apply In_nth_error in Hin as [k Hk].
  assert (L : List.length (snd gv) = List.length (a_rows (fst gv))).
  { clear - Hf Hk. revert k Hk. induction Hf as [|x y l l' Hx _ IH]; intros [|k] Hk; cbn in Hk; try discriminate; [|exact (IH k Hk)].
    injection Hk as <-. apply Hx. }
  assert (M : exists m, is_min m (snd gv)).
  { clear - Hh Hk. revert k Hk. induction Hh as [|x y l l' Hx _ IH]; intros [|k] Hk; cbn in Hk; try discriminate; [|exact (IH k Hk)].
    injection Hk as <-. eauto. }
  destruct M as [m [M _]]. unfold a_len. rewrite <- L. destruct (snd gv); [destruct M|discriminate].
Qed.

(** The individuals an optimiser starts from. *)
Lemma noise_needs_run {X W} (E : env X W) (o : optimiser X) a cost ftol out w r s :
  run_in E a o cost ftol out w = (Ok r, s) ->
  argsort_ok (e_argsort E) -> (2 <= c_max_iter (op_cfg o))%Z ->
  py_eq_int (c_w_noise (op_cfg o)) 0 = false -> py_eq_int (c_w_noise (op_cfg o)) (-1) = false ->
  (c_trunc_len (op_cfg o) <= match c_init_data (op_cfg o) with Some d => Z.of_nat (a_len d) | None => c_size_gen (op_cfg o) end + 1)%Z \/
  c_trunc_len (op_cfg o) = 1%Z.
Proof.
  intros R H1 H2 H3 H4.
  assert (C : completes (op_cfg o) (hooks_of E o cost) ftol out (mkSt a (op_st o) w []) r (s_tr s)).
  { split; [reflexivity|]. exists s. split; [exact R|reflexivity]. }
  destruct (noise_needs _ _ _ _ _ _ _ C H1 H2 H3 H4) as (g0 & v0 & rest & Hg & K).
  pose proof (gens_nonempty _ _ _ _ _ _ _ C) as N. rewrite Hg in N. inversion N as [|x y N0 _]; subst. cbn [fst] in N0.
  destruct (gens_source _ _ _ _ _ _ _ (fun g => match c_init_data (op_cfg o) with Some d => g = d
      | None => a_len g = Z.to_nat (c_size_gen (op_cfg o)) \/ a_len g = 0 end) (fun _ => True) C) as (g1 & v1 & rest1 & Hg1 & Q & _).
  - destruct (c_init_data (op_cfg o)) as [d|]; [reflexivity|]. intros w0 g w' Hi. cbn [hooks_of h_init] in Hi.
    destruct (op_init o) as [i|]; [|discriminate]. exact (initr_len E _ _ _ _ _ Hi).
  - auto.
  - assert (g1 = g0) by congruence. subst g1. destruct (c_init_data (op_cfg o)) as [d|]; [subst g0; exact K|]. destruct Q as [Q|Q]; [|congruence].
    destruct K as [K|K]; [left|right; exact K]. lia.
Qed.

Lemma noise_needs_stock {X W} (E : env X W) A g (o0 o : optimiser X) p t a cost ftol out w :
  construct E A g = Ok o0 -> used E o0 o -> argsort_ok (e_argsort E) -> (2 <= g_max_iter g)%Z ->
  passed_noise A = Some p -> py_eq_int p 0 = false -> py_eq_int p (-1) = false ->
  int_times (g_size_gen g) (passed_alpha A g) = Ok t ->
  (match g_init_data g with Some d => Z.of_nat (a_len d) | None => g_size_gen g end + 1 < t)%Z -> t <> 1%Z ->
  exists e, fst (run_in E a o cost ftol out w) = Raise e.
Proof.
  intros H U Hs Hm Hp P0 P1 Ht Hl H1. pose proof (construct_built E _ _ _ H) as B. destruct B as [B _ _ _ _].
  destruct (used_setup E _ _ U) as (E1 & _). unfold base_of in B. apply eda_init_inv in B.
  destruct B as (B1 & B2 & _ & _ & _ & _ & _ & _ & B3 & B4 & B5 & _). rewrite Hp, P0 in B4. rewrite Ht in B5. injection B5 as B5.
  destruct (run_in E a o cost ftol out w) as [[r|e] s] eqn:R; [exfalso|exists e; reflexivity].
  pose proof (noise_needs_run E o a cost ftol out w r s R Hs) as K. rewrite E1, B1, B2, B3, B4, <- B5 in K.
  destruct (K Hm P0 P1); [lia|congruence].
Qed.
