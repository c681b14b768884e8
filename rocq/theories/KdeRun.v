(** Kernel density estimation inside UnivariateKEDA, and what a failed [learn] leaves behind. *)
From Coq Require Import String List ZArith Bool Lia Reals Lra.
From Flocq Require Import IEEE754.BinarySingleNaN.
From Verif Require Import PyBase B64 B64More NdArray Eda EdaInv Spec TopK LoopObs LoopThms LoopMore Select LoopTrain LoopRel LoopInv LoopFinal Rand Models Inits InitThms ModelThms CatThms ModelProps Trunc Stock StockInv StockGauss StockCat StockPrior StockArchive StockFail StockAll StockMore Gbn Nets NetThms Kde.
Import ListNotations.
Open Scope nat_scope.

(* ---------------- UniKDE and exact kernel density estimation ---------------- *)
(** The rows as real numbers. *)
Definition real_cell (c : cell) : R := match c with CF x => B2R x | CI z => IZR z | CS _ => 0%R end.
Definition real_rows (d : arr) : list (list R) := map (map real_cell) (a_rows d).
(** On this data set the library's estimator behaves as scipy's in exact arithmetic. *)
Definition exact_kde {W Net K} (L : @library W Net K) (d : arr) : Prop :=
  (exists x, l_kde L d = Ok x) <-> kde_fits (a_nc d) (real_rows d).
(** Column [i] as a data set of its own. *)
Definition column_alone (i : nat) (d : arr) : arr := mkArr (a_dt d) 1 (map (fun r => [nth i r (CF fnan)]) (a_rows d)).

Lemma kde_learn_ok {W Net K} (L : @library W Net K) d k : fst (kde_learn L d k) = Ok tt <-> exists x, l_kde L d = Ok x.
Proof.
  unfold kde_learn. destruct (l_kde L d) as [x|e]; cbn.
  - split; [intros _; exists x; reflexivity|reflexivity].
  - split; [discriminate|intros (x & H); discriminate].
Qed.

Lemma unikde_learns {W Net K} (L : @library W Net K) d k : exact_kde L d -> 0 < a_nc d ->
  (fst (kde_learn L d k) = Ok tt <-> 2 <= a_len d /\
     forall v : nat -> R, (exists i, i < a_nc d /\ v i <> 0%R) ->
       exists r1 r2, In r1 (real_rows d) /\ In r2 (real_rows d) /\ inner (a_nc d) v r1 <> inner (a_nc d) v r2).
Proof.
  intros HE Hn. unfold exact_kde in HE. rewrite kde_learn_ok, HE, kde_fits_iff by exact Hn. unfold real_rows at 1. rewrite map_length. reflexivity.
Qed.

Lemma unikde_few {W Net K} (L : @library W Net K) d k : exact_kde L d -> a_len d <= a_nc d -> exists e, fst (kde_learn L d k) = Raise e.
Proof.
  intros HE Hl. destruct (fst (kde_learn L d k)) as [[]|e] eqn:E; [|exists e; reflexivity]. exfalso.
  apply (proj1 (kde_learn_ok L d k)) in E. apply (proj1 HE) in E. revert E. apply kde_few_rows. unfold real_rows. rewrite map_length. exact Hl.
Qed.

Lemma unikde_one {W Net K} (L : @library W Net K) d k : exact_kde L d -> a_nc d = 1 ->
  (fst (kde_learn L d k) = Ok tt <-> exists r1 r2, In r1 (real_rows d) /\ In r2 (real_rows d) /\ nth 0 r1 0%R <> nth 0 r2 0%R).
Proof. intros HE Hn. unfold exact_kde in HE. rewrite kde_learn_ok, HE, Hn. apply kde_one. Qed.

(** Every column alone can be estimated, all together cannot. *)
Lemma unikde_joint : exists d, (forall i, i < a_nc d -> kde_fits 1 (real_rows (column_alone i d))) /\
  forall W Net K (L : @library W Net K) k, exact_kde L d -> exists e, fst (kde_learn L d k) = Raise e.
Proof.
  exists (mkArr DInt 2 [[CI 0; CI 0]; [CI 1; CI 1]]). split.
  - intros i Hi. apply kde_one. exists [0%R], [1%R]. destruct i as [|[|i]]; [| |cbn in Hi; lia]; cbn; (split; [left; reflexivity|split; [right; left; reflexivity|lra]]).
  - intros W Net K L k HE. apply unikde_few; [exact HE|cbn; lia].
Qed.

(* ---------------- UnivariateKEDA ---------------- *)
Section Run.
Context {X W : Type}.
Variable E : env X W.

(** The kernel density estimator refuses a data set with no more rows than columns. *)
Definition needs_rows : Prop := forall d x w, a_len d <= a_nc d -> exists e, fst (e_xlearn E KUniKDE d x w) = Raise e.

Lemma kde_few_fails (o : optimiser X) cost a ftol out w r s n x t nv :
  needs_rows -> op_upd o = FromSelection -> ps_pm (op_st o) = Some (MExt KUniKDE n x) ->
  c_trunc_len (op_cfg o) = t -> (0 <= t <= Z.of_nat nv)%Z ->
  (forall d, c_init_data (op_cfg o) = Some d -> a_nc d = nv) ->
  (forall w g w', h_init (hooks_of E o cost) w = (Ok g, w') -> a_nc g = nv) ->
  run_in E a o cost ftol out w = (Ok r, s) -> (c_max_iter (op_cfg o) <= 1)%Z.
Proof.
  intros HK Hu Hm Ht Hle Hd Hi. apply (one_generation E o cost (fun s => a_nc (o_gen (s_obj s)) = nv /\ exists n x, ps_pm (s_pm s) = Some (MExt KUniKDE n x))).
  - intros b s1 w1 s1' F P. rewrite (printed_obj _ _ P). destruct P as (ps & _ & ->). cbn [s_pm]. destruct F. subst s1. cbn [s_obj s_pm o_gen].
    split; [|eauto]. destruct (c_init_data (op_cfg o)) as [d|]; [destruct ff_init as [-> _]; auto|eapply Hi, ff_init].
  - intros wn s0 b acc s1 Hn (I1 & n0 & x0 & I2) F. destruct F. pose proof (sel_nc _ _ _ _ _ _ _ if_sel) as Hnc.
    pose proof (iadd_nc _ _ _ if_iadd) as Hnn. pose proof (iadd_moved _ _ _ if_iadd) as [Hml _].
    cbn [hooks_of h_data] in if_hdata. rewrite Hu in if_hdata. cbn [data_of] in if_hdata.
    assert (if_data = if_noisy) by congruence. assert (if_p1 = s_pm s0) by congruence. subst if_data if_p1.
    cbn [hooks_of h_learn] in if_learn. rewrite I2 in if_learn. cbn [model_learn] in if_learn.
    assert (Hlen : a_len if_noisy <= nv).
    { destruct if_sel as [gen _ _ Htr _ _]. apply take_rows_ok in Htr as (_ & _ & Hg). apply gather_length in Hg.
      unfold a_len. rewrite Hml, Hg. unfold slice_to. rewrite (proj2 (Z.leb_le 0 _)) by lia. rewrite firstn_length. lia. }
    destruct (HK if_noisy x0 (s_w s0)) as (e & He); [rewrite Hnn, Hnc, I1; exact Hlen|].
    destruct (e_xlearn E KUniKDE if_noisy x0 (s_w s0)) as [r0 [x' w']]. cbn [fst] in He. congruence.
Qed.

Lemma keda_few_fails g lo hi wn (o0 o : optimiser X) t cost a ftol out w r s :
  needs_rows -> construct E (UnivariateKEDA lo hi wn) g = Ok o0 -> used E o0 o ->
  int_times (g_size_gen g) (g_alpha g) = Ok t -> (0 <= t <= g_nvars g)%Z ->
  run_in E a o cost ftol out w = (Ok r, s) -> (g_max_iter g <= 1)%Z.
Proof.
  intros HK H U Ht Hle Hr. pose proof (construct_built E (UnivariateKEDA lo hi wn) g o0 H) as [B _ Bu Bi _].
  destruct (Bi lo hi eq_refl) as (u & Hu & Hi). unfold base_of in B. apply eda_init_inv in B.
  destruct B as (C1 & C2 & _ & C4 & _ & _ & _ & _ & C9 & C10 & C11 & _ & _ & C14).
  destruct (used_setup E _ _ U) as (E1 & E2 & E3 & _).
  assert (Hm : exists n x, ps_pm (op_st o0) = Some (MExt KUniKDE n x)).
  { cbn [construct] in H. unfold unikeda_new in H. destruct (base _ _ _ _) as [b|] eqn:Hb; cbn [rbind] in H; [|discriminate].
    destruct (uniform_new _ _ _); cbn [rbind] in H; [|discriminate]. destruct (assign_init _ b) as [b1|] eqn:Hp; cbn [rbind] in H; [|discriminate].
    apply assign_init_ok in Hp as [_ ->]. apply assign_pm_ok in H as [_ ->]. cbn. eauto. }
  destruct Hm as (n1 & x1 & Hm). pose proof (used_alike E _ _ U) as HA. rewrite Hm in HA. cbn [alike_opt] in HA.
  destruct (ps_pm (op_st o)) as [m|] eqn:Em; [|destruct HA]. destruct m; try destruct HA. subst k n.
  rewrite <- C2, <- E1. eapply (kde_few_fails o cost a ftol out w r s n1 _ t (Z.to_nat (g_nvars g)) HK); [rewrite E3; apply Bu; reflexivity|exact Em| | | | |exact Hr].
  - rewrite E1. change (passed_alpha (UnivariateKEDA lo hi wn) g) with (g_alpha g) in C11. rewrite Ht in C11. congruence.
  - lia.
  - intros d Hd. rewrite E1, C9 in Hd. specialize (C14 d Hd). lia.
  - intros w0 g0 w0'. cbn [hooks_of h_init]. rewrite E2, Hi. cbn [initr_sample]. intros Hs. apply uniform_float in Hs as (_ & Hs & _).
    rewrite Hs. unfold uniform_new in Hu. destruct (_ && _); [|discriminate]. assert (ui_n u = g_nvars g) as -> by (assert (u = mkUI (g_nvars g) lo hi) by congruence; subst u; reflexivity).
    reflexivity.
Qed.
End Run.

(* ---------------- a failed learn ---------------- *)
(** [learn] that raised on the k-th variable: the variables before it are as if only they had
    been learned, the others are old. *)
Definition half_learned {A} (learn : list A -> res unit * list A) (pm : list A) (e : exn) (pm' : list A) : Prop :=
  exists k new, k < List.length pm /\ learn (firstn k pm) = (Ok tt, new) /\ fst (learn (firstn (S k) pm)) = Raise e /\ pm' = new ++ skipn k pm.

Lemma learn_from_failed {T} (upd : nat -> res (T * T)) pm : forall i e pm', learn_from upd i pm = (Raise e, pm') -> half_learned (learn_from upd i) pm e pm'.
Proof.
  induction pm as [|x pm IH]; intros i e pm' H; cbn in H; [discriminate|].
  destruct (upd i) as [v|e0] eqn:Eu.
  - destruct (learn_from upd (S i) pm) as [r pm2] eqn:El. assert (r = Raise e) by congruence. assert (pm' = v :: pm2) by congruence. subst r pm'.
    destruct (IH _ _ _ El) as (k & new & H1 & H2 & H3 & H4). exists (S k), (v :: new). cbn [List.length skipn app].
    split; [lia|]. rewrite (firstn_cons k), (firstn_cons (S k)). cbn [learn_from]. rewrite Eu, H2. split; [reflexivity|].
    destruct (learn_from upd (S i) (firstn (S k) pm)) as [r2 p2]. split; [exact H3|congruence].
  - exists 0, []. cbn. rewrite Eu. split; [lia|]. split; [reflexivity|]. split; [cbn; congruence|congruence].
Qed.
Lemma gaussian_left (T : Type) (o : ops T) lower alpha col (pm : list (T * T)) e pm' :
  (unigauss_learn o lower col pm = (Raise e, pm') -> half_learned (unigauss_learn o lower col) pm e pm') /\
  (adapt_learn o lower alpha col pm = (Raise e, pm') -> half_learned (adapt_learn o lower alpha col) pm e pm').
Proof. split; apply learn_from_failed. Qed.

Lemma cat_learn_failed d t : forall i e t', cat_learn_from d i t = (Raise e, t') -> half_learned (cat_learn_from d i) t e t'.
Proof.
  induction t as [|x t IH]; intros i e t' H; cbn in H; [discriminate|].
  destruct (rbind (cell_col d i) obtain_probabilities) as [v|e0] eqn:Eu.
  - destruct (cat_learn_from d (S i) t) as [r t2] eqn:El. assert (r = Raise e) by congruence. assert (t' = Some v :: t2) by congruence. subst r t'.
    destruct (IH _ _ _ El) as (k & new & H1 & H2 & H3 & H4). exists (S k), (Some v :: new). cbn [List.length skipn app].
    split; [lia|]. rewrite (firstn_cons k), (firstn_cons (S k)). cbn [cat_learn_from]. rewrite Eu, H2. split; [reflexivity|].
    destruct (cat_learn_from d (S i) (firstn (S k) t)) as [r2 p2]. split; [exact H3|congruence].
  - exists 0, []. cbn. rewrite Eu. split; [lia|]. split; [reflexivity|]. split; [cbn; congruence|congruence].
Qed.
Lemma cat_left d t e t' : cat_learn d t = (Raise e, t') -> half_learned (cat_learn d) t e t'.
Proof. apply cat_learn_failed. Qed.

Lemma unibin_failed d m e : fst (unibin_learn d m) = Raise e -> snd (unibin_learn d m) = m.
Proof. unfold unibin_learn. destruct (unibin_probs _ _ d); cbn; [discriminate|reflexivity]. Qed.
Lemma kde_failed {W Net K} (L : @library W Net K) d k e : fst (kde_learn L d k) = Raise e -> snd (kde_learn L d k) = k.
Proof. unfold kde_learn. destruct (l_kde L d); cbn; [discriminate|reflexivity]. Qed.
Lemma nets_failed {W Net K} (L : @library W Net K) k folds score d (m : netm Net) w : a_nc d <> List.length (nm_vars m) ->
  net_learn L k folds d m w = (Raise ValueError, (m, w)) /\ gbn_learn L d m w = (Raise ValueError, (m, w)) /\
  bn_learn L score d m w = (Raise ValueError, (m, w)).
Proof.
  intros H. unfold gbn_learn, net_learn, bn_learn, to_table. destruct (Nat.eqb_spec (a_nc d) (List.length (nm_vars m))); [contradiction|]. auto.
Qed.
(** A search that raises after the network was replaced. *)
Lemma nets_search_failed {W Net K} (L : @library W Net K) k folds d (m : netm Net) w t e w' :
  to_table (nm_vars m) d = Ok t -> search L k folds t (with_net m (l_new L k (nm_vars m))) w = (Raise e, w') ->
  net_learn L k folds d m w = (Raise e, (with_net m (l_new L k (nm_vars m)), w')).
Proof. intros Ht Hs. unfold net_learn. rewrite Ht, Hs. reflexivity. Qed.

Lemma failures_keep d :
  (forall m e, fst (unibin_learn d m) = Raise e -> snd (unibin_learn d m) = m) /\
  (forall W Net K (L : @library W Net K) k e, fst (kde_learn L d k) = Raise e -> snd (kde_learn L d k) = k) /\
  (forall W Net K (L : @library W Net K) k folds score (m : netm Net) w, a_nc d <> List.length (nm_vars m) ->
     net_learn L k folds d m w = (Raise ValueError, (m, w)) /\ gbn_learn L d m w = (Raise ValueError, (m, w)) /\
     bn_learn L score d m w = (Raise ValueError, (m, w))).
Proof.
  split; [intros; eapply unibin_failed; eassumption|]. split; [intros; eapply kde_failed; eassumption|].
  intros. apply nets_failed. assumption.
Qed.

Lemma networks_forget {W Net K} (L : @library W Net K) d w (m1 m2 : netm Net) :
  same_model m1 m2 ->
  forgets (fun s => gbn_learn L d (fst s) w) (m1, w) (m2, w) /\
  (nm_top m1 = nm_top m2 -> nm_fitted m1 = nm_fitted m2 ->
     (forall k folds, forgets (fun s => net_learn L k folds d (fst s) w) (m1, w) (m2, w)) /\
     (forall score, forgets (fun s => bn_learn L score d (fst s) w) (m1, w) (m2, w))) /\
  (forall k1 k2, forgets (kde_learn L d) k1 k2).
Proof.
  intros H. split; [apply gbn_learn_forgets, H|]. split; [|intros; apply kde_learn_forgets].
  intros Ht Hf. split; intros; [apply spbn_learn_forgets|apply bn_learn_forgets]; assumption.
Qed.

Lemma resampled {W Net K} (L : @library W Net K) (m : netm Net) d t size w w' :
  NoDup (nm_vars m) -> Forall (fun r => List.length r = a_nc d) (a_rows d) -> labelled (nm_vars m) d t -> tb_dt t = a_dt d ->
  a_nc d = List.length (nm_vars m) -> l_draw L (nm_pm m) size w = (Ok t, w') ->
  net_sample L m size w = (Ok d, w').
Proof.
  intros Hn Hw (Hok & Hc & Hr & Hv) Hdt En Hd. unfold net_sample. rewrite Hd.
  destruct (pick_ok (nm_vars m) t Hok) as (a & -> & N & D & R & F & V); [intros x Hx; apply Hc, Hx|]. f_equal. f_equal.
  destruct a as [dt nc rs], d as [dt' nc' rs']. cbn in *. subst. f_equal.
  apply (all_rows_eq (List.length (nm_vars m))); [congruence|exact F|exact Hw|].
  intros i j c Hj. destruct (nth_error (nm_vars m) j) as [v|] eqn:E2; [|apply nth_error_None in E2; lia].
  rewrite (V i j v c E2), (Hv i j v c E2). tauto.
Qed.
