(** What survives the selection: the elite among the selected, and values that die out. *)
From Coq Require Import String List ZArith Bool Lia Reals Lra.
From Flocq Require Import Core IEEE754.BinarySingleNaN.
From Verif Require Import PyBase B64 B64More NdArray Eda EdaInv Spec LoopObs LoopThms Select LoopTrain LoopMore Rand Models Inits InitThms Interval Trunc Kahan CatThms Stock StockInv StockAll StockCat StockFinal.
From Verif Require LoopInv LoopDrawn.
Import ListNotations.
Open Scope nat_scope.

Lemma slice_to_pos {A} k (l : list A) : (0 <= k)%Z -> slice_to k l = firstn (Z.to_nat k) l.
Proof. intros H. unfold slice_to. apply Z.leb_le in H. rewrite H. reflexivity. Qed.

Lemma gather_firstn {A} (l : list A) k : forall idx out, gather idx l = Ok out -> gather (firstn k idx) l = Ok (firstn k out).
Proof.
  induction k as [|k IH]; intros idx out H; [reflexivity|]. destruct idx as [|i idx]; cbn in H.
  - assert (E : out = []) by congruence. subst. reflexivity.
  - destruct (nth_error l i) as [x|] eqn:Ex; cbn in H; [|discriminate].
    destruct (gather idx l) as [out'|] eqn:Eo; cbn in H; [|discriminate].
    assert (E : out = x :: out') by congruence. subst out. cbn. rewrite Ex. cbn. rewrite (IH idx out' Eo). reflexivity.
Qed.

Section Loop.
Context {S W : Type}.
Variable c : cfg.
Variable h : hooks S W.

(** One selection is an initial segment of the other. *)
Definition prefix_ok (tr : list ev) (e : ev) : Prop :=
  match e with
  | EvSelect t el =>
      ((c_elite_len c <= c_trunc_len c)%Z -> el = firstn (Z.to_nat (c_elite_len c)) t) /\
      ((c_trunc_len c <= c_elite_len c)%Z -> t = firstn (Z.to_nat (c_trunc_len c)) el)
  | _ => True
  end.

Lemma combine_firstn' {A B} k (l : list A) (l' : list B) : combine (firstn k l) (firstn k l') = firstn k (combine l l').
Proof. revert l l'. induction k as [|k IH]; intros [|x l] [|y l']; cbn; try reflexivity. f_equal. apply IH. Qed.

Lemma take_firstn (a b b' : arr) (idx : list nat) m k : m <= k ->
  take_rows (firstn k idx) a = Ok b -> take_rows (firstn m idx) a = Ok b' -> a_rows b' = firstn m (a_rows b).
Proof.
  intros Hm H H'. apply take_rows_ok in H as (_ & _ & H). apply take_rows_ok in H' as (_ & _ & H').
  apply (gather_firstn _ m) in H. rewrite firstn_firstn, Nat.min_l in H by exact Hm. congruence.
Qed.

Lemma selected_prefix o gen' evals' elite' evel' : (0 <= c_trunc_len c)%Z -> (0 <= c_elite_len c)%Z ->
  selected c h o gen' evals' elite' evel' ->
  ((c_elite_len c <= c_trunc_len c)%Z -> a_rows elite' = firstn (Z.to_nat (c_elite_len c)) (a_rows gen') /\ evel' = firstn (Z.to_nat (c_elite_len c)) evals') /\
  ((c_trunc_len c <= c_elite_len c)%Z -> a_rows gen' = firstn (Z.to_nat (c_trunc_len c)) (a_rows elite') /\ evals' = firstn (Z.to_nat (c_trunc_len c)) evel').
Proof.
  intros Ht He H. destruct H. rewrite !slice_to_pos in * by assumption. split; intros Hle; split.
  - eapply take_firstn; [|exact sel_train|exact sel_elite]. lia.
  - apply (gather_firstn _ (Z.to_nat (c_elite_len c))) in sel_evals. rewrite firstn_firstn, Nat.min_l in sel_evals by lia. congruence.
  - eapply take_firstn; [|exact sel_elite|exact sel_train]. lia.
  - apply (gather_firstn _ (Z.to_nat (c_trunc_len c))) in sel_evel. rewrite firstn_firstn, Nat.min_l in sel_evel by lia. congruence.
Qed.

Lemma prefix_lemma ftol out (s : st S W) (r : result) (tr : list ev) :
  (0 <= c_trunc_len c)%Z -> (0 <= c_elite_len c)%Z ->
  completes c h ftol out s r tr -> each_event prefix_ok tr.
Proof.
  intros Ht He [Htr [s' [H <-]]].
  destruct (minimize_rule c h ftol out (fun _ _ s1 => each_event prefix_ok (s_tr s1)) s s' r) as (nb & sf & HI & Hp & _); [| |exact H|].
  - intros b s1 w1 s1' Hf Hp. eapply printed_after_each; [|exact Hp|]; [intros; exact I|]. destruct Hf. subst s1. cbn [s_tr]. rewrite Htr.
    apply (each_event_extend _ []); [apply each_event_nil|]. intros t e Hin. apply in_app_or in Hin as [Hin|[<-|[]]]; [|exact I].
    apply calls_of_only in Hin as (x & v & ->). exact I.
  - intros wn hist nb s0 b acc s1 s1' _ HI _ _ Hf Hp. eapply printed_after_each; [|exact Hp|]; [intros; exact I|]. destruct Hf. subst s1. cbn [s_tr].
    match goal with |- each_event _ (?a ++ [?x; ?y] ++ ?z) => replace (a ++ [x; y] ++ z) with ((a ++ [x]) ++ (y :: z)) by (rewrite <- app_assoc; reflexivity) end.
    apply each_event_extend.
    + apply each_event_snoc; [exact HI|]. cbn [prefix_ok]. destruct (selected_prefix _ _ _ _ _ Ht He if_sel) as [P1 P2].
      split; intros Hle; [destruct (P1 Hle) as [-> ->]|destruct (P2 Hle) as [-> ->]]; apply combine_firstn'.
    + intros t e [<-|Hin]; [exact I|]. apply in_app_or in Hin as [Hin|[<-|[]]]; [|exact I].
      apply calls_of_only in Hin as (x & v & ->). exact I.
  - eapply printed_after_each; [|exact Hp|exact HI]. intros; exact I.
Qed.

(** ** Values that die out

    [kept n d a]: every value the individuals of [a] have for a variable, some individual of
    [d] has for it. *)
Definition kept (n : nat) (d : arr) (rs : list row) : Prop := forall j, j < n -> incl (column j rs) (column j (a_rows d)).

Lemma column_incl j (a b : list row) : incl a b -> incl (column j a) (column j b).
Proof. intros H x Hx. unfold column in *. apply in_map_iff in Hx as (r & <- & Hr). apply (in_map (fun r : row => nth j r (CF fnan))). apply H, Hr. Qed.
Lemma column_app j (a b : list row) : column j (a ++ b) = column j a ++ column j b.
Proof. apply map_app. Qed.

Lemma kept_sub n d (a b : list row) : kept n d b -> incl a b -> kept n d a.
Proof. intros H Hi j Hj. eapply incl_tran; [apply column_incl, Hi|apply H, Hj]. Qed.
Lemma kept_app n d (a b : list row) : kept n d a -> kept n d b -> kept n d (a ++ b).
Proof. intros Ha Hb j Hj. rewrite column_app. apply incl_app; [apply Ha|apply Hb]; exact Hj. Qed.
Lemma kept_trans n d d' (a : list row) : kept n d (a_rows d') -> kept n d' a -> kept n d a.
Proof. intros H H' j Hj. eapply incl_tran; [apply H', Hj|apply H, Hj]. Qed.
Lemma kept_refl n d : kept n d (a_rows d).
Proof. intros j _ x Hx. exact Hx. Qed.

Lemma cast_other d x : d <> DFloat -> cast_cell d x = x.
Proof. destruct d; [reflexivity|congruence|reflexivity]. Qed.

Lemma rows_as_other d a : d <> DFloat -> rows_as d a = a_rows a.
Proof.
  intros H. unfold rows_as. destruct (dtype_eqb _ _); [reflexivity|].
  rewrite <- (map_id (a_rows a)) at 2. apply map_ext. intros r. rewrite <- (map_id r) at 2. apply map_ext. intros x. apply cast_other, H.
Qed.

Lemma promote_other a b : a <> DFloat -> b <> DFloat -> promote a b <> DFloat.
Proof. destruct a, b; cbn; congruence. Qed.

Lemma gather_incl {A} (l : list A) : forall idx out, gather idx l = Ok out -> incl out l.
Proof.
  induction idx as [|i idx IH]; intros out H; cbn in H.
  - assert (E : out = []) by congruence. subst. intros x [].
  - destruct (nth_error l i) as [x|] eqn:Ex; cbn in H; [|discriminate].
    destruct (gather idx l) as [out'|] eqn:Eo; cbn in H; [|discriminate].
    assert (E : out = x :: out') by congruence. subst out. intros y [<-|Hy]; [eapply nth_error_In, Ex|exact (IH _ eq_refl y Hy)].
Qed.

Lemma iadd_str a b : iadd a NoiseStr = Ok b -> a_rows b = a_rows a /\ a_dt b = a_dt a.
Proof.
  cbn [iadd]. destruct (a_dt a) eqn:Ed; try discriminate. destruct (rmapM _ _) as [rs|] eqn:Er; cbn [rbind rmap]; [|discriminate].
  intros H. assert (E : b = mkArr DObj (a_nc a) rs) by congruence. subst b. cbn [a_rows a_dt]. split; [|reflexivity].
  apply rmapM_Forall2 in Er. symmetry. clear - Er. induction Er as [|r r' l l' Hr _ IH]; [reflexivity|]. f_equal; [|exact IH].
  apply rmapM_Forall2 in Hr. clear - Hr. induction Hr as [|x y l l' Hx _ IH]; [reflexivity|]. f_equal; [|exact IH].
  destruct x; cbn in Hx; try discriminate. rewrite append_empty in Hx. congruence.
Qed.

Definition no_float (tr : list ev) : Prop := Forall (fun gv => a_dt (fst gv) <> DFloat) (gens tr).

Variable n : nat.
(** The trace so far: no generation of floats, and sampling only brings back values of the data. *)
Definition closed_run (tr : list ev) : Prop :=
  no_float tr /\ forall k d gv, nth_error (learns tr) k = Some d -> nth_error (gens tr) (Datatypes.S k) = Some gv -> kept n d (a_rows (fst gv)).

Lemma closed_prefix tr tr' : closed_run (tr ++ tr') -> closed_run tr.
Proof.
  intros [H1 H2]. split.
  - unfold no_float in H1. rewrite LoopDrawn.gens_app in H1. apply Forall_app in H1. apply H1.
  - intros k d gv Hd Hg. apply (H2 k).
    + rewrite LoopDrawn.learns_app, nth_error_app1; [exact Hd|]. apply nth_error_Some. congruence.
    + rewrite LoopDrawn.gens_app, nth_error_app1; [exact Hg|]. apply nth_error_Some. congruence.
Qed.

Definition narrowing (s : st S W) : Prop :=
  closed_run (s_tr s) ->
  a_dt (o_gen (s_obj s)) <> DFloat /\ a_dt (o_elite (s_obj s)) <> DFloat /\
  List.length (gens (s_tr s)) = Datatypes.S (List.length (learns (s_tr s))) /\
  (forall k d, nth_error (learns (s_tr s)) k = Some d ->
     kept n d (a_rows (o_gen (s_obj s))) /\ kept n d (a_rows (o_elite (s_obj s))) /\
     (forall m gv, k < m -> nth_error (gens (s_tr s)) m = Some gv -> kept n d (a_rows (fst gv))) /\
     (forall m d', k <= m -> nth_error (learns (s_tr s)) m = Some d' -> kept n d (a_rows d'))).

Lemma narrowing_printed (s s' : st S W) : narrowing s -> printed_after s s' -> narrowing s'.
Proof.
  intros H (ps & Hps & ->) Hc. cbn [s_tr s_obj] in *. apply LoopDrawn.prints_quiet in Hps as [E1 E2].
  rewrite LoopDrawn.gens_app, LoopDrawn.learns_app, E1, E2, !app_nil_r. apply H. eapply closed_prefix, Hc.
Qed.

Lemma nth_snoc {A} (l : list A) x k y : nth_error (l ++ [x]) k = Some y -> nth_error l k = Some y \/ (k = List.length l /\ y = x).
Proof.
  intros H. destruct (Nat.lt_ge_cases k (List.length l)) as [Hk|Hk]; [left; rewrite nth_error_app1 in H; assumption|].
  right. rewrite nth_error_app2 in H by exact Hk. destruct (k - List.length l) as [|m] eqn:Ek; [|destruct m; discriminate H].
  cbn in H. split; [lia|congruence].
Qed.

Lemma extinct_lemma ftol out (s : st S W) (r : result) (tr : list ev) :
  (forall g e p, h_data h g e p = (Ok g, p)) -> py_eq_int (c_w_noise c) 0 = false -> py_eq_int (c_w_noise c) (-1) = true ->
  (0 <= c_elite_len c <= c_trunc_len c)%Z ->
  completes c h ftol out s r tr -> closed_run tr ->
  forall k d, nth_error (learns tr) k = Some d ->
  (forall m gv, k < m -> nth_error (gens tr) m = Some gv -> kept n d (a_rows (fst gv))) /\
  (forall m d', k <= m -> nth_error (learns tr) m = Some d' -> kept n d (a_rows d')).
Proof.
  intros Hplain Hn0 Hn1 Hle [Htr [s' [H <-]]] Hcl.
  destruct (minimize_rule c h ftol out (fun _ _ s1 => narrowing s1) s s' r) as (nb & sf & HI & Hp & _); [| |exact H|].
  - intros b s1 w1 s1' Hf Hp. apply (narrowing_printed _ _) with (2 := Hp). destruct Hf. subst s1. intros [Hc _]. revert Hc. unfold no_float. cbn [s_tr s_obj o_gen o_elite a_dt]. rewrite Htr. cbn [app].
    rewrite !LoopDrawn.gens_app, !LoopDrawn.learns_app, gens_calls_of, learns_calls_of. cbn. intros Hc. inversion Hc as [|? ? Hg _]; subst.
    refine (conj Hg (conj Hg (conj eq_refl _))). intros k d Hk. destruct k; discriminate Hk.
  - intros wn hist nb s0 b acc s1 s1' Hwn HI _ _ Hf Hp. apply (narrowing_printed _ _) with (2 := Hp). clear Hp s1'. destruct Hf. subst s1. intros Hc.
    cbn [s_tr s_obj o_gen o_elite] in *. pose proof (closed_prefix _ _ Hc) as Hc0. destruct (HI Hc0) as (D1 & D2 & L & K). clear HI.
    rewrite Hplain in if_hdata. assert (E1 : if_data = if_noisy) by congruence. subst if_data. clear if_hdata.
    assert (Ewn : wn = NoiseStr).
    { destruct wn as [| |nr nc dr]; [|reflexivity|]; cbn [noise_cfg] in Hwn; [congruence|]. destruct Hwn as (Hw1 & Hw2 & _). congruence. }
    subst wn. destruct (iadd_str _ _ if_iadd) as [Er Ed].
    destruct (selected_prefix _ _ _ _ _ ltac:(lia) ltac:(lia) if_sel) as [P _]. destruct (P ltac:(lia)) as [Pe _]. clear P.
    assert (Hsub : incl (a_rows if_gen') (a_rows (o_gen (s_obj s0)) ++ a_rows (o_elite (s_obj s0))) /\ a_dt if_elite' <> DFloat).
    { destruct if_sel. unfold np_concatenate in sel_concat. destruct (Nat.eqb _ _); [|discriminate]. cbv zeta in sel_concat.
      pose proof (promote_other _ _ D1 D2) as Dp. rewrite !rows_as_other in sel_concat by exact Dp.
      apply take_rows_ok in sel_train as (_ & _ & T). apply gather_incl in T. apply take_rows_ok in sel_elite as (Te & _ & _).
      match type of sel_concat with Ok ?x = _ => assert (Es : sel_gen = x) by congruence end. subst sel_gen. cbn [a_rows a_dt] in *. split; [exact T|congruence]. }
    destruct Hsub as [Hsub De].
    assert (Hel : incl (a_rows if_elite') (a_rows if_gen')).
    { rewrite Pe. intros x Hx. rewrite <- (firstn_skipn (Z.to_nat (c_elite_len c)) (a_rows if_gen')). apply in_or_app. left. exact Hx. }
    assert (EL : forall l, learns ([EvSelect (combine (a_rows if_gen') if_evals') (combine (a_rows if_elite') if_evel'); EvLearn if_noisy] ++
              calls_of (a_rows if_g) if_rets ++ l) = if_noisy :: learns l).
    { intros l. rewrite !LoopDrawn.learns_app, learns_calls_of. reflexivity. }
    assert (EG : forall l, gens ([EvSelect (combine (a_rows if_gen') if_evals') (combine (a_rows if_elite') if_evel'); EvLearn if_noisy] ++
              calls_of (a_rows if_g) if_rets ++ l) = gens l).
    { intros l. rewrite !LoopDrawn.gens_app, gens_calls_of. reflexivity. }
    destruct Hc as [Hnf Hcl']. unfold no_float in Hnf. rewrite LoopDrawn.gens_app, EG in Hnf, Hcl' |- *. rewrite LoopDrawn.learns_app, EL in Hcl' |- *.
    change (gens [EvGen if_g if_rets if_vals]) with [(if_g, if_vals)] in *. change (learns [EvGen if_g if_rets if_vals]) with (@nil arr) in *.
    assert (Dg : a_dt if_g <> DFloat) by (apply Forall_app in Hnf as [_ Hnf]; inversion Hnf; assumption).
    assert (Kg : kept n if_noisy (a_rows if_g)).
    { apply (Hcl' (List.length (learns (s_tr s0))) if_noisy (if_g, if_vals)).
      - rewrite nth_error_app2, Nat.sub_diag by lia. reflexivity.
      - rewrite <- L, nth_error_app2, Nat.sub_diag by lia. reflexivity. }
    refine (conj Dg (conj De (conj _ _))); [rewrite !app_length, L; cbn; lia|].
    assert (Kn : forall k d, nth_error (learns (s_tr s0) ++ [if_noisy]) k = Some d -> kept n d (a_rows if_noisy)).
    { intros k d Hk. apply nth_snoc in Hk as [Hk|[_ ->]]; [|apply kept_refl]. destruct (K k d Hk) as (K1 & K2 & _).
      rewrite Er. eapply kept_sub; [|exact Hsub]. apply kept_app; assumption. }
    intros k d Hk. specialize (Kn k d Hk). pose proof (kept_trans _ _ _ _ Kn Kg) as Kgen.
    refine (conj Kgen (conj _ (conj _ _))).
    + eapply kept_sub; [exact Kn|]. rewrite Er. exact Hel.
    + intros m gv Hm Hg. apply nth_snoc in Hg as [Hg|[_ ->]]; [|exact Kgen]. apply nth_snoc in Hk as [Hk|[-> ->]].
      * destruct (K k d Hk) as (_ & _ & K3 & _). exact (K3 m gv Hm Hg).
      * exfalso. assert (m < List.length (gens (s_tr s0))) by (apply nth_error_Some; congruence). lia.
    + intros m d' Hm Hd. apply nth_snoc in Hd as [Hd|[_ ->]]; [|exact Kn]. apply nth_snoc in Hk as [Hk|[-> ->]].
      * destruct (K k d Hk) as (_ & _ & _ & K4). exact (K4 m d' Hm Hd).
      * exfalso. assert (m < List.length (learns (s_tr s0))) by (apply nth_error_Some; congruence). lia.
  - destruct (narrowing_printed _ _ HI Hp Hcl) as (_ & _ & _ & K). intros k d Hk. destruct (K k d Hk) as (_ & _ & K3 & K4). split; assumption.
Qed.

End Loop.

(** ** UMDAcat *)

Lemma int_times_le n p q t u : (0 <= n <= 2 ^ 53)%Z -> factor p -> factor q -> (factor_R p <= factor_R q)%R ->
  int_times n p = Ok t -> int_times n q = Ok u -> (0 <= t <= u)%Z.
Proof.
  intros Hn Fp Fq Hle Ht Hu.
  destruct (int_times_bounds n p Hn Fp) as (t' & Et & Bt & (Lt & Ut) & Vt). destruct (int_times_bounds n q Hn Fq) as (u' & Eu & Bu & (Lu & Uu) & Vu).
  assert (T1 : t' = t) by congruence. assert (U1 : u' = u) by congruence. rewrite T1 in Bt, Lt, Ut, Vt. rewrite U1 in Bu, Lu, Uu, Vu. split; [lia|].
  assert (N0 : (0 <= IZR n)%R) by (apply IZR_le; lia).
  assert (M : (IZR n * factor_R p <= IZR n * factor_R q)%R) by (apply Rmult_le_compat_l; assumption).
  destruct p as [z|x], q as [z'|x'].
  - rewrite Vt, Vu. apply Zfloor_le, M.
  - rewrite Vt. apply Z.le_trans with (2 := Lu). apply Zfloor_le, M.
  - apply Z.le_trans with (1 := Ut). cbn [factor_R] in M, Ut, Vu |- *. rewrite Vu. cbn [factor_R]. rewrite <- mult_IZR in M |- *. rewrite Zfloor_IZR.
    apply Zceil_glb. exact M.
  - rewrite Vt, Vu. apply Zfloor_le, rnd_le, M.
Qed.

Section Cat.
Context {X W : Type}.
Variable E : env X W.

Lemma umdacat_closed g values freq (o0 o : optimiser X) cost a ftol out w r s :
  construct E (UMDAcat values freq) g = Ok o0 -> used E o0 o ->
  argsort_ok (e_argsort E) -> unif_ok (e_rng E) -> (1 <= g_nvars g)%Z -> cats_ok values freq ->
  (0 <= g_size_gen g <= 2 ^ 53)%Z -> factor (g_alpha g) ->
  (forall d, g_init_data g = Some d -> cat_pop (Z.to_nat (g_nvars g)) values d) ->
  run_in E a o cost ftol out w = (Ok r, s) ->
  closed_run (Z.to_nat (g_nvars g)) (s_tr s) /\
  Forall (cat_pop (Z.to_nat (g_nvars g)) values) (map fst (gens (s_tr s))) /\ Forall (cat_pop (Z.to_nat (g_nvars g)) values) (learns (s_tr s)).
Proof.
  intros Hc U Has Hun Hn Hcats Hsz Hal Hi Hr.
  pose proof (cat_trunc E values freq g o0 Hc ltac:(lia) Hal) as Htr. cbn [construct] in Hc.
  destruct (umdacat_run E false g values freq o0 o cost 0 a ftol out w (Ok r) s) as (R1 & _ & R3 & R4 & _ & _); try assumption.
  { intros d Hd. split; [split; [apply Hi, Hd|discriminate]|lia]. }
  { lia. }
  { discriminate. }
  split; [|split; assumption]. split.
  - unfold no_float. apply Forall_forall. intros gv Hin. rewrite Forall_forall in R1. apply (R1 (fst gv) (in_map fst _ _ Hin)).
  - intros k d gv Hd Hg. assert (HN : cat_next (Z.to_nat (g_nvars g)) d (fst gv)).
    { apply (R4 k); [exact Hd|]. rewrite nth_error_map, Hg. reflexivity. }
    destruct HN as (_ & _ & HN). exact HN.
Qed.

Lemma umdacat_dies_out g values freq (o0 o : optimiser X) cost a ftol out w r s :
  construct E (UMDAcat values freq) g = Ok o0 -> used E o0 o ->
  argsort_ok (e_argsort E) -> unif_ok (e_rng E) -> (1 <= g_nvars g)%Z -> cats_ok values freq ->
  (0 <= g_size_gen g <= 2 ^ 53)%Z -> factor (g_alpha g) -> factor (g_elite_factor g) -> (factor_R (g_elite_factor g) <= factor_R (g_alpha g))%R ->
  (forall d, g_init_data g = Some d -> cat_pop (Z.to_nat (g_nvars g)) values d) ->
  run_in E a o cost ftol out w = (Ok r, s) ->
  forall k d j v, nth_error (learns (s_tr s)) k = Some d -> j < Z.to_nat (g_nvars g) -> ~ In v (column j (a_rows d)) ->
  (forall m gv, k < m -> nth_error (gens (s_tr s)) m = Some gv -> ~ In v (column j (a_rows (fst gv)))) /\
  (forall m d', k < m -> nth_error (learns (s_tr s)) m = Some d' -> ~ In v (column j (a_rows d'))).
Proof.
  intros Hc U Has Hun Hn Hcats Hsz Hal Hel Hle Hi Hr k d j v Hd Hj Hv.
  destruct (umdacat_closed g values freq o0 o cost a ftol out w r s) as (C & _ & _); try assumption.
  destruct (used_setup E _ _ U) as (Ecfg & Ein & Eupd & _). cbn [construct] in Hc. apply umdacat_inv in Hc as (Hcfg & _ & _ & _ & Hupd & _).
  apply eda_init_inv in Hcfg. destruct Hcfg as (_ & _ & _ & _ & _ & _ & _ & _ & _ & C10 & C11 & C12 & _).
  pose proof (int_times_le _ _ _ _ _ Hsz Hel Hal Hle C12 C11) as Hlen. rewrite <- Ecfg in Hlen, C10. rewrite <- Eupd in Hupd.
  assert (Cm : completes (op_cfg o) (hooks_of E o cost) ftol out (mkSt a (op_st o) w []) r (s_tr s)).
  { split; [reflexivity|]. exists s. split; [exact Hr|reflexivity]. }
  destruct (extinct_lemma (op_cfg o) (hooks_of E o cost) (Z.to_nat (g_nvars g)) ftol out (mkSt a (op_st o) w []) r (s_tr s)) with (k := k) (d := d) as [K1 K2]; try assumption.
  - intros gn e p. cbn [hooks_of h_data]. rewrite Hupd. reflexivity.
  - rewrite C10. reflexivity.
  - rewrite C10. reflexivity.
  - split.
    + intros m gv Hm Hg Hin. apply Hv. exact (K1 m gv Hm Hg j Hj v Hin).
    + intros m d' Hm Hd' Hin. apply Hv. exact (K2 m d' (Nat.lt_le_incl _ _ Hm) Hd' j Hj v Hin).
Qed.

Lemma cell_dec (a b : cell) : {a = b} + {a <> b}.
Proof.
  destruct a as [z|x|t], b as [z'|x'|t']; try (right; congruence).
  - destruct (Z.eq_dec z z'); [left|right]; congruence.
  - assert (D : {x = x'} + {x <> x'}).
    { destruct (B2SF x) as [?|?| |? ? ?] eqn:E1, (B2SF x') as [?|?| |? ? ?] eqn:E2;
        try (right; intros ->; congruence).
      - destruct (Bool.bool_dec s s0) as [->|]; [left; apply B2SF_inj; congruence|right; intros ->; congruence].
      - destruct (Bool.bool_dec s s0) as [->|]; [left; apply B2SF_inj; congruence|right; intros ->; congruence].
      - left. apply B2SF_inj; congruence.
      - destruct (Bool.bool_dec s s0) as [->|]; [|right; intros ->; congruence].
        destruct (Pos.eq_dec m m0) as [->|]; [|right; intros ->; congruence].
        destruct (Z.eq_dec e e0) as [->|]; [left; apply B2SF_inj; congruence|right; intros ->; congruence]. }
    destruct D; [left|right]; congruence.
  - destruct (string_dec t t'); [left|right]; congruence.
Qed.

(** Once the selected individuals are all the same, everything sampled later is that individual. *)
Lemma umdacat_converged g values freq (o0 o : optimiser X) cost a ftol out w r s :
  construct E (UMDAcat values freq) g = Ok o0 -> used E o0 o ->
  argsort_ok (e_argsort E) -> unif_ok (e_rng E) -> (1 <= g_nvars g)%Z -> cats_ok values freq ->
  (0 <= g_size_gen g <= 2 ^ 53)%Z -> factor (g_alpha g) -> factor (g_elite_factor g) -> (factor_R (g_elite_factor g) <= factor_R (g_alpha g))%R ->
  (forall d, g_init_data g = Some d -> cat_pop (Z.to_nat (g_nvars g)) values d) ->
  run_in E a o cost ftol out w = (Ok r, s) ->
  forall k d x, nth_error (learns (s_tr s)) k = Some d -> Forall (eq x) (a_rows d) ->
  (forall m gv, k < m -> nth_error (gens (s_tr s)) m = Some gv -> Forall (eq x) (a_rows (fst gv))) /\
  (forall m d', k < m -> nth_error (learns (s_tr s)) m = Some d' -> Forall (eq x) (a_rows d')).
Proof.
  intros Hc U Has Hun Hn Hcats Hsz Hal Hel Hle Hi Hr k d x Hd Hx.
  destruct (umdacat_closed g values freq o0 o cost a ftol out w r s) as (C & PG & PL); try assumption.
  assert (D : forall j v, j < Z.to_nat (g_nvars g) -> ~ In v (column j (a_rows d)) ->
     (forall m gv, k < m -> nth_error (gens (s_tr s)) m = Some gv -> ~ In v (column j (a_rows (fst gv)))) /\
     (forall m d', k < m -> nth_error (learns (s_tr s)) m = Some d' -> ~ In v (column j (a_rows d')))).
  { intros j v Hj Hv. eapply umdacat_dies_out with (g := g); eassumption. }
  set (n := Z.to_nat (g_nvars g)) in *.
  assert (Hcol : forall j, incl (column j (a_rows d)) [nth j x (CF fnan)]).
  { intros j c Hin. unfold column in Hin. apply in_map_iff in Hin as (r0 & <- & Hr0). rewrite Forall_forall in Hx. rewrite <- (Hx r0 Hr0). left. reflexivity. }
  assert (Only : forall b : arr, cat_pop n values b -> (a_rows d = [] -> a_rows b = []) -> (forall j v, j < n -> ~ In v (column j (a_rows d)) -> ~ In v (column j (a_rows b))) -> Forall (eq x) (a_rows b)).
  { intros b (_ & _ & Hb) Hempty Hsub. apply Forall_forall. intros y Hy.
    assert (Lx : List.length x = n).
    { destruct (a_rows d) as [|r0 rs] eqn:Ed; [rewrite (Hempty eq_refl) in Hy; destruct Hy|].
      inversion Hx as [|? ? E0 _]; subst. rewrite Forall_forall in PL. destruct (PL d (nth_error_In _ _ Hd)) as (_ & _ & Pd). rewrite Ed in Pd. inversion Pd as [|? ? [L _] _]. exact L. }
    rewrite Forall_forall in Hb. destruct (Hb y Hy) as [Ly _]. symmetry. apply (nth_ext y x (CF fnan) (CF fnan)); [congruence|].
    intros j Hj. rewrite Ly in Hj.
    destruct (in_dec cell_dec (nth j y (CF fnan)) (column j (a_rows d))) as [Hin|Hnot].
    - destruct (Hcol j _ Hin) as [E0|[]]. symmetry. exact E0.
    - exfalso. apply (Hsub j _ Hj Hnot). unfold column. apply (in_map (fun r : row => nth j r (CF fnan))), Hy. }
  assert (Hemp : forall b : arr, a_rows d = [] -> (forall j v, j < n -> ~ In v (column j (a_rows d)) -> ~ In v (column j (a_rows b))) -> a_rows b = []).
  { intros b E0 Hsub. destruct (a_rows b) as [|r0 rs] eqn:Eb; [reflexivity|]. exfalso. apply (Hsub 0 (nth 0 r0 (CF fnan))).
    - unfold n. lia.
    - rewrite E0. intros [].
    - left. reflexivity. }
  split.
  - intros m gv Hm Hg. assert (Hs : forall j v, j < n -> ~ In v (column j (a_rows d)) -> ~ In v (column j (a_rows (fst gv)))) by (intros j v Hj Hv; exact (proj1 (D j v Hj Hv) m gv Hm Hg)).
    apply Only; [|intros E0; apply Hemp; assumption|exact Hs]. rewrite Forall_forall in PG. apply PG. eapply in_map, nth_error_In, Hg.
  - intros m d' Hm Hd'. assert (Hs : forall j v, j < n -> ~ In v (column j (a_rows d)) -> ~ In v (column j (a_rows d'))) by (intros j v Hj Hv; exact (proj2 (D j v Hj Hv) m d' Hm Hd')).
    apply Only; [|intros E0; apply Hemp; assumption|exact Hs]. rewrite Forall_forall in PL. apply PL. eapply nth_error_In, Hd'.
Qed.

End Cat.
