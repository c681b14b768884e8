(** UMDAcat never evaluates a value that the first generation lacks. *)
From Coq Require Import String List ZArith Bool Lia Reals Lra.
From Flocq Require Import Core IEEE754.BinarySingleNaN.
From Verif Require Import PyBase B64 B64More NdArray Eda EdaInv LoopAny LoopFail Spec LoopObs LoopInv LoopThms Select LoopMore Answers Rand RandThms Models ModelThms Kahan CatThms FloatSum Chance Interval Inits InitThms Stock StockInv StockAll
  StockCat StockFinal Extinct Trunc ChoiceInt ChoiceMore MaxLik Mean Found FoundBest Lost LostBits.
Import ListNotations.
Open Scope R_scope.

(* ---------------- values come from the first generation ---------------- *)

Section Loop.
Context {S W : Type}.
Variable c : cfg.
Variable h : hooks S W.
Variable n : nat.
Hypothesis plain : forall g e p, h_data h g e p = (Ok g, p).
Local Notation st := (st S W).

Definition from_first (tr : list ev) : Prop := match gens tr with [] => True | gv :: rest => Forall (fun gv' => kept n (fst gv) (a_rows (fst gv'))) rest end.
Definition rooted (s : st) : Prop := closed_run n (s_tr s) -> exists gv rest, gens (s_tr s) = gv :: rest /\
  Forall (fun gv' => kept n (fst gv) (a_rows (fst gv'))) rest /\ List.length rest = List.length (learns (s_tr s)) /\
  a_dt (o_gen (s_obj s)) <> DFloat /\ a_dt (o_elite (s_obj s)) <> DFloat /\ kept n (fst gv) (a_rows (o_gen (s_obj s))) /\ kept n (fst gv) (a_rows (o_elite (s_obj s))).

Lemma selected_kept o gen' evals' elite' evel' d : a_dt (o_gen o) <> DFloat -> a_dt (o_elite o) <> DFloat -> kept n d (a_rows (o_gen o)) -> kept n d (a_rows (o_elite o)) ->
  selected c h o gen' evals' elite' evel' -> kept n d (a_rows gen') /\ kept n d (a_rows elite') /\ a_dt elite' <> DFloat.
Proof.
  intros D1 D2 K1 K2 H. destruct H. unfold np_concatenate in sel_concat. destruct (Nat.eqb _ _); [|discriminate]. cbv zeta in sel_concat.
  pose proof (promote_other _ _ D1 D2) as Dp. rewrite !rows_as_other in sel_concat by exact Dp.
  apply take_rows_ok in sel_train as (_ & _ & T). apply Extinct.gather_incl in T. apply take_rows_ok in sel_elite as (Te & _ & U). apply Extinct.gather_incl in U.
  match type of sel_concat with Ok ?x = _ => assert (Es : sel_gen = x) by congruence end. subst sel_gen. cbn [a_rows a_dt] in *.
  pose proof (kept_app _ _ _ _ K1 K2) as K. split; [exact (kept_sub _ _ _ _ K T)|]. split; [exact (kept_sub _ _ _ _ K U)|congruence].
Qed.

Lemma grown (tr : list ev) gv rest l d (ga : arr) (vals : list f64) : gens tr = gv :: rest -> List.length rest = List.length (learns tr) -> learns l = [d] -> gens l = [(ga, vals)] ->
  closed_run n (tr ++ l) -> kept n d (a_rows ga) /\ a_dt ga <> DFloat.
Proof.
  intros Hg Hl El Eg [Hnf Hcl]. unfold no_float in Hnf. rewrite LoopDrawn.gens_app, Hg, Eg in Hnf, Hcl. rewrite LoopDrawn.learns_app, El in Hcl. split.
  - apply (Hcl (List.length (learns tr)) d (ga, vals)).
    + rewrite nth_error_app2, Nat.sub_diag by lia. reflexivity.
    + cbn [app nth_error]. rewrite <- Hl, nth_error_app2, Nat.sub_diag by lia. reflexivity.
  - apply Forall_app in Hnf as [_ Hnf]. inversion Hnf; assumption.
Qed.

Lemma rooted_step ftol (s s' : st) ba : rooted s -> iteration c h ftol NoiseStr s = (Ok ba, s') -> rooted s'.
Proof.
  intros HI H. destruct ba as [b acc]. apply iteration_inv in H. destruct H. subst s'. intros Hc. cbn [s_tr s_obj o_gen o_elite] in *. pose proof (closed_prefix _ _ _ Hc) as Hc0.
  destruct (HI Hc0) as (gv & rest & Hg & Hr & Hl & D1 & D2 & K1 & K2). rewrite plain in if_hdata. assert (E1 : if_data = if_noisy) by congruence. subst if_data.
  destruct (iadd_str _ _ if_iadd) as [Er Ed]. destruct (selected_kept _ _ _ _ _ _ D1 D2 K1 K2 if_sel) as (S1 & S2 & S3).
  assert (EL : learns ([EvSelect (combine (a_rows if_gen') if_evals') (combine (a_rows if_elite') if_evel'); EvLearn if_noisy] ++ calls_of (a_rows if_g) if_rets ++ [EvGen if_g if_rets if_vals]) = [if_noisy]).
  { rewrite !LoopDrawn.learns_app, learns_calls_of. reflexivity. }
  assert (EG : gens ([EvSelect (combine (a_rows if_gen') if_evals') (combine (a_rows if_elite') if_evel'); EvLearn if_noisy] ++ calls_of (a_rows if_g) if_rets ++ [EvGen if_g if_rets if_vals]) = [(if_g, if_vals)]).
  { rewrite !LoopDrawn.gens_app, LostBits.gens_calls_of. reflexivity. }
  destruct (grown _ _ _ _ _ _ _ Hg Hl EL EG Hc) as [Kg Dg].
  assert (K : kept n (fst gv) (a_rows if_g)) by (eapply kept_trans; [|exact Kg]; rewrite Er; exact S1).
  exists gv, (rest ++ [(if_g, if_vals)]). rewrite LoopDrawn.gens_app, LoopDrawn.learns_app, EG, EL, Hg, !app_length, Hl. split; [reflexivity|]. split; [apply Forall_app; split; [exact Hr|constructor; [exact K|constructor]]|].
  split; [reflexivity|]. split; [exact Dg|]. split; [exact S3|]. split; [exact K|exact S2].
Qed.

Definition ends_rooted (s : st) : Prop := closed_run n (s_tr s) -> from_first (s_tr s).
Lemma more_rooted tr gv rest l : gens tr = gv :: rest -> Forall (fun gv' => kept n (fst gv) (a_rows (fst gv'))) rest ->
  Forall (fun gv' => kept n (fst gv) (a_rows (fst gv'))) (gens l) -> from_first (tr ++ l).
Proof. intros Hg Hr Hl. unfold from_first. rewrite LoopDrawn.gens_app, Hg. cbn [app]. apply Forall_app. split; assumption. Qed.

Lemma rooted_fail ftol (s s' : st) e : rooted s -> iteration c h ftol NoiseStr s = (Raise e, s') -> ends_rooted s'.
Proof.
  intros HI H Hc. apply iteration_fail in H. destruct H as [Es|gen' evals' elite' evel' _ Es|gen' evals' elite' evel' noisy data p1 _ _ _ Es
    |gen' evals' elite' evel' noisy data p1 p2 w2 a w3 l Hs Hi Hd Hl Ha Hr Es|gen' evals' elite' evel' noisy data p1 p2 w2 a w3 rets vals Hs Hi Hd Hl Ha Hr _ Es]; [rewrite <- (app_nil_r (s_tr s)) in Es| | | |]; rewrite Es in Hc |- *;
    pose proof (closed_prefix _ _ _ Hc) as Hc0; destruct (HI Hc0) as (gv & rest & Hg & Hre & Hle & D1 & D2 & K1 & K2);
    apply (more_rooted _ _ _ _ Hg Hre); [constructor|constructor|constructor| |].
  - rewrite LoopDrawn.gens_app, (gens_calls _ _ Hr). constructor.
  - rewrite plain in Hd. assert (E1 : data = noisy) by congruence. subst data. destruct (iadd_str _ _ Hi) as [Er Ed]. destruct (selected_kept _ _ _ _ _ _ D1 D2 K1 K2 Hs) as (S1 & S2 & S3).
    assert (EL : learns ([EvSelect (combine (a_rows gen') evals') (combine (a_rows elite') evel'); EvLearn noisy] ++ calls_of (a_rows a) rets ++ [EvGen a rets vals]) = [noisy]).
    { rewrite !LoopDrawn.learns_app, learns_calls_of. reflexivity. }
    assert (EG : gens ([EvSelect (combine (a_rows gen') evals') (combine (a_rows elite') evel'); EvLearn noisy] ++ calls_of (a_rows a) rets ++ [EvGen a rets vals]) = [(a, vals)]).
    { rewrite !LoopDrawn.gens_app, LostBits.gens_calls_of. reflexivity. }
    destruct (grown _ _ _ _ _ _ _ Hg Hle EL EG Hc) as [Kg Dg]. rewrite EG. constructor; [|constructor]. cbn [fst]. eapply kept_trans; [|exact Kg]. rewrite Er. exact S1.
Qed.

Lemma from_first_run ftol out (s : st) : s_tr s = [] -> py_eq_int (c_w_noise c) 0 = false -> py_eq_int (c_w_noise c) (-1) = true ->
  closed_run n (s_tr (snd (minimize c h ftol out s))) -> from_first (s_tr (snd (minimize c h ftol out s))).
Proof.
  intros Htr N0 N1. apply (minimize_every c h ftol out NoiseStr rooted ends_rooted).
  - intros s0 HI Hc. destruct (HI Hc) as (gv & rest & Hg & Hr & _). unfold from_first. rewrite Hg. exact Hr.
  - intros s0 s1 HI (ps & Hps & ->) Hc. cbn [s_tr s_obj] in *. apply LoopDrawn.prints_quiet in Hps as [E1 E2].
    rewrite LoopDrawn.gens_app, LoopDrawn.learns_app, E1, E2, !app_nil_r. apply HI. eapply closed_prefix, Hc.
  - intros s0 ba s1. apply rooted_step.
  - intros s0 e s1. apply rooted_fail.
  - intros b s1 H. apply first_generation_inv in H. destruct H. subst s1. intros [Hc _]. revert Hc. unfold no_float. cbn [s_tr s_obj o_gen o_elite a_dt]. rewrite Htr. cbn [app].
    rewrite !LoopDrawn.gens_app, !LoopDrawn.learns_app, LostBits.gens_calls_of, learns_calls_of. cbn. intros Hc. inversion Hc as [|? ? Hg _]; subst.
    eexists (ff_g, _), []. repeat split; try assumption; [constructor|apply kept_refl|]. cbn [fst]. eapply kept_sub; [apply kept_refl|]. rewrite ff_rows_eq. intros x [<-|[]]. left. reflexivity.
  - intros e s1 H Hc. apply first_generation_fail in H. destruct H as [Es|g1 l Hg1 Hl Es|g1 rets vals Hg1 _ _ Es]; rewrite Es, Htr; cbn [app]; unfold from_first.
    + exact I.
    + rewrite (gens_calls _ _ Hl). exact I.
    + rewrite LoopDrawn.gens_app, LostBits.gens_calls_of. constructor.
  - intros s1. unfold draw_noise. destruct (c_w_noise c); rewrite ?N0, ?N1; reflexivity.
Qed.
End Loop.

(** The first generation is the first thing drawn. *)
Section First.
Context {S W : Type}.
Variable c : cfg.
Variable h : hooks S W.
Local Notation st := (st S W).
Hypothesis no_init : c_init_data c = None.
Variable w0 : W.
Definition begun (tr : list ev) : Prop := exists g vals rest w1, gens tr = (g, vals) :: rest /\ h_init h w0 = (Ok g, w1).
Lemma begun_app tr l : begun tr -> begun (tr ++ l).
Proof. intros (g & vals & rest & w1 & Hg & Hi). exists g, vals, (rest ++ gens l), w1. rewrite LoopDrawn.gens_app, Hg. split; [reflexivity|exact Hi]. Qed.
Lemma begun_run ftol out o p : py_eq_int (c_w_noise c) 0 = false -> py_eq_int (c_w_noise c) (-1) = true ->
  let tr := s_tr (snd (minimize c h ftol out (mkSt o p w0 []))) in gens tr = [] \/ begun tr.
Proof.
  intros N0 N1. cbv zeta. apply (minimize_every c h ftol out NoiseStr (fun s => begun (s_tr s)) (fun s => gens (s_tr s) = [] \/ begun (s_tr s))).
  - intros s H. right. exact H.
  - intros s s' H (ps & _ & ->). cbn [s_tr]. apply begun_app, H.
  - intros s [b acc] s' H Hi. apply iteration_inv in Hi. destruct Hi. subst s'. cbn [s_tr]. apply begun_app, H.
  - intros s e s' H Hi. right. apply iteration_fail in Hi. destruct Hi as [Es|? ? ? ? _ Es|? ? ? ? ? ? ? _ _ _ Es|? ? ? ? ? ? ? ? ? ? ? ? _ _ _ _ _ _ Es|? ? ? ? ? ? ? ? ? ? ? ? ? _ _ _ _ _ _ _ Es]; rewrite Es; try apply begun_app; exact H.
  - intros b s1 H. apply first_generation_inv in H. destruct H. subst s1. rewrite no_init in ff_init. cbn [s_w] in ff_init. cbn [s_tr app].
    exists ff_g. eexists. exists [], ff_w1. rewrite LoopDrawn.gens_app, LostBits.gens_calls_of. split; [reflexivity|exact ff_init].
  - intros e s1 H. destruct (h_init h w0) as [[g0|e0] w1] eqn:Hi.
    + set (c' := mkCfg (c_size_gen c) (c_max_iter c) (c_dead_iter c) (c_nvars c) (c_alpha c) (c_elite_factor c) (c_disp c) (c_parallelize c) (Some g0) (c_w_noise c) (c_trunc_len c) (c_elite_len c)).
      assert (Ef : first_generation c h (mkSt o p w0 []) = first_generation c' h (mkSt o p w1 [])).
      { unfold first_generation. unfold mbind at 1. unfold initialize_generation at 1. rewrite no_init. unfold with_world. cbn [s_w]. rewrite Hi. reflexivity. }
      rewrite Ef in H. apply first_generation_fail in H. destruct H as [Es|g1 l Hg1 Hl Es|g1 rets vals Hg1 _ _ Es]; rewrite Es; cbn [s_tr app].
      * left. reflexivity.
      * left. eapply gens_calls, Hl.
      * right. unfold initial in Hg1. cbn [c' c_init_data] in Hg1. subst g1. exists g0, vals, [], w1. rewrite LoopDrawn.gens_app, LostBits.gens_calls_of. split; [reflexivity|exact Hi].
    + left. unfold first_generation in H. unfold mbind at 1 in H. unfold initialize_generation in H. rewrite no_init in H. unfold with_world in H. cbn [s_w] in H. rewrite Hi in H.
      match type of H with (_, ?x) = _ => assert (Es : s1 = x) by congruence end. rewrite Es. reflexivity.
  - intros s1. unfold draw_noise. rewrite N0, N1. reflexivity.
Qed.
End First.

(* ---------------- the chance that a column holds a value ---------------- *)

Fixpoint columns_hit (size : nat) (bs : list (Z -> bool)) (v : list Z) : bool :=
  match bs with [] => true | b :: bs' => existsb b (firstn size v) && columns_hit size bs' (skipn size v) end.
Definition hit_chance (b : Z -> bool) (q : R) : Prop := avg (map (fun k => ind (b k)) draws) = q.

Lemma column_chance b q size : hit_chance b q -> mean draws size (fun v => ind (existsb b v)) = 1 - (1 - q) ^ size.
Proof.
  intros Hq. induction size as [|m IH]; [cbn; ring|]. cbn [mean]. rewrite (avg_ext _ (fun k => 1 - (1 - q) ^ m * ind (negb (b k)))).
  - rewrite (avg_minus draws (fun _ => 1)), (avg_const draws draws_nonempty), avg_scal, (avg_not draws draws_nonempty b), Hq. cbn [pow]. ring.
  - intros k. cbn [existsb]. destruct (b k); cbn [orb negb ind].
    + rewrite (mean_const draws draws_nonempty). ring.
    + rewrite IH. ring.
Qed.
Lemma columns_chance size bs qs : Forall2 hit_chance bs qs ->
  mean draws (List.length bs * size) (fun v => ind (columns_hit size bs v)) = Rprod (map (fun q => 1 - (1 - q) ^ size) qs).
Proof.
  induction 1 as [|b q bs qs Hq _ IH]; [reflexivity|]. cbn [List.length Nat.mul map]. rewrite mean_app. unfold Rprod. cbn [fold_right]. fold (Rprod (map (fun q => 1 - (1 - q) ^ size) qs)).
  rewrite <- IH, <- (column_chance b q size Hq), Rmult_comm, <- mean_scal. apply (mean_ext draws draws_nonempty). intros v [Lv _]. rewrite Rmult_comm, <- mean_scal.
  apply (mean_ext draws draws_nonempty). intros t _. cbn [columns_hit].
  assert (Ef : firstn size (v ++ t) = v) by (rewrite firstn_app, Lv, Nat.sub_diag, firstn_O, app_nil_r, <- Lv; apply firstn_all).
  assert (Es : skipn size (v ++ t) = t) by (rewrite skipn_app, Lv, Nat.sub_diag, <- Lv, skipn_all; reflexivity).
  rewrite Ef, Es. destruct (existsb b v), (columns_hit size bs t); cbn; ring.
Qed.
Lemma columns_hit_all size bs : forall v,
  (forall j b, nth_error bs j = Some b -> exists i, (i < size)%nat /\ (j * size + i < List.length v)%nat /\ b (nth (j * size + i) v 0%Z) = true) -> columns_hit size bs v = true.
Proof.
  induction bs as [|b bs IH]; intros v H; [reflexivity|]. cbn [columns_hit]. apply andb_true_intro. split.
  - destruct (H 0%nat b eq_refl) as (i & Hi & Hl & Hb). cbn [Nat.mul Nat.add] in Hl, Hb. apply existsb_exists. exists (nth i v 0%Z). split; [|exact Hb].
    rewrite <- (firstn_skipn size v) at 1. rewrite app_nth1 by (rewrite firstn_length; lia). apply nth_In. rewrite firstn_length. lia.
  - apply IH. intros j b' Hj. destruct (H (S j) b' Hj) as (i & Hi & Hl & Hb). exists i. split; [exact Hi|]. rewrite skipn_length. split; [cbn in Hl; lia|].
    rewrite nth_skip. replace (size + (j * size + i))%nat with (S j * size + i)%nat by (cbn; lia). exact Hb.
Qed.

Lemma pick_list {A} (n : nat) (P : nat -> A -> Prop) : (forall j, (j < n)%nat -> exists y, P j y) -> exists l, List.length l = n /\ forall j y, nth_error l j = Some y -> P j y.
Proof.
  revert P. induction n as [|n IH]; intros P H; [exists []; split; [reflexivity|intros [|j] y Hy; discriminate]|].
  destruct (H 0%nat ltac:(lia)) as [y Hy]. destruct (IH (fun j => P (S j))) as (l & Hl & Hp); [intros j Hj; apply H; lia|].
  exists (y :: l). split; [cbn; lia|]. intros [|j] y' E; cbn in E; [assert (y' = y) by congruence; subst; exact Hy|exact (Hp j y' E)].
Qed.

(** The numbers behind [random_sample] are read off a tape, modulo 2^53. *)
Definition cyclic_rng (g : rng (list Z)) : Prop :=
  forall r c w, g_unif g r c w = (fun i j => unit53 (nth (i * c + j) w 0%Z mod 2 ^ 53)%Z, skipn (r * c) w).

Lemma cyclic_ok g : cyclic_rng g -> unif_ok g.
Proof.
  intros H r c w i j. cbv zeta. rewrite H. cbn [fst]. pose proof (Z.mod_pos_bound (nth (i * c + j) w 0%Z) (2 ^ 53) ltac:(lia)) as Hk.
  set (k := (_ mod _)%Z) in *. destruct (unit53_spec k Hk) as [Fk Rk]. pose proof u_pos as Hu. pose proof u_inv as Hui.
  assert (K0 : 0 <= IZR k) by (apply IZR_le; lia). assert (K1 : IZR k + 1 <= IZR (2 ^ 53)) by (rewrite <- plus_IZR; apply IZR_le; lia).
  split; [apply fle_fin; [reflexivity|exact Fk|]; rewrite Z2f_0_R, Rk; apply Rmult_le_pos; lra|].
  apply flt_fin; [exact Fk|reflexivity|]. rewrite fone_R, Rk, <- Hui. apply Rmult_lt_compat_r; lra.
Qed.
Lemma skip_skip {A} a b : forall l : list A, skipn a (skipn b l) = skipn (b + a) l.
Proof. induction b as [|b IH]; intros [|x l]; cbn [skipn Nat.add]; try reflexivity; [apply skipn_nil|apply IH]. Qed.
Lemma cyclic_world g size w j : cyclic_rng g -> world_at g size w j = skipn (j * Z.to_nat size) w.
Proof.
  intros H. revert w. induction j as [|j IH]; intros w; [reflexivity|]. rewrite world_at_S, IH, H. cbn [snd]. rewrite Nat.mul_1_r, skip_skip. reflexivity.
Qed.

Lemma draws_some : (0 < List.length draws)%nat.
Proof. pose proof draws_nonempty as H. destruct draws; [contradiction (H eq_refl)|apply Nat.lt_0_succ]. Qed.
Definition between (lo hi : R) (v : f64) : bool := if Rle_dec lo (B2R v) then if Rlt_dec (B2R v) hi then true else false else false.
Lemma between_spec lo hi v : between lo hi v = true <-> lo <= B2R v < hi.
Proof. unfold between. destruct (Rle_dec _ _); [destruct (Rlt_dec _ _)|]; split; intros H; try lra; try discriminate H; reflexivity. Qed.
Lemma between_chance lo hi q : chance (fun v => between lo hi v = true) q -> hit_chance (fun k => between lo hi (unit53 (k mod 2 ^ 53)%Z)) q.
Proof.
  intros H. unfold hit_chance. rewrite <- (avg_chance (between lo hi) q H).
  assert (E : map (fun k => ind (between lo hi (unit53 (k mod 2 ^ 53)%Z))) draws = map (fun k => ind (between lo hi (unit53 k))) draws).
  { apply map_ext_in. intros k Hk. rewrite Z.mod_small by exact (proj1 (draws_in k) Hk). reflexivity. }
  rewrite E. reflexivity.
Qed.

(* ---------------- UMDAcat ---------------- *)

Lemma umdacat_first X W (E : env X W) g values freq (o0 o : optimiser X) cost a ftol out w r s :
  construct E (UMDAcat values freq) g = Ok o0 -> used E o0 o ->
  argsort_ok (e_argsort E) -> unif_ok (e_rng E) -> (1 <= g_nvars g)%Z -> cats_ok values freq ->
  (0 <= g_size_gen g <= 2 ^ 53)%Z -> factor (g_alpha g) ->
  (forall d, g_init_data g = Some d -> cat_pop (Z.to_nat (g_nvars g)) values d) ->
  run_in E a o cost ftol out w = (r, s) ->
  forall gv rest gv' j x, gens (s_tr s) = gv :: rest -> In gv' rest -> (j < Z.to_nat (g_nvars g))%nat ->
  In x (column j (a_rows (fst gv'))) -> In x (column j (a_rows (fst gv))).
Proof.
  intros Hc U Has Hun Hn Hcats Hsz Hal Hi Hr gv rest gv' j x Hg Hin Hj Hx.
  pose proof (cat_trunc E values freq g o0 Hc ltac:(lia) Hal) as Htr. cbn [construct] in Hc.
  destruct (umdacat_run E false g values freq o0 o cost 0 a ftol out w r s) as (R1 & _ & _ & R4 & _ & _); try assumption.
  { intros d Hd. split; [split; [apply Hi, Hd|discriminate]|lia]. }
  { lia. }
  { discriminate. }
  assert (C : closed_run (Z.to_nat (g_nvars g)) (s_tr s)).
  { split.
    - unfold no_float. apply Forall_forall. intros y Hy. rewrite Forall_forall in R1. apply (R1 (fst y) (in_map fst _ _ Hy)).
    - intros k d y Hd Hy. assert (HN : cat_next (Z.to_nat (g_nvars g)) d (fst y)).
      { apply (R4 k); [exact Hd|]. rewrite nth_error_map, Hy. reflexivity. }
      destruct HN as (_ & _ & HN). exact HN. }
  destruct (used_setup E _ _ U) as (Ecfg & Ein & Eupd & _). apply umdacat_inv in Hc as (Hcfg & _ & _ & _ & Hupd & _).
  apply eda_init_inv in Hcfg. destruct Hcfg as (_ & _ & _ & _ & _ & _ & _ & _ & _ & C10 & _). rewrite <- Ecfg in C10. rewrite <- Eupd in Hupd.
  pose proof (from_first_run (op_cfg o) (hooks_of E o cost) (Z.to_nat (g_nvars g))) as F.
  assert (Hplain : forall gn e p, h_data (hooks_of E o cost) gn e p = (Ok gn, p)) by (intros gn e p; cbn [hooks_of h_data]; rewrite Hupd; reflexivity).
  specialize (F Hplain ftol out (mkSt a (op_st o) w []) eq_refl ltac:(rewrite C10; reflexivity) ltac:(rewrite C10; reflexivity)).
  change (minimize (op_cfg o) (hooks_of E o cost) ftol out (mkSt a (op_st o) w [])) with (run_in E a o cost ftol out w) in F. rewrite Hr in F. cbn [snd] in F. specialize (F C).
  unfold from_first in F. rewrite Hg in F. rewrite Forall_forall in F. exact (F gv' Hin j Hj x Hx).
Qed.

(** A solution made of strings and integers. *)
Definition cell_is (x y : cell) : bool := match x, y with CI a, CI b => Z.eqb a b | CS a, CS b => String.eqb a b | _, _ => false end.
Fixpoint row_is (x r : row) : bool := match x, r with [], [] => true | a :: x', b :: r' => cell_is a b && row_is x' r' | _, _ => false end.
Definition evaluates_row (x : row) (tr : list ev) : bool := existsb (fun gv => existsb (row_is x) (a_rows (fst gv))) (gens tr).
Lemma cell_is_eq x y : cell_is x y = true -> x = y.
Proof. destruct x, y; cbn; intros H; try discriminate H; f_equal; [apply Z.eqb_eq, H|apply String.eqb_eq, H]. Qed.
Lemma cell_is_refl x l : discrete l -> In x l -> cell_is x x = true.
Proof.
  intros [H|H] Hx; rewrite Forall_forall in H; specialize (H x Hx); destruct x; try contradiction H; cbn; [apply String.eqb_refl|apply Z.eqb_refl].
Qed.
Lemma row_is_eq x : forall r, row_is x r = true -> r = x.
Proof.
  induction x as [|a x IH]; intros [|b r] H; cbn in H; try discriminate H; [reflexivity|]. apply andb_prop in H as [H1 H2]. apply cell_is_eq in H1. rewrite (IH r H2), H1. reflexivity.
Qed.

(** What has been declared for the values of a solution: their frequencies. *)
Definition declared (values : list (list cell)) (freq : list (list f64)) (d : R) (x : row) (ps : list f64) : Prop :=
  List.length ps = List.length x /\
  forall j c p, nth_error x j = Some c -> nth_error ps j = Some p -> exists v f k,
    nth_error values j = Some v /\ nth_error freq j = Some f /\ nth_error v k = Some c /\ nth_error f k = Some p /\
    NoDup v /\ (Z.of_nat (List.length f) <= 2 ^ 22)%Z /\ Rabs (real_sum f - 1) <= d.

(** The best cost that a run returns was the cost of an individual. *)
Lemma best_seen {X W} (E : env X W) (o : optimiser X) (F : row -> f64) a ftol out w r s c : run_in E a o (fun x w0 => (Ok (NF (F x)), w0)) ftol out w = (Ok r, s) ->
  feq (r_best_cost r) c = true -> exists x gv, In gv (gens (s_tr s)) /\ In x (a_rows (fst gv)) /\ In (x, NF (F x)) (calls (s_tr s)) /\ feq (F x) c = true.
Proof.
  intros Hr Hb. set (cost := fun (x : row) (w0 : W) => (Ok (NF (F x)), w0)) in *.
  assert (Hc : completes (op_cfg o) (hooks_of E o cost) ftol out (mkSt a (op_st o) w []) r (s_tr s)) by (split; [reflexivity|]; exists s; split; [exact Hr|reflexivity]).
  pose proof (run_answers (op_cfg o) (hooks_of E o cost) ftol out (mkSt a (op_st o) w []) eq_refl) as Ha.
  change (minimize (op_cfg o) (hooks_of E o cost) ftol out (mkSt a (op_st o) w [])) with (run_in E a o cost ftol out w) in Ha. rewrite Hr in Ha. cbn [snd] in Ha.
  assert (Hfl : all_float_returns (s_tr s)).
  { unfold all_float_returns. eapply Forall_impl; [|exact Ha]. intros [x v] (w1 & w2 & Hx). cbn [fst snd] in *. cbn [hooks_of h_cost] in Hx. unfold cost in Hx. exists (F x). congruence. }
  pose proof (evaluated_called _ _ _ _ _ _ _ Hc Hfl) as Hcall.
  assert (Hex : exists x v, In (x, v) (evaluated (s_tr s)) /\ feq v (r_best_cost r) = true).
  { pose proof (best_ind_lemma _ _ _ _ _ _ _ Hc) as H. destruct (r_best_ind r) as [i|x].
    - destruct H as [(x & v & Hn & Hv) _]. exists x, v. split; [|exact Hv]. apply nth_error_In in Hn. unfold evaluated. apply in_flat_map in Hn as (gv & Hg & Hp). apply in_flat_map. exists gv. split; [|exact Hp].
      destruct (gens (s_tr s)) as [|gv' G]; [destruct Hg|]. destruct Hg as [->|[]]. left. reflexivity.
    - destruct H as [(v & Hv) _]. exists x, v. exact Hv. }
  destruct Hex as (x & v & Hin & Hv). assert (Hin' : In (x, NF v) (calls (s_tr s))) by (rewrite Hcall; apply in_map_iff; exists (x, v); split; [reflexivity|exact Hin]).
  assert (Ev : v = F x).
  { rewrite Forall_forall in Ha. destruct (Ha _ Hin') as (w1 & w2 & Hx). cbn [hooks_of h_cost fst snd] in Hx. unfold cost in Hx. congruence. }
  subst v. unfold evaluated in Hin. apply in_flat_map in Hin as (gv & Hg & Hp). exists x, gv. split; [exact Hg|]. split; [unfold pairs in Hp; apply in_combine_l in Hp; exact Hp|]. split; [exact Hin'|].
  eapply feq_trans; [exact Hv|exact Hb].
Qed.

Section Cat.
Context {X : Type}.
Variable E : env X (list Z).
Hypothesis cyclic : cyclic_rng (e_rng E).
Variables (g : args) (values : list (list cell)) (freq : list (list f64)) (o0 : optimiser X).
Hypothesis made : construct E (UMDAcat values freq) g = Ok o0.
Let n := Z.to_nat (g_nvars g).
Hypothesis sorts : argsort_ok (e_argsort E).
Hypothesis some_vars : (1 <= g_nvars g)%Z.
Hypothesis cats : cats_ok values freq.
Hypothesis sized : (0 <= g_size_gen g <= 2 ^ 53)%Z.
Hypothesis alpha : factor (g_alpha g).
Hypothesis no_init : g_init_data g = None.
Variables (d : R) (x : row) (ps : list f64).
Hypothesis small : d <= / 4.
Hypothesis x_len : List.length x = n.
Hypothesis declares : declared values freq d x ps.
Let size := Z.to_nat (g_size_gen g).

Definition near (p : f64) (q : R) : Prop := 0 <= q <= 1 /\ Rabs (q - B2R p) <= 2 * d + bpow radix2 (-25).

(** The draws with which the first generation gets a value. *)
Lemma first_hits : exists bs qs, Forall2 hit_chance bs qs /\ Forall2 near ps qs /\ List.length bs = n /\
  forall o cost w ga w1, used E o0 o -> h_init (hooks_of E o cost) w = (Ok ga, w1) ->
  forall j b c, nth_error bs j = Some b -> nth_error x j = Some c -> In c (column j (a_rows ga)) -> exists i, (i < size)%nat /\ b (nth (j * size + i) w 0%Z) = true.
Proof.
  pose proof made as M. cbn [construct] in M. apply umdacat_inv in M as (Hcfg & _ & _ & (it & Hinit & Hnew) & _ & _).
  apply eda_init_inv in Hcfg. destruct Hcfg as (C1 & _). destruct declares as [Lp Hd].
  destruct (pick_list n (fun j (y : (Z -> bool) * R) => hit_chance (fst y) (snd y) /\ (forall p, nth_error ps j = Some p -> near p (snd y)) /\
    forall o cost w ga w1, used E o0 o -> h_init (hooks_of E o cost) w = (Ok ga, w1) -> forall c, nth_error x j = Some c -> In c (column j (a_rows ga)) ->
      exists i, (i < size)%nat /\ fst y (nth (j * size + i) w 0%Z) = true)) as (l & Ll & Hl).
  - intros j Hj. destruct (nth_error x j) as [c|] eqn:Ex; [|apply nth_error_None in Ex; lia]. destruct (nth_error ps j) as [p|] eqn:Ep; [|apply nth_error_None in Ep; lia].
    destruct (Hd j c p Ex Ep) as (v & f & k & Hv & Hf & Hc & Hp & Hn & Hlen & Hs).
    destruct (sampled_as_declared (e_sum E) (g_nvars g) values freq it Hnew cats j v f k c p d Hj Hv Hf Hc Hp Hn Hlen Hs small) as (lo & hi & P1 & P2 & P3 & P4).
    destruct (chance_between (fun v => between lo hi v = true) lo hi P1 P2) as (q & Hq & Eq); [intros y _ _; apply between_spec|].
    pose proof (between_chance lo hi q Hq) as Hh. exists (fun z => between lo hi (unit53 (z mod 2 ^ 53)%Z), q). cbn [fst snd]. split; [exact Hh|]. split.
    + intros p' Hp'. assert (p' = p) by congruence. subst p'. split.
      * unfold hit_chance in Hh. rewrite <- Hh. rewrite <- (avg_const draws draws_nonempty 0) at 1. rewrite <- (avg_const draws draws_nonempty 1).
        split; apply avg_le; try exact draws_some; intros z _; destruct (between _ _ _); cbn; lra.
      * replace (q - B2R p) with ((q - (hi - lo)) + (hi - lo - B2R p)) by ring. eapply Rle_trans; [apply Rabs_triang|].
        assert (E25 : bpow radix2 (-25) = bpow radix2 (-26) + bpow radix2 (-26)).
        { replace (bpow radix2 (-26) + bpow radix2 (-26)) with (2 * bpow radix2 (-26)) by ring. change 2 with (bpow radix2 1). rewrite <- bpow_plus. reflexivity. }
        assert (u <= bpow radix2 (-26)) by (apply bpow_le; lia). lra.
    + intros o cost w ga w1 U Hi c' Hc' Hin. assert (c' = c) by congruence. subst c'. destruct (used_setup E _ _ U) as (Ecfg & Ein & _).
      cbn [hooks_of h_init] in Hi. rewrite Ein, Hinit, Ecfg, C1 in Hi. cbn [initr_sample] in Hi.
      destruct (cat_init_spec (e_rng E) (e_str E) (e_sum E) (g_nvars g) values freq it (g_size_gen g) w ga w1 (cyclic_ok _ cyclic) Hnew cats Hi) as (_ & La & _).
      specialize (La ltac:(lia)). unfold column in Hin. apply in_map_iff in Hin as (r & Hr & Hin). apply In_nth with (d := []) in Hin as (i & Hi' & En). assert (Hs' : (i < size)%nat) by (unfold size; rewrite <- La; exact Hi'). clear Hi'. rename Hs' into Hi'.
      exists i. split; [exact Hi'|]. apply between_spec. specialize (P4 _ (e_rng E) (e_str E) (g_size_gen g) w ga w1 (cyclic_ok _ cyclic) Hi i Hi').
      rewrite (cyclic_world _ _ _ _ cyclic), cyclic in P4. cbn [fst] in P4. rewrite Nat.mul_1_r, Nat.add_0_r, nth_skip in P4. apply P4. exact (eq_trans (f_equal (fun q : row => nth j q (CF fnan)) En) Hr).
  - exists (map fst l), (map snd l). split; [|split; [|split]].
    + clear - Hl. assert (H : forall y, In y l -> hit_chance (fst y) (snd y)) by (intros y Hy; apply In_nth_error in Hy as [j Hj]; apply (Hl j y Hj)).
      clear Hl. induction l as [|y l IH]; cbn; constructor; [apply H; left; reflexivity|]. apply IH. intros z Hz. apply H. right. exact Hz.
    + assert (Hn : forall j p y, nth_error ps j = Some p -> nth_error l j = Some y -> near p (snd y)) by (intros j p y Hp Hy; apply (proj1 (proj2 (Hl j y Hy))), Hp).
      assert (L2 : List.length ps = List.length l) by congruence. clear - Hn L2. revert l Hn L2. induction ps as [|p ps' IH]; intros [|y l] Hn L2; try discriminate L2; cbn; constructor.
      * apply (Hn 0%nat); reflexivity.
      * apply IH; [intros j p' y'; apply (Hn (S j))|cbn in L2; lia].
    + rewrite map_length. exact Ll.
    + intros o cost w ga w1 U Hi j b c Hb Hc Hin. rewrite nth_error_map in Hb. destruct (nth_error l j) as [y|] eqn:Ey; [|discriminate Hb]. assert (b = fst y) by (cbn in Hb; congruence). subst b.
      exact (proj2 (proj2 (Hl j y Ey)) o cost w ga w1 U Hi c Hc Hin).
Qed.

Lemma umdacat_loses : exists qs, Forall2 near ps qs /\ forall o (f : row -> list Z -> res NdArray.num * list Z) a ftol out N, used E o0 o -> (size * n <= N)%nat ->
  likelihood N (fun v => evaluates_row x (s_tr (snd (run_in E a o f ftol out v)))) <= Rprod (map (fun q => 1 - (1 - q) ^ size) qs).
Proof.
  destruct first_hits as (bs & qs & Hbq & Hpq & Lb & Hhit). exists qs. split; [exact Hpq|]. intros o f a ftol out N U HN.
  rewrite <- (columns_chance size bs qs Hbq), Lb. replace N with (n * size + (N - n * size))%nat by lia. unfold likelihood. rewrite mean_app. apply (mean_le draws draws_nonempty). intros seg [Ls _].
  rewrite <- (mean_const draws draws_nonempty (N - n * size) (ind (columns_hit size bs seg))). apply (mean_le draws draws_nonempty). intros w _.
  destruct (evaluates_row x (s_tr (snd (run_in E a o f ftol out (seg ++ w))))) eqn:Ev; [|destruct (columns_hit size bs seg); cbn; lra].
  assert (Hall : columns_hit size bs seg = true); [|rewrite Hall; cbn; lra].
  unfold evaluates_row in Ev. apply existsb_exists in Ev as (gv & Hgv & Ev). apply existsb_exists in Ev as (r & Hr & Er). apply row_is_eq in Er. subst r.
  destruct (used_setup E _ _ U) as (Ecfg & Ein & Eupd & _). pose proof made as M. cbn [construct] in M. apply umdacat_inv in M as (Hcfg & _).
  apply eda_init_inv in Hcfg. destruct Hcfg as (_ & _ & _ & _ & _ & _ & _ & _ & C9 & C10 & _). rewrite <- Ecfg in C9, C10.
  destruct (begun_run (op_cfg o) (hooks_of E o f) (eq_trans C9 no_init) (seg ++ w) ftol out a (op_st o) ltac:(rewrite C10; reflexivity) ltac:(rewrite C10; reflexivity)) as [Hnone|(ga & vals & rest & w1 & Hg & Hi)];
    change (minimize (op_cfg o) (hooks_of E o f) ftol out (mkSt a (op_st o) (seg ++ w) [])) with (run_in E a o f ftol out (seg ++ w)) in *.
  { rewrite Hnone in Hgv. destruct Hgv. }
  apply columns_hit_all. intros j b Hb. assert (Hj : (j < n)%nat) by (rewrite <- Lb; apply nth_error_Some; rewrite Hb; discriminate).
  destruct (nth_error x j) as [c|] eqn:Ec; [|apply nth_error_None in Ec; lia].
  assert (Hcol : In c (column j (a_rows (fst gv)))).
  { unfold column. apply in_map_iff. exists x. split; [apply nth_error_nth, Ec|exact Hr]. }
  assert (Hcol0 : In c (column j (a_rows ga))).
  { rewrite Hg in Hgv. destruct Hgv as [<-|Hgv]; [exact Hcol|]. destruct (run_in E a o f ftol out (seg ++ w)) as [rr ss] eqn:Hrun. cbn [snd] in *.
    apply (umdacat_first X (list Z) E g values freq o0 o f a ftol out (seg ++ w) rr ss made U sorts (cyclic_ok _ cyclic) some_vars cats sized alpha (fun d0 Hd0 => match eq_trans (eq_sym no_init) Hd0 in _ = y return match y with None => True | Some _ => cat_pop (Z.to_nat (g_nvars g)) values d0 end with eq_refl => I end) Hrun (ga, vals) rest gv j c Hg Hgv Hj Hcol). }
  destruct (Hhit o f (seg ++ w) ga w1 U Hi j b c Hb Ec Hcol0) as (i & Hi' & Hbi). exists i. split; [exact Hi'|].
  assert (Hlt : (j * size + i < List.length seg)%nat) by (rewrite Ls; assert (S j * size <= n * size)%nat by (apply Nat.mul_le_mono_r; lia); cbn in H; lia).
  split; [exact Hlt|]. rewrite app_nth1 in Hbi by exact Hlt. exact Hbi.
Qed.

(** So if no other solution has its cost, that cost is not the result more often. *)
Lemma target_is : row_is x x = true.
Proof.
  destruct declares as [Lp Hd]. assert (H : forall c, In c x -> cell_is c c = true).
  { intros c Hc. apply In_nth_error in Hc as [j Hj]. destruct (nth_error ps j) as [p|] eqn:Ep; [|apply nth_error_None in Ep; assert (j < List.length x)%nat by (apply nth_error_Some; rewrite Hj; discriminate); lia].
    destruct (Hd j c p Hj Ep) as (v & f & k & Hv & Hf & Hc & _). pose proof (cats j v f Hv Hf) as Hcat. unfold category in Hcat.
    apply (cell_is_refl c v); [apply Hcat|exact (nth_error_In _ _ Hc)]. }
  clear -H. induction x as [|c l IH]; [reflexivity|]. cbn. rewrite (H c (or_introl eq_refl)). apply IH. intros c' Hc'. apply H. right. exact Hc'.
Qed.

Variable F : row -> f64.
Hypothesis unique : forall r, cat_row n values r -> feq (F r) (F x) = true -> r = x.

Lemma umdacat_fails : exists qs, Forall2 near ps qs /\ forall o a ftol out N, used E o0 o -> (size * n <= N)%nat ->
  likelihood N (fun v => match fst (run_in E a o (fun r w => (Ok (NF (F r)), w)) ftol out v) with Ok r => feq (r_best_cost r) (F x) | Raise _ => false end)
  <= Rprod (map (fun q => 1 - (1 - q) ^ size) qs).
Proof.
  destruct umdacat_loses as (qs & Hq & Hl). exists qs. split; [exact Hq|]. intros o a ftol out N U HN.
  eapply Rle_trans; [|apply (Hl o (fun r w => (Ok (NF (F r)), w)) a ftol out N U HN)]. apply likelihood_le. intros w _ H.
  destruct (run_in E a o (fun r w0 => (Ok (NF (F r)), w0)) ftol out w) as [[r|e] s] eqn:Hr; cbn [fst snd] in *; [|discriminate H].
  destruct (best_seen E o F a ftol out w r s _ Hr H) as (y & gv & Hg & Hy & Hc & Hf).
  pose proof (cat_trunc E values freq g o0 made ltac:(lia) alpha) as Htr. pose proof made as M. cbn [construct] in M.
  destruct (umdacat_run E false g values freq o0 o (fun r w0 => (Ok (NF (F r)), w0)) 0 a ftol out w (Ok r) s M U sorts (cyclic_ok _ cyclic) some_vars cats Htr) as (_ & R2 & _); [| | |exact Hr|].
  { intros d0 Hd0. rewrite no_init in Hd0. discriminate Hd0. }
  { lia. }
  { discriminate. }
  rewrite Forall_forall in R2. pose proof (unique y (R2 _ Hc) Hf) as ->. unfold evaluates_row. apply existsb_exists. exists gv. split; [exact Hg|]. apply existsb_exists. exists x. split; [exact Hy|exact target_is].
Qed.
End Cat.
