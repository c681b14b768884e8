(** How likely the first generation of an algorithm started from bounds has an individual in a
    given box, and so how likely the run returns a cost at least as good as those in the box. *)
From Coq Require Import String List ZArith Bool Lia Reals Lra.
From Flocq Require Import Core IEEE754.BinarySingleNaN.
From Verif Require Import PyBase B64 B64More NdArray Eda EdaInv Spec TopK LoopObs LoopThms LoopMore LoopInv LoopDrawn LoopFail FailThms Rand RandThms Models ModelThms FloatSum Chance
  Inits InitThms Stock StockInv StockGauss StockAll MaxLik Mean Found FoundBest Answers UniformChance.
Import ListNotations.
Open Scope R_scope.

(* ---------------- tests on consecutive draws ---------------- *)

Fixpoint hit_all (ts : list (f64 -> bool)) (v : list Z) : bool :=
  match ts, v with
  | [], [] => true
  | t :: ts', k :: v' => t (unit53 k) && hit_all ts' v'
  | _, _ => false
  end.
Fixpoint miss_rows (ts : list (f64 -> bool)) (r : nat) (v : list Z) : bool :=
  match r with
  | O => true
  | S r' => negb (hit_all ts (firstn (List.length ts) v)) && miss_rows ts r' (skipn (List.length ts) v)
  end.

Lemma hit_all_chance ts qs : Forall2 (fun t q => chance (fun x => t x = true) q) ts qs ->
  mean draws (List.length ts) (fun v => ind (hit_all ts v)) = Rprod qs.
Proof.
  induction 1 as [|t q ts qs Hq _ IH]; cbn [List.length mean]; [reflexivity|].
  assert (E : forall k, mean draws (List.length ts) (fun v => ind (hit_all (t :: ts) (k :: v))) = Rprod qs * ind (t (unit53 k))).
  { intros k. rewrite <- IH, Rmult_comm, <- mean_scal. apply (mean_ext draws draws_nonempty). intros v _. cbn [hit_all]. apply ind_and. }
  rewrite (map_ext _ _ E). rewrite (avg_scal draws _ (fun k => ind (t (unit53 k)))), (avg_chance t q Hq).
  unfold Rprod. cbn [fold_right]. ring.
Qed.

Lemma miss_rows_chance ts qs : Forall2 (fun t q => chance (fun x => t x = true) q) ts qs ->
  forall r, mean draws (r * List.length ts) (fun v => ind (miss_rows ts r v)) = (1 - Rprod qs) ^ r.
Proof.
  intros H. pose proof (hit_all_chance ts qs H) as Hh. induction r as [|r IH]; [reflexivity|]. cbn [Nat.mul pow]. rewrite mean_app.
  assert (E : mean draws (List.length ts) (fun v => mean draws (r * List.length ts) (fun t => ind (miss_rows ts (S r) (v ++ t))))
            = mean draws (List.length ts) (fun v => (1 - Rprod qs) ^ r * (1 - ind (hit_all ts v)))).
  { apply (mean_ext draws draws_nonempty). intros v [Lv _]. rewrite <- IH, Rmult_comm, <- mean_scal. apply (mean_ext draws draws_nonempty). intros t _.
    cbn [miss_rows]. rewrite <- Lv, firstn_app, skipn_app, Nat.sub_diag, firstn_all, skipn_all. cbn [firstn skipn]. rewrite app_nil_r. cbn [app].
    rewrite ind_and. f_equal. destruct (hit_all ts v); cbn; lra. }
  rewrite E, mean_scal, mean_minus, (mean_const draws draws_nonempty), Hh. ring.
Qed.

(* ---------------- boxes ---------------- *)

(** Every value lies in the interval of its variable. *)
Fixpoint in_box (bx : list (f64 * f64)) (r : row) : bool :=
  match bx, r with
  | [], [] => true
  | (a, b) :: bx', CF x :: r' => fle a x && fle x b && in_box bx' r'
  | _, _ => false
  end.
Lemma in_box_spec bx : forall r, in_box bx r = true <-> Forall2 (fun (ab : f64 * f64) c => exists x, c = CF x /\ fle (fst ab) x = true /\ fle x (snd ab) = true) bx r.
Proof.
  induction bx as [|[a b] bx IH]; intros [|[z|x|z] r]; cbn [in_box]; try (split; [discriminate|intros H; inversion H; subst]; try (match goal with K : exists _, _ |- _ => destruct K as (? & K & _); discriminate K end)).
  - split; [constructor|reflexivity].
  - rewrite !andb_true_iff, IH. split.
    + intros [[H1 H2] H3]. constructor; [exists x; cbn; repeat split; assumption|exact H3].
    + intros H. inversion H as [|? ? ? ? (y & Ey & K1 & K2) H3]; subst. assert (y = x) by congruence. subst y. cbn in K1, K2. repeat split; assumption.
Qed.

Definition cell_in (l h a b x : f64) : bool := let v := uniform_cell l h x in fle a v && fle v b.

Lemma cell_in_chance l h a b M s : isfin l = true -> isfin h = true -> flt l h = true -> isfin (fsub h l) = true -> isfin a = true -> isfin b = true ->
  Rabs (B2R l) <= M -> Rabs (B2R h) <= M -> B2R l <= B2R a -> B2R b <= B2R h -> 0 <= s -> s * (B2R h - B2R l) + (18 * M * u + 2 * eta) <= B2R b - B2R a ->
  exists q, chance (fun x => cell_in l h a b x = true) q /\ s <= q.
Proof.
  intros Fl Fh Hlt Fd Fa Fb Ml Mh La Hb Hs Hw. apply (flt_fin _ _ Fl Fh) in Hlt. assert (Hle : fle l h = true) by (apply fle_fin; try assumption; lra).
  destruct (chance_ex (fun x => cell_in l h a b x = true)) as [q Hq]; [intros x; destruct (cell_in l h a b x); [left; reflexivity|right; discriminate]|].
  exists q. split; [exact Hq|]. pose proof u_pos as Hu. pose proof eta_pos as He.
  set (D := B2R h - B2R l) in *. assert (HD : 0 < D) by (unfold D; lra).
  assert (HM : D <= 2 * M) by (unfold D; apply Rabs_le_inv in Ml; apply Rabs_le_inv in Mh; lra).
  set (del := 8 * M * u + eta). assert (Mu : 0 <= M * u) by (apply Rmult_le_pos; lra). assert (Hdel : 0 < del) by (unfold del; lra).
  assert (sD : 0 <= s * D) by (apply Rmult_le_pos; lra). assert (Du : D * u <= 2 * M * u) by (apply Rmult_le_compat_r; lra).
  set (al := (B2R a + del - B2R l) / D). set (be := (B2R b - del - B2R l) / D).
  assert (Eal : D * al = B2R a + del - B2R l) by (unfold al; field; lra). assert (Ebe : D * be = B2R b - del - B2R l) by (unfold be; field; lra).
  assert (A0 : 0 <= al) by (apply (Rmult_le_reg_l D); [exact HD|]; rewrite Eal; lra).
  assert (B1 : be <= 1) by (apply (Rmult_le_reg_l D); [exact HD|]; rewrite Ebe; unfold D; lra).
  assert (AB : al + (s + u) <= be). { apply (Rmult_le_reg_l D); [exact HD|]. rewrite Rmult_plus_distr_l, Eal, Ebe. unfold del. lra. }
  destruct (chance_between (fun x => al <= B2R x < be) al be) as (q' & Hq' & Rq'); [lra|exact B1|intros; reflexivity|].
  apply Rle_trans with q'; [apply Rabs_def2 in Rq'; lra|]. eapply chance_le; [|exact Hq'|exact Hq]. intros k Hk [K1 K2]. cbv beta in *. destruct (unit53_spec k Hk) as [F E].
  assert (X : 0 <= B2R (unit53 k) < 1) by lra.
  destruct (uniform_cell_err l h (unit53 k) M Fl Fh Hle Fd Ml Mh F X) as [Fv Ev]. fold D in Ev. fold del in Ev. apply Rabs_le_inv in Ev.
  apply (Rmult_le_compat_l D) in K1; [|lra]. apply (Rmult_lt_compat_l D) in K2; [|exact HD]. rewrite Eal in K1. rewrite Ebe in K2.
  unfold cell_in. cbv zeta. apply andb_true_iff. split; apply fle_fin; try assumption; lra.
Qed.

(* ---------------- the sample ---------------- *)

Lemma uniform_rows {W} (g : rng W) n lo hi ui size w a w' : uniform_new n lo hi = Ok ui -> uniform_sample g ui size w = (Ok a, w') ->
  (0 <= size)%Z /\ a_rows a = tabulate (Z.to_nat size) (fun i => tabulate (Z.to_nat n) (fun j => CF (uniform_cell (bound_at lo j) (bound_at hi j) (fst (g_unif g (Z.to_nat size) (Z.to_nat n) w) i j)))).
Proof.
  intros Hn. unfold uniform_new in Hn. destruct (_ && _); [|discriminate]. assert (E : ui = mkUI n lo hi) by congruence. subst ui. clear Hn.
  unfold uniform_sample. cbn [ui_n ui_lo ui_hi]. destruct (n <? 0)%Z; [discriminate|]. unfold np_uniform. intros H.
  assert (G : (if (size <? 0)%Z then (Raise ValueError, w) else if negb (broadcasts (bound_len lo) (Z.to_nat n) && broadcasts (bound_len hi) (Z.to_nat n)) then (Raise ValueError, w)
      else let (u, w') := g_unif g (Z.to_nat size) (Z.to_nat n) w in
        (Ok (float_arr (Z.to_nat size) (Z.to_nat n) (fun i j => fadd (bound_at lo j) (fmul (fsub (bound_at hi j) (bound_at lo j)) (u i j)))), w')) = (Ok a, w')).
  { destruct lo, hi; try discriminate; repeat (match type of H with (if ?b then (Raise ?e, _) else ?x) = _ => lazymatch b with (_ <? _)%Z => fail | _ => destruct b; [discriminate|] end end); exact H. }
  clear H. destruct (Z.ltb_spec size 0) as [?|Hs]; [discriminate|]. split; [exact Hs|]. destruct (negb _); [discriminate|].
  destruct (g_unif g (Z.to_nat size) (Z.to_nat n) w) as [u0 w0]. cbn [fst]. assert (E : a = float_arr (Z.to_nat size) (Z.to_nat n) (fun i j => uniform_cell (bound_at lo j) (bound_at hi j) (u0 i j))) by (unfold uniform_cell; congruence).
  rewrite E. reflexivity.
Qed.

Definition box_row (lo hi : bound) (n : nat) (v : list Z) (off : nat) : row :=
  tabulate n (fun j => CF (uniform_cell (bound_at lo j) (bound_at hi j) (unit53 (nth (off + j) v 0%Z)))).
Definition box_tests (lh ab : list (f64 * f64)) : list (f64 -> bool) := map (fun p : (f64 * f64) * (f64 * f64) => cell_in (fst (fst p)) (snd (fst p)) (fst (snd p)) (snd (snd p))) (combine lh ab).

Lemma box_row_hit (ab : list (f64 * f64)) : forall (L H : nat -> f64) (v : list Z), (List.length ab <= List.length v)%nat ->
  in_box ab (tabulate (List.length ab) (fun j => CF (uniform_cell (L j) (H j) (unit53 (nth j v 0%Z))))) =
  hit_all (box_tests (tabulate (List.length ab) (fun j => (L j, H j))) ab) (firstn (List.length ab) v).
Proof.
  induction ab as [|[a b] ab IH]; intros L H v Hv; [reflexivity|]. destruct v as [|k v]; [cbn in Hv; lia|]. cbn [List.length firstn]. rewrite !tabulate_S.
  unfold box_tests. cbn [combine map hit_all in_box nth fst snd]. f_equal. cbn [List.length] in Hv. apply (IH (fun j => L (S j)) (fun j => H (S j)) v). lia.
Qed.
Lemma box_tests_length lh ab : List.length lh = List.length ab -> List.length (box_tests lh ab) = List.length ab.
Proof. intros H. unfold box_tests. rewrite map_length, combine_length, H. apply Nat.min_id. Qed.

Lemma box_rows_miss (ab : list (f64 * f64)) (L H : nat -> f64) : let n := List.length ab in
  forall r v, (r * n <= List.length v)%nat ->
  existsb (in_box ab) (tabulate r (fun i => tabulate n (fun j => CF (uniform_cell (L j) (H j) (unit53 (nth (i * n + j) v 0%Z)))))) =
  negb (miss_rows (box_tests (tabulate n (fun j => (L j, H j))) ab) r v).
Proof.
  intros n. pose proof (box_tests_length (tabulate n (fun j => (L j, H j))) ab (tabulate_length _ _)) as Hlen.
  induction r as [|r IH]; intros v Hv; [reflexivity|]. rewrite tabulate_S. cbn [existsb miss_rows Nat.mul]. cbn [Nat.mul] in Hv.
  rewrite negb_andb, negb_involutive, Hlen. f_equal; [apply box_row_hit; unfold n in Hv; lia|].
  fold n. rewrite <- IH by (rewrite skipn_length; lia). f_equal. apply tabulate_ext. intros i _. apply tabulate_ext. intros j _.
  rewrite nth_skip, Nat.add_assoc. reflexivity.
Qed.

(* ---------------- the run ---------------- *)

Section Start.
Context {S W : Type}.
Variables (c : cfg) (h : hooks S W).
(** The same run with an initialiser that ignores the generator and starts from [w]. *)
Definition starting (w : W) : hooks S W :=
  mkHooks (h_argsort h) (h_cost h) (h_pool h) (h_normal h) (fun _ => h_init h w) (h_data h) (h_learn h) (h_sample h) (h_settings h).
Lemma mbind_same {A B} (m m' : M S W A) (f f' : A -> M S W B) s : m s = m' s -> (forall a s', f a s' = f' a s') -> mbind m f s = mbind m' f' s.
Proof. intros Hm Hf. unfold mbind. rewrite Hm. destruct (m' s) as [[a|e] s']; [apply Hf|reflexivity]. Qed.
Lemma starting_same ftol out (s : st S W) : minimize c (starting (s_w s)) ftol out s = minimize c h ftol out s.
Proof.
  unfold minimize. apply mbind_same.
  - unfold first_generation. apply mbind_same; [unfold initialize_generation; destruct (c_init_data c); reflexivity|reflexivity].
  - intros b s1. apply mbind_same; [reflexivity|]. intros wn s2. apply mbind_same; [reflexivity|]. intros [] s3. apply mbind_same; [|reflexivity].
    generalize (Z.to_nat (c_max_iter c - 1)) as n. intros n. generalize 1%Z as it, (cons b nil) as hist, 0%Z as nb. revert s3.
    induction n as [|n IH]; intros s3 it hist nb; [reflexivity|]. cbn [loop]. apply mbind_same; [reflexivity|].
    intros [b1 acc] s4. cbv zeta. cbn [fst snd].
    assert (Hc : forall nb2 s5, mbind (print_if out (fun o => PrIter it (o_best_cost o))) (fun _ => loop c (starting (s_w s)) ftol out wn n (it + 1) (hist ++ cons b1 nil) nb2) s5
       = mbind (print_if out (fun o => PrIter it (o_best_cost o))) (fun _ => loop c h ftol out wn n (it + 1) (hist ++ cons b1 nil) nb2) s5).
    { intros nb2 s5. apply mbind_same; [reflexivity|]. intros [] s6. apply IH. }
    destruct acc; [apply Hc|]. destruct (Z.eqb _ _); [reflexivity|apply Hc].
Qed.

(** The first generation is drawn by the initialiser from the generator the run was started with. *)
Lemma first_from ftol out (s : st S W) r tr g0 v0 : executes c h ftol out s r tr -> nth_error (gens tr) 0 = Some (g0, v0) -> c_init_data c = None ->
  exists w', h_init h (s_w s) = (Ok g0, w').
Proof.
  intros (Htr & s' & H & Et) Hg Hd. rewrite <- starting_same in H.
  assert (HC : executes c (starting (s_w s)) ftol out s r tr) by (split; [exact Htr|]; exists s'; split; assumption).
  apply drawn_every in HC. apply nth_gen in Hg as (tr1 & rets & tr2 & Etr & Hl0).
  destruct (HC _ _ _ Etr) as [Hll [[_ Hs]|[Hne _]]].
  2:{ exfalso. apply Hne. destruct (learns tr1); [reflexivity|cbn [List.length] in Hll; lia]. }
  rewrite Hd in Hs. destruct Hs as (w0 & w1 & Hs). exists w1. exact Hs.
Qed.
End Start.

Section Box.
Context {X : Type}.
Variable E : env X (list Z).
Hypothesis tape : tape_rng (e_rng E).
Variables (A : algorithm) (g : args) (lo hi : bound) (o0 o : optimiser X).
Hypothesis made : construct E A g = Ok o0.
Hypothesis usedo : used E o0 o.
Hypothesis started : start_bounds A = Some (lo, hi).
Hypothesis no_data : g_init_data g = None.
Let n := Z.to_nat (g_nvars g).
Let size := Z.to_nat (g_size_gen g).
Hypothesis full_lo : full_bound n lo.
Hypothesis full_hi : full_bound n hi.
Variables (M : R) (bx : list (f64 * f64)) (sides : list R).
Hypothesis bx_len : List.length bx = n.
Hypothesis sides_len : List.length sides = n.
Definition side_fits (M : R) (l h a b : f64) (s : R) : Prop :=
  isfin l = true /\ isfin h = true /\ flt l h = true /\ isfin (fsub h l) = true /\ isfin a = true /\ isfin b = true /\
  Rabs (B2R l) <= M /\ Rabs (B2R h) <= M /\ B2R l <= B2R a /\ B2R b <= B2R h /\ 0 <= s /\
  s * (B2R h - B2R l) + (18 * M * u + 2 * eta) <= B2R b - B2R a.
Hypothesis fits : forall j l h a b s, bound_of lo j l -> bound_of hi j h -> nth_error bx j = Some (a, b) -> nth_error sides j = Some s ->
  side_fits M l h a b s.

Lemma tests_chance : exists qs, Forall2 (fun t q => chance (fun x => t x = true) q) (box_tests (tabulate n (fun j => (bound_at lo j, bound_at hi j))) bx) qs /\
  0 <= Rprod sides <= Rprod qs /\ Rprod qs <= 1.
Proof.
  assert (H : forall k (Lf Hf : nat -> f64) (bx0 : list (f64 * f64)) sides0, List.length bx0 = k -> List.length sides0 = k ->
    (forall j a b s, (j < k)%nat -> nth_error bx0 j = Some (a, b) -> nth_error sides0 j = Some s -> side_fits M (Lf j) (Hf j) a b s) ->
    exists qs, Forall2 (fun t q => chance (fun x => t x = true) q) (box_tests (tabulate k (fun j => (Lf j, Hf j))) bx0) qs /\ 0 <= Rprod sides0 <= Rprod qs /\ Rprod qs <= 1).
  { clear. induction k as [|k IH]; intros Lf Hf [|[a b] bx0] [|s sides0] L1 L2 F; try discriminate.
    - exists []. split; [constructor|]. unfold Rprod. cbn. lra.
    - injection L1 as L1. injection L2 as L2. destruct (F O a b s ltac:(lia) eq_refl eq_refl) as (F1 & F2 & F3 & F4 & F5 & F6 & F7 & F8 & F9 & F10 & F11 & F12).
      destruct (cell_in_chance _ _ a b M s F1 F2 F3 F4 F5 F6 F7 F8 F9 F10 F11 F12) as (q & Hq & Sq).
      destruct (IH (fun j => Lf (S j)) (fun j => Hf (S j)) bx0 sides0 L1 L2) as (qs & Hqs & [P0 P1] & P2).
      { intros j a' b' s' Hj A1 A2. apply (F (S j) a' b' s'); [lia|exact A1|exact A2]. }
      exists (q :: qs). rewrite tabulate_S. unfold box_tests. cbn [combine map fst snd]. split; [constructor; [exact Hq|exact Hqs]|].
      pose proof (chance_le1 _ _ Hq) as Q1. unfold Rprod in *. cbn [fold_right]. split; [split|].
      + apply Rmult_le_pos; lra.
      + apply Rmult_le_compat; lra.
      + apply Rle_trans with (1 * 1); [apply Rmult_le_compat; lra|lra]. }
  apply H; [exact bx_len|exact sides_len|]. intros j a b s Hj A1 A2. apply (fits j); try assumption; apply (full_bound_at n); assumption.
Qed.

Lemma init_tape cost : c_init_data (op_cfg o) = None /\
  forall v t g0 w', List.length v = (size * n)%nat -> h_init (hooks_of E o cost) (v ++ t) = (Ok g0, w') ->
  a_rows g0 = tabulate size (fun i => tabulate n (fun j => CF (uniform_cell (bound_at lo j) (bound_at hi j) (unit53 (nth (i * n + j) v 0%Z))))).
Proof.
  pose proof (construct_built E _ _ _ made) as B. destruct B as [bt_cfg0 _ _ bt_init0 _].
  destruct (used_setup E _ _ usedo) as (E1 & E2 & _). destruct (bt_init0 _ _ started) as (ui & Hu & Hi).
  unfold base_of in bt_cfg0. apply eda_init_inv in bt_cfg0. destruct bt_cfg0 as (C1 & _ & _ & C4 & _ & _ & _ & _ & C9 & _).
  split; [rewrite E1, C9; exact no_data|]. intros v t g0 w' Hv Hs. cbn [hooks_of h_init] in Hs. rewrite E2, Hi, E1, C1 in Hs. cbn [initr_sample] in Hs.
  destruct (uniform_rows _ _ _ _ _ _ _ _ _ Hu Hs) as [Hz Hr]. rewrite Hr. fold n size. apply tabulate_ext. intros i Hi0. apply tabulate_ext. intros j Hj.
  rewrite tape. cbn [fst]. rewrite app_nth1 by (rewrite Hv; nia). reflexivity.
Qed.

(** The first generation was evaluated and none of it lies in the box. *)
Definition first_outside (tr : list ev) : bool :=
  match gens tr with [] => false | (g0, _) :: _ => negb (existsb (in_box bx) (a_rows g0)) end.

Lemma first_rare cost a ftol out t :
  likelihood (size * n) (fun v => first_outside (s_tr (snd (run_in E a o cost ftol out (v ++ t))))) <= (1 - Rprod sides) ^ size.
Proof.
  destruct tests_chance as (qs & Hqs & [P0 P1] & P2). destruct (init_tape cost) as [Hd Hrows].
  apply Rle_trans with ((1 - Rprod qs) ^ size); [|apply pow_incr; lra].
  rewrite <- (miss_rows_chance _ _ Hqs). rewrite box_tests_length by (rewrite tabulate_length; symmetry; exact bx_len). rewrite bx_len.
  unfold likelihood. apply (mean_le draws draws_nonempty). intros v [Lv _].
  destruct (first_outside _) eqn:Ho; [|apply ind_unit]. unfold first_outside in Ho. destruct (run_in E a o cost ftol out (v ++ t)) as [r s'] eqn:Hr. cbn [snd] in Ho.
  destruct (gens (s_tr s')) as [|[g0 v0] G] eqn:Eg; [discriminate|].
  destruct (first_from (op_cfg o) (hooks_of E o cost) ftol out (mkSt a (op_st o) (v ++ t) []) r (s_tr s') g0 v0) as (w' & Hw); [|rewrite Eg; reflexivity|exact Hd|].
  { split; [reflexivity|]. exists s'. split; [exact Hr|reflexivity]. }
  cbn [s_w] in Hw. rewrite (Hrows v t g0 w' Lv Hw) in Ho.
  pose proof (box_rows_miss bx (bound_at lo) (bound_at hi) size v) as Hb. cbv zeta in Hb. rewrite bx_len in Hb. rewrite Hb in Ho by (rewrite Lv; apply le_n).
  rewrite negb_involutive in Ho. rewrite Ho. apply Rle_refl.
Qed.

Lemma combine_in {P Q} (xs : list P) : forall (ys : list Q) i x y, nth_error xs i = Some x -> nth_error ys i = Some y -> In (x, y) (combine xs ys).
Proof. induction xs as [|x xs IH]; intros [|y ys] [|i] x0 y0 Hx Hy; try discriminate; cbn [nth_error combine] in *; [left; congruence|right; eapply IH; eassumption]. Qed.

(** A run that ends normally rarely returns a cost above all those in the box. *)
Lemma best_rare (F : row -> f64) (top : f64) a ftol out t : feq ftol (Z2f 0) = true ->
  (forall r, in_box bx r = true -> fle (F r) top = true) ->
  likelihood (size * n) (fun v => match fst (run_in E a o (fun r w => (Ok (NF (F r)), w)) ftol out (v ++ t)) with Ok r => flt top (r_best_cost r) | Raise _ => false end)
    <= (1 - Rprod sides) ^ size.
Proof.
  intros Hf HF. set (cost := fun (r : row) (w : list Z) => (Ok (NF (F r)), w)). eapply Rle_trans; [|exact (first_rare cost a ftol out t)].
  apply likelihood_le. intros v _ Hv. destruct (run_in E a o cost ftol out (v ++ t)) as [[res|e] s'] eqn:Hr; cbn [fst snd] in *; [|discriminate].
  set (s0 := mkSt a (op_st o) (v ++ t) []). set (h := hooks_of E o cost).
  assert (Hc : completes (op_cfg o) h ftol out s0 res (s_tr s')) by (split; [reflexivity|]; exists s'; split; [exact Hr|reflexivity]).
  destruct (min_best_lemma _ _ _ _ _ _ _ Hc Hf) as (_ & Hmin).
  pose proof (run_answers (op_cfg o) h ftol out s0 eq_refl) as Ha. change (minimize (op_cfg o) h ftol out s0) with (run_in E a o cost ftol out (v ++ t)) in Ha. rewrite Hr in Ha. cbn [snd] in Ha.
  assert (Hfl : all_float_returns (s_tr s')).
  { unfold all_float_returns. eapply Forall_impl; [|exact Ha]. intros [x y] (w1 & w2 & Hx). cbn [fst snd] in *. unfold h, cost in Hx. cbn [hooks_of h_cost] in Hx. exists (F x). congruence. }
  pose proof (evaluated_called _ _ _ _ _ _ _ Hc Hfl) as Hcall. destruct (calls_lemma _ _ _ _ _ _ _ Hc) as (_ & Hlens).
  pose proof (history_lemma _ _ _ _ _ _ _ Hc) as Hh. destruct (counts_lemma _ _ _ _ _ _ _ Hc) as (_ & K1).
  unfold first_outside. destruct (gens (s_tr s')) as [|[g0 v0] G] eqn:Eg; [cbn in K1; lia|].
  apply negb_true_iff. apply not_true_is_false. intros Hex. apply existsb_exists in Hex as (x & Hx & Hbx).
  assert (Hlen : List.length v0 = List.length (a_rows g0)) by (inversion Hlens as [|? ? ? ? K _]; subst; apply K).
  apply In_nth_error in Hx as [i Hi]. assert (Hi' : (i < List.length v0)%nat) by (rewrite Hlen; apply nth_error_Some; congruence).
  destruct (nth_error v0 i) as [y|] eqn:Ey; [|apply nth_error_None in Ey; lia].
  assert (Hin : In (x, y) (evaluated (s_tr s'))).
  { unfold evaluated. rewrite Eg. apply in_flat_map. exists (g0, v0). split; [left; reflexivity|]. unfold pairs. cbn [fst snd]. eapply combine_in; eassumption. }
  assert (Hy : y = F x).
  { assert (Hin' : In (x, NF y) (calls (s_tr s'))) by (rewrite Hcall; apply in_map_iff; exists (x, y); split; [reflexivity|exact Hin]).
    rewrite Forall_forall in Ha. destruct (Ha _ Hin') as (w1 & w2 & Hx). unfold h, cost in Hx. cbn [hooks_of h_cost fst snd] in Hx. congruence. }
  specialize (Hmin _ _ Hin). subst y. pose proof (fle_flt_trans _ _ _ (HF x Hbx) Hv) as C. congruence.
Qed.
End Box.
