(** How likely the first generation of UMDAd, UMDAcat and EBNA has a given solution, and so how
    likely the run returns a cost at least as good as that of the solution. *)
From Coq Require Import String List ZArith Bool Lia Reals Lra.
From Flocq Require Import Core IEEE754.BinarySingleNaN.
From Verif Require Import PyBase B64 B64More NdArray Eda EdaInv Spec TopK LoopObs LoopThms LoopMore LoopInv LoopDrawn LoopFail FailThms Rand RandThms Models ModelThms FloatSum Chance ChoiceMore ChoiceInt
  Inits InitThms Stock StockInv StockAll StockCat StockMore MaxLik Mean Found FoundBest Answers UniformChance BoxChance LostBits LostCat.
Import ListNotations.
Open Scope R_scope.

(* ---------------- the best cost and the first generation ---------------- *)

(** With ftol = 0, the cost returned is not above that of any individual of the first generation. *)
Lemma best_first {X W} (E : env X W) (o : optimiser X) (F : row -> f64) a ftol out w res s x : feq ftol (Z2f 0) = true ->
  run_in E a o (fun r w => (Ok (NF (F r)), w)) ftol out w = (Ok res, s) -> flt (F x) (r_best_cost res) = true ->
  exists g0 v0 G, gens (s_tr s) = (g0, v0) :: G /\ ~ In x (a_rows g0).
Proof.
  intros Hf Hr Hv. set (cost := fun (r : row) (w : W) => (Ok (NF (F r)), w)) in *.
  set (s0 := mkSt a (op_st o) w []). set (h := hooks_of E o cost).
  assert (Hc : completes (op_cfg o) h ftol out s0 res (s_tr s)) by (split; [reflexivity|]; exists s; split; [exact Hr|reflexivity]).
  destruct (min_best_lemma _ _ _ _ _ _ _ Hc Hf) as (_ & Hmin).
  pose proof (run_answers (op_cfg o) h ftol out s0 eq_refl) as Ha. change (minimize (op_cfg o) h ftol out s0) with (run_in E a o cost ftol out w) in Ha. rewrite Hr in Ha. cbn [snd] in Ha.
  assert (Hfl : all_float_returns (s_tr s)).
  { unfold all_float_returns. eapply Forall_impl; [|exact Ha]. intros [x' y] (w1 & w2 & Hx). cbn [fst snd] in *. unfold h, cost in Hx. cbn [hooks_of h_cost] in Hx. exists (F x'). congruence. }
  pose proof (evaluated_called _ _ _ _ _ _ _ Hc Hfl) as Hcall. destruct (calls_lemma _ _ _ _ _ _ _ Hc) as (_ & Hlens).
  destruct (counts_lemma _ _ _ _ _ _ _ Hc) as (_ & K1).
  destruct (gens (s_tr s)) as [|[g0 v0] G] eqn:Eg; [cbn in K1; lia|]. exists g0, v0, G. split; [reflexivity|]. intros Hx.
  assert (Hlen : List.length v0 = List.length (a_rows g0)) by (inversion Hlens as [|? ? ? ? K _]; subst; apply K).
  apply In_nth_error in Hx as [i Hi]. assert (Hi' : (i < List.length v0)%nat) by (rewrite Hlen; apply nth_error_Some; congruence).
  destruct (nth_error v0 i) as [y|] eqn:Ey; [|apply nth_error_None in Ey; lia].
  assert (Hin : In (x, y) (evaluated (s_tr s))).
  { unfold evaluated. rewrite Eg. apply in_flat_map. exists (g0, v0). split; [left; reflexivity|]. unfold pairs. cbn [fst snd]. eapply combine_in; eassumption. }
  assert (Hy : y = F x).
  { assert (Hin' : In (x, NF y) (calls (s_tr s))) by (rewrite Hcall; apply in_map_iff; exists (x, y); split; [reflexivity|exact Hin]).
    rewrite Forall_forall in Ha. destruct (Ha _ Hin') as (w1 & w2 & Hx). unfold h, cost in Hx. cbn [hooks_of h_cost fst snd] in Hx. congruence. }
  specialize (Hmin _ _ Hin). subst y. congruence.
Qed.

(** The first generation of a run that has one is drawn by the initialiser from the starting state of the generator. *)
Lemma first_drawn {X W} (E : env X W) (o : optimiser X) cost a ftol out w r s g0 v0 G : c_init_data (op_cfg o) = None ->
  run_in E a o cost ftol out w = (r, s) -> gens (s_tr s) = (g0, v0) :: G -> exists w', h_init (hooks_of E o cost) w = (Ok g0, w').
Proof.
  intros Hd Hr Eg. destruct (first_from (op_cfg o) (hooks_of E o cost) ftol out (mkSt a (op_st o) w []) r (s_tr s) g0 v0) as (w' & Hw); [|rewrite Eg; reflexivity|exact Hd|].
  { split; [reflexivity|]. exists s. split; [exact Hr|reflexivity]. }
  exists w'. exact Hw.
Qed.

(* ---------------- columns drawn one after the other ---------------- *)

Definition alive_step (b : Z -> bool) (al : list bool) (v : list Z) : list bool := map (fun p : bool * Z => fst p && b (snd p)) (combine al v).
Definition count (al : list bool) : nat := List.length (filter (fun b => b) al).
(** No row passes the tests of all columns; [al] says which rows have passed so far. *)
Fixpoint misses (size : nat) (bs : list (Z -> bool)) (al : list bool) (v : list Z) : bool :=
  match bs with
  | [] => Nat.eqb (count al) 0
  | b :: bs' => misses size bs' (alive_step b al (firstn size v)) (skipn size v)
  end.

Lemma step_chance b q c al : hit_chance b q -> mean draws (List.length al) (fun v => c ^ count (alive_step b al v)) = (1 - q + q * c) ^ count al.
Proof.
  intros Hq. induction al as [|x al IH]; [reflexivity|]. cbn [List.length mean].
  assert (E : forall k, mean draws (List.length al) (fun v => c ^ count (alive_step b (x :: al) (k :: v))) =
                        (1 - q + q * c) ^ count al * (if x then 1 - (1 - c) * ind (b k) else 1)).
  { intros k. rewrite <- IH, Rmult_comm, <- mean_scal. apply (mean_ext draws draws_nonempty). intros v _. unfold alive_step. cbn [combine map fst snd].
    unfold count. cbn [filter]. destruct x, (b k); cbn [andb List.length pow ind]; ring. }
  rewrite (map_ext _ _ E). rewrite (avg_scal draws _ (fun k => if x then 1 - (1 - c) * ind (b k) else 1)).
  unfold count. cbn [filter]. destruct x; cbn [List.length pow].
  - rewrite (avg_minus draws (fun _ => 1)), (avg_const draws draws_nonempty), avg_scal. unfold hit_chance in Hq. rewrite Hq. ring.
  - rewrite (avg_const draws draws_nonempty). ring.
Qed.
Lemma alive_length b al v : List.length v = List.length al -> List.length (alive_step b al v) = List.length al.
Proof. intros H. unfold alive_step. rewrite map_length, combine_length, H. apply Nat.min_id. Qed.

Lemma misses_chance size bs qs : Forall2 hit_chance bs qs -> forall al, List.length al = size ->
  mean draws (List.length bs * size) (fun v => ind (misses size bs al v)) = (1 - Rprod qs) ^ count al.
Proof.
  induction 1 as [|b q bs qs Hq _ IH]; intros al Hl.
  - cbn [List.length Nat.mul mean misses]. unfold Rprod. cbn [fold_right]. replace (1 - 1) with 0 by ring. destruct (count al) as [|m]; cbn; [reflexivity|ring].
  - cbn [List.length Nat.mul]. rewrite mean_app. unfold Rprod. cbn [fold_right]. fold (Rprod qs).
    replace (1 - q * Rprod qs) with (1 - q + q * (1 - Rprod qs)) by ring. rewrite <- (step_chance b q (1 - Rprod qs) al Hq), Hl.
    apply (mean_ext draws draws_nonempty). intros v [Lv _]. rewrite <- (IH (alive_step b al v)) by (rewrite alive_length; congruence).
    apply (mean_ext draws draws_nonempty). intros t _. cbn [misses]. rewrite <- Lv, firstn_app, skipn_app, Nat.sub_diag, firstn_all, skipn_all. cbn [firstn skipn app]. rewrite app_nil_r. reflexivity.
Qed.

Lemma misses_not size bs : forall al v, List.length al = size -> List.length v = (List.length bs * size)%nat -> misses size bs al v = false ->
  exists i, nth_error al i = Some true /\ forall j b, nth_error bs j = Some b -> b (nth (j * size + i) v 0%Z) = true.
Proof.
  induction bs as [|b bs IH]; intros al v Hl Hv H; cbn [misses] in H.
  - apply Nat.eqb_neq in H. unfold count in H. destruct (filter (fun b => b) al) as [|x f] eqn:Ef; [cbn in H; lia|].
    assert (Hin : In x (filter (fun b => b) al)) by (rewrite Ef; left; reflexivity). apply filter_In in Hin as [Hin Hx]. subst x.
    apply In_nth_error in Hin as [i Hi]. exists i. split; [exact Hi|]. intros [|j] b Hb; discriminate Hb.
  - cbn [List.length Nat.mul] in Hv.
    destruct (IH _ (skipn size v) (eq_trans (alive_length b al (firstn size v) ltac:(rewrite firstn_length; lia)) Hl) ltac:(rewrite skipn_length; lia) H) as (i & Hi & Hj).
    unfold alive_step in Hi. rewrite nth_error_map in Hi. destruct (nth_error (combine al (firstn size v)) i) as [[x k]|] eqn:Ec; [|discriminate Hi].
    cbn [fst snd option_map] in Hi. assert (Hxk : x && b k = true) by congruence. apply andb_prop in Hxk as [Hx Hk]. subst x.
    assert (Hs : nth_error al i = Some true /\ nth_error (firstn size v) i = Some k).
    { clear -Ec. revert Ec. generalize (firstn size v) as l. revert i. induction al as [|y al IH]; intros [|i] [|z l] Ec; try discriminate Ec; cbn [combine nth_error] in *;
        [split; congruence|exact (IH i l Ec)]. }
    destruct Hs as [H1 H2]. exists i. split; [exact H1|]. intros [|j] b' Hb.
    + cbn [nth_error] in Hb. assert (b' = b) by congruence. subst b'. cbn [Nat.mul Nat.add].
      assert (Hi' : (i < List.length (firstn size v))%nat) by (apply nth_error_Some; rewrite H2; discriminate).
      rewrite <- (firstn_skipn size v), app_nth1 by exact Hi'. rewrite (nth_error_nth _ _ 0%Z H2). exact Hk.
    + specialize (Hj j b' Hb). rewrite nth_skip in Hj. replace (S j * size + i)%nat with (size + (j * size + i))%nat by (cbn; lia). exact Hj.
Qed.
Lemma count_true size : count (repeat true size) = size.
Proof. induction size as [|m IH]; [reflexivity|]. unfold count in *. cbn. rewrite IH. reflexivity. Qed.

(* ---------------- UMDAcat and EBNA ---------------- *)

Section Cat.
Context {X : Type}.
Variable E : env X (list Z).
Hypothesis cyclic : cyclic_rng (e_rng E).
Variables (A : algorithm) (g : args) (values : list (list cell)) (freq : list (list f64)) (o0 : optimiser X).
Hypothesis made : construct E A g = Ok o0.
Hypothesis categorical : declared_values A = Some (values, freq).
Let n := Z.to_nat (g_nvars g).
Let size := Z.to_nat (g_size_gen g).
Hypothesis some_vars : (1 <= g_nvars g)%Z.
Hypothesis cats : cats_ok values freq.
Hypothesis no_init : g_init_data g = None.
Variables (d : R) (x : row) (ps : list f64).
Hypothesis small : d <= / 4.
Hypothesis x_len : List.length x = n.
Hypothesis declares : LostCat.declared values freq d x ps.

(** The draws with which an individual of the first generation is [x]. *)
Lemma first_is : exists bs qs, Forall2 hit_chance bs qs /\ Forall2 (near d) ps qs /\ List.length bs = n /\
  forall o cost w ga w1, used E o0 o -> h_init (hooks_of E o cost) w = (Ok ga, w1) ->
  forall i, (i < size)%nat -> (forall j b, nth_error bs j = Some b -> b (nth (j * size + i) w 0%Z) = true) -> In x (a_rows ga).
Proof.
  destruct (categorical_init E A g values freq o0 made categorical) as (it & Hinit & Hnew).
  pose proof (construct_built E _ _ _ made) as B. destruct B as [Hcfg _ _ _ _]. unfold base_of in Hcfg.
  apply eda_init_inv in Hcfg. destruct Hcfg as (C1 & _). destruct declares as [Lp Hd].
  destruct (pick_list n (fun j (y : (Z -> bool) * R) => hit_chance (fst y) (snd y) /\ (forall p, nth_error ps j = Some p -> near d p (snd y)) /\
    forall o cost w ga w1, used E o0 o -> h_init (hooks_of E o cost) w = (Ok ga, w1) -> forall i, (i < size)%nat -> fst y (nth (j * size + i) w 0%Z) = true ->
      forall c, nth_error x j = Some c -> nth j (nth i (a_rows ga) []) (CF fnan) = c)) as (l & Ll & Hl).
  - intros j Hj. destruct (nth_error x j) as [c|] eqn:Ex; [|apply nth_error_None in Ex; lia]. destruct (nth_error ps j) as [p|] eqn:Ep; [|apply nth_error_None in Ep; lia].
    destruct (Hd j c p Ex Ep) as (v & f & k & Hv & Hf & Hc & Hp & Hn & Hlen & Hs).
    destruct (sampled_as_declared (e_sum E) (g_nvars g) values freq it Hnew cats j v f k c p d Hj Hv Hf Hc Hp Hn Hlen Hs small) as (lo & hi & P1 & P2 & P3 & P4).
    destruct (chance_between (fun v => between lo hi v = true) lo hi P1 P2) as (q & Hq & Eq); [intros y _ _; apply between_spec|].
    pose proof (between_chance lo hi q Hq) as Hh. exists (fun z => between lo hi (unit53 (z mod 2 ^ 53)%Z), q). cbn [fst snd]. split; [exact Hh|]. split.
    + intros p' Hp'. assert (p' = p) by congruence. subst p'. split; [exact (chance_unit _ _ Hq)|].
      replace (q - B2R p) with ((q - (hi - lo)) + (hi - lo - B2R p)) by ring. eapply Rle_trans; [apply Rabs_triang|].
      assert (E25 : bpow radix2 (-25) = bpow radix2 (-26) + bpow radix2 (-26)).
      { replace (bpow radix2 (-26) + bpow radix2 (-26)) with (2 * bpow radix2 (-26)) by ring. change 2 with (bpow radix2 1). rewrite <- bpow_plus. reflexivity. }
      assert (u <= bpow radix2 (-26)) by (apply bpow_le; lia). lra.
    + intros o cost w ga w1 U Hi i Hi' Hb c' Hc'. assert (c' = c) by congruence. subst c'. destruct (used_setup E _ _ U) as (Ecfg & Ein & _).
      cbn [hooks_of h_init] in Hi. rewrite Ein, Hinit, Ecfg, C1 in Hi. cbn [initr_sample] in Hi.
      apply between_spec in Hb. apply (P4 _ (e_rng E) (e_str E) (g_size_gen g) w ga w1 (cyclic_ok _ cyclic) Hi i Hi').
      rewrite (cyclic_world _ _ _ _ cyclic), cyclic. cbn [fst]. rewrite Nat.mul_1_r, Nat.add_0_r, nth_skip. exact Hb.
  - exists (map fst l), (map snd l). split; [|split; [|split]].
    + clear - Hl. assert (H : forall y, In y l -> hit_chance (fst y) (snd y)) by (intros y Hy; apply In_nth_error in Hy as [j Hj]; apply (Hl j y Hj)).
      clear Hl. induction l as [|y l IH]; cbn; constructor; [apply H; left; reflexivity|]. apply IH. intros z Hz. apply H. right. exact Hz.
    + assert (Hn : forall j p y, nth_error ps j = Some p -> nth_error l j = Some y -> near d p (snd y)) by (intros j p y Hp Hy; apply (proj1 (proj2 (Hl j y Hy))), Hp).
      assert (L2 : List.length ps = List.length l) by congruence. clear - Hn L2. revert l Hn L2. induction ps as [|p ps' IH]; intros [|y l] Hn L2; try discriminate L2; cbn; constructor.
      * apply (Hn 0%nat); reflexivity.
      * apply IH; [intros j p' y'; apply (Hn (S j))|cbn in L2; lia].
    + rewrite map_length. exact Ll.
    + intros o cost w ga w1 U Hi i Hi' Hall. pose proof Hi as Hi0. destruct (used_setup E _ _ U) as (Ecfg & Ein & _).
      cbn [hooks_of h_init] in Hi0. rewrite Ein, Hinit, Ecfg, C1 in Hi0. cbn [initr_sample] in Hi0.
      destruct (cat_init_spec (e_rng E) (e_str E) (e_sum E) (g_nvars g) values freq it (g_size_gen g) w ga w1 (cyclic_ok _ cyclic) Hnew cats Hi0) as (_ & La & Hlen & _).
      specialize (La ltac:(lia)). change (Z.to_nat (g_size_gen g)) with size in La. unfold a_len in La.
      assert (Hrow : In (nth i (a_rows ga) []) (a_rows ga)) by (apply nth_In; rewrite La; exact Hi').
      assert (Hr : List.length (nth i (a_rows ga) []) = n) by (rewrite Forall_forall in Hlen; exact (Hlen _ Hrow)).
      assert (Er : nth i (a_rows ga) [] = x); [|rewrite Er in Hrow; exact Hrow].
      apply (nth_ext _ _ (CF fnan) (CF fnan)); [congruence|]. intros j Hj. change (j < List.length (nth i (a_rows ga) []))%nat in Hj. rewrite Hr in Hj.
      destruct (nth_error l j) as [y|] eqn:Ey; [|apply nth_error_None in Ey; lia]. destruct (nth_error x j) as [c|] eqn:Ec; [|apply nth_error_None in Ec; lia].
      rewrite (nth_error_nth x j (CF fnan) Ec). apply (proj2 (proj2 (Hl j y Ey)) o cost w ga w1 U Hi i Hi'); [|exact Ec].
      apply (Hall j). rewrite nth_error_map, Ey. reflexivity.
Qed.

Lemma cat_first_misses : exists qs, Forall2 (near d) ps qs /\
  forall o cost a ftol out t (test : list Z -> bool), used E o0 o ->
    (forall v, test v = true -> exists g0 v0 G, gens (s_tr (snd (run_in E a o cost ftol out (v ++ t)))) = (g0, v0) :: G /\ ~ In x (a_rows g0)) ->
    likelihood (size * n) test <= (1 - Rprod qs) ^ size.
Proof.
  destruct first_is as (bs & qs & Hbq & Hpq & Lb & Hhit). exists qs. split; [exact Hpq|]. intros o cost a ftol out t test U Ht.
  rewrite <- (count_true size) at 2. rewrite <- (misses_chance size bs qs Hbq (repeat true size) (repeat_length _ _)), Lb, (Nat.mul_comm size n).
  unfold likelihood. apply (mean_le draws draws_nonempty). intros v [Lv _]. destruct (test v) eqn:Hv; [|apply ind_unit].
  destruct (Ht v Hv) as (g0 & v0 & G & Eg & Hno). destruct (run_in E a o cost ftol out (v ++ t)) as [r s] eqn:Hr. cbn [snd] in Eg.
  destruct (used_setup E _ _ U) as (Ecfg & _).
  assert (Hd : c_init_data (op_cfg o) = None).
  { rewrite Ecfg. pose proof (construct_built E _ _ _ made) as B. destruct B as [Hcfg _ _ _ _]. unfold base_of in Hcfg.
    apply eda_init_inv in Hcfg. destruct Hcfg as (_ & _ & _ & _ & _ & _ & _ & _ & C9 & _). rewrite C9. exact no_init. }
  destruct (first_drawn E o cost a ftol out (v ++ t) r s g0 v0 G Hd Hr Eg) as (w' & Hi).
  destruct (misses size bs (repeat true size) v) eqn:Em; [apply Rle_refl|]. exfalso. apply Hno.
  destruct (misses_not size bs (repeat true size) v (repeat_length _ _) ltac:(rewrite Lb; exact Lv) Em) as (i & Hi1 & Hi2).
  assert (Hi' : (i < size)%nat) by (rewrite <- (repeat_length true size); apply nth_error_Some; rewrite Hi1; discriminate).
  apply (Hhit o cost (v ++ t) g0 w' U Hi i Hi'). intros j b Hb. rewrite app_nth1; [exact (Hi2 j b Hb)|].
  assert (Hj : (j < n)%nat) by (rewrite <- Lb; apply nth_error_Some; rewrite Hb; discriminate). rewrite Lv.
  assert (S j * size <= n * size)%nat by (apply Nat.mul_le_mono_r; lia). cbn in H. lia.
Qed.
End Cat.

Lemma row_self x d values freq ps : cats_ok values freq -> LostCat.declared values freq d x ps -> row_is x x = true.
Proof.
  intros cats [Lp Hd]. assert (H : forall c, In c x -> cell_is c c = true).
  { intros c Hc. apply In_nth_error in Hc as [j Hj]. destruct (nth_error ps j) as [p|] eqn:Ep; [|apply nth_error_None in Ep; assert (j < List.length x)%nat by (apply nth_error_Some; rewrite Hj; discriminate); lia].
    destruct (Hd j c p Hj Ep) as (v & f & k & Hv & Hf & Hc & _). pose proof (cats j v f Hv Hf) as Hcat. unfold category in Hcat.
    apply (cell_is_refl c v); [apply Hcat|exact (nth_error_In _ _ Hc)]. }
  clear -H. induction x as [|c l IH]; [reflexivity|]. cbn. rewrite (H c (or_introl eq_refl)). apply IH. intros c' Hc'. apply H. right. exact Hc'.
Qed.

(** The first generation was evaluated and [x] is not in it. *)
Definition first_without (x : row) (tr : list ev) : bool :=
  match gens tr with [] => false | (g0, _) :: _ => negb (existsb (row_is x) (a_rows g0)) end.

Section CatThms.
Context {X : Type}.
Variable E : env X (list Z).
Lemma cat_first_rare A g values freq (o0 : optimiser X) d x ps :
  cyclic_rng (e_rng E) -> construct E A g = Ok o0 -> declared_values A = Some (values, freq) -> (1 <= g_nvars g)%Z -> cats_ok values freq -> g_init_data g = None ->
  d <= / 4 -> List.length x = Z.to_nat (g_nvars g) -> LostCat.declared values freq d x ps ->
  exists qs, Forall2 (fun p q => 0 <= q <= 1 /\ Rabs (q - B2R p) <= 2 * d + bpow radix2 (-25)) ps qs /\
  (forall o (cost : row -> list Z -> res NdArray.num * list Z) a ftol out t, used E o0 o ->
    likelihood (Z.to_nat (g_size_gen g) * Z.to_nat (g_nvars g)) (fun v => first_without x (s_tr (snd (run_in E a o cost ftol out (v ++ t)))))
    <= (1 - Rprod qs) ^ Z.to_nat (g_size_gen g)) /\
  (forall o (F : row -> f64) a ftol out t, used E o0 o -> feq ftol (Z2f 0) = true ->
    likelihood (Z.to_nat (g_size_gen g) * Z.to_nat (g_nvars g)) (fun v =>
      match fst (run_in E a o (fun r w => (Ok (NF (F r)), w)) ftol out (v ++ t)) with
      | Ok r => flt (F x) (r_best_cost r)
      | Raise _ => false
      end) <= (1 - Rprod qs) ^ Z.to_nat (g_size_gen g)).
Proof.
  intros Hcy Hm Hdv Hn Hc Hi Hd Hx Hp. destruct (cat_first_misses E Hcy A g values freq o0 Hm Hdv Hn Hc Hi d x ps Hd Hx Hp) as (qs & Hq & H).
  exists qs. split; [exact Hq|]. split.
  - intros o cost a ftol out t U. apply (H o cost a ftol out t _ U). intros v Hv. unfold first_without in Hv.
    destruct (gens (s_tr (snd (run_in E a o cost ftol out (v ++ t))))) as [|[g0 v0] G]; [discriminate Hv|]. exists g0, v0, G. split; [reflexivity|].
    intros Hin. apply negb_true_iff in Hv. assert (Ht : existsb (row_is x) (a_rows g0) = true) by (apply existsb_exists; exists x; split; [exact Hin|exact (row_self x d values freq ps Hc Hp)]).
    rewrite Ht in Hv. discriminate Hv.
  - intros o F a ftol out t U Hf. apply (H o (fun r w => (Ok (NF (F r)), w)) a ftol out t _ U). intros v Hv.
    destruct (run_in E a o (fun r w => (Ok (NF (F r)), w)) ftol out (v ++ t)) as [[res|e] s] eqn:Hr; cbn [fst snd] in *; [|discriminate Hv].
    exact (best_first E o F a ftol out (v ++ t) res s x Hf Hr Hv).
Qed.
End CatThms.

(* ---------------- UMDAd ---------------- *)

Definition bit_tests (ps : list f64) (bs : list bool) : list (f64 -> bool) := map (fun pb : f64 * bool => fun x => Bool.eqb (flt x (fst pb)) (snd pb)) (combine ps bs).
Definition bit_chances (bs : list bool) (qs : list R) : list R := map (fun bq : bool * R => if fst bq then snd bq else 1 - snd bq) (combine bs qs).

Lemma chance_not t q : chance (fun x => t x = true) q -> chance (fun x => negb (t x) = true) (1 - q).
Proof.
  intros H. destruct (chance_ex (fun x => negb (t x) = true)) as [q' H']; [intros x; destruct (t x); [right; discriminate|left; reflexivity]|].
  assert (E : q' = 1 - q).
  { rewrite <- (avg_chance (fun x => negb (t x)) q' H'). exact (avg_chance_not t q H). }
  rewrite <- E. exact H'.
Qed.
Lemma bit_tests_chance ps qs : Forall2 (fun p q => chance (fun x => flt x p = true) q) ps qs -> forall bs, List.length bs = List.length ps ->
  Forall2 (fun t q => chance (fun x => t x = true) q) (bit_tests ps bs) (bit_chances bs qs).
Proof.
  induction 1 as [|p q ps qs Hq _ IH]; intros [|b bs] Hl; try discriminate Hl; [constructor|]. unfold bit_tests, bit_chances. cbn [combine map fst snd]. injection Hl as Hl.
  constructor; [|exact (IH bs Hl)]. destruct b.
  - eapply chance_ext; [|exact Hq]. intros x. cbv beta. destruct (flt x p); reflexivity.
  - eapply chance_ext; [|exact (chance_not (fun x => flt x p) q Hq)]. intros x. cbv beta. destruct (flt x p); reflexivity.
Qed.
Lemma hit_tests bs : forall ps v, List.length ps = List.length bs -> hit ps bs v = hit_all (bit_tests ps bs) v.
Proof.
  induction bs as [|b bs IH]; intros [|p ps] v Hl; try discriminate Hl; [destruct v; reflexivity|]. destruct v as [|k v]; [reflexivity|].
  unfold bit_tests. cbn [combine map hit hit_all fst snd]. f_equal. injection Hl as Hl. exact (IH ps v Hl).
Qed.
Lemma bit_tests_length ps bs : List.length ps = List.length bs -> List.length (bit_tests ps bs) = List.length bs.
Proof. intros H. unfold bit_tests. rewrite map_length, combine_length, H. apply Nat.min_id. Qed.
Lemma missed_tests ps bs : List.length ps = List.length bs -> forall r v, missed ps bs r v = miss_rows (bit_tests ps bs) r v.
Proof.
  intros Hl. induction r as [|r IH]; intros v; [reflexivity|]. cbn [missed miss_rows]. rewrite (bit_tests_length _ _ Hl), (hit_tests bs ps _ Hl), IH. reflexivity.
Qed.
Lemma missed_exactly ps qs bs r : Forall2 (fun p q => chance (fun x => flt x p = true) q) ps qs -> List.length ps = List.length bs ->
  mean draws (r * List.length bs) (fun v => ind (missed ps bs r v)) = (1 - Rprod (bit_chances bs qs)) ^ r.
Proof.
  intros Hq Hl. rewrite <- (miss_rows_chance _ _ (bit_tests_chance ps qs Hq bs (eq_sym Hl)) r), (bit_tests_length _ _ Hl).
  apply (mean_ext draws draws_nonempty). intros v _. rewrite (missed_tests ps bs Hl). reflexivity.
Qed.

Lemma bits_self bs : row_is (bits bs) (bits bs) = true.
Proof.
  induction bs as [|b l IH]; [reflexivity|]. unfold bits. cbn [map row_is]. fold (bits l). apply andb_true_intro. split; [destruct b; reflexivity|exact IH].
Qed.

Section Bits.
Context {X : Type}.
Variable E : env X (list Z).
Hypothesis tape : tape_rng (e_rng E).
Variables (g : args) (vector : option (list f64)) (lo hi : f64) (o0 o : optimiser X).
Hypothesis made : construct E (UMDAd vector lo hi) g = Ok o0.
Hypothesis usedo : used E o0 o.
Let n := Z.to_nat (g_nvars g).
Let size := Z.to_nat (g_size_gen g).
Hypothesis vec_ok : forall v, vector = Some v -> List.length v = n.
Hypothesis no_init : g_init_data g = None.
Let probs : list f64 := match vector with None => repeat (lit 1 (-1)) n | Some v => v end.
Variable qs : list R.
Hypothesis chances : Forall2 (fun p q => chance (fun x => flt x p = true) q) probs qs.
Variable bs : list bool.
Hypothesis bs_len : List.length bs = n.

Lemma probs_len : List.length probs = n.
Proof. unfold probs. destruct vector as [v|]; [apply vec_ok; reflexivity|apply repeat_length]. Qed.

Lemma bits_first cost a ftol out v t r s g0 v0 G : List.length v = (size * n)%nat ->
  run_in E a o cost ftol out (v ++ t) = (r, s) -> gens (s_tr s) = (g0, v0) :: G -> ~ In (bits bs) (a_rows g0) -> missed probs bs size v = true.
Proof.
  intros Lv Hr Eg Hno.
  pose proof made as M. cbn [construct] in M. destruct (umdad_inv _ _ _ _ _ M) as (Hcfg & _ & _ & Hini & _). destruct (used_setup E _ _ usedo) as (E1 & E2 & _).
  pose proof (eda_init_inv _ _ _ _ _ _ _ _ _ _ _ Hcfg) as (C1 & _ & _ & _ & _ & _ & _ & _ & C9 & _).
  destruct (first_drawn E o cost a ftol out (v ++ t) r s g0 v0 G ltac:(rewrite E1, C9; exact no_init) Hr Eg) as (w' & Hi).
  cbn [hooks_of h_init] in Hi. rewrite E2, Hini, E1, C1 in Hi. cbn [initr_sample] in Hi. fold n in Hi. fold probs in Hi.
  set (m := bi_pm (unibin_init_new (g_nvars g) probs)) in *. change (unibin_sample (e_rng E) m (g_size_gen g) (v ++ t) = (Ok g0, w')) in Hi.
  assert (Hm : ub_pm m = probs).
  { pose proof probs_len as Hl. unfold m, unibin_init_new. cbn [bi_pm ub_pm]. destruct probs as [|p ps']; [|reflexivity]. fold n. rewrite <- Hl. reflexivity. }
  assert (Hs : (0 <= g_size_gen g)%Z).
  { unfold unibin_sample in Hi. destruct (Z.ltb_spec (g_size_gen g) 0) as [K|K]; [discriminate Hi|exact K]. }
  destruct (unibin_tape (e_rng E) m (g_size_gen g) n tape eq_refl) as (fs & Hfs).
  pose proof (unibin_drawn (e_rng E) m (g_size_gen g) n fs tape Hs eq_refl (eq_trans (f_equal (@List.length f64) Hm) probs_len) Hfs v Lv) as Hd. fold size in Hd.
  rewrite (Hfs v t Lv), Hd in Hi. assert (Eg0 : g0 = mkArr DInt n (drawn_rows (ub_pm m) n size v)) by congruence. subst g0. cbn [a_rows] in Hno. rewrite Hm in Hno.
  destruct (missed probs bs size v) eqn:Em; [reflexivity|]. exfalso. apply Hno.
  pose proof (drawn_missed probs bs ltac:(rewrite probs_len; congruence) size v ltac:(rewrite Lv, bs_len; apply le_n)) as Hdm. rewrite Em, bs_len in Hdm. cbn [negb] in Hdm.
  apply existsb_exists in Hdm as (r0 & Hr0 & Eb). apply is_bits_spec in Eb. subst r0. exact Hr0.
Qed.

Lemma bits_first_misses cost a ftol out t (test : list Z -> bool) :
  (forall v, test v = true -> exists g0 v0 G, gens (s_tr (snd (run_in E a o cost ftol out (v ++ t)))) = (g0, v0) :: G /\ ~ In (bits bs) (a_rows g0)) ->
  likelihood (size * n) test <= (1 - Rprod (bit_chances bs qs)) ^ size.
Proof.
  intros Ht. rewrite <- (missed_exactly probs qs bs size chances ltac:(rewrite probs_len; congruence)), bs_len.
  unfold likelihood. apply (mean_le draws draws_nonempty). intros v [Lv _]. destruct (test v) eqn:Hv; [|apply ind_unit].
  destruct (Ht v Hv) as (g0 & v0 & G & Eg & Hno). destruct (run_in E a o cost ftol out (v ++ t)) as [r s] eqn:Hr. cbn [snd] in Eg.
  rewrite (bits_first cost a ftol out v t r s g0 v0 G Lv Hr Eg Hno). apply Rle_refl.
Qed.

Lemma bits_first_rare cost a ftol out t :
  likelihood (size * n) (fun v => first_without (bits bs) (s_tr (snd (run_in E a o cost ftol out (v ++ t))))) <= (1 - Rprod (bit_chances bs qs)) ^ size.
Proof.
  apply (bits_first_misses cost a ftol out t). intros v Hv. unfold first_without in Hv.
  destruct (gens (s_tr (snd (run_in E a o cost ftol out (v ++ t))))) as [|[g0 v0] G]; [discriminate Hv|]. exists g0, v0, G. split; [reflexivity|].
  intros Hin. apply negb_true_iff in Hv. assert (Ht : existsb (row_is (bits bs)) (a_rows g0) = true).
  { apply existsb_exists. exists (bits bs). split; [exact Hin|]. apply bits_self. }
  rewrite Ht in Hv. discriminate Hv.
Qed.

Lemma bits_best_rare (F : row -> f64) a ftol out t : feq ftol (Z2f 0) = true ->
  likelihood (size * n) (fun v => match fst (run_in E a o (fun r w => (Ok (NF (F r)), w)) ftol out (v ++ t)) with
                                  | Ok r => flt (F (bits bs)) (r_best_cost r)
                                  | Raise _ => false
                                  end) <= (1 - Rprod (bit_chances bs qs)) ^ size.
Proof.
  intros Hf. apply (bits_first_misses (fun r w => (Ok (NF (F r)), w)) a ftol out t). intros v Hv.
  destruct (run_in E a o (fun r w => (Ok (NF (F r)), w)) ftol out (v ++ t)) as [[res|e] s] eqn:Hr; cbn [fst snd] in *; [|discriminate Hv].
  exact (best_first E o F a ftol out (v ++ t) res s (bits bs) Hf Hr Hv).
Qed.
End Bits.

(** With the default vector every bit string has probability 2^-n. *)
Lemma half_bits bs : Rprod (bit_chances bs (repeat (1 / 2) (List.length bs))) = (1 / 2) ^ List.length bs.
Proof.
  unfold Rprod, bit_chances. induction bs as [|b bs IH]; [reflexivity|]. cbn [List.length repeat combine map fold_right fst snd pow]. rewrite IH.
  destruct b; field.
Qed.
Lemma bits_half X (E : env X (list Z)) g lo hi o0 o bs : tape_rng (e_rng E) -> construct E (UMDAd None lo hi) g = Ok o0 -> used E o0 o -> g_init_data g = None ->
  List.length bs = Z.to_nat (g_nvars g) ->
  (forall (cost : row -> list Z -> res NdArray.num * list Z) a ftol out t,
     likelihood (Z.to_nat (g_size_gen g) * Z.to_nat (g_nvars g)) (fun v => first_without (bits bs) (s_tr (snd (run_in E a o cost ftol out (v ++ t)))))
     <= (1 - (1 / 2) ^ Z.to_nat (g_nvars g)) ^ Z.to_nat (g_size_gen g)) /\
  (forall (F : row -> f64) a ftol out t, feq ftol (Z2f 0) = true ->
     likelihood (Z.to_nat (g_size_gen g) * Z.to_nat (g_nvars g)) (fun v =>
       match fst (run_in E a o (fun r w => (Ok (NF (F r)), w)) ftol out (v ++ t)) with
       | Ok r => flt (F (bits bs)) (r_best_cost r)
       | Raise _ => false
       end) <= (1 - (1 / 2) ^ Z.to_nat (g_nvars g)) ^ Z.to_nat (g_size_gen g)).
Proof.
  intros Ht Hm Hu Hi Hb. replace ((1 / 2) ^ Z.to_nat (g_nvars g)) with (Rprod (bit_chances bs (repeat (1 / 2) (Z.to_nat (g_nvars g))))) by (rewrite <- Hb; apply half_bits).
  assert (Hv : forall v : list f64, None = Some v -> List.length v = Z.to_nat (g_nvars g)) by (intros v; discriminate). split.
  - intros cost a ftol out t. exact (bits_first_rare E Ht g None lo hi o0 o Hm Hu Hv Hi _ (LostBits.half_chances _) bs Hb cost a ftol out t).
  - intros F a ftol out t. exact (bits_best_rare E Ht g None lo hi o0 o Hm Hu Hv Hi _ (LostBits.half_chances _) bs Hb F a ftol out t).
Qed.

(** The first generation and the later ones together. *)
Lemma umdad_misses_all X (E : env X (list Z)) g vector lo hi o0 o t ql qh qs bs (f : row -> res NdArray.num) a ftol out :
  tape_rng (e_rng E) -> construct E (UMDAd vector lo hi) g = Ok o0 -> used E o0 o ->
  (forall v, vector = Some v -> List.length v = Z.to_nat (g_nvars g)) -> g_init_data g = None ->
  prob lo -> prob hi -> int_times (g_size_gen g) (g_alpha g) = Ok t -> (0 <= t <= 2 ^ 53)%Z ->
  Forall2 (fun p q => chance (fun x => flt x p = true) q) (match vector with None => repeat (lit 1 (-1)) (Z.to_nat (g_nvars g)) | Some v => v end) qs ->
  chance (fun x => flt x lo = true) ql -> chance (fun x => flt x hi = true) qh -> List.length bs = Z.to_nat (g_nvars g) ->
  likelihood (all_draws g) (fun v => let tr := s_tr (snd (run_in E a o (fun r w => (f r, w)) ftol out v)) in
     Nat.eqb (List.length (gens tr)) (S (Z.to_nat (g_max_iter g - 1))) && negb (evaluates bs tr))
  <= (1 - Rprod (bit_chances bs qs)) ^ Z.to_nat (g_size_gen g)
     * (1 - Rprod (map (fun b : bool => if b then ql else 1 - qh) bs)) ^ (Z.to_nat (g_size_gen g) * Z.to_nat (g_max_iter g - 1)).
Proof.
  intros Ht Hm Hu Hv Hi Pl Ph Hs Hr Hq Cl Ch Hb. set (cost := fun (r : row) (w : list Z) => (f r, w)).
  set (T := Z.to_nat (g_max_iter g - 1)). set (size := Z.to_nat (g_size_gen g)). set (n := Z.to_nat (g_nvars g)) in *. set (P := Rprod (map _ bs)).
  assert (Ef : first_draws g = (size * n)%nat) by (unfold first_draws; rewrite Hi; reflexivity).
  assert (Hin : forall d, g_init_data g = Some d -> bit_arr (Z.to_nat (g_nvars g)) d) by (intros d Hd; rewrite Hi in Hd; discriminate Hd).
  set (good := fun seg v => let tr := s_tr (snd (run_in E a o cost ftol out (seg ++ v))) in
     Nat.eqb (List.length (gens tr)) (S T) && negb (evaluates bs tr)).
  unfold likelihood, all_draws. rewrite mean_app, Ef. fold n size T.
  set (probs := match vector with None => repeat (lit 1 (-1)) n | Some v => v end) in *.
  assert (Lp : List.length probs = n) by (unfold probs; destruct vector as [v|]; [apply Hv; reflexivity|apply repeat_length]).
  rewrite <- (missed_exactly probs qs bs size Hq ltac:(congruence)), Hb. rewrite Rmult_comm, <- mean_scal. apply (mean_le draws draws_nonempty). intros seg Sseg.
  destruct (missed probs bs size seg) eqn:Em; cbn [ind].
  - rewrite Rmult_1_r. change (mean draws (size * n * T) (fun v => ind (good seg v)) <= (1 - P) ^ (size * T)).
    refine (run_rare_after E Ht g vector lo hi o0 o Hm Hu Hv Hin Pl Ph t Hs Hr f ql qh Cl Ch bs Hb a ftol out T seg _ (le_n _) (good seg) _); [rewrite Ef; exact Sseg|].
    intros v _ Hg. unfold good in Hg. cbv zeta in Hg |- *. apply andb_true_iff in Hg as [H1 H2]. apply Nat.eqb_eq in H1. fold cost. split; [rewrite H1; apply le_n|].
    apply negb_true_iff in H2. unfold evaluates in H2.
    destruct (gens (s_tr (snd (run_in E a o cost ftol out (seg ++ v))))) as [|gv G]; [discriminate H1|]. cbn [tl]. cbn [existsb] in H2. apply orb_false_iff in H2 as [_ H2].
    injection H1 as H1. rewrite firstn_all2 by lia.
    clear - H2. induction G as [|x G IH]; [reflexivity|]. cbn [existsb forallb] in *. apply orb_false_iff in H2 as [H2 H3]. rewrite H2, (IH H3). reflexivity.
  - rewrite Rmult_0_r. rewrite <- (mean_const draws draws_nonempty (size * n * T) 0). apply (mean_le draws draws_nonempty). intros v _.
    change (ind (good seg v) <= 0). destruct (good seg v) eqn:Hg; [exfalso|cbn; lra]. unfold good in Hg. cbv zeta in Hg. apply andb_true_iff in Hg as [H1 H2]. apply Nat.eqb_eq in H1.
    destruct (run_in E a o cost ftol out (seg ++ v)) as [r s] eqn:Hrun. cbn [snd] in *. destruct (gens (s_tr s)) as [|[g0 v0] G] eqn:Eg; [discriminate H1|].
    apply negb_true_iff in H2. assert (Hno : ~ In (bits bs) (a_rows g0)).
    { intros Hx. assert (Ht' : evaluates bs (s_tr s) = true) by (apply evaluates_spec; exists g0, v0; rewrite Eg; split; [left; reflexivity|exact Hx]). congruence. }
    pose proof (bits_first E Ht g vector lo hi o0 o Hm Hu Hv Hi qs Hq bs Hb cost a ftol out seg v r s g0 v0 G (proj1 Sseg) Hrun Eg Hno) as Hmiss.
    fold n probs size in Hmiss. congruence.
Qed.
