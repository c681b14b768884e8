(** The cells of a uniform sample as functions of the draws, alone and as the first generation of a run. *)
From Coq Require Import String List ZArith Bool Lia Reals Lra.
From Flocq Require Import Core IEEE754.BinarySingleNaN.
From Verif Require Import PyBase B64 B64More NdArray Eda EdaInv Spec LoopObs LoopFail Rand RandThms Models ModelThms FloatSum Chance Inits InitThms Stock StockInv StockAll
  UniformChance BoxChance.
Import ListNotations.
Open Scope R_scope.

(** What the sample accepts has finite ranges. *)
Lemma uniform_range {W} (g : rng W) n lo hi ui size w a w' j : uniform_new n lo hi = Ok ui -> uniform_sample g ui size w = (Ok a, w') ->
  full_bound (Z.to_nat n) lo -> full_bound (Z.to_nat n) hi -> (j < Z.to_nat n)%nat -> isfin (fsub (bound_at hi j) (bound_at lo j)) = true.
Proof.
  intros Hn. unfold uniform_new in Hn. destruct (_ && _); [|discriminate]. assert (E : ui = mkUI n lo hi) by congruence. subst ui. clear Hn.
  unfold uniform_sample. cbn [ui_n ui_lo ui_hi]. destruct (n <? 0)%Z; [discriminate|]. unfold np_uniform. intros H Fl Fh Hj.
  assert (G : forallb (fun j => isfin (fsub (bound_at hi j) (bound_at lo j))) (seq 0 (Nat.max (bound_len lo) (bound_len hi))) = true).
  { destruct (forallb _ _); [reflexivity|]. exfalso. cbn [negb] in H.
    destruct lo, hi; try discriminate H; repeat (match type of H with (if ?b then (Raise ?e, _) else ?x) = _ => destruct b; [discriminate H|] end); discriminate H. }
  rewrite forallb_forall in G.
  destruct lo as [|p|? l], hi as [|q|? l']; cbn [full_bound bound_len] in *; try contradiction;
    try (apply G, in_seq; lia). specialize (G O). cbn [bound_at] in *. apply G, in_seq. lia.
Qed.

Lemma uniform_sample_chance {W} (g : rng W) n lo hi ui size w a w' : uniform_new n lo hi = Ok ui -> uniform_sample g ui size w = (Ok a, w') ->
  full_bound (Z.to_nat n) lo -> full_bound (Z.to_nat n) hi ->
  exists f : nat -> f64 -> f64,
    (forall i j, (i < Z.to_nat size)%nat -> (j < Z.to_nat n)%nat ->
       nth_error (nth i (a_rows a) []) j = Some (CF (f j (fst (g_unif g (Z.to_nat size) (Z.to_nat n) w) i j)))) /\
    forall j l h M t, (j < Z.to_nat n)%nat -> bound_of lo j l -> bound_of hi j h -> isfin l = true -> isfin h = true -> flt l h = true ->
      Rabs (B2R l) <= M -> Rabs (B2R h) <= M -> B2R l <= t <= B2R h ->
      exists q, chance (fun x => B2R (f j x) <= t) q /\
        Rabs (q - (t - B2R l) / (B2R h - B2R l)) <= (10 * M * u + eta) / (B2R h - B2R l).
Proof.
  intros Hn Hs Fl Fh. exists (fun j => uniform_cell (bound_at lo j) (bound_at hi j)). destruct (uniform_rows _ _ _ _ _ _ _ _ _ Hn Hs) as [Hz Hr]. split.
  - intros i j Hi Hj. rewrite Hr.
    assert (T : forall (A : Type) k (F : nat -> A) i, (i < k)%nat -> nth_error (tabulate k F) i = Some (F i)).
    { clear. intros A k F i Hi. unfold tabulate. rewrite nth_error_map. rewrite (nth_error_nth' _ 0%nat) by (rewrite seq_length; exact Hi). rewrite seq_nth by exact Hi. reflexivity. }
    erewrite (@nth_error_nth row _ _ _ _ (T row _ _ _ Hi)). exact (T cell _ _ _ Hj).
  - intros j l h M t Hj Bl Bh F1 F2 F3 M1 M2 Ht. pose proof (uniform_range _ _ _ _ _ _ _ _ _ j Hn Hs Fl Fh Hj) as Fd.
    assert (D : forall b x, full_bound (Z.to_nat n) b -> bound_of b j x -> bound_at b j = x).
    { intros b x Fb Bx. pose proof (full_bound_at _ _ _ Hj Fb) as Q. destruct b; cbn [bound_of bound_at] in *; [contradiction|congruence|congruence]. }
    rewrite (D lo l Fl Bl), (D hi h Fh Bh) in *. apply uniform_chance; assumption.
Qed.

(** The first generation of a run started from bounds. *)
Lemma first_uniform {X W} (E : env X W) A g lo hi (o0 o : optimiser X) cost a ftol out w r s g0 v0 :
  construct E A g = Ok o0 -> used E o0 o -> start_bounds A = Some (lo, hi) -> g_init_data g = None ->
  full_bound (Z.to_nat (g_nvars g)) lo -> full_bound (Z.to_nat (g_nvars g)) hi ->
  run_in E a o cost ftol out w = (r, s) -> nth_error (gens (s_tr s)) 0 = Some (g0, v0) ->
  exists f : nat -> f64 -> f64,
    (forall i j, (i < Z.to_nat (g_size_gen g))%nat -> (j < Z.to_nat (g_nvars g))%nat ->
       nth_error (nth i (a_rows g0) []) j = Some (CF (f j (fst (g_unif (e_rng E) (Z.to_nat (g_size_gen g)) (Z.to_nat (g_nvars g)) w) i j)))) /\
    forall j l h M t, (j < Z.to_nat (g_nvars g))%nat -> bound_of lo j l -> bound_of hi j h -> isfin l = true -> isfin h = true -> flt l h = true ->
      Rabs (B2R l) <= M -> Rabs (B2R h) <= M -> B2R l <= t <= B2R h ->
      exists q, chance (fun x => B2R (f j x) <= t) q /\
        Rabs (q - (t - B2R l) / (B2R h - B2R l)) <= (10 * M * u + eta) / (B2R h - B2R l).
Proof.
  intros made usedo started no_data Fl Fh Hr Hg. pose proof (construct_built E _ _ _ made) as B. destruct B as [bt_cfg0 _ _ bt_init0 _].
  destruct (used_setup E _ _ usedo) as (E1 & E2 & _). destruct (bt_init0 _ _ started) as (ui & Hu & Hi).
  unfold base_of in bt_cfg0. apply eda_init_inv in bt_cfg0. destruct bt_cfg0 as (C1 & _ & _ & C4 & _ & _ & _ & _ & C9 & _).
  destruct (first_from (op_cfg o) (hooks_of E o cost) ftol out (mkSt a (op_st o) w []) r (s_tr s) g0 v0) as (w' & Hs); [|exact Hg|rewrite E1, C9; exact no_data|].
  { split; [reflexivity|]. exists s. split; [exact Hr|reflexivity]. }
  cbn [s_w hooks_of h_init] in Hs. rewrite E2, Hi, E1, C1 in Hs. cbn [initr_sample] in Hs.
  exact (uniform_sample_chance _ _ _ _ _ _ _ _ _ Hu Hs Fl Fh).
Qed.
