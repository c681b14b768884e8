(** The bound of C104 from the bounds the optimiser is constructed with. *)
From Coq Require Import String List ZArith Bool Lia Reals Lra.
From Flocq Require Import Core IEEE754.BinarySingleNaN.
From Verif Require Import PyBase B64 B64More NdArray Rand InitThms Eda EdaInv Spec LoopTrain LoopNoise Models ModelThms Sign Stock StockInv StockGauss StockAll
  FloatSum FloatMean FloatRun.
Import ListNotations.
Open Scope R_scope.

Definition bounds_in (n : nat) (B : R) (lo hi : bound) : Prop :=
  forall j x, (j < n)%nat -> bound_of lo j x \/ bound_of hi j x -> Rabs (B2R x) <= B.

Lemma within_cells n lo hi B (a : arr) : bounds_ok n lo hi -> bounds_in n B lo hi ->
  Forall (StockAll.within n lo hi) (a_rows a) -> cells_in B a.
Proof.
  intros (_ & _ & Hok) HB H. unfold cells_in. eapply Forall_impl; [|exact H]. intros r [Hl Hr].
  apply Forall_forall. intros c Hc. apply In_nth_error in Hc as [j Hj].
  assert (Hjn : (j < n)%nat) by (rewrite <- Hl; apply nth_error_Some; congruence).
  destruct (Hr j Hjn) as (x & l & h & Hx & Bl & Bh & L1 & L2). assert (E : c = CF x) by congruence. subst c.
  exists x. split; [reflexivity|]. destruct (Hok j l h Hjn Bl Bh) as (Fl & Fh & _ & _).
  pose proof (HB j l Hjn (or_introl Bl)) as B1. pose proof (HB j h Hjn (or_intror Bh)) as B2.
  assert (Fx : isfin x = true).
  { destruct x as [s|s| |s m e K]; try reflexivity; [|destruct l as [sl|sl| |sl ml el Kl]; discriminate L1].
    exfalso. destruct s; [destruct l as [sl|sl| |sl ml el Kl]; try discriminate Fl; discriminate L1|destruct h as [sl|sl| |sl ml el Kl]; try discriminate Fh; discriminate L2]. }
  split; [exact Fx|]. apply fle_fin in L1; [|exact Fl|exact Fx]. apply fle_fin in L2; [|exact Fx|exact Fh].
  revert B1 B2. unfold Rabs. repeat destruct Rcase_abs; intros; lra.
Qed.

Section Start.
Context {X W : Type}.
Variable E : env X W.

Lemma first_cells A g lo hi (o0 o : optimiser X) cost a ftol out w r s B :
  construct E A g = Ok o0 -> used E o0 o -> start_bounds A = Some (lo, hi) -> unif_ok (e_rng E) ->
  (1 <= g_nvars g)%Z -> g_init_data g = None -> bounds_ok (Z.to_nat (g_nvars g)) lo hi -> bounds_in (Z.to_nat (g_nvars g)) B lo hi ->
  run_in E a o cost ftol out w = (Ok r, s) ->
  forall gen vals, nth_error (gens (s_tr s)) 0 = Some (gen, vals) -> cells_in B gen.
Proof.
  intros Hc U Hs Hu Hn Hi Hb HB Hr gen vals Hg.
  destruct (first_within E _ _ _ _ _ _ _ _ _ _ _ _ _ Hc U Hs Hu Hn Hi Hb Hr) as (g0 & v0 & rest & Eg & Hw).
  rewrite Eg in Hg. cbn [nth_error] in Hg. assert (Eq : g0 = gen) by congruence. subst g0. eapply within_cells; eassumption.
Qed.

Lemma umdac_finite_bounds g lo hi lf wn (o0 o : optimiser X) cost a ftol out w r s t e B0 Zb :
  construct E (UMDAc lo hi None lf wn) g = Ok o0 -> used E o0 o -> run_in E a o cost ftol out w = (Ok r, s) ->
  (forall l, added l (e_sum E l)) -> sum_ok (e_sum E) -> argsort_ok (e_argsort E) ->
  unif_ok (e_rng E) -> gauss_within Zb (e_rng E) -> 1 <= Zb -> bpow radix2 (-500) <= B0 ->
  int_times (g_size_gen g) (g_alpha g) = Ok t -> (1 <= t <= 2 ^ 40)%Z ->
  int_times (g_size_gen g) (g_elite_factor g) = Ok e -> (0 <= e)%Z ->
  isfin lf = true -> Rabs (B2R lf) <= B0 -> noise_small wn Zb B0 ->
  (1 <= g_nvars g)%Z -> g_init_data g = None -> bounds_ok (Z.to_nat (g_nvars g)) lo hi -> bounds_in (Z.to_nat (g_nvars g)) B0 lo hi ->
  forall k gen vals, nth_error (gens (s_tr s)) k = Some (gen, vals) ->
  B0 * (3 * (1 + Zb)) ^ k <= bpow radix2 400 -> cells_in (B0 * (3 * (1 + Zb)) ^ k) gen.
Proof.
  intros Hc U Hr Had Hso Has Hu Hz HZ HB0 Ht Ht1 He He0 Fl Hl Hno Hn Hi Hb HB.
  apply (umdac_finite E g lo hi None lf wn o0 o cost a ftol out w r s t e B0 Zb); try assumption.
  - intros d Hd. congruence.
  - eapply first_cells; try eassumption. reflexivity.
Qed.

Lemma pbil_finite_bounds g lo hi lf wn (o0 o : optimiser X) cost a ftol out w r s e B0 Zb :
  construct E (PBIL lo hi None lf wn) g = Ok o0 -> used E o0 o -> run_in E a o cost ftol out w = (Ok r, s) ->
  (forall l, added l (e_sum E l)) -> sum_ok (e_sum E) -> argsort_ok (e_argsort E) ->
  unif_ok (e_rng E) -> gauss_within Zb (e_rng E) -> 1 <= Zb -> bpow radix2 (-500) <= B0 ->
  (1 <= g_size_gen g <= 2 ^ 40)%Z ->
  int_times (g_size_gen g) (g_elite_factor g) = Ok e -> (0 <= e)%Z ->
  isfin (num_to_f (g_alpha g)) = true -> 0 <= B2R (num_to_f (g_alpha g)) <= 1 ->
  isfin lf = true -> Rabs (B2R lf) <= B0 -> noise_small wn Zb B0 ->
  (1 <= g_nvars g)%Z -> g_init_data g = None -> bounds_ok (Z.to_nat (g_nvars g)) lo hi -> bounds_in (Z.to_nat (g_nvars g)) B0 lo hi ->
  forall k gen vals, nth_error (gens (s_tr s)) k = Some (gen, vals) ->
  B0 * (3 * (3 + Zb)) ^ k <= bpow radix2 400 -> cells_in (B0 * (3 * (3 + Zb)) ^ k) gen.
Proof.
  intros Hc U Hr Had Hso Has Hu Hz HZ HB0 Hg1 He He0 Fa Ha Fl Hl Hno Hn Hi Hb HB.
  apply (pbil_finite E g lo hi None lf wn o0 o cost a ftol out w r s e B0 Zb); try assumption.
  - intros d Hd. congruence.
  - eapply first_cells; try eassumption. reflexivity.
Qed.

End Start.
