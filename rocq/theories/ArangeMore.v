(** Random Gaussian initialisers: every pair of vectors can come out, and when the constructors refuse the bounds. *)
From Coq Require Import String List ZArith Bool Lia Reals Lra.
From Flocq Require Import Core IEEE754.BinarySingleNaN.
From Verif Require Import PyBase B64 B64More NdArray Rand RandThms Models Inits InitThms InitGauss Arange.
Import ListNotations.
Open Scope R_scope.

(** A generator whose first pick is [f] and whose later ones are [d]. *)
Definition pick_pair (f d : nat -> nat) : rng bool :=
  mkRng (fun _ _ w => (fun _ _ => fzero, w)) (fun _ _ w => (fun _ _ => fzero, w))
    (fun n _ w => (fun i => Nat.min (if w : bool then d i else f i) (Nat.pred n), true)) (fun _ _ _ w => (Ok (fun _ _ => fzero), w)).

Lemma pick_pair_ok f d : pick_ok (pick_pair f d).
Proof. intros n k w i Hn. cbn. lia. Qed.

Lemma pair_choice {A} (f d : nat -> nat) (l : list A) k (w : bool) : (0 < List.length l)%nat ->
  exists out, np_choice_any (pick_pair f d) l k w = (Ok out, true) /\
    forall i, (i < k)%nat -> ((if w then d i else f i) < List.length l)%nat -> nth_error out i = nth_error l (if w then d i else f i).
Proof.
  intros Hl. unfold np_choice_any. destruct (Nat.eqb (List.length l) 0) eqn:E; [apply Nat.eqb_eq in E; lia|]. cbn [andb]. cbv beta iota zeta. cbn [g_pick pick_pair].
  set (p := fun i => Nat.min (if w then d i else f i) (Nat.pred (List.length l))).
  destruct (gather_in_range (tabulate k p) l) as [out Hout].
  { apply Forall_tabulate. intros i _. unfold p. lia. }
  exists out. rewrite Hout. split; [reflexivity|]. intros i Hi Hf. apply gather_ok_Forall2 in Hout.
  destruct (F2_nth _ _ _ Hout i (p i)) as (x & Hx & Hy); [apply (nth_error_tabulate k p), Hi|].
  rewrite Hx, <- Hy. f_equal. unfold p. lia.
Qed.

Lemma stds_quarters lo hi : small lo -> small hi ->
  quarters (Z.abs lo) (fabs (fquarter (Z2f lo))) /\ quarters (Z.abs (2 * hi)) (fabs (fhalf (Z2f hi))).
Proof.
  unfold small. intros Hl Hh. split; [apply quarters_abs, (quarters_div lo 4 lo); lia|apply quarters_abs, (quarters_div hi 2 (2 * hi)); lia].
Qed.

Lemma unigauss_pairs n lo hi (f : nat -> Z) (d : nat -> nat) : small lo -> small hi -> (0 <= n)%Z ->
  (forall i, lo <= f i <= hi)%Z -> (forall i, Z.abs lo + 4 * Z.of_nat (d i) < 2 * Z.abs hi)%Z ->
  exists (g : rng bool) i, pick_ok g /\ unigauss_init_new g n [] [] (Z2f lo) (Z2f hi) false = (Ok i, true) /\
    forall k, (k < Z.to_nat n)%nat ->
      (exists x, nth_error (gi_means i) k = Some x /\ isfin x = true /\ B2R x = IZR (f k)) /\
      exists x, nth_error (gi_stds i) k = Some x /\ isfin x = true /\ B2R x = Rabs (IZR lo) / 4 + INR (d k).
Proof.
  intros Hl Hh Hn Hf Hd. destruct (stds_quarters lo hi Hl Hh) as [Q1 Q2].
  set (p := fun i => Z.to_nat (f i - lo)).
  destruct (grid_arange lo hi (f 0%nat) Hl Hh (Hf 0%nat)) as [L0 _].
  destruct (pair_choice p d (arange_f (Z2f lo) (fadd (Z2f hi) fone)) (Z.to_nat n) false ltac:(lia)) as (ms & E1 & Hms).
  assert (Sm : (Z.abs (Z.abs lo) < 2 ^ 51)%Z /\ (Z.abs (Z.abs (2 * hi)) < 2 ^ 51)%Z) by (unfold small in *; lia). destruct Sm as [S1 S2].
  destruct (arange_nth _ _ _ _ (d 0%nat) Q1 Q2 S1 S2) as [L1 _]; [specialize (Hd 0%nat); lia|].
  destruct (pair_choice p d (arange_f (fabs (fquarter (Z2f lo))) (fabs (fhalf (Z2f hi)))) (Z.to_nat n) true ltac:(lia)) as (ss & E2 & Hss).
  exists (pick_pair p d), (mkGI n ms ss). split; [apply pick_pair_ok|]. split.
  - unfold unigauss_init_new. cbn [List.length Nat.eqb negb]. destruct (Z.ltb_spec n 0); [lia|]. rewrite E1, E2. reflexivity.
  - intros k Hk. cbn [gi_means gi_stds]. split.
    + destruct (grid_arange lo hi (f k) Hl Hh (Hf k)) as (L & x & Hx & Fx & Rx).
      exists x. split; [rewrite (Hms k Hk L); exact Hx|]. split; [exact Fx|exact Rx].
    + destruct (arange_nth _ _ _ _ (d k) Q1 Q2 S1 S2) as (L & x & Hx & Fx & Rx); [specialize (Hd k); lia|].
      exists x. split; [rewrite (Hss k Hk L); exact Hx|]. split; [exact Fx|].
      rewrite Rx, plus_IZR, mult_IZR, <- INR_IZR_INZ, abs_IZR. lra.
Qed.

(** Nothing to draw from. *)
Lemma no_means lo hi : small lo -> small hi -> (hi < lo)%Z -> arange_f (Z2f lo) (fadd (Z2f hi) fone) = [].
Proof.
  intros Hl Hh H. destruct (arange_f _ _) as [|x l] eqn:E; [reflexivity|].
  destruct (arange_grid lo hi x Hl Hh) as (z & Hz & _); [rewrite E; left; reflexivity|lia].
Qed.
Lemma no_stds lo hi : small lo -> small hi -> (2 * Z.abs hi <= Z.abs lo)%Z -> arange_f (fabs (fquarter (Z2f lo))) (fabs (fhalf (Z2f hi))) = [].
Proof.
  intros Hl Hh H. destruct (stds_quarters lo hi Hl Hh) as [Q1 Q2].
  assert (Sm : (Z.abs (Z.abs lo) < 2 ^ 51)%Z /\ (Z.abs (Z.abs (2 * hi)) < 2 ^ 51)%Z) by (unfold small in *; lia). destruct Sm as [S1 S2].
  destruct (arange_f _ _) as [|x l] eqn:E; [reflexivity|].
  destruct (arange_quarters _ _ _ _ x Q1 Q2 S1 S2) as (i & Hi & _); [rewrite E; left; reflexivity|lia].
Qed.

Lemma unigauss_refused {W} (g : rng W) n lo hi w : pick_ok g -> small lo -> small hi -> (1 <= n)%Z ->
  (hi < lo)%Z \/ (2 * Z.abs hi <= Z.abs lo)%Z ->
  fst (unigauss_init_new g n [] [] (Z2f lo) (Z2f hi) w) = Raise ValueError.
Proof.
  intros Hg Hl Hh Hn H. unfold unigauss_init_new. cbn [List.length Nat.eqb negb]. destruct (Z.ltb_spec n 0); [lia|].
  destruct (Z_lt_le_dec hi lo) as [C|C]; [rewrite (no_means lo hi Hl Hh C), choice_any_empty by lia; reflexivity|].
  destruct H as [H|H]; [lia|].
  destruct (grid_arange lo hi lo Hl Hh ltac:(lia)) as [L0 _].
  destruct (choice_any_total g (arange_f (Z2f lo) (fadd (Z2f hi) fone)) (Z.to_nat n) w Hg) as (ms & w1 & Hms & _).
  { left. intros E. rewrite E in L0. cbn in L0. lia. }
  rewrite Hms, (no_stds lo hi Hl Hh H), choice_any_empty by lia. reflexivity.
Qed.

Lemma mgauss_refused {W} (g : rng W) n lo hi w : small lo -> small hi -> (1 <= n)%Z -> (hi < lo)%Z ->
  fst (mgauss_init_new g n [] [] (Z2f lo) (Z2f hi) w) = Raise ValueError.
Proof.
  intros Hl Hh Hn H. unfold mgauss_init_new. cbn [List.length Nat.eqb negb]. destruct (Z.ltb_spec n 0); [lia|]. cbv zeta.
  rewrite (no_means lo hi Hl Hh H), choice_any_empty by lia. reflexivity.
Qed.
