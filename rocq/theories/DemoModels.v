(** Concrete generators and data sets for the examples beside the model theorems. *)
From Coq Require Import String List ZArith Bool Lia Reals Lra.
From Flocq Require Import Core IEEE754.BinarySingleNaN.
From Verif Require Import PyBase B64 B64More NdArray Rand RandThms Models Inits ModelThms Kahan CatThms ModelMore InitThms InitGauss.
Import ListNotations.
Open Scope nat_scope.

(** Every raw draw is the same. *)
Definition const_rng (u z : f64) (k : nat) : rng unit := {|
  g_unif := fun _ _ w => (fun _ _ => u, w);
  g_gauss := fun _ _ w => (fun _ _ => z, w);
  g_pick := fun n _ w => (fun _ => k mod n, w);
  g_mvn := fun _ _ _ w => (Ok (fun _ _ => z), w)
|}.

Lemma const_unif_ok u z k : fle (Z2f 0) u = true -> flt u fone = true -> unif_ok (const_rng u z k).
Proof. intros H0 H1 r c w i j. cbn. auto. Qed.
Lemma const_pick_ok u z k : pick_ok (const_rng u z k).
Proof. intros n c w i Hn. apply Nat.mod_upper_bound. lia. Qed.

Definition half : f64 := lit 1 (-1).
Definition quarter : f64 := lit 1 (-2).
Definition three_quarters : f64 := lit 3 (-2).
Definition demo_rng : rng unit := const_rng half (Z2f 2) 1.
Lemma demo_unif_ok : unif_ok demo_rng. Proof. apply const_unif_ok; vm_compute; reflexivity. Qed.
Lemma demo_pick_ok : pick_ok demo_rng. Proof. apply const_pick_ok. Qed.

(** Three rows of two bits. *)
Definition demo_bits : arr := mkArr DInt 2 [[CI 1; CI 0]; [CI 1; CI 1]; [CI 1; CI 0]].
Lemma demo_bits_ok : Forall (bit_row 2) (a_rows demo_bits).
Proof. unfold bit_row, bit. repeat (apply Forall_cons || apply Forall_nil || split); cbn; auto. Qed.

Definition demo_unibin : unibin := mkUB 2 quarter three_quarters [half; half].
Lemma demo_unibin_made : unibin_made 2 three_quarters quarter demo_unibin.
Proof. split; [vm_compute; reflexivity|repeat split]. Qed.

(** Three rows of two strings. *)
Definition demo_cats : arr := mkArr DObj 2 [[CS "a"; CS "x"]; [CS "b"; CS "x"]; [CS "a"; CS "y"]].
Lemma demo_cats_discrete j : j < a_nc demo_cats -> discrete (column j (a_rows demo_cats)).
Proof.
  cbn. intros H. left. destruct j as [|[|j]]; [| |lia]; cbn; repeat constructor.
Qed.

(** Frequencies [1/2, 1/2, 0] for three categories. *)
Definition demo_values : list (list cell) := [[CS "a"; CS "b"; CS "c"]].
Definition demo_freq : list (list f64) := [[half; half; Z2f 0]].

Lemma prob_check x : fle (Z2f 0) x && fle x fone = true -> prob x.
Proof. intros H. apply andb_true_iff in H. exact H. Qed.

Lemma demo_category j v f : nth_error demo_values j = Some v -> nth_error demo_freq j = Some f -> category v f.
Proof.
  destruct j as [|[|j]]; cbn [nth_error demo_values demo_freq]; intros H1 H2; try discriminate. injection H1 as <-. injection H2 as <-.
  split; [left; repeat constructor|]. split; [|cbn; lia].
  repeat constructor; vm_compute; reflexivity.
Qed.

Lemma lit_R (m e : Z) (x : R) : (Z.abs m <= 2 ^ 53)%Z -> (-1000 <= e <= 0)%Z -> x = (IZR m * bpow radix2 e)%R -> B2R (lit m e) = x /\ isfin (lit m e) = true.
Proof.
  intros Hm He ->. pose proof (binary_normalize_correct 53 1024 eq_refl eq_refl mode_NE m e false) as H. cbv zeta in H.
  assert (Fm : generic_format radix2 (SpecFloat.fexp 53 1024) (F2R (Float radix2 m e))).
  { destruct (Z.eq_dec (Z.abs m) (2 ^ 53)) as [E|E].
    - assert (m = 2 ^ 53 \/ m = - 2 ^ 53)%Z as [-> | ->] by lia.
      + unfold F2R. cbn [Fnum Fexp]. change (IZR (2 ^ 53)) with (bpow radix2 53). rewrite <- bpow_plus. apply generic_format_bpow.
        unfold SpecFloat.fexp, SpecFloat.emin. lia.
      + unfold F2R. cbn [Fnum Fexp]. replace (IZR (- 2 ^ 53) * bpow radix2 e)%R with (- bpow radix2 (53 + e))%R.
        * apply generic_format_opp, generic_format_bpow. unfold SpecFloat.fexp, SpecFloat.emin. lia.
        * rewrite bpow_plus. change (IZR (- 2 ^ 53)) with (- bpow radix2 53)%R. ring.
    - apply generic_format_FLT. exists (Float radix2 m e); [reflexivity|cbn [Fnum]; change (radix2 ^ 53)%Z with (2 ^ 53)%Z; lia|cbn [Fexp]; unfold SpecFloat.emin; lia]. }
  rewrite round_generic in H; [|apply valid_rnd_N|exact Fm].
  rewrite Rlt_bool_true in H.
  - destruct H as (H1 & H2 & _). split; [exact H1|exact H2].
  - unfold F2R. cbn [Fnum Fexp]. rewrite Rabs_mult. rewrite (Rabs_pos_eq (bpow radix2 e)) by apply bpow_ge_0.
    rewrite <- abs_IZR. apply Rle_lt_trans with (IZR (2 ^ 53) * bpow radix2 0)%R.
    + apply Rmult_le_compat; [apply IZR_le; lia|apply bpow_ge_0|apply IZR_le; lia|apply bpow_le; lia].
    + rewrite Rmult_1_r. change (IZR (2 ^ 53)) with (bpow radix2 53). apply bpow_lt. lia.
Qed.

Lemma demo_freq_near j f : nth_error demo_freq j = Some f -> (Rabs (real_sum f - 1) <= bpow radix2 (-28))%R.
Proof.
  destruct j as [|[|j]]; cbn [nth_error demo_freq]; intros H; try discriminate. assert (E : f = [half; half; Z2f 0]) by congruence. subst f. cbn [real_sum fold_right].
  unfold half. destruct (lit_R 1 (-1) (/ 2)) as [-> _]; [cbn; lia|lia|cbn; lra|]. rewrite Z2f_0_R.
  replace (/ 2 + (/ 2 + (0 + 0)) - 1)%R with 0%R by lra. rewrite Rabs_R0. apply bpow_ge_0.
Qed.

Lemma moderate_Z z : (Z.abs z <= 2 ^ 53)%Z -> moderate (Z2f z).
Proof.
  intros H. destruct (Z2f_exact z H) as [R F]. split; [exact F|]. rewrite R, <- abs_IZR.
  apply Rle_trans with (IZR (2 ^ 53)); [apply IZR_le, H|]. change (IZR (2 ^ 53)) with (bpow radix2 53). apply bpow_le. lia.
Qed.
