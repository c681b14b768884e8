(** Facts about Latin hypercube sampling. *)
From Coq Require Import List ZArith Bool Permutation Lia Reals Lra.
From Flocq Require Import Core IEEE754.BinarySingleNaN.
From Verif Require Import PyBase B64 B64More NdArray Rand RandThms Models Inits ModelThms CatThms Interval InitThms InitGauss Lhs.
Import ListNotations.
Open Scope nat_scope.

(** The point at the fraction [v] of the way from [l] to [h], in double arithmetic. *)
Definition stretch (l h v : f64) : f64 := fadd (fmul v (fsub h l)) l.

(** The [k]-th of the points that cut the range from [l] to [h] into [m] equal parts, in double
    arithmetic; the 0-th is [l]. *)
Definition edge (l h : f64) (m : Z) (k : nat) : f64 := stretch l h (fdiv (Z2f (Z.of_nat k)) (Z2f m)).

Section Stretch.
Local Open Scope R_scope.

Lemma moderate_diff (l h : f64) : moderate l -> moderate h -> fle l h = true ->
  isfin (fsub h l) = true /\ B2R (fsub h l) = rnd (B2R h - B2R l) /\ 0 <= B2R (fsub h l) <= bpow radix2 1001.
Proof.
  intros [Fl Bl] [Fh Bh] Hle. apply (fle_fin _ _ Fl Fh) in Hle.
  assert (E : bpow radix2 1001 = 2 * bpow radix2 1000) by (change 2 with (bpow radix2 1); rewrite <- bpow_plus; reflexivity).
  assert (A : Rabs (B2R h - B2R l) <= bpow radix2 1001).
  { rewrite E. unfold Rminus. eapply Rle_trans; [apply Rabs_triang|]. rewrite Rabs_Ropp. lra. }
  assert (B : Rabs (rnd (B2R h - B2R l)) <= bpow radix2 1001) by (apply rnd_bpow_le; [lia|exact A]).
  assert (C : bpow radix2 1001 < big) by (unfold big; apply bpow_lt; lia).
  destruct (fsub_fin h l Fh Fl) as [F R]; [lra|].
  split; [exact F|]. split; [exact R|]. rewrite R. split; [apply rnd_ge_0; lra|].
  pose proof (Rle_abs (rnd (B2R h - B2R l))). lra.
Qed.

Lemma stretch_R (l h v : f64) : moderate l -> moderate h -> fle l h = true -> isfin v = true -> 0 <= B2R v <= 1 ->
  isfin (stretch l h v) = true /\ B2R (stretch l h v) = rnd (rnd (B2R v * B2R (fsub h l)) + B2R l).
Proof.
  intros Ml Mh Hle Fv Hv. destruct (moderate_diff l h Ml Mh Hle) as (Fd & Rd & Hd).
  set (d := fsub h l) in *.
  assert (C : bpow radix2 1001 < big) by (unfold big; apply bpow_lt; lia).
  assert (P0 : 0 <= B2R v * B2R d) by (apply Rmult_le_pos; lra).
  assert (P1 : B2R v * B2R d <= B2R d) by (rewrite <- (Rmult_1_l (B2R d)) at 2; apply Rmult_le_compat_r; lra).
  assert (Q0 := rnd_ge_0 _ P0). assert (Q1 := rnd_le_B2R _ d P1).
  destruct (fmul_fin v d Fv Fd) as [Fm Rm]; [rewrite Rabs_pos_eq by exact Q0; lra|].
  destruct Ml as [Fl Bl].
  assert (E : bpow radix2 1002 = 2 * bpow radix2 1001) by (change 2 with (bpow radix2 1); rewrite <- bpow_plus; reflexivity).
  assert (E' : bpow radix2 1001 = 2 * bpow radix2 1000) by (change 2 with (bpow radix2 1); rewrite <- bpow_plus; reflexivity).
  assert (S : Rabs (B2R (fmul v d) + B2R l) <= bpow radix2 1002).
  { eapply Rle_trans; [apply Rabs_triang|]. rewrite Rm. rewrite (Rabs_pos_eq (rnd _)) by exact Q0. pose proof (bpow_gt_0 radix2 1000). lra. }
  assert (C2 : bpow radix2 1002 < big) by (unfold big; apply bpow_lt; lia).
  destruct (fadd_fin (fmul v d) l Fm Fl) as [Fs Rs].
  { eapply Rle_lt_trans; [apply rnd_bpow_le; [|exact S]; lia|exact C2]. }
  unfold stretch. fold d. split; [exact Fs|]. rewrite Rs, Rm. reflexivity.
Qed.

Lemma stretch_le (l h v v' : f64) : moderate l -> moderate h -> fle l h = true ->
  isfin v = true -> isfin v' = true -> 0 <= B2R v -> B2R v <= B2R v' -> B2R v' <= 1 ->
  fle (stretch l h v) (stretch l h v') = true.
Proof.
  intros Ml Mh Hle Fv Fv' H0 H1 H2. destruct (moderate_diff l h Ml Mh Hle) as (_ & _ & Hd & _).
  destruct (stretch_R l h v) as [F R]; try assumption; [lra|].
  destruct (stretch_R l h v') as [F' R']; try assumption; [lra|].
  apply fle_fin; [exact F|exact F'|]. rewrite R, R'. apply rnd_le, Rplus_le_compat_r, rnd_le, Rmult_le_compat_r; assumption.
Qed.

(** The lowest edge is the lower bound. *)
Lemma stretch_0 (l h v : f64) : moderate l -> moderate h -> fle l h = true -> isfin v = true -> B2R v = 0 ->
  feq (stretch l h v) l = true.
Proof.
  intros Ml Mh Hle Fv H. destruct (stretch_R l h v) as [F R]; try assumption; [lra|].
  apply feq_fin; [exact F|apply Ml|]. rewrite R, H, Rmult_0_l, rnd_0, Rplus_0_l. apply rnd_B2R.
Qed.

(** Below the top the upper bound holds. *)
Lemma stretch_below (l h v : f64) : moderate l -> moderate h -> fle l h = true ->
  fle (Z2f 0) v = true -> flt v fone = true -> fle (stretch l h v) h = true.
Proof.
  intros Ml Mh Hle H0 H1. destruct (unit_R v H0 H1) as [Fv [V0 V1]].
  destruct (moderate_diff l h Ml Mh Hle) as (Fd & Rd & Hd).
  destruct (stretch_R l h v) as [F R]; try assumption; [lra|].
  destruct (affine_between l h v (proj1 Ml) (proj1 Mh) Hle Fd H0 H1) as (Fa & _ & B).
  apply (fle_fin _ _ Fa (proj1 Mh)) in B.
  assert (E : B2R (stretch l h v) = B2R (fadd l (fmul (fsub h l) v))); [|apply fle_fin; [exact F|apply Mh|rewrite E; exact B]].
  rewrite R. unfold fadd at 1 in Fa. rewrite (fmul_comm (fsub h l) v) in *.
  assert (P0 : 0 <= B2R v * B2R (fsub h l)) by (apply Rmult_le_pos; lra).
  assert (P1 : B2R v * B2R (fsub h l) <= B2R (fsub h l)) by (rewrite <- (Rmult_1_l (B2R (fsub h l))) at 2; apply Rmult_le_compat_r; lra).
  assert (C : bpow radix2 1001 < big) by (unfold big; apply bpow_lt; lia).
  destruct (fmul_fin v (fsub h l) Fv Fd) as [Fm Rm].
  { rewrite Rabs_pos_eq by (apply rnd_ge_0, P0). apply rnd_le_B2R in P1. lra. }
  destruct (fadd_fin l (fmul v (fsub h l)) (proj1 Ml) Fm) as [_ R2].
  { rewrite Rplus_comm, Rm, <- R. pose proof (B2R_lt_big (stretch l h v)). apply Rabs_def1; lra. }
  rewrite R2, Rm, Rplus_comm. reflexivity.
Qed.
End Stretch.

(** ** The sampled fractions *)
Section Fraction.
Local Open Scope R_scope.
Variables (k : nat) (m : Z) (u : f64).
Hypotheses (Hk : (k < Z.to_nat m)%nat) (Hm : (0 < m <= 2 ^ 53)%Z) (U0 : fle (Z2f 0) u = true) (U1 : flt u fone = true).
Let v := fdiv (fsub (Z2f (Z.of_nat (S k))) u) (Z2f m).

Lemma cut_R (i : nat) : (i <= Z.to_nat m)%nat ->
  isfin (fdiv (Z2f (Z.of_nat i)) (Z2f m)) = true /\ B2R (fdiv (Z2f (Z.of_nat i)) (Z2f m)) = rnd (INR i / IZR m) /\
  0 <= B2R (fdiv (Z2f (Z.of_nat i)) (Z2f m)) <= 1.
Proof.
  intros Hi. destruct (Z2f_exact (Z.of_nat i)) as [Ri Fi]; [lia|]. destruct (Z2f_exact m) as [Rm Fm]; [lia|].
  assert (M : 0 < IZR m) by (apply IZR_lt; lia).
  assert (I : 0 <= INR i <= IZR m).
  { rewrite INR_IZR_INZ. split; [apply IZR_le; lia|apply IZR_le; lia]. }
  assert (Q : 0 <= INR i / IZR m <= 1).
  { split; [apply Rmult_le_pos; [lra|apply Rlt_le, Rinv_0_lt_compat, M]|]. apply Rmult_le_reg_r with (IZR m); [exact M|].
    unfold Rdiv. rewrite Rmult_assoc, Rinv_l by lra. lra. }
  assert (Q0 : 0 <= rnd (INR i / IZR m)) by (apply rnd_ge_0; lra).
  assert (Q1 : rnd (INR i / IZR m) <= 1) by (apply rnd_le_Z; [lia|lra]).
  destruct (fdiv_fin (Z2f (Z.of_nat i)) (Z2f m) Fi) as [F R]; [lra| |].
  { rewrite Ri, Rm, <- INR_IZR_INZ. rewrite Rabs_pos_eq by exact Q0. pose proof big_gt_2_53. assert (1 < IZR (2 ^ 53)) by (apply IZR_lt; lia). lra. }
  split; [exact F|]. rewrite R, Ri, Rm, <- INR_IZR_INZ. split; [reflexivity|]. split; assumption.
Qed.

Lemma fraction_R : isfin v = true /\
  B2R (fdiv (Z2f (Z.of_nat k)) (Z2f m)) <= B2R v <= B2R (fdiv (Z2f (Z.of_nat (S k))) (Z2f m)).
Proof.
  destruct (unit_R u U0 U1) as [Fu [u0 u1]].
  destruct (Z2f_exact (Z.of_nat (S k))) as [Rk Fk]; [lia|]. destruct (Z2f_exact m) as [Rm Fm]; [lia|].
  assert (M : 0 < IZR m) by (apply IZR_lt; lia).
  assert (Ek : IZR (Z.of_nat (S k)) = INR k + 1) by (rewrite <- INR_IZR_INZ, S_INR; reflexivity).
  pose proof (pos_INR k) as K0.
  assert (S0 : INR k <= rnd (IZR (Z.of_nat (S k)) - B2R u)).
  { rewrite INR_IZR_INZ. apply Z_le_rnd; [lia|]. rewrite Ek, <- INR_IZR_INZ. lra. }
  assert (S1 : rnd (IZR (Z.of_nat (S k)) - B2R u) <= IZR (Z.of_nat (S k))) by (apply rnd_le_Z; [lia|lra]).
  assert (Kb : IZR (Z.of_nat (S k)) < big).
  { pose proof big_gt_2_53. assert (IZR (Z.of_nat (S k)) <= IZR (2 ^ 53)) by (apply IZR_le; lia). lra. }
  destruct (fsub_fin (Z2f (Z.of_nat (S k))) u Fk Fu) as [Fs Rs].
  { rewrite Rk. rewrite Rabs_pos_eq by lra. lra. }
  rewrite Rk in Rs.
  destruct (cut_R k) as (_ & Ck & Bk); [lia|]. destruct (cut_R (S k)) as (_ & Ck' & Bk'); [lia|].
  assert (D0 : rnd (INR k / IZR m) <= rnd (B2R (fsub (Z2f (Z.of_nat (S k))) u) / IZR m)).
  { apply rnd_le. apply Rmult_le_compat_r; [apply Rlt_le, Rinv_0_lt_compat, M|]. rewrite Rs. exact S0. }
  assert (D1 : rnd (B2R (fsub (Z2f (Z.of_nat (S k))) u) / IZR m) <= rnd (INR (S k) / IZR m)).
  { apply rnd_le. apply Rmult_le_compat_r; [apply Rlt_le, Rinv_0_lt_compat, M|]. rewrite Rs, S_INR, <- Ek. exact S1. }
  destruct (fdiv_fin (fsub (Z2f (Z.of_nat (S k))) u) (Z2f m) Fs) as [Fv Rv]; [lra| |].
  { rewrite Rm. rewrite Rabs_pos_eq by lra. pose proof big_gt_2_53. assert (1 < IZR (2 ^ 53)) by (apply IZR_lt; lia). lra. }
  fold v in Fv, Rv. split; [exact Fv|]. rewrite Ck, Ck', Rv, Rm. split; assumption.
Qed.
End Fraction.

(** ** The samples *)

Lemma some_entry_false nr nc f s : (forall i j, i < nr -> j < nc -> f (s i j) = false) -> some_entry nr nc f s = false.
Proof.
  intros H. unfold some_entry. destruct (existsb _ _) eqn:E; [|reflexivity]. exfalso.
  apply existsb_exists in E. destruct E as (i & Hi & E). apply existsb_exists in E. destruct E as (j & Hj & E).
  apply in_seq in Hi, Hj. rewrite H in E by lia. discriminate.
Qed.

(** Bounds which are given for all variables, finite, far from overflow, and in order. *)
Definition range_ok (n : nat) (lo hi : bound) : Prop :=
  full_bound n lo /\ full_bound n hi /\
  forall j l h, j < n -> bound_of lo j l -> bound_of hi j h -> moderate l /\ moderate h /\ flt l h = true.

Section Draw.
Context {W : Type}.
Variables (q : qmc_source W) (n : nat) (lo hi : bound) (u : uniform_init) (size : Z).
Hypotheses (Hu : q_unif_ok q) (Hp : q_shuffle_ok q).
Hypotheses (Hnew : lhs_new (Z.of_nat n) lo hi = Ok u) (Hr : range_ok n lo hi) (Hn : 0 < n) (Hs : (0 < size <= 2 ^ 53)%Z).

Lemma lhs_new_fields : ui_n u = Z.of_nat n /\ ui_lo u = lo /\ ui_hi u = hi.
Proof.
  unfold lhs_new in Hnew. destruct (negb _); [discriminate|]. destruct (negb _); [discriminate|].
  assert (E : u = mkUI (Z.of_nat n) lo hi) by congruence. rewrite E. auto.
Qed.

Lemma qmc_scale_ok s : (forall i j, i < Z.to_nat size -> j < n -> flt fone (s i j) = false /\ flt (s i j) (Z2f 0) = false) ->
  qmc_scale (Z.to_nat size) n s lo hi = Ok (float_arr (Z.to_nat size) n (fun i j => stretch (bound_at lo j) (bound_at hi j) (s i j))).
Proof.
  intros H. destruct Hr as (Hlo & Hhi & Hb). unfold qmc_scale.
  assert (G : (if negb (broadcasts (bound_len lo) n && broadcasts (bound_len hi) n) then Raise ValueError
      else if negb (forallb (fun j => flt (bound_at lo j) (bound_at hi j)) (seq 0 n)) then Raise ValueError
      else if Nat.eqb (Z.to_nat size) 0 || Nat.eqb n 0 then Raise ValueError
      else if some_entry (Z.to_nat size) n (fun x => flt fone x) s || some_entry (Z.to_nat size) n (fun x => flt x (Z2f 0)) s then Raise ValueError
      else Ok (float_arr (Z.to_nat size) n (fun i j => fadd (fmul (s i j) (fsub (bound_at hi j) (bound_at lo j))) (bound_at lo j))))
    = Ok (float_arr (Z.to_nat size) n (fun i j => stretch (bound_at lo j) (bound_at hi j) (s i j)))).
  { rewrite (full_bound_broadcasts n lo Hlo), (full_bound_broadcasts n hi Hhi). cbn [andb negb].
    replace (forallb _ _) with true.
    2:{ symmetry. apply forallb_forall. intros j Hj. apply in_seq in Hj. apply (Hb j); [lia|apply (full_bound_at n); [lia|assumption]..]. }
    cbn [negb]. destruct (Nat.eqb_spec (Z.to_nat size) 0); [lia|]. destruct (Nat.eqb_spec n 0); [lia|]. cbn [orb].
    rewrite !some_entry_false by (intros i j Hi Hj; apply (H i j Hi Hj)). reflexivity. }
  destruct lo, hi; cbn in Hlo, Hhi; try tauto; exact G.
Qed.

(** With post-processing asked for, the plain hypercube is returned. *)
Lemma lhs_latin w : exists a w', lhs_draw q u size true w = (Ok a, w') /\ float_matrix (Z.to_nat size) n a /\
  forall j l h, j < n -> bound_of lo j l -> bound_of hi j h ->
  exists slots, Permutation slots (seq 0 (Z.to_nat size)) /\
    forall i k, nth_error slots i = Some k -> exists x, nth_error (nth i (a_rows a) []) j = Some (CF x) /\
      fle (edge l h size k) x = true /\ fle x (edge l h size (S k)) = true /\ fle l x = true /\
      (fle x h = true \/ S k = Z.to_nat size).
Proof.
  destruct lhs_new_fields as (E1 & E2 & E3). unfold lhs_draw, lhs_sample. rewrite E1, E2, E3, Nat2Z.id.
  unfold latin_hypercube. destruct (Z.ltb_spec (Z.of_nat n) 0); [lia|]. destruct (Z.ltb_spec size 0); [lia|]. cbn [orb].
  rewrite Nat2Z.id. pose proof (Hu (Z.to_nat size) n w) as Hu'. destruct (q_unif q (Z.to_nat size) n w) as [d w1]. cbn [fst] in Hu'.
  pose proof (Hp (Z.to_nat size) n w1) as Hp'. destruct (q_shuffle q (Z.to_nat size) n w1) as [p w2]. cbn [fst] in Hp'.
  set (s := fun i j => fdiv (fsub (Z2f (Z.of_nat (p i j))) (d i j)) (Z2f size)).
  assert (P : forall i j, i < Z.to_nat size -> j < n -> exists k, p i j = S k /\ k < Z.to_nat size).
  { intros i j Hi Hj. assert (I : In (p i j) (seq 1 (Z.to_nat size))).
    { apply (Permutation_in _ (Hp' j Hj)). apply in_map_iff. exists i. split; [reflexivity|apply in_seq; lia]. }
    apply in_seq in I. exists (p i j - 1). lia. }
  assert (V : forall i j k, j < n -> p i j = S k -> k < Z.to_nat size -> isfin (s i j) = true /\
     (B2R (fdiv (Z2f (Z.of_nat k)) (Z2f size)) <= B2R (s i j) <= B2R (fdiv (Z2f (Z.of_nat (S k))) (Z2f size)))%R).
  { intros i j k Hj E Hk. destruct (Hu' i j) as [U0 U1]. unfold s. rewrite E. apply fraction_R; assumption. }
  exists (float_arr (Z.to_nat size) n (fun i j => stretch (bound_at lo j) (bound_at hi j) (s i j))), w2. split; [|split].
  - rewrite qmc_scale_ok; [reflexivity|]. intros i j Hi Hj. destruct (P i j Hi Hj) as (k & E & Hk). destruct (V i j k Hj E Hk) as (F & A & B).
    destruct (cut_R k size) with (i := k) as (_ & _ & C0 & _); [lia..|]. destruct (cut_R k size) with (i := S k) as (_ & _ & _ & C1); [lia..|].
    split; apply fle_flt_false, fle_fin; try exact F; try apply fone_fin; try apply Z2f_0_fin.
    + rewrite fone_R. lra.
    + rewrite Z2f_0_R. lra.
  - apply float_arr_matrix.
  - intros j l h Hj Hl Hh. destruct Hr as (Hlo & Hhi & Hb). destruct (Hb j l h Hj Hl Hh) as (Ml & Mh & Hlt). apply flt_fle in Hlt.
    assert (El : bound_at lo j = l).
    { pose proof (full_bound_at n lo j Hj Hlo) as X. destruct lo; cbn [bound_of] in *; [tauto|congruence|congruence]. }
    assert (Eh : bound_at hi j = h).
    { pose proof (full_bound_at n hi j Hj Hhi) as X. destruct hi; cbn [bound_of] in *; [tauto|congruence|congruence]. }
    exists (map (fun i => p i j - 1) (seq 0 (Z.to_nat size))). split.
    + rewrite <- map_map with (f := fun i => p i j) (g := fun r => r - 1). rewrite (Hp' j Hj).
      rewrite <- seq_shift, map_map. erewrite map_ext; [rewrite map_id; reflexivity|]. intros r. cbn. lia.
    + intros i k Hik. assert (Hi : i < Z.to_nat size).
      { assert (X : nth_error (map (fun i => p i j - 1) (seq 0 (Z.to_nat size))) i <> None) by congruence.
        apply nth_error_Some in X. rewrite map_length, seq_length in X. exact X. }
      rewrite nth_error_map, (nth_error_nth' _ 0) in Hik by (rewrite seq_length; exact Hi). rewrite seq_nth in Hik by exact Hi. cbn [option_map] in Hik.
      destruct (P i j Hi Hj) as (k' & E & Hk). assert (k' = k) by (cbn [Nat.add] in Hik; rewrite E in Hik; assert (Y : S k' - 1 = k) by congruence; lia). subst k'. clear Hik.
      rewrite float_arr_nth by assumption. rewrite El, Eh. exists (stretch l h (s i j)). split; [reflexivity|].
      destruct (V i j k Hj E Hk) as (F & A & B).
      destruct (cut_R k size) with (i := k) as (F0 & _ & C0 & _); [lia..|]. destruct (cut_R k size) with (i := S k) as (F1 & R1 & _ & C1); [lia..|].
      assert (L : fle (edge l h size k) (stretch l h (s i j)) = true) by (apply stretch_le; try assumption; lra).
      split; [exact L|]. split; [apply stretch_le; try assumption; lra|]. split.
      * destruct (Z2f_exact 0) as [Z0 FZ]; [lia|].
        assert (G : feq (stretch l h (Z2f 0)) l = true) by (apply stretch_0; assumption).
        rewrite feq_sym in G. apply feq_fle in G. eapply fle_trans; [exact G|]. apply stretch_le; try assumption; lra.
      * destruct (Nat.eq_dec (S k) (Z.to_nat size)) as [Q|Q]; [right; exact Q|left].
        apply stretch_below; try assumption.
        -- apply fle_fin; [apply Z2f_0_fin|exact F|]. rewrite Z2f_0_R. lra.
        -- apply flt_fin; [exact F|apply fone_fin|]. rewrite fone_R. eapply Rle_lt_trans; [exact B|].
           rewrite R1. (* (k+1)/m <= (m-1)/m <= 1 - 2^-53 *)
           destruct (Z2f_exact size) as [Rm Fm]; [lia|].
           assert (M : (0 < IZR size)%R) by (apply IZR_lt; lia).
           assert (X : (INR (S k) / IZR size <= 1 - bpow radix2 (-53))%R).
           { apply Rmult_le_reg_r with (IZR size); [exact M|]. unfold Rdiv. rewrite Rmult_assoc, Rinv_l by lra. rewrite Rmult_1_r.
             assert (Y : (INR (S k) <= IZR size - 1)%R) by (rewrite INR_IZR_INZ, <- minus_IZR; apply IZR_le; lia).
             assert (Z : (bpow radix2 (-53) * IZR size <= 1)%R).
             { replace 1%R with (bpow radix2 (-53) * bpow radix2 53)%R by (rewrite <- bpow_plus; reflexivity).
               apply Rmult_le_compat_l; [apply bpow_ge_0|]. change (bpow radix2 53) with (IZR (2 ^ 53)). apply IZR_le. lia. }
             lra. }
           assert (G : (rnd (INR (S k) / IZR size) <= 1 - bpow radix2 (-53))%R).
           { apply round_le_generic; [exact fe_valid|apply valid_rnd_N| |exact X]. rewrite <- pred_one.
             apply generic_format_pred; [exact fe_valid|]. rewrite <- fone_R. apply B2R_F. }
           pose proof (bpow_gt_0 radix2 (-53)). lra.
Qed.
End Draw.

(** ** Both settings of the flag *)

Lemma some_entry_true nr nc f s i j : i < nr -> j < nc -> f (s i j) = true -> some_entry nr nc f s = true.
Proof.
  intros Hi Hj H. unfold some_entry. apply existsb_exists. exists i. split; [apply in_seq; lia|].
  apply existsb_exists. exists j. split; [apply in_seq; lia|exact H].
Qed.

(** Whatever the sampler returned, the values scale to at least the lower bound and at most the
    image of 1; NaN stays NaN. *)
Lemma lhs_bounds {W} (q : qmc_source W) n lo hi u size post w a w' :
  lhs_new (Z.of_nat n) lo hi = Ok u -> range_ok n lo hi -> lhs_draw q u size post w = (Ok a, w') ->
  float_matrix (Z.to_nat size) n a /\ 0 < n /\ (0 < size)%Z /\
  forall i j l h x, i < Z.to_nat size -> bound_of lo j l -> bound_of hi j h -> j < n ->
    nth_error (nth i (a_rows a) []) j = Some (CF x) -> isnan x = false ->
    fle l x = true /\ fle x (stretch l h fone) = true.
Proof.
  intros Hnew (Hlo & Hhi & Hb). unfold lhs_new in Hnew. destruct (negb _); [discriminate|]. destruct (negb _); [discriminate|].
  assert (Eu : u = mkUI (Z.of_nat n) lo hi) by congruence. subst u. clear Hnew.
  unfold lhs_draw, lhs_sample. cbn [ui_n ui_lo ui_hi]. rewrite Nat2Z.id.
  destruct (latin_hypercube q _ (Z.of_nat n) size w) as [[s|e] w1]; [|discriminate]. intros H.
  assert (Hq : qmc_scale (Z.to_nat size) n s lo hi = Ok a) by congruence. clear H. unfold qmc_scale in Hq.
  set (G := if negb (broadcasts (bound_len lo) n && broadcasts (bound_len hi) n) then Raise ValueError
      else if negb (forallb (fun j => flt (bound_at lo j) (bound_at hi j)) (seq 0 n)) then Raise ValueError
      else if Nat.eqb (Z.to_nat size) 0 || Nat.eqb n 0 then Raise ValueError
      else if some_entry (Z.to_nat size) n (fun x => flt fone x) s || some_entry (Z.to_nat size) n (fun x => flt x (Z2f 0)) s then Raise ValueError
      else Ok (float_arr (Z.to_nat size) n (fun i j => fadd (fmul (s i j) (fsub (bound_at hi j) (bound_at lo j))) (bound_at lo j)))) in Hq.
  assert (HG : G = Ok a) by (destruct lo, hi; cbn in Hlo, Hhi; try tauto; exact Hq). clear Hq. unfold G in HG. clear G.
  destruct (negb _); [discriminate|]. destruct (negb _); [discriminate|].
  destruct (Nat.eqb_spec (Z.to_nat size) 0) as [|Hsz]; [discriminate|]. destruct (Nat.eqb_spec n 0) as [|Hn]; [discriminate|]. cbn [orb] in HG.
  destruct (some_entry (Z.to_nat size) n (fun x => flt fone x) s) eqn:S1; [discriminate|].
  destruct (some_entry (Z.to_nat size) n (fun x => flt x (Z2f 0)) s) eqn:S0; [discriminate|]. cbn [orb] in HG.
  assert (Ea : a = float_arr (Z.to_nat size) n (fun i j => stretch (bound_at lo j) (bound_at hi j) (s i j))) by (unfold stretch; congruence).
  subst a. clear HG. split; [apply float_arr_matrix|]. split; [lia|]. split; [lia|].
  intros i j l h x Hi Hl Hh Hj Hx Nx. rewrite float_arr_nth in Hx by assumption.
  assert (Ex : x = stretch (bound_at lo j) (bound_at hi j) (s i j)) by congruence. clear Hx.
  assert (El : bound_at lo j = l).
  { pose proof (full_bound_at n lo j Hj Hlo) as X. destruct lo; cbn [bound_of] in *; [tauto|congruence|congruence]. }
  assert (Eh : bound_at hi j = h).
  { pose proof (full_bound_at n hi j Hj Hhi) as X. destruct hi; cbn [bound_of] in *; [tauto|congruence|congruence]. }
  rewrite El, Eh in Ex. destruct (Hb j l h Hj Hl Hh) as (Ml & Mh & Hlt). apply flt_fle in Hlt. subst x.
  assert (Nv : isnan (s i j) = false).
  { destruct (isnan (s i j)) eqn:N; [|reflexivity]. exfalso. assert (E : s i j = fnan) by (destruct (s i j); try discriminate; reflexivity).
    rewrite E in Nx. unfold stretch in Nx. assert (fmul fnan (fsub h l) = fnan) by (destruct (fsub h l); reflexivity). rewrite H in Nx. destruct l; discriminate. }
  assert (V1 : fle (s i j) fone = true).
  { apply flt_false_fle; [apply isfin_not_nan, fone_fin|exact Nv|]. destruct (flt fone (s i j)) eqn:E; [|reflexivity].
    rewrite (some_entry_true _ _ (fun x => flt fone x) s i j Hi Hj E) in S1. discriminate. }
  assert (V0 : fle (Z2f 0) (s i j) = true).
  { apply flt_false_fle; [exact Nv|apply isfin_not_nan, Z2f_0_fin|]. destruct (flt (s i j) (Z2f 0)) eqn:E; [|reflexivity].
    rewrite (some_entry_true _ _ (fun x => flt x (Z2f 0)) s i j Hi Hj E) in S0. discriminate. }
  destruct (fle_unit_R _ V0 V1) as (Fv & B0 & B1). split.
  - assert (G : feq (stretch l h (Z2f 0)) l = true) by (apply stretch_0; try assumption; [apply Z2f_0_fin|apply Z2f_0_R]).
    rewrite feq_sym in G. apply feq_fle in G. eapply fle_trans; [exact G|]. apply stretch_le; try assumption; try apply Z2f_0_fin; rewrite Z2f_0_R; lra.
  - apply stretch_le; try assumption; try apply fone_fin; rewrite fone_R; lra.
Qed.

(** Lloyd's algorithm returned a table in the unit cube. *)
Definition lloyd_unit {W} (q : qmc_source W) : Prop :=
  forall r c s, 2 <= c -> exists s', q_lloyd q r c s = Ok s' /\
    forall i j, i < r -> j < c -> fle (Z2f 0) (s' i j) = true /\ fle (s' i j) fone = true.

Lemma lhs_default_ok {W} (q : qmc_source W) n lo hi u size w :
  lloyd_unit q -> lhs_new (Z.of_nat n) lo hi = Ok u -> range_ok n lo hi -> 2 <= n -> (0 < size <= 2 ^ 53)%Z ->
  exists a w', lhs_draw q u size false w = (Ok a, w') /\ float_matrix (Z.to_nat size) n a.
Proof.
  intros Hq Hnew Hr Hn Hs. destruct (lhs_new_fields n lo hi u Hnew) as (E1 & E2 & E3).
  unfold lhs_draw, lhs_sample. rewrite E1, E2, E3, Nat2Z.id. unfold latin_hypercube.
  destruct (Z.ltb_spec (Z.of_nat n) 0); [lia|]. destruct (Z.ltb_spec size 0); [lia|]. cbn [orb].
  destruct (q_unif q _ _ w) as [d w1]. destruct (q_shuffle q _ _ w1) as [p w2]. rewrite Nat2Z.id.
  destruct (Hq (Z.to_nat size) n (fun i j => fdiv (fsub (Z2f (Z.of_nat (p i j))) (d i j)) (Z2f size)) Hn) as (s' & Es & Hu). rewrite Es.
  rewrite (qmc_scale_ok n lo hi u size) by (try assumption; try lia; intros i j Hi Hj; destruct (Hu i j Hi Hj); split; apply fle_flt_false; assumption).
  eexists _, _. split; [reflexivity|apply float_arr_matrix].
Qed.

Lemma lhs_default_one {W} (q : qmc_source W) n lo hi u size w :
  q_lloyd_plane q -> (0 <= size)%Z -> (0 <= n < 2)%Z -> lhs_new n lo hi = Ok u -> fst (lhs_draw q u size false w) = Raise ValueError.
Proof.
  intros Hq Hs Hn0 Hnew.
  assert (E : ui_n u = n) by (unfold lhs_new in Hnew; destruct (negb _); [discriminate|]; destruct (negb _); [discriminate|]; injection Hnew as <-; reflexivity).
  assert (Hn : (0 <= ui_n u < 2)%Z) by (rewrite E; exact Hn0). unfold lhs_draw, lhs_sample, latin_hypercube.
  destruct (Z.ltb_spec (ui_n u) 0); [lia|]. destruct (Z.ltb_spec size 0); [lia|]. cbn [orb].
  destruct (q_unif q _ _ w) as [d w1]. destruct (q_shuffle q _ _ w1) as [p w2]. rewrite Hq by lia. reflexivity.
Qed.

(** Bounds out of order, or equal, or NaN: no sample. *)
Lemma lhs_disorder {W} (q : qmc_source W) n lo hi u size post w j l h :
  lhs_new (Z.of_nat n) lo hi = Ok u -> full_bound n lo -> full_bound n hi ->
  j < n -> bound_of lo j l -> bound_of hi j h -> flt l h = false -> is_ok (fst (lhs_draw q u size post w)) = false.
Proof.
  intros Hnew Hlo Hhi Hj Hl Hh Hlt. destruct (lhs_new_fields n lo hi u Hnew) as (E1 & E2 & E3).
  unfold lhs_draw, lhs_sample. rewrite E1, E2, E3, Nat2Z.id. destruct (latin_hypercube q _ _ size w) as [[s|e] w1]; [|reflexivity].
  cbn [fst]. unfold qmc_scale.
  assert (El : bound_at lo j = l).
  { pose proof (full_bound_at n lo j Hj Hlo) as X. destruct lo; cbn [bound_of] in *; [tauto|congruence|congruence]. }
  assert (Eh : bound_at hi j = h).
  { pose proof (full_bound_at n hi j Hj Hhi) as X. destruct hi; cbn [bound_of] in *; [tauto|congruence|congruence]. }
  assert (F : forallb (fun j => flt (bound_at lo j) (bound_at hi j)) (seq 0 n) = false).
  { destruct (forallb _ _) eqn:E; [|reflexivity]. exfalso. rewrite forallb_forall in E. specialize (E j). rewrite El, Eh, Hlt in E.
    discriminate E. apply in_seq. lia. }
  rewrite F. cbn [negb]. destruct lo, hi; try reflexivity; destruct (negb _); reflexivity.
Qed.
