(** Multiplying costs by a power of two. *)
From Coq Require Import String List ZArith Bool Lia Reals Lra.
From Flocq Require Import Core IEEE754.BinarySingleNaN.
From Verif Require Import PyBase B64 B64More NdArray Eda EdaInv Spec OrderRel InitGauss DemoModels.
Import ListNotations.
Open Scope R_scope.

(** A cost far from the limits of the number format: not finite, zero, or of magnitude
    between [2^-800] and [2^800]. *)
Definition roomy (x : f64) : Prop :=
  isfin x = false \/ B2R x = 0 \/ bpow radix2 (-800) <= Rabs (B2R x) <= bpow radix2 800.
(** Multiplication by [2^e]. *)
Definition scaled (e : Z) (x : f64) : f64 := fmul x (lit 1 e).
(** A tolerance between minus one half and one million. *)
Definition usual_tol (ftol : f64) : Prop := isfin ftol = true /\ - / 2 <= B2R ftol <= 1000000.

Lemma rnd_scale x e : bpow radix2 (-1000) <= Rabs x -> bpow radix2 (-1000) <= Rabs x * bpow radix2 e ->
  rnd (x * bpow radix2 e) = rnd x * bpow radix2 e.
Proof.
  intros H1 H2.
  assert (Hx : x <> 0). { intros ->. rewrite Rabs_R0 in H1. pose proof (bpow_gt_0 radix2 (-1000)). lra. }
  assert (M1 : (-1000 < mag radix2 x)%Z) by (apply mag_gt_bpow, H1).
  assert (M2 : (-1000 < mag radix2 (x * bpow radix2 e))%Z).
  { apply mag_gt_bpow. rewrite Rabs_mult, (Rabs_pos_eq (bpow radix2 e)) by apply bpow_ge_0. exact H2. }
  rewrite mag_mult_bpow in M2 by exact Hx.
  unfold rnd, round, scaled_mantissa, cexp. rewrite mag_mult_bpow by exact Hx.
  unfold SpecFloat.fexp, SpecFloat.emin.
  rewrite (Z.max_l (mag radix2 x + e - 53)) by lia. rewrite (Z.max_l (mag radix2 x - 53)) by lia.
  replace (x * bpow radix2 e * bpow radix2 (- (mag radix2 x + e - 53))) with (x * bpow radix2 (- (mag radix2 x - 53))).
  - unfold F2R. cbn [Fnum Fexp]. rewrite Rmult_assoc, <- bpow_plus. f_equal. f_equal. lia.
  - rewrite Rmult_assoc, <- bpow_plus. f_equal. f_equal. lia.
Qed.

Lemma pow_lit e : (-100 <= e <= 100)%Z -> B2R (lit 1 e) = bpow radix2 e /\ isfin (lit 1 e) = true.
Proof.
  intros He. pose proof (binary_normalize_correct 53 1024 eq_refl eq_refl mode_NE 1 e false) as H. cbv zeta in H.
  assert (E : F2R (Float radix2 1 e) = bpow radix2 e) by (unfold F2R; cbn [Fnum Fexp]; lra).
  rewrite E in H. rewrite round_generic in H; [|apply valid_rnd_N|apply generic_format_bpow; unfold SpecFloat.fexp, SpecFloat.emin; lia].
  rewrite Rlt_bool_true in H.
  - destruct H as [H1 [H2 _]]. split; [exact H1|exact H2].
  - rewrite Rabs_pos_eq by apply bpow_ge_0. apply bpow_lt. lia.
Qed.

Lemma rnd_range x lo hi : (-1000 <= lo)%Z -> (-1000 <= hi <= 1000)%Z -> bpow radix2 lo <= Rabs x <= bpow radix2 hi ->
  bpow radix2 lo <= Rabs (rnd x) <= bpow radix2 hi /\ Rabs (rnd x) < big.
Proof.
  intros Hl Hh [H1 H2]. assert (B : Rabs (rnd x) <= bpow radix2 hi) by (apply rnd_bpow_le; [lia|exact H2]).
  split; [split; [|exact B]|].
  - unfold rnd. apply abs_round_ge_generic; [apply FLT_exp_valid; exact eq_refl|apply valid_rnd_N| |exact H1].
    apply generic_format_bpow. unfold SpecFloat.fexp, SpecFloat.emin. lia.
  - eapply Rle_lt_trans; [exact B|]. unfold big. apply bpow_lt. lia.
Qed.

(** A product with a factor of known range. *)
Lemma mul_range a t lo hi l h : isfin a = true -> isfin t = true ->
  bpow radix2 lo <= Rabs (B2R a) <= bpow radix2 hi -> bpow radix2 l <= Rabs (B2R t) <= bpow radix2 h ->
  (-1000 <= lo + l)%Z -> (-1000 <= hi + h <= 1000)%Z ->
  isfin (fmul a t) = true /\ B2R (fmul a t) = rnd (B2R a * B2R t) /\
  bpow radix2 (lo + l) <= Rabs (B2R (fmul a t)) <= bpow radix2 (hi + h).
Proof.
  intros Fa Ft [A1 A2] [T1 T2] Hl Hh.
  assert (P : bpow radix2 (lo + l) <= Rabs (B2R a * B2R t) <= bpow radix2 (hi + h)).
  { rewrite Rabs_mult, !bpow_plus. split; apply Rmult_le_compat; try apply bpow_ge_0; try apply Rabs_pos; assumption. }
  destruct (rnd_range _ _ _ Hl Hh P) as [Q B].
  destruct (fmul_fin a t Fa Ft B) as [F E]. split; [exact F|]. split; [exact E|]. rewrite E. exact Q.
Qed.
Lemma mul_zero a t : isfin a = true -> isfin t = true -> B2R a = 0 -> isfin (fmul a t) = true /\ B2R (fmul a t) = 0.
Proof.
  intros Fa Ft Z.
  assert (E : B2R a * B2R t = 0) by (rewrite Z; ring).
  destruct (fmul_fin a t Fa Ft) as [F G].
  - rewrite E, rnd_0, Rabs_R0. apply big_pos.
  - split; [exact F|]. rewrite G, E. apply rnd_0.
Qed.

Section Scaling.
Variable (e : Z).
Hypothesis He : (-100 <= e <= 100)%Z.

Lemma factor_pos : isfin (lit 1 e) = true /\ 0 < B2R (lit 1 e).
Proof. destruct (pow_lit e He) as [-> F]. split; [exact F|apply bpow_gt_0]. Qed.

(** A finite product in the normal range scales exactly. *)
Lemma scaled_fin x : isfin x = true -> (B2R x = 0 \/ bpow radix2 (-880) <= Rabs (B2R x) <= bpow radix2 880) ->
  isfin (scaled e x) = true /\ B2R (scaled e x) = B2R x * bpow radix2 e.
Proof.
  intros Fx [Z|H]; destruct (pow_lit e He) as [Re Fe].
  - destruct (mul_zero x (lit 1 e) Fx Fe Z) as [F E]. split; [exact F|]. unfold scaled. rewrite E, Z. ring.
  - destruct (mul_range x (lit 1 e) (-880) 880 e e Fx Fe H) as (F & E & _); [|lia|lia|].
    + rewrite Re, Rabs_pos_eq by apply bpow_ge_0. lra.
    + split; [exact F|]. unfold scaled. rewrite E, Re, rnd_scale, rnd_B2R; [reflexivity| |].
      * eapply Rle_trans; [|apply H]. apply bpow_le. lia.
      * apply Rle_trans with (bpow radix2 (-880) * bpow radix2 e); [rewrite <- bpow_plus; apply bpow_le; lia|].
        apply Rmult_le_compat_r; [apply bpow_ge_0|apply H].
Qed.
Lemma scaled_nan x : isnan (scaled e x) = isnan x.
Proof.
  unfold scaled. destruct (isnan x) eqn:N.
  - destruct x; try discriminate. destruct (lit 1 e); reflexivity.
  - destruct factor_pos as [F P]. apply fmul_pos_not_nan; assumption.
Qed.
Lemma scaled_inf x : isfin x = false -> isnan x = false -> scaled e x = x.
Proof.
  intros Fx Nx. destruct x as [s|s| |s m b Hb]; try discriminate. destruct factor_pos as [F P].
  apply fmul_inf_pos; assumption.
Qed.

Definition near (x : f64) : Prop := isfin x = true -> B2R x = 0 \/ bpow radix2 (-880) <= Rabs (B2R x) <= bpow radix2 880.
Lemma bool_iff a b : (a = true <-> b = true) -> a = b.
Proof. destruct a; destruct b; intros [H1 H2]; try reflexivity; [symmetry; apply H1; reflexivity|apply H2; reflexivity]. Qed.
Lemma flt_inf_fin x y y' : isfin x = false -> isfin y = true -> isfin y' = true -> flt x y = flt x y'.
Proof. destruct x as [s|[]| |s m b Hb]; destruct y; destruct y'; intros; try discriminate; reflexivity. Qed.
Lemma flt_fin_inf x x' y : isfin y = false -> isfin x = true -> isfin x' = true -> flt x y = flt x' y.
Proof. destruct y as [s|[]| |s m b Hb]; destruct x; destruct x'; intros; try discriminate; reflexivity. Qed.

Lemma scaled_flt x y : near x -> near y -> flt (scaled e x) (scaled e y) = flt x y.
Proof.
  intros Hx Hy.
  destruct (isnan x) eqn:Nx; [rewrite !flt_nan_l by (rewrite ?scaled_nan; exact Nx); reflexivity|].
  destruct (isnan y) eqn:Ny; [rewrite !flt_nan_r by (rewrite ?scaled_nan; exact Ny); reflexivity|].
  destruct (isfin x) eqn:Fx; destruct (isfin y) eqn:Fy.
  - destruct (scaled_fin x Fx (Hx Fx)) as [F1 E1]. destruct (scaled_fin y Fy (Hy Fy)) as [F2 E2].
    apply bool_iff. rewrite !flt_fin by assumption. rewrite E1, E2. split; intros L.
    + apply (Rmult_lt_reg_r _ _ _ (bpow_gt_0 radix2 e) L).
    + apply Rmult_lt_compat_r; [apply bpow_gt_0|exact L].
  - rewrite (scaled_inf y Fy Ny). destruct (scaled_fin x Fx (Hx Fx)) as [F1 _]. apply flt_fin_inf; assumption.
  - rewrite (scaled_inf x Fx Nx). destruct (scaled_fin y Fy (Hy Fy)) as [F1 _]. apply flt_inf_fin; assumption.
  - rewrite (scaled_inf x Fx Nx), (scaled_inf y Fy Ny). reflexivity.
Qed.
Lemma roomy_near x : roomy x -> near x.
Proof.
  intros [F|[Z|[H1 H2]]] Fx; [congruence|left; exact Z|right]. split.
  - eapply Rle_trans; [|exact H1]. apply bpow_le. lia.
  - eapply Rle_trans; [exact H2|]. apply bpow_le. lia.
Qed.

Section Tol.
Variable (t : f64).
Hypothesis Ft : isfin t = true.
Hypothesis Ht : bpow radix2 (-20) <= B2R t <= bpow radix2 20.
Lemma t_pos : 0 < B2R t.
Proof. pose proof (bpow_gt_0 radix2 (-20)). lra. Qed.
Lemma t_abs : bpow radix2 (-20) <= Rabs (B2R t) <= bpow radix2 20.
Proof. rewrite Rabs_pos_eq; [exact Ht|]. pose proof t_pos. lra. Qed.

Lemma times_near y : roomy y -> near (fmul y t).
Proof.
  intros H F. destruct (isfin y) eqn:Fy.
  - destruct H as [F'|[Z|H]]; [congruence| |].
    + left. apply (mul_zero y t Fy Ft Z).
    + right. destruct (mul_range y t (-800) 800 (-20) 20 Fy Ft H t_abs) as (_ & _ & [B1 B2]); [lia|lia|].
      split; (eapply Rle_trans; [|eassumption]) || (eapply Rle_trans; [eassumption|]); apply bpow_le; lia.
  - destruct y as [s|s| |s m b Hb]; try discriminate.
    rewrite (fmul_inf_pos s t Ft t_pos) in F. discriminate.
Qed.
(** The threshold of the scaled cost is the scaled threshold, up to the sign of a zero. *)
Lemma threshold x y : near x -> roomy y -> flt (scaled e x) (fmul (scaled e y) t) = flt (scaled e x) (scaled e (fmul y t)).
Proof.
  intros Hx Hy. destruct (isfin y) eqn:Fy.
  - assert (Hn : B2R y = 0 \/ bpow radix2 (-800) <= Rabs (B2R y) <= bpow radix2 800) by (destruct Hy as [F'|Hy]; [congruence|exact Hy]).
    assert (E : isfin (fmul (scaled e y) t) = true /\ isfin (scaled e (fmul y t)) = true /\ B2R (fmul (scaled e y) t) = B2R (scaled e (fmul y t))).
    { destruct (scaled_fin y Fy (roomy_near y Hy Fy)) as [Fs Es].
      destruct Hn as [Z|H].
      - destruct (mul_zero y t Fy Ft Z) as [Fm Em].
        destruct (mul_zero (scaled e y) t Fs Ft) as [Fm' Em']; [rewrite Es, Z; ring|].
        destruct (scaled_fin (fmul y t) Fm (or_introl Em)) as [F2 E2].
        split; [exact Fm'|]. split; [exact F2|]. rewrite Em', E2, Em. ring.
      - destruct (mul_range y t (-800) 800 (-20) 20 Fy Ft H t_abs) as (Fm & Em & Bm); [lia|lia|].
        assert (Hs : bpow radix2 (-800 + e) <= Rabs (B2R (scaled e y)) <= bpow radix2 (800 + e)).
        { rewrite Es, Rabs_mult, (Rabs_pos_eq (bpow radix2 e)) by apply bpow_ge_0.
          rewrite !bpow_plus. split; apply Rmult_le_compat_r; try apply bpow_ge_0; apply H. }
        destruct (mul_range (scaled e y) t (-800 + e) (800 + e) (-20) 20 Fs Ft Hs t_abs) as (Fm' & Em' & Bm'); [lia|lia|].
        destruct (scaled_fin (fmul y t) Fm) as [F2 E2].
        { right. split; [eapply Rle_trans; [|apply Bm]|eapply Rle_trans; [apply Bm|]]; apply bpow_le; lia. }
        split; [exact Fm'|]. split; [exact F2|]. rewrite Em', E2, Em, Es.
        replace (B2R y * bpow radix2 e * B2R t) with (B2R y * B2R t * bpow radix2 e) by ring.
        assert (P : bpow radix2 (-820) <= Rabs (B2R y * B2R t)).
        { change (-820)%Z with (-800 + -20)%Z. rewrite Rabs_mult, bpow_plus.
          apply Rmult_le_compat; try apply bpow_ge_0; [apply H|apply t_abs]. }
        apply rnd_scale.
        + eapply Rle_trans; [|exact P]. apply bpow_le. lia.
        + apply Rle_trans with (bpow radix2 (-820) * bpow radix2 e); [rewrite <- bpow_plus; apply bpow_le; lia|].
          apply Rmult_le_compat_r; [apply bpow_ge_0|exact P]. }
    destruct E as (F1 & F2 & E). destruct (isfin (scaled e x)) eqn:Fx.
    + apply bool_iff. rewrite !flt_fin by assumption. rewrite E. reflexivity.
    + apply flt_inf_fin; assumption.
  - destruct (isnan y) eqn:Ny.
    + rewrite !flt_nan_r; [reflexivity|rewrite scaled_nan|]; destruct y; try discriminate; destruct t; try discriminate; try reflexivity;
        unfold scaled; destruct (lit 1 e); reflexivity.
    + rewrite (scaled_inf y Fy Ny). destruct y as [s|s| |s m b Hb]; try discriminate.
      rewrite (fmul_inf_pos s t Ft t_pos). rewrite (scaled_inf (B754_infinity s)) by reflexivity. reflexivity.
Qed.
End Tol.

Lemma usual_tol_factor ftol : usual_tol ftol ->
  isfin (fadd fone ftol) = true /\ bpow radix2 (-20) <= B2R (fadd fone ftol) <= bpow radix2 20.
Proof.
  intros [F H].
  assert (A : bpow radix2 (-1) <= Rabs (1 + B2R ftol) <= bpow radix2 20).
  { rewrite Rabs_pos_eq by lra. change (bpow radix2 (-1)) with (/ 2). change (bpow radix2 20) with 1048576. lra. }
  destruct (rnd_range _ (-1) 20 ltac:(lia) ltac:(lia) A) as [B1 B2].
  destruct (fadd_fin fone ftol fone_fin F) as [Fa Ea]; [rewrite fone_R; exact B2|].
  split; [exact Fa|]. rewrite Ea, fone_R.
  assert (P : 0 <= rnd (1 + B2R ftol)) by (apply rnd_ge_0; lra).
  rewrite (Rabs_pos_eq _ P) in B1. split; [|apply B1].
  eapply Rle_trans; [|apply B1]. apply bpow_le. lia.
Qed.

Lemma scaled_accept ftol x y : usual_tol ftol -> roomy x -> roomy y ->
  accept ftol (scaled e x) (scaled e y) = accept ftol x y.
Proof.
  intros Ht Hx Hy. unfold accept. destruct (usual_tol_factor ftol Ht) as [F B].
  rewrite (threshold (fadd fone ftol) F B x y (roomy_near x Hx) Hy).
  apply scaled_flt; [apply roomy_near, Hx|apply times_near; assumption].
Qed.
End Scaling.

(** The runs with a cost function and with its values multiplied by a power of two. *)
Lemma scaled_run {S W} (c : cfg) (h h' : hooks S W) e ftol out s :
  (-100 <= e <= 100)%Z -> usual_tol ftol -> sorts_by_comparison (h_argsort h) -> same_but_cost h h' -> s_tr s = [] ->
  returns_in roomy h -> (forall r w, h_cost h' r w = after (scaled e) (h_cost h r w)) ->
  same_search (minimize c h ftol out s) (minimize c h' ftol out s) /\
  (forall r r', fst (minimize c h ftol out s) = Ok r -> fst (minimize c h' ftol out s) = Ok r' ->
     r_best_cost r' = scaled e (r_best_cost r) /\ r_history r' = map (scaled e) (r_history r)).
Proof.
  intros He Ht Hs Hh Htr HD Hc'.
  destruct (ranked_run (fun a b => roomy a /\ b = scaled e a) true true c h h' ftol out s) as [H1 [H2 _]]; try assumption.
  - intros x x' y y' [Dx ->] [Dy ->]. split; symmetry; [apply scaled_flt; try assumption; apply roomy_near; assumption|apply scaled_nan, He].
  - intros x x' y y' [Dx ->] [Dy ->]. symmetry. apply scaled_accept; assumption.
  - intros r w. rewrite Hc'. pose proof (HD r w) as HDr. unfold after.
    destruct (h_cost h r w) as [[[z|x]|ex] w']; cbn [fst snd res_rel] in *; [contradiction| |split; reflexivity].
    split; [|reflexivity]. split; [reflexivity|]. split; [reflexivity|]. split; [exact HDr|reflexivity].
  - split; [exact H1|]. intros r r' E E'. destruct (H2 r r' E E') as [[_ Hb] HL]. split; [exact Hb|].
    induction HL as [|a b l l' [_ ->] HL IH]; [reflexivity|]. cbn [map]. rewrite IH. reflexivity.
Qed.
