(** The uniform initialiser: how likely a value below a given one is, counted over the 2^53
    equally likely values of [random_sample]. *)
From Coq Require Import String List ZArith Bool Lia Reals Lra.
From Flocq Require Import Core IEEE754.BinarySingleNaN Plus_error Relative.
From Verif Require Import PyBase B64 B64More Interval NdArray Rand RandThms Models ModelThms DemoModels FloatSum Chance.
Import ListNotations.
Open Scope R_scope.

Lemma chance_range (P : f64 -> Prop) (dec : forall x, P x \/ ~ P x) (m : Z) : (0 <= m)%Z ->
  exists l, NoDup l /\ forall k, In k l <-> (0 <= k < m)%Z /\ P (unit53 k).
Proof.
  revert m. apply natlike_ind; [exists []; split; [constructor|]; intros k; split; [intros []|lia]|].
  intros m Hm (l & N & H). destruct (dec (unit53 m)) as [Y|Y].
  - exists (m :: l). split; [constructor; [rewrite H; lia|exact N]|]. intros k. cbn [In]. rewrite H. split.
    + intros [<-|[K Q]]; (split; [lia|assumption]).
    + intros [K Q]. destruct (Z.eq_dec k m) as [->|D]; [left; reflexivity|right; split; [lia|exact Q]].
  - exists l. split; [exact N|]. intros k. rewrite H. split; intros [K Q]; (split; [|exact Q]); [lia|].
    destruct (Z.eq_dec k m) as [->|D]; [contradiction|lia].
Qed.

Lemma chance_ex (P : f64 -> Prop) : (forall x, P x \/ ~ P x) -> exists q, chance P q.
Proof. intros dec. destruct (chance_range P dec (2 ^ 53) ltac:(discriminate)) as (l & N & H). eexists. exists l. split; [exact N|]. split; [exact H|reflexivity]. Qed.

Lemma chance_le (P Q : f64 -> Prop) p q : (forall k, (0 <= k < 2 ^ 53)%Z -> P (unit53 k) -> Q (unit53 k)) -> chance P p -> chance Q q -> p <= q.
Proof.
  intros PQ (l & N & H & ->) (l' & N' & H' & ->). apply Rmult_le_compat_r; [pose proof u_pos; lra|]. apply le_INR. apply NoDup_incl_length; [exact N|].
  intros k Hk. apply H in Hk as [K HP]. apply H'. split; [exact K|apply PQ; assumption].
Qed.

Lemma chance_ge0 P q : chance P q -> 0 <= q.
Proof. intros (l & _ & _ & ->). apply Rmult_le_pos; [apply pos_INR|pose proof u_pos; lra]. Qed.

Lemma chance_le1 P q : chance P q -> q <= 1.
Proof.
  intros H. eapply chance_le with (Q := fun _ => True); [auto|exact H|].
  replace 1 with (IZR (2 ^ 53 - 0) * u) by (rewrite Z.sub_0_r; apply u_inv). apply chance_interval; [lia|lia|]. intros k Hk. split; [intros _; exact Hk|trivial].
Qed.

(** At least [a] if every draw below [a] is counted, at most [b] and one draw if no draw above [b] is. *)
Lemma chance_at_least P q a : chance P q -> a <= 1 -> (forall k, (0 <= k < 2 ^ 53)%Z -> IZR k * u < a -> P (unit53 k)) -> a <= q.
Proof.
  intros H Ha HP. destruct (Rle_lt_dec a 0) as [A|A]; [pose proof (chance_ge0 _ _ H); lra|].
  destruct (below_spec a ltac:(lra)) as [B R]. eapply Rle_trans; [apply R|]. rewrite <- (Z.sub_0_r (below a)).
  eapply chance_le with (P := fun x => B2R x < a); [|apply chance_interval|exact H]; try lia.
  - intros k Hk Hx. apply HP; [exact Hk|]. destruct (unit53_spec k Hk) as [_ E]. rewrite E in Hx. exact Hx.
  - intros k Hk. destruct (unit53_spec k Hk) as [_ E]. rewrite E, below_iff. lia.
Qed.

Lemma chance_at_most P q b : chance P q -> 0 <= b -> (forall k, (0 <= k < 2 ^ 53)%Z -> P (unit53 k) -> IZR k * u <= b) -> q <= b + u.
Proof.
  intros H Hb HP. pose proof u_pos as Hu. destruct (Rle_lt_dec 1 (b + u)) as [B|B]; [pose proof (chance_le1 _ _ H); lra|].
  destruct (below_spec (b + u) ltac:(lra)) as [Z1 R1]. set (m := Zfloor (b * IZR (2 ^ 53))).
  pose proof u_inv as Hi. assert (Hd : 0 < IZR (2 ^ 53)) by (apply IZR_lt; lia).
  assert (M1 : IZR m <= b * IZR (2 ^ 53)) by apply Zfloor_lb. assert (M2 : b * IZR (2 ^ 53) < IZR m + 1) by apply Zfloor_ub.
  assert (Eb : b * IZR (2 ^ 53) * u = b) by (rewrite Rmult_assoc, Hi; ring).
  assert (Mu : IZR m * u <= b) by (rewrite <- Eb; apply Rmult_le_compat_r; lra).
  assert (M0 : (0 <= m)%Z) by (apply Zfloor_lub; cbn; apply Rmult_le_pos; lra).
  assert (Mh : (m + 1 <= 2 ^ 53)%Z).
  { apply Z.lt_succ_r. apply lt_IZR. rewrite succ_IZR, plus_IZR. apply (Rmult_lt_reg_r u); [exact Hu|]. rewrite !Rmult_plus_distr_r, Hi. lra. }
  apply Rle_trans with (IZR (m + 1 - 0) * u); [|rewrite Z.sub_0_r, plus_IZR, Rmult_plus_distr_r; lra].
  eapply chance_le with (Q := fun x => B2R x <= b); [|exact H|apply chance_interval]; try lia.
  - intros k Hk Hx. destruct (unit53_spec k Hk) as [_ E]. rewrite E. apply HP; assumption.
  - intros k Hk. destruct (unit53_spec k Hk) as [_ E]. rewrite E. split.
    + intros L. split; [lia|]. enough (k <= m)%Z by lia. apply Zfloor_lub.
      apply (Rmult_le_reg_r u); [exact Hu|]. rewrite Eb. exact L.
    + intros [_ L]. eapply Rle_trans; [|exact Mu]. apply Rmult_le_compat_r; [lra|]. apply IZR_le. lia.
Qed.

(** ** One cell of the uniform initialiser *)
Definition uniform_cell (l h x : f64) : f64 := fadd l (fmul (fsub h l) x).

Lemma sub_exact_rel (a b : f64) : isfin a = true -> isfin b = true -> isfin (fsub a b) = true ->
  exists e, Rabs e <= u /\ B2R (fsub a b) = (B2R a - B2R b) * (1 + e).
Proof.
  intros Fa Fb F. pose proof (fsub_isfin_R a b Fa Fb F) as E.
  destruct (FLT_plus_error_N_ex radix2 (3 - 1024 - 53) 53 (fun n => negb (Z.even n)) (B2R a) (- B2R b) (generic_format_B2R 53 1024 a)) as (e & He & Hr).
  { apply generic_format_opp, (generic_format_B2R 53 1024 b). }
  exists e. split; [|rewrite E; exact Hr]. rewrite u_ro_value in He. eapply Rle_trans; [exact He|]. pose proof u_pos.
  apply (Rmult_le_reg_r (1 + u)); [lra|]. unfold Rdiv. rewrite Rmult_assoc, Rinv_l by lra. pose proof (Rmult_le_pos u u ltac:(lra) ltac:(lra)). lra.
Qed.

Lemma fadd_isfin_R (a b : f64) : isfin a = true -> isfin b = true -> isfin (fadd a b) = true -> B2R (fadd a b) = rnd (B2R a + B2R b).
Proof.
  intros Fa Fb Fd. destruct (Rlt_le_dec (Rabs (rnd (B2R a + B2R b))) big) as [H|H]; [apply fadd_fin; assumption|exfalso].
  pose proof (Bplus_correct 53 1024 _ _ mode_NE a b Fa Fb) as Hc. change (Bplus mode_NE a b) with (fadd a b) in Hc.
  unfold rnd, big in H. rewrite Rlt_bool_false in Hc by exact H. destruct Hc as [Hc _].
  unfold isfin in Fd. rewrite <- is_finite_SF_B2SF in Fd. rewrite Hc in Fd. destruct (Bsign a); discriminate.
Qed.

Lemma Rabs_mult_le a b A B : Rabs a <= A -> Rabs b <= B -> Rabs (a * b) <= A * B.
Proof. intros. rewrite Rabs_mult. apply Rmult_le_compat; try apply Rabs_pos; assumption. Qed.

Lemma uniform_cell_err l h x M : isfin l = true -> isfin h = true -> fle l h = true -> isfin (fsub h l) = true ->
  Rabs (B2R l) <= M -> Rabs (B2R h) <= M -> isfin x = true -> 0 <= B2R x < 1 ->
  isfin (uniform_cell l h x) = true /\ Rabs (B2R (uniform_cell l h x) - (B2R l + (B2R h - B2R l) * B2R x)) <= 8 * M * u + eta.
Proof.
  intros Fl Fh Hle Fd Ml Mh Fx [X0 X1].
  assert (H0 : fle (Z2f 0) x = true) by (apply fle_fin; [apply Z2f_0_fin|exact Fx|rewrite Z2f_0_R; exact X0]).
  assert (H1 : flt x fone = true) by (apply flt_fin; [exact Fx|reflexivity|rewrite fone_R; exact X1]).
  destruct (affine_between l h x Fl Fh Hle Fd H0 H1) as (Fv & V1 & V2). cbv zeta in *. fold (uniform_cell l h x) in *. split; [exact Fv|].
  apply (fle_fin _ _ Fl Fv) in V1. apply (fle_fin _ _ Fv Fh) in V2. apply (fle_fin _ _ Fl Fh) in Hle.
  destruct (sub_exact_rel h l Fh Fl Fd) as (e1 & E1 & Ed).
  assert (HM : 0 <= M) by (pose proof (Rabs_pos (B2R l)); lra). pose proof u_pos as Hu. pose proof u_small as Hs. pose proof eta_pos as Ht.
  assert (Hm1 : 0 <= B2R (fsub h l) * B2R x <= B2R (fsub h l)).
  { assert (D0 : 0 <= B2R (fsub h l)).
    { rewrite Ed. apply Rmult_le_pos; [lra|]. apply Rabs_le_inv in E1. lra. }
    split; [apply Rmult_le_pos; lra|]. rewrite <- (Rmult_1_r (B2R (fsub h l))) at 2. apply Rmult_le_compat_l; lra. }
  destruct (fmul_fin (fsub h l) x Fd Fx) as [Fm Rm].
  { destruct Hm1 as [A B]. apply rnd_le_B2R in B. apply rnd_ge_0 in A. pose proof (B2R_lt_big (fsub h l)). rewrite Rabs_pos_eq by exact A. lra. }
  destruct (rnd_rel (B2R (fsub h l) * B2R x)) as (e2 & t2 & E2 & T2 & Er). rewrite <- Rm in Er.
  set (P := B2R (fmul (fsub h l) x)) in *.
  assert (Ev : exists e3, Rabs e3 <= u /\ B2R (uniform_cell l h x) = (B2R l + P) * (1 + e3)).
  { assert (Rv : B2R (uniform_cell l h x) = rnd (B2R l + P)).
    { unfold uniform_cell. pose proof (fadd_isfin_R l (fmul (fsub h l) x) Fl Fm Fv) as Q. exact Q. }
    destruct (FLT_plus_error_N_ex radix2 (3 - 1024 - 53) 53 (fun n => negb (Z.even n)) (B2R l) P (generic_format_B2R 53 1024 l) (generic_format_B2R 53 1024 _)) as (e & He & Hr).
    exists e. split; [|rewrite Rv; exact Hr]. rewrite u_ro_value in He. eapply Rle_trans; [exact He|].
    apply (Rmult_le_reg_r (1 + u)); [lra|]. unfold Rdiv. rewrite Rmult_assoc, Rinv_l by lra. pose proof (Rmult_le_pos u u ltac:(lra) ltac:(lra)). lra. }
  destruct Ev as (e3 & E3 & Ev). rewrite Ev. rewrite Ed in Er.
  set (D := B2R h - B2R l) in *. set (X := B2R x) in *.
  assert (HD : 0 <= D <= 2 * M). { unfold D. apply Rabs_le_inv in Ml. apply Rabs_le_inv in Mh. lra. }
  assert (A1 : Rabs (P - D * X) <= 3 * u * (2 * M) + eta).
  { rewrite Er. replace (D * (1 + e1) * X * (1 + e2) + t2 - D * X) with ((e1 + e2 + e1 * e2) * (D * X) + t2) by ring.
    eapply Rle_trans; [apply Rabs_triang|]. apply Rplus_le_compat; [|exact T2]. apply Rabs_mult_le.
    - eapply Rle_trans; [apply Rabs_triang|]. pose proof (Rabs_triang e1 e2). pose proof (Rabs_mult_le e1 e2 u u E1 E2).
      assert (u * u <= u * 1) by (apply Rmult_le_compat_l; lra). lra.
    - rewrite Rabs_pos_eq by (apply Rmult_le_pos; lra). assert (D * X <= D * 1) by (apply Rmult_le_compat_l; lra). lra. }
  assert (A2 : Rabs ((B2R l + P) * e3) <= 2 * M * u).
  { apply Rabs_mult_le; [|exact E3].
    assert (V : Rabs ((B2R l + P) * (1 + e3)) <= M). { rewrite <- Ev. apply Rabs_le_inv in Ml. apply Rabs_le_inv in Mh. apply Rabs_le. lra. }
    rewrite Rabs_mult in V. assert (Q : / 2 <= Rabs (1 + e3)). { apply Rabs_le_inv in E3. rewrite Rabs_pos_eq; lra. }
    assert (Rabs (B2R l + P) * / 2 <= Rabs (B2R l + P) * Rabs (1 + e3)) by (apply Rmult_le_compat_l; [apply Rabs_pos|exact Q]). lra. }
  replace ((B2R l + P) * (1 + e3) - (B2R l + D * X)) with ((P - D * X) + (B2R l + P) * e3) by ring.
  eapply Rle_trans; [apply Rabs_triang|]. replace (8 * M * u + eta) with (3 * u * (2 * M) + eta + 2 * M * u) by ring. lra.
Qed.

Lemma uniform_chance l h M t : isfin l = true -> isfin h = true -> flt l h = true -> isfin (fsub h l) = true ->
  Rabs (B2R l) <= M -> Rabs (B2R h) <= M -> B2R l <= t <= B2R h ->
  exists q, chance (fun x => B2R (uniform_cell l h x) <= t) q /\
    Rabs (q - (t - B2R l) / (B2R h - B2R l)) <= (10 * M * u + eta) / (B2R h - B2R l).
Proof.
  intros Fl Fh Hlt Fd Ml Mh Ht. apply (flt_fin _ _ Fl Fh) in Hlt. assert (Hle : fle l h = true) by (apply fle_fin; try assumption; lra).
  destruct (chance_ex (fun x => B2R (uniform_cell l h x) <= t)) as [q Hq]; [intros x; destruct (Rle_lt_dec (B2R (uniform_cell l h x)) t); [left|right]; lra|].
  exists q. split; [exact Hq|]. pose proof u_pos as Hu. pose proof eta_pos as He.
  set (D := B2R h - B2R l) in *. assert (HD : 0 < D) by (unfold D; lra).
  assert (HM : D <= 2 * M) by (unfold D; apply Rabs_le_inv in Ml; apply Rabs_le_inv in Mh; lra).
  set (del := 8 * M * u + eta). assert (Hdel : 0 <= del). { unfold del. assert (0 <= M * u) by (apply Rmult_le_pos; lra). lra. }
  assert (Err : forall k, (0 <= k < 2 ^ 53)%Z -> Rabs (B2R (uniform_cell l h (unit53 k)) - (B2R l + D * (IZR k * u))) <= del).
  { intros k Hk. destruct (unit53_spec k Hk) as [F E]. rewrite <- E. apply uniform_cell_err; try assumption. rewrite E. pose proof u_inv.
    split; [apply Rmult_le_pos; [apply IZR_le; lia|lra]|]. rewrite <- u_inv. apply Rmult_lt_compat_r; [exact Hu|apply IZR_lt; lia]. }
  assert (Qlo : (t - B2R l - del) / D <= q).
  { apply (chance_at_least _ _ _ Hq).
    - apply (Rmult_le_reg_r D); [exact HD|]. unfold Rdiv. rewrite Rmult_assoc, Rinv_l by lra. unfold D. lra.
    - intros k Hk Hl. specialize (Err k Hk). apply Rabs_le_inv in Err. apply (Rmult_lt_compat_l D) in Hl; [|exact HD].
      replace (D * ((t - B2R l - del) / D)) with (t - B2R l - del) in Hl by (field; lra). lra. }
  assert (Qhi : q <= (t - B2R l + del) / D + u).
  { apply (chance_at_most _ _ _ Hq).
    - apply Rmult_le_pos; [lra|]. apply Rlt_le, Rinv_0_lt_compat, HD.
    - intros k Hk Hl. specialize (Err k Hk). apply Rabs_le_inv in Err. apply (Rmult_le_reg_l D); [exact HD|].
      replace (D * ((t - B2R l + del) / D)) with (t - B2R l + del) by (field; lra). lra. }
  assert (E1 : (t - B2R l - del) / D = (t - B2R l) / D - del / D) by (field; lra).
  assert (E2 : (t - B2R l + del) / D = (t - B2R l) / D + del / D) by (field; lra).
  assert (E3 : del / D + u <= (10 * M * u + eta) / D).
  { apply (Rmult_le_reg_r D); [exact HD|]. replace ((del / D + u) * D) with (del + u * D) by (field; lra).
    replace ((10 * M * u + eta) / D * D) with (10 * M * u + eta) by (field; lra). unfold del.
    assert (u * D <= u * (2 * M)) by (apply Rmult_le_compat_l; lra). lra. }
  apply Rabs_le. lra.
Qed.
