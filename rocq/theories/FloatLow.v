(** Lower bounds of binary64 operations, NaN aside. *)
From Coq Require Import Reals Lra ZArith Bool Lia List.
From Flocq Require Import Core IEEE754.BinarySingleNaN.
From Verif Require Import B64 B64More Sign.
Open Scope R_scope.

(** NaN or not below (above) the bound. *)
Definition at_least (l v : f64) : Prop := isnan v = true \/ fle l v = true.
Definition at_most (u v : f64) : Prop := isnan v = true \/ fle v u = true.

Lemma at_least_not_below l v : at_least l v -> flt v l = false.
Proof. intros [N|H]; [apply flt_nan_l, N|apply fle_flt_false, H]. Qed.
Lemma at_least_refl v : at_least v v.
Proof. destruct (isnan v) eqn:N; [left; exact N|right]. apply fle_ext; [exact N|exact N|lra]. Qed.
Lemma at_least_le l l' v : fle l l' = true -> at_least l' v -> at_least l v.
Proof. intros H [N|H']; [left; exact N|right]. apply (fle_trans _ _ _ H H'). Qed.
Lemma at_least_fin l v : isfin l = true -> isfin v = true -> at_least l v -> B2R l <= B2R v.
Proof.
  intros Fl Fv [N|H]; [apply isfin_not_nan in Fv; congruence|]. apply (proj1 (fle_fin l v Fl Fv) H).
Qed.
Lemma at_least_inf l s : isfin l = true -> at_least l (B754_infinity s) -> s = false.
Proof. intros Fl [N|H]; [discriminate|]. destruct s; [|reflexivity]. destruct l; try discriminate. Qed.
Lemma at_most_fin u v : isfin u = true -> isfin v = true -> at_most u v -> B2R v <= B2R u.
Proof.
  intros Fl Fv [N|H]; [apply isfin_not_nan in Fv; congruence|]. apply (proj1 (fle_fin v u Fv Fl) H).
Qed.
Lemma at_most_inf u s : isfin u = true -> at_most u (B754_infinity s) -> s = true.
Proof. intros Fl [N|H]; [discriminate|]. destruct s; [reflexivity|]. destruct u; discriminate. Qed.
Lemma fin_at_least l v : isfin l = true -> isfin v = true -> B2R l <= B2R v -> at_least l v.
Proof. intros Fl Fv H. right. apply (proj2 (fle_fin l v Fl Fv) H). Qed.
Lemma inf_at_least l : isfin l = true -> at_least l (B754_infinity false).
Proof. intros Fl. right. destruct l as [s|s| |[] m e Hm]; try discriminate; reflexivity. Qed.

(** A result that is rounded, or an infinity of the sign of the exact value. *)
Lemma rounded_at_least (c v : f64) (x : R) : isfin c = true -> B2R c <= x ->
  (if Rlt_bool (Rabs (rnd x)) big then B2R v = rnd x /\ isfin v = true else exists s, v = B754_infinity s /\ (s = true -> x < 0)) ->
  at_least c v.
Proof.
  intros Fc Hc H. pose proof (B2R_le_rnd x c Hc) as Hr. destruct (Rlt_bool_spec (Rabs (rnd x)) big) as [L|L].
  - destruct H as [E F]. apply fin_at_least; [exact Fc|exact F|]. rewrite E. exact Hr.
  - destruct H as (s & -> & Hs). destruct s; [|apply inf_at_least, Fc]. exfalso. specialize (Hs eq_refl).
    pose proof (B2R_lt_big c) as Hb. assert (rnd x <= 0) by (apply rnd_le_0; lra). rewrite Rabs_left1 in L by assumption. lra.
Qed.
Lemma overflow_inf (v : f64) s : B2SF v = binary_overflow 53 1024 mode_NE s -> v = B754_infinity s.
Proof. destruct v as [t|t| |t m e Hb]; cbn; intros H; try discriminate. injection H as ->. reflexivity. Qed.
Lemma Bsign_true_neg (a : f64) : isfin a = true -> Bsign a = true -> B2R a <= 0.
Proof.
  intros F S. destruct (Rle_lt_dec (B2R a) 0) as [H|H]; [exact H|]. rewrite (Bsign_pos_B2R a F H) in S. discriminate.
Qed.
Lemma Bsign_false_pos (a : f64) : isfin a = true -> Bsign a = false -> 0 <= B2R a.
Proof.
  intros F S. destruct (Rle_lt_dec 0 (B2R a)) as [H|H]; [exact H|]. rewrite (Bsign_neg_B2R a F H) in S. discriminate.
Qed.

Lemma add_at_least la lb c a b : isfin la = true -> isfin lb = true -> isfin c = true ->
  B2R c <= B2R la + B2R lb -> at_least la a -> at_least lb b -> at_least c (fadd a b).
Proof.
  intros Fla Flb Fc Hc Ha Hb.
  destruct (isnan a) eqn:Na; [left; destruct a; try discriminate; destruct b; reflexivity|].
  destruct (isnan b) eqn:Nb; [left; destruct b; try discriminate; destruct a; reflexivity|].
  destruct (isfin a) eqn:Fa; destruct (isfin b) eqn:Fb.
  - apply (at_least_fin la a Fla Fa) in Ha. apply (at_least_fin lb b Flb Fb) in Hb.
    apply (rounded_at_least c (fadd a b) (B2R a + B2R b) Fc); [lra|].
    pose proof (Bplus_correct 53 1024 _ _ mode_NE a b Fa Fb) as H.
    change (Bplus mode_NE a b) with (fadd a b) in H.
    change (round radix2 (SpecFloat.fexp 53 1024) (round_mode mode_NE) (B2R a + B2R b)) with (rnd (B2R a + B2R b)) in H. fold big in H.
    destruct (Rlt_bool_spec (Rabs (rnd (B2R a + B2R b))) big) as [L|L].
    + destruct H as (H1 & H2 & _). split; assumption.
    + destruct H as [H1 H2]. exists (Bsign a). split; [apply overflow_inf, H1|]. intros S.
      pose proof (Bsign_true_neg a Fa S). rewrite H2 in S. pose proof (Bsign_true_neg b Fb S).
      destruct (Req_dec (B2R a + B2R b) 0) as [E|N]; [|lra]. rewrite E, rnd_0, Rabs_R0 in L. pose proof big_pos. lra.
  - destruct b as [s|s| |s m e Hm]; try discriminate. rewrite (at_least_inf lb s Flb Hb).
    destruct a; try discriminate; apply inf_at_least, Fc.
  - destruct a as [s|s| |s m e Hm]; try discriminate. rewrite (at_least_inf la s Fla Ha).
    destruct b; try discriminate; apply inf_at_least, Fc.
  - destruct a as [s|s| |s m e Hm]; try discriminate. destruct b as [s'|s'| |s' m e Hm]; try discriminate.
    rewrite (at_least_inf la s Fla Ha), (at_least_inf lb s' Flb Hb). apply inf_at_least, Fc.
Qed.

Lemma sub_at_least la ub c a b : isfin la = true -> isfin ub = true -> isfin c = true ->
  B2R c <= B2R la - B2R ub -> at_least la a -> at_most ub b -> at_least c (fsub a b).
Proof.
  intros Fla Fub Fc Hc Ha Hb.
  destruct (isnan a) eqn:Na; [left; destruct a; try discriminate; destruct b; reflexivity|].
  destruct (isnan b) eqn:Nb; [left; destruct b; try discriminate; destruct a; reflexivity|].
  destruct (isfin a) eqn:Fa; destruct (isfin b) eqn:Fb.
  - apply (at_least_fin la a Fla Fa) in Ha. apply (at_most_fin ub b Fub Fb) in Hb.
    apply (rounded_at_least c (fsub a b) (B2R a - B2R b) Fc); [lra|].
    pose proof (Bminus_correct 53 1024 _ _ mode_NE a b Fa Fb) as H.
    change (Bminus mode_NE a b) with (fsub a b) in H.
    change (round radix2 (SpecFloat.fexp 53 1024) (round_mode mode_NE) (B2R a - B2R b)) with (rnd (B2R a - B2R b)) in H. fold big in H.
    destruct (Rlt_bool_spec (Rabs (rnd (B2R a - B2R b))) big) as [L|L].
    + destruct H as (H1 & H2 & _). split; assumption.
    + destruct H as [H1 H2]. exists (Bsign a). split; [apply overflow_inf, H1|]. intros S.
      pose proof (Bsign_true_neg a Fa S). rewrite H2 in S. apply negb_true_iff in S. pose proof (Bsign_false_pos b Fb S).
      destruct (Req_dec (B2R a - B2R b) 0) as [E|N]; [|lra]. rewrite E, rnd_0, Rabs_R0 in L. pose proof big_pos. lra.
  - destruct b as [s|s| |s m e Hm]; try discriminate. rewrite (at_most_inf ub s Fub Hb).
    destruct a; try discriminate; apply inf_at_least, Fc.
  - destruct a as [s|s| |s m e Hm]; try discriminate. rewrite (at_least_inf la s Fla Ha).
    destruct b; try discriminate; apply inf_at_least, Fc.
  - destruct a as [s|s| |s m e Hm]; try discriminate. destruct b as [s'|s'| |s' m e Hm]; try discriminate.
    rewrite (at_least_inf la s Fla Ha), (at_most_inf ub s' Fub Hb). apply inf_at_least, Fc.
Qed.

(** Products and quotients with a factor that is not negative. *)
Lemma mul_at_least la lb c a b : isfin la = true -> isfin lb = true -> isfin c = true ->
  (forall x y, B2R la <= x -> B2R lb <= y -> B2R c <= x * y) -> 0 <= B2R la -> 0 <= B2R lb ->
  at_least la a -> at_least lb b -> at_least c (fmul a b).
Proof.
  intros Fla Flb Fc Hc Pa Pb Ha Hb.
  destruct (isnan a) eqn:Na; [left; destruct a; try discriminate; destruct b; reflexivity|].
  destruct (isnan b) eqn:Nb; [left; destruct b; try discriminate; destruct a; reflexivity|].
  assert (INF : forall s (x : f64), isfin x = true -> 0 <= B2R x -> s = false ->
            at_least c (fmul (B754_infinity s) x) /\ at_least c (fmul x (B754_infinity s))).
  { intros s x Fx Px ->. destruct (Req_dec (B2R x) 0) as [Z|NZ].
    - destruct x as [t|t| |t m e Hm]; try discriminate; [split; left; reflexivity|].
      exfalso. cbn in Z. apply eq_0_F2R in Z. destruct t; discriminate Z.
    - assert (P : 0 < B2R x) by lra. rewrite (fmul_comm x), (fmul_inf_pos false x Fx P). split; apply inf_at_least, Fc. }
  destruct (isfin a) eqn:Fa; destruct (isfin b) eqn:Fb.
  - apply (at_least_fin la a Fla Fa) in Ha. apply (at_least_fin lb b Flb Fb) in Hb.
    apply (rounded_at_least c (fmul a b) (B2R a * B2R b) Fc); [apply Hc; assumption|].
    pose proof (Bmult_correct 53 1024 _ _ mode_NE a b) as H. change (Bmult mode_NE a b) with (fmul a b) in H.
    change (round radix2 (SpecFloat.fexp 53 1024) (round_mode mode_NE) (B2R a * B2R b)) with (rnd (B2R a * B2R b)) in H. fold big in H.
    destruct (Rlt_bool_spec (Rabs (rnd (B2R a * B2R b))) big) as [L|L].
    + destruct H as (H1 & H2 & _). split; [exact H1|]. unfold isfin in *. rewrite H2, Fa, Fb. reflexivity.
    + exists (xorb (Bsign a) (Bsign b)). split; [apply overflow_inf, H|]. intros S.
      assert (Q : B2R a * B2R b <> 0) by (intros E; rewrite E, rnd_0, Rabs_R0 in L; pose proof big_pos; lra).
      assert (NA : B2R a <> 0) by (intros E; apply Q; rewrite E; ring). assert (NB : B2R b <> 0) by (intros E; apply Q; rewrite E; ring).
      rewrite (Bsign_pos_B2R a Fa), (Bsign_pos_B2R b Fb) in S by lra. discriminate.
  - destruct b as [s|s| |s m e Hm]; try discriminate. apply (at_least_fin la a Fla Fa) in Ha.
    apply INF; [exact Fa|lra|apply (at_least_inf lb s Flb Hb)].
  - destruct a as [s|s| |s m e Hm]; try discriminate. apply (at_least_fin lb b Flb Fb) in Hb.
    apply INF; [exact Fb|lra|apply (at_least_inf la s Fla Ha)].
  - destruct a as [s|s| |s m e Hm]; try discriminate. destruct b as [s'|s'| |s' m e Hm]; try discriminate.
    rewrite (at_least_inf la s Fla Ha), (at_least_inf lb s' Flb Hb). apply inf_at_least, Fc.
Qed.

(** Division by something that is at least one, from a bound that is not positive. *)
Lemma div_at_least l a b : isfin l = true -> B2R l <= 0 -> at_least l a -> at_least fone b -> at_least l (fdiv a b).
Proof.
  intros Fl Pl Ha Hb.
  destruct (isnan a) eqn:Na; [left; destruct a; try discriminate; destruct b; reflexivity|].
  destruct (isnan b) eqn:Nb; [left; destruct b; try discriminate; destruct a; reflexivity|].
  destruct (isfin a) eqn:Fa; destruct (isfin b) eqn:Fb.
  - apply (at_least_fin l a Fl Fa) in Ha. apply (at_least_fin fone b fone_fin Fb) in Hb. rewrite fone_R in Hb.
    apply (rounded_at_least l (fdiv a b) (B2R a / B2R b) Fl).
    + assert (I1 : 0 < / B2R b <= 1) by (split; [apply Rinv_0_lt_compat; lra|rewrite <- Rinv_1; apply Rinv_le; lra]).
      unfold Rdiv. destruct (Rle_lt_dec 0 (B2R a)); [|nra]. assert (0 <= B2R a * / B2R b) by (apply Rmult_le_pos; lra). lra.
    + assert (NB : B2R b <> 0) by lra.
      pose proof (Bdiv_correct 53 1024 _ _ mode_NE a b NB) as H. change (Bdiv mode_NE a b) with (fdiv a b) in H.
      change (round radix2 (SpecFloat.fexp 53 1024) (round_mode mode_NE) (B2R a / B2R b)) with (rnd (B2R a / B2R b)) in H. fold big in H.
      destruct (Rlt_bool_spec (Rabs (rnd (B2R a / B2R b))) big) as [L|L].
      * destruct H as (H1 & H2 & _). split; [exact H1|]. unfold isfin in *. rewrite H2. exact Fa.
      * exists (xorb (Bsign a) (Bsign b)). split; [apply overflow_inf, H|]. intros S.
        rewrite (Bsign_pos_B2R b Fb), xorb_false_r in S by lra. pose proof (Bsign_true_neg a Fa S).
        assert (NA : B2R a <> 0). { intros E. rewrite E in L. unfold Rdiv in L. rewrite Rmult_0_l, rnd_0, Rabs_R0 in L. pose proof big_pos. lra. }
        apply Rmult_lt_reg_r with (B2R b); [lra|]. unfold Rdiv. rewrite Rmult_assoc, Rinv_l by exact NB. lra.
  - destruct b as [s|s| |s m e Hm]; try discriminate.
    destruct a as [t|t| |t m e Hm]; try discriminate; apply fin_at_least; try exact Fl; try reflexivity; cbn; exact Pl.
  - destruct a as [s|s| |s m e Hm]; try discriminate. rewrite (at_least_inf l s Fl Ha).
    apply (at_least_fin fone b fone_fin Fb) in Hb. rewrite fone_R in Hb.
    destruct b as [t|t| |t m e Hm]; try discriminate; [cbn in Hb; lra|].
    assert (S : Bsign (B754_finite t m e Hm) = false) by (apply Bsign_pos_B2R; [reflexivity|lra]). cbn in S. subst t.
    apply inf_at_least, Fl.
  - left. destruct a; try discriminate; destruct b; try discriminate; reflexivity.
Qed.

(** Division of a non-negative number by a positive one. *)
Lemma div_nonneg a b : at_least fzero a -> isfin b = true -> 0 < B2R b -> at_least fzero (fdiv a b).
Proof.
  intros Ha Fb Pb. destruct (isnan a) eqn:Na; [left; destruct a; try discriminate; destruct b; reflexivity|].
  destruct (isfin a) eqn:Fa.
  - apply (at_least_fin fzero a eq_refl Fa) in Ha. cbn in Ha.
    apply (rounded_at_least fzero (fdiv a b) (B2R a / B2R b) eq_refl).
    + cbn. apply Rmult_le_pos; [exact Ha|]. apply Rlt_le, Rinv_0_lt_compat, Pb.
    + assert (NB : B2R b <> 0) by lra.
      pose proof (Bdiv_correct 53 1024 _ _ mode_NE a b NB) as H. change (Bdiv mode_NE a b) with (fdiv a b) in H.
      change (round radix2 (SpecFloat.fexp 53 1024) (round_mode mode_NE) (B2R a / B2R b)) with (rnd (B2R a / B2R b)) in H. fold big in H.
      destruct (Rlt_bool_spec (Rabs (rnd (B2R a / B2R b))) big) as [L|L].
      * destruct H as (H1 & H2 & _). split; [exact H1|]. unfold isfin in *. rewrite H2. exact Fa.
      * exists (xorb (Bsign a) (Bsign b)). split; [apply overflow_inf, H|]. intros S.
        rewrite (Bsign_pos_B2R b Fb Pb), xorb_false_r in S. pose proof (Bsign_true_neg a Fa S).
        assert (Z : B2R a = 0) by lra. rewrite Z in L. unfold Rdiv in L. rewrite Rmult_0_l, rnd_0, Rabs_R0 in L. pose proof big_pos. lra.
  - destruct a as [s|s| |s m e Hm]; try discriminate. rewrite (at_least_inf fzero s eq_refl Ha).
    destruct b as [t|t| |t m e Hm]; try discriminate; [cbn in Pb; lra|].
    assert (S : Bsign (B754_finite t m e Hm) = false) by (apply Bsign_pos_B2R; [reflexivity|exact Pb]). cbn in S. subst t.
    apply inf_at_least. reflexivity.
Qed.
