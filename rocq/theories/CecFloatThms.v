(** The CEC 2014 functions in binary64: at the shift, from below, and for numbers that are not finite. *)
From Coq Require Import List ZArith Bool Lia Reals Lra.
From Flocq Require Import Core IEEE754.BinarySingleNaN.
From Verif Require Import PyBase B64 B64More Rand Trunc Sign FloatLow BenchFloat BenchFloatThms BenchNan CecFloat.
Import ListNotations.
Local Open Scope res_scope.
Open Scope R_scope.

(* ---------------- hypotheses ---------------- *)
(** The files that come with the package: 100 finite numbers for each shift, d * d finite numbers for
    each rotation, and rotations for the dimensions 2, 10, 20, 30, 50 and 100 only. *)
Definition shipped_f (D : data_f) : Prop := forall k, (1 <= k <= 16)%nat ->
  (exists l, shift_nums D k = Some l /\ length l = 100%nat /\ forall v, In v l -> isfin v = true) /\
  forall d, (In d [2; 10; 20; 30; 50; 100]%nat -> exists l, rot_nums D k d = Some l /\ length l = (d * d)%nat /\ forall v, In v l -> isfin v = true) /\
            (~ In d [2; 10; 20; 30; 50; 100]%nat -> rot_nums D k d = None).
(** The first d numbers of the shift file. *)
Definition shift_of_f (D : data_f) (d k : nat) : list f64 := match shift_nums D k with Some l => firstn d l | None => [] end.
(** Zero, of either sign. *)
Definition is_zero (v : f64) : Prop := exists s, v = B754_zero s.
(** A row of finite numbers times zeros is zero; a number in the vector that is not finite makes the product not finite. *)
Definition dot_ok (dot : list f64 -> list f64 -> f64) : Prop := forall r v, length r = length v ->
  ((forall a, In a r -> isfin a = true) -> (forall a, In a v -> is_zero a) -> is_zero (dot r v)) /\
  (forall a, In a v -> isfin a = false -> isfin (dot r v) = false).
(** Squares and cos of -0.0 are those of 0.0, and round(-0.0) is a zero. *)
Definition signless (m : libm) : Prop :=
  m_sq m (B754_zero true) = fzero /\ m_cos m (B754_zero true) = fone /\ is_zero (m_round m (B754_zero true)).
(** exp is not negative, at most 1 for arguments up to 0 and at most np.e for arguments up to 1. *)
Definition exp_bounded (m : libm) : Prop :=
  (forall v, at_least fzero (m_exp m v)) /\ (forall v, at_most fzero v -> at_most fone (m_exp m v)) /\ (forall v, at_most fone v -> at_most np_e (m_exp m v)).

(* ---------------- zeros ---------------- *)
Lemma zero_of_R (v : f64) : isfin v = true -> B2R v = 0 -> is_zero v.
Proof.
  intros F E. destruct v as [s|s| |s mm e Hm]; try discriminate; [exists s; reflexivity|]. exfalso.
  cbn in E. apply eq_0_F2R in E. destruct s; discriminate.
Qed.
Lemma sub_self (v : f64) : isfin v = true -> is_zero (fsub v v).
Proof.
  intros F. destruct (fsub_fin v v F F) as [F' E].
  - rewrite Rminus_diag_eq, rnd_0, Rabs_R0 by reflexivity. apply big_pos.
  - apply zero_of_R; [exact F'|]. rewrite E, Rminus_diag_eq, rnd_0; reflexivity.
Qed.
Lemma mul_zero (c v : f64) : isfin c = true -> is_zero v -> is_zero (fmul c v).
Proof. intros F [s ->]. destruct c as [t|t| |t mm e Hm]; try discriminate; eexists; reflexivity. Qed.
Lemma div_zero (v c : f64) : isfin c = true -> B2R c <> 0 -> is_zero v -> is_zero (fdiv v c).
Proof. intros F N [s ->]. destruct c as [t|t| |t mm e Hm]; try discriminate; [exfalso; apply N; reflexivity|eexists; reflexivity]. Qed.
Lemma add_zero (a v : f64) : is_zero a -> is_zero v -> is_zero (fadd a v).
Proof. intros [s ->] [t ->]. destruct s, t; eexists; reflexivity. Qed.
Lemma zero_plus_one v : is_zero v -> fadd v fone = fone.
Proof. intros [s ->]. destruct s; apply B2SF_inj; vm_compute; reflexivity. Qed.

Section Zeros.
Variable (m : libm).
Hypothesis Hm : libm_ok m.
Hypothesis Hs : signless m.
Lemma sqz v : is_zero v -> m_sq m v = fzero.
Proof. intros [[] ->]; [apply Hs|apply sq0, Hm]. Qed.
Lemma cosz v : is_zero v -> m_cos m v = fone.
Proof. intros [[] ->]; [apply Hs|apply cos0, Hm]. Qed.
Lemma roundz v : is_zero v -> is_zero (m_round m v).
Proof. intros [[] ->]; [apply Hs|]. exists false. apply Hm. Qed.
Variables (d : nat) (z : list f64).
Hypothesis Hd : In d dims.
Hypothesis Lz : length z = d.
Hypothesis Hz : forall a, In a z -> is_zero a.
Let H1 : (1 <= d)%nat. Proof. cbn in Hd. lia. Qed.
Lemma get_zero i : (i < d)%nat -> is_zero (getf i z).
Proof. intros H. apply Hz, nth_In. lia. Qed.

Lemma bent_at0 : evaluates_to (bent_cigar_f m d z) (Z2f 0).
Proof.
  apply zero_value. unfold bent_cigar_f. cbv zeta. rewrite reads_full by exact Lz. rewrite sqz by (apply get_zero; lia).
  rewrite addf_zero; [reflexivity|]. intros i Hi. apply span_lt in Hi. apply sqz, get_zero. lia.
Qed.
Lemma discus_at0 : evaluates_to (discus_f m d z) (Z2f 0).
Proof.
  apply zero_value. unfold discus_f. rewrite reads_full by exact Lz. rewrite sqz by (apply get_zero; lia).
  assert (E : fmul (Z2f 1000000) fzero = fzero) by (vm_compute; reflexivity). rewrite E.
  rewrite addf_zero; [reflexivity|]. intros i Hi. apply span_lt in Hi. apply sqz, get_zero. lia.
Qed.
Lemma plus1_at0 : plus1_f z = repeat fone d.
Proof.
  unfold plus1_f. rewrite <- Lz. clear Hd Lz H1. induction z as [|a l IH]; [reflexivity|]. cbn [map repeat length].
  rewrite zero_plus_one by (apply Hz; left; reflexivity). f_equal. apply IH. intros b Hb. apply Hz. right. exact Hb.
Qed.
Lemma griewank_at0 : evaluates_to (griewank_f m d z) (Z2f 0).
Proof.
  apply zero_value. unfold griewank_f. cbv zeta. rewrite reads_full by exact Lz. rewrite addf_zero.
  2:{ intros i Hi. apply span_lt in Hi. rewrite sqz by (apply get_zero; lia). vm_compute. reflexivity. }
  match goal with |- context [fold_left ?f ?l fzero] => assert (G : fold_left f l fzero = fzero) end.
  { assert (HI : forall i, In i (span 1 d) -> (1 <= i < d)%nat) by (intros i; apply span_lt). revert HI.
    generalize (span 1 d) as l. induction l as [|i l IH]; intros HI; [reflexivity|]. cbn [fold_left].
    assert (Hi : (1 <= i < d)%nat) by (apply HI; left; reflexivity).
    rewrite cosz.
    - assert (E2 : fmul fzero (fadd fone fone) = fzero) by (vm_compute; reflexivity). rewrite E2. apply IH. intros j Hj. apply HI. right. exact Hj.
    - assert (Q : exists w, fsqrt (nat_f i) = w /\ isfin w = true /\ B2R w <> 0).
      { exists (fsqrt (nat_f i)). split; [reflexivity|].
        assert (T : forallb (fun k => isfin (fsqrt (nat_f (S k))) && flt fzero (fsqrt (nat_f (S k)))) (seq 0 100) = true) by (vm_compute; reflexivity).
        rewrite forallb_forall in T. specialize (T (i - 1)%nat ltac:(apply in_seq; cbn in Hd; lia)). replace (S (i - 1)) with i in T by lia.
        apply andb_prop in T as [T1 T2]. split; [exact T1|]. intros E0. destruct (fsqrt (nat_f i)) as [s|s| |s mm e Hb]; try discriminate.
        cbn in E0. apply eq_0_F2R in E0. destruct s; discriminate. }
      destruct Q as (w & -> & Fw & Nw). apply div_zero; [exact Fw|exact Nw|]. apply get_zero. lia. }
  rewrite G. reflexivity.
Qed.
Lemma two_pi_fin : isfin (fmul (Z2f 2) np_pi) = true. Proof. vm_compute. reflexivity. Qed.
Lemma rastrigin_at0 : evaluates_to (Ok (rastrigin_f m z)) (Z2f 0).
Proof.
  apply zero_value. unfold rastrigin_f. rewrite Lz. f_equal. apply addf_zero. intros i Hi. apply span_lt in Hi.
  rewrite sqz by (apply get_zero; lia). rewrite cosz by (apply mul_zero; [apply two_pi_fin|apply get_zero; lia]). vm_compute. reflexivity.
Qed.
Lemma elliptic_at0 : d <> 1%nat -> evaluates_to (elliptic_f m z) (Z2f 0).
Proof.
  intros N. destruct (elliptic_zero m Hm d Hd N) as (v & E & V). exists v. split; [|exact V]. rewrite <- E. unfold elliptic_f.
  rewrite repeat_length, Lz, (proj2 (Nat.eqb_neq d 1)) by exact N. f_equal. apply addf_ext. intros i Hi. apply span_lt in Hi.
  rewrite get_repeat, sqz, sq0 by (exact Hm || (try apply get_zero; lia)). reflexivity.
Qed.
Lemma power_fin j : (1 <= j < 32)%nat -> isfin (Z2f (2 ^ Z.of_nat j)) = true /\ B2R (Z2f (2 ^ Z.of_nat j)) <> 0.
Proof.
  intros H. assert (P : (1 <= 2 ^ Z.of_nat j <= 2 ^ 53)%Z) by (split; [apply (Z.pow_le_mono_r 2 0)|apply Z.pow_le_mono_r]; lia).
  destruct (small_Z (2 ^ Z.of_nat j)) as [F R]; [lia|]. split; [exact F|]. rewrite R. apply (IZR_neq _ 0). lia.
Qed.
Lemma katsuura_at0 : evaluates_to (katsuura_f m d z) (Z2f 0).
Proof.
  unfold katsuura_f. cbv zeta.
  assert (A : forall i j, (1 <= i <= d)%nat -> (1 <= j < 32)%nat -> is_zero (fmul (getf (i - 1) z) (Z2f (2 ^ Z.of_nat j)))).
  { intros i j Hi Hj. rewrite fmul_comm. apply mul_zero; [apply power_fin, Hj|apply get_zero; lia]. }
  assert (FN : find (fun v : f64 => negb (isfin v))
     (flat_map (fun i => map (fun j => fmul (getf (i - 1) z) (Z2f (2 ^ Z.of_nat j))) (span 1 32)) (span 1 (d + 1))) = None).
  { destruct (find _ _) as [v|] eqn:E; [|reflexivity]. exfalso. apply find_some in E as [Hin Hv]. apply in_flat_map in Hin as (i & Hi & Hv2).
    apply in_map_iff in Hv2 as (j & E & Hj). apply span_lt in Hi. apply span_lt in Hj. destruct (A i j ltac:(lia) Hj) as [s Es]. rewrite Es in E. subst v. discriminate. }
  rewrite FN. rewrite reads_full by exact Lz.
  match goal with |- context [fold_left ?f ?l fone] => assert (G : fold_left f l fone = fone) end.
  { assert (HI : forall i, In i (span 1 (d + 1)) -> (1 <= i <= d)%nat) by (intros i Hi; apply span_lt in Hi; lia). revert HI.
    generalize (span 1 (d + 1)) as l. induction l as [|i l IH]; intros HI; [reflexivity|]. cbn [fold_left].
    assert (Hi : (1 <= i <= d)%nat) by (apply HI; left; reflexivity).
    rewrite addf_zero.
    - rewrite (nat_times_zero i) by (cbn in Hd; lia). rewrite one_plus_0. destruct Hm as (_ & (_ & _ & _ & Hp & _) & _). rewrite Hp, one_times_1.
      apply IH. intros j Hj. apply HI. right. exact Hj.
    - intros j Hj. apply span_lt in Hj. specialize (A i j Hi Hj). pose proof (roundz _ A) as [t Et]. rewrite Et. destruct A as [s ->].
      assert (E : fabs (fsub (B754_zero s) (B754_zero t)) = fzero) by (destruct s, t; reflexivity). rewrite E. apply zero_over_power. lia. }
  rewrite G. eexists. split; [reflexivity|]. apply (last_step d Hd).
Qed.
Lemma ackley_at0 : evaluates_to (ackley_f m d z) (lit 1 (-51)).
Proof.
  destruct (ackley_off m Hm d Hd) as (v & E & V). exists v. split; [|exact V]. rewrite <- E. unfold ackley_f. cbv zeta.
  rewrite !reads_full by (exact Lz || apply repeat_length).
  rewrite (addf_ext (fun i => m_sq m (getf i z)) (fun i => m_sq m (getf i (repeat fzero d)))).
  - rewrite (addf_ext (fun i => m_cos m (fmul (fmul (getf i z) (Z2f 2)) np_pi)) (fun i => m_cos m (fmul (fmul (getf i (repeat fzero d)) (Z2f 2)) np_pi))); [reflexivity|].
    intros i Hi. apply span_lt in Hi. rewrite get_repeat by lia. rewrite !cosz; [reflexivity| |].
    + apply (mul_zero fzero fzero); [reflexivity|exists false; reflexivity].
    + rewrite fmul_comm. apply mul_zero; [vm_compute; reflexivity|]. rewrite fmul_comm. apply mul_zero; [vm_compute; reflexivity|]. apply get_zero. lia.
  - intros i Hi. apply span_lt in Hi. rewrite get_repeat, sqz, sq0 by (exact Hm || (try apply get_zero; lia)). reflexivity.
Qed.
End Zeros.

(* ---------------- Ackley's function from below ---------------- *)
Lemma fin_small (x : R) : Rabs x <= IZR (2 ^ 53) -> Rabs (rnd x) < big.
Proof.
  intros H. apply Rle_lt_trans with (IZR (2 ^ 53)); [|apply big_gt_2_53]. apply Rabs_le_inv in H. apply Rabs_le. split.
  - rewrite <- opp_IZR. apply Z_le_rnd; [lia|]. rewrite opp_IZR. lra.
  - apply rnd_le_Z; [lia|]. lra.
Qed.
Lemma add_lower (a a' b : f64) : isfin a = true -> isfin a' = true -> isfin b = true -> Rabs (B2R a) <= 1000 -> Rabs (B2R a') <= 1000 -> Rabs (B2R b) <= 1000 ->
  B2R a' <= B2R a -> isfin (fadd a b) = true /\ isfin (fadd a' b) = true /\ B2R (fadd a' b) <= B2R (fadd a b).
Proof.
  intros Fa Fa' Fb Ba Ba' Bb H. apply Rabs_le_inv in Ba, Ba', Bb. assert (B : 2000 <= IZR (2 ^ 53)) by (apply (IZR_le 2000); lia).
  destruct (fadd_fin a b Fa Fb) as [F E]; [apply fin_small; apply Rabs_le; lra|].
  destruct (fadd_fin a' b Fa' Fb) as [F' E']; [apply fin_small; apply Rabs_le; lra|].
  split; [exact F|]. split; [exact F'|]. rewrite E, E'. apply rnd_le. lra.
Qed.
Lemma at_most_cases (u v : f64) : isfin u = true -> at_least fzero v -> at_most u v -> isnan v = true \/ (isfin v = true /\ 0 <= B2R v <= B2R u).
Proof.
  intros Fu L U. destruct (isnan v) eqn:N; [left; reflexivity|]. right. destruct (isfin v) eqn:F.
  - split; [reflexivity|]. split; [apply (at_least_fin fzero v eq_refl F L)|apply (at_most_fin u v Fu F U)].
  - exfalso. destruct v as [s|s| |s mm e Hb]; try discriminate. pose proof (at_least_inf fzero s eq_refl L). pose proof (at_most_inf u s Fu U). congruence.
Qed.
Lemma add_count k (a c : f64) : (Z.of_nat k < 2 ^ 52)%Z -> at_most (nat_f k) a -> at_most fone c -> at_most (nat_f (S k)) (fadd a c).
Proof.
  intros Hk Ha Hc. destruct (small_Z (Z.of_nat k)) as [Fk Rk]; [lia|]. destruct (small_Z (Z.of_nat (S k))) as [Fs Rs]; [lia|].
  fold (nat_f k) in Fk, Rk. fold (nat_f (S k)) in Fs, Rs.
  destruct (isnan a) eqn:Na; [left; destruct a; try discriminate; destruct c; reflexivity|].
  destruct (isnan c) eqn:Nc; [left; destruct c; try discriminate; destruct a; reflexivity|].
  assert (BOT : at_most (nat_f (S k)) (B754_infinity true)) by (right; destruct (nat_f (S k)) as [s|s| |s mm e Hb]; try discriminate; destruct s; reflexivity).
  destruct (isfin a) eqn:Fa; destruct (isfin c) eqn:Fc.
  - apply (at_most_fin _ a Fk Fa) in Ha. apply (at_most_fin fone c fone_fin Fc) in Hc.
    rewrite fone_R in Hc. rewrite Rk in Ha.
    assert (UP : rnd (B2R a + B2R c) <= IZR (Z.of_nat (S k))) by (apply rnd_le_Z; [lia|]; rewrite Nat2Z.inj_succ, succ_IZR; lra).
    pose proof (Bplus_correct 53 1024 _ _ mode_NE a c Fa Fc) as H. change (Bplus mode_NE a c) with (fadd a c) in H.
    change (round radix2 (SpecFloat.fexp 53 1024) (round_mode mode_NE) (B2R a + B2R c)) with (rnd (B2R a + B2R c)) in H. fold big in H.
    destruct (Rlt_bool_spec (Rabs (rnd (B2R a + B2R c))) big) as [L|L].
    + destruct H as (H1 & H2 & _). right. apply (proj2 (fle_fin _ _ H2 Fs)). rewrite H1, Rs. exact UP.
    + destruct H as [H1 H2]. apply overflow_inf in H1. rewrite H1. destruct (Bsign a) eqn:S; [exact BOT|]. exfalso.
      pose proof (Bsign_false_pos a Fa S). symmetry in H2. pose proof (Bsign_false_pos c Fc H2).
      rewrite Rabs_pos_eq in L by (apply rnd_ge_0; lra). pose proof big_gt_2_53. pose proof (IZR_le (Z.of_nat (Datatypes.S k)) (2 ^ 53) ltac:(lia)). lra.
  - destruct c as [s|s| |s mm e Hb]; try discriminate. rewrite (at_most_inf fone s fone_fin Hc).
    destruct a; try discriminate; exact BOT.
  - destruct a as [s|s| |s mm e Hb]; try discriminate. rewrite (at_most_inf _ s Fk Ha). destruct c; try discriminate; exact BOT.
  - destruct a as [s|s| |s mm e Hb]; try discriminate. destruct c as [s'|s'| |s' mm e Hb]; try discriminate.
    rewrite (at_most_inf _ s Fk Ha), (at_most_inf fone s' fone_fin Hc). exact BOT.
Qed.
Lemma addf_count f l : (forall i, at_most fone (f i)) -> forall k a, (Z.of_nat (k + length l) <= 2 ^ 52)%Z -> at_most (nat_f k) a -> at_most (nat_f (k + length l)) (addf a f l).
Proof.
  intros H. induction l as [|i l IH]; intros k a Hk Ha; cbn [length] in *; [rewrite Nat.add_0_r; exact Ha|].
  unfold addf. cbn [fold_left]. change (at_most (nat_f (k + S (length l))) (addf (fadd a (f i)) f l)). rewrite Nat.add_succ_r in *. apply (IH (S k)); [exact Hk|].
  apply add_count; [lia|exact Ha|apply H].
Qed.
Lemma div_count n v : (1 <= n)%nat -> (Z.of_nat n <= 2 ^ 52)%Z -> at_most (nat_f n) v -> at_most fone (fdiv v (nat_f n)).
Proof.
  intros H1 Hn Hv. destruct (small_Z (Z.of_nat n)) as [Fn Rn]; [lia|]. fold (nat_f n) in Fn, Rn.
  assert (P : 1 <= B2R (nat_f n)) by (rewrite Rn; apply (IZR_le 1); lia).
  assert (I1 : 0 < / B2R (nat_f n) <= 1) by (split; [apply Rinv_0_lt_compat; lra|rewrite <- Rinv_1; apply Rinv_le; lra]).
  destruct (isnan v) eqn:Nv; [left; destruct v; try discriminate; reflexivity|].
  destruct (isfin v) eqn:Fv.
  - apply (at_most_fin _ v Fn Fv) in Hv.
    assert (UP : rnd (B2R v / B2R (nat_f n)) <= 1).
    { apply (rnd_le_Z _ 1); [lia|]. apply Rmult_le_reg_r with (B2R (nat_f n)); [lra|]. unfold Rdiv. rewrite Rmult_assoc, Rinv_l by lra. lra. }
    pose proof (B2R_lt_big v) as Bv.
    assert (Q : Rabs (rnd (B2R v / B2R (nat_f n))) < big).
    { destruct (Rle_lt_dec 0 (B2R v)) as [Pv|Nv2].
      - rewrite Rabs_pos_eq; [|apply rnd_ge_0, Rmult_le_pos; lra]. apply Rle_lt_trans with (B2R v); [apply rnd_le_B2R; unfold Rdiv; nra|]. lra.
      - rewrite Rabs_left1; [|apply rnd_le_0; unfold Rdiv; nra]. apply Rle_lt_trans with (- B2R v); [apply Ropp_le_contravar, B2R_le_rnd; unfold Rdiv; nra|]. lra. }
    destruct (fdiv_fin v (nat_f n) Fv ltac:(lra) Q) as [F E].
    right. apply (proj2 (fle_fin _ _ F fone_fin)). rewrite E, fone_R. exact UP.
  - destruct v as [s|s| |s mm e Hb]; try discriminate. rewrite (at_most_inf _ s Fn Hv). right.
    destruct (nat_f n) as [t|t| |t mm e Hb]; try discriminate; [cbn in P; lra|].
    destruct t; [|reflexivity]. exfalso. cbn [B2R] in P. pose proof (F2R_lt_0 radix2 {| Fnum := Zneg mm; Fexp := e |} ltac:(reflexivity)). cbn [cond_Zopp Z.opp] in P. lra.
Qed.

Section Ackley.
Variable (m : libm).
Hypothesis Hm : libm_ok m.
Hypothesis He : exp_bounded m.
Lemma scaled_root v : at_least fzero v -> at_most fzero (fmul (fopp (fdiv (Z2f 2) (Z2f 10))) (fsqrt v)).
Proof.
  intros Hv. assert (S : at_least fzero (fsqrt v)).
  { destruct v as [s|s| |s mm e Hb]; [right; destruct s; reflexivity|destruct s; [left; reflexivity|right; reflexivity]|left; reflexivity|].
    destruct s; [left; reflexivity|]. right.
    pose proof (Bsqrt_correct 53 1024 eq_refl eq_refl mode_NE (B754_finite false mm e Hb)) as (H1 & H2 & H3).
    apply (proj2 (fle_fin fzero _ eq_refl H2)). unfold fsqrt. rewrite H1. apply rnd_ge_0, sqrt_pos. }
  set (c := fopp (fdiv (Z2f 2) (Z2f 10))). set (r := fsqrt v) in *. clearbody r.
  assert (Fc : isfin c = true) by (vm_compute; reflexivity). assert (Nc : flt c fzero = true) by (vm_compute; reflexivity).
  assert (Rc : B2R c < 0) by (apply (proj1 (flt_fin c fzero Fc eq_refl)) in Nc; cbn in Nc; exact Nc).
  assert (R1 : - 1 < B2R c).
  { assert (X : flt (Z2f (-1)) c = true) by (vm_compute; reflexivity). destruct (small_Z (-1)) as [F1 E1]; [lia|]. apply (proj1 (flt_fin _ c F1 Fc)) in X. rewrite E1 in X. exact X. }
  clearbody c. destruct (isnan r) eqn:N; [left; destruct r; try discriminate; destruct c; reflexivity|]. destruct (isfin r) eqn:Fr.
  - apply (at_least_fin fzero r eq_refl Fr) in S. cbn [B2R fzero] in S. pose proof (B2R_lt_big r) as Br.
    destruct (fmul_fin c r Fc Fr) as [F E].
    + rewrite Rabs_left1 by (apply rnd_le_0; nra). apply Rle_lt_trans with (B2R r); [|lra]. apply Ropp_le_cancel. rewrite Ropp_involutive.
      rewrite <- B2R_Bopp. apply B2R_le_rnd. rewrite B2R_Bopp. nra.
    + right. apply (proj2 (fle_fin _ fzero F eq_refl)). rewrite E. cbn [B2R fzero]. apply rnd_le_0. nra.
  - destruct r as [s|s| |s mm e Hb]; try discriminate. rewrite (at_least_inf fzero s eq_refl S).
    destruct c as [t|t| |t mm e Hb]; try discriminate. destruct t; [right; reflexivity|].
    exfalso. cbn [B2R] in Rc. pose proof (F2R_gt_0 radix2 {| Fnum := Zpos mm; Fexp := e |} ltac:(reflexivity)). cbn [cond_Zopp] in Rc. lra.
Qed.
Lemma ackley_low d x v : In d dims -> ackley_f m d x = Ok v -> at_least (lit 1 (-51)) v.
Proof.
  intros Hd E. assert (Hd' : (1 <= d <= 100)%nat) by (cbn in Hd; lia). unfold ackley_f, reads_f in E. cbv zeta in E. destruct (Nat.leb d (length x)); [|discriminate].
  set (s1 := addf fzero (fun i => m_sq m (getf i x)) (span 0 d)) in E.
  set (s2 := addf fzero (fun i => m_cos m (fmul (fmul (getf i x) (Z2f 2)) np_pi)) (span 0 d)) in E.
  set (e1 := m_exp m (fmul _ _)) in E. set (e2 := m_exp m (fdiv s2 _)) in E.
  assert (v = fadd (fadd (fsub (fmul (Z2f (-20)) e1) e2) (Z2f 20)) np_e) as -> by congruence. clear E.
  destruct He as (Hp & H0 & H1).
  destruct (small_Z (Z.of_nat d)) as [Fd Rd]; [lia|]. fold (nat_f d) in Fd, Rd.
  assert (A1 : isnan e1 = true \/ (isfin e1 = true /\ 0 <= B2R e1 <= 1)).
  { rewrite <- fone_R. apply at_most_cases; [apply fone_fin|apply Hp|]. apply H0, scaled_root.
    apply div_nonneg; [|exact Fd|rewrite Rd; apply (IZR_lt 0); lia]. apply addf_nonneg; [intros i; apply sq_nonneg, Hm|apply at_least_refl]. }
  assert (Fe : isfin np_e = true) by (vm_compute; reflexivity).
  assert (A2 : isnan e2 = true \/ (isfin e2 = true /\ 0 <= B2R e2 <= B2R np_e)).
  { apply at_most_cases; [exact Fe|apply Hp|]. apply H1, div_count; [lia|lia|].
    replace d with (0 + length (span 0 d))%nat at 1 by (unfold span; rewrite seq_length; lia). apply addf_count; [intros i; apply Hm| |apply at_least_refl].
    unfold span. rewrite seq_length. lia. }
  destruct A1 as [N|[F1 B1]]; [left; apply isnan_eq in N; rewrite N; destruct e2; reflexivity|].
  destruct A2 as [N|[F2 B2]]; [left; apply isnan_eq in N; rewrite N, sub_nan_r; reflexivity|].
  clearbody e1 e2. clear s1 s2.
  destruct (small_Z (-20)) as [F20 R20]; [lia|]. destruct (small_Z 20) as [F20' R20']; [lia|]. assert (BB : 1000 <= IZR (2 ^ 53)) by (apply (IZR_le 1000); lia).
  assert (Be : 0 <= B2R np_e <= 3).
  { split; [|apply Rle_trans with (IZR 3)]; [apply (proj1 (fle_fin fzero np_e eq_refl Fe)); vm_compute; reflexivity| |lra].
    destruct (small_Z 3) as [F3 R3]; [lia|]. rewrite <- R3. apply (proj1 (fle_fin np_e _ Fe F3)). vm_compute. reflexivity. }
  destruct (fmul_fin (Z2f (-20)) e1 F20 F1) as [Fa Ea]; [apply fin_small, Rabs_le; rewrite R20; lra|].
  assert (Ba : -20 <= B2R (fmul (Z2f (-20)) e1) <= 0) by (rewrite Ea, R20; split; [apply (Z_le_rnd _ (-20)); [lia|lra]|apply rnd_le_0; lra]).
  set (a := fmul (Z2f (-20)) e1) in *. clearbody a.
  destruct (fsub_fin a e2 Fa F2) as [Fb Eb]; [apply fin_small, Rabs_le; lra|].
  destruct (fsub_fin (Z2f (-20)) np_e F20 Fe) as [Fb' Eb']; [apply fin_small, Rabs_le; rewrite R20; lra|].
  assert (Lb : B2R (fsub (Z2f (-20)) np_e) <= B2R (fsub a e2)) by (rewrite Eb, Eb'; apply rnd_le; rewrite R20; lra).
  assert (Ub : B2R (fsub a e2) <= 0) by (rewrite Eb; apply rnd_le_0; lra).
  assert (Db : - 23 <= B2R (fsub (Z2f (-20)) np_e)) by (rewrite Eb'; apply (Z_le_rnd _ (-23)); [lia|]; rewrite R20; lra).
  set (b := fsub a e2) in *. set (b' := fsub (Z2f (-20)) np_e) in *.
  assert (V : lit 1 (-51) = fadd (fadd b' (Z2f 20)) np_e) by (apply B2SF_inj; vm_compute; reflexivity).
  clearbody b. destruct (add_lower b b' (Z2f 20) Fb Fb' F20') as (Fc & Fc' & Lc); try (apply Rabs_le; lra); [exact Lb|].
  assert (Uc : B2R (fadd b (Z2f 20)) <= 20).
  { destruct (fadd_fin b (Z2f 20) Fb F20') as [_ Ec]; [apply fin_small, Rabs_le; rewrite R20'; lra|]. rewrite Ec. apply (rnd_le_Z _ 20); [lia|]. rewrite R20'. lra. }
  assert (Dc : -3 <= B2R (fadd b' (Z2f 20))).
  { destruct (fadd_fin b' (Z2f 20) Fb' F20') as [_ Ec]; [apply fin_small, Rabs_le; rewrite R20'; lra|]. rewrite Ec. apply (Z_le_rnd _ (-3)); [lia|]. rewrite R20'. lra. }
  destruct (add_lower (fadd b (Z2f 20)) (fadd b' (Z2f 20)) np_e Fc Fc' Fe) as (Fv & Fv' & Lv); try (apply Rabs_le; lra); [exact Lc|].
  rewrite V. apply fin_at_least; [exact Fv'|exact Fv|exact Lv].
Qed.
End Ackley.

(* ---------------- shift and rotation ---------------- *)
Definition factor_fin (c : option f64) : Prop := match c with None => True | Some c => isfin c = true end.
Lemma shift_f D d k : shipped_f D -> (1 <= k <= 16)%nat -> (d <= 100)%nat ->
  length (shift_of_f D d k) = d /\ load_shift_f D d k = Ok (shift_of_f D d k) /\ forall v, In v (shift_of_f D d k) -> isfin v = true.
Proof.
  intros HD Hk Hd. destruct (HD k Hk) as ((l & El & Hl & Fl) & _). unfold shift_of_f, load_shift_f. rewrite El. split; [rewrite firstn_length; lia|]. split; [reflexivity|].
  intros v Hv. apply Fl. rewrite <- (firstn_skipn d l). apply in_or_app. left. exact Hv.
Qed.
(** What is known of a vector computed from [x] and the shift [s]. *)
Definition moved (x s z : list f64) : Prop :=
  length z = length s /\ (x = s -> forall a, In a z -> is_zero a) /\ (forall i, (i < length s)%nat -> isfin (getf i x) = false -> exists a, In a z /\ isfin a = false).
Lemma sub_moved x s : length x = length s -> (forall v, In v s -> isfin v = true) -> exists v, np_sub_f x s = Ok v /\ moved x s v.
Proof.
  intros H F. unfold np_sub_f. rewrite (proj2 (Nat.eqb_eq _ _) H). eexists. split; [reflexivity|]. split; [rewrite map_length, combine_length; lia|]. split.
  - intros -> a Ha. apply in_map_iff in Ha as ((p & q) & <- & Hp). cbn [fst snd].
    assert (E : forall l : list f64, In (p, q) (combine l l) -> p = q /\ In p l).
    { induction l as [|b l IH]; cbn [combine]; intros [].
      - assert (b = p) by congruence. assert (b = q) by congruence. subst. split; [reflexivity|left; reflexivity].
      - destruct (IH H0). split; [assumption|right; assumption]. }
    destruct (E s Hp) as [-> Hq]. apply sub_self, F, Hq.
  - intros i Hi B. exists (fsub (getf i x) (getf i s)). split; [|apply sub_bad; left; exact B].
    apply in_map_iff. exists (getf i x, getf i s). split; [reflexivity|]. unfold getf. rewrite <- combine_nth by exact H. apply nth_In. rewrite combine_length. lia.
Qed.
Lemma times_moved c x s v : factor_fin c -> moved x s v -> moved x s (times c v).
Proof.
  intros Fc (L & Z & B). destruct c as [c|]; [|split; [exact L|split; [exact Z|exact B]]]. cbn [times factor_fin] in *. split; [rewrite map_length; exact L|]. split.
  - intros E a Ha. apply in_map_iff in Ha as (b & <- & Hb). apply mul_zero; [exact Fc|apply (Z E), Hb].
  - intros i Hi N. destruct (B i Hi N) as (a & Ha & Na). exists (fmul c a). split; [apply in_map, Ha|apply mul_bad; right; exact Na].
Qed.
Lemma shifted_moved D d k c x : shipped_f D -> (1 <= k <= 16)%nat -> (d <= 100)%nat -> length x = d -> factor_fin c ->
  exists z, shifted_f D d k c x = Ok z /\ moved x (shift_of_f D d k) z.
Proof.
  intros HD Hk Hd L Fc. destruct (shift_f D d k HD Hk Hd) as (Ls & Es & Fs). destruct (sub_moved x (shift_of_f D d k) ltac:(congruence) Fs) as (v & Ev & Hv).
  exists (times c v). unfold shifted_f. rewrite Es. cbn [rbind]. rewrite Ev. split; [reflexivity|]. apply times_moved; assumption.
Qed.
Lemma rotated_moved dot D d k c x : dot_ok dot -> shipped_f D -> (1 <= k <= 16)%nat -> In d dims -> d <> 1%nat -> length x = d -> factor_fin c ->
  exists z, rotated_f dot D d k c x = Ok z /\ length z = d /\ (x = shift_of_f D d k -> forall a, In a z -> is_zero a) /\
            (forall i, (i < d)%nat -> isfin (getf i x) = false -> forall a, In a z -> isfin a = false).
Proof.
  intros Hdot HD Hk Hd N1 L Fc. assert (Hd' : (d <= 100)%nat) by (cbn in Hd; lia).
  destruct (shift_f D d k HD Hk Hd') as (Ls & Es & Fs). destruct (sub_moved x (shift_of_f D d k) ltac:(congruence) Fs) as (v & Ev & Hv).
  apply (times_moved c) in Hv; [|exact Fc]. destruct Hv as (Lv & Zv & Bv).
  destruct (HD k Hk) as (_ & HR). destruct (proj1 (HR d)) as (l & El & Ll & Fl); [cbn in Hd |- *; repeat (destruct Hd as [Hd|Hd]; [subst d; try (exfalso; apply N1; reflexivity); tauto|]); destruct Hd|].
  unfold rotated_f. rewrite Es. cbn [rbind]. rewrite Ev. cbn [rbind]. unfold load_rot_f. rewrite El, (proj2 (Nat.eqb_eq _ _) Ll). cbn [rbind].
  unfold np_dot_f. rewrite map_length, seq_length, Lv, Ls, Nat.eqb_refl. eexists. split; [reflexivity|]. split; [rewrite !map_length, seq_length; reflexivity|].
  assert (LR : forall i, length (map (fun j => getf (i * d + j) l) (seq 0 d)) = length (times c v)) by (intros i; rewrite map_length, seq_length; congruence). split.
  - intros E a Ha. apply in_map_iff in Ha as (r & <- & Hr). apply in_map_iff in Hr as (i & <- & Hi). apply in_seq in Hi.
    apply (proj1 (Hdot _ _ (LR i))); [|exact (Zv E)]. intros b Hb. apply in_map_iff in Hb as (j & <- & Hj). apply in_seq in Hj. apply Fl, nth_In. nia.
  - intros i Hi B a Ha. apply in_map_iff in Ha as (r & <- & Hr). apply in_map_iff in Hr as (i' & <- & Hi'). 
    destruct (Bv i ltac:(lia) B) as (b & Hb & Nb). apply (proj2 (Hdot _ _ (LR i')) b Hb Nb).
Qed.
Lemma rotated_missing dot D k c x : shipped_f D -> (1 <= k <= 16)%nat -> length x = 1%nat -> rotated_f dot D 1 k c x = Raise FileNotFoundError.
Proof.
  intros HD Hk HL. destruct (shift_f D 1 k HD Hk ltac:(lia)) as (Ls & Es & Fs). destruct (sub_moved x (shift_of_f D 1 k) ltac:(congruence) Fs) as (v & Ev & _).
  unfold rotated_f. rewrite Es. cbn [rbind]. rewrite Ev. cbn [rbind]. unfold load_rot_f. destruct (HD k Hk) as (_ & HR). rewrite (proj2 (HR 1%nat)); [reflexivity|cbn; lia].
Qed.

(* ---------------- at the shift ---------------- *)
Lemma bias_zero b r : isfin (Z2f b) = true -> b <> 0%Z -> (Z.abs b <= 2 ^ 53)%Z -> evaluates_to r (Z2f 0) -> evaluates_to (bias_f b r) (Z2f b).
Proof.
  intros Fb Nb Bb (v & -> & E). destruct (small_Z b Bb) as [_ Rb]. exists (fadd v (Z2f b)). split; [reflexivity|].
  assert (F : isfin v = true) by (destruct v as [s|s| |s mm e Hb]; try reflexivity; try discriminate; destruct s; discriminate).
  assert (Z0 : is_zero v).
  { destruct v as [s|s| |[] mm e Hb]; try discriminate; [exists s; reflexivity]. }
  destruct Z0 as [s ->]. destruct (Z2f b) as [t|t| |t mm e Hb] eqn:Eb; try discriminate.
  - exfalso. cbn in Rb. apply Nb. apply eq_IZR. lra.
  - change (fadd (B754_zero s) (B754_finite t mm e Hb)) with (B754_finite t mm e Hb : f64). apply feq_refl. reflexivity.
Qed.
Lemma factors_fin : isfin (fdiv (quot 2048 1000) (Z2f 100)) = true /\ isfin (fdiv half (Z2f 100)) = true /\ isfin (quot 600 100) = true /\
  isfin (fdiv (quot 512 100) (Z2f 100)) = true /\ isfin (Z2f 10) = true /\ isfin (quot 5 100) = true.
Proof. repeat split; vm_compute; reflexivity. Qed.
Lemma feq_isfin (a b : f64) : feq a b = true -> isfin b = true -> isfin a = true.
Proof. intros E F. destruct a as [s|s| |s mm e Hb]; [reflexivity| | |reflexivity]; destruct b as [t|t| |t mm e Hb]; try discriminate; destruct s; try discriminate; destruct t; discriminate. Qed.
Lemma bias_ackley b r : (0 <= b <= 2 ^ 50)%Z -> evaluates_to r (lit 1 (-51)) -> feq (fadd (lit 1 (-51)) (Z2f b)) (Z2f b) = true -> evaluates_to (bias_f b r) (Z2f b).
Proof.
  intros Hb (v & -> & E) H. exists (fadd v (Z2f b)). split; [reflexivity|].
  assert (Fl : isfin (lit 1 (-51)) = true) by (vm_compute; reflexivity). pose proof (feq_isfin _ _ E Fl) as Fv.
  apply (proj1 (feq_fin _ _ Fv Fl)) in E. apply feq_trans with (2 := H). destruct (small_Z b ltac:(lia)) as [Fb Rb].
  assert (Bl : 0 <= B2R (lit 1 (-51)) <= 1).
  { split; [apply (proj1 (fle_fin fzero _ eq_refl Fl)); vm_compute; reflexivity|]. rewrite <- fone_R. apply (proj1 (fle_fin _ fone Fl fone_fin)). vm_compute. reflexivity. }
  assert (B : Rabs (rnd (B2R (lit 1 (-51)) + B2R (Z2f b))) < big).
  { apply fin_small. rewrite Rb. pose proof (IZR_le 0 b ltac:(lia)). pose proof (IZR_le (b + 1) (2 ^ 53) ltac:(lia)) as X. rewrite plus_IZR in X. apply Rabs_le. lra. }
  destruct (fadd_fin _ _ Fl Fb B) as [F1 E1]. rewrite <- E in B. destruct (fadd_fin _ _ Fv Fb B) as [F2 E2]. rewrite E in E2. apply (proj2 (feq_fin _ _ F2 F1)). congruence.
Qed.

Lemma at_shift m dot D d k : libm_ok m -> signless m -> dot_ok dot -> shipped_f D -> In d dims -> In k [1; 2; 3; 4; 6; 7; 8; 9; 12]%nat -> (d <> 1%nat \/ k = 8%nat) ->
  evaluates_to (cec14_f m dot D d k (shift_of_f D d k)) (Z2f (100 * Z.of_nat k)).
Proof.
  intros Hm Hs Hdot HD Hd Hk Hone. assert (Hd' : (d <= 100)%nat) by (cbn in Hd; lia).
  assert (Hk' : (1 <= k <= 16)%nat) by (cbn in Hk; lia). destruct factors_fin as (A1 & A2 & A3 & A4 & A5 & A6).
  destruct (shift_f D d k HD Hk' Hd') as (L & _ & _).
  assert (ROT : forall c, factor_fin c -> d <> 1%nat -> exists z, rotated_f dot D d k c (shift_of_f D d k) = Ok z /\ length z = d /\ forall a, In a z -> is_zero a).
  { intros c Fc N1. destruct (rotated_moved dot D d k c _ Hdot HD Hk' Hd N1 L Fc) as (z & Ez & Lz & Zz & _). exists z. auto. }
  assert (SHI : forall c, factor_fin c -> exists z, shifted_f D d k c (shift_of_f D d k) = Ok z /\ length z = d /\ forall a, In a z -> is_zero a).
  { intros c Fc. destruct (shifted_moved D d k c _ HD Hk' Hd' L Fc) as (z & Ez & Lz & Zz & _). exists z. rewrite L in Lz. auto. }
  assert (Hk2 := Hk). cbn [In] in Hk2.
  assert (BZ : forall b r, (1 <= b <= 2000)%Z -> evaluates_to r (Z2f 0) -> evaluates_to (bias_f b r) (Z2f b)).
  { intros b r Hb Hr. apply bias_zero; [apply small_Z; lia|lia|lia|exact Hr]. }
  destruct Hk2 as [<-|[<-|[<-|[<-|[<-|[<-|[<-|[<-|[<-|[]]]]]]]]]].
  1: destruct (ROT None I ltac:(lia)) as (z & Ez & Lz & Zz).
  2: destruct (ROT None I ltac:(lia)) as (z & Ez & Lz & Zz).
  3: destruct (ROT None I ltac:(lia)) as (z & Ez & Lz & Zz).
  4: destruct (ROT (Some (fdiv (quot 2048 1000) (Z2f 100))) A1 ltac:(lia)) as (z & Ez & Lz & Zz).
  5: destruct (ROT (Some (fdiv half (Z2f 100))) A2 ltac:(lia)) as (z & Ez & Lz & Zz).
  6: destruct (ROT (Some (quot 600 100)) A3 ltac:(lia)) as (z & Ez & Lz & Zz).
  7: destruct (SHI (Some (fdiv (quot 512 100) (Z2f 100))) A4) as (z & Ez & Lz & Zz).
  8: destruct (ROT (Some (fdiv (quot 512 100) (Z2f 100))) A4 ltac:(lia)) as (z & Ez & Lz & Zz).
  9: destruct (ROT (Some (quot 5 100)) A6 ltac:(lia)) as (z & Ez & Lz & Zz).
  all: cbv beta iota delta [cec14_f]; rewrite Ez; cbn [rbind].
  - apply (BZ 100%Z); [lia|]. apply (elliptic_at0 m Hm Hs d z Hd Lz Zz). lia.
  - apply (BZ 200%Z); [lia|]. apply (bent_at0 m Hm Hs d z Hd Lz Zz).
  - apply (BZ 300%Z); [lia|]. apply (discus_at0 m Hm Hs d z Hd Lz Zz).
  - apply (BZ 400%Z); [lia|]. rewrite (plus1_at0 d z Lz Zz). apply rosenbrock_zero, Hm.
  - apply (bias_ackley 600%Z); [lia| |vm_compute; reflexivity]. apply (ackley_at0 m Hm Hs d z Hd Lz Zz).
  - apply (BZ 700%Z); [lia|]. apply (griewank_at0 m Hm Hs d z Hd Lz Zz).
  - apply (BZ 800%Z); [lia|]. apply (rastrigin_at0 m Hm Hs d z Hd Lz Zz).
  - apply (BZ 900%Z); [lia|]. apply (rastrigin_at0 m Hm Hs d z Hd Lz Zz).
  - apply (BZ 1200%Z); [lia|]. apply (katsuura_at0 m Hm Hs d z Hd Lz Zz).
Qed.
Lemma at_shift_5 m dot D d : libm_ok m -> signless m -> dot_ok dot -> shipped_f D -> In d dims -> d <> 1%nat ->
  evaluates_to (cec14_f m dot D d 5 (shift_of_f D d 5)) (Z2f 800).
Proof.
  intros Hm Hs Hdot HD Hd N1. assert (Hd' : (d <= 100)%nat) by (cbn in Hd; lia). destruct (shift_f D d 5 HD ltac:(lia) Hd') as (L & _ & _).
  destruct (rotated_moved dot D d 5 None _ Hdot HD ltac:(lia) Hd N1 L I) as (z & Ez & Lz & Zz & _).
  cbv beta iota delta [cec14_f]. rewrite Ez. cbn [rbind]. apply (bias_ackley 800%Z); [lia| |vm_compute; reflexivity]. apply (ackley_at0 m Hm Hs d z Hd Lz). apply Zz. reflexivity.
Qed.

(* ---------------- from below ---------------- *)
Lemma not_below_cases v : flt v (Z2f 0) = false -> at_least fzero v.
Proof.
  rewrite zero_Z2f. intros H. destruct (isnan v) eqn:N; [left; exact N|right]. apply fle_ext; [reflexivity|exact N|].
  destruct (Rle_lt_dec (ext fzero) (ext v)) as [L|L]; [exact L|]. apply flt_ext in L; [congruence|exact N|reflexivity].
Qed.
Lemma bias_below b r : (0 <= b <= 2 ^ 50)%Z -> never_below_zero r -> forall v, bias_f b r = Ok v -> flt v (Z2f b) = false.
Proof.
  intros Hb Hr v E. destruct r as [w|e]; [|discriminate]. assert (v = fadd w (Z2f b)) as -> by (cbn [bias_f rmap] in E; congruence).
  apply at_least_not_below. destruct (small_Z b ltac:(lia)) as [Fb Rb].
  apply (add_at_least fzero (Z2f b)); [reflexivity|exact Fb|exact Fb|cbn [B2R fzero]; lra| |apply at_least_refl]. apply not_below_cases, (Hr w eq_refl).
Qed.
Lemma from_below m dot D d k x v : libm_ok m -> In d dims -> In k [1; 2; 3; 4; 7; 8; 9; 12; 16]%nat -> cec14_f m dot D d k x = Ok v ->
  flt v (Z2f (100 * Z.of_nat k)) = false.
Proof.
  intros Hm Hd Hk E. cbn [In] in Hk.
  destruct Hk as [<-|[<-|[<-|[<-|[<-|[<-|[<-|[<-|[<-|[]]]]]]]]]]; cbv beta iota delta [cec14_f] in E;
    match type of E with context [rbind ?r _] => destruct r as [z|e]; [|discriminate] end; cbn [rbind] in E.
  1: apply (bias_below 100%Z) in E; [exact E|lia|].
  2: apply (bias_below 200%Z) in E; [exact E|lia|].
  3: apply (bias_below 300%Z) in E; [exact E|lia|].
  4: apply (bias_below 400%Z) in E; [exact E|lia|].
  5: apply (bias_below 700%Z) in E; [exact E|lia|].
  6: apply (bias_below 800%Z) in E; [exact E|lia|].
  7: apply (bias_below 900%Z) in E; [exact E|lia|].
  8: apply (bias_below 1200%Z) in E; [exact E|lia|].
  9: apply (bias_below 1600%Z) in E; [exact E|lia|].
  all: match goal with |- never_below_zero (rosenbrock_f _ _ ?z) => destruct (signs m d z Hm Hd) as (S1 & S2 & S3 & S4 & S5 & S6 & S7 & S8)
       | |- never_below_zero (expanded_scaffer_f _ _ ?z) => destruct (signs m d z Hm Hd) as (S1 & S2 & S3 & S4 & S5 & S6 & S7 & S8)
       | |- _ => destruct (signs m d z Hm Hd) as (S1 & S2 & S3 & S4 & S5 & S6 & S7 & S8) end; assumption.
Qed.
Lemma ackley_below m dot D d x v : libm_ok m -> exp_bounded m -> In d dims ->
  (cec14_f m dot D d 5 x = Ok v -> flt v (Z2f 800) = false) /\ (cec14_f m dot D d 6 x = Ok v -> flt v (Z2f 600) = false).
Proof.
  intros Hm He Hd. assert (A : forall z, never_below_zero (ackley_f m d z)).
  { intros z w E. apply (ackley_low m Hm He d z w Hd) in E. rewrite zero_Z2f. apply at_least_not_below. revert E. apply at_least_le. vm_compute. reflexivity. }
  split; intros E; cbv beta iota delta [cec14_f] in E; match type of E with context [rbind ?r _] => destruct r as [z|e]; [|discriminate] end; cbn [rbind] in E.
  - apply (bias_below 800%Z) in E; [exact E|lia|apply A].
  - apply (bias_below 600%Z) in E; [exact E|lia|apply A].
Qed.
Lemma ackley_least m d x v : libm_ok m -> exp_bounded m -> In d dims -> ackley_f m d x = Ok v -> flt v (lit 1 (-51)) = false.
Proof. intros Hm He Hd E. apply at_least_not_below, (ackley_low m Hm He d x v Hd E). Qed.

(* ---------------- numbers that are not finite ---------------- *)
Definition useless (r : res f64) : Prop := match r with Ok v => isfin v = false | Raise _ => True end.
Lemma bias_useless b r : useless r -> useless (bias_f b r).
Proof. destruct r as [v|e]; [|intros; exact I]. intros H. cbn [bias_f rmap useless] in *. apply add_bad. left. exact H. Qed.
Lemma not_finite_useless r : not_finite r -> useless r.
Proof. destruct r; [intros H; exact H|intros []]. Qed.
Lemma raises_useless r : (exists e, r = Raise e) -> useless r.
Proof. intros [e ->]. exact I. Qed.
Lemma nan_useless r : gives_nan r -> useless r.
Proof. intros ->. reflexivity. Qed.
Lemma plus1_bad z i : (i < length z)%nat -> isfin (getf i z) = false -> isfin (getf i (plus1_f z)) = false.
Proof. intros Hi B. unfold getf, plus1_f in *. rewrite (nth_indep _ fzero (fadd fzero fone)) by (rewrite map_length; exact Hi). rewrite (map_nth (fun a => fadd a fone)). apply add_bad. left. exact B. Qed.
Lemma cec_useless m dot D d k x i : spreads m -> dot_ok dot -> shipped_f D -> In d dims -> (1 <= k <= 16)%nat -> length x = d -> (i < d)%nat -> isfin (getf i x) = false ->
  useless (cec14_f m dot D d k x).
Proof.
  intros Hm Hdot HD Hd Hk L Hi B. assert (Hd' : (1 <= d <= 100)%nat) by (cbn in Hd; lia).
  destruct factors_fin as (A1 & A2 & A3 & A4 & A5 & A6).
  assert (ROT : forall k' c f, (1 <= k' <= 16)%nat -> factor_fin c -> (forall z i, (2 <= d)%nat -> length z = d -> (i < d)%nat -> isfin (getf i z) = false -> useless (f z)) ->
     useless (z <-? rotated_f dot D d k' c x ; f z)).
  { intros k' c f Hk' Fc Hf. destruct (Nat.eq_dec d 1) as [E1|N1].
    - rewrite E1 in *. rewrite rotated_missing by assumption. exact I.
    - destruct (rotated_moved dot D d k' c x Hdot HD Hk' Hd N1 L Fc) as (z & Ez & Lz & _ & Bz). rewrite Ez. cbn [rbind]. apply (Hf z i); try assumption; [lia|].
      apply (Bz i Hi B). apply nth_In. lia. }
  assert (SHI : forall k' c f, (1 <= k' <= 16)%nat -> factor_fin c -> (forall z i, length z = d -> (i < d)%nat -> isfin (getf i z) = false -> useless (f z)) ->
     useless (z <-? shifted_f D d k' c x ; f z)).
  { intros k' c f Hk' Fc Hf. destruct (shifted_moved D d k' c x HD Hk' ltac:(lia) L Fc) as (z & Ez & Lz & _ & Bz). rewrite Ez. cbn [rbind].
    destruct (shift_f D d k' HD Hk' ltac:(lia)) as (Ls & _). rewrite Ls in *. destruct (Bz i Hi B) as (a & Ha & Na). apply (In_nth z a fzero) in Ha as (j & Hj & Ej).
    apply (Hf z j); [exact Lz|lia|]. unfold getf. rewrite Ej. exact Na. }
  destruct k as [|[|[|[|[|[|[|[|[|[|[|[|[|[|[|[|[|k]]]]]]]]]]]]]]]]]; [lia| .. |lia]; cbv beta iota delta [cec14_f]; try exact I;
    try (apply ROT; [lia|first [exact I|assumption]|]); try (apply SHI; [lia|assumption|]).
  1-3: intros z j H2 Lz Hj Bj; apply bias_useless, not_finite_useless; destruct (all_bad m d z j Hm ltac:(lia) Hj Bj) as (T1 & T2 & T3 & T4 & T5 & T6 & T7 & T8 & T9 & T10 & T11 & T12 & T13); auto.
  - intros z j H2 Lz Hj Bj. apply bias_useless, not_finite_useless. assert (B1 : isfin (getf j (plus1_f z)) = false) by (apply plus1_bad; [lia|exact Bj]).
    destruct (all_bad m d (plus1_f z) j Hm ltac:(unfold plus1_f; rewrite map_length; lia) Hj B1) as (T1 & T2 & T3 & _). auto.
  - intros z j H2 Lz Hj Bj. apply bias_useless, not_finite_useless. destruct (all_bad m d z j Hm ltac:(lia) Hj Bj) as (T1 & T2 & T3 & T4 & T5 & T6 & T7 & T8 & T9 & T10 & T11 & T12 & T13); auto.
  - intros z j H2 Lz Hj Bj. apply bias_useless, not_finite_useless. destruct (all_bad m d z j Hm ltac:(lia) Hj Bj) as (T1 & T2 & T3 & T4 & T5 & T6 & T7 & T8 & T9 & T10 & T11 & T12 & T13); auto.
  - intros z j H2 Lz Hj Bj. apply bias_useless, not_finite_useless. destruct (all_bad m d z j Hm ltac:(lia) Hj Bj) as (T1 & T2 & T3 & T4 & T5 & T6 & T7 & T8 & T9 & T10 & T11 & T12 & T13); auto.
  - intros z j Lz Hj Bj. apply bias_useless. destruct (all_bad m d z j Hm ltac:(lia) Hj Bj) as (T1 & T2 & T3 & T4 & T5 & T6 & T7 & _). exact T7.
  - intros z j H2 Lz Hj Bj. apply bias_useless. destruct (all_bad m d z j Hm ltac:(lia) Hj Bj) as (T1 & T2 & T3 & T4 & T5 & T6 & T7 & _). exact T7.
  - intros z j Lz Hj Bj. apply bias_useless. destruct (all_bad m d z j Hm ltac:(lia) Hj Bj) as (T1 & T2 & T3 & T4 & T5 & T6 & T7 & T8 & [T9|T9] & _); [apply raises_useless, T9|apply not_finite_useless, T9].
  - intros z j H2 Lz Hj Bj. apply bias_useless. destruct (all_bad m d z j Hm ltac:(lia) Hj Bj) as (T1 & T2 & T3 & T4 & T5 & T6 & T7 & T8 & [T9|T9] & _); [apply raises_useless, T9|apply not_finite_useless, T9].
  - intros z j H2 Lz Hj Bj. apply bias_useless, raises_useless. destruct (all_bad m d z j Hm ltac:(lia) Hj Bj) as (T1 & T2 & T3 & T4 & T5 & T6 & T7 & T8 & T9 & T10 & T11 & T12 & T13); auto.
  - intros z j H2 Lz Hj Bj. apply bias_useless, not_finite_useless. destruct (all_bad m d z j Hm ltac:(lia) Hj Bj) as (T1 & T2 & T3 & T4 & T5 & T6 & T7 & T8 & T9 & T10 & T11 & T12 & T13); auto.
  - intros z j H2 Lz Hj Bj. apply bias_useless, not_finite_useless. destruct (all_bad m d z j Hm ltac:(lia) Hj Bj) as (T1 & T2 & T3 & T4 & T5 & T6 & T7 & T8 & T9 & T10 & T11 & T12 & T13); auto.
  - intros z j H2 Lz Hj Bj. apply bias_useless, nan_useless. assert (B1 : isfin (getf j (plus1_f z)) = false) by (apply plus1_bad; [lia|exact Bj]).
    destruct (all_bad m d (plus1_f z) j Hm ltac:(unfold plus1_f; rewrite map_length; lia) Hj B1) as (T1 & T2 & T3 & T4 & T5 & T6 & T7 & T8 & T9 & T10 & T11 & T12 & T13). exact T13.
Qed.

(* ---------------- a library, a product and files ---------------- *)
(** The products added from left to right. *)
Definition dot_left (r v : list f64) : f64 := fold_left fadd (map (fun p => fmul (fst p) (snd p)) (combine r v)) fzero.
Lemma dot_left_ok : dot_ok dot_left.
Proof.
  intros r v L. split.
  - intros Fr Zv. unfold dot_left. assert (G : forall l a, (forall b, In b l -> is_zero b) -> is_zero a -> is_zero (fold_left fadd l a)).
    { induction l as [|b l IH]; intros a Hl Ha; [exact Ha|]. cbn [fold_left]. apply IH; [intros c Hc; apply Hl; right; exact Hc|]. apply add_zero; [exact Ha|apply Hl; left; reflexivity]. }
    apply G; [|exists false; reflexivity]. intros b Hb. apply in_map_iff in Hb as ((p & q) & <- & Hp). cbn [fst snd]. apply mul_zero; [apply Fr, (in_combine_l _ _ _ _ Hp)|apply Zv, (in_combine_r _ _ _ _ Hp)].
  - intros a Ha Na. unfold dot_left. apply (In_nth v a fzero) in Ha as (j & Hj & Ej).
    assert (G0 : forall l a, isfin a = false -> isfin (fold_left fadd l a) = false) by (induction l as [|b l IH]; intros c Hc; [exact Hc|apply IH, add_bad; left; exact Hc]).
    assert (G : forall l b a, In b l -> isfin b = false -> isfin (fold_left fadd l a) = false).
    { induction l as [|c l IH]; intros b e Hb Nb; [destruct Hb|]. cbn [fold_left]. destruct Hb as [->|Hb]; [apply G0, add_bad; right; exact Nb|apply (IH b); assumption]. }
    apply (G _ (fmul (getf j r) (getf j v))); [|apply mul_bad; right; unfold getf; rewrite Ej; exact Na].
    apply in_map_iff. exists (getf j r, getf j v). split; [reflexivity|]. unfold getf. rewrite <- combine_nth by exact L. apply nth_In. rewrite combine_length. lia.
Qed.
Definition ones_data : data_f := {|
  shift_nums _ := Some (repeat fone 100);
  rot_nums _ d := if existsb (Nat.eqb d) [2; 10; 20; 30; 50; 100]%nat then Some (repeat fone (d * d)) else None |}.
Lemma ones_shipped : shipped_f ones_data.
Proof.
  assert (R : forall n v, In v (repeat fone n) -> isfin v = true) by (intros n v Hv; rewrite (repeat_spec n fone v Hv); apply fone_fin).
  intros k Hk. split.
  - eexists. split; [reflexivity|]. split; [apply repeat_length|apply R].
  - intros d. unfold ones_data. cbn [rot_nums]. destruct (existsb (Nat.eqb d) [2; 10; 20; 30; 50; 100]%nat) eqn:E; split; intros H.
    + eexists. split; [reflexivity|]. split; [apply repeat_length|apply R].
    + exfalso. apply H. apply existsb_exists in E as (y & Hy & E). apply Nat.eqb_eq in E. subst y. exact Hy.
    + exfalso. assert (X : existsb (Nat.eqb d) [2; 10; 20; 30; 50; 100]%nat = true) by (apply existsb_exists; exists d; split; [exact H|apply Nat.eqb_refl]). congruence.
    + reflexivity.
Qed.
Lemma steps_signless : signless steps.
Proof. split; [reflexivity|]. split; [reflexivity|exists false; reflexivity]. Qed.
Lemma steps_exp : exp_bounded steps.
Proof.
  split; [|split]; cbn [steps m_exp]; intros v.
  - destruct (feq v fone); right; vm_compute; reflexivity.
  - intros H. destruct (feq v fone) eqn:E; [|apply at_least_refl]. exfalso. destruct H as [N|H]; [rewrite feq_nan_l in E by exact N; discriminate|].
    rewrite feq_sym in E. pose proof (fle_trans _ _ _ (feq_fle _ _ E) H) as X. vm_compute in X. discriminate.
  - intros _. destruct (feq v fone); right; vm_compute; reflexivity.
Qed.

Lemma fifth_off : exists k, (1 <= k <= 16)%nat /\ forall (m : libm) (dot : list f64 -> list f64 -> f64) (D : data_f) (d : nat),
  libm_ok m -> signless m -> dot_ok dot -> shipped_f D -> In d dims -> d <> 1%nat ->
  evaluates_to (cec14_f m dot D d k (shift_of_f D d k)) (Z2f 800) /\ feq (Z2f 800) (Z2f (100 * Z.of_nat k)) = false.
Proof. exists 5%nat. split; [lia|]. intros m dot D d H1 H2 H3 H4 H5 H6. split; [apply at_shift_5; assumption|vm_compute; reflexivity]. Qed.
Lemma ackley_all m d x v : libm_ok m -> exp_bounded m -> In d dims ->
  (ackley_f m d x = Ok v -> flt v (lit 1 (-51)) = false) /\ evaluates_to (ackley_f m d (repeat fzero d)) (lit 1 (-51)) /\
  forall (dot : list f64 -> list f64 -> f64) (D : data_f),
  (cec14_f m dot D d 5 x = Ok v -> flt v (Z2f 800) = false) /\ (cec14_f m dot D d 6 x = Ok v -> flt v (Z2f 600) = false).
Proof.
  intros Hm He Hd. split; [intros E; eapply ackley_least; eassumption|]. split; [apply ackley_off; assumption|]. intros dot D. apply ackley_below; assumption.
Qed.
