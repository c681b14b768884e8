(** Rounding errors of the Weierstrass and modified Schwefel functions in binary64. *)
From Coq Require Import List ZArith Bool Lia Reals Lra Permutation.
From Flocq Require Import Core IEEE754.BinarySingleNaN Sterbenz.
From Verif Require Import PyBase B64 B64More Rand Models ModelThms Sign FloatSum FloatMean Bench BenchThms BenchFloat BenchFloatThms BenchCec Consts BenchNear.
Import ListNotations.
Open Scope R_scope.

Section Eps.
Variable eps : R.
Hypothesis eps_u : u <= eps.
Hypothesis eps_small : eps <= / 2 ^ 20.
Variable m : libm.
Hypothesis Hm : accurate eps m.
Local Notation appr := (BenchNear.appr eps).
Local Notation appr_weak := (BenchNear.appr_weak eps eps_u).
Local Notation appr_add := (BenchNear.appr_add eps eps_u eps_small).
Local Notation appr_sub := (BenchNear.appr_sub eps eps_u eps_small).
Local Notation appr_mul := (BenchNear.appr_mul eps eps_u eps_small).
Local Notation appr_sq := (BenchNear.appr_sq eps eps_u eps_small m Hm).
Local Notation appr_cos := (BenchNear.appr_cos eps eps_u m Hm).
Local Notation appr_sin := (BenchNear.appr_sin eps eps_u m Hm).
Local Notation appr_Z := (BenchNear.appr_Z eps eps_u).
Local Notation appr_abs := (BenchNear.appr_abs eps eps_u eps_small).
Local Notation c_eps := (BenchNear.c_eps eps eps_u eps_small).
Local Notation eps_pos := (BenchNear.eps_pos eps eps_u).

Ltac small := unfold cap; lra.
(** A sum whose terms have different errors. *)
Lemma appr_sum a A0 Ma ca f F Mf cf l : appr a A0 Ma ca -> (List.length l <= 100)%nat -> (forall i, In i l -> appr (f i) (F i) (Mf i) (cf i)) ->
  Ma + rsum (map Mf l) + (ca + rsum (map cf l)) / 2 ^ 20 <= cap ->
  appr (addf a f l) (add_up A0 F l) (Ma + rsum (map Mf l))
    (ca + rsum (map cf l) + 2 * (INR (List.length l) + 1) * (Ma + rsum (map Mf l) + (ca + rsum (map cf l)) / 2 ^ 20)).
Proof.
  intros Ha Hl H K. set (ts := (a, (A0, ca * eps)) :: map (fun i => (f i, (F i, cf i * eps))) l).
  assert (Ev : map fst ts = [a] ++ map f l). { unfold ts. cbn [map app fst]. rewrite map_map. reflexivity. }
  assert (EF : Rsum (map (fun p => fst (snd p)) ts) = add_up A0 F l). { unfold ts. cbn [map fst snd]. rewrite map_map. cbn [fst snd]. rewrite add_up_rsum, Rsum_rsum. reflexivity. }
  assert (En : List.length ts = S (List.length l)) by (unfold ts; cbn [List.length]; rewrite map_length; reflexivity).
  assert (EE : Rsum (map (fun p => snd (snd p)) ts) = (ca + rsum (map cf l)) * eps).
  { unfold ts. cbn [map fst snd]. rewrite map_map. cbn [fst snd]. rewrite Rsum_rsum. cbn [rsum].
    rewrite (rsum_ext (fun i => cf i * eps) (fun i => eps * cf i)) by (intros; ring). rewrite rsum_scal. ring. }
  pose proof (INR_100 _ Hl) as N. pose proof cap_huge. pose proof eps_pos. pose proof u_pos. set (n := INR (List.length l)) in *.
  destruct Ha as (Fa & Aa & Ea & Pa).
  assert (PC : 0 <= rsum (map cf l)) by (apply sum_nonneg; intros i Hi; apply (H i Hi)).
  assert (PM : 0 <= rsum (map Mf l)) by (apply sum_nonneg; intros i Hi; destruct (H i Hi) as (_ & A & _); pose proof (Rabs_pos (F i)); lra).
  pose proof (c_eps (ca + rsum (map cf l)) ltac:(lra)) as CE. pose proof (Rabs_pos A0).
  assert (EA : rsum (map (fun i => Rabs (F i)) l) <= rsum (map Mf l)) by (apply rsum_le; intros i Hi; apply (H i Hi)).
  assert (PA : 0 <= rsum (map (fun i => Rabs (F i)) l)) by (apply sum_nonneg; intros i _; apply Rabs_pos).
  set (bound := Ma + rsum (map Mf l) + (ca + rsum (map cf l)) / 2 ^ 20) in *.
  assert (ES : 0 <= Rsum (map size ts) <= bound).
  { unfold ts, size. cbn [map fst snd]. rewrite !map_map. cbn [fst snd]. rewrite !Rsum_rsum. cbn [rsum]. rewrite rsum_plus.
    rewrite (rsum_ext (fun i => cf i * eps) (fun i => eps * cf i)) by (intros; ring). rewrite rsum_scal.
    assert (0 <= eps * rsum (map cf l)) by (apply Rmult_le_pos; lra). assert (0 <= ca * eps) by (apply Rmult_le_pos; lra). unfold bound. lra. }
  assert (KN : Forall known ts). { unfold ts. constructor; [split; assumption|]. apply Forall_forall. intros p Hp. apply in_map_iff in Hp as (i & <- & Hi). split; apply (H i Hi). }
  destruct (sum_near ts (addf a f l)) as [Fs Es].
  - rewrite Ev. apply added_addf. constructor.
  - exact KN.
  - rewrite En. unfold few. lia.
  - assert (2 * cap <= cap * cap) by (unfold cap; apply Rmult_le_compat_r; lra). lra.
  - split; [exact Fs|]. rewrite EF, En, EE, S_INR in Es. fold n in Es. split; [|split].
    + rewrite add_up_rsum. eapply Rle_trans; [apply Rabs_triang|]. apply Rplus_le_compat; [exact Aa|]. eapply Rle_trans; [|exact EA]. clear.
      induction l as [|i l IH]; cbn [map rsum]; [rewrite Rabs_R0; lra|]. eapply Rle_trans; [apply Rabs_triang|]. lra.
    + eapply Rle_trans; [exact Es|]. assert (2 * (n + 1) * u * Rsum (map size ts) <= 2 * (n + 1) * eps * bound); [|lra].
      apply Rmult_le_compat; [apply Rmult_le_pos; lra|lra|apply Rmult_le_compat_l; lra|lra].
    + assert (0 <= 2 * (n + 1) * bound) by (apply Rmult_le_pos; lra). lra.
Qed.

(* ---------------- Weierstrass ---------------- *)
Lemma three_pow k : (k < 20)%nat -> appr (Z2f (3 ^ Z.of_nat k)) (3 ^ k) (3 ^ k) 0 /\ 1 <= 3 ^ k <= 1162261467.
Proof.
  intros H. assert (B : (1 <= 3 ^ Z.of_nat k <= 3 ^ 19)%Z) by (split; [change 1%Z with (3 ^ 0)%Z|]; apply Z.pow_le_mono_r; lia).
  assert (E : IZR (3 ^ Z.of_nat k) = 3 ^ k) by (symmetry; apply pow_IZR). rewrite <- E.
  split; [|split; apply IZR_le; [apply B|etransitivity; [apply B|vm_compute; discriminate]]].
  assert (L : (3 ^ 19 <= 2 ^ 53)%Z) by (vm_compute; discriminate).
  eapply appr_weak; [apply appr_Z|apply IZR_le; lia|lra]. rewrite Z.abs_eq; lia.
Qed.
Lemma half_pow k : (k < 20)%nat -> appr (m_pow m half (nat_f k)) ((1 / 2) ^ k) ((1 / 2) ^ k) (2 * (1 / 2) ^ k) /\ 0 < (1 / 2) ^ k <= 1.
Proof.
  intros Hk. pose proof eps_pos. assert (B : / 2 ^ 20 <= (1 / 2) ^ k <= 1).
  { split; [|apply Rle_trans with (1 ^ k); [apply pow_incr; lra|rewrite pow1; lra]]. do 20 (destruct k as [|k]; [cbn; lra|]). lia. }
  destruct half_R as [Fh Eh]. destruct (small_Z (Z.of_nat k)) as [Fk Ek]; [lia|]. fold (nat_f k) in Fk, Ek. rewrite <- INR_IZR_INZ in Ek.
  destruct Hm as (_ & _ & _ & _ & Hp & _). destruct (Hp half (nat_f k)) as [F E]; try assumption.
  - rewrite Eh. lra.
  - rewrite Ek. split; [apply pos_INR|]. rewrite INR_IZR_INZ. apply IZR_le. lia.
  - left. rewrite Eh. lra.
  - assert (P : ppow (B2R half) (B2R (nat_f k)) = (1 / 2) ^ k).
    { rewrite Eh, Ek. unfold ppow. destruct (Req_EM_T (/ 2) 0); [lra|]. rewrite Rpower_pow by lra. f_equal. lra. }
    rewrite P, (Rabs_pos_eq ((1 / 2) ^ k)) in E by lra. split; [|lra]. split; [exact F|]. split; [rewrite Rabs_pos_eq; lra|]. split; [|lra].
    eapply Rle_trans; [exact E|]. pose proof (eta_much eps eps_u). assert (/ 2 ^ 20 * eps <= (1 / 2) ^ k * eps) by (apply Rmult_le_compat_r; lra). lra.
Qed.
Lemma two_pi : appr (fmul (Z2f 2) np_pi) (2 * PI) (63 / 10) (114 / 10).
Proof.
  assert (P : appr np_pi PI (315 / 100) 2). { destruct (appr_pi eps eps_u) as (F & _ & R). pose proof PI_fine. split; [exact F|]. split; [rewrite Rabs_pos_eq; lra|exact R]. }
  pose proof (appr_mul _ _ _ _ _ _ _ _ (appr_Z 2 ltac:(lia)) P ltac:(cbn; small) ltac:(small)) as T. cbn [Z.abs] in T.
  eapply appr_weak; [exact T|lra|lra].
Qed.
Lemma turns k : (k < 20)%nat -> appr (fmul (fmul (Z2f 2) np_pi) (Z2f (3 ^ Z.of_nat k))) (2 * PI * 3 ^ k) (63 / 10 * 3 ^ k) (188 / 10 * 3 ^ k).
Proof.
  intros Hk. destruct (three_pow k Hk) as [T B]. set (t := 3 ^ k) in *.
  pose proof (appr_mul _ _ _ _ _ _ _ _ two_pi T ltac:(small) ltac:(small)) as P. eapply appr_weak; [exact P|lra|lra].
Qed.
Lemma wave_term k v V M c c' : (k < 20)%nat -> appr v V M c -> 0 <= M <= 101 -> 0 <= c <= 101 -> 64 / 10 * c + 189 / 10 * M + 632 / 100 * M + 2 <= c' -> c' <= 100000 ->
  appr (fmul (m_pow m half (nat_f k)) (m_cos m (fmul (fmul (fmul (Z2f 2) np_pi) (Z2f (3 ^ Z.of_nat k))) v)))
    ((1 / 2) ^ k * cos (2 * PI * 3 ^ k * V)) ((1 / 2) ^ k) ((c' + c' / 2 ^ 18) * (3 / 2) ^ k + 7).
Proof.
  intros Hk Hv HM Hc Kc Kc'. pose proof (turns k Hk) as T. destruct (three_pow k Hk) as [_ B]. destruct (half_pow k Hk) as [P Bh].
  assert (Q : (3 / 2) ^ k = (1 / 2) ^ k * 3 ^ k) by (rewrite <- Rpow_mult_distr; f_equal; lra). rewrite Q. set (t := 3 ^ k) in *. set (h := (1 / 2) ^ k) in *.
  assert (Mt : M * t <= 101 * t) by (apply Rmult_le_compat_r; lra). assert (ct : c * t <= 101 * t) by (apply Rmult_le_compat_r; lra).
  assert (0 <= M * t) by (apply Rmult_le_pos; lra). assert (0 <= c * t) by (apply Rmult_le_pos; lra).
  pose proof (appr_mul _ _ _ _ _ _ _ _ T Hv ltac:(small) ltac:(small)) as A.
  assert (c' * t >= (64 / 10 * c + 189 / 10 * M + 632 / 100 * M + 2) * t) by (apply Rle_ge, Rmult_le_compat_r; lra).
  pose proof (fun H1 H2 => appr_weak _ _ _ _ (700 * t) (c' * t) A H1 H2) as A'. specialize (A' ltac:(lra) ltac:(lra)).
  pose proof (appr_cos _ _ _ _ A') as C.
  assert (c' * t <= 100000 * t) by (apply Rmult_le_compat_r; lra). assert (0 <= c' * t) by (apply Rmult_le_pos; lra).
  pose proof (appr_mul _ _ _ _ _ _ _ _ P C ltac:(small) ltac:(small)) as E. eapply appr_weak; [exact E|lra|].
  assert (0 <= h * t) by (apply Rmult_le_pos; lra). assert (0 <= c' * (h * t)) by (apply Rmult_le_pos; lra). lra.
Qed.
Lemma halves_sum : rsum (map (fun k => (1 / 2) ^ k) (span 0 20)) <= 2.
Proof. cbn. lra. Qed.
Lemma wave_sum c : 0 <= c -> 0 <= rsum (map (fun k => c * (3 / 2) ^ k + 7) (span 0 20)) <= 6649 * c + 140.
Proof.
  intros H. rewrite rsum_plus, rsum_scal, rsum_const. assert (0 <= rsum (map (fun k => (3 / 2) ^ k) (span 0 20)) <= 6649) by (cbn; lra).
  assert (INR (List.length (span 0 20)) = 20) by (cbn; lra). set (s := rsum (map (fun k => (3 / 2) ^ k) (span 0 20))) in *.
  assert (c * s <= c * 6649) by (apply Rmult_le_compat_l; lra). assert (0 <= c * s) by (apply Rmult_le_pos; lra). lra.
Qed.
Lemma wave_near v V M c c' C : appr v V M c -> 0 <= M <= 101 -> 0 <= c <= 101 -> 64 / 10 * c + 189 / 10 * M + 632 / 100 * M + 2 <= c' -> c' <= 100000 ->
  6650 * c' + 300 <= C ->
  appr (addf fzero (fun k => fmul (m_pow m half (nat_f k)) (m_cos m (fmul (fmul (fmul (Z2f 2) np_pi) (Z2f (3 ^ Z.of_nat k))) v))) (span 0 20))
    (add_up 0 (fun k => (1 / 2) ^ k * cos (2 * PI * 3 ^ k * V)) (span 0 20)) 2 C.
Proof.
  intros Hv HM Hc Kc Kc' KC. set (e := c' + c' / 2 ^ 18). assert (0 <= e) by (unfold e; lra). pose proof (wave_sum e ltac:(assumption)) as W. pose proof halves_sum as Hs.
  assert (Z : appr fzero 0 0 0). { split; [reflexivity|]. change (B2R fzero) with 0. rewrite Rminus_eq_0, Rabs_R0. lra. }
  pose proof (fun H1 H2 H3 => appr_sum _ _ _ _ (fun k => fmul (m_pow m half (nat_f k)) (m_cos m (fmul (fmul (fmul (Z2f 2) np_pi) (Z2f (3 ^ Z.of_nat k))) v)))
    (fun k => (1 / 2) ^ k * cos (2 * PI * 3 ^ k * V)) (fun k => (1 / 2) ^ k) (fun k => e * (3 / 2) ^ k + 7) (span 0 20) Z H1 H2 H3) as S.
  specialize (S ltac:(cbn; lia)). specialize (S ltac:(intros k Hk; apply span_lt in Hk; apply (wave_term k v V M c c'); try assumption; lia)).
  assert (E2 : e <= 100001) by (unfold e; lra). specialize (S ltac:(small)).
  eapply appr_weak; [exact S|lra|]. assert (E20 : INR (List.length (span 0 20)) = 20) by (cbn; lra). rewrite E20. unfold e in *. lra.
Qed.
Lemma weierstrass_near d x : (1 <= d <= 100)%nat -> inside d 100 x ->
  computes (weierstrass_f m d x) (weierstrass d (map B2R x)) 0 (INR d * (22000000 + 101000 * INR d) * eps).
Proof.
  intros Hd Hx. unfold weierstrass_f, weierstrass. pose proof (INR_100 d ltac:(lia)) as N. assert (N1 : 1 <= INR d) by (change 1 with (INR 1); apply le_INR; lia).
  rewrite reads_R, reads_F by apply Hx. destruct half_R as [Fh Eh].
  assert (Hh : appr half (1 / 2) (1 / 2) 0). { split; [exact Fh|]. rewrite Eh. split; [rewrite Rabs_pos_eq; lra|]. rewrite Rabs_pos_eq; lra. }
  pose proof (fun H1 H2 H3 H4 H5 => wave_near half (1 / 2) (1 / 2) 0 15 100100 Hh H1 H2 H3 H4 H5) as W2.
  specialize (W2 ltac:(lra) ltac:(lra) ltac:(lra) ltac:(lra) ltac:(lra)).
  change (range 0 20) with (span 0 20). change (range 0 d) with (span 0 d).
  set (A2 := addf fzero (fun k => fmul (m_pow m half (nat_f k)) (m_cos m (fmul (fmul (fmul (Z2f 2) np_pi) (Z2f (3 ^ Z.of_nat k))) half))) (span 0 20)) in *.
  set (R2 := add_up 0 (fun k => (1 / 2) ^ k * cos (2 * PI * 3 ^ k * (1 / 2))) (span 0 20)) in *.
  assert (D : appr (nat_f d) (INR d) (INR d) 0).
  { destruct (small_Z (Z.of_nat d)) as [Fd Ed]; [lia|]. fold (nat_f d) in Fd, Ed. rewrite <- INR_IZR_INZ in Ed. split; [exact Fd|]. rewrite Ed, Rminus_eq_0, Rabs_R0, Rabs_pos_eq; lra. }
  pose proof (appr_mul _ _ _ _ _ _ _ _ D W2 ltac:(small) ltac:(small)) as P.
  pose proof (fun H1 H2 => appr_weak _ _ _ _ (2 * INR d) (100103 * INR d + 1) P H1 H2) as P'. specialize (P' ltac:(lra) ltac:(lra)). clear P.
  eapply appr_off; [exact eps_u|apply (appr_addf eps eps_u eps_small _ _ _ (2 + 2 * INR d) (21500000 + 100106 * INR d)); try lra|].
  - unfold span. rewrite seq_length. lia.
  - intros i Hi. apply span_lt in Hi. rewrite get_B2R. pose proof (appr_get eps eps_u d x i Hx ltac:(lia)) as V.
    pose proof (appr_add _ _ _ _ _ _ _ _ V Hh ltac:(small)) as S.
    pose proof (fun H1 H2 => appr_weak _ _ _ _ (1005 / 10) (1006 / 10) S H1 H2) as S'. specialize (S' ltac:(lra) ltac:(lra)).
    pose proof (fun H1 H2 H3 H4 H5 => wave_near _ _ _ _ 3181 21300000 S' H1 H2 H3 H4 H5) as W1.
    specialize (W1 ltac:(lra) ltac:(lra) ltac:(lra) ltac:(lra) ltac:(lra)).
    pose proof (appr_sub _ _ _ _ _ _ _ _ W1 P' ltac:(small)) as E. eapply appr_weak; [exact E|lra|lra].
  - small.
  - unfold span. rewrite seq_length, Nat.sub_0_r. assert (0 <= INR d * INR d <= 100 * INR d) by nra. assert (INR d * (INR d * INR d) <= 100 * (INR d * INR d)) by nra. nra.
Qed.

(* ---------------- Schwefel ---------------- *)
Lemma five_R : isfin (Z2f 500) = true /\ B2R (Z2f 500) = 500.
Proof. apply (small_Z 500). lia. Qed.
Lemma scaled mz s ez e : (e <= ez)%Z -> F2R (Float radix2 (cond_Zopp s (Zpos mz)) ez) = IZR (cond_Zopp s (Zpos mz) * 2 ^ (ez - e)) * bpow radix2 e.
Proof. intros H. unfold F2R. cbn [Fnum Fexp]. rewrite mult_IZR. change (2 ^ (ez - e))%Z with (radix2 ^ (ez - e))%Z. rewrite IZR_Zpower by lia. rewrite Rmult_assoc, <- bpow_plus. do 2 f_equal. lia. Qed.
(** [z % m] is the rounded remainder. *)
Lemma frem_R z v : isfin z = true -> isfin v = true -> 0 < B2R v <= huge ->
  isfin (frem z v) = true /\ B2R (frem z v) = rnd (pmod (B2R z) (B2R v)).
Proof.
  intros Fz Fv Hv. destruct v as [sv|sv| |sv mv ev Hmv]; try discriminate; [change (0 < 0 <= huge) in Hv; lra|].
  assert (sv = false) as ->. { destruct sv; [|reflexivity]. exfalso. change (0 < F2R (Float radix2 (Zneg mv) ev) <= huge) in Hv. assert (F2R (Float radix2 (Zneg mv) ev) < 0) by (apply F2R_lt_0; reflexivity). lra. }
  destruct z as [sz|sz| |sz mz ez Hmz]; try discriminate.
  - split; [reflexivity|]. cbn [frem]. change (B2R (B754_zero sz)) with 0. unfold pmod, Rdiv. rewrite Rmult_0_l, Zfloor_IZR, Rmult_0_r, Rminus_0_r. symmetry. unfold rnd. apply round_0, valid_rnd_N.
  - cbn [frem]. set (e := Z.min ez ev). assert (Le : (e <= ez /\ e <= ev)%Z) by (unfold e; lia). set (a := (cond_Zopp sz (Zpos mz) * 2 ^ (ez - e))%Z). set (b := (Zpos mv * 2 ^ (ev - e))%Z).
    assert (Ea : B2R (B754_finite sz mz ez Hmz) = IZR a * bpow radix2 e) by (cbn [B2R]; apply scaled; lia).
    assert (Eb : B2R (B754_finite false mv ev Hmv) = IZR b * bpow radix2 e) by (cbn [B2R]; rewrite (scaled mv false ev e) by lia; reflexivity).
    rewrite Ea, Eb in *. pose proof (bpow_gt_0 radix2 e) as Pe. assert (Pb : (0 < b)%Z) by (unfold b; apply Z.mul_pos_pos; [reflexivity|apply Z.pow_pos_nonneg; lia]).
    assert (EM : pmod (IZR a * bpow radix2 e) (IZR b * bpow radix2 e) = IZR (a mod b) * bpow radix2 e).
    { unfold pmod. assert (Nb : IZR b <> 0) by (apply not_0_IZR; lia). replace (IZR a * bpow radix2 e / (IZR b * bpow radix2 e)) with (IZR a / IZR b) by (field; split; auto using Rgt_not_eq).
      rewrite Zfloor_div by lia. rewrite (Z.mod_eq a b) by lia. rewrite minus_IZR, mult_IZR. ring. }
    rewrite EM. pose proof (Z.mod_pos_bound a b Pb) as Bm.
    assert (RM : Rabs (IZR (a mod b) * bpow radix2 e) <= huge).
    { rewrite Rabs_pos_eq by (apply Rmult_le_pos; [apply IZR_le; lia|lra]). apply Rle_trans with (IZR b * bpow radix2 e); [|lra]. apply Rmult_le_compat_r; [lra|apply IZR_le; lia]. }
    unfold lit. pose proof (binary_normalize_correct 53 1024 eq_refl eq_refl mode_NE (a mod b) e false) as H. cbv zeta in H.
    rewrite Rlt_bool_true in H; [|exact (rnd_huge _ RM)]. destruct H as (H1 & H2 & _). split; [exact H2|exact H1].
Qed.
Lemma above_exact z : isfin z = true -> 500 <= B2R z < 1000 ->
  (isfin (fsub z (Z2f 500)) = true /\ B2R (fsub z (Z2f 500)) = B2R z - 500) /\ (isfin (frem z (Z2f 500)) = true /\ B2R (frem z (Z2f 500)) = B2R z - 500).
Proof.
  intros F B. destruct five_R as [F5 E5]. pose proof cap_huge. assert (H1000 : 1000 <= huge) by (unfold cap in *; lra).
  assert (X : rnd (B2R z - 500) = B2R z - 500).
  { unfold rnd. apply round_generic; [apply valid_rnd_N|]. rewrite <- E5. apply sterbenz; [apply FLT_exp_valid; reflexivity|apply FLT_exp_monotone| | |].
    - apply generic_format_B2R.
    - apply generic_format_B2R.
    - rewrite E5. lra. }
  split.
  - destruct (fsub_fin z (Z2f 500) F F5) as [Fs Es]; [|split; [exact Fs|]; rewrite Es, E5; exact X].
    rewrite E5. apply rnd_huge. rewrite Rabs_pos_eq; lra.
  - destruct (frem_R z (Z2f 500) F F5) as [Fr Er]; [rewrite E5; lra|]. split; [exact Fr|]. rewrite Er, E5.
    assert (P : pmod (B2R z) 500 = B2R z - 500); [|rewrite P; exact X]. unfold pmod. rewrite (Zfloor_imp 1); [lra|]. change (IZR (1 + 1)) with 2. split; lra.
Qed.

Definition hump (t : R) : R := t * sin (sqrt t).
Definition schw (y D : R) : R := hump (500 - Rabs (y - 500)) - ((y - 500 + Rabs (y - 500)) / 2) ^ 2 / 10000 * D.
Lemma root_gap a b : 300 <= a -> 300 <= b -> Rabs (sqrt a - sqrt b) <= Rabs (a - b) / 34.
Proof.
  intros Ha Hb. assert (17 <= sqrt a) by (rewrite <- (sqrt_square 17) by lra; apply sqrt_le_1; lra). assert (17 <= sqrt b) by (rewrite <- (sqrt_square 17) by lra; apply sqrt_le_1; lra).
  assert (E : a - b = (sqrt a - sqrt b) * (sqrt a + sqrt b)). { replace ((sqrt a - sqrt b) * (sqrt a + sqrt b)) with (sqrt a * sqrt a - sqrt b * sqrt b) by ring. rewrite !sqrt_sqrt; lra. }
  rewrite E, Rabs_mult, (Rabs_pos_eq (sqrt a + sqrt b)) by lra. pose proof (Rabs_pos (sqrt a - sqrt b)).
  assert (Rabs (sqrt a - sqrt b) * 34 <= Rabs (sqrt a - sqrt b) * (sqrt a + sqrt b)) by (apply Rmult_le_compat_l; lra). lra.
Qed.
Lemma hump_gap a b : 300 <= a -> 300 <= b <= 500 -> Rabs (hump a - hump b) <= 16 * Rabs (a - b).
Proof.
  intros Ha Hb. unfold hump. replace (a * sin (sqrt a) - b * sin (sqrt b)) with ((a - b) * sin (sqrt a) + b * (sin (sqrt a) - sin (sqrt b))) by ring.
  eapply Rle_trans; [apply Rabs_triang|]. rewrite !Rabs_mult. pose proof (root_gap a b Ha ltac:(lra)). pose proof (sin_dist (sqrt a) (sqrt b)).
  assert (Rabs (sin (sqrt a)) <= 1) by (pose proof (SIN_bound (sqrt a)); apply Rabs_le; lra). pose proof (Rabs_pos (a - b)). pose proof (Rabs_pos (sin (sqrt a) - sin (sqrt b))).
  rewrite (Rabs_pos_eq b) by lra.
  assert (Rabs (a - b) * Rabs (sin (sqrt a)) <= Rabs (a - b) * 1) by (apply Rmult_le_compat_l; lra).
  assert (b * Rabs (sin (sqrt a) - sin (sqrt b)) <= 500 * (Rabs (a - b) / 34)) by (apply Rmult_le_compat; lra). lra.
Qed.
Lemma schw_gap y w D : 310 <= y <= 530 -> 310 <= w <= 530 -> 0 <= D <= 100 -> Rabs (schw y D - schw w D) <= 17 * Rabs (y - w).
Proof.
  intros Hy Hw HD. unfold schw. set (p := (y - 500 + Rabs (y - 500)) / 2). set (q := (w - 500 + Rabs (w - 500)) / 2).
  assert (Ay : 0 <= p <= 30 /\ 300 <= 500 - Rabs (y - 500) <= 500). { unfold p. destruct (Rle_dec 0 (y - 500)); [rewrite Rabs_pos_eq by lra|rewrite Rabs_left1 by lra]; lra. }
  assert (Aw : 0 <= q <= 30 /\ 300 <= 500 - Rabs (w - 500) <= 500). { unfold q. destruct (Rle_dec 0 (w - 500)); [rewrite Rabs_pos_eq by lra|rewrite Rabs_left1 by lra]; lra. }
  assert (G : Rabs (Rabs (y - 500) - Rabs (w - 500)) <= Rabs (y - w)). { eapply Rle_trans; [apply Rabs_triang_inv2|]. right. f_equal. ring. }
  match goal with |- Rabs (?a - ?b - (?c - ?d)) <= _ => replace (a - b - (c - d)) with ((a - c) - (b - d)) by ring end.
  unfold Rminus at 1. eapply Rle_trans; [apply Rabs_triang|]. rewrite Rabs_Ropp.
  assert (H1 : Rabs (hump (500 - Rabs (y - 500)) - hump (500 - Rabs (w - 500))) <= 16 * Rabs (y - w)).
  { eapply Rle_trans; [apply hump_gap; lra|]. apply Rmult_le_compat_l; [lra|]. replace (500 - Rabs (y - 500) - (500 - Rabs (w - 500))) with (- (Rabs (y - 500) - Rabs (w - 500))) by ring. rewrite Rabs_Ropp. exact G. }
  assert (H2 : Rabs (p ^ 2 / 10000 * D - q ^ 2 / 10000 * D) <= Rabs (y - w)).
  { replace (p ^ 2 / 10000 * D - q ^ 2 / 10000 * D) with ((p - q) * ((p + q) * D / 10000)) by field. rewrite Rabs_mult.
    assert (Rabs (p - q) <= Rabs (y - w)). { unfold p, q. replace ((y - 500 + Rabs (y - 500)) / 2 - (w - 500 + Rabs (w - 500)) / 2) with ((y - w) / 2 + (Rabs (y - 500) - Rabs (w - 500)) / 2) by field.
      eapply Rle_trans; [apply Rabs_triang|]. unfold Rdiv. rewrite !Rabs_mult, (Rabs_pos_eq (/ 2)) by lra. lra. }
    assert (0 <= (p + q) * D <= 60 * 100) by (split; [apply Rmult_le_pos; lra|apply Rmult_le_compat; lra]). rewrite (Rabs_pos_eq ((p + q) * D / 10000)) by lra.
    assert (Rabs (p - q) * ((p + q) * D / 10000) <= Rabs (y - w) * 1) by (apply Rmult_le_compat; auto using Rabs_pos; lra). lra. }
  lra.
Qed.
Lemma schw_is y D : 0 < y < 1000 -> mod_sch_f y D = schw y D.
Proof.
  intros H. unfold mod_sch_f, schw, hump. rewrite (Rabs_pos_eq y) by lra. destruct (Rle_dec y 500) as [L|L].
  - rewrite (Rabs_left1 (y - 500)) by lra. replace (1 / 2) with (/ 2) by lra. rewrite ppow_half by lra. replace (500 - - (y - 500)) with y by ring. field.
  - destruct (Rlt_dec 500 y) as [_|]; [|lra]. rewrite (Rabs_pos_eq (y - 500)) by lra.
    assert (P : pmod y 500 = y - 500). { unfold pmod. rewrite (Zfloor_imp 1); [lra|]. change (IZR (1 + 1)) with 2. split; lra. }
    rewrite P. rewrite (Rabs_pos_eq (500 - (y - 500))) by lra. field.
Qed.
Lemma offset_near : appr (fdiv (Z2f 4209687462275036) (Z2f (10 ^ 13))) offset 421 422.
Proof.
  destruct (small_Z 4209687462275036) as [F1 E1]; [lia|]. destruct (small_Z (10 ^ 13)) as [F2 E2]; [lia|]. pose proof eps_pos. pose proof (eta_eps eps eps_u). pose proof cap_huge.
  assert (E : B2R (Z2f 4209687462275036) / B2R (Z2f (10 ^ 13)) = offset) by (rewrite E1, E2; unfold offset; cbn; lra). assert (O : 0 <= offset <= 421) by (unfold offset; lra).
  destruct (div_rel (Z2f 4209687462275036) (Z2f (10 ^ 13)) F1) as [F (e & t & He & Ht & Ev)]; [rewrite E2; cbn; lra|rewrite E, Rabs_pos_eq by lra; unfold cap in *; lra|].
  split; [exact F|]. split; [rewrite Rabs_pos_eq; lra|]. split; [|lra]. rewrite Ev, E. replace (offset * (1 + e) + t - offset) with (offset * e + t) by ring.
  eapply Rle_trans; [apply Rabs_triang|]. rewrite Rabs_mult, (Rabs_pos_eq offset) by lra. assert (offset * Rabs e <= 421 * eps) by (apply Rmult_le_compat; auto using Rabs_pos; lra). lra.
Qed.
Lemma below_near z dim : isfin z = true -> 310 <= B2R z <= 500 ->
  appr (fmul z (m_sin m (m_pow m (fabs z) half))) (schw (B2R z) (INR dim)) 500 13600.
Proof.
  intros F B. pose proof eps_pos. pose proof (eta_eps eps eps_u). destruct half_R as [Fh Eh].
  assert (R : 17 <= sqrt (B2R z) <= 23). { split; [rewrite <- (sqrt_square 17) by lra|rewrite <- (sqrt_square 23) by lra]; apply sqrt_le_1; lra. }
  assert (P : appr (m_pow m (fabs z) half) (sqrt (B2R z)) 23 24).
  { destruct Hm as (_ & _ & _ & _ & Hp & _). assert (Fa : isfin (fabs z) = true) by (unfold fabs, isfin; rewrite is_finite_Babs; exact F).
    assert (Ea : B2R (fabs z) = B2R z) by (unfold fabs; rewrite B2R_Babs; apply Rabs_pos_eq; lra).
    destruct (Hp (fabs z) half Fa Fh) as [Fp Ep]; [rewrite Ea; lra|rewrite Eh; lra|left; rewrite Ea; lra|]. rewrite Ea, Eh, ppow_half, (Rabs_pos_eq (sqrt (B2R z))) in Ep by lra.
    split; [exact Fp|]. split; [rewrite Rabs_pos_eq; lra|]. split; [|lra]. assert (eps * sqrt (B2R z) <= eps * 23) by (apply Rmult_le_compat_l; lra). lra. }
  assert (V : appr z (B2R z) 500 0). { eapply appr_weak; [apply appr_exact; [exact F|reflexivity]|rewrite Rabs_pos_eq; lra|lra]. }
  pose proof (appr_sin _ _ _ _ P) as S. pose proof (appr_mul _ _ _ _ _ _ _ _ V S ltac:(small) ltac:(small)) as T.
  assert (E : schw (B2R z) (INR dim) = B2R z * sin (sqrt (B2R z))).
  { unfold schw, hump. rewrite Rabs_left1 by lra. replace (500 - - (B2R z - 500)) with (B2R z) by ring. replace (B2R z - 500 + - (B2R z - 500)) with 0 by ring. field. }
  rewrite E. eapply appr_weak; [exact T|lra|lra].
Qed.
Lemma above_near z dim : isfin z = true -> 500 <= B2R z <= 530 -> (dim <= 100)%nat ->
  appr (fsub (fmul (fsub (Z2f 500) (frem z (Z2f 500))) (m_sin m (fsqrt (fabs (fsub (Z2f 500) (frem z (Z2f 500)))))))
             (fmul (fdiv (m_sq m (fsub z (Z2f 500))) (Z2f 10000)) (nat_f dim))) (schw (B2R z) (INR dim)) 510 23500.
Proof.
  intros F B Hd. pose proof eps_pos. pose proof (eta_eps eps eps_u). pose proof (INR_100 dim Hd) as N. destruct (above_exact z F ltac:(lra)) as [[Fs Es] [Fr Er]].
  assert (Vr : appr (frem z (Z2f 500)) (B2R z - 500) 30 0). { rewrite <- Er. eapply appr_weak; [apply appr_exact; [exact Fr|reflexivity]|rewrite Er, Rabs_pos_eq; lra|lra]. }
  pose proof (appr_sub _ _ _ _ _ _ _ _ (appr_Z 500 ltac:(lia)) Vr ltac:(cbn; small)) as D0. cbn [Z.abs] in D0.
  set (w := fsub (Z2f 500) (frem z (Z2f 500))) in *. set (V := 1000 - B2R z). replace (500 - (B2R z - 500)) with V in D0 by (unfold V; ring).
  assert (D : appr w V 500 531). { destruct D0 as (Fw & _ & Ew & _). split; [exact Fw|]. split; [rewrite Rabs_pos_eq; unfold V; lra|]. split; [|lra]. assert (531 * eps >= (0 + 0 + (500 + 30 + (0 + 0) / 2 ^ 20)) * eps) by (apply Rle_ge, Rmult_le_compat_r; lra). lra. }
  assert (BV : 470 <= V <= 500) by (unfold V; lra).
  assert (Q : appr (fsqrt (fabs w)) (sqrt V) 23 40).
  { destruct D as (Fw & _ & Ew & _). pose proof (c_eps 531 ltac:(lra)) as CE. apply Rabs_le_inv in Ew as Ew'.
    assert (Fa : isfin (fabs w) = true) by (unfold fabs, isfin; rewrite is_finite_Babs; exact Fw).
    assert (Ea : B2R (fabs w) = B2R w) by (unfold fabs; rewrite B2R_Babs; apply Rabs_pos_eq; lra).
    assert (Sa : neg_signed (fabs w) = false) by (unfold fabs; destruct w as [|s| |s ? ? ?]; reflexivity).
    destruct (sqrt_rel (fabs w) Fa Sa) as [Fq (e & He & Eq)]. rewrite Ea in Eq.
    assert (R1 : sqrt (B2R w) <= 23) by (rewrite <- (sqrt_square 23) by lra; apply sqrt_le_1; lra). assert (R2 : sqrt V <= 23) by (rewrite <- (sqrt_square 23) by lra; apply sqrt_le_1; lra).
    pose proof (sqrt_pos V). pose proof (sqrt_pos (B2R w)). split; [exact Fq|]. split; [rewrite Rabs_pos_eq; lra|]. split; [|lra]. rewrite Eq.
    replace (sqrt (B2R w) * (1 + e) - sqrt V) with ((sqrt (B2R w) - sqrt V) + sqrt (B2R w) * e) by ring. eapply Rle_trans; [apply Rabs_triang|]. rewrite Rabs_mult, (Rabs_pos_eq (sqrt (B2R w))) by lra.
    pose proof (root_gap (B2R w) V ltac:(lra) ltac:(lra)). assert (sqrt (B2R w) * Rabs e <= 23 * eps) by (apply Rmult_le_compat; auto using Rabs_pos; lra). lra. }
  pose proof (appr_sin _ _ _ _ Q) as S. pose proof (appr_mul _ _ _ _ _ _ _ _ D S ltac:(small) ltac:(small)) as T.
  set (y := B2R z - 500) in *. assert (By : 0 <= y <= 30) by (unfold y; lra). assert (Y2 : 0 <= y ^ 2 <= 900) by nra.
  assert (W : appr (fmul (fdiv (m_sq m (fsub z (Z2f 500))) (Z2f 10000)) (nat_f dim)) (y ^ 2 / 10000 * INR dim) 9 100).
  { pose proof large_1. assert (HL : 1000 <= large). { unfold large. apply Rle_trans with (bpow radix2 10); [cbn; lra|apply bpow_le; lia]. }
    pose proof (sq_rel eps m Hm (fsub z (Z2f 500)) Fs) as R0. rewrite Es in R0. specialize (R0 ltac:(apply hundred_wide; rewrite Rabs_pos_eq; lra)).
    destruct (small_Z 10000) as [Fc Ec]; [lia|]. pose proof eta_tiny as ET. pose proof eta_pos.
    pose proof (relc_div eps eps_u eps_small (m_sq m (fsub z (Z2f 500))) (y ^ 2) eps eta (Z2f 10000) 10000 ltac:(split; lra) ltac:(split; lra) R0 Fc Ec ltac:(lra) ltac:(lra)) as R1.
    destruct (small_Z (Z.of_nat dim)) as [Fd Ed]; [lia|]. fold (nat_f dim) in Fd, Ed. rewrite <- INR_IZR_INZ in Ed.
    pose proof (relc_exact (nat_f dim) (INR dim) Fd Ed ltac:(lra)) as R2.
    assert (P9 : 0 <= INR dim * (y ^ 2 / 10000) <= 9). { split; [apply Rmult_le_pos; lra|]. assert (INR dim * (y ^ 2 / 10000) <= 100 * (9 / 100)) by (apply Rmult_le_compat; lra). lra. }
    assert (PT : INR dim * (2 * eta + eta) <= 100 * (2 * eta + eta)) by (apply Rmult_le_compat_r; lra).
    pose proof (relc_mul_r eps eps_u eps_small (nat_f dim) (INR dim) 0 _ (y ^ 2 / 10000) (eps + 2 * eps) (2 * eta + eta) ltac:(split; lra) ltac:(split; lra) ltac:(lra) R2 R1 ltac:(lra) ltac:(lra)) as R3.
    destruct R3 as (F3 & P3 & E3). split; [exact F3|]. split; [rewrite Rabs_pos_eq; lra|]. split; [|lra]. eapply Rle_trans; [exact E3|].
    assert (y ^ 2 / 10000 * INR dim * eps <= 9 * eps) by (apply Rmult_le_compat_r; lra). pose proof (eta_much eps eps_u). lra. }
  pose proof (appr_sub _ _ _ _ _ _ _ _ T W ltac:(small)) as G.
  assert (E : schw (B2R z) (INR dim) = V * sin (sqrt V) - y ^ 2 / 10000 * INR dim).
  { unfold schw, hump. fold y. rewrite Rabs_pos_eq by lra. replace (500 - y) with V by (unfold y, V; ring). field. }
  rewrite E. eapply appr_weak; [exact G|lra|lra].
Qed.
Lemma term_near z dim : isfin z = true -> 310 <= B2R z <= 530 -> (dim <= 100)%nat -> exists w, mod_sch_g m z dim = Some w /\ appr w (schw (B2R z) (INR dim)) 510 23500.
Proof.
  intros F B Hd. destruct five_R as [F5 E5]. assert (Fa : is_finite (fabs z) = true) by (unfold fabs; rewrite is_finite_Babs; exact F).
  unfold mod_sch_g, fle, flt. rewrite (Bleb_correct 53 1024 (fabs z) (Z2f 500) Fa F5), E5. unfold fabs at 1. rewrite B2R_Babs, Rabs_pos_eq by lra.
  destruct (Rle_bool_spec (B2R z) 500) as [L|L].
  - eexists. split; [reflexivity|]. eapply appr_weak; [apply below_near; [exact F|lra]|lra|lra].
  - rewrite (Bltb_correct 53 1024 (Z2f 500) z F5 F), E5, Rlt_bool_true by exact L. eexists. split; [reflexivity|]. apply above_near; [exact F|lra|exact Hd].
Qed.
Lemma schwefel_term_near v dim : isfin v = true -> Rabs (B2R v) <= 100 -> (dim <= 100)%nat ->
  exists w, mod_sch_g m (fadd v (fdiv (Z2f 4209687462275036) (Z2f (10 ^ 13)))) dim = Some w /\ appr w (mod_sch_f (B2R v + offset) (INR dim)) 510 40000.
Proof.
  intros F B Hd. assert (V : appr v (B2R v) 100 0) by (eapply appr_weak; [apply appr_exact; [exact F|reflexivity]|exact B|lra]).
  pose proof (appr_add _ _ _ _ _ _ _ _ V offset_near ltac:(small)) as (Fz & _ & Ez & _). set (z := fadd v (fdiv (Z2f 4209687462275036) (Z2f (10 ^ 13)))) in *.
  assert (Z0 : Rabs (B2R z - (B2R v + offset)) <= 944 * eps) by (pose proof eps_pos; lra). pose proof (c_eps 944 ltac:(lra)) as CE.
  assert (O : 4209 / 10 <= offset <= 421) by (unfold offset; lra). apply Rabs_le_inv in B. apply Rabs_le_inv in Z0 as Z1.
  destruct (term_near z dim Fz ltac:(lra) Hd) as (w & Ew & Fw & Aw & Dw & _). exists w. split; [exact Ew|]. pose proof (INR_100 dim Hd) as N. rewrite schw_is by lra.
  pose proof (schw_gap (B2R z) (B2R v + offset) (INR dim) ltac:(lra) ltac:(lra) N) as G.
  split; [exact Fw|]. split; [|split; [|lra]].
  - unfold schw, hump. set (y := B2R v + offset). set (p := (y - 500 + Rabs (y - 500)) / 2). set (t := 500 - Rabs (y - 500)).
    assert (A : 0 <= p <= 30 /\ 300 <= t <= 500). { unfold p, t. assert (310 <= y <= 530) by (unfold y; lra). destruct (Rle_dec 0 (y - 500)); [rewrite Rabs_pos_eq by lra|rewrite Rabs_left1 by lra]; lra. }
    assert (P2 : 0 <= p ^ 2 <= 900) by nra. assert (0 <= p ^ 2 / 10000 * INR dim <= 9 / 100 * 100) by (split; [apply Rmult_le_pos; lra|apply Rmult_le_compat; lra]).
    pose proof (SIN_bound (sqrt t)). assert (- 500 <= t * sin (sqrt t) <= 500) by nra. apply Rabs_le. lra.
  - replace (B2R w - schw (B2R v + offset) (INR dim)) with ((B2R w - schw (B2R z) (INR dim)) + (schw (B2R z) (INR dim) - schw (B2R v + offset) (INR dim))) by ring.
    eapply Rle_trans; [apply Rabs_triang|]. pose proof eps_pos. lra.
Qed.
Lemma fsub_opp (a b : f64) : fsub a b = fadd a (fopp b).
Proof. destruct a as [|?| |? ? ? ?], b as [|?| |? ? ? ?]; reflexivity. Qed.
Lemma appr_opp w r M c : appr w r M c -> appr (fopp w) (- r) M c.
Proof.
  intros (F & A & E & P). unfold fopp. split; [unfold isfin; rewrite is_finite_Bopp; exact F|]. split; [rewrite Rabs_Ropp; exact A|]. split; [|exact P].
  rewrite B2R_Bopp. replace (- B2R w - - r) with (- (B2R w - r)) by ring. rewrite Rabs_Ropp. exact E.
Qed.
Lemma fold_some (g : nat -> option f64) l : (forall i, In i l -> exists w, g i = Some w) -> forall a,
  fold_left (fun r i => rbind r (fun result => match g i with Some v => Ok (fsub result v) | None => Raise TypeError end)) l (Ok a) =
  Ok (addf a (fun i => fopp (match g i with Some v => v | None => fzero end)) l).
Proof.
  induction l as [|i l IH]; intros H a; [reflexivity|]. cbn [fold_left rbind]. destruct (H i (or_introl eq_refl)) as (w & E). rewrite E.
  rewrite IH by (intros j Hj; apply H; right; exact Hj). unfold addf. cbn [fold_left]. rewrite E, fsub_opp. reflexivity.
Qed.
Lemma schwefel_near x : (1 <= List.length x <= 100)%nat -> inside (List.length x) 100 x ->
  computes (mod_schwefel_f m x) (Ok (mod_schwefel (map B2R x))) 0 (INR (List.length x) * (43000 + 1900 * INR (List.length x)) * eps).
Proof.
  intros Hd Hx. unfold mod_schwefel_f, mod_schwefel. assert (L : List.length (map B2R x) = @List.length f64 x) by apply map_length. rewrite L. clear L.
  set (n := List.length x) in *. pose proof (INR_100 n ltac:(lia)) as N. assert (N1 : 1 <= INR n) by (change 1 with (INR 1); apply le_INR; lia).
  pose proof eps_pos. pose proof (eta_eps eps eps_u). pose proof cap_huge.
  assert (T : forall i, In i (span 1 (n + 1)) -> exists w, mod_sch_g m (fadd (getf (i - 1) x) (fdiv (Z2f 4209687462275036) (Z2f (10 ^ 13)))) n = Some w /\
    appr w (mod_sch_f (get (i - 1) (map B2R x) + offset) (INR n)) 510 40000).
  { intros i Hi. apply span_lt in Hi. rewrite get_B2R. destruct Hx as [_ Hx]. destruct (Hx (i - 1)%nat ltac:(lia)) as [F B]. apply schwefel_term_near; [exact F|exact B|lia]. }
  rewrite (fold_some (fun i => mod_sch_g m (fadd (getf (i - 1) x) (fdiv (Z2f 4209687462275036) (Z2f (10 ^ 13)))) n)) by (intros i Hi; destruct (T i Hi) as (w & E & _); exists w; exact E).
  assert (A0 : appr (fmul (fdiv (Z2f 4189829) (Z2f 10000)) (nat_f n)) (4189829 / 10000 * INR n) (419 * INR n) (850 * INR n)).
  { destruct (small_Z 10000) as [Fc Ec]; [lia|]. destruct (small_Z 4189829) as [Fa Ea]; [lia|].
    destruct (div_rel (Z2f 4189829) (Z2f 10000) Fa) as [F (e & t & He & Ht & Ev)]; [rewrite Ec; lra|rewrite Ea, Ec, Rabs_pos_eq; unfold cap in *; lra|].
    assert (C : appr (fdiv (Z2f 4189829) (Z2f 10000)) (4189829 / 10000) 419 420).
    { split; [exact F|]. split; [rewrite Rabs_pos_eq; lra|]. split; [|lra]. rewrite Ev, Ea, Ec. replace (4189829 / 10000 * (1 + e) + t - 4189829 / 10000) with (4189829 / 10000 * e + t) by ring.
      eapply Rle_trans; [apply Rabs_triang|]. rewrite Rabs_mult, (Rabs_pos_eq (4189829 / 10000)) by lra. assert (4189829 / 10000 * Rabs e <= 419 * eps) by (apply Rmult_le_compat; auto using Rabs_pos; lra). lra. }
    assert (D : appr (nat_f n) (INR n) (INR n) 0).
    { destruct (small_Z (Z.of_nat n)) as [Fd Ed]; [lia|]. fold (nat_f n) in Fd, Ed. rewrite <- INR_IZR_INZ in Ed. split; [exact Fd|]. rewrite Ed, Rminus_eq_0, Rabs_R0, Rabs_pos_eq; lra. }
    pose proof (appr_mul _ _ _ _ _ _ _ _ C D ltac:(small) ltac:(small)) as P. eapply appr_weak; [exact P|lra|lra]. }
  change (range 1 (n + 1)) with (span 1 (n + 1)).
  assert (EF : fold_left (fun result i => result - mod_sch_f (get (i - 1) (map B2R x) + offset) (INR n)) (span 1 (n + 1)) (4189829 / 10000 * INR n) =
    add_up (4189829 / 10000 * INR n) (fun i => - mod_sch_f (get (i - 1) (map B2R x) + offset) (INR n)) (span 1 (n + 1))) by reflexivity.
  rewrite EF. assert (Ls : List.length (span 1 (n + 1)) = n) by (unfold span; rewrite seq_length; lia).
  pose proof (fun H1 H2 H3 => appr_sum _ _ _ _ (fun i => fopp (match mod_sch_g m (fadd (getf (i - 1) x) (fdiv (Z2f 4209687462275036) (Z2f (10 ^ 13)))) n with Some v => v | None => fzero end))
    (fun i => - mod_sch_f (get (i - 1) (map B2R x) + offset) (INR n)) (fun _ => 510) (fun _ => 40000) (span 1 (n + 1)) A0 H1 H2 H3) as S.
  rewrite !rsum_const, Ls in S. specialize (S ltac:(lia)).
  specialize (S ltac:(intros i Hi; destruct (T i Hi) as (w & -> & Hw); apply appr_opp; exact Hw)). specialize (S ltac:(small)).
  eapply appr_off; [exact eps_u|exact S|]. nra.
Qed.
End Eps.

Lemma near_waves (eps : R) (m : libm) (d : nat) (x : list f64) : u <= eps -> eps <= / 2 ^ 20 -> accurate eps m -> (1 <= d <= 100)%nat -> inside d 100 x ->
  computes (weierstrass_f m d x) (weierstrass d (map B2R x)) 0 (INR d * (22000000 + 101000 * INR d) * eps) /\
  (length x = d -> computes (mod_schwefel_f m x) (Ok (mod_schwefel (map B2R x))) 0 (INR d * (43000 + 1900 * INR d) * eps)).
Proof. intros Hu He Hm Hd Hx. split; [apply weierstrass_near; assumption|]. intros <-. apply schwefel_near; assumption. Qed.
