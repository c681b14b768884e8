(** Rounding errors of the benchmark functions in binary64. *)
From Coq Require Import List ZArith Bool Lia Reals Lra Permutation MVT.
From Flocq Require Import Core IEEE754.BinarySingleNaN Mult_error.
From Verif Require Import PyBase B64 B64More Rand Models ModelThms Sign FloatSum FloatMean Bench BenchThms BenchFloat BenchFloatThms BenchCec Consts.
Import ListNotations.
Open Scope R_scope.

(** [w] is [r] up to a relative error [eps] (and underflow). *)
Definition close (eps : R) (w : f64) (r : R) : Prop := isfin w = true /\ Rabs (B2R w - r) <= eps * Rabs r + eta.
(** What is assumed of squares, cos, sin, exp, powers and round. *)
Definition accurate (eps : R) (m : libm) : Prop :=
  (forall v, isfin v = true -> Rabs (B2R v) <= bpow radix2 400 -> close eps (m_sq m v) (B2R v ^ 2) /\ neg_signed (m_sq m v) = false) /\
  (forall v, isfin v = true -> close eps (m_cos m v) (cos (B2R v))) /\
  (forall v, isfin v = true -> close eps (m_sin m v) (sin (B2R v))) /\
  (forall v, isfin v = true -> Rabs (B2R v) <= 100 -> close eps (m_exp m v) (exp (B2R v))) /\
  (forall b e, isfin b = true -> isfin e = true -> 0 <= B2R b <= 10 ^ 15 -> 0 <= B2R e <= 20 -> 0 < B2R b \/ 0 < B2R e -> close eps (m_pow m b e) (ppow (B2R b) (B2R e))) /\
  (forall v, isfin v = true -> Rabs (B2R v) <= bpow radix2 50 -> isfin (m_round m v) = true /\ B2R (m_round m v) = IZR (ZnearestE (B2R v))).

(** The first [d] numbers of [x] are finite and within [-B, B]. *)
Definition inside (d : nat) (B : R) (x : list f64) : Prop :=
  (d <= List.length x)%nat /\ forall i, (i < d)%nat -> isfin (getf i x) = true /\ Rabs (B2R (getf i x)) <= B.

Lemma get_B2R i (x : list f64) : get i (map B2R x) = B2R (getf i x).
Proof. unfold get, getf. change 0 with (B2R fzero) at 1. apply map_nth. Qed.

(* ---------------- sums ---------------- *)
Lemma added_addf f l : forall l0 a, added l0 a -> added (l0 ++ map f l) (addf a f l).
Proof.
  unfold addf. induction l as [|i l IH]; intros l0 a H; cbn [fold_left map]; [rewrite app_nil_r; exact H|].
  replace (l0 ++ f i :: map f l) with ((l0 ++ [f i]) ++ map f l) by (rewrite <- app_assoc; reflexivity). apply IH.
  eapply added_plus; [apply Permutation_refl|exact H|constructor].
Qed.
(** Number, exact value, error. *)
Definition known (p : f64 * (R * R)) : Prop := isfin (fst p) = true /\ Rabs (B2R (fst p) - fst (snd p)) <= snd (snd p).
Definition size (p : f64 * (R * R)) : R := Rabs (fst (snd p)) + snd (snd p).
Lemma known_mag ts : Forall known ts -> Rmag (map fst ts) <= Rsum (map size ts).
Proof.
  induction 1 as [|p ts [_ H] _ IH]; [apply Rle_refl|]. cbn [map]. change (Rabs (B2R (fst p)) + Rmag (map fst ts) <= size p + Rsum (map size ts)).
  assert (Rabs (B2R (fst p)) <= size p); [|lra]. unfold size. replace (B2R (fst p)) with (fst (snd p) + (B2R (fst p) - fst (snd p))) by ring.
  eapply Rle_trans; [apply Rabs_triang|]. lra.
Qed.
Lemma known_tot ts : Forall known ts -> Rabs (Rtot (map fst ts) - Rsum (map (fun p => fst (snd p)) ts)) <= Rsum (map (fun p => snd (snd p)) ts).
Proof.
  induction 1 as [|p ts [_ H] _ IH]; [unfold Rtot, Rsum; cbn; rewrite Rminus_0_r, Rabs_R0; lra|]. cbn [map].
  change (Rabs (B2R (fst p) + Rtot (map fst ts) - (fst (snd p) + Rsum (map (fun p => fst (snd p)) ts))) <= snd (snd p) + Rsum (map (fun p => snd (snd p)) ts)).
  match goal with |- Rabs ?e <= _ => replace e with ((B2R (fst p) - fst (snd p)) + (Rtot (map fst ts) - Rsum (map (fun p => fst (snd p)) ts))) by ring end.
  eapply Rle_trans; [apply Rabs_triang|]. lra.
Qed.
Lemma sum_near ts s : added (map fst ts) s -> Forall known ts -> few (List.length ts) -> 2 * Rsum (map size ts) <= huge ->
  isfin s = true /\ Rabs (B2R s - Rsum (map (fun p => fst (snd p)) ts)) <=
    Rsum (map (fun p => snd (snd p)) ts) + 2 * INR (List.length ts) * u * Rsum (map size ts).
Proof.
  intros A K N H. pose proof (known_mag ts K) as M. pose proof (known_tot ts K) as T. pose proof (Rmag_pos (map fst ts)) as P.
  pose proof (grow_lin (List.length ts) N) as G. pose proof (few_u (List.length ts) N) as U. assert (/ 2 ^ 13 <= / 2) by (cbn; lra).
  pose proof (grow_1 (List.length ts)) as G1.
  destruct (added_err _ _ A) as [F E].
  - apply Forall_forall. intros v Hv. apply in_map_iff in Hv as (p & <- & Hp). rewrite Forall_forall in K. apply (K p Hp).
  - rewrite map_length. eapply Rle_trans; [|exact H]. apply Rmult_le_compat; lra.
  - split; [exact F|]. rewrite map_length in E.
    assert (Gp : (1 + u) ^ Nat.pred (List.length ts) <= (1 + u) ^ List.length ts) by (apply grow_le; lia).
    assert (E' : Rabs (B2R s - Rtot (map fst ts)) <= 2 * INR (List.length ts) * u * Rsum (map size ts)).
    { eapply Rle_trans; [exact E|]. pose proof (grow_1 (Nat.pred (List.length ts))). apply Rmult_le_compat; lra. }
    match goal with |- Rabs ?e <= _ => replace e with ((B2R s - Rtot (map fst ts)) + (Rtot (map fst ts) - Rsum (map (fun p => fst (snd p)) ts))) by ring end.
    eapply Rle_trans; [apply Rabs_triang|]. lra.
Qed.
Lemma Rsum_rsum l : Rsum l = rsum l.
Proof. induction l as [|a l IH]; cbn; [reflexivity|]. unfold Rsum in IH. rewrite IH. reflexivity. Qed.

Section Eps.
Variable eps : R.
Hypothesis eps_u : u <= eps.
Hypothesis eps_small : eps <= / 2 ^ 20.
Lemma eps_pos : 0 < eps. Proof. pose proof u_pos. lra. Qed.
Lemma eps_sq : eps * eps <= eps / 2 ^ 20.
Proof. unfold Rdiv. apply Rmult_le_compat_l; [pose proof eps_pos; lra|exact eps_small]. Qed.
Lemma eta_eps : eta <= eps.
Proof. apply Rle_trans with u; [|exact eps_u]. unfold eta, u. apply bpow_le. lia. Qed.

(* ---------------- relative errors ---------------- *)
(** [w] is the nonnegative [r] up to a factor [1 + k] and a term [t]. *)
Definition relc (w : f64) (r k t : R) : Prop := isfin w = true /\ 0 <= r /\ Rabs (B2R w - r) <= k * r + t.
Definition large : R := bpow radix2 300.
Lemma large_1 : 1 <= large. Proof. unfold large. change 1 with (bpow radix2 0). apply bpow_le. lia. Qed.
Lemma large_huge : bpow radix2 30 * large <= huge.
Proof. unfold large, huge. rewrite <- bpow_plus. apply bpow_le. lia. Qed.
Lemma bpow_30 : bpow radix2 30 = 1073741824. Proof. cbn. lra. Qed.
Lemma huge_large : 1073741824 * large <= huge. Proof. rewrite <- bpow_30. exact large_huge. Qed.

Lemma relc_abs w r k t : relc w r k t -> Rabs (B2R w) <= (1 + k) * r + t.
Proof.
  intros (_ & Hr & H). replace (B2R w) with (r + (B2R w - r)) by ring. eapply Rle_trans; [apply Rabs_triang|]. rewrite (Rabs_pos_eq r) by exact Hr. lra.
Qed.
Lemma relc_weak w r k t k' t' : relc w r k t -> k <= k' -> t <= t' -> relc w r k' t'.
Proof. intros (F & Hr & H) Hk Ht. split; [exact F|]. split; [exact Hr|]. assert (k * r <= k' * r) by (apply Rmult_le_compat_r; assumption). lra. Qed.
Lemma addf_rel a A f F l k t : 0 <= k <= 1 -> 0 <= t <= 1 -> (List.length l <= 100)%nat -> relc a A k t ->
  (forall i, In i l -> relc (f i) (F i) k t) -> add_up A F l <= large ->
  relc (addf a f l) (add_up A F l) (k + 4 * INR (S (List.length l)) * eps) (2 * INR (S (List.length l)) * t).
Proof.
  intros Hk Ht Hl Ha Hf HS.
  set (ts := (a, (A, k * A + t)) :: map (fun i => (f i, (F i, k * F i + t))) l).
  assert (Ev : map fst ts = [a] ++ map f l). { unfold ts. cbn [map app fst]. rewrite map_map. reflexivity. }
  assert (EF : Rsum (map (fun p => fst (snd p)) ts) = add_up A F l). { unfold ts. cbn [map fst snd]. rewrite map_map. cbn [fst snd]. rewrite add_up_rsum, Rsum_rsum. reflexivity. }
  assert (En : List.length ts = S (List.length l)) by (unfold ts; cbn [List.length]; rewrite map_length; reflexivity).
  assert (EE : Rsum (map (fun p => snd (snd p)) ts) = k * add_up A F l + INR (S (List.length l)) * t).
  { unfold ts. cbn [map fst snd]. rewrite map_map. cbn [fst snd]. rewrite add_up_rsum, Rsum_rsum. cbn [rsum]. rewrite rsum_plus, rsum_scal, rsum_const, S_INR. ring. }
  assert (ES : Rsum (map size ts) = add_up A F l + (k * add_up A F l + INR (S (List.length l)) * t)).
  { unfold ts, size. cbn [map fst snd]. rewrite !map_map. cbn [fst snd].
    rewrite !Rsum_rsum. cbn [rsum]. rewrite rsum_plus. rewrite (rsum_ext (fun x => Rabs (F x)) F) by (intros i Hi; apply Rabs_pos_eq, (Hf i Hi)).
    rewrite (Rabs_pos_eq A) by apply Ha. rewrite rsum_plus, rsum_scal, rsum_const, add_up_rsum, S_INR. ring. }
  assert (K : Forall known ts). { unfold ts. constructor; [split; apply Ha|]. apply Forall_forall. intros p Hp. apply in_map_iff in Hp as (i & <- & Hi). split; apply (Hf i Hi). }
  assert (P : 0 <= add_up A F l). { rewrite add_up_rsum. apply Rplus_le_le_0_compat; [apply Ha|]. apply sum_nonneg. intros i Hi. apply (Hf i Hi). }
  assert (N : 1 <= INR (S (List.length l)) <= 101).
  { split; [rewrite S_INR; pose proof (pos_INR (List.length l)); lra|]. rewrite INR_IZR_INZ. apply IZR_le. lia. }
  pose proof u_pos. pose proof huge_large. pose proof large_1.
  set (n := INR (S (List.length l))) in *. set (S0 := add_up A F l) in *.
  assert (k * S0 <= S0) by (rewrite <- (Rmult_1_l S0) at 2; apply Rmult_le_compat_r; lra).
  assert (0 <= k * S0) by (apply Rmult_le_pos; lra).
  assert (n * t <= 101 * 1) by (apply Rmult_le_compat; lra). assert (0 <= n * t) by (apply Rmult_le_pos; lra).
  destruct (sum_near ts (addf a f l)) as [Fs Es].
  - rewrite Ev. apply added_addf. constructor.
  - exact K.
  - rewrite En. unfold few. lia.
  - rewrite ES. lra.
  - split; [exact Fs|]. split; [exact P|]. rewrite EF, En, EE, ES in Es. fold n in Es. eapply Rle_trans; [exact Es|].
    assert (2 * n * u * (S0 + (k * S0 + n * t)) <= 2 * n * eps * (2 * S0 + n * t)).
    { apply Rmult_le_compat; [apply Rmult_le_pos; lra|lra|apply Rmult_le_compat_l; lra|lra]. }
    assert (2 * n * eps * (n * t) <= 1 * (n * t)).
    { apply Rmult_le_compat_r; [lra|]. assert (2 * n * eps <= 2 * 101 * / 2 ^ 20) by (apply Rmult_le_compat; lra). lra. }
    lra.
Qed.

(** One operation. *)
Lemma relc_prod w a A k b B k' t' : 0 <= k <= 1 / 4 -> 0 <= k' <= 1 / 4 -> 0 <= t' -> relc a A k 0 -> relc b B k' t' -> A * B <= large -> A * t' <= 1 ->
  (Rabs (B2R a * B2R b) <= huge -> isfin w = true /\ exists e t, Rabs e <= u /\ Rabs t <= eta /\ B2R w = B2R a * B2R b * (1 + e) + t) ->
  relc w (A * B) (k + k' + k * k' + 2 * eps) (2 * (A * t') + eta).
Proof.
  intros Hk Hk' Ht Ha Hb HS Hs Hw. pose proof (relc_abs _ _ _ _ Ha) as Ma. pose proof (relc_abs _ _ _ _ Hb) as Mb.
  destruct Ha as (Fa & Pa & Ea). destruct Hb as (Fb & Pb & Eb). pose proof u_pos. pose proof huge_large. pose proof large_1. pose proof eta_pos.
  assert (P : 0 <= A * B) by (apply Rmult_le_pos; assumption). assert (PT : 0 <= A * t') by (apply Rmult_le_pos; assumption).
  assert (D : Rabs (B2R a * B2R b - A * B) <= (k + k' + k * k') * (A * B) + (1 + k) * (A * t')).
  { replace (B2R a * B2R b - A * B) with (B2R a * (B2R b - B) + (B2R a - A) * B) by ring. eapply Rle_trans; [apply Rabs_triang|]. rewrite !Rabs_mult, (Rabs_pos_eq B) by exact Pb.
    assert (Rabs (B2R a) * Rabs (B2R b - B) <= ((1 + k) * A + 0) * (k' * B + t')) by (apply Rmult_le_compat; auto using Rabs_pos).
    assert (Rabs (B2R a - A) * B <= (k * A + 0) * B) by (apply Rmult_le_compat_r; assumption). lra. }
  assert (KK : k * k' <= 1 / 4 * (1 / 4)) by (apply Rmult_le_compat; lra).
  assert (D1 : (k + k' + k * k') * (A * B) <= A * B) by (rewrite <- (Rmult_1_l (A * B)) at 2; apply Rmult_le_compat_r; lra).
  assert (D2 : (1 + k) * (A * t') <= 5 / 4 * (A * t')) by (apply Rmult_le_compat_r; lra).
  assert (M : Rabs (B2R a * B2R b) <= 2 * (A * B) + 5 / 4 * (A * t')).
  { replace (B2R a * B2R b) with (A * B + (B2R a * B2R b - A * B)) by ring. eapply Rle_trans; [apply Rabs_triang|]. rewrite (Rabs_pos_eq (A * B)) by exact P. lra. }
  destruct (Hw ltac:(lra)) as [F (e & t & He & Hte & E)]. split; [exact F|]. split; [exact P|]. rewrite E.
  replace (B2R a * B2R b * (1 + e) + t - A * B) with ((B2R a * B2R b - A * B) + B2R a * B2R b * e + t) by ring.
  eapply Rle_trans; [apply Rabs_triang|]. eapply Rle_trans; [apply Rplus_le_compat_r, Rabs_triang|]. rewrite Rabs_mult.
  assert (Rabs (B2R a * B2R b) * Rabs e <= (2 * (A * B) + 5 / 4 * (A * t')) * eps) by (apply Rmult_le_compat; auto using Rabs_pos; lra).
  assert (5 / 4 * (A * t') * eps <= 1 / 4 * (A * t')) by (pose proof eps_small; assert (A * t' * eps <= A * t' * / 2 ^ 20) by (apply Rmult_le_compat_l; lra); lra). lra.
Qed.
Lemma relc_mul a A k b B k' t' : 0 <= k <= 1 / 4 -> 0 <= k' <= 1 / 4 -> 0 <= t' -> relc a A k 0 -> relc b B k' t' -> A * B <= large -> A * t' <= 1 ->
  relc (fmul a b) (A * B) (k + k' + k * k' + 2 * eps) (2 * (A * t') + eta).
Proof. intros Hk Hk' Ht Ha Hb HS Hs. eapply relc_prod; try eassumption. apply mul_rel; [apply Ha|apply Hb]. Qed.
Lemma relc_mul_r a A k b B k' t' : 0 <= k <= 1 / 4 -> 0 <= k' <= 1 / 4 -> 0 <= t' -> relc a A k 0 -> relc b B k' t' -> A * B <= large -> A * t' <= 1 ->
  relc (fmul b a) (B * A) (k + k' + k * k' + 2 * eps) (2 * (A * t') + eta).
Proof.
  intros Hk Hk' Ht Ha Hb HS Hs. rewrite (Rmult_comm B A). eapply relc_prod; try eassumption. rewrite (Rmult_comm (B2R a) (B2R b)).
  apply mul_rel; [apply Hb|apply Ha].
Qed.
Lemma relc_exact c C : isfin c = true -> B2R c = C -> 0 <= C -> relc c C 0 0.
Proof. intros F E P. split; [exact F|]. split; [exact P|]. rewrite E, Rminus_eq_0, Rabs_R0. lra. Qed.
Lemma relc_div a A k t c C : 0 <= k <= 1 -> 0 <= t <= 1 -> relc a A k t -> isfin c = true -> B2R c = C -> 1 <= C -> A <= large ->
  relc (fdiv a c) (A / C) (k + 2 * eps) (2 * t + eta).
Proof.
  intros Hk Ht Ha Fc Ec Pc HS. pose proof (relc_abs _ _ _ _ Ha) as Ma. destruct Ha as (Fa & Pa & Ea). pose proof huge_large. pose proof large_1. pose proof eta_pos. pose proof eps_small.
  assert (Q : 0 <= A / C) by (apply Rmult_le_pos; [exact Pa|left; apply Rinv_0_lt_compat; lra]).
  assert (QC : A / C * C = A) by (field; lra).
  assert (I : 0 < / C <= 1) by (split; [apply Rinv_0_lt_compat; lra|rewrite <- Rinv_1; apply Rinv_le_contravar; lra]).
  assert (KA : k * A <= A) by (rewrite <- (Rmult_1_l A) at 2; apply Rmult_le_compat_r; lra).
  assert (D : Rabs (B2R a / C - A / C) <= k * (A / C) + t).
  { replace (B2R a / C - A / C) with ((B2R a - A) * / C) by (unfold Rdiv; ring). rewrite Rabs_mult, (Rabs_pos_eq (/ C)) by lra.
    apply Rle_trans with ((k * A + t) * / C); [apply Rmult_le_compat_r; lra|]. assert (t * / C <= t * 1) by (apply Rmult_le_compat_l; lra). unfold Rdiv. lra. }
  assert (M : Rabs (B2R a / C) <= 2 * (A / C) + t).
  { replace (B2R a / C) with (A / C + (B2R a / C - A / C)) by ring. eapply Rle_trans; [apply Rabs_triang|]. rewrite (Rabs_pos_eq (A / C)) by exact Q.
    assert (k * (A / C) <= 1 * (A / C)) by (apply Rmult_le_compat_r; lra). lra. }
  assert (AC : A / C <= A) by (unfold Rdiv; rewrite <- (Rmult_1_r A) at 2; apply Rmult_le_compat_l; lra).
  destruct (div_rel a c Fa ltac:(rewrite Ec; lra)) as [F (e & t' & He & Ht' & E)]; [rewrite Ec; lra|]. split; [exact F|]. split; [exact Q|]. rewrite E, Ec.
  replace (B2R a / C * (1 + e) + t' - A / C) with ((B2R a / C - A / C) + B2R a / C * e + t') by ring.
  eapply Rle_trans; [apply Rabs_triang|]. eapply Rle_trans; [apply Rplus_le_compat_r, Rabs_triang|]. rewrite Rabs_mult.
  assert (Rabs (B2R a / C) * Rabs e <= (2 * (A / C) + t) * eps) by (apply Rmult_le_compat; auto using Rabs_pos; lra).
  assert (t * eps <= t * 1) by (apply Rmult_le_compat_l; lra). lra.
Qed.
Lemma relc_add a A k t b B t' : 0 <= k <= 1 -> 0 <= t <= 1 -> 0 <= t' <= 1 -> relc a A k t -> relc b B k t' -> A <= large -> B <= large ->
  relc (fadd a b) (A + B) (k + 2 * eps) (2 * (t + t')).
Proof.
  intros Hk Ht Ht' Ha Hb HA HB. destruct Ha as (Fa & Pa & Ea). destruct Hb as (Fb & Pb & Eb). pose proof huge_large. pose proof large_1.
  assert (k * A <= 1 * A) by (apply Rmult_le_compat_r; lra). assert (k * B <= 1 * B) by (apply Rmult_le_compat_r; lra). pose proof eps_small.
  destruct (add_near a b A B (k * A + t) (k * B + t') (2 * A + 2 * B + t + t') Fa Fb Ea Eb) as [F E].
  - rewrite !Rabs_pos_eq by assumption. lra.
  - lra.
  - split; [exact F|]. split; [lra|]. eapply Rle_trans; [exact E|].
    assert (u * (2 * A + 2 * B + t + t') <= eps * (2 * A + 2 * B + t + t')) by (apply Rmult_le_compat_r; lra).
    assert (eps * (t + t') <= 1 * (t + t')) by (apply Rmult_le_compat_r; lra). lra.
Qed.
Variable m : libm.
Hypothesis Hm : accurate eps m.
Definition wide : R := bpow radix2 100.
Definition speck : R := bpow radix2 (-1040).
Lemma speck_eta : 2 ^ 30 * eta <= speck.
Proof. replace (2 ^ 30) with (bpow radix2 30) by (cbn; lra). unfold eta, speck. rewrite <- bpow_plus. apply bpow_le. lia. Qed.
Lemma eta_tiny : 2 ^ 30 * eta <= / 2 ^ 20.
Proof. replace (2 ^ 30) with (bpow radix2 30) by (cbn; lra). replace (/ 2 ^ 20) with (bpow radix2 (-20)) by (cbn; lra). unfold eta. rewrite <- bpow_plus. apply bpow_le. lia. Qed.
Lemma wide_large : 2 ^ 30 * (wide * wide) <= large.
Proof. replace (2 ^ 30) with (bpow radix2 30) by (cbn; lra). unfold wide, large. rewrite <- !bpow_plus. apply bpow_le. lia. Qed.
Lemma wide_far : wide <= bpow radix2 400. Proof. unfold wide. apply bpow_le. lia. Qed.
Lemma wide_1 : 1 <= wide. Proof. unfold wide. change 1 with (bpow radix2 0). apply bpow_le. lia. Qed.
Lemma sq_wide v : Rabs v <= wide -> 0 <= v ^ 2 <= wide * wide.
Proof.
  intros H. split; [apply pow2_ge_0|]. rewrite <- Rsqr_pow2, Rsqr_abs. unfold Rsqr. apply Rmult_le_compat; auto using Rabs_pos.
Qed.
Lemma sq_rel v : isfin v = true -> Rabs (B2R v) <= wide -> relc (m_sq m v) (B2R v ^ 2) eps eta.
Proof.
  intros F H. destruct Hm as (Hsq & _). destruct (Hsq v F) as [[Fs Es] _]; [pose proof wide_far; lra|].
  split; [exact Fs|]. pose proof (sq_wide _ H). split; [lra|]. rewrite (Rabs_pos_eq (B2R v ^ 2)) in Es by lra. exact Es.
Qed.
Lemma add_up_le A F l a b n : A <= a -> (forall i, In i l -> F i <= b) -> 0 <= b -> (List.length l <= n)%nat -> add_up A F l <= a + INR n * b.
Proof.
  intros HA HF Hb Hn. rewrite add_up_rsum. apply Rplus_le_compat; [exact HA|]. eapply Rle_trans; [apply rsum_le with (g := fun _ => b); exact HF|].
  rewrite rsum_const. apply Rmult_le_compat_r; [exact Hb|]. apply le_INR, Hn.
Qed.
Lemma INR_100 n : (n <= 100)%nat -> 0 <= INR n <= 100.
Proof. intros H. split; [apply pos_INR|]. rewrite INR_IZR_INZ. apply IZR_le. lia. Qed.
Lemma million : isfin (Z2f 1000000) = true /\ B2R (Z2f 1000000) = 10 ^ 6.
Proof. destruct (small_Z 1000000) as [F E]; [lia|]. split; [exact F|]. rewrite E. cbn. lra. Qed.
Lemma reads_R d (x : list f64) r : (d <= List.length x)%nat -> reads d (map B2R x) r = Ok r.
Proof. intros H. unfold reads. rewrite (proj2 (Nat.leb_le _ _)); [reflexivity|]. rewrite map_length. exact H. Qed.
Lemma reads_F d x r : (d <= List.length x)%nat -> reads_f d x r = Ok r.
Proof. intros H. unfold reads_f. rewrite (proj2 (Nat.leb_le _ _) H). reflexivity. Qed.
Lemma add_up_ext A B F G l : A = B -> (forall i, In i l -> F i = G i) -> add_up A F l = add_up B G l.
Proof. intros -> H. rewrite !add_up_rsum. f_equal. apply rsum_ext, H. Qed.

Lemma squares_rel d x : (1 <= d <= 100)%nat -> inside d wide x ->
  relc (addf (m_sq m (getf 0 x)) (fun i => m_sq m (getf i x)) (span 1 d)) (add_up (B2R (getf 0 x) ^ 2) (fun i => B2R (getf i x) ^ 2) (range 1 d))
       (eps + 4 * INR d * eps) (2 * INR d * eta) /\
  add_up (B2R (getf 0 x) ^ 2) (fun i => B2R (getf i x) ^ 2) (range 1 d) <= 101 * (wide * wide).
Proof.
  intros Hd [_ Hx]. pose proof eps_pos. pose proof eta_pos. pose proof eta_tiny. pose proof wide_large. pose proof wide_1.
  assert (W : 0 <= wide * wide) by (apply Rmult_le_pos; lra).
  assert (B : add_up (B2R (getf 0 x) ^ 2) (fun i => B2R (getf i x) ^ 2) (range 1 d) <= 101 * (wide * wide)).
  { replace (101 * (wide * wide)) with (wide * wide + INR 100 * (wide * wide)) by (replace (INR 100) with 100 by (cbn; lra); ring).
    apply add_up_le; [apply sq_wide, Hx; lia| |exact W|rewrite range_length; lia].
    intros i Hi. apply in_range in Hi. apply sq_wide, Hx. lia. }
  split; [|exact B]. replace (INR d) with (INR (S (List.length (span 1 d)))) by (unfold span; rewrite seq_length; f_equal; lia).
  apply addf_rel; try lra.
  - unfold span. rewrite seq_length. lia.
  - apply sq_rel; apply Hx; lia.
  - intros i Hi. apply span_lt in Hi. apply sq_rel; apply Hx; lia.
  - change (span 1 d) with (range 1 d). lra.
Qed.

(** The value of the real function and of the binary64 one. *)
Definition computes (r : res f64) (s : res R) (k t : R) : Prop :=
  exists v w, r = Ok v /\ isfin v = true /\ s = Ok w /\ Rabs (B2R v - w) <= k * Rabs w + t.
Lemma relc_off d (x : list f64) v w k t K T : (d <= List.length x)%nat -> relc v w k t -> k <= K -> t <= T -> computes (reads_f d x v) (reads d (map B2R x) w) K T.
Proof.
  intros L (F & P & E) Hk Ht. exists v, w. split; [apply reads_F, L|]. split; [exact F|]. split; [apply reads_R, L|]. rewrite (Rabs_pos_eq w P).
  assert (k * w <= K * w) by (apply Rmult_le_compat_r; assumption). lra.
Qed.

Lemma bent_near d x : (1 <= d <= 100)%nat -> inside d wide x ->
  computes (bent_cigar_f m d x) (bent_cigar d (map B2R x)) ((4 * INR d + 5) * eps) speck.
Proof.
  intros Hd Hx. destruct (squares_rel d x Hd Hx) as [R B]. unfold bent_cigar_f, bent_cigar.
  rewrite (add_up_ext (get 0 (map B2R x) ^ 2) (B2R (getf 0 x) ^ 2) (fun i => get i (map B2R x) ^ 2) (fun i => B2R (getf i x) ^ 2))
    by (intros; rewrite get_B2R; reflexivity).
  set (a := addf _ _ _) in *. set (A := add_up _ _ _) in *.
  pose proof (INR_100 d ltac:(lia)) as N. assert (1 <= INR d) by (apply (le_INR 1); lia). pose proof eps_pos. pose proof eps_small. pose proof eta_pos. pose proof eta_tiny. pose proof wide_large. pose proof wide_1. pose proof speck_eta. destruct million as [Fm Em].
  assert (NE : INR d * eps <= 100 * / 2 ^ 20) by (apply Rmult_le_compat; lra).
  assert (NT : INR d * eta <= 100 * eta) by (apply Rmult_le_compat_r; lra). assert (0 <= INR d * eta) by (apply Rmult_le_pos; lra). assert (0 <= INR d * eps) by (apply Rmult_le_pos; lra).
  assert (W : 0 <= wide * wide) by (apply Rmult_le_pos; lra). assert (PA : 0 <= A) by apply R.
  pose proof (relc_mul_r (Z2f 1000000) (10 ^ 6) 0 a A (eps + 4 * INR d * eps) (2 * INR d * eta) ltac:(lra) ltac:(lra) ltac:(lra) (relc_exact _ _ Fm Em ltac:(lra)) R ltac:(lra) ltac:(lra)) as M.
  pose proof (fun H1 H2 => relc_weak _ _ _ _ (eps + 4 * INR d * eps + 2 * eps) (2 * INR d * eta) R H1 H2) as R'; specialize (R' ltac:(lra) ltac:(lra)).
  pose proof (fun H1 H2 => relc_weak _ _ _ _ (eps + 4 * INR d * eps + 2 * eps) (410000000 * eta) M H1 H2) as M'; specialize (M' ltac:(lra) ltac:(lra)).
  pose proof (relc_add a A (eps + 4 * INR d * eps + 2 * eps) (2 * INR d * eta) (fmul a (Z2f 1000000)) (A * 10 ^ 6) (410000000 * eta) ltac:(lra) ltac:(lra) ltac:(lra) R' M' ltac:(lra) ltac:(lra)) as S.
  eapply relc_off; [apply Hx|exact S|lra|lra].
Qed.
Lemma discus_near d x : (1 <= d <= 100)%nat -> inside d wide x ->
  computes (discus_f m d x) (discus d (map B2R x)) ((4 * INR d + 3) * eps) speck.
Proof.
  intros Hd Hx. unfold discus_f, discus.
  rewrite (add_up_ext (10 ^ 6 * get 0 (map B2R x) ^ 2) (10 ^ 6 * B2R (getf 0 x) ^ 2) (fun i => get i (map B2R x) ^ 2) (fun i => B2R (getf i x) ^ 2))
    by (intros; rewrite get_B2R; reflexivity).
  destruct Hx as [Hl Hx]. pose proof (INR_100 d ltac:(lia)) as N. pose proof eps_pos. pose proof eps_small. pose proof eta_pos. pose proof eta_tiny. pose proof wide_large. pose proof wide_1. pose proof speck_eta. destruct million as [Fm Em].
  assert (NT : INR d * eta <= 100 * eta) by (apply Rmult_le_compat_r; lra).
  assert (W : 0 <= wide * wide) by (apply Rmult_le_pos; lra).
  destruct (Hx 0%nat ltac:(lia)) as [F0 B0]. pose proof (sq_wide _ B0) as S0.
  pose proof (relc_mul (Z2f 1000000) (10 ^ 6) 0 (m_sq m (getf 0 x)) (B2R (getf 0 x) ^ 2) eps eta ltac:(lra) ltac:(lra) ltac:(lra) (relc_exact _ _ Fm Em ltac:(lra)) (sq_rel _ F0 B0) ltac:(lra) ltac:(lra)) as M.
  pose proof (fun H1 H2 => relc_weak _ _ _ _ (3 * eps) (3000000 * eta) M H1 H2) as M'; specialize (M' ltac:(lra) ltac:(lra)).
  eapply relc_off; [exact Hl|apply (addf_rel _ _ _ _ _ (3 * eps) (3000000 * eta)); try lra| |].
  - unfold span. rewrite seq_length. lia.
  - exact M'.
  - intros i Hi. apply span_lt in Hi. destruct (Hx i ltac:(lia)) as [Fi Bi]. eapply relc_weak; [apply sq_rel; assumption|lra|lra].
  - eapply Rle_trans; [apply (add_up_le _ _ _ (10 ^ 6 * (wide * wide)) (wide * wide) 100)|].
    + lra.
    + intros i Hi. apply span_lt in Hi. apply sq_wide, Hx. lia.
    + exact W.
    + unfold span. rewrite seq_length. lia.
    + replace (INR 100) with 100 by (cbn; lra). lra.
  - unfold span. rewrite seq_length. replace (S (d - 1)) with d by lia. lra.
  - unfold span. rewrite seq_length. replace (S (d - 1)) with d by lia. lra.
Qed.

(** Griewank's product starts at zero and stays there. *)
Lemma zero_times z v : B2R z = 0 -> isfin z = true -> isfin v = true -> B2R (fmul z v) = 0 /\ isfin (fmul z v) = true.
Proof.
  intros Z Fz Fv. destruct (fmul_fin z v Fz Fv) as [F E].
  - rewrite Z, Rmult_0_l. unfold rnd. rewrite round_0 by typeclasses eauto. rewrite Rabs_R0. unfold big. apply bpow_gt_0.
  - split; [|exact F]. rewrite E, Z, Rmult_0_l. unfold rnd. apply round_0. typeclasses eauto.
Qed.
Lemma zeros_product (f : nat -> f64) l : (forall i, In i l -> isfin (f i) = true) -> forall z, B2R z = 0 -> isfin z = true ->
  B2R (fold_left (fun r i => fmul r (f i)) l z) = 0 /\ isfin (fold_left (fun r i => fmul r (f i)) l z) = true.
Proof.
  induction l as [|i l IH]; intros H z Z Fz; cbn [fold_left]; [split; assumption|]. destruct (zero_times z (f i) Z Fz (H i (or_introl eq_refl))) as [Z' F'].
  apply IH; [intros j Hj; apply H; right; exact Hj|exact Z'|exact F'].
Qed.
Lemma sub_zero w r k t z : relc w r k t -> B2R z = 0 -> isfin z = true -> relc (fsub w z) r k t.
Proof.
  intros (F & P & E) Z Fz. destruct (fsub_fin w z F Fz) as [Fs Es].
  - rewrite Z, Rminus_0_r. unfold rnd. rewrite round_generic by (try typeclasses eauto; apply generic_format_B2R). apply abs_B2R_lt_emax.
  - split; [exact Fs|]. split; [exact P|]. rewrite Es, Z, Rminus_0_r. unfold rnd. rewrite round_generic by (try typeclasses eauto; apply generic_format_B2R). exact E.
Qed.
Lemma root_ge_1 i : (1 <= i <= 100)%nat -> isfin (fsqrt (nat_f i)) = true /\ 1 <= B2R (fsqrt (nat_f i)).
Proof.
  intros Hi. unfold nat_f. destruct (len_exact i) as [E F]; [unfold few; lia|].
  destruct (sqrt_rel (Z2f (Z.of_nat i)) F (Z2f_nonneg i)) as [Fs _]. split; [exact Fs|].
  pose proof (Bsqrt_correct 53 1024 _ _ mode_NE (Z2f (Z.of_nat i))) as (Es & _ & _). change (Bsqrt mode_NE (Z2f (Z.of_nat i))) with (fsqrt (Z2f (Z.of_nat i))) in Es.
  rewrite Es, E. apply round_ge_generic; try typeclasses eauto.
  - change 1 with (bpow radix2 0). apply generic_format_bpow. unfold SpecFloat.fexp, SpecFloat.emin. lia.
  - rewrite <- sqrt_1. apply sqrt_le_1_alt. apply (le_INR 1). lia.
Qed.
Lemma cos_fin v : isfin v = true -> isfin (m_cos m v) = true /\ Rabs (B2R (m_cos m v)) <= 2.
Proof.
  intros F. destruct Hm as (_ & Hc & _). destruct (Hc v F) as [Fc Ec]. split; [exact Fc|]. pose proof (COS_bound (B2R v)).
  assert (Rabs (cos (B2R v)) <= 1) by (apply Rabs_le; lra). pose proof eps_pos. pose proof eta_eps. pose proof eps_small.
  assert (eps * Rabs (cos (B2R v)) <= / 2 ^ 20 * 1) by (apply Rmult_le_compat; auto using Rabs_pos; lra).
  replace (B2R (m_cos m v)) with (cos (B2R v) + (B2R (m_cos m v) - cos (B2R v))) by ring. eapply Rle_trans; [apply Rabs_triang|]. lra.
Qed.
Lemma griewank_near d x : (1 <= d <= 100)%nat -> inside d wide x ->
  computes (griewank_f m d x) (griewank d (map B2R x)) ((4 * INR d + 7) * eps) speck.
Proof.
  intros Hd [Hl Hx]. unfold griewank_f, griewank. rewrite zero_product, Rminus_0_r.
  rewrite (add_up_ext 0 0 (fun i => get i (map B2R x) ^ 2 / 4000) (fun i => B2R (getf i x) ^ 2 / 4000)) by (intros; rewrite ?get_B2R; reflexivity).
  pose proof (INR_100 d ltac:(lia)) as N. pose proof eps_pos. pose proof eps_small. pose proof eta_pos. pose proof eta_tiny. pose proof wide_large. pose proof wide_1. pose proof speck_eta. pose proof huge_large. pose proof large_1.
  assert (NT : INR d * eta <= 100 * eta) by (apply Rmult_le_compat_r; lra).
  assert (W : 1 <= wide * wide) by (rewrite <- (Rmult_1_l 1); apply Rmult_le_compat; lra).
  assert (W1 : wide <= wide * wide) by (rewrite <- (Rmult_1_l wide) at 1; apply Rmult_le_compat_r; lra).
  destruct (zeros_product (fun i => fadd (m_cos m (fdiv (getf (i - 1) x) (fsqrt (nat_f i)))) fone) (span 1 d)) with (z := fzero) as [Z Fz]; [|reflexivity|reflexivity|].
  { intros i Hi. apply span_lt in Hi. destruct (Hx (i - 1)%nat ltac:(lia)) as [Fi Bi]. destruct (root_ge_1 i ltac:(lia)) as [Fr Rr].
    assert (Fd : isfin (fdiv (getf (i - 1) x) (fsqrt (nat_f i))) = true).
    { apply div_rel; [exact Fi|lra|]. unfold Rdiv. rewrite Rabs_mult, (Rabs_pos_eq (/ _)) by (left; apply Rinv_0_lt_compat; lra).
      assert (/ B2R (fsqrt (nat_f i)) <= 1) by (rewrite <- Rinv_1; apply Rinv_le_contravar; lra).
      apply Rle_trans with (wide * 1); [|lra]. apply Rmult_le_compat; auto using Rabs_pos. left. apply Rinv_0_lt_compat. lra. }
    destruct (cos_fin _ Fd) as [Fc Bc]. pose proof fone_fin as F1. pose proof fone_R as E1. apply add_rel; [exact Fc|exact F1|]. rewrite E1. eapply Rle_trans; [apply Rabs_triang|]. rewrite Rabs_R1. lra. }
  destruct (small_Z 4000 ltac:(lia)) as [F4 E4].
  eapply relc_off; [exact Hl|apply sub_zero; [apply (addf_rel _ _ _ _ _ (3 * eps) (3 * eta)); try lra|exact Z|exact Fz]| |].
  - unfold span. rewrite seq_length. lia.
  - eapply relc_weak; [apply relc_exact; [reflexivity|reflexivity|lra]|lra|lra].
  - intros i Hi. apply span_lt in Hi. destruct (Hx i ltac:(lia)) as [Fi Bi]. pose proof (sq_wide _ Bi).
    pose proof (relc_div _ _ eps eta (Z2f 4000) 4000 ltac:(lra) ltac:(lra) (sq_rel _ Fi Bi) F4 E4 ltac:(lra) ltac:(lra)) as D. eapply relc_weak; [exact D|lra|lra].
  - eapply Rle_trans; [apply (add_up_le _ _ _ 0 (wide * wide) 100)|].
    + lra.
    + intros i Hi. apply span_lt in Hi. destruct (Hx i ltac:(lia)) as [Fi Bi]. pose proof (sq_wide _ Bi). lra.
    + lra.
    + unfold span. rewrite seq_length. lia.
    + replace (INR 100) with 100 by (cbn; lra). lra.
  - unfold span. rewrite seq_length, Nat.sub_0_r, S_INR. lra.
  - unfold span. rewrite seq_length, Nat.sub_0_r, S_INR. lra.
Qed.
(** The exponents of the elliptic function are rounded quotients. *)
Lemma exp_near y : Rabs y <= 1 / 2 -> Rabs (exp y - 1) <= 2 * Rabs y.
Proof.
  intros H. apply Rabs_le_inv in H. pose proof (exp_ineq1_le y) as L. pose proof (exp_ineq1_le (- y)) as L'. rewrite exp_Ropp in L'. pose proof (exp_pos y) as P.
  assert (U : exp y * (1 - y) <= 1). { apply (Rmult_le_reg_l (/ exp y)); [apply Rinv_0_lt_compat; exact P|]. rewrite <- Rmult_assoc, Rinv_l, Rmult_1_l, Rmult_1_r by lra. lra. }
  destruct (Rle_dec 0 y) as [Hy|Hy].
  - rewrite (Rabs_pos_eq y) by exact Hy. apply Rabs_le. nra.
  - rewrite (Rabs_left y) by lra. apply Rabs_le. nra.
Qed.
Lemma ln_million : 0 < ln (10 ^ 6) <= 14.
Proof.
  split; [rewrite <- ln_1; apply ln_increasing; lra|].
  apply Rnot_lt_le. intros H. apply exp_increasing in H. rewrite exp_ln in H by lra.
  assert (E : exp 14 = exp 1 ^ 14). { rewrite <- Rpower_pow by apply exp_pos. unfold Rpower. rewrite ln_exp. f_equal. cbn. lra. }
  pose proof E_fine as [L _]. assert (27 / 10 < exp 1) by lra. assert ((27 / 10) ^ 14 <= exp 1 ^ 14) by (apply pow_incr; lra). lra.
Qed.
Lemma exponent_rel a n : (2 <= n <= 100)%nat -> (a <= n - 1)%nat ->
  isfin (fdiv (nat_f a) (nat_f (n - 1))) = true /\ 0 <= B2R (fdiv (nat_f a) (nat_f (n - 1))) <= 1 /\ 0 <= INR a / INR (n - 1) <= 1 /\
  Rabs (B2R (fdiv (nat_f a) (nat_f (n - 1))) - INR a / INR (n - 1)) <= 2 * eps.
Proof.
  intros Hn Ha. unfold nat_f. destruct (len_exact a ltac:(unfold few; lia)) as [Ea Fa]. destruct (len_exact (n - 1) ltac:(unfold few; lia)) as [En Fn].
  assert (N : 1 <= INR (n - 1)) by (apply (le_INR 1); lia). assert (A : 0 <= INR a <= INR (n - 1)) by (split; [apply pos_INR|apply le_INR; exact Ha]).
  assert (Q : 0 <= INR a / INR (n - 1) <= 1).
  { assert (0 < / INR (n - 1)) by (apply Rinv_0_lt_compat; lra). split; [apply Rmult_le_pos; lra|]. apply (Rmult_le_reg_r (INR (n - 1))); [lra|]. replace (INR a / INR (n - 1) * INR (n - 1)) with (INR a) by (field; lra). lra. }
  assert (RQ : 0 <= rnd (INR a / INR (n - 1)) <= 1).
  { unfold rnd. split; [apply round_ge_generic; try typeclasses eauto; [apply generic_format_0|lra]|].
    apply round_le_generic; try typeclasses eauto; [|lra]. change 1 with (bpow radix2 0). apply generic_format_bpow. unfold SpecFloat.fexp, SpecFloat.emin. lia. }
  destruct (fdiv_fin (Z2f (Z.of_nat a)) (Z2f (Z.of_nat (n - 1))) Fa) as [F E]; [rewrite En; lra| |].
  - rewrite Ea, En, Rabs_pos_eq by lra. apply Rle_lt_trans with 1; [lra|]. unfold big. change 1 with (bpow radix2 0). apply bpow_lt. lia.
  - rewrite Ea, En in E. split; [exact F|]. split; [rewrite E; exact RQ|]. split; [exact Q|]. rewrite E.
    destruct (rnd_rel (INR a / INR (n - 1))) as (e & t & He & Ht & ->). set (q := INR a / INR (n - 1)) in *.
    replace (q * (1 + e) + t - q) with (q * e + t) by ring. eapply Rle_trans; [apply Rabs_triang|]. rewrite Rabs_mult, (Rabs_pos_eq q) by lra.
    assert (q * Rabs e <= 1 * u) by (apply Rmult_le_compat; auto using Rabs_pos; lra). pose proof eta_eps. lra.
Qed.
Lemma power_rel a n : (2 <= n <= 100)%nat -> (a <= n - 1)%nat ->
  relc (m_pow m (Z2f 1000000) (fdiv (nat_f a) (nat_f (n - 1)))) (Rpower (10 ^ 6) (INR a / INR (n - 1))) (60 * eps) 0 /\
  Rpower (10 ^ 6) (INR a / INR (n - 1)) <= 10 ^ 6.
Proof.
  intros Hn Ha. destruct (exponent_rel a n Hn Ha) as (F & B & Q & E). destruct million as [Fm Em]. destruct Hm as (_ & _ & _ & _ & Hp & _).
  destruct (Hp (Z2f 1000000) _ Fm F ltac:(rewrite Em; lra) ltac:(lra) ltac:(rewrite Em; lra)) as [Fp Ep]. rewrite Em in Ep. unfold ppow in Ep. destruct (Req_EM_T (10 ^ 6) 0) as [E0|_]; [lra|]. set (e := B2R (fdiv _ _)) in *. set (q := INR a / INR (n - 1)) in *.
  pose proof ln_million as L. pose proof eps_pos. pose proof eps_small. pose proof eta_eps. pose proof eps_sq.
  assert (P : 1 <= Rpower (10 ^ 6) q). { unfold Rpower. rewrite <- exp_0 at 1. destruct (Req_dec (q * ln (10 ^ 6)) 0) as [->|N]; [lra|]. left. apply exp_increasing. assert (0 <= q * ln (10 ^ 6)) by (apply Rmult_le_pos; lra). lra. }
  assert (P6 : Rpower (10 ^ 6) q <= 10 ^ 6).
  { destruct (Req_dec q 1) as [->|N]; [rewrite Rpower_1; lra|]. left. apply Rlt_le_trans with (Rpower (10 ^ 6) 1); [apply Rpower_lt; lra|rewrite Rpower_1; lra]. }
  split; [|exact P6]. split; [exact Fp|]. split; [lra|].
  assert (Y : Rabs ((e - q) * ln (10 ^ 6)) <= 28 * eps).
  { rewrite Rabs_mult, (Rabs_pos_eq (ln _)) by lra. assert (Rabs (e - q) * ln (10 ^ 6) <= 2 * eps * 14) by (apply Rmult_le_compat; auto using Rabs_pos; lra). lra. }
  assert (X : Rpower (10 ^ 6) e = Rpower (10 ^ 6) q * exp ((e - q) * ln (10 ^ 6))) by (unfold Rpower; rewrite <- exp_plus; f_equal; ring).
  pose proof (exp_near ((e - q) * ln (10 ^ 6)) ltac:(lra)) as Z. set (y := exp ((e - q) * ln (10 ^ 6))) in *. set (p := Rpower (10 ^ 6) q) in *.
  assert (D : Rabs (Rpower (10 ^ 6) e - p) <= 56 * eps * p).
  { rewrite X. replace (p * y - p) with (p * (y - 1)) by ring. rewrite Rabs_mult, (Rabs_pos_eq p) by lra. assert (p * Rabs (y - 1) <= p * (56 * eps)) by (apply Rmult_le_compat_l; lra). lra. }
  assert (A : Rabs (Rpower (10 ^ 6) e) <= p + 56 * eps * p).
  { replace (Rpower (10 ^ 6) e) with (p + (Rpower (10 ^ 6) e - p)) by ring. eapply Rle_trans; [apply Rabs_triang|]. rewrite (Rabs_pos_eq p) by lra. lra. }
  replace (B2R (m_pow m (Z2f 1000000) (fdiv (nat_f a) (nat_f (n - 1)))) - p) with ((B2R (m_pow m (Z2f 1000000) (fdiv (nat_f a) (nat_f (n - 1)))) - Rpower (10 ^ 6) e) + (Rpower (10 ^ 6) e - p)) by ring.
  eapply Rle_trans; [apply Rabs_triang|].
  assert (eps * Rabs (Rpower (10 ^ 6) e) <= eps * (p + 56 * eps * p)) by (apply Rmult_le_compat_l; lra).
  assert (eps * eps * p <= eps / 2 ^ 20 * p) by (apply Rmult_le_compat_r; lra).
  assert (eta * 1 <= eps * p) by (apply Rmult_le_compat; try lra; left; apply eta_pos).
  assert (0 <= eps * p) by (apply Rmult_le_pos; lra). lra.
Qed.
Lemma elliptic_near x : (2 <= List.length x <= 100)%nat -> inside (List.length x) wide x ->
  computes (elliptic_f m x) (elliptic (map B2R x)) ((4 * INR (List.length x) + 68) * eps) speck.
Proof.
  intros Hd [_ Hx]. unfold elliptic_f, elliptic. assert (L : List.length (map B2R x) = @List.length f64 x) by apply map_length. rewrite L. destruct (Nat.eqb_spec (List.length x) 1) as [E|_]; [lia|].
  set (n := List.length x) in *.
  rewrite (add_up_ext 0 0 (fun i => Rpower (10 ^ 6) (INR (i - 1) / INR (n - 1)) * get (i - 1) (map B2R x) ^ 2)
                          (fun i => Rpower (10 ^ 6) (INR (i - 1) / INR (n - 1)) * B2R (getf (i - 1) x) ^ 2)) by (intros; rewrite ?get_B2R; reflexivity).
  pose proof (INR_100 n ltac:(lia)) as N. pose proof eps_pos. pose proof eps_small. pose proof eps_sq. pose proof eta_pos. pose proof eta_tiny. pose proof wide_large. pose proof wide_1. pose proof speck_eta.
  assert (NT : INR n * eta <= 100 * eta) by (apply Rmult_le_compat_r; lra).
  assert (W : 1 <= wide * wide) by (rewrite <- (Rmult_1_l 1); apply Rmult_le_compat; lra).
  assert (T : forall i, In i (span 1 (n + 1)) -> 
    relc (fmul (m_pow m (Z2f 1000000) (fdiv (nat_f (i - 1)) (nat_f (n - 1)))) (m_sq m (getf (i - 1) x))) (Rpower (10 ^ 6) (INR (i - 1) / INR (n - 1)) * B2R (getf (i - 1) x) ^ 2) (64 * eps) (3000000 * eta) /\
    Rpower (10 ^ 6) (INR (i - 1) / INR (n - 1)) * B2R (getf (i - 1) x) ^ 2 <= 10 ^ 6 * (wide * wide)).
  { intros i Hi. apply span_lt in Hi. destruct (Hx (i - 1)%nat ltac:(lia)) as [Fi Bi]. pose proof (sq_wide _ Bi).
    destruct (power_rel (i - 1) n ltac:(lia) ltac:(lia)) as [P P6]. set (p := Rpower _ _) in *. assert (P0 : 0 <= p) by apply P. set (s := B2R (getf (i - 1) x) ^ 2) in *.
    assert (PS : p * s <= 10 ^ 6 * (wide * wide)) by (apply Rmult_le_compat; lra).
    assert (PT : p * eta <= 10 ^ 6 * eta) by (apply Rmult_le_compat_r; lra).
    split; [|exact PS].
    pose proof (fun G => relc_mul _ _ (60 * eps) _ _ eps eta ltac:(lra) ltac:(lra) ltac:(lra) P (sq_rel _ Fi Bi) G) as M. fold s in M. specialize (M ltac:(lra) ltac:(lra)).
    eapply relc_weak; [exact M|lra|lra]. }
  match goal with |- computes (Ok ?v) (Ok ?w) _ _ => assert (R : relc v w (64 * eps + 4 * INR (S (List.length (span 1 (n + 1)))) * eps) (2 * INR (S (List.length (span 1 (n + 1)))) * (3000000 * eta))) end.
  { apply addf_rel; try lra.
    - unfold span. rewrite seq_length. lia.
    - eapply relc_weak; [apply relc_exact; [reflexivity|reflexivity|lra]|lra|lra].
    - intros i Hi. apply (T i Hi).
    - eapply Rle_trans; [apply (add_up_le _ _ _ 0 (10 ^ 6 * (wide * wide)) 100)|].
      + lra.
      + intros i Hi. apply (T i Hi).
      + lra.
      + unfold span. rewrite seq_length. lia.
      + replace (INR 100) with 100 by (cbn; lra). lra. }
  assert (SL : S (List.length (span 1 (n + 1))) = S n) by (unfold span; rewrite seq_length; lia). rewrite SL, S_INR in R.
  match goal with |- computes (Ok ?v) (Ok ?w) _ _ => exists v, w end. split; [reflexivity|]. destruct R as (F & P & R). split; [exact F|]. split; [reflexivity|].
  rewrite (Rabs_pos_eq _ P). eapply Rle_trans; [exact R|]. apply Rplus_le_compat; [|lra]. apply Rmult_le_compat_r; [exact P|lra].
Qed.
(* ---------------- absolute errors ---------------- *)
(** [w] is [r], at most [M] in absolute value, up to [c] times [eps]. *)
Definition appr (w : f64) (r M c : R) : Prop := isfin w = true /\ Rabs r <= M /\ Rabs (B2R w - r) <= c * eps /\ 0 <= c.
Definition cap : R := 10 ^ 15.
Lemma cap_huge : cap * cap <= huge.
Proof.
  apply Rle_trans with (bpow radix2 200); [|unfold huge; apply bpow_le; lia]. replace (bpow radix2 200) with (bpow radix2 100 * bpow radix2 100) by (rewrite <- bpow_plus; reflexivity).
  assert (cap <= bpow radix2 100). { apply Rle_trans with (bpow radix2 50); [unfold cap; cbn; lra|apply bpow_le; lia]. } unfold cap in *. apply Rmult_le_compat; lra.
Qed.
Lemma appr_weak w r M c M' c' : appr w r M c -> M <= M' -> c <= c' -> appr w r M' c'.
Proof. intros (F & A & E & P) HM Hc. pose proof eps_pos. assert (c * eps <= c' * eps) by (apply Rmult_le_compat_r; lra). repeat split; try assumption; lra. Qed.
Lemma c_eps c : 0 <= c -> 0 <= c * eps <= c / 2 ^ 20.
Proof. intros H. pose proof eps_pos. split; [apply Rmult_le_pos; lra|]. unfold Rdiv. apply Rmult_le_compat_l; [exact H|exact eps_small]. Qed.
Lemma appr_exact w r : isfin w = true -> B2R w = r -> appr w r (Rabs r) 0.
Proof. intros F <-. split; [exact F|]. split; [apply Rle_refl|]. rewrite Rminus_eq_0, Rabs_R0. lra. Qed.
Lemma appr_Z z : (Z.abs z <= 2 ^ 53)%Z -> appr (Z2f z) (IZR z) (IZR (Z.abs z)) 0.
Proof. intros H. destruct (small_Z z H) as [F E]. rewrite <- E at 1. eapply appr_weak; [apply appr_exact; [exact F|reflexivity]| |lra]. rewrite E, abs_IZR. lra. Qed.
Lemma appr_abs w r M c : appr w r M c -> Rabs (B2R w) <= M + c / 2 ^ 20.
Proof. intros (_ & A & E & P). pose proof (c_eps c P). replace (B2R w) with (r + (B2R w - r)) by ring. eapply Rle_trans; [apply Rabs_triang|]. lra. Qed.
Lemma appr_add a A M c b B N d : appr a A M c -> appr b B N d -> M + N + (c + d) / 2 ^ 20 <= cap ->
  appr (fadd a b) (A + B) (M + N) (c + d + (M + N + (c + d) / 2 ^ 20)).
Proof.
  intros (Fa & Aa & Ea & Pa) (Fb & Ab & Eb & Pb) K. pose proof (c_eps c Pa). pose proof (c_eps d Pb). pose proof cap_huge. pose proof (Rabs_pos A). pose proof (Rabs_pos B). pose proof u_pos.
  destruct (add_near a b A B (c * eps) (d * eps) (M + N + (c + d) / 2 ^ 20) Fa Fb Ea Eb) as [F E]; [lra|unfold cap in *; lra|].
  split; [exact F|]. split; [eapply Rle_trans; [apply Rabs_triang|]; lra|].
  assert (u * (M + N + (c + d) / 2 ^ 20) <= eps * (M + N + (c + d) / 2 ^ 20)) by (apply Rmult_le_compat_r; lra). split; lra.
Qed.
Lemma appr_sub a A M c b B N d : appr a A M c -> appr b B N d -> M + N + (c + d) / 2 ^ 20 <= cap ->
  appr (fsub a b) (A - B) (M + N) (c + d + (M + N + (c + d) / 2 ^ 20)).
Proof.
  intros (Fa & Aa & Ea & Pa) (Fb & Ab & Eb & Pb) K. pose proof (c_eps c Pa). pose proof (c_eps d Pb). pose proof cap_huge. pose proof (Rabs_pos A). pose proof (Rabs_pos B). pose proof u_pos.
  destruct (sub_near a b A B (c * eps) (d * eps) (M + N + (c + d) / 2 ^ 20) Fa Fb Ea Eb) as [F E]; [lra|unfold cap in *; lra|].
  split; [exact F|]. split; [unfold Rminus; eapply Rle_trans; [apply Rabs_triang|]; rewrite Rabs_Ropp; lra|].
  assert (u * (M + N + (c + d) / 2 ^ 20) <= eps * (M + N + (c + d) / 2 ^ 20)) by (apply Rmult_le_compat_r; lra). split; lra.
Qed.
Lemma appr_mul a A M c b B N d : appr a A M c -> appr b B N d -> M + c / 2 ^ 20 <= cap -> N + d / 2 ^ 20 <= cap ->
  appr (fmul a b) (A * B) (M * N) ((M + c / 2 ^ 20) * d + c * N + (M + c / 2 ^ 20) * (N + d / 2 ^ 20) + 1).
Proof.
  intros (Fa & Aa & Ea & Pa) (Fb & Ab & Eb & Pb) KM KN. pose proof (c_eps c Pa). pose proof (c_eps d Pb). pose proof cap_huge. pose proof (Rabs_pos A). pose proof (Rabs_pos B). pose proof u_pos. pose proof eps_pos. pose proof eta_eps.
  set (m' := M + c / 2 ^ 20) in *. set (n' := N + d / 2 ^ 20) in *.
  assert (G1 : (Rabs A + c * eps) * (Rabs B + d * eps) <= m' * n') by (unfold m', n'; apply Rmult_le_compat; lra).
  assert (G2 : m' * n' <= cap * cap) by (apply Rmult_le_compat; unfold m', n' in *; lra).
  destruct (mul_near a b A B (c * eps) (d * eps) (m' * n') Fa Fb Ea Eb G1) as [F E]; [lra|].
  split; [exact F|]. split; [rewrite Rabs_mult; apply Rmult_le_compat; lra|].
  assert ((Rabs A + c * eps) * (d * eps) <= m' * (d * eps)) by (unfold m'; apply Rmult_le_compat_r; lra).
  assert (c * eps * Rabs B <= c * eps * N) by (apply Rmult_le_compat_l; lra).
  assert (0 <= m' * n') by (apply Rmult_le_pos; unfold m', n'; lra).
  assert (u * (m' * n') <= eps * (m' * n')) by (apply Rmult_le_compat_r; lra).
  split; [lra|]. assert (0 <= m' * d) by (apply Rmult_le_pos; [unfold m'; lra|exact Pb]). assert (0 <= c * N) by (apply Rmult_le_pos; [exact Pa|lra]). lra.
Qed.
Lemma appr_sq v V M c : appr v V M c -> M + c / 2 ^ 20 <= cap ->
  appr (m_sq m v) (V ^ 2) (M * M) (c * (2 * M + c / 2 ^ 20) + (M + c / 2 ^ 20) * (M + c / 2 ^ 20) + 1).
Proof.
  intros H K. pose proof (appr_abs _ _ _ _ H) as B. destruct H as (F & A & E & P). pose proof (c_eps c P). pose proof (Rabs_pos V). pose proof eps_pos. pose proof eta_eps.
  destruct Hm as (Hsq & _). destruct (Hsq v F) as [[Fs Es] _].
  { apply Rle_trans with cap; [lra|]. apply Rle_trans with (bpow radix2 50); [unfold cap; cbn; lra|apply bpow_le; lia]. }
  split; [exact Fs|]. split; [rewrite <- RPow_abs; replace (Rabs V ^ 2) with (Rabs V * Rabs V) by ring; apply Rmult_le_compat; lra|].
  set (M' := M + c / 2 ^ 20) in *. assert (0 <= M') by (pose proof (Rabs_pos (B2R v)); lra).
  assert (S : Rabs (B2R v ^ 2) <= M' * M') by (rewrite <- RPow_abs; replace (Rabs (B2R v) ^ 2) with (Rabs (B2R v) * Rabs (B2R v)) by ring; apply Rmult_le_compat; auto using Rabs_pos).
  assert (D : Rabs (B2R v ^ 2 - V ^ 2) <= c * eps * (2 * M + c / 2 ^ 20)).
  { replace (B2R v ^ 2 - V ^ 2) with ((B2R v - V) * (B2R v + V)) by ring. rewrite Rabs_mult. apply Rmult_le_compat; auto using Rabs_pos.
    eapply Rle_trans; [apply Rabs_triang|]. unfold M' in B. lra. }
  assert (eps * Rabs (B2R v ^ 2) <= eps * (M' * M')) by (apply Rmult_le_compat_l; lra).
  split.
  - replace (B2R (m_sq m v) - V ^ 2) with ((B2R (m_sq m v) - B2R v ^ 2) + (B2R v ^ 2 - V ^ 2)) by ring. eapply Rle_trans; [apply Rabs_triang|]. lra.
  - assert (0 <= c * (2 * M + c / 2 ^ 20)) by (apply Rmult_le_pos; lra). assert (0 <= M' * M') by (apply Rmult_le_pos; assumption). lra.
Qed.
Lemma cos_dist a b : Rabs (cos a - cos b) <= Rabs (a - b).
Proof.
  destruct (MVT_abs cos (fun y => - sin y) b a) as (z & E & _); [intros y _; apply derivable_pt_lim_cos|]. rewrite E, Rabs_Ropp.
  rewrite <- (Rmult_1_l (Rabs (a - b))) at 2. apply Rmult_le_compat_r; [apply Rabs_pos|]. pose proof (SIN_bound z). apply Rabs_le. lra.
Qed.
Lemma sin_dist a b : Rabs (sin a - sin b) <= Rabs (a - b).
Proof.
  destruct (MVT_abs sin cos b a) as (z & E & _); [intros y _; apply derivable_pt_lim_sin|]. rewrite E.
  rewrite <- (Rmult_1_l (Rabs (a - b))) at 2. apply Rmult_le_compat_r; [apply Rabs_pos|]. pose proof (COS_bound z). apply Rabs_le. lra.
Qed.
Lemma appr_wave (f : f64 -> f64) (g : R -> R) v V M c : (forall v, isfin v = true -> close eps (f v) (g (B2R v))) ->
  (forall a b, Rabs (g a - g b) <= Rabs (a - b)) -> (forall a, Rabs (g a) <= 1) -> appr v V M c -> appr (f v) (g V) 1 (c + 2).
Proof.
  intros C L B (F & A & E & P). destruct (C v F) as [Fs Es]. pose proof eps_pos. pose proof eta_eps. split; [exact Fs|]. split; [apply B|]. split; [|lra].
  replace (B2R (f v) - g V) with ((B2R (f v) - g (B2R v)) + (g (B2R v) - g V)) by ring. eapply Rle_trans; [apply Rabs_triang|].
  pose proof (L (B2R v) V). assert (eps * Rabs (g (B2R v)) <= eps * 1) by (apply Rmult_le_compat_l; [lra|apply B]). lra.
Qed.
Lemma appr_cos v V M c : appr v V M c -> appr (m_cos m v) (cos V) 1 (c + 2).
Proof. apply appr_wave; [apply Hm|apply cos_dist|]. intros a. pose proof (COS_bound a). apply Rabs_le. lra. Qed.
Lemma appr_sin v V M c : appr v V M c -> appr (m_sin m v) (sin V) 1 (c + 2).
Proof. apply appr_wave; [apply Hm|apply sin_dist|]. intros a. pose proof (SIN_bound a). apply Rabs_le. lra. Qed.
Lemma exp_le_mono a b : a <= b -> exp a <= exp b.
Proof. intros [H| ->]; [left; apply exp_increasing, H|apply Rle_refl]. Qed.
Lemma appr_exp v V M c L : appr v V M c -> M <= 99 -> c <= 10000 -> exp (V + 1 / 100) <= L -> appr (m_exp m v) (exp V) L (L * c + L + 1).
Proof.
  intros H KM Kc HL. pose proof (appr_abs _ _ _ _ H) as B. destruct H as (F & A & E & P). pose proof (c_eps c P). pose proof eps_pos. pose proof eta_eps.
  destruct Hm as (_ & _ & _ & He & _). destruct (He v F ltac:(lra)) as [Fs Es]. pose proof (exp_pos (V + 1 / 100)). apply Rabs_le_inv in E as E'.
  split; [exact Fs|]. split; [rewrite Rabs_pos_eq by (left; apply exp_pos); eapply Rle_trans; [apply exp_le_mono|exact HL]; lra|]. split; [|pose proof (Rmult_le_pos L c); lra].
  assert (D : Rabs (exp (B2R v) - exp V) <= L * (c * eps)).
  { destruct (MVT_abs exp exp V (B2R v)) as (z & Ez & Hz1 & Hz2); [intros y _; apply derivable_pt_lim_exp|]. rewrite Ez. apply Rmult_le_compat; auto using Rabs_pos.
    rewrite Rabs_pos_eq by (left; apply exp_pos). eapply Rle_trans; [apply exp_le_mono|exact HL]. eapply Rle_trans; [exact Hz2|]. apply Rmax_lub; lra. }
  assert (S : Rabs (exp (B2R v)) <= L) by (rewrite Rabs_pos_eq by (left; apply exp_pos); eapply Rle_trans; [apply exp_le_mono|exact HL]; lra).
  assert (eps * Rabs (exp (B2R v)) <= eps * L) by (apply Rmult_le_compat_l; lra).
  replace (B2R (m_exp m v) - exp V) with ((B2R (m_exp m v) - exp (B2R v)) + (exp (B2R v) - exp V)) by ring. eapply Rle_trans; [apply Rabs_triang|]. lra.
Qed.
Lemma appr_addf f F l M c : 0 <= c -> 0 <= M -> (List.length l <= 100)%nat -> (forall i, In i l -> appr (f i) (F i) M c) -> M + c / 2 ^ 20 <= cap ->
  appr (addf fzero f l) (add_up 0 F l) (INR (List.length l) * M)
    (INR (List.length l) * c + 2 * (INR (List.length l) + 1) * (INR (List.length l) * (M + c / 2 ^ 20))).
Proof.
  intros Pc PM Hl H K. set (ts := (fzero, (0, 0)) :: map (fun i => (f i, (F i, c * eps))) l).
  assert (Ev : map fst ts = [fzero] ++ map f l). { unfold ts. cbn [map app fst]. rewrite map_map. reflexivity. }
  assert (EF : Rsum (map (fun p => fst (snd p)) ts) = add_up 0 F l). { unfold ts. cbn [map fst snd]. rewrite map_map. cbn [fst snd]. rewrite add_up_rsum, Rsum_rsum. reflexivity. }
  assert (En : List.length ts = S (List.length l)) by (unfold ts; cbn [List.length]; rewrite map_length; reflexivity).
  assert (EE : Rsum (map (fun p => snd (snd p)) ts) = INR (List.length l) * (c * eps)).
  { unfold ts. cbn [map fst snd]. rewrite map_map. cbn [fst snd]. rewrite Rsum_rsum. cbn [rsum]. rewrite rsum_const. ring. }
  pose proof (c_eps c Pc) as CE. pose proof (INR_100 _ Hl) as N. pose proof cap_huge. pose proof eps_pos. pose proof u_pos.
  set (n := INR (List.length l)) in *.
  assert (ES : 0 <= Rsum (map size ts) <= n * (M + c / 2 ^ 20)).
  { unfold ts, size. cbn [map fst snd]. rewrite !map_map. cbn [fst snd]. rewrite !Rsum_rsum. cbn [rsum]. rewrite Rabs_R0. split.
    - apply Rplus_le_le_0_compat; [lra|]. apply sum_nonneg. intros i _. pose proof (Rabs_pos (F i)). lra.
    - unfold n. rewrite <- rsum_const. assert (rsum (map (fun i => Rabs (F i) + c * eps) l) <= rsum (map (fun _ => M + c / 2 ^ 20) l)); [|lra].
      apply rsum_le. intros i Hi. destruct (H i Hi) as (_ & A & _). lra. }
  assert (KN : Forall known ts). { unfold ts. constructor; [split; [reflexivity|cbn; rewrite Rminus_0_r, Rabs_R0; lra]|]. apply Forall_forall. intros p Hp. apply in_map_iff in Hp as (i & <- & Hi). split; apply (H i Hi). }
  assert (NM : n * (M + c / 2 ^ 20) <= 100 * cap) by (apply Rmult_le_compat; lra).
  destruct (sum_near ts (addf fzero f l)) as [Fs Es].
  - rewrite Ev. apply added_addf. constructor.
  - exact KN.
  - rewrite En. unfold few. lia.
  - assert (200 * cap <= cap * cap) by (unfold cap; apply Rmult_le_compat_r; lra). lra.
  - split; [exact Fs|]. rewrite EF, En, EE, S_INR in Es. fold n in Es. split; [|split].
    + rewrite add_up_rsum, Rplus_0_l. unfold n. rewrite <- rsum_const. apply Rabs_le. split.
      * apply Ropp_le_cancel. rewrite Ropp_involutive. replace (- rsum (map F l)) with (rsum (map (fun i => -1 * F i) l)) by (rewrite rsum_scal; ring).
        apply rsum_le. intros i Hi. destruct (H i Hi) as (_ & A & _). apply Rabs_le_inv in A. lra.
      * apply rsum_le. intros i Hi. destruct (H i Hi) as (_ & A & _). apply Rabs_le_inv in A. lra.
    + eapply Rle_trans; [exact Es|]. assert (2 * (n + 1) * u * Rsum (map size ts) <= 2 * (n + 1) * eps * (n * (M + c / 2 ^ 20))); [|lra].
      apply Rmult_le_compat; [apply Rmult_le_pos; lra|lra|apply Rmult_le_compat_l; lra|lra].
    + assert (0 <= n * c) by (apply Rmult_le_pos; lra). assert (0 <= 2 * (n + 1) * (n * (M + c / 2 ^ 20))) by (apply Rmult_le_pos; lra). lra.
Qed.
Ltac small := unfold cap; lra.
Lemma appr_get d x i : inside d 100 x -> (i < d)%nat -> appr (getf i x) (B2R (getf i x)) 100 0.
Proof. intros [_ H] Hi. destruct (H i Hi) as [F B]. eapply appr_weak; [apply appr_exact; [exact F|reflexivity]|exact B|lra]. Qed.
Lemma appr_off v w M c K : appr v w M c -> c <= K -> computes (Ok v) (Ok w) 0 (K * eps).
Proof. intros (F & _ & E & P) H. exists v, w. do 3 (split; [reflexivity||exact F|]). pose proof eps_pos. assert (c * eps <= K * eps) by (apply Rmult_le_compat_r; lra). lra. Qed.
Lemma appr_pi : appr np_pi PI 4 2.
Proof. destruct np_pi_R as [F E]. pose proof PI_fine. split; [exact F|]. split; [rewrite Rabs_pos_eq; lra|]. split; lra. Qed.
Lemma appr_e : appr np_e (exp 1) 3 2.
Proof. destruct np_e_R as [F E]. pose proof E_fine. split; [exact F|]. split; [rewrite Rabs_pos_eq; lra|]. split; lra. Qed.

Lemma rastrigin_near x : (List.length x <= 100)%nat -> inside (List.length x) 100 x ->
  computes (Ok (rastrigin_f m x)) (Ok (rastrigin (map B2R x))) 0 (INR (List.length x) * (72000 + 21000 * INR (List.length x)) * eps).
Proof.
  intros Hd Hx. unfold rastrigin_f, rastrigin. assert (L : List.length (map B2R x) = @List.length f64 x) by apply map_length. rewrite L. clear L.
  set (n := List.length x) in *. pose proof (INR_100 n Hd) as N.
  rewrite (add_up_ext 0 0 (fun i => get i (map B2R x) ^ 2 - 10 * cos (2 * PI * get i (map B2R x)) + 10) (fun i => B2R (getf i x) ^ 2 - 10 * cos (2 * PI * B2R (getf i x)) + 10))
    by (intros; rewrite ?get_B2R; reflexivity).
  change (range 0 n) with (span 0 n).
  eapply appr_off; [apply (appr_addf _ _ _ 10020 51400); try lra|].
  - unfold span. rewrite seq_length. lia.
  - intros i Hi. apply span_lt in Hi. pose proof (appr_get n x i Hx ltac:(lia)) as V.
    pose proof (appr_sq _ _ _ _ V ltac:(small)) as S.
    pose proof (appr_mul _ _ _ _ _ _ _ _ (appr_Z 2 ltac:(lia)) appr_pi ltac:(cbn; small) ltac:(small)) as T. cbn [Z.abs] in T.
    pose proof (fun H1 H2 => appr_weak _ _ _ _ 8 (131 / 10) T H1 H2) as T'. specialize (T' ltac:(lra) ltac:(lra)).
    pose proof (appr_mul _ _ _ _ _ _ _ _ T' V ltac:(small) ltac:(small)) as U.
    pose proof (fun H1 H2 => appr_weak _ _ _ _ 800 2113 U H1 H2) as U'. specialize (U' ltac:(lra) ltac:(lra)).
    pose proof (appr_cos _ _ _ _ U') as C.
    pose proof (appr_mul _ _ _ _ _ _ _ _ (appr_Z 10 ltac:(lia)) C ltac:(cbn; small) ltac:(small)) as D. cbn [Z.abs] in D.
    pose proof (fun H1 H2 => appr_weak _ _ _ _ 10 21170 D H1 H2) as D'. specialize (D' ltac:(lra) ltac:(lra)).
    pose proof (fun H1 H2 => appr_weak _ _ _ _ 10000 10001 S H1 H2) as S'. specialize (S' ltac:(lra) ltac:(lra)).
    pose proof (appr_sub _ _ _ _ _ _ _ _ S' D' ltac:(small)) as E.
    pose proof (appr_add _ _ _ _ _ _ _ _ E (appr_Z 10 ltac:(lia)) ltac:(cbn; small)) as G. cbn [Z.abs] in G.
    eapply appr_weak; [exact G|lra|lra].
  - small.
  - unfold span. rewrite seq_length, Nat.sub_0_r. pose proof (Rmult_le_pos (INR n) (INR n)). lra.
Qed.
Lemma rosenbrock_near d x : (d <= 100)%nat -> inside d 100 x ->
  computes (rosenbrock_f m d x) (rosenbrock d (map B2R x)) 0 (INR d * (93000000000 + 21000000000 * INR d) * eps).
Proof.
  intros Hd Hx. unfold rosenbrock_f, rosenbrock. pose proof (INR_100 d Hd) as N.
  rewrite (add_up_ext 0 0 (fun i => 100 * (get i (map B2R x) ^ 2 - get (i + 1) (map B2R x)) ^ 2 + (get i (map B2R x) - 1) ^ 2)
    (fun i => 100 * (B2R (getf i x) ^ 2 - B2R (getf (i + 1) x)) ^ 2 + (B2R (getf i x) - 1) ^ 2)) by (intros; rewrite ?get_B2R; reflexivity).
  change (range 0 (d - 1)) with (span 0 (d - 1)).
  match goal with |- computes (if _ then Ok ?v else _) (if _ then Ok ?w else _) _ _ => assert (G : computes (Ok v) (Ok w) 0 (INR d * (93000000000 + 21000000000 * INR d) * eps)) end.
  { eapply appr_off; [apply (appr_addf _ _ _ 10300000000 72000000000); try lra|].
    - unfold span. rewrite seq_length. lia.
    - intros i Hi. apply span_lt in Hi. pose proof (appr_get d x i Hx ltac:(lia)) as V. pose proof (appr_get d x (i + 1) Hx ltac:(lia)) as W.
      pose proof (appr_sq _ _ _ _ V ltac:(small)) as S.
      pose proof (fun H1 H2 => appr_weak _ _ _ _ 10000 10001 S H1 H2) as S'. specialize (S' ltac:(lra) ltac:(lra)).
      pose proof (appr_sub _ _ _ _ _ _ _ _ S' W ltac:(small)) as D.
      pose proof (fun H1 H2 => appr_weak _ _ _ _ 10100 20102 D H1 H2) as D'. specialize (D' ltac:(lra) ltac:(lra)).
      pose proof (appr_sq _ _ _ _ D' ltac:(small)) as Q.
      pose proof (fun H1 H2 => appr_weak _ _ _ _ 102010000 509000000 Q H1 H2) as Q'. specialize (Q' ltac:(lra) ltac:(lra)).
      pose proof (appr_mul _ _ _ _ _ _ _ _ (appr_Z 100 ltac:(lia)) Q' ltac:(cbn; small) ltac:(small)) as C. cbn [Z.abs] in C.
      pose proof (fun H1 H2 => appr_weak _ _ _ _ 10201000000 61200000000 C H1 H2) as C'. specialize (C' ltac:(lra) ltac:(lra)).
      pose proof (appr_sub _ _ _ _ _ _ _ _ V (appr_Z 1 ltac:(lia)) ltac:(cbn; small)) as O. cbn [Z.abs] in O.
      pose proof (fun H1 H2 => appr_weak _ _ _ _ 101 102 O H1 H2) as O'. specialize (O' ltac:(lra) ltac:(lra)).
      pose proof (appr_sq _ _ _ _ O' ltac:(small)) as P.
      pose proof (fun H1 H2 => appr_weak _ _ _ _ 10201 40000 P H1 H2) as P'. specialize (P' ltac:(lra) ltac:(lra)).
      pose proof (appr_add _ _ _ _ _ _ _ _ C' P' ltac:(small)) as G.
      eapply appr_weak; [exact G|lra|lra].
    - small.
    - unfold span. rewrite seq_length, Nat.sub_0_r. assert (Hn : 0 <= INR (d - 1) <= INR d) by (split; [apply pos_INR|apply le_INR; lia]). set (k := INR (d - 1)) in *.
      assert (k * k <= INR d * INR d) by (apply Rmult_le_compat; lra). assert (0 <= INR d * INR d) by (apply Rmult_le_pos; lra). lra. }
  destruct (Nat.leb d 1); [exact G|]. rewrite reads_F, reads_R by apply Hx. exact G.
Qed.

(** Square roots of sums of squares. *)
Lemma speck_root : sqrt speck <= eps / 8.
Proof.
  apply Rle_trans with (bpow radix2 (-520)).
  - rewrite <- (sqrt_square (bpow radix2 (-520))) by apply bpow_ge_0. apply sqrt_le_1_alt. unfold speck. rewrite <- bpow_plus. apply bpow_le. lia.
  - apply Rle_trans with (u / 8); [|lra]. replace (u / 8) with (u * bpow radix2 (-3)) by (cbn; lra). unfold u. rewrite <- bpow_plus. apply bpow_le. lia.
Qed.
Lemma root_appr a A k t M c : relc a A (k * eps) t -> 0 <= k * eps <= 1 -> 0 <= t <= speck -> neg_signed a = false -> sqrt A <= M -> M * (k + 2) + 1 <= c ->
  appr (fsqrt a) (sqrt A) M c.
Proof.
  intros (F & P & E) Hk Ht Sa HM Hc. destruct (sqrt_rel a F Sa) as [Fs (e & He & Es)]. pose proof eps_pos. pose proof (sqrt_pos A) as PA. pose proof speck_root. pose proof eps_small.
  assert (0 <= k) by (apply (Rmult_le_reg_r eps); lra).
  assert (Pa : 0 <= B2R a). { destruct a as [s|s| |[|] mm ee Hb]; try discriminate; cbn [B2R]; try lra. apply F2R_ge_0. cbn. lia. }
  pose proof (sqrt_dist (B2R a) A (k * eps) t Pa P Hk (proj1 Ht) E) as D.
  assert (T : sqrt t <= eps / 8) by (eapply Rle_trans; [apply sqrt_le_1_alt, Ht|assumption]).
  assert (K : k * eps * sqrt A <= k * eps * M) by (apply Rmult_le_compat_l; lra).
  assert (K1 : k * eps * sqrt A <= 1 * sqrt A) by (apply Rmult_le_compat_r; lra).
  assert (B : Rabs (sqrt (B2R a)) <= 2 * M + 1). { replace (sqrt (B2R a)) with (sqrt A + (sqrt (B2R a) - sqrt A)) by ring. eapply Rle_trans; [apply Rabs_triang|]. rewrite (Rabs_pos_eq (sqrt A)) by exact PA. lra. }
  assert (B' : Rabs (sqrt (B2R a)) <= M + (k * eps * M + eps / 8)). { replace (sqrt (B2R a)) with (sqrt A + (sqrt (B2R a) - sqrt A)) by ring. eapply Rle_trans; [apply Rabs_triang|]. rewrite (Rabs_pos_eq (sqrt A)) by exact PA. lra. }
  assert (0 <= M * k) by (apply Rmult_le_pos; lra).
  split; [exact Fs|]. split; [rewrite Rabs_pos_eq; lra|]. split; [|lra]. rewrite Es.
  replace (sqrt (B2R a) * (1 + e) - sqrt A) with ((sqrt (B2R a) - sqrt A) + sqrt (B2R a) * e) by ring. eapply Rle_trans; [apply Rabs_triang|]. rewrite Rabs_mult.
  assert (Rabs (sqrt (B2R a)) * Rabs e <= (M + (k * eps * M + eps / 8)) * eps) by (apply Rmult_le_compat; auto using Rabs_pos; lra).
  assert (k * eps * M <= 1 * M) by (apply Rmult_le_compat_r; lra).
  assert ((M + (k * eps * M + eps / 8)) * eps <= (2 * M + 1 / 8) * eps) by (apply Rmult_le_compat_r; lra).
  assert ((M * (k + 2) + 1) * eps <= c * eps) by (apply Rmult_le_compat_r; lra). lra.
Qed.
Lemma hundred_wide v : Rabs v <= 100 -> Rabs v <= wide.
Proof. intros H. eapply Rle_trans; [exact H|]. apply Rle_trans with (bpow radix2 7); [cbn; lra|]. unfold wide. apply bpow_le. lia. Qed.
Lemma sq_signed v : isfin v = true -> Rabs (B2R v) <= wide -> neg_signed (m_sq m v) = false.
Proof. intros F H. destruct Hm as (Hsq & _). apply (Hsq v F). pose proof wide_far. lra. Qed.
Lemma sq_hundred v : Rabs v <= 100 -> 0 <= v ^ 2 <= 10000.
Proof. intros H. apply Rabs_le_inv in H. split; [apply pow2_ge_0|]. nra. Qed.
Lemma eta_much : 2 ^ 20 * eta <= eps.
Proof. apply Rle_trans with u; [|exact eps_u]. replace (2 ^ 20) with (bpow radix2 20) by (cbn; lra). unfold eta, u. rewrite <- bpow_plus. apply bpow_le. lia. Qed.
Lemma relc_sq v V k : relc v V k 0 -> 0 <= k <= 1 / 100 -> 1 <= V <= 10000 -> relc (m_sq m v) (V ^ 2) (2 * k + k * k + 3 * eps) 0.
Proof.
  intros H Hk HV. pose proof (relc_abs _ _ _ _ H) as A. destruct H as (F & _ & E). destruct Hm as (Hsq & _). pose proof eps_pos. pose proof eta_eps.
  assert (KV : k * V <= 1 / 100 * V) by (apply Rmult_le_compat_r; lra).
  destruct (Hsq v F) as [[Fs Es] _]. { apply Rle_trans with (bpow radix2 20); [cbn; lra|apply bpow_le; lia]. }
  split; [exact Fs|]. split; [apply pow2_ge_0|]. set (r := B2R v) in *.
  assert (D : Rabs (r ^ 2 - V ^ 2) <= (2 * k + k * k) * V ^ 2).
  { replace (r ^ 2 - V ^ 2) with ((r - V) * (r + V)) by ring. rewrite Rabs_mult. replace ((2 * k + k * k) * V ^ 2) with (k * V * ((2 + k) * V)) by ring.
    apply Rmult_le_compat; auto using Rabs_pos; [lra|]. eapply Rle_trans; [apply Rabs_triang|]. rewrite (Rabs_pos_eq V) by lra. lra. }
  assert (V2 : 1 <= V ^ 2) by nra.
  assert (Q : Rabs (r ^ 2) <= 2 * V ^ 2). { rewrite <- RPow_abs. replace (Rabs r ^ 2) with (Rabs r * Rabs r) by ring. assert (Rabs r * Rabs r <= 101 / 100 * V * (101 / 100 * V)) by (apply Rmult_le_compat; auto using Rabs_pos; lra). lra. }
  assert (eps * Rabs (r ^ 2) <= eps * (2 * V ^ 2)) by (apply Rmult_le_compat_l; lra). assert (eps * 1 <= eps * V ^ 2) by (apply Rmult_le_compat_l; lra).
  replace (B2R (m_sq m v) - V ^ 2) with ((B2R (m_sq m v) - r ^ 2) + (r ^ 2 - V ^ 2)) by ring. eapply Rle_trans; [apply Rabs_triang|]. lra.
Qed.
Lemma appr_div n N M c d D j : appr n N M c -> relc d D (j * eps) 0 -> 0 <= j -> j * eps <= 1 / 100 -> 1 <= D -> M + c / 2 ^ 20 <= cap ->
  appr (fdiv n d) (N / D) M (102 / 100 * (c + j * M + M + c / 2 ^ 20) + 1).
Proof.
  intros Hn Hd Pj Hj HD K. pose proof (appr_abs _ _ _ _ Hn) as B. destruct Hn as (Fn & An & En & Pc). destruct Hd as (Fd & _ & Ed). pose proof (c_eps c Pc). pose proof eps_pos. pose proof eta_eps. pose proof cap_huge.
  assert (PM : 0 <= M) by (pose proof (Rabs_pos N); lra). set (dv := B2R d) in *. set (nv := B2R n) in *. apply Rabs_le_inv in Ed as Ed'.
  assert (KD : j * eps * D <= 1 / 100 * D) by (apply Rmult_le_compat_r; lra). assert (DV : 99 / 100 * D <= dv) by lra. assert (I : 0 < / dv <= 102 / 100).
  { split; [apply Rinv_0_lt_compat; lra|]. apply (Rmult_le_reg_r dv); [lra|]. rewrite Rinv_l by lra. lra. }
  assert (ID : 0 < / D <= 1) by (split; [apply Rinv_0_lt_compat; lra|rewrite <- Rinv_1; apply Rinv_le_contravar; lra]).
  assert (Q : Rabs (nv / dv) <= 102 / 100 * (M + c / 2 ^ 20)).
  { unfold Rdiv at 1. rewrite Rabs_mult, (Rabs_pos_eq (/ dv)) by lra. rewrite Rmult_comm. apply Rmult_le_compat; auto using Rabs_pos; lra. }
  assert (E : Rabs (nv / dv - N / D) <= 102 / 100 * (c * eps) + 102 / 100 * (j * eps * M)).
  { replace (nv / dv - N / D) with ((nv - N) * / dv + N * ((D - dv) * / D) * / dv) by (field; lra). eapply Rle_trans; [apply Rabs_triang|].
    rewrite !Rabs_mult, (Rabs_pos_eq (/ dv)), (Rabs_pos_eq (/ D)) by lra. apply Rplus_le_compat.
    - rewrite Rmult_comm. apply Rmult_le_compat; auto using Rabs_pos; lra.
    - assert (X : Rabs (D - dv) * / D <= j * eps). { rewrite Rabs_minus_sym. apply (Rmult_le_reg_r D); [lra|]. rewrite Rmult_assoc, Rinv_l by lra. lra. }
      assert (0 <= Rabs (D - dv) * / D) by (apply Rmult_le_pos; [apply Rabs_pos|lra]).
      assert (Y : Rabs N * (Rabs (D - dv) * / D) <= M * (j * eps)) by (apply Rmult_le_compat; auto using Rabs_pos).
      assert (0 <= Rabs N * (Rabs (D - dv) * / D)) by (apply Rmult_le_pos; [apply Rabs_pos|assumption]).
      assert (Rabs N * (Rabs (D - dv) * / D) * / dv <= M * (j * eps) * (102 / 100)) by (apply Rmult_le_compat; lra). lra. }
  destruct (div_rel n d Fn) as [F (e & t & He & Ht & Ev)]; [fold dv; lra| |].
  { fold nv dv. unfold cap in *. lra. }
  fold nv dv in Ev. split; [exact F|]. split.
  - unfold Rdiv. rewrite Rabs_mult, (Rabs_pos_eq (/ D)) by lra. assert (Rabs N * / D <= M * 1) by (apply Rmult_le_compat; auto using Rabs_pos; lra). lra.
  - assert (0 <= j * M) by (apply Rmult_le_pos; lra). split; [|lra]. rewrite Ev.
    replace (nv / dv * (1 + e) + t - N / D) with ((nv / dv - N / D) + nv / dv * e + t) by ring. eapply Rle_trans; [apply Rabs_triang|]. eapply Rle_trans; [apply Rplus_le_compat_r, Rabs_triang|]. rewrite Rabs_mult.
    assert (Rabs (nv / dv) * Rabs e <= 102 / 100 * (M + c / 2 ^ 20) * eps) by (apply Rmult_le_compat; auto using Rabs_pos; lra). lra.
Qed.
Lemma scaffer_near x y : isfin x = true -> isfin y = true -> Rabs (B2R x) <= 100 -> Rabs (B2R y) <= 100 ->
  appr (scaffer_f m x y) (scaffer_f6 (B2R x) (B2R y)) 2 1510.
Proof.
  intros Fx Fy Bx By. pose proof (sq_rel x Fx (hundred_wide _ Bx)) as X. pose proof (sq_rel y Fy (hundred_wide _ By)) as Y.
  pose proof (sq_signed x Fx (hundred_wide _ Bx)) as SX. pose proof (sq_signed y Fy (hundred_wide _ By)) as SY.
  unfold scaffer_f, scaffer_f6. pose proof (sq_hundred _ Bx) as QX. pose proof (sq_hundred _ By) as QY. set (X2 := B2R x ^ 2) in *. set (Y2 := B2R y ^ 2) in *.
  pose proof eps_pos. pose proof eps_small. pose proof eps_sq. pose proof eta_pos. pose proof eta_tiny. pose proof eta_eps. pose proof speck_eta. pose proof large_1. 
  assert (LG : 1000000 <= large). { apply Rle_trans with (bpow radix2 20); [cbn; lra|]. unfold large. apply bpow_le. lia. }
  pose proof (relc_add _ _ eps eta _ _ eta ltac:(lra) ltac:(lra) ltac:(lra) X Y ltac:(lra) ltac:(lra)) as S.
  set (s := fadd (m_sq m x) (m_sq m y)) in *. set (s2 := X2 + Y2) in *. assert (S2 : 0 <= s2 <= 20000) by (unfold s2; lra).
  assert (Sg : neg_signed s = false) by (apply fadd_nonneg; assumption).
  assert (R142 : sqrt s2 <= 142). { rewrite <- (sqrt_square 142) by lra. apply sqrt_le_1_alt. lra. }
  assert (RT : appr (fsqrt s) (sqrt s2) 142 711). { apply (root_appr s s2 3 (2 * (eta + eta))); try lra; [|exact Sg]. eapply relc_weak; [exact S|lra|lra]. }
  pose proof (appr_sin _ _ _ _ RT) as SN. pose proof (appr_sq _ _ _ _ SN ltac:(small)) as SQ.
  pose proof (fun H1 H2 => appr_weak _ _ _ _ 1 1430 SQ H1 H2) as SQ'. specialize (SQ' ltac:(lra) ltac:(lra)).
  destruct half_R as [Fh Eh]. pose proof (appr_exact half (5 / 10) Fh ltac:(rewrite Eh; lra)) as HF. rewrite (Rabs_pos_eq (5 / 10)) in HF by lra.
  pose proof (appr_sub _ _ _ _ _ _ _ _ SQ' HF ltac:(small)) as NM.
  pose proof (fun H1 H2 => appr_weak _ _ _ _ (3 / 2) 1432 NM H1 H2) as NM'. specialize (NM' ltac:(lra) ltac:(lra)).
  set (nf := fsub (m_sq m (m_sin m (fsqrt s))) half) in *.
  (* the divisor *)
  pose proof fone_fin as F1. pose proof fone_R as E1. destruct (small_Z 1000 ltac:(lia)) as [FK EK].
  pose proof (relc_div _ _ 0 0 (Z2f 1000) 1000 ltac:(lra) ltac:(lra) (relc_exact _ _ F1 E1 ltac:(lra)) FK EK ltac:(lra) ltac:(lra)) as TH.
  assert (TH' : relc (fdiv fone (Z2f 1000)) (1 / 1000) (3 * eps) 0). { destruct TH as (Ft & Pt & Et). pose proof eta_much. split; [exact Ft|]. split; lra. }
  pose proof (fun H => relc_mul _ _ (3 * eps) s s2 (3 * eps) (4 * eta) ltac:(lra) ltac:(lra) ltac:(lra) TH' H) as PR.
  specialize (PR ltac:(eapply relc_weak; [exact S|lra|lra]) ltac:(lra) ltac:(lra)).
  pose proof (fun H1 H2 => relc_weak _ _ _ _ (9 * eps) (2 * eta) PR H1 H2) as PR'. specialize (PR' ltac:(lra) ltac:(lra)).
  pose proof (fun H => relc_add fone 1 (9 * eps) 0 _ _ (2 * eta) ltac:(lra) ltac:(lra) ltac:(lra) H PR' ltac:(lra) ltac:(lra)) as DN.
  specialize (DN ltac:(eapply relc_weak; [apply relc_exact; [exact F1|exact E1|lra]|lra|lra])).
  set (df := fadd fone (fmul (fdiv fone (Z2f 1000)) s)) in *. set (D := 1 + 1 / 1000 * s2) in *. assert (PD : 1 <= D <= 21) by (unfold D; lra).
  pose proof eta_much.
  assert (DN' : relc df D (12 * eps) 0). { destruct DN as (Ft & Pt & Et). split; [exact Ft|]. split; [lra|]. assert (eps * 1 <= eps * D) by (apply Rmult_le_compat_l; lra). lra. }
  pose proof (relc_sq df D (12 * eps) DN' ltac:(lra) ltac:(lra)) as DQ.
  pose proof (fun H1 H2 => relc_weak _ _ _ _ (28 * eps) 0 DQ H1 H2) as DQ'. specialize (DQ' ltac:(lra) ltac:(lra)).
  assert (1 <= D ^ 2) by nra.
  pose proof (appr_div nf _ _ _ _ _ 28 NM' DQ' ltac:(lra) ltac:(lra) ltac:(lra) ltac:(small)) as QT.
  pose proof (fun H1 H2 => appr_weak _ _ _ _ (3 / 2) 1507 QT H1 H2) as QT'. specialize (QT' ltac:(lra) ltac:(lra)).
  pose proof (appr_add _ _ _ _ _ _ _ _ HF QT' ltac:(small)) as G. eapply appr_weak; [exact G|lra|lra].
Qed.
Lemma expanded_near d x : (1 <= d <= 100)%nat -> inside d 100 x ->
  computes (expanded_scaffer_f m d x) (expanded_scaffer d (map B2R x)) 0 (INR d * (1520 + 5 * INR d) * eps).
Proof.
  intros Hd Hx. unfold expanded_scaffer_f, expanded_scaffer. rewrite reads_F, reads_R by apply Hx. destruct Hx as [Hl Hx]. rewrite !get_B2R.
  rewrite (add_up_ext 0 0 (fun i => scaffer_f6 (get (i - 1) (map B2R x)) (get i (map B2R x))) (fun i => scaffer_f6 (B2R (getf (i - 1) x)) (B2R (getf i x)))) by (intros; rewrite ?get_B2R; reflexivity).
  change (range 1 d) with (span 1 d).
  assert (SL : List.length (span 1 d) = (d - 1)%nat) by (unfold span; apply seq_length).
  assert (A : appr (addf fzero (fun i => scaffer_f m (getf (i - 1) x) (getf i x)) (span 1 d)) (add_up 0 (fun i => scaffer_f6 (B2R (getf (i - 1) x)) (B2R (getf i x))) (span 1 d))
     (INR (d - 1) * 2) (INR (d - 1) * 1510 + 2 * (INR (d - 1) + 1) * (INR (d - 1) * (2 + 1510 / 2 ^ 20)))).
  { rewrite <- SL. apply appr_addf; try lra; [lia| |small]. intros i Hi. apply span_lt in Hi. apply scaffer_near; apply Hx; lia. }
  assert (B : appr (scaffer_f m (getf (d - 1) x) (getf 0 x)) (scaffer_f6 (B2R (getf (d - 1) x)) (B2R (getf 0 x))) 2 1510) by (apply scaffer_near; apply Hx; lia).
  assert (E : INR d = INR (d - 1) + 1) by (rewrite <- S_INR; f_equal; lia). pose proof (INR_100 (d - 1) ltac:(lia)) as N. rewrite E. set (k := INR (d - 1)) in *.
  assert (KK : 0 <= k * k <= 100 * 100) by (split; [apply Rmult_le_pos; lra|apply Rmult_le_compat; lra]).
  eapply appr_off; [apply (appr_add _ _ _ _ _ _ _ _ A B); unfold cap; lra|lra].
Qed.

Lemma appr_mean w W M c d n : appr w W (n * M) (n * c) -> isfin d = true -> B2R d = n -> 1 <= n -> 0 <= c -> 0 <= M -> n * (M + c / 2 ^ 20) <= cap ->
  appr (fdiv w d) (W / n) M (c + (M + c / 2 ^ 20) + 1).
Proof.
  intros Hw Fd Ed Hn Pc PM K. pose proof (appr_abs _ _ _ _ Hw) as B. destruct Hw as (F & A & E & P). pose proof (c_eps c Pc). pose proof eps_pos. pose proof eta_eps. pose proof cap_huge.
  assert (I : 0 < / n <= 1) by (split; [apply Rinv_0_lt_compat; lra|rewrite <- Rinv_1; apply Rinv_le_contravar; lra]).
  assert (Dv : forall a b, Rabs a <= n * b -> Rabs (a / n) <= b).
  { intros a b H'. unfold Rdiv. rewrite Rabs_mult, (Rabs_pos_eq (/ n)) by lra. apply (Rmult_le_reg_r n); [lra|]. rewrite Rmult_assoc, Rinv_l by lra. lra. }
  assert (Q : Rabs (B2R w / n) <= M + c / 2 ^ 20) by (apply Dv; lra).
  destruct (div_rel w d F) as [Fq (e & t & He & Ht & Ev)]; [rewrite Ed; lra| |].
  { rewrite Ed. assert (1 * (M + c / 2 ^ 20) <= n * (M + c / 2 ^ 20)) by (apply Rmult_le_compat_r; lra). unfold cap in *. lra. }
  rewrite Ed in Ev. split; [exact Fq|]. split; [apply Dv; exact A|]. split; [|lra]. rewrite Ev.
  assert (X : Rabs (B2R w / n - W / n) <= c * eps). { replace (B2R w / n - W / n) with ((B2R w - W) / n) by (unfold Rdiv; ring). apply Dv. lra. }
  replace (B2R w / n * (1 + e) + t - W / n) with ((B2R w / n - W / n) + B2R w / n * e + t) by ring. eapply Rle_trans; [apply Rabs_triang|]. eapply Rle_trans; [apply Rplus_le_compat_r, Rabs_triang|]. rewrite Rabs_mult.
  assert (Rabs (B2R w / n) * Rabs e <= (M + c / 2 ^ 20) * eps) by (apply Rmult_le_compat; auto using Rabs_pos; lra). lra.
Qed.
Lemma addf_signed f l : (forall i, In i l -> neg_signed (f i) = false) -> forall a, neg_signed a = false -> neg_signed (addf a f l) = false.
Proof. unfold addf. induction l as [|i l IH]; intros H a Ha; [exact Ha|]. cbn [fold_left]. apply IH; [intros j Hj; apply H; right; exact Hj|]. apply fadd_nonneg; [exact Ha|apply H; left; reflexivity]. Qed.
Lemma fifth : appr (fopp (fdiv (Z2f 2) (Z2f 10))) (- (2 / 10)) (1 / 5) 2.
Proof.
  destruct (small_Z 2 ltac:(lia)) as [F2 E2]. destruct (small_Z 10 ltac:(lia)) as [F10 E10]. pose proof eps_pos. pose proof eta_eps. pose proof cap_huge.
  destruct (div_rel (Z2f 2) (Z2f 10) F2) as [F (e & t & He & Ht & E)]; [rewrite E10; lra| |].
  { rewrite E2, E10, Rabs_pos_eq by lra. unfold cap in *. lra. }
  rewrite E2, E10 in E. split; [unfold fopp, isfin; rewrite is_finite_Bopp; exact F|]. split; [rewrite Rabs_Ropp, Rabs_pos_eq; lra|]. split; [|lra].
  unfold fopp. rewrite B2R_Bopp. unfold f64 in *. rewrite E. replace (- (2 / 10 * (1 + e) + t) - - (2 / 10)) with (- (2 / 10 * e) + - t) by ring.
  eapply Rle_trans; [apply Rabs_triang|]. rewrite !Rabs_Ropp, Rabs_mult, (Rabs_pos_eq (2 / 10)) by lra. lra.
Qed.
Lemma ackley_near d x : (1 <= d <= 100)%nat -> inside d 100 x ->
  computes (ackley_f m d x) (ackley d (map B2R x)) 0 ((15000 + 1700 * INR d) * eps).
Proof.
  intros Hd Hx. unfold ackley_f, ackley. rewrite reads_F, reads_R by apply Hx.
  rewrite (add_up_ext 0 0 (fun i => get i (map B2R x) ^ 2) (fun i => B2R (getf i x) ^ 2)) by (intros; rewrite ?get_B2R; reflexivity).
  rewrite (add_up_ext 0 0 (fun i => cos (get i (map B2R x) * 2 * PI)) (fun i => cos (B2R (getf i x) * 2 * PI))) by (intros; rewrite ?get_B2R; reflexivity).
  change (range 0 d) with (span 0 d). assert (SL : List.length (span 0 d) = d) by (unfold span; rewrite seq_length; lia).
  pose proof (INR_100 d ltac:(lia)) as N. assert (N1 : 1 <= INR d) by (apply (le_INR 1); lia). destruct (len_exact d ltac:(unfold few; lia)) as [Ed Fd]. fold (nat_f d) in Ed, Fd.
  pose proof eps_pos. pose proof eps_small. pose proof eps_sq. pose proof eta_pos. pose proof eta_tiny. pose proof eta_eps. pose proof eta_much. pose proof speck_eta.
  assert (LG : 1000000 <= large). { apply Rle_trans with (bpow radix2 20); [cbn; lra|]. unfold large. apply bpow_le. lia. }
  assert (NE : 0 <= INR d * eps <= 100 * / 2 ^ 20) by (split; [apply Rmult_le_pos; lra|apply Rmult_le_compat; lra]).
  assert (NT : 0 <= INR d * eta <= 100 * eta) by (split; [apply Rmult_le_pos; lra|apply Rmult_le_compat_r; lra]).
  (* the first sum *)
  assert (V1 : add_up 0 (fun i => B2R (getf i x) ^ 2) (span 0 d) <= INR d * 10000).
  { rewrite <- (Rplus_0_l (INR d * 10000)). apply add_up_le; [lra| |lra|lia]. intros i Hi. apply span_lt in Hi. apply sq_hundred, Hx. lia. }
  assert (S1 : relc (addf fzero (fun i => m_sq m (getf i x)) (span 0 d)) (add_up 0 (fun i => B2R (getf i x) ^ 2) (span 0 d)) (eps + 4 * (INR d + 1) * eps) (2 * (INR d + 1) * eta)).
  { replace (INR d + 1) with (INR (S (List.length (span 0 d)))) by (rewrite SL; apply S_INR). apply addf_rel; try lra.
    - lia.
    - eapply relc_weak; [apply relc_exact; [reflexivity|reflexivity|lra]|lra|lra].
    - intros i Hi. apply span_lt in Hi. apply sq_rel; [apply Hx; lia|apply hundred_wide, Hx; lia]. }
  set (s1 := addf fzero (fun i => m_sq m (getf i x)) (span 0 d)) in *. set (S1R := add_up 0 (fun i => B2R (getf i x) ^ 2) (span 0 d)) in *.
  assert (Sg : neg_signed (fdiv s1 (nat_f d)) = false).
  { apply fdiv_nonneg; [|apply Z2f_nonneg]. apply addf_signed; [|reflexivity]. intros i Hi. apply span_lt in Hi. apply sq_signed; [apply Hx; lia|apply hundred_wide, Hx; lia]. }
  pose proof (relc_div _ _ (eps + 4 * (INR d + 1) * eps) (2 * (INR d + 1) * eta) (nat_f d) (INR d) ltac:(lra) ltac:(lra) S1 Fd Ed ltac:(lra) ltac:(lra)) as D1.
  assert (Q : S1R / INR d <= 10000). { apply (Rmult_le_reg_r (INR d)); [lra|]. unfold Rdiv. rewrite Rmult_assoc, Rinv_l by lra. lra. }
  assert (R100 : sqrt (S1R / INR d) <= 100). { rewrite <- (sqrt_square 100) by lra. apply sqrt_le_1_alt. lra. }
  assert (RT : appr (fsqrt (fdiv s1 (nat_f d))) (sqrt (S1R / INR d)) 100 (400 * INR d + 901)).
  { apply (root_appr _ _ (4 * INR d + 7) (2 * (2 * (INR d + 1) * eta) + eta)); try lra; [|exact Sg]. eapply relc_weak; [exact D1|lra|lra]. }
  pose proof (appr_mul _ _ _ _ _ _ _ _ fifth RT ltac:(small) ltac:(small)) as M1.
  pose proof (fun H1 H2 => appr_weak _ _ _ _ 20 (81 * INR d + 405) M1 H1 H2) as M1'. specialize (M1' ltac:(lra) ltac:(lra)).
  pose proof (exp_near (1 / 100) ltac:(rewrite Rabs_pos_eq; lra)) as E100. rewrite (Rabs_pos_eq (1 / 100)) in E100 by lra. apply Rabs_le_inv in E100.
  pose proof (fun H => appr_exp _ _ _ _ (102 / 100) M1' ltac:(lra) ltac:(lra) H) as X1.
  specialize (X1 ltac:(apply Rle_trans with (exp (1 / 100)); [apply exp_le_mono; pose proof (sqrt_pos (S1R / INR d)); lra|lra])).
  pose proof (appr_mul _ _ _ _ _ _ _ _ (appr_Z (-20) ltac:(lia)) X1 ltac:(cbn; small) ltac:(small)) as T1. cbn [Z.abs] in T1.
  pose proof (fun H1 H2 => appr_weak _ _ _ _ 21 (1660 * INR d + 8400) T1 H1 H2) as T1'. specialize (T1' ltac:(lra) ltac:(lra)).
  (* the second sum *)
  assert (S2 : appr (addf fzero (fun i => m_cos m (fmul (fmul (getf i x) (Z2f 2)) np_pi)) (span 0 d)) (add_up 0 (fun i => cos (B2R (getf i x) * 2 * PI)) (span 0 d)) (INR d * 1)
    (INR d * (2012 + 2 * (INR d + 1) * (1 + 2012 / 2 ^ 20)))).
  { pose proof (appr_addf (fun i => m_cos m (fmul (fmul (getf i x) (Z2f 2)) np_pi)) (fun i => cos (B2R (getf i x) * 2 * PI)) (span 0 d) 1 2012 ltac:(lra) ltac:(lra) ltac:(lia)) as AA.
    rewrite SL in AA. assert (K : 1 + 2012 / 2 ^ 20 <= cap) by small. eapply appr_weak; [apply AA; [|exact K]|lra|lra].
    intros i Hi. apply span_lt in Hi. pose proof (appr_get d x i Hx ltac:(lia)) as V.
    pose proof (appr_mul _ _ _ _ _ _ _ _ V (appr_Z 2 ltac:(lia)) ltac:(small) ltac:(cbn; small)) as T. cbn [Z.abs] in T.
    pose proof (fun H1 H2 => appr_weak _ _ _ _ 200 202 T H1 H2) as T'. specialize (T' ltac:(lra) ltac:(lra)).
    pose proof (appr_mul _ _ _ _ _ _ _ _ T' appr_pi ltac:(small) ltac:(small)) as U.
    eapply appr_weak; [apply (appr_cos _ _ _ _ U)|lra|lra]. }
  pose proof (appr_mean _ _ _ _ (nat_f d) (INR d) S2 Fd Ed N1 ltac:(lra) ltac:(lra)) as D2.
  assert (NN : INR d * INR d <= 100 * 100) by (apply Rmult_le_compat; lra). specialize (D2 ltac:(unfold cap; lra)).
  pose proof (fun H1 H2 => appr_weak _ _ _ _ 1 (2020 + 3 * INR d) D2 H1 H2) as D2'. specialize (D2' ltac:(lra) ltac:(lra)).
  pose proof E_fine as [_ EU]. pose proof (exp_pos 1) as EP.
  pose proof (fun H => appr_exp _ _ _ _ (28 / 10) D2' ltac:(lra) ltac:(lra) H) as X2.
  assert (E101 : exp (1 + 1 / 100) <= 28 / 10).
  { rewrite exp_plus. apply Rle_trans with (272 / 100 * (102 / 100)); [apply Rmult_le_compat; try lra; left; apply exp_pos|lra]. }
  assert (V2 : add_up 0 (fun i => cos (B2R (getf i x) * 2 * PI)) (span 0 d) / INR d <= 1) by (destruct D2 as (_ & A2 & _); apply Rabs_le_inv in A2; lra).
  specialize (X2 ltac:(eapply Rle_trans; [apply exp_le_mono|exact E101]; lra)).
  pose proof (appr_sub _ _ _ _ _ _ _ _ T1' X2 ltac:(small)) as G1.
  pose proof (appr_add _ _ _ _ _ _ _ _ G1 (appr_Z 20 ltac:(lia)) ltac:(cbn; small)) as G2. cbn [Z.abs] in G2.
  pose proof (appr_add _ _ _ _ _ _ _ _ G2 appr_e ltac:(small)) as G3.
  eapply appr_off; [exact G3|lra].
Qed.
(** Roots of a distance. *)
Lemma root_dist X Y : 0 <= X -> 0 <= Y -> Rabs (sqrt X - sqrt Y) <= sqrt (Rabs (X - Y)).
Proof.
  assert (G : forall X Y, 0 <= X -> 0 <= Y -> sqrt X - sqrt Y <= sqrt (Rabs (X - Y))).
  { intros A B HA HB. assert (sqrt A <= sqrt (B + Rabs (A - B))) by (apply sqrt_le_1_alt; pose proof (Rle_abs (A - B)); lra).
    pose proof (sqrt_plus B (Rabs (A - B)) HB (Rabs_pos _)). lra. }
  intros HX HY. apply Rabs_le. split; [|apply G; assumption]. pose proof (G Y X HY HX) as H. rewrite Rabs_minus_sym in H. lra.
Qed.
Lemma ppow_half b : 0 <= b -> ppow b (/ 2) = sqrt b.
Proof. intros [H|<-]; unfold ppow; destruct (Req_EM_T _ 0) as [E|E]; try lra; [apply Rpower_sqrt; exact H|symmetry; apply sqrt_0]. Qed.
Lemma ppow_quarter b : 0 <= b -> ppow b (/ 4) = sqrt (sqrt b).
Proof.
  intros [H|<-]; unfold ppow; destruct (Req_EM_T _ 0) as [E|E]; try lra; [|rewrite !sqrt_0; reflexivity].
  rewrite <- (Rpower_sqrt (sqrt b)) by (apply sqrt_lt_R0; exact H). rewrite <- (Rpower_sqrt b) by exact H. rewrite Rpower_mult. f_equal. lra.
Qed.
Lemma appr_fabs w r M c : appr w r M c -> appr (fabs w) (Rabs r) M c.
Proof.
  intros (F & A & E & P). split; [unfold fabs, isfin; rewrite is_finite_Babs; exact F|]. split; [rewrite Rabs_Rabsolu; exact A|]. split; [|exact P].
  unfold fabs. rewrite B2R_Babs. eapply Rle_trans; [apply Rabs_triang_inv2|exact E].
Qed.
(** [w] is [r] up to a plain error. *)
Definition abse (w : f64) (r M e : R) : Prop := isfin w = true /\ Rabs r <= M /\ Rabs (B2R w - r) <= e.
Lemma abse_of w r M c : appr w r M c -> abse w r M (c * eps).
Proof. intros (F & A & E & _). repeat split; assumption. Qed.
Lemma abse_add a A M e b B N f : abse a A M e -> abse b B N f -> M + N + e + f <= cap -> abse (fadd a b) (A + B) (M + N) (e + f + eps * (M + N + e + f)).
Proof.
  intros (Fa & Aa & Ea) (Fb & Ab & Eb) K. pose proof cap_huge. pose proof (Rabs_pos A). pose proof (Rabs_pos B). pose proof (Rabs_pos (B2R a - A)). pose proof (Rabs_pos (B2R b - B)).
  destruct (add_near a b A B e f (M + N + e + f) Fa Fb Ea Eb) as [F E]; [lra|unfold cap in *; lra|].
  split; [exact F|]. split; [eapply Rle_trans; [apply Rabs_triang|]; lra|]. assert (u * (M + N + e + f) <= eps * (M + N + e + f)) by (apply Rmult_le_compat_r; lra). lra.
Qed.
Lemma quarter_R : isfin (lit 1 (-2)) = true /\ B2R (lit 1 (-2)) = / 4.
Proof. split; [vm_compute; reflexivity|]. cbn. unfold F2R. cbn. lra. Qed.
Lemma cat_sums d x : (1 <= d <= 100)%nat -> inside d 100 x ->
  appr (addf fzero (fun i => m_sq m (getf (i - 1) x)) (span 1 (d + 1))) (add_up 0 (fun i => B2R (getf (i - 1) x) ^ 2) (span 1 (d + 1))) (INR d * 10000) (INR d * (30010 + 20001 * INR d)) /\
  appr (addf fzero (fun i => getf (i - 1) x) (span 1 (d + 1))) (add_up 0 (fun i => B2R (getf (i - 1) x)) (span 1 (d + 1))) (INR d * 100) (INR d * (200 + 200 * INR d)).
Proof.
  intros Hd Hx. assert (SL : List.length (span 1 (d + 1)) = d) by (unfold span; rewrite seq_length; lia). pose proof (INR_100 d ltac:(lia)) as N. assert (N1 : 1 <= INR d) by (apply (le_INR 1); lia).
  assert (NN : 0 <= INR d * INR d) by (apply Rmult_le_pos; lra). split.
  - pose proof (appr_addf (fun i => m_sq m (getf (i - 1) x)) (fun i => B2R (getf (i - 1) x) ^ 2) (span 1 (d + 1)) 10000 10001 ltac:(lra) ltac:(lra) ltac:(lia)) as A.
    rewrite SL in A. assert (K : 10000 + 10001 / 2 ^ 20 <= cap) by small. eapply appr_weak; [apply A; [|exact K]|lra|lra].
    intros i Hi. apply span_lt in Hi. eapply appr_weak; [apply (appr_sq _ _ _ _ (appr_get d x (i - 1) Hx ltac:(lia))); small|lra|lra].
  - pose proof (appr_addf (fun i => getf (i - 1) x) (fun i => B2R (getf (i - 1) x)) (span 1 (d + 1)) 100 0 ltac:(lra) ltac:(lra) ltac:(lia)) as A.
    rewrite SL in A. assert (K : 100 + 0 / 2 ^ 20 <= cap) by small. eapply appr_weak; [apply A; [|exact K]|lra|lra].
    intros i Hi. apply span_lt in Hi. apply (appr_get d x (i - 1) Hx). lia.
Qed.
Lemma cat_mean d a A b B : (1 <= d <= 100)%nat -> appr a A (INR d * 10000) (INR d * (30010 + 20001 * INR d)) -> appr b B (INR d * 100) (INR d * (200 + 200 * INR d)) ->
  appr (fdiv (fadd (fmul half a) b) (nat_f d)) ((5 / 10 * A + B) / INR d) 5100 (30500 + 10220 * INR d).
Proof.
  intros Hd HA HB. pose proof (INR_100 d ltac:(lia)) as N. assert (N1 : 1 <= INR d) by (apply (le_INR 1); lia). destruct (len_exact d ltac:(unfold few; lia)) as [Ed Fd]. fold (nat_f d) in Ed, Fd.
  assert (NN : INR d * 1 <= INR d * INR d <= INR d * 100) by (split; apply Rmult_le_compat_l; lra).
  destruct half_R as [Fh Eh]. pose proof (appr_exact half (5 / 10) Fh ltac:(rewrite Eh; lra)) as HF. rewrite (Rabs_pos_eq (5 / 10)) in HF by lra.
  pose proof (appr_mul _ _ _ _ _ _ _ _ HF HA ltac:(small) ltac:(small)) as H1.
  pose proof (fun G1 G2 => appr_weak _ _ _ _ (INR d * 5000) (INR d * (20040 + 10001 * INR d)) H1 G1 G2) as H1'. specialize (H1' ltac:(lra) ltac:(lra)).
  pose proof (appr_add _ _ _ _ _ _ _ _ H1' HB ltac:(small)) as H2.
  pose proof (fun G1 G2 => appr_weak _ _ _ _ (INR d * 5100) (INR d * (25350 + 10210 * INR d)) H2 G1 G2) as H2'. specialize (H2' ltac:(lra) ltac:(lra)).
  pose proof (appr_mean _ _ _ _ (nat_f d) (INR d) H2' Fd Ed N1 ltac:(lra) ltac:(lra) ltac:(small)) as H3.
  eapply appr_weak; [exact H3|lra|lra].
Qed.
Lemma happycat_near d x : (1 <= d <= 100)%nat -> inside d 100 x ->
  computes (happycat_f m d x) (happycat d (map B2R x)) 0 (sqrt (sqrt (INR d * (41000 + 21000 * INR d) * eps)) + (42000 + 11000 * INR d) * eps).
Proof.
  intros Hd Hx. unfold happycat_f, happycat. rewrite reads_F, reads_R by apply Hx.
  rewrite (add_up_ext 0 0 (fun i => get (i - 1) (map B2R x) ^ 2) (fun i => B2R (getf (i - 1) x) ^ 2)) by (intros; rewrite ?get_B2R; reflexivity).
  rewrite (add_up_ext 0 0 (fun i => get (i - 1) (map B2R x)) (fun i => B2R (getf (i - 1) x))) by (intros; rewrite ?get_B2R; reflexivity).
  change (range 1 (d + 1)) with (span 1 (d + 1)). destruct (cat_sums d x Hd Hx) as [HA HB].
  set (a := addf fzero (fun i => m_sq m (getf (i - 1) x)) (span 1 (d + 1))) in *. set (A := add_up 0 (fun i => B2R (getf (i - 1) x) ^ 2) (span 1 (d + 1))) in *.
  set (b := addf fzero (fun i => getf (i - 1) x) (span 1 (d + 1))) in *. set (B := add_up 0 (fun i => B2R (getf (i - 1) x)) (span 1 (d + 1))) in *.
  pose proof (cat_mean d a A b B Hd HA HB) as MN. pose proof (INR_100 d ltac:(lia)) as N. assert (N1 : 1 <= INR d) by (apply (le_INR 1); lia). destruct (len_exact d ltac:(unfold few; lia)) as [Ed Fd]. fold (nat_f d) in Ed, Fd.
  assert (NN : INR d * 1 <= INR d * INR d <= INR d * 100) by (split; apply Rmult_le_compat_l; lra).
  destruct half_R as [Fh Eh]. pose proof (appr_exact half (5 / 10) Fh ltac:(rewrite Eh; lra)) as HF. rewrite (Rabs_pos_eq (5 / 10)) in HF by lra.
  pose proof (appr_add _ _ _ _ _ _ _ _ MN HF ltac:(small)) as T2.
  pose proof (appr_exact (nat_f d) (INR d) Fd Ed) as ND. rewrite (Rabs_pos_eq (INR d)) in ND by lra.
  pose proof (appr_sub _ _ _ _ _ _ _ _ HA ND ltac:(small)) as D.
  pose proof (fun G1 G2 => appr_weak _ _ _ _ (INR d * 10001) (INR d * (41000 + 21000 * INR d)) D G1 G2) as D'. specialize (D' ltac:(lra) ltac:(lra)).
  apply appr_fabs in D'. set (c := INR d * (41000 + 21000 * INR d)) in *. assert (Pc : 0 <= c <= 214100000) by (unfold c; lra). pose proof (c_eps c ltac:(lra)) as CE.
  set (z := fabs (fsub a (nat_f d))) in *. set (Z := Rabs (A - INR d)) in *. assert (PZ : 0 <= Z) by apply Rabs_pos.
  pose proof (appr_abs _ _ _ _ D') as Bz. destruct D' as (Fz & Az & Ez & _). rewrite (Rabs_pos_eq Z PZ) in Az.
  assert (Pz : 0 <= B2R z) by (unfold z, fabs; rewrite B2R_Babs; apply Rabs_pos). rewrite (Rabs_pos_eq _ Pz) in Bz. pose proof eps_pos. pose proof eta_eps.
  destruct quarter_R as [F4 E4]. destruct Hm as (_ & _ & _ & _ & Hp & _). destruct (Hp z (lit 1 (-2)) Fz F4) as [Fp Ep]; [lra|rewrite E4; lra|rewrite E4; right; lra|].
  rewrite E4, ppow_quarter in Ep by exact Pz. replace (25 / 100) with (/ 4) by lra. rewrite ppow_quarter by exact PZ.
  assert (R1 : Rabs (sqrt (sqrt (B2R z)) - sqrt (sqrt Z)) <= sqrt (sqrt (c * eps))).
  { eapply Rle_trans; [apply root_dist; apply sqrt_pos|]. apply sqrt_le_1_alt. eapply Rle_trans; [apply root_dist; assumption|]. apply sqrt_le_1_alt. exact Ez. }
  assert (root4 : forall v, 0 <= v <= 2000000 -> 0 <= sqrt (sqrt v) <= 40).
  { intros v Hv. split; [apply sqrt_pos|]. rewrite <- (sqrt_square 40) by lra. apply sqrt_le_1_alt. rewrite <- (sqrt_square (40 * 40)) by lra. apply sqrt_le_1_alt. lra. }
  pose proof (root4 (B2R z) ltac:(lra)) as Rz. pose proof (root4 Z ltac:(lra)) as RZ. pose proof (root4 (c * eps) ltac:(lra)) as RC.
  rewrite (Rabs_pos_eq (sqrt (sqrt (B2R z)))) in Ep by lra.
  assert (P : abse (m_pow m z (lit 1 (-2))) (sqrt (sqrt Z)) 40 (sqrt (sqrt (c * eps)) + 41 * eps)).
  { split; [exact Fp|]. split; [rewrite Rabs_pos_eq; lra|]. replace (B2R (m_pow m z (lit 1 (-2))) - sqrt (sqrt Z)) with ((B2R (m_pow m z (lit 1 (-2))) - sqrt (sqrt (B2R z))) + (sqrt (sqrt (B2R z)) - sqrt (sqrt Z))) by ring.
    eapply Rle_trans; [apply Rabs_triang|]. assert (eps * sqrt (sqrt (B2R z)) <= eps * 40) by (apply Rmult_le_compat_l; lra). lra. }
  pose proof (c_eps 2000000 ltac:(lra)). assert (NE : 0 <= INR d * eps <= 100 * eps) by (split; [apply Rmult_le_pos; lra|apply Rmult_le_compat_r; lra]).
  pose proof (abse_add _ _ _ _ _ _ _ _ P (abse_of _ _ _ _ T2)) as G. specialize (G ltac:(unfold cap; lra)). destruct G as (F & _ & E).
  do 2 eexists. split; [reflexivity|]. split; [exact F|]. split; [reflexivity|]. rewrite Rmult_0_l, Rplus_0_l. eapply Rle_trans; [exact E|].
  match goal with |- _ + ?e <= _ => assert (e <= eps * 5500) by (apply Rmult_le_compat_l; lra) end. lra.
Qed.
Lemma hgbat_near d x : (1 <= d <= 100)%nat -> inside d 100 x ->
  computes (hgbat_f m d x) (hgbat d (map B2R x)) 0 (sqrt (INR d * INR d * (810000000 + 410000000 * INR d) * eps) + (110000 + 42000 * INR d) * eps).
Proof.
  intros Hd Hx. unfold hgbat_f, hgbat. rewrite reads_F, reads_R by apply Hx.
  rewrite (add_up_ext 0 0 (fun i => get (i - 1) (map B2R x) ^ 2) (fun i => B2R (getf (i - 1) x) ^ 2)) by (intros; rewrite ?get_B2R; reflexivity).
  rewrite (add_up_ext 0 0 (fun i => get (i - 1) (map B2R x)) (fun i => B2R (getf (i - 1) x))) by (intros; rewrite ?get_B2R; reflexivity).
  change (range 1 (d + 1)) with (span 1 (d + 1)). destruct (cat_sums d x Hd Hx) as [HA HB].
  set (a := addf fzero (fun i => m_sq m (getf (i - 1) x)) (span 1 (d + 1))) in *. set (A := add_up 0 (fun i => B2R (getf (i - 1) x) ^ 2) (span 1 (d + 1))) in *.
  set (b := addf fzero (fun i => getf (i - 1) x) (span 1 (d + 1))) in *. set (B := add_up 0 (fun i => B2R (getf (i - 1) x)) (span 1 (d + 1))) in *.
  pose proof (cat_mean d a A b B Hd HA HB) as MN. pose proof (INR_100 d ltac:(lia)) as N. assert (N1 : 1 <= INR d) by (apply (le_INR 1); lia).
  set (n := INR d) in *. assert (NN : n * 1 <= n * n <= n * 100) by (split; apply Rmult_le_compat_l; lra). assert (N3 : n * n * 1 <= n * n * n <= n * n * 100) by (split; apply Rmult_le_compat_l; lra).
  destruct half_R as [Fh Eh]. pose proof (appr_exact half (5 / 10) Fh ltac:(rewrite Eh; lra)) as HF. rewrite (Rabs_pos_eq (5 / 10)) in HF by lra.
  pose proof (appr_sq _ _ _ _ HA ltac:(small)) as QA. pose proof (appr_sq _ _ _ _ HB ltac:(small)) as QB.
  assert (QA' : appr (m_sq m a) (A ^ 2) (n * n * 100000000) (n * n * (701000000 + 400100000 * n))).
  { eapply appr_weak; [exact QA|lra|]. set (ca := 30010 + 20001 * n). assert (PA : 0 <= ca <= 2 * 2 ^ 20) by (unfold ca; lra). assert (PN : 0 <= n * ca) by (apply Rmult_le_pos; lra).
    assert (n * ca / 2 ^ 20 <= n * 2). { unfold Rdiv. rewrite Rmult_assoc. apply Rmult_le_compat_l; lra. }
    assert (n * ca * (2 * (n * 10000) + n * ca / 2 ^ 20) <= n * ca * (n * 20002)) by (apply Rmult_le_compat_l; lra).
    assert ((n * 10000 + n * ca / 2 ^ 20) * (n * 10000 + n * ca / 2 ^ 20) <= n * 10002 * (n * 10002)) by (apply Rmult_le_compat; lra).
    assert (n * ca * (n * 20002) = n * n * 600260020 + n * n * n * 400060002) by (unfold ca; ring). lra. }
  assert (QB' : appr (m_sq m b) (B ^ 2) (n * n * 10000) (n * n * (60000 + 50000 * n))).
  { eapply appr_weak; [exact QB|lra|]. set (cb := 200 + 200 * n). assert (PB : 0 <= cb <= 1 * 2 ^ 20) by (unfold cb; lra). assert (PN : 0 <= n * cb) by (apply Rmult_le_pos; lra).
    assert (n * cb / 2 ^ 20 <= n * 1). { unfold Rdiv. rewrite Rmult_assoc. apply Rmult_le_compat_l; lra. }
    assert (n * cb * (2 * (n * 100) + n * cb / 2 ^ 20) <= n * cb * (n * 201)) by (apply Rmult_le_compat_l; lra).
    assert ((n * 100 + n * cb / 2 ^ 20) * (n * 100 + n * cb / 2 ^ 20) <= n * 101 * (n * 101)) by (apply Rmult_le_compat; lra).
    assert (n * cb * (n * 201) = n * n * 40200 + n * n * n * 40200) by (unfold cb; ring). lra. }
  pose proof (appr_sub _ _ _ _ _ _ _ _ QA' QB' ltac:(small)) as D.
  pose proof (fun G1 G2 => appr_weak _ _ _ _ (n * n * 100020000) (n * n * (810000000 + 410000000 * n)) D G1 G2) as D'. specialize (D' ltac:(lra) ltac:(lra)).
  apply appr_fabs in D'. set (c := n * n * (810000000 + 410000000 * n)) in *. assert (Pc : 0 <= c <= 420000000000000) by (unfold c; lra). pose proof (c_eps c ltac:(lra)) as CE.
  set (z := fabs (fsub (m_sq m a) (m_sq m b))) in *. set (Z := Rabs (A ^ 2 - B ^ 2)) in *. assert (PZ : 0 <= Z) by apply Rabs_pos.
  pose proof (appr_abs _ _ _ _ D') as Bz. destruct D' as (Fz & Az & Ez & _). rewrite (Rabs_pos_eq Z PZ) in Az.
  assert (Pz : 0 <= B2R z) by (unfold z, fabs; rewrite B2R_Babs; apply Rabs_pos). rewrite (Rabs_pos_eq _ Pz) in Bz. pose proof eps_pos. pose proof eta_eps.
  destruct Hm as (_ & _ & _ & _ & Hp & _). destruct (Hp z half Fz Fh) as [Fp Ep]; [lra|rewrite Eh; lra|rewrite Eh; right; lra|].
  rewrite Eh, ppow_half in Ep by exact Pz. replace (ppow Z (5 / 10)) with (sqrt Z) by (rewrite <- ppow_half by exact PZ; f_equal; lra).
  assert (R1 : Rabs (sqrt (B2R z) - sqrt Z) <= sqrt (c * eps)).
  { eapply Rle_trans; [apply root_dist; assumption|]. apply sqrt_le_1_alt. exact Ez. }
  assert (RC : 0 <= sqrt (c * eps) <= 21000). { split; [apply sqrt_pos|]. rewrite <- (sqrt_square 21000) by lra. apply sqrt_le_1_alt. lra. }
  assert (RZ : 0 <= sqrt Z <= n * 10001). { split; [apply sqrt_pos|]. rewrite <- (sqrt_square (n * 10001)) by lra. apply sqrt_le_1_alt. lra. }
  assert (Rz : 0 <= sqrt (B2R z) <= n * 10001 + 21000). { split; [apply sqrt_pos|]. apply Rabs_le_inv in R1. lra. }
  rewrite (Rabs_pos_eq (sqrt (B2R z))) in Ep by lra.
  assert (P : abse (m_pow m z half) (sqrt Z) (n * 10001) (sqrt (c * eps) + (n * 10001 + 21001) * eps)).
  { split; [exact Fp|]. split; [rewrite Rabs_pos_eq; lra|]. replace (B2R (m_pow m z half) - sqrt Z) with ((B2R (m_pow m z half) - sqrt (B2R z)) + (sqrt (B2R z) - sqrt Z)) by ring.
    eapply Rle_trans; [apply Rabs_triang|]. assert (eps * sqrt (B2R z) <= eps * (n * 10001 + 21000)) by (apply Rmult_le_compat_l; lra). lra. }
  pose proof (c_eps 2000000 ltac:(lra)). assert (NE : 0 <= n * eps <= 100 * eps) by (split; [apply Rmult_le_pos; lra|apply Rmult_le_compat_r; lra]).
  pose proof (abse_add _ _ _ _ _ _ _ _ P (abse_of _ _ _ _ MN)) as G. specialize (G ltac:(unfold cap; lra)).
  match type of G with abse _ _ _ (_ + ?e) => assert (E1 : e <= eps * (n * 10001 + 26200)) by (apply Rmult_le_compat_l; lra); set (e1 := e) in * end.
  pose proof (abse_add _ _ _ _ _ _ _ _ G (abse_of _ _ _ _ HF)) as G2. specialize (G2 ltac:(unfold cap; lra)). destruct G2 as (F & _ & E).
  do 2 eexists. split; [reflexivity|]. split; [exact F|]. split; [reflexivity|]. rewrite Rmult_0_l, Rplus_0_l. eapply Rle_trans; [exact E|].
  match goal with |- _ + ?e <= _ => assert (e <= eps * (n * 10001 + 26300)) by (apply Rmult_le_compat_l; lra) end. lra.
Qed.
(* ---------------- Katsuura ---------------- *)
Lemma relc_quot a A k d D j : 0 <= k <= 1 / 100 -> 0 <= j <= 1 / 100 -> relc a A k 0 -> relc d D j 0 -> 1 <= D -> A <= large ->
  relc (fdiv a d) (A / D) (2 * (k + j) + 2 * eps) eta.
Proof.
  intros Hk Hj Ha Hd HD HA. pose proof (relc_abs _ _ _ _ Ha) as Ba. destruct Ha as (Fa & Pa & Ea). destruct Hd as (Fd & _ & Ed). set (av := B2R a) in *. set (dv := B2R d) in *.
  pose proof eps_pos. pose proof huge_large. pose proof large_1. apply Rabs_le_inv in Ed as Ed'.
  assert (JD : j * D <= 1 / 100 * D) by (apply Rmult_le_compat_r; lra). assert (KA : k * A <= 1 / 100 * A) by (apply Rmult_le_compat_r; lra). assert (DV : 99 / 100 * D <= dv) by lra.
  assert (ID : 0 < / D <= 1) by (split; [apply Rinv_0_lt_compat; lra|rewrite <- Rinv_1; apply Rinv_le_contravar; lra]).
  assert (I : 0 < / dv <= 102 / 100 * / D).
  { split; [apply Rinv_0_lt_compat; lra|]. apply (Rmult_le_reg_r dv); [lra|]. rewrite Rinv_l by lra. assert (102 / 100 * / D * (99 / 100 * D) <= 102 / 100 * / D * dv) by (apply Rmult_le_compat_l; lra).
    replace (102 / 100 * / D * (99 / 100 * D)) with (102 / 100 * (99 / 100)) in H2 by (field; lra). lra. }
  set (Q := A / D). assert (PQ : 0 <= Q) by (apply Rmult_le_pos; lra). assert (QA : Q <= A) by (unfold Q, Rdiv; rewrite <- (Rmult_1_r A) at 2; apply Rmult_le_compat_l; lra).
  assert (E : Rabs (av / dv - Q) <= 102 / 100 * (k + j) * Q).
  { unfold Q. replace (av / dv - A / D) with ((av - A) * / dv + A * / D * (D - dv) * / dv) by (field; lra). fold Q. change (A * / D) with Q. eapply Rle_trans; [apply Rabs_triang|].
    rewrite !Rabs_mult, (Rabs_pos_eq (/ dv)), (Rabs_pos_eq Q) by lra. rewrite (Rabs_minus_sym D dv).
    assert (Rabs (av - A) * / dv <= (k * A + 0) * (102 / 100 * / D)) by (apply Rmult_le_compat; auto using Rabs_pos; lra).
    assert (0 <= Q * Rabs (dv - D)) by (apply Rmult_le_pos; auto using Rabs_pos). assert (Q * Rabs (dv - D) <= Q * (j * D + 0)) by (apply Rmult_le_compat_l; lra).
    assert (Q * Rabs (dv - D) * / dv <= Q * (j * D + 0) * (102 / 100 * / D)) by (apply Rmult_le_compat; lra).
    replace (Q * (j * D + 0) * (102 / 100 * / D)) with (102 / 100 * j * Q) in * by (unfold Q; field; lra).
    replace ((k * A + 0) * (102 / 100 * / D)) with (102 / 100 * k * Q) in * by (unfold Q; field; lra). lra. }
  assert (KJ : 102 / 100 * (k + j) * Q <= 1 / 2 * Q) by (apply Rmult_le_compat_r; lra).
  assert (M : Rabs (av / dv) <= 3 / 2 * Q). { replace (av / dv) with (Q + (av / dv - Q)) by ring. eapply Rle_trans; [apply Rabs_triang|]. rewrite (Rabs_pos_eq Q) by lra. lra. }
  destruct (div_rel a d Fa) as [F (e & t & He & Ht & Ev)]; [fold dv; lra|fold av dv; lra|]. fold av dv in Ev. split; [exact F|]. split; [exact PQ|]. rewrite Ev.
  replace (av / dv * (1 + e) + t - Q) with ((av / dv - Q) + av / dv * e + t) by ring. eapply Rle_trans; [apply Rabs_triang|]. eapply Rle_trans; [apply Rplus_le_compat_r, Rabs_triang|]. rewrite Rabs_mult.
  assert (Rabs (av / dv) * Rabs e <= 3 / 2 * Q * eps) by (apply Rmult_le_compat; auto using Rabs_pos; lra).
  assert (0 <= Q * eps) by (apply Rmult_le_pos; lra). assert (0 <= (k + j) * Q) by (apply Rmult_le_pos; lra). lra.
Qed.
Lemma ln_bounds x : 0 < x -> 1 - / x <= ln x <= x - 1.
Proof.
  assert (G : forall y, 0 < y -> ln y <= y - 1). { intros y Hy. pose proof (exp_ineq1_le (ln y)) as H. rewrite exp_ln in H by exact Hy. lra. }
  intros H. split; [|apply G, H]. pose proof (G (/ x) (Rinv_0_lt_compat _ H)) as I. rewrite ln_Rinv in I by exact H. lra.
Qed.
Lemma relc_power b B k e E j : relc b B k 0 -> relc e E j 0 -> 0 <= k <= 1 / 1000 -> 0 <= j <= 1 / 1000 -> 1 <= B <= 1000 -> ln B <= 7 -> 0 < E <= 10 -> E * (21 / 10 * k + 7 * j) <= 1 / 2 ->
  relc (m_pow m b e) (Rpower B E) (2 * (E * (21 / 10 * k + 7 * j)) + 4 * eps) 0.
Proof.
  intros (Fb & _ & Eb) (Fe & _ & Ee) Hk Hj HB HL HE HY. set (bv := B2R b) in *. set (ev := B2R e) in *. pose proof eps_pos. pose proof eta_eps.
  assert (KB : k * B <= 1 / 1000 * B) by (apply Rmult_le_compat_r; lra). assert (JE : j * E <= 1 / 1000 * E) by (apply Rmult_le_compat_r; lra).
  apply Rabs_le_inv in Eb as Eb'. apply Rabs_le_inv in Ee as Ee'.
  destruct Hm as (_ & _ & _ & _ & Hp & _). destruct (Hp b e Fb Fe) as [Fp Ep]; [fold bv; lra|fold ev; lra|fold ev; right; lra|]. fold bv ev in Ep.
  unfold ppow in Ep. destruct (Req_EM_T bv 0) as [E0|_]; [lra|].
  assert (L0 : 0 <= ln B) by (rewrite <- ln_1; destruct (Req_dec B 1) as [->|]; [lra|left; apply ln_increasing; lra]).
  assert (LD : Rabs (ln bv - ln B) <= 101 / 100 * k).
  { assert (LQ : ln bv - ln B = ln (bv / B)). { unfold Rdiv. rewrite ln_mult, ln_Rinv; [ring|lra|lra|apply Rinv_0_lt_compat; lra]. }
    rewrite LQ. set (q := bv / B). assert (QB : q * B = bv) by (unfold q; field; lra).
    assert (Q1 : 1 - k <= q <= 1 + k) by (split; apply (Rmult_le_reg_r B); lra). destruct (ln_bounds q ltac:(lra)) as [L U].
    assert (I : / q <= 1 + 101 / 100 * k). { apply (Rmult_le_reg_r q); [lra|]. rewrite Rinv_l by lra. assert ((1 + 101 / 100 * k) * (1 - k) <= (1 + 101 / 100 * k) * q) by (apply Rmult_le_compat_l; lra).
      assert (k * k <= 1 / 1000 * k) by (apply Rmult_le_compat_r; lra). lra. }
    apply Rabs_le. lra. }
  set (y := ev * ln bv - E * ln B).
  assert (Y : Rabs y <= E * (21 / 10 * k + 7 * j)).
  { unfold y. replace (ev * ln bv - E * ln B) with (ev * (ln bv - ln B) + (ev - E) * ln B) by ring. eapply Rle_trans; [apply Rabs_triang|]. rewrite !Rabs_mult, (Rabs_pos_eq ev), (Rabs_pos_eq (ln B)) by lra.
    assert (ev * Rabs (ln bv - ln B) <= 1001 / 1000 * E * (101 / 100 * k)) by (apply Rmult_le_compat; auto using Rabs_pos; lra).
    assert (Rabs (ev - E) * ln B <= (j * E + 0) * 7) by (apply Rmult_le_compat; auto using Rabs_pos; lra). assert (0 <= E * k) by (apply Rmult_le_pos; lra). lra. }
  set (P := Rpower B E). assert (P1 : 1 <= P). { unfold P. rewrite <- (Rpower_O B) by lra. apply Rle_Rpower; lra. }
  assert (X : Rpower bv ev = P * exp y) by (unfold P, Rpower, y; rewrite <- exp_plus; f_equal; ring).
  pose proof (exp_near y ltac:(lra)) as Z. set (K := E * (21 / 10 * k + 7 * j)) in *.
  assert (D : Rabs (Rpower bv ev - P) <= 2 * K * P).
  { rewrite X. replace (P * exp y - P) with (P * (exp y - 1)) by ring. rewrite Rabs_mult, (Rabs_pos_eq P) by lra. rewrite Rmult_comm. apply Rmult_le_compat_r; lra. }
  assert (KP : 2 * K * P <= 1 * P) by (apply Rmult_le_compat_r; lra).
  assert (A : Rabs (Rpower bv ev) <= 2 * P). { replace (Rpower bv ev) with (P + (Rpower bv ev - P)) by ring. eapply Rle_trans; [apply Rabs_triang|]. rewrite (Rabs_pos_eq P) by lra. lra. }
  split; [exact Fp|]. split; [lra|]. replace (B2R (m_pow m b e) - P) with ((B2R (m_pow m b e) - Rpower bv ev) + (Rpower bv ev - P)) by ring. eapply Rle_trans; [apply Rabs_triang|].
  assert (eps * Rabs (Rpower bv ev) <= eps * (2 * P)) by (apply Rmult_le_compat_l; lra). assert (eps * 1 <= eps * P) by (apply Rmult_le_compat_l; lra). lra.
Qed.
Lemma two_pow j : (j <= 31)%nat -> isfin (Z2f (2 ^ Z.of_nat j)) = true /\ B2R (Z2f (2 ^ Z.of_nat j)) = 2 ^ j /\ 1 <= 2 ^ j <= 2 ^ 31.
Proof.
  intros Hj. assert (H : (2 ^ Z.of_nat j <= 2 ^ 31)%Z) by (apply Z.pow_le_mono_r; lia). pose proof (Z.pow_pos_nonneg 2 (Z.of_nat j) ltac:(lia) ltac:(lia)).
  destruct (small_Z (2 ^ Z.of_nat j)) as [F E]; [lia|]. split; [exact F|]. split; [rewrite E; symmetry; apply pow_IZR|]. split; [apply pow_R1_Rle; lra|apply Rle_pow; [lra|exact Hj]].
Qed.
Lemma arg_exact v j : isfin v = true -> Rabs (B2R v) <= 100 -> (j <= 31)%nat ->
  isfin (fmul v (Z2f (2 ^ Z.of_nat j))) = true /\ B2R (fmul v (Z2f (2 ^ Z.of_nat j))) = B2R v * 2 ^ j /\ Rabs (B2R v * 2 ^ j) <= bpow radix2 50.
Proof.
  intros F B Hj. destruct (two_pow j Hj) as (F2 & E2 & P2).
  assert (A : Rabs (B2R v * 2 ^ j) <= bpow radix2 50).
  { rewrite Rabs_mult, (Rabs_pos_eq (2 ^ j)) by lra. apply Rle_trans with (100 * 2 ^ 31); [apply Rmult_le_compat; auto using Rabs_pos; lra|]. cbn. lra. }
  assert (G : rnd (B2R v * 2 ^ j) = B2R v * 2 ^ j).
  { unfold rnd. apply round_generic; [typeclasses eauto|]. replace (2 ^ j) with (bpow radix2 (Z.of_nat j)).
    - apply (mult_bpow_pos_exact_FLT radix2 (3 - 1024 - 53) 53); [apply generic_format_B2R|lia].
    - rewrite bpow_powerRZ, <- pow_powerRZ. reflexivity. }
  destruct (fmul_fin v (Z2f (2 ^ Z.of_nat j)) F F2) as [Fm Em].
  - rewrite E2, G. eapply Rle_lt_trans; [exact A|]. unfold big. apply bpow_lt. lia.
  - split; [exact Fm|]. split; [rewrite Em, E2; exact G|exact A].
Qed.
Lemma tooth v j : isfin v = true -> Rabs (B2R v) <= 100 -> (1 <= j <= 31)%nat ->
  relc (fdiv (fabs (fsub (fmul v (Z2f (2 ^ Z.of_nat j))) (m_round m (fmul v (Z2f (2 ^ Z.of_nat j)))))) (Z2f (2 ^ Z.of_nat j)))
       (Rabs (B2R v * 2 ^ j - IZR (pround (B2R v * 2 ^ j))) / 2 ^ j) (3 * eps) eta /\
  Rabs (B2R v * 2 ^ j - IZR (pround (B2R v * 2 ^ j))) / 2 ^ j <= 1 / 4.
Proof.
  intros F B Hj. destruct (two_pow j ltac:(lia)) as (F2 & E2 & P2). destruct (arg_exact v j F B ltac:(lia)) as (Fa & Ea & Ba). set (a := fmul v (Z2f (2 ^ Z.of_nat j))) in *. set (A := B2R v * 2 ^ j) in *.
  destruct Hm as (_ & _ & _ & _ & _ & Hr). destruct (Hr a Fa ltac:(rewrite Ea; exact Ba)) as [Fr Er]. rewrite Ea in Er. fold (pround A) in Er.
  assert (H : Rabs (A - IZR (pround A)) <= / 2) by apply Znearest_half. pose proof eps_pos. pose proof eps_small. pose proof eta_pos. pose proof eta_tiny. pose proof large_1.
  assert (J2 : 2 <= 2 ^ j). { replace 2 with (2 ^ 1) at 1 by ring. apply Rle_pow; [lra|lia]. } pose proof cap_huge.
  destruct (sub_rel a (m_round m a) Fa Fr) as [Fs (e & He & Es)]; [rewrite Ea, Er; unfold cap in *; lra|]. rewrite Ea, Er in Es. set (D := A - IZR (pround A)) in *.
  assert (S : relc (fabs (fsub a (m_round m a))) (Rabs D) eps 0).
  { split; [unfold fabs, isfin; rewrite is_finite_Babs; exact Fs|]. split; [apply Rabs_pos|]. unfold fabs. rewrite B2R_Babs. eapply Rle_trans; [apply Rabs_triang_inv2|].
    unfold f64 in Es. rewrite Es. replace (D * (1 + e) - D) with (D * e) by ring. rewrite Rabs_mult. rewrite Rmult_comm. assert (Rabs e * Rabs D <= eps * Rabs D) by (apply Rmult_le_compat_r; [apply Rabs_pos|lra]). lra. }
  split.
  - eapply relc_weak; [apply (relc_div _ _ eps 0 _ (2 ^ j) ltac:(lra) ltac:(lra) S F2 E2); lra|lra|lra].
  - apply (Rmult_le_reg_r (2 ^ j)); [lra|]. unfold Rdiv. rewrite Rmult_assoc, Rinv_l by lra. lra.
Qed.
Lemma saw v : isfin v = true -> Rabs (B2R v) <= 100 ->
  let S2 := add_up 0 (fun j => Rabs (B2R v * 2 ^ j - IZR (pround (B2R v * 2 ^ j))) / 2 ^ j) (range 1 32) in
  relc (addf fzero (fun j => fdiv (fabs (fsub (fmul v (Z2f (2 ^ Z.of_nat j))) (m_round m (fmul v (Z2f (2 ^ Z.of_nat j)))))) (Z2f (2 ^ Z.of_nat j))) (span 1 32)) S2 (131 * eps) (64 * eta) /\ S2 <= 31 / 4.
Proof.
  intros F B S2. pose proof eps_pos. pose proof eps_small. pose proof eta_pos. pose proof eta_tiny.
  assert (LG : 1000000 <= large). { apply Rle_trans with (bpow radix2 20); [cbn; lra|]. unfold large. apply bpow_le. lia. }
  assert (BS : S2 <= 31 / 4).
  { unfold S2. eapply Rle_trans; [apply (add_up_le _ _ _ 0 (1 / 4) 31); [lra| |lra|rewrite range_length; lia]|].
    - intros j Hj. apply in_range in Hj. apply (tooth v j F B). lia.
    - replace (INR 31) with 31 by (cbn; lra). lra. }
  split; [|exact BS]. assert (R : relc (addf fzero (fun j => fdiv (fabs (fsub (fmul v (Z2f (2 ^ Z.of_nat j))) (m_round m (fmul v (Z2f (2 ^ Z.of_nat j)))))) (Z2f (2 ^ Z.of_nat j))) (span 1 32)) S2
     (3 * eps + 4 * INR (S (List.length (span 1 32))) * eps) (2 * INR (S (List.length (span 1 32))) * eta)).
  { apply addf_rel; try lra.
    - cbn. lia.
    - eapply relc_weak; [apply relc_exact; [reflexivity|reflexivity|lra]|lra|lra].
    - intros j Hj. apply span_lt in Hj. apply (tooth v j F B). lia.
    - change (S2 <= large). lra. }
  replace (INR (S (List.length (span 1 32)))) with 32 in R by (cbn; lra). eapply relc_weak; [exact R|lra|lra].
Qed.
Lemma ln_seven B : 1 <= B <= 1000 -> 0 <= ln B <= 7.
Proof.
  intros H. split; [rewrite <- ln_1; destruct (Req_dec B 1) as [->|]; [lra|left; apply ln_increasing; lra]|].
  apply Rnot_lt_le. intros L. apply exp_increasing in L. rewrite exp_ln in L by lra.
  assert (E : exp 7 = exp 1 ^ 7). { rewrite <- Rpower_pow by apply exp_pos. unfold Rpower. rewrite ln_exp. f_equal. cbn. lra. }
  pose proof E_fine as [L1 _]. assert ((27 / 10) ^ 7 <= exp 1 ^ 7) by (apply pow_incr; lra). lra.
Qed.
Lemma exp_seventy : exp 70 * 2 ^ 30 <= large.
Proof.
  assert (E : exp 70 = exp 1 ^ 70). { rewrite <- Rpower_pow by apply exp_pos. unfold Rpower. rewrite ln_exp. f_equal. rewrite INR_IZR_INZ. cbn. lra. }
  pose proof E_fine as [_ U]. pose proof (exp_pos 1). assert (H1 : exp 1 ^ 70 <= 4 ^ 70) by (apply pow_incr; lra).
  apply Rle_trans with (bpow radix2 140 * bpow radix2 30).
  - apply Rmult_le_compat; [left; apply exp_pos|apply pow_le; lra| |cbn; lra]. rewrite E. eapply Rle_trans; [exact H1|]. right. change 4 with (IZR 4). rewrite pow_IZR. reflexivity.
  - rewrite <- bpow_plus. unfold large. apply bpow_le. lia.
Qed.
Lemma product_rel (g : nat -> f64) (G : nat -> R) kap L : 0 <= kap <= 1 / 4 -> 0 <= L -> forall l, (forall i, In i l -> relc (g i) (G i) kap 0 /\ 1 <= G i <= exp L) ->
  forall a A k s, relc a A k 0 -> 1 <= A <= exp s -> 0 <= k -> k + INR (List.length l) * (5 / 4 * kap + 3 * eps) <= 1 / 4 -> s + INR (List.length l) * L <= 70 ->
  relc (fold_left (fun r i => fmul r (g i)) l a) (fold_left (fun r i => r * G i) l A) (k + INR (List.length l) * (5 / 4 * kap + 3 * eps)) 0 /\
  1 <= fold_left (fun r i => r * G i) l A <= exp 70.
Proof.
  intros Hkap HL. pose proof eps_pos. pose proof eta_pos. pose proof eta_eps. pose proof exp_seventy as XS. pose proof (exp_pos 70). pose proof eta_tiny.
  induction l as [|i l IH]; intros H' a A k s Ha HA Hk Hb Hs; cbn [fold_left].
  - split; [eapply relc_weak; [exact Ha|cbn; lra|lra]|]. cbn in Hs. split; [apply HA|]. eapply Rle_trans; [apply HA|]. apply exp_le_mono. lra.
  - destruct (H' i (or_introl eq_refl)) as [R B]. cbn [List.length] in *. rewrite S_INR in *. assert (Pl : 0 <= INR (List.length l)) by apply pos_INR.
    assert (0 <= INR (List.length l) * (5 / 4 * kap + 3 * eps)) by (apply Rmult_le_pos; lra). assert (0 <= INR (List.length l) * L) by (apply Rmult_le_pos; lra).
    assert (AB : A * G i <= exp (s + L)). { rewrite exp_plus. apply Rmult_le_compat; lra. }
    assert (A1 : 1 * 1 <= A * G i) by (apply Rmult_le_compat; lra).
    assert (X70 : exp (s + L) <= exp 70) by (apply exp_le_mono; lra).
    pose proof (relc_mul a A k (g i) (G i) kap 0 ltac:(lra) Hkap ltac:(lra) Ha R ltac:(lra) ltac:(lra)) as M.
    assert (KK : k * kap <= 1 / 4 * kap) by (apply Rmult_le_compat_r; lra).
    assert (M' : relc (fmul a (g i)) (A * G i) (k + (5 / 4 * kap + 3 * eps)) 0).
    { destruct M as (F & P & E). split; [exact F|]. split; [exact P|]. assert (eps * 1 <= eps * (A * G i)) by (apply Rmult_le_compat_l; lra).
      assert ((k + kap + k * kap + 2 * eps) * (A * G i) <= (k + 5 / 4 * kap + 2 * eps) * (A * G i)) by (apply Rmult_le_compat_r; lra). lra. }
    destruct (IH (fun j Hj => H' j (or_intror Hj)) _ _ _ (s + L) M' ltac:(lra) ltac:(lra) ltac:(lra) ltac:(lra)) as [R1 R2].
    split; [|exact R2]. eapply relc_weak; [exact R1|lra|lra].
Qed.
Lemma absorb w r k t : relc w r k t -> 1 / 2 ^ 20 <= r -> t <= eta -> relc w r (k + eps) 0.
Proof.
  intros (F & P & E) Hr Ht. split; [exact F|]. split; [exact P|]. pose proof eta_much. pose proof eps_pos. assert (eps * (1 / 2 ^ 20) <= eps * r) by (apply Rmult_le_compat_l; lra). lra.
Qed.
Lemma fold_ext (F G : nat -> R) l : (forall i, F i = G i) -> forall z, fold_left (fun r i => r * F i) l z = fold_left (fun r i => r * G i) l z.
Proof. intros H. induction l as [|i l IH]; intros z; [reflexivity|]. cbn [fold_left]. rewrite IH, H. reflexivity. Qed.
Lemma katsuura_near d x : (1 <= d <= 100)%nat -> inside d 100 x ->
  computes (katsuura_f m d x) (katsuura d (map B2R x)) (28000 * eps) (28000 * (10 / INR d ^ 2) * eps).
Proof.
  intros Hd Hx. unfold katsuura_f, katsuura. rewrite reads_F, reads_R by apply Hx. destruct Hx as [Hl Hx].
  destruct (find _ _) as [v|] eqn:Fd.
  { apply find_some in Fd as [Hi Hv]. apply in_flat_map in Hi as (i & Hi & Hj). apply in_map_iff in Hj as (j & <- & Hj). apply span_lt in Hi, Hj.
    destruct (Hx (i - 1)%nat ltac:(lia)) as [Fi Bi]. destruct (arg_exact (getf (i - 1) x) j Fi Bi ltac:(lia)) as [Fa _]. rewrite Fa in Hv. discriminate Hv. }
  clear Fd. pose proof eps_pos. pose proof eps_small. pose proof eps_sq. pose proof eta_pos. pose proof eta_tiny. pose proof eta_eps. pose proof eta_much.
  assert (LG : 1000000 <= large). { apply Rle_trans with (bpow radix2 20); [cbn; lra|]. unfold large. apply bpow_le. lia. }
  pose proof (INR_100 d ltac:(lia)) as N. assert (N1 : 1 <= INR d) by (apply (le_INR 1); lia). destruct (len_exact d ltac:(unfold few; lia)) as [Ed Fd]. fold (nat_f d) in Ed, Fd.
  (* the exponent *)
  destruct (small_Z 10 ltac:(lia)) as [F10 E10]. destruct (small_Z 12 ltac:(lia)) as [F12 E12].
  pose proof (relc_div _ _ 0 0 (Z2f 10) 10 ltac:(lra) ltac:(lra) (relc_exact _ _ F12 E12 ltac:(lra)) F10 E10 ltac:(lra) ltac:(lra)) as X0.
  apply absorb in X0; [|lra|lra].
  pose proof (ln_seven (INR d) ltac:(lra)) as LD.
  pose proof (relc_power (nat_f d) (INR d) 0 _ _ _ (relc_exact _ _ Fd Ed ltac:(lra)) X0 ltac:(lra) ltac:(lra) ltac:(lra) ltac:(lra) ltac:(lra) ltac:(lra)) as PW.
  set (P := Rpower (INR d) (12 / 10)) in *.
  assert (PL : INR d <= P). { unfold P. rewrite <- (Rpower_1 (INR d)) at 1 by lra. apply Rle_Rpower; lra. }
  assert (NN : 1 <= INR d * INR d <= 100 * 100). { split; [rewrite <- (Rmult_1_l 1); apply Rmult_le_compat; lra|apply Rmult_le_compat; lra]. }
  assert (PU : P <= 10000). { apply Rle_trans with (Rpower (INR d) 2); [apply Rle_Rpower; lra|]. replace 2 with (INR 2) by (cbn; lra). rewrite Rpower_pow by lra. replace (INR d ^ 2) with (INR d * INR d) by ring. lra. }
  pose proof (fun G => relc_quot (Z2f 10) 10 0 (m_pow m (nat_f d) (fdiv (Z2f 12) (Z2f 10))) P (55 * eps) ltac:(lra) ltac:(lra) (relc_exact _ _ F10 E10 ltac:(lra)) G ltac:(lra) ltac:(lra)) as X1.
  specialize (X1 ltac:(eapply relc_weak; [exact PW|lra|lra])).
  set (E := 10 / P) in *. assert (EP : E * P = 10) by (unfold E; field; lra).
  assert (EB : 1 / 1000 <= E <= 10). { split; apply (Rmult_le_reg_r P); lra. }
  assert (ED : INR d * E <= 10). { apply (Rmult_le_reg_r P); [lra|]. rewrite Rmult_assoc, EP. lra. }
  apply absorb in X1; [|lra|lra].
  pose proof (fun G1 G2 => relc_weak _ _ _ _ (113 * eps) 0 X1 G1 G2) as X1'. specialize (X1' ltac:(lra) ltac:(lra)). clear X1.
  set (ef := fdiv (Z2f 10) (m_pow m (nat_f d) (fdiv (Z2f 12) (Z2f 10)))) in *.
  (* the factors *)
  set (saws := fun i => add_up 0 (fun j => Rabs (B2R (getf (i - 1) x) * 2 ^ j - IZR (pround (B2R (getf (i - 1) x) * 2 ^ j))) / 2 ^ j) (range 1 32)).
  assert (EE : E * eps <= 10 * eps) by (apply Rmult_le_compat_r; lra). assert (E0 : 0 <= E * eps) by (apply Rmult_le_pos; lra).
  set (kap := (2160 * E + 4) * eps).
  assert (FA : forall i, In i (span 1 (d + 1)) ->
     relc (m_pow m (fadd fone (fmul (nat_f i) (addf fzero (fun j => fdiv (fabs (fsub (fmul (getf (i - 1) x) (Z2f (2 ^ Z.of_nat j))) (m_round m (fmul (getf (i - 1) x) (Z2f (2 ^ Z.of_nat j)))))) (Z2f (2 ^ Z.of_nat j))) (span 1 32)))) ef)
          (ppow (1 + INR i * saws i) E) kap 0 /\ 1 <= ppow (1 + INR i * saws i) E <= exp (7 * E)).
  { intros i Hi. apply span_lt in Hi. destruct (Hx (i - 1)%nat ltac:(lia)) as [Fi Bi]. destruct (saw _ Fi Bi) as [SW SB]. fold (saws i) in SW, SB.
    set (wf := addf fzero _ (span 1 32)) in *. assert (S0 : 0 <= saws i) by apply SW.
    pose proof (INR_100 i ltac:(lia)) as Ni. destruct (len_exact i ltac:(unfold few; lia)) as [Ei Fni]. fold (nat_f i) in Ei, Fni.
    assert (IS : 0 <= INR i * saws i <= 100 * (31 / 4)) by (split; [apply Rmult_le_pos; lra|apply Rmult_le_compat; lra]).
    assert (IT : INR i * (64 * eta) <= 100 * (64 * eta)) by (apply Rmult_le_compat_r; lra).
    pose proof (relc_mul (nat_f i) (INR i) 0 wf (saws i) (131 * eps) (64 * eta) ltac:(lra) ltac:(lra) ltac:(lra) (relc_exact _ _ Fni Ei ltac:(lra)) SW ltac:(lra) ltac:(lra)) as M.
    pose proof (fun G1 G2 => relc_weak _ _ _ _ (133 * eps) (13000 * eta) M G1 G2) as M'. specialize (M' ltac:(lra) ltac:(lra)).
    pose proof (fun G => relc_add fone 1 (133 * eps) 0 (fmul (nat_f i) wf) (INR i * saws i) (13000 * eta) ltac:(lra) ltac:(lra) ltac:(lra) G M' ltac:(lra) ltac:(lra)) as BS.
    specialize (BS ltac:(eapply relc_weak; [apply relc_exact; [exact fone_fin|exact fone_R|lra]|lra|lra])).
    set (B := 1 + INR i * saws i) in *. assert (PB : 1 <= B <= 1000) by (unfold B; lra).
    assert (BS' : relc (fadd fone (fmul (nat_f i) wf)) B (136 * eps) 0).
    { destruct BS as (Fb & Pb & Eb). split; [exact Fb|]. split; [exact Pb|]. assert (eps * 1 <= eps * B) by (apply Rmult_le_compat_l; lra). lra. }
    pose proof (ln_seven B PB) as LB.
    assert (PP : ppow B E = Rpower B E) by (unfold ppow; destruct (Req_EM_T B 0) as [E'|_]; [lra|reflexivity]). rewrite PP.
    pose proof (relc_power _ B _ _ E _ BS' X1' ltac:(lra) ltac:(lra) PB ltac:(lra) ltac:(lra) ltac:(lra)) as R.
    split; [eapply relc_weak; [exact R|unfold kap; lra|lra]|]. split.
    - rewrite <- (Rpower_O B) by lra. apply Rle_Rpower; lra.
    - unfold Rpower. apply exp_le_mono. rewrite Rmult_comm. apply Rmult_le_compat_r; lra. }
  assert (SL : List.length (span 1 (d + 1)) = d) by (unfold span; rewrite seq_length; lia).
  assert (NK : INR d * kap <= 21600 * eps + 400 * eps). { unfold kap. replace (INR d * ((2160 * E + 4) * eps)) with (2160 * eps * (INR d * E) + 4 * eps * INR d) by ring.
    assert (2160 * eps * (INR d * E) <= 2160 * eps * 10) by (apply Rmult_le_compat_l; lra). assert (4 * eps * INR d <= 4 * eps * 100) by (apply Rmult_le_compat_l; lra). lra. }
  assert (NE : INR d * eps <= 100 * eps) by (apply Rmult_le_compat_r; lra).
  assert (K0 : 0 <= kap <= 1 / 4) by (unfold kap; lra).
  destruct (product_rel _ _ kap (7 * E) K0 ltac:(lra) (span 1 (d + 1)) FA fone 1 0 0) as [PR PB].
  { apply relc_exact; [exact fone_fin|exact fone_R|lra]. }
  { rewrite exp_0. lra. }
  { lra. }
  { rewrite SL. lra. }
  { rewrite SL. lra. }
  rewrite SL in PR.
  match goal with |- computes _ (Ok (?a * _ - _)) _ _ => assert (AX : a = fold_left (fun r i => r * ppow (1 + INR i * saws i) E) (span 1 (d + 1)) 1) end.
  { apply fold_ext. intros i. f_equal. f_equal. f_equal. unfold saws. apply add_up_ext; [reflexivity|]. intros j _. rewrite get_B2R. reflexivity. }
  rewrite AX. clear AX. match type of PR with relc ?b ?a _ _ => set (AF := b) in *; set (AR := a) in * end.
  pose proof (fun G1 G2 => relc_weak _ _ _ _ (27800 * eps) 0 PR G1 G2) as PR'. specialize (PR' ltac:(lra) ltac:(lra)). clear PR.
  (* the end *)
  assert (DD : few (d * d)) by (unfold few; nia). destruct (len_exact (d * d) DD) as [Edd Fdd]. fold (nat_f (d * d)) in Edd, Fdd. rewrite mult_INR in Edd.
  replace (INR d ^ 2) with (INR d * INR d) by ring.
  pose proof (relc_div _ _ 0 0 (nat_f (d * d)) (INR d * INR d) ltac:(lra) ltac:(lra) (relc_exact _ _ F10 E10 ltac:(lra)) Fdd Edd ltac:(lra) ltac:(lra)) as Q.
  set (q := 10 / (INR d * INR d)) in *. assert (QD : q * (INR d * INR d) = 10) by (unfold q; field; lra). assert (QB : 1 / 1000 <= q <= 10) by (split; apply (Rmult_le_reg_r (INR d * INR d)); lra).
  apply absorb in Q; [|lra|lra]. pose proof (fun G1 G2 => relc_weak _ _ _ _ (3 * eps) 0 Q G1 G2) as Q'. specialize (Q' ltac:(lra) ltac:(lra)). set (qf := fdiv (Z2f 10) (nat_f (d * d))) in *.
  pose proof exp_seventy as XS. assert (AQ : 1 * q <= AR * q <= exp 70 * 10) by (split; [apply Rmult_le_compat_r|apply Rmult_le_compat]; lra).
  pose proof (relc_mul AF AR (27800 * eps) qf q (3 * eps) 0 ltac:(lra) ltac:(lra) ltac:(lra) PR' Q' ltac:(lra) ltac:(lra)) as M. apply absorb in M; [|lra|lra].
  pose proof (fun G1 G2 => relc_weak _ _ _ _ (27810 * eps) 0 M G1 G2) as M'. specialize (M' ltac:(lra) ltac:(lra)). clear M.
  destruct M' as (FM & _ & EM). destruct Q' as (FQ & _ & EQ). set (Z := AR * q) in *. pose proof huge_large.
  assert (ZE : 0 <= eps * q <= eps * Z) by (split; [apply Rmult_le_pos|apply Rmult_le_compat_l]; lra). assert (ZE' : eps * Z <= / 2 ^ 20 * Z) by (apply Rmult_le_compat_r; lra).
  destruct (sub_near (fmul AF qf) qf Z q _ _ (3 * Z) FM FQ EM EQ) as [FS ES].
  { rewrite !Rabs_pos_eq by lra. lra. }
  { lra. }
  exists (fsub (fmul AF qf) qf), (Z - q). split; [reflexivity|]. split; [exact FS|]. split; [reflexivity|]. rewrite (Rabs_pos_eq (Z - q)) by lra. eapply Rle_trans; [exact ES|].
  assert (u * (3 * Z) <= eps * (3 * Z)) by (apply Rmult_le_compat_r; lra). lra.
Qed.
End Eps.

(* ---------------- a library as accurate as possible ---------------- *)
Definition of_real (x : R) : f64 :=
  binary_normalize 53 1024 eq_refl eq_refl mode_NE (ZnearestE (scaled_mantissa radix2 (SpecFloat.fexp 53 1024) x)) (cexp radix2 (SpecFloat.fexp 53 1024) x) false.
Lemma of_real_R x : Rabs x <= huge -> isfin (of_real x) = true /\ B2R (of_real x) = rnd x.
Proof.
  intros H. pose proof (binary_normalize_correct 53 1024 eq_refl eq_refl mode_NE (ZnearestE (scaled_mantissa radix2 (SpecFloat.fexp 53 1024) x)) (cexp radix2 (SpecFloat.fexp 53 1024) x) false) as C.
  assert (E : F2R {| Fnum := ZnearestE (scaled_mantissa radix2 (SpecFloat.fexp 53 1024) x); Fexp := cexp radix2 (SpecFloat.fexp 53 1024) x |} = rnd x) by reflexivity.
  rewrite E in C. cbn [round_mode] in C.
  assert (G : round radix2 (SpecFloat.fexp 53 1024) ZnearestE (rnd x) = rnd x).
  { apply round_generic; [typeclasses eauto|]. unfold rnd. apply generic_format_round; typeclasses eauto. }
  rewrite G in C. rewrite Rlt_bool_true in C by (apply rnd_huge; exact H). destruct C as (C1 & C2 & _). split; [exact C2|exact C1].
Qed.
Lemma of_real_close eps x : u <= eps -> Rabs x <= huge -> close eps (of_real x) x.
Proof.
  intros He H. destruct (of_real_R x H) as [F E]. split; [exact F|]. rewrite E. destruct (rnd_rel x) as (e & t & Hu & Ht & ->).
  replace (x * (1 + e) + t - x) with (x * e + t) by ring. eapply Rle_trans; [apply Rabs_triang|]. rewrite Rabs_mult.
  assert (Rabs x * Rabs e <= Rabs x * eps) by (apply Rmult_le_compat_l; [apply Rabs_pos|lra]). lra.
Qed.
Definition ideal : libm := {|
  m_sq v := fmul v v; m_pow b e := of_real (ppow (B2R b) (B2R e)); m_cos v := of_real (cos (B2R v)); m_sin v := of_real (sin (B2R v));
  m_exp v := of_real (exp (B2R v)); m_round v := Z2f (ZnearestE (B2R v)) |}.
Lemma ideal_accurate : accurate u ideal.
Proof.
  assert (H1 : 1 <= huge) by (unfold huge; change 1 with (bpow radix2 0); apply bpow_le; lia).
  split; [|split; [|split; [|split; [|split]]]]; cbn [ideal m_sq m_pow m_cos m_sin m_exp m_round].
  - intros v F B. split; [|apply square_nonneg].
    assert (S : Rabs (B2R v * B2R v) <= huge).
    { rewrite Rabs_mult. apply Rle_trans with (bpow radix2 400 * bpow radix2 400); [apply Rmult_le_compat; auto using Rabs_pos|]. rewrite <- bpow_plus. unfold huge. apply bpow_le. lia. }
    destruct (mul_rel v v F F S) as [Fm (e & t & He & Ht & E)]. split; [exact Fm|]. rewrite E. replace (B2R v ^ 2) with (B2R v * B2R v) by ring. set (s := B2R v * B2R v) in *.
    replace (s * (1 + e) + t - s) with (s * e + t) by ring. eapply Rle_trans; [apply Rabs_triang|]. rewrite Rabs_mult.
    assert (Rabs s * Rabs e <= Rabs s * u) by (apply Rmult_le_compat_l; [apply Rabs_pos|lra]). lra.
  - intros v _. apply of_real_close; [lra|]. pose proof (COS_bound (B2R v)). apply Rle_trans with 1; [apply Rabs_le; lra|exact H1].
  - intros v _. apply of_real_close; [lra|]. pose proof (SIN_bound (B2R v)). apply Rle_trans with 1; [apply Rabs_le; lra|exact H1].
  - intros v _ B. apply of_real_close; [lra|]. rewrite Rabs_pos_eq by (left; apply exp_pos). apply Rabs_le_inv in B.
    apply Rle_trans with (exp 100); [apply exp_le_mono; lra|].
    assert (E : exp 100 = exp 1 ^ 100). { rewrite <- Rpower_pow by apply exp_pos. unfold Rpower. rewrite ln_exp. f_equal. rewrite INR_IZR_INZ. cbn. lra. }
    rewrite E. pose proof E_fine as [_ U]. pose proof (exp_pos 1). apply Rle_trans with (4 ^ 100); [apply pow_incr; lra|]. apply Rle_trans with (bpow radix2 200); [|unfold huge; apply bpow_le; lia].
    right. change 4 with (IZR 4). rewrite pow_IZR. reflexivity.
  - intros b e _ _ Hb He _. apply of_real_close; [lra|]. rewrite Rabs_pos_eq by apply ppow_nonneg. unfold ppow. destruct (Req_EM_T (B2R b) 0) as [E|N]; [lra|].
    destruct (Rle_dec 1 (B2R b)) as [L|L].
    + apply Rle_trans with (Rpower (B2R b) (INR 20)); [apply Rle_Rpower; [exact L|cbn; lra]|]. rewrite Rpower_pow by lra. apply Rle_trans with ((bpow radix2 50) ^ 20).
      * apply pow_incr. split; [lra|]. apply Rle_trans with (10 ^ 15); [lra|cbn; lra].
      * apply Rle_trans with (bpow radix2 1000); [|unfold huge; apply bpow_le; lia]. right. cbn [pow]. rewrite Rmult_1_r, <- !bpow_plus. reflexivity.
    + apply Rle_trans with 1; [|exact H1]. unfold Rpower. rewrite <- exp_0. apply exp_le_mono. assert (ln (B2R b) < 0) by (rewrite <- ln_1; apply ln_increasing; lra). nra.
  - intros v _ B. destruct (small_Z (ZnearestE (B2R v))) as [F E]; [|split; assumption].
    pose proof (Znearest_half (fun x => negb (Z.even x)) (B2R v)) as Hh. apply Rabs_le_inv in B, Hh. assert (B50 : bpow radix2 50 = IZR (2 ^ 50)) by reflexivity. rewrite B50 in B.
    assert (- IZR (2 ^ 50) - 1 < IZR (ZnearestE (B2R v)) < IZR (2 ^ 50) + 1) as [L U] by lra.
    rewrite <- opp_IZR, <- minus_IZR in L. rewrite <- plus_IZR in U. apply lt_IZR in L, U. lia.
Qed.

Lemma near_squares (eps : R) (m : libm) (d : nat) (x : list f64) : u <= eps -> eps <= / 2 ^ 20 -> accurate eps m -> (1 <= d <= 100)%nat -> inside d wide x ->
  computes (bent_cigar_f m d x) (bent_cigar d (map B2R x)) ((4 * INR d + 5) * eps) speck /\
  computes (discus_f m d x) (discus d (map B2R x)) ((4 * INR d + 3) * eps) speck /\
  computes (griewank_f m d x) (griewank d (map B2R x)) ((4 * INR d + 7) * eps) speck /\
  (length x = d -> (2 <= d)%nat -> computes (elliptic_f m x) (elliptic (map B2R x)) ((4 * INR d + 68) * eps) speck).
Proof.
  intros Hu He Hm Hd Hx. split; [apply bent_near; assumption|]. split; [apply discus_near; assumption|]. split; [apply griewank_near; assumption|].
  intros <- H2. apply elliptic_near; try assumption. lia.
Qed.
Lemma near_box (eps : R) (m : libm) (d : nat) (x : list f64) : u <= eps -> eps <= / 2 ^ 20 -> accurate eps m -> (1 <= d <= 100)%nat -> inside d 100 x ->
  computes (rosenbrock_f m d x) (rosenbrock d (map B2R x)) 0 (INR d * (93000000000 + 21000000000 * INR d) * eps) /\
  computes (ackley_f m d x) (ackley d (map B2R x)) 0 ((15000 + 1700 * INR d) * eps) /\
  (length x = d -> computes (Ok (rastrigin_f m x)) (Ok (rastrigin (map B2R x))) 0 (INR d * (72000 + 21000 * INR d) * eps)) /\
  computes (expanded_scaffer_f m d x) (expanded_scaffer d (map B2R x)) 0 (INR d * (1520 + 5 * INR d) * eps) /\
  computes (katsuura_f m d x) (katsuura d (map B2R x)) (28000 * eps) (28000 * (10 / INR d ^ 2) * eps).
Proof.
  intros Hu He Hm Hd Hx. split; [apply rosenbrock_near; try assumption; lia|]. split; [apply ackley_near; assumption|].
  split; [intros <-; apply rastrigin_near; try assumption; lia|]. split; [apply expanded_near; assumption|apply katsuura_near; assumption].
Qed.
Lemma near_roots (eps : R) (m : libm) (d : nat) (x : list f64) : u <= eps -> eps <= / 2 ^ 20 -> accurate eps m -> (1 <= d <= 100)%nat -> inside d 100 x ->
  computes (happycat_f m d x) (happycat d (map B2R x)) 0 (sqrt (sqrt (INR d * (41000 + 21000 * INR d) * eps)) + (42000 + 11000 * INR d) * eps) /\
  computes (hgbat_f m d x) (hgbat d (map B2R x)) 0 (sqrt (INR d * INR d * (810000000 + 410000000 * INR d) * eps) + (110000 + 42000 * INR d) * eps).
Proof. intros Hu He Hm Hd Hx. split; [apply happycat_near; assumption|apply hgbat_near; assumption]. Qed.
(** Ten numbers of the box. *)
Definition ten : list f64 := [lit 199 (-1); lit 199 (-1); lit (-3) (-2); Z2f 0; Z2f (-100); Z2f 1; Z2f 2; lit 5 (-3); Z2f 77; Z2f (-1)].
